(** tlswrapper-tcp as a whole: descriptors, undefined behaviour, and what leads to the relay. *)
From Coq Require Import Permutation.
From Verif.Model Require Import Base Sys Io Str Buffer Inet Parsenum Fdio Relay Session Jail Pem Proxy Conninfo Conn Resolve Main Getopt Lookup Tcpmain.
From Verif.Spec Require Import Text Num Ip Proxy Program Descriptors Flow Restrict Process Endpoints Resolver Forward Attempt Blame.
From Verif.Proof Require Import Tac SysP BufferP ProxyP StrP StrallocP CallsP MainCallsP ChildP ResolveP ConnP ConnFailP ToldP ForwardP TcpJailP BlameP.
From Verif.Props Require Import PropJail PropConninfo PropProxy PropTcp PropResolve.

(** what is assumed of the answers: a kernel's, the helper's replies, and this is the original process *)
Definition tame (e : event) : Prop :=
  sys_ok e /\ sane e /\ dgram e /\ honest e /\ low e /\
  (calling (bs "fork") e = true -> ret (snd e) <> 0) /\ (fst e = Other (bs "getpid") [] [] -> 0 <= ret (snd e)).
Lemma tame_legal : forall t, Forall tame t -> legal t.
Proof. intros t F. unfold legal. eapply Forall_impl; [|exact F]. unfold tame. tauto. Qed.
Lemma tame_dgram : forall t, Forall tame t -> Forall dgram t.
Proof. intros t F. eapply Forall_impl; [|exact F]. unfold tame. tauto. Qed.
Lemma tame_honest : forall t, Forall tame t -> Forall honest t.
Proof. intros t F. eapply Forall_impl; [|exact F]. unfold tame. tauto. Qed.
Lemma tame_low : forall t, Forall tame t -> Forall low t.
Proof. intros t F. eapply Forall_impl; [|exact F]. unfold tame. tauto. Qed.
Lemma tame_pids : forall t, Forall tame t -> pids t.
Proof. intros t F a IN. rewrite Forall_forall in F. apply F in IN. apply IN. reflexivity. Qed.
Lemma h_weak : forall A (G G' : event -> Prop) L (p : prog A) Q, (forall e, G' e -> G e) -> hoare G L p Q -> hoare G' L p Q.
Proof. intros A G G' L p Q W H tr o L' R E F. apply (H tr o L' R E). eapply Forall_impl; [|exact F]. exact W. Qed.
Lemma h_inert : forall A (p : prog A) L, calls inert p -> (forall tr o, runs p tr o -> Forall tame tr -> o <> Wrong) -> hoare tame L p (fun L' _ _ => L' = L).
Proof.
  intros A p L C W tr o L' R E F. destruct (inert_run tr L (C _ _ R)) as [E' CL]. rewrite E' in E. injection E as <-. split; [eauto|]. split; auto.
Qed.

(** ** A whole run *)
Section Reach.
Variable S : trace -> outcome ending -> Prop.
Hypothesis Scut : forall t, Forall (fun e => wordless (fst e)) t -> S t Cut.
Definition reach (h : trace) (L : list Z) (p : prog ending) : Prop :=
  forall tr o L', runs p tr o -> fdrun L tr = Some L' -> Forall tame tr -> o <> Wrong /\ closes_open L tr /\ S (h ++ tr) o.
Lemma reach_ret : forall h L x, S h (Fin x) -> reach h L (Ret x).
Proof. intros h L x H tr o L' R E F. destruct R as [-> ->]. rewrite app_nil_r. split; [discriminate|]. split; [exact Logic.I|exact H]. Qed.
Lemma reach_bind : forall A (p : prog A) (f : A -> prog ending) h L Q, calls wordless p -> hoare tame L p Q -> Forall (fun e => wordless (fst e)) h ->
  (forall L1 t x, Q L1 t x -> runs p t (Fin x) -> Forall tame t -> fdrun L t = Some L1 -> Forall (fun e => wordless (fst e)) (h ++ t) -> reach (h ++ t) L1 (f x)) ->
  reach h L (pbind p f).
Proof.
  intros A p f h L Q C HP M HF tr o L' R E F. apply runs_bind in R as [(x & t1 & t2 & -> & R1 & R2)|[[R1 ->]|[R1 ->]]].
  - rewrite fdrun_app in E. destruct (fdrun L t1) as [L1|] eqn:E1; [|discriminate]. apply Forall_app in F as [F1 F2].
    destruct (HP _ _ _ R1 E1 F1) as (_ & C1 & Q1). specialize (Q1 x eq_refl).
    assert (M1 : Forall (fun e => wordless (fst e)) (h ++ t1)) by (apply Forall_app; split; [exact M|exact (C _ _ R1)]).
    destruct (HF L1 t1 x Q1 R1 F1 E1 M1 _ _ _ R2 E F2) as (W & C2 & Q2). rewrite app_assoc. split; auto. split; auto.
    apply closes_app; auto. intros L2 E2. rewrite E1 in E2. injection E2 as <-. exact C2.
  - destruct (HP _ _ _ R1 E F) as (W & _). congruence.
  - destruct (HP _ _ _ R1 E F) as (_ & C1 & _). split; [discriminate|]. split; [exact C1|]. apply Scut. apply Forall_app. split; [exact M|exact (C _ _ R1)].
Qed.
Lemma reach_lift : forall A (r : res A) x (f : A -> prog ending) h L, r = Ok x -> reach h L (f x) -> reach h L (pbind (lift r) f).
Proof. intros A r x f h L -> H. exact H. Qed.
End Reach.

(** ** The parts *)
Ltac quick := repeat (calls1 || (progress cbv zeta)); try exact Logic.I; try (repeat split; discriminate).
Lemma noread_got : forall f t, Forall (fun e => noread (fst e)) t -> got f t = [].
Proof. intros f t F. induction F as [|[c a] t H F IH]; [reflexivity|]. cbn [fst] in H. destruct c; try destruct H; cbn [got]; exact IH. Qed.
Lemma unread_got : forall f t, (forall n a, ~ In (Read f n, a) t) -> got f t = [].
Proof.
  intros f t. induction t as [|[c a] t IH]; intros H; [reflexivity|]. assert (X : got f t = []) by (apply IH; intros n x N; apply (H n x); right; exact N).
  destruct c; cbn [got]; auto. destruct (Z.eqb_spec fd f); auto. subst. destruct (H n a). left. reflexivity.
Qed.

(** *** bytes of the connection information *)
Definition whole (i : info) : Prop := addr6 (localip i) /\ is2 (localport i) /\ addr6 (remoteip i) /\ is2 (remoteport i).
Lemma zero_whole : whole zero_info.
Proof.
  assert (A : addr6 (repeat 0 16)) by (split; [reflexivity|]; unfold bytes; apply Forall_forall; intros x X; apply repeat_spec in X; subst; unfold is_byte; lia).
  assert (B : is2 (repeat 0 2)) by (exists 0, 0; split; [reflexivity|unfold is_byte; lia]). repeat split; try apply A; exact B.
Qed.
Lemma v4_bytes : forall q, bytes q -> bytes (0 :: 0 :: 0 :: 0 :: 0 :: 0 :: 0 :: 0 :: 0 :: 0 :: 255 :: 255 :: q).
Proof. intros q B. unfold bytes. repeat (constructor; [unfold is_byte; lia|]). exact B. Qed.
Lemma field_bytes : forall x k n, bytes (field x k n).
Proof. intros. unfold field, bytes. apply Forall_forall. intros y Y. apply in_map_iff in Y as (j & <- & _). unfold is_byte. pose proof (Z.mod_pos_bound (nth (S k + j) (data x) 0) 256). lia. Qed.
Lemma field_is2 : forall x k, is2 (field x k 2).
Proof. intros. pose proof (field_bytes x k 2) as B. unfold field in *. cbn [seq map] in *. inversion B as [|? ? B1 B2]; subst. inversion B2; subst. eexists _, _. split; [reflexivity|]. auto. Qed.
Lemma endpoint_whole : forall a s x p, socket_answer a = Some s -> endpoint s = Some (x, p) -> addr6 x /\ is2 p.
Proof.
  intros a s x p E1 E2. destruct (endpoint_len _ _ _ _ E1 E2) as [L1 L2]. unfold socket_answer in E1. destruct (_ =? _); [discriminate|]. injection E1 as <-. unfold endpoint in E2. cbn [family sin_addr sin_port sin6_addr sin6_port] in E2.
  destruct (nth 0 (data a) 0 =? AF_INET).
  - injection E2 as <- <-. split; [|apply field_is2]. split; [exact L1|]. apply v4_bytes, field_bytes.
  - destruct (nth 0 (data a) 0 =? AF_INET6); [|discriminate]. injection E2 as <- <-. split; [split; [exact L1|apply field_bytes]|apply field_is2].
Qed.
Section Info.
Variable I : inet.
Hypothesis OK : inet_ok I.
Lemma ip_text_whole : forall s a, ip_text I s a -> addr6 a.
Proof.
  intros s a [(q & E & ->)|(_ & E)]; [apply (ok_pton4_addr I OK) in E as [E B]; split; [cbn [app length]; congruence|apply v4_bytes; exact B]|apply (ok_pton6_addr I OK) in E; exact E].
Qed.
Lemma port_text_whole : forall s p, port_text s p -> is2 p.
Proof. intros s p (a & b & -> & A & B & _). exists a, b. auto. Qed.
Lemma fromenv_whole : forall e i b j, strings e -> whole i -> connectioninfo_fromenv I e i = Ok (b, j) -> whole j.
Proof.
  intros e i b j S (L1 & L2 & L3 & L4) E. unfold connectioninfo_fromenv in E.
  assert (N : forall n s, getenv e n = Some s -> nonul s) by (intros; eapply get_strings; eauto).
  destruct (ip_env I (getenv e (bs "TCPLOCALIP")) (N _)) as (r1 & E1 & H1). rewrite E1 in E. cbn [bind] in E. destruct r1 as [a|]; [|injection E as <- <-; repeat split; try assumption; apply L1 || apply L3]. destruct H1 as (s1 & _ & H1). apply ip_text_whole in H1.
  destruct (port_env (getenv e (bs "TCPLOCALPORT")) (N _)) as (r2 & E2 & H2). rewrite E2 in E. cbn [bind] in E. destruct r2 as [p|]; [|injection E as <- <-; split; [|split; [|split]]; assumption]. destruct H2 as (s2 & _ & H2). apply port_text_whole in H2.
  destruct (ip_env I (getenv e (bs "TCPREMOTEIP")) (N _)) as (r3 & E3 & H3). rewrite E3 in E. cbn [bind] in E. destruct r3 as [c|]; [|injection E as <- <-; split; [|split; [|split]]; assumption]. destruct H3 as (s3 & _ & H3). apply ip_text_whole in H3.
  destruct (port_env (getenv e (bs "TCPREMOTEPORT")) (N _)) as (r4 & E4 & H4). rewrite E4 in E. cbn [bind] in E. destruct r4 as [d|]; [|injection E as <- <-; split; [|split; [|split]]; assumption]. destruct H4 as (s4 & _ & H4). apply port_text_whole in H4.
  injection E as <- <-. split; [|split; [|split]]; assumption.
Qed.
Lemma connection_whole : forall env t o, strings env -> runs (connection I env) t o -> o <> Wrong /\ forall i, o = Fin i -> whole i.
Proof.
  intros env t o S R. unfold connection in R.
  assert (F : exists b j, connectioninfo_fromenv I env zero_info = Ok (b, j)) by (destruct (fromenv_ok I env zero_info S) as [(k & _ & E)|(k & _ & E)]; eauto).
  destruct F as (b & j & E). pose proof (fromenv_whole _ _ _ _ S zero_whole E) as W. rewrite E in R. cbn [lift pbind] in R. destruct W as (W1 & W2 & W3 & W4).
  destruct b; [destruct R as [-> ->]; split; [discriminate|]; intros i X; injection X as <-; split; [|split; [|split]]; assumption|].
  apply runs_bind in R as [(h & t1 & t2 & -> & R1 & R)|[[R1 ->]|[R1 ->]]].
  - apply socket_ok in R1 as (x & _ & ->). destruct (socket_answer x) as [s|] eqn:EX; [|destruct R as [-> ->]; split; [discriminate|]; intros i X; injection X as <-; split; [|split; [|split]]; assumption].
    destruct (endpoint s) as [[a p]|] eqn:EE; [|destruct R as [-> ->]; split; [discriminate|]; intros i X; injection X as <-; unfold connectioninfo_fromfd; rewrite EE; split; [|split; [|split]]; assumption].
    destruct (endpoint_whole _ _ _ _ EX EE) as [A1 A2].
    apply runs_bind in R as [(pe & t3 & t4 & -> & R1 & R)|[[R1 ->]|[R1 ->]]].
    + apply socket_ok in R1 as (y & _ & ->). destruct R as [-> ->]. split; [discriminate|]. intros i X. assert (EI : i = snd (connectioninfo_fromfd (Some s) (socket_answer y) j)) by congruence. rewrite EI. clear X EI.
      unfold connectioninfo_fromfd. rewrite EE. destruct (socket_answer y) as [s'|] eqn:EY; [|split; [|split; [|split]]; assumption].
      destruct (endpoint s') as [[c d]|] eqn:EE'; [|split; [|split; [|split]]; assumption]. destruct (endpoint_whole _ _ _ _ EY EE') as [B1 B2]. split; [|split; [|split]]; assumption.
    + exfalso. unfold socket_name in R1. destruct R1 as [[_ R1]|(z & u & -> & R1)]; [discriminate|]. cbn [pbind] in R1. destruct R1 as [_ R1]. discriminate.
    + split; discriminate.
  - exfalso. unfold socket_name in R1. destruct R1 as [[_ R1]|(z & u & -> & R1)]; [discriminate|]. cbn [pbind] in R1. destruct R1 as [_ R1]. discriminate.
  - split; discriminate.
Qed.
Lemma pp_whole : forall u e, pp_line I u e -> whole (mkinfo (lip e) (lport e) (rip e) (rport e)).
Proof.
  intros u e H. inversion H; subst; [exact zero_whole|].
  assert (A : forall v s a, (if (v : bool) then fam6 I s a else fam4 I s a) -> addr6 a).
  { intros [|] s a X; [apply (ok_pton6_addr I OK) in X; exact X|]. destruct X as (q & X & ->). apply (ok_pton4_addr I OK) in X as [X B]. split; [rewrite app_length, X; reflexivity|]. apply v4_bytes. exact B. }
  assert (B : forall s p, port2 s p -> is2 p) by (intros s p (_ & a & b & -> & P & Q & _); exists a, b; auto).
  unfold whole. cbn [lip lport rip rport localip localport remoteip remoteport]. split; [|split; [|split]]; eauto.
Qed.
End Info.

(** *** the addresses *)
(** [n] bytes of the buffer hold the addresses [cs] *)
Definition fits (ip : list Z) (n : Z) (cs : list (list Z)) : Prop :=
  length ip = 128%nat /\ n = 16 * len cs /\ Forall Resolver.addr cs /\ 1 <= len cs <= 8 /\ firstn (16 * length cs) ip = concat cs.
Lemma concat_len : forall cs, Forall Resolver.addr cs -> length (concat cs) = (16 * length cs)%nat.
Proof. intros cs F. induction F as [|c cs C F IH]; [reflexivity|]. cbn [concat length]. rewrite app_length, IH. unfold Resolver.addr in C. lia. Qed.
Lemma fits_addr : forall ip n cs k, fits ip n cs -> 16 * Z.of_nat k + 16 <= n -> In (ConnP.addr ip k) cs.
Proof.
  intros ip n cs k (L & -> & F & B & E) K. assert (KL : (k < length cs)%nat) by (unfold len in K; lia). clear B.
  revert ip L E k K KL. assert (G : forall cs, Forall Resolver.addr cs -> forall ip k, firstn (16 * length cs) ip = concat cs -> (k < length cs)%nat -> In (ConnP.addr ip k) cs); [|intros; eapply G; eauto].
  clear. intros cs F. induction F as [|c cs C F IH]; intros ip k E K; [cbn in K; lia|]. unfold Resolver.addr in C.
  assert (EI : ip = c ++ skipn 16 ip).
  { cbn [concat length] in E. assert (X : firstn 16 (firstn (16 * S (length cs)) ip) = firstn 16 (c ++ concat cs)) by (rewrite E; reflexivity).
    rewrite firstn_firstn, Nat.min_l in X by lia. rewrite firstn_app, C, Nat.sub_diag, firstn_O, app_nil_r, (firstn_all2 c) in X by lia. rewrite <- X at 1. symmetry. apply firstn_skipn. }
  destruct k as [|k].
  - left. unfold ConnP.addr. rewrite Nat.mul_0_r. change (skipn 0 ip) with ip. rewrite EI, firstn_app, C, Nat.sub_diag, firstn_O, app_nil_r. symmetry. apply firstn_all2. lia.
  - right. replace (ConnP.addr ip (S k)) with (ConnP.addr (skipn 16 ip) k).
    + apply IH; [|cbn [length] in K; lia]. cbn [concat length] in E. rewrite EI in E. replace (16 * S (length cs))%nat with (length c + 16 * length cs)%nat in E by lia. rewrite firstn_app_2 in E. apply app_inv_head in E. exact E.
    + unfold ConnP.addr. rewrite skipn_skipn. f_equal. f_equal. lia.
Qed.
Lemma fits_all : forall ip n cs, fits ip n cs -> cs = map (ConnP.addr ip) (seq 0 (Z.to_nat (Z.min n 128 / 16))).
Proof.
  intros ip n cs (L & -> & F & B & E). rewrite Z.min_l by lia. rewrite Z.mul_comm, Z.div_mul by lia. replace (Z.to_nat (len cs)) with (length cs) by (unfold len; lia).
  assert (G : forall cs, Forall Resolver.addr cs -> forall ip, firstn (16 * length cs) ip = concat cs -> map (ConnP.addr ip) (seq 0 (length cs)) = cs); [|symmetry; apply G; auto].
  clear. intros cs F. induction F as [|c cs C F IH]; intros ip E; [reflexivity|]. unfold Resolver.addr in C.
  assert (EI : ip = c ++ skipn 16 ip).
  { cbn [concat length] in E. assert (X : firstn 16 (firstn (16 * S (length cs)) ip) = firstn 16 (c ++ concat cs)) by (rewrite E; reflexivity).
    rewrite firstn_firstn, Nat.min_l in X by lia. rewrite firstn_app, C, Nat.sub_diag, firstn_O, app_nil_r, (firstn_all2 c) in X by lia. rewrite <- X at 1. symmetry. apply firstn_skipn. }
  cbn [length seq map]. f_equal.
  - unfold ConnP.addr. change (skipn (16 * 0) ip) with ip. rewrite EI, firstn_app, C, Nat.sub_diag, firstn_O, app_nil_r. apply firstn_all2. lia.
  - rewrite <- seq_shift, map_map. rewrite <- (IH (skipn 16 ip)) at 2.
    + apply map_ext. intros k. unfold ConnP.addr. replace (16 * S k)%nat with (16 + 16 * k)%nat by lia. rewrite skipn_skipn. reflexivity.
    + cbn [concat length] in E. replace (16 * S (length cs))%nat with (16 + 16 * length cs)%nat in E by lia. rewrite EI in E. rewrite firstn_app, C in E. rewrite (firstn_all2 c) in E by lia.
      replace (16 + 16 * length cs - 16)%nat with (16 * length cs)%nat in E by lia. apply app_inv_head in E. exact E.
Qed.
Lemma do_any : forall fd name rest tr o, nonul name -> Forall tame tr ->
  runs (resolvehost_do fd (Some (repeat 0 128)) 128 (Some (name ++ 0 :: rest))) tr o ->
  o <> Wrong /\ forall n ip, o = Fin (n, ip) -> n <= 0 \/ exists cs, fits ip n cs /\ answered gai_list false name tr cs.
Proof.
  intros fd name rest tr o N F R. pose proof R as R0. unfold resolvehost_do in R. change (128 <? 16) with false in R. cbv iota in R. rewrite namelen_ok in R by auto. cbn [lift pbind] in R.
  destruct (Z.ltb_spec 255 (len name)) as [I255|I255]; [destruct R as [-> ->]; split; [discriminate|]; intros n ip E; injection E as <- <-; left; lia|].
  assert (BAD : forall (t T : trace) (q : outcome (Z * list Z)), t = [] /\ q = Fin (-1, repeat 0 128) -> q <> Wrong /\ forall n ip, q = Fin (n, ip) -> n <= 0 \/ exists cs, fits ip n cs /\ answered gai_list false name T cs).
  { intros t T q [_ ->]. split; [discriminate|]. intros n ip E. injection E as <- <-. left. lia. }
  destruct (copyin (repeat 0 256) 0 (name ++ 0 :: rest) (len name)) as [buf| |] eqn:CB; cbn [lift pbind] in R.
  2: { destruct R as [-> ->]. exfalso. destruct (do_ok fd (repeat 0 128) 128 name rest [] Wrong) as [(_ & _ & X)|(_ & X & _)]; auto; try constructor; [change (len (repeat 0 128)) with 128; lia|discriminate]. }
  2: { destruct R as [_ ->]. split; discriminate. }
  destruct R as [[-> ->]|(s & t & -> & R)]; [split; discriminate|]. cbn [pbind] in R. destruct (Z.eqb_spec (ret s) 256) as [ES|ES]; cbn [negb] in R; [|eapply BAD; exact R].
  destruct R as [[-> ->]|(a & t1 & -> & R)]; [split; discriminate|]. cbn [pbind] in R. destruct (Z.leb_spec (ret a) 0) as [EA|EA]; [eapply BAD; exact R|].
  assert (T1 : t1 = []). { destruct (copyin buf 0 (data a) (ret a)) as [x| |]; cbn [lift pbind] in R; try (destruct R; auto; fail). destruct (ret a =? 1).
    - destruct (ld x 0) as [x0| |]; cbn [lift pbind] in R; try (destruct R; auto; fail). destruct (u8 x0 =? 255); destruct R; auto.
    - destruct (copyin (repeat 0 128) 0 (skipn 1 x) (if 128 <? ret a - 1 then 128 else ret a - 1)); cbn [lift pbind] in R; destruct R; auto. }
  subst t1. clear R. pose proof (tame_dgram _ F) as D.
  destruct (do_ok fd (repeat 0 128) 128 name rest _ o N ltac:(change (len (repeat 0 128)) with 128; lia) D) with (2 := R0) as [(_ & X & _)|(_ & W & Q)]; [|discriminate|].
  { constructor; [intros _; cbn [fst snd]; lia|]. constructor; [intros _; cbn [fst snd]; lia|constructor]. }
  split; [exact W|]. intros n ip ->. destruct (Q _ eq_refl) as (rep & Q1 & Q2 & Q3 & Q4).
  assert (EB : buf = padded name).
  { unfold dsent, Send, Recv in Q1. cbn [flat_map fst snd] in Q1. change (is_name (bs "send") (bs "send")) with true in Q1. rewrite Z.eqb_refl in Q1. rewrite (proj2 (Z.leb_le 0 (ret s))) in Q1 by lia. cbn in Q1. congruence. }
  assert (ER : rep = data a).
  { unfold drecv, Send, Recv in Q2. cbn [flat_map fst snd] in Q2. change (is_name (bs "recv") (bs "recv")) with true in Q2. rewrite Z.eqb_refl in Q2. rewrite (proj2 (Z.ltb_lt 0 (ret a))) in Q2 by lia. cbn in Q2. congruence. }
  subst rep buf. inversion F as [|? ? F1 F2]; subst. inversion F2 as [|? ? F3 _]; subst. destruct F3 as (_ & _ & _ & HO & _). destruct (HO fd 256 eq_refl EA) as [H|(cs & H)].
  { cbn [snd] in H. rewrite H in Q4. cbn in Q4. injection Q4 as -> _. left. lia. }
  cbn [snd] in H. pose proof H as HH. destruct H as (A & B & E). destruct cs as [|c0 cs0].
  { rewrite E in Q4. cbn in Q4. injection Q4 as -> _. left. rewrite len_nil. change (u8 (16 * 0)) with 0. lia. }
  right. exists (c0 :: cs0). remember (c0 :: cs0) as cs eqn:EC. assert (L1 : 1 <= len cs) by (rewrite EC, len_cons; pose proof (len_nonneg _ cs0); lia). clear EC.
  pose proof (concat_len cs A) as CL. assert (LC : len (concat cs) = 16 * len cs) by (unfold len; lia).
  assert (T : taken (data a) (repeat 0 128) 128 = (16 * len cs, concat cs ++ skipn (16 * length cs) (repeat 0 128))).
  { rewrite E. unfold taken. destruct (concat cs) as [|x l] eqn:EC; [rewrite len_nil in LC; lia|]. rewrite len_cons. replace (len (x :: l) + 1 - 1) with (16 * len cs) by lia. rewrite Z.min_r by lia. cbn [tl].
    replace (Z.to_nat (16 * len cs)) with (16 * length cs)%nat by (unfold len; lia). rewrite firstn_all2 by lia. reflexivity. }
  rewrite T in Q4. assert (E1 : n = 16 * len cs) by congruence. assert (E2 : ip = concat cs ++ skipn (16 * length cs) (repeat 0 128)) by congruence. clear Q4. rewrite E1, E2. split.
  - split; [rewrite app_length, skipn_length, repeat_length, CL; unfold len in *; lia|]. split; [reflexivity|]. split; [exact A|]. split; [lia|]. rewrite <- CL. rewrite firstn_app, Nat.sub_diag, firstn_O, app_nil_r. apply firstn_all.
  - exists fd, [], s, [], a, []. split; [reflexivity|]. repeat split; auto; apply HH.
Qed.
Lemma resolve_any : forall name rest tr o, Forall tame tr -> runs (resolvehost (Some (repeat 0 128)) 128 (Some (name ++ 0 :: rest))) tr o ->
  o <> Wrong /\ forall n e ip, o = Fin (n, e, ip) -> n <= 0 \/ exists cs, fits ip n cs /\ answered gai_list true name tr cs.
Proof.
  intros name rest tr o F R. change 128 with (len (repeat 0 128)) in R. apply resolvehost_ok in R; [|change (len (repeat 0 128)) with 128; lia|change (len (repeat 0 128)) with 128; lia].
  destruct R as [[_ ->]|(a & t & -> & _ & W & Q)]; [split; discriminate|]. split; [exact W|]. intros n e ip E. destruct (Q n e ip E) as (r & Q1 & Q2 & Q3). destruct r as [cs|]; [|left; lia].
  destruct Q3 as (A & -> & B & _ & FI). change (len (repeat 0 128)) with 128 in B. destruct cs as [|c0 cs0]; [left; rewrite len_nil; lia|]. right. specialize (FI ltac:(discriminate)). exists (c0 :: cs0). remember (c0 :: cs0) as cs eqn:EC.
  assert (L1 : 1 <= len cs) by (rewrite EC, len_cons; pose proof (len_nonneg _ cs0); lia). clear EC. rewrite repeat_length in Q2. pose proof (concat_len cs A) as CL. split.
  - split; [exact Q2|]. split; [reflexivity|]. split; [exact A|]. split; [lia|]. apply nth_error_ext. intros k. destruct (lt_dec k (16 * length cs)) as [K|K].
    + rewrite nth_error_firstn. rewrite (proj2 (Nat.ltb_lt _ _) K). rewrite FI by (unfold len in *; lia). rewrite CL. rewrite Nat.mod_small by lia. reflexivity.
    + assert (length (firstn (16 * length cs) ip) = (16 * length cs)%nat) by (rewrite firstn_length; unfold len in *; lia). rewrite (proj2 (nth_error_None _ _)) by lia. rewrite (proj2 (nth_error_None _ _)) by lia. reflexivity.
  - exists rest, a. split; [left; reflexivity|]. exact Q1.
Qed.

(** *** calls *)
(** nothing is read, written, opened or closed *)
Definition idle (c : sys) : Prop := match c with Read _ _ | Write _ _ | Shutdown _ _ | Close _ => False | _ => noopen c end.
Lemma idle_wordless : forall c, idle c -> wordless c. Proof. intros []; cbn; tauto. Qed.
Lemma idle_inert : forall c, idle c -> inert c. Proof. intros []; cbn; tauto. Qed.
Lemma idle_noread : forall c, idle c -> noread c. Proof. intros []; cbn; tauto. Qed.
Lemma resolve_idle : forall ip n host, calls idle (resolvehost ip n host).
Proof.
  intros. unfold resolvehost. quick. unfold sortip. quick.
  assert (S : forall k s, calls idle (shuffle k s)).
  { induction k as [|k IH]; intros s; cbn [shuffle]; quick. - unfold randommod. quick. unfold randombytes. quick. - auto. }
  apply S.
Qed.
Lemma request_idle : forall fd ip n host, calls idle (resolvehost_do fd ip n host).
Proof. intros. unfold resolvehost_do, Send, Recv. quick. Qed.
Lemma wait_idle : forall n pid, calls idle (wait n pid).
Proof. induction n; intros; cbn [wait]; quick. auto. Qed.
Lemma jail_idle : forall a d l, calls idle (jail a d l).
Proof. intros. unfold jail, jail_main, must, mustbe, when, jail_limit_memory. destruct a, d, l; steps; repeat split; discriminate. Qed.
Lemma connection_idle : forall I e, calls idle (connection I e).
Proof. intros. unfold connection, socket_name. quick. Qed.
Lemma allocs_idle : forall c, allocs c -> idle c.
Proof. intros c [n ->]. exact Logic.I. Qed.
(** reading besides *)
Definition reads (c : sys) : Prop := match c with Read _ _ => True | _ => idle c end.
Lemma proxy_reads : forall fuel I fd o, calls reads (proxyprotocol_v1_get fuel I fd o).
Proof.
  assert (O : forall f fd a n, calls reads (oneread f fd a n)) by (induction f; intros; cbn [oneread]; quick; auto).
  assert (G : forall f b, calls reads (buffer_GETC f b)) by (intros; unfold buffer_GETC, buffer_get, buffer_feed; quick; auto).
  assert (R : forall f k b n l, calls reads (pp_read f k b n l)) by (intros f k; induction k as [|k IH]; intros; cbn [pp_read]; quick; auto).
  intros. unfold proxyprotocol_v1_get. cbv zeta. apply calls_bind; [apply R|intros; quick].
Qed.
Lemma init_calls : forall sl n, calls wordless (conn_init sl n) /\ calls noread (conn_init sl n).
Proof.
  intros. split.
  - assert (X : forall sl s, calls wordless (closeslot sl s)) by (intros; unfold closeslot; quick).
    assert (R : forall m i sl, calls wordless (conn_reset_from m i sl)) by (induction m; intros; cbn [conn_reset_from]; quick; auto).
    assert (P : forall m i sl, calls wordless (conn_prepare m i sl)) by (induction m; intros; cbn [conn_prepare]; quick; auto; try (apply R); unfold socket_tcp, fd_blocking_disable; quick).
    unfold conn_init, conn_reset. quick; auto.
  - assert (X : forall sl s, calls noread (closeslot sl s)) by (intros; unfold closeslot; quick).
    assert (R : forall m i sl, calls noread (conn_reset_from m i sl)) by (induction m; intros; cbn [conn_reset_from]; quick; auto).
    assert (P : forall m i sl, calls noread (conn_prepare m i sl)) by (induction m; intros; cbn [conn_prepare]; quick; auto; try (apply R); unfold socket_tcp, fd_blocking_disable; quick).
    unfold conn_init, conn_reset. quick; auto.
Qed.
Lemma conn_wordless : forall fuel sl t ip n port, calls wordless (conn fuel sl t ip n port).
Proof.
  assert (X : forall sl s, calls wordless (closeslot sl s)) by (intros; unfold closeslot; quick).
  assert (R : forall m i sl, calls wordless (conn_reset_from m i sl)) by (induction m; intros; cbn [conn_reset_from]; quick; auto).
  assert (K : forall p sl, calls wordless (conn_check p sl)) by (induction p as [|[fd re] p IH]; intros; cbn [conn_check]; quick; auto; unfold socket_connected; quick).
  assert (S : forall m i sl ip port, calls wordless (conn_start m i sl ip port)) by (induction m; intros; cbn [conn_start]; quick; auto; unfold socket_connect; quick).
  assert (W : forall fuel d n sl, calls wordless (conn_wait fuel d n sl)) by (induction fuel; intros; cbn [conn_wait]; quick; auto; try (unfold conn_reset; apply R); unfold milliseconds, jail_poll; quick).
  assert (C : forall m i w sl ip d, calls wordless (copyip_loop m i w sl ip d)) by (induction m; intros; cbn [copyip_loop]; quick; auto).
  intros. unfold conn. quick; auto; try (unfold milliseconds; quick). unfold conn_copyip. quick; auto.
Qed.

(** *** closing in the relay *)
Lemma closes_known : forall K tr T L, (forall t1 e t2 f, tr = t1 ++ e :: t2 -> fst e = Close f -> In f K /\ ~ closed f (T ++ t1)) ->
  (forall f, In f K -> ~ closed f T -> In f L) -> forall L', fdrun L tr = Some L' -> closes_open L tr.
Proof.
  intros K tr. induction tr as [|e tr IH]; intros T L H KL L' E; [exact Logic.I|]. cbn [closes_open fdrun] in *. split.
  - intros f EF _. destruct (H [] e tr f eq_refl EF) as [H1 H2]. rewrite app_nil_r in H2. auto.
  - destruct (fd1 L e) as [L1|] eqn:E1; [|discriminate]. apply (IH (T ++ [e]) L1) with (3 := E).
    + intros t1 e' t2 f EQ EF. destruct (H (e :: t1) e' t2 f) as [H1 H2]; [rewrite EQ; reflexivity|exact EF|]. split; [exact H1|]. rewrite <- app_assoc. exact H2.
    + intros f FK NC. apply (noopen_kept [e] L L1 f).
      * cbn [fdrun]. rewrite E1. reflexivity.
      * apply KL; auto. intros C. apply NC. apply closed_l. exact C.
      * intros C. apply NC. apply closed_r. exact C.
Qed.

(** ** The walk *)
Section Walk.
Variable I : inet.
Hypothesis OK : inet_ok I.
Variable fuel : nat.
Variables buf0 ip0 : list Z.
Variable env : environment.
Hypothesis ENV : strings env.
Variable nojail : bool.
Variable c : tcpcmd.
Variables (host rest : list Z) (port : Z) (acc : option (list Z)) (dir : list Z).
Hypothesis HOST : nonul host /\ thost c = host ++ 0 :: rest.
Hypothesis PORT : tport c = [port / 256; port mod 256].
Hypothesis ACC : cstr_opt (taccount (tset c)) = Ok acc.
Hypothesis DIR : cstr (tdir (tset c)) = Ok dir.
Hypothesis TIMES : 1 <= tconnect c <= 86400.
Notation ppi := (tppin (tset c)).
Notation ppo := (tppout (tset c)).

Definition code (o : outcome ending) : option Z := match o with Fin (Exit x) => Some x | _ => None end.
Definition story (t : trace) (o : outcome ending) : Prop :=
  (Forall (fun e => wordless (fst e)) t /\
   (o = Cut \/ (o = Fin (Exit 111) /\ tcp_gives_up gai_list nojail acc dir host port (tconnect c) t) \/
    (o = Fin (Exit 100) /\ ((ppi = true /\ garbled I t) \/ (ppo = true /\ exists i, learned I env ppi t i /\ headless t i))))) \/
  exists t0 u ri ro self x, t = t0 ++ u /\ ready I env gai_list nojail ppi ppo host port (ttimeout c) t0 ri ro self x /\
    tcp_setup ri ro self x /\ relays ri ro self x u (code o) /\ (o = Cut \/ exists x, o = Fin (Exit x)).
Notation quiet t := (Forall (fun e => wordless (fst e)) t).
Lemma story_cut : forall t, quiet t -> story t Cut.
Proof. intros t Q. left. auto. Qed.
Notation gives_up := (tcp_gives_up gai_list nojail acc dir host port (tconnect c)).
Lemma story_111 : forall t, quiet t -> gives_up t -> story t (Fin (Exit 111)).
Proof. intros t Q G. left. auto. Qed.
Notation reach := (reach story).

Lemma relay_reach : forall h L ri ro self x, ready I env gai_list nojail ppi ppo host port (ttimeout c) h ri ro self x -> tcp_setup ri ro self x ->
  In 0 L -> In 1 L -> In ri L -> In ro L ->
  reach h L (y <~ tcp_relay (ttimeout c) self fuel ri ro x ;; Ret (Exit y)).
Proof.
  intros h L ri ro self x RD SE I0 I1 IR IO tr o L' R E F.
  assert (K : forall u q, runs (tcp_relay (ttimeout c) self fuel ri ro x) u q -> Forall tame u -> forall L1, fdrun L u = Some L1 ->
    q <> Wrong /\ closes_open L u /\ relays ri ro self x u (match q with Fin y => Some y | _ => None end)).
  { intros u q RU FU L1 EU. pose proof (tame_legal _ FU) as LE. destruct (C56_streams _ _ _ _ _ _ SE _ _ RU LE) as (W & S1 & S2). destruct (C57_close _ _ _ _ _ _ SE _ _ RU LE) as [U1 U2]. destruct (C57_flow _ _ _ _ _ _ SE _ _ RU LE) as [U3 _].
    split; [exact W|]. split; [|split; [exact S1|]; split; [exact S2|]; split; [exact U2|]; split; [exact U3|]].
    - apply (closes_known [0; 1; ri; ro] u [] L) with (3 := EU).
      + intros t1 [k a] t2 f EQ EF. cbn [fst] in EF. subst k. cbn [app]. specialize (U1 _ _ _ EQ). specialize (U2 _ _ _ EQ). cbn in U1, U2. split; [cbn [In]; destruct U2 as [[-> _]|[[-> _]|[[-> _]|[-> _]]]]; auto 6|exact U1].
      + intros f [<-|[<-|[<-|[<-|[]]]]] _; assumption.
    - intros y EY. destruct q as [z| |]; try discriminate. injection EY as ->. destruct (C57_end _ _ _ _ _ _ SE _ _ RU LE y eq_refl) as (Y & T & _). auto. }
  apply runs_bind in R as [(y & t1 & t2 & -> & R1 & R2)|[[R1 ->]|[R1 ->]]].
  - destruct R2 as [-> ->]. rewrite app_nil_r in *. destruct (K _ _ R1 F _ E) as (_ & C1 & RE). split; [discriminate|]. split; [exact C1|].
    right. exists h, t1, ri, ro, self, x. split; [reflexivity|]. split; [exact RD|]. split; [exact SE|]. split; [exact RE|eauto].
  - destruct (K _ _ R1 F _ E) as (W & _). congruence.
  - destruct (K _ _ R1 F _ E) as (_ & C1 & RE). split; [discriminate|]. split; [exact C1|].
    right. exists h, tr, ri, ro, self, x. split; [reflexivity|]. split; [exact RD|]. split; [exact SE|]. split; [exact RE|auto].
Qed.

(** idle parts *)
Lemma reach_idle : forall A (p : prog A) (f : A -> prog ending) h L, calls idle p -> (forall tr o, runs p tr o -> Forall tame tr -> o <> Wrong) -> quiet h ->
  (forall t x, runs p t (Fin x) -> Forall tame t -> Forall (fun e => idle (fst e)) t -> quiet (h ++ t) -> reach (h ++ t) L (f x)) -> reach h L (pbind p f).
Proof.
  intros A p f h L C W Q K. apply (reach_bind story story_cut) with (Q := fun L' _ _ => L' = L).
  - eapply calls_weak; [exact C|exact idle_wordless].
  - apply h_inert; [eapply calls_weak; [exact C|exact idle_inert]|exact W].
  - exact Q.
  - intros L1 t x -> R F _ Q1. apply K; auto. exact (C _ _ R).
Qed.
Lemma sys_nowrong : forall k tr o, runs (sys1 k) tr o -> o <> Wrong.
Proof. intros k tr o R. apply runs_sys1 in R as [[_ ->]|(a & _ & ->)]; discriminate. Qed.
Lemma do_nowrong : forall k tr o, runs (do k) tr o -> o <> Wrong.
Proof. intros k tr o R. unfold do in R. destruct R as [[_ ->]|(a & t & -> & R)]; [discriminate|]. cbn [pbind] in R. destruct R as [_ ->]. discriminate. Qed.
Lemma got_idle : forall f h t, Forall (fun e => idle (fst e)) t -> got f (h ++ t) = got f h.
Proof. intros f h t F. rewrite got_app, (noread_got f t), app_nil_r; [reflexivity|]. eapply Forall_impl; [|exact F]. intros e. apply idle_noread. Qed.
Lemma learned_more : forall p h t i, got 0 t = [] -> learned I env p h i -> learned I env p (h ++ t) i.
Proof.
  intros p h t i G H. unfold learned in *. destruct p; rewrite got_app, G, app_nil_r; [exact H|]. destruct H as [H1 H2]. split; [exact H1|].
  unfold observed in *. destruct H2 as [H2|(H2 & [(x & y & a & b & k & d & X & Y & H3)|(nm & x & N & X & H3)])]; [left; exact H2|right; split; [exact H2|left]|right; split; [exact H2|right]].
  - exists x, y, a, b, k, d. split; [apply in_or_app; auto|]. split; [apply in_or_app; auto|exact H3].
  - exists nm, x. split; [exact N|]. split; [apply in_or_app; auto|exact H3].
Qed.

(** what holds when the connection is there *)
Record met (h : trace) (L : list Z) (ri ro self : Z) (i : info) : Prop := {
  mt_quiet : quiet h;
  mt_address : exists cs, answered gai_list nojail host h cs /\ linked cs port h ri ro;
  mt_unread : got ri h = [];
  mt_info : learned I env ppi h i;
  mt_whole : whole i;
  mt_self : exists a, In (Other (bs "pipe") [] [], a) h /\ ret a <> -1 /\ nth 0 (data a) 0 = self;
  mt_fds : NoDup [0; 1; ri; ro; self] /\ (0 <= ri < 1024 /\ 0 <= ro < 1024 /\ 0 <= self < 1024);
  mt_open : In 0 L /\ In 1 L /\ In ri L /\ In ro L }.
Lemma answered_more : forall h t cs, answered gai_list nojail host h cs -> answered gai_list nojail host (h ++ t) cs.
Proof.
  intros h t cs H. unfold answered in *. destruct nojail.
  - destruct H as (x & a & H1 & H2). exists x, a. split; [apply in_or_app; auto|exact H2].
  - destruct H as (fd & t1 & s & t2 & r & t3 & -> & H). exists fd, t1, s, t2, r, (t3 ++ t). split; [|exact H]. rewrite <- app_assoc. cbn [app]. rewrite <- app_assoc. reflexivity.
Qed.
Lemma linked_more : forall h t cs ri ro, linked cs port h ri ro -> linked cs port (h ++ t) ri ro.
Proof.
  intros h t cs ri ro [(k & a & C1 & C2 & C3) (d & D1 & D2)]. split.
  - exists k, a. split; [exact C1|]. split; [apply in_or_app; auto|]. destruct C3 as [C3|(g & G1 & G2)]; [auto|]. right. exists g. split; [apply in_or_app; auto|exact G2].
  - exists d. split; [apply in_or_app; auto|exact D2].
Qed.
Lemma met_idle : forall h L ri ro self i t, met h L ri ro self i -> Forall (fun e => idle (fst e)) t -> met (h ++ t) L ri ro self i.
Proof.
  intros h L ri ro self i t [A B C D E F G H] T. constructor; auto.
  - apply Forall_app. split; [exact A|]. eapply Forall_impl; [|exact T]. intros e. apply idle_wordless.
  - destruct B as (cs & B1 & B2). exists cs. split; [apply answered_more; exact B1|apply linked_more; exact B2].
  - rewrite got_idle by exact T. exact C.
  - apply learned_more; [|exact D]. apply noread_got. eapply Forall_impl; [|exact T]. intros e. apply idle_noread.
  - destruct F as (a & F1 & F2). exists a. split; [apply in_or_app; auto|exact F2].
Qed.

Lemma final_reach : forall h L ri ro self i x, met h L ri ro self i -> ahead I ppo i x -> len x <= 8192 ->
  reach h L (_ <~ signal SIGTERM HANDLER ;; _ <~ signal SIGALRM HANDLER ;; _ <~ alarm (ttimeout c) ;; y <~ tcp_relay (ttimeout c) self fuel ri ro x ;; Ret (Exit y)).
Proof.
  intros h L ri ro self i x M A LX.
  apply reach_idle; [unfold signal, do; quick|intros ? ? R _; exact (do_nowrong _ _ _ R)|apply M|]. intros t1 _ _ _ T1 _. pose proof (met_idle _ _ _ _ _ _ _ M T1) as M1.
  apply reach_idle; [unfold signal, do; quick|intros ? ? R _; exact (do_nowrong _ _ _ R)|apply M1|]. intros t2 _ _ _ T2 _. pose proof (met_idle _ _ _ _ _ _ _ M1 T2) as M2.
  apply reach_idle; [unfold alarm, do; quick|intros ? ? R _; exact (do_nowrong _ _ _ R)|apply M2|]. intros t3 y RA _ T3 _. pose proof (met_idle _ _ _ _ _ _ _ M2 T3) as M3.
  destruct (mt_open _ _ _ _ _ _ M3) as (O0 & O1 & OR & OO).
  apply relay_reach; auto.
  - destruct M3 as [Q B C D E F G H]. constructor; auto. + exists i. auto. + unfold alarm in RA. apply fin_sys in RA as (a & t & -> & [-> _]). eexists _, a. reflexivity.
  - destruct (mt_fds _ _ _ _ _ _ M3) as [G1 G2]. split; [exact G1|]. split; [exact G2|exact LX].
Qed.

Lemma header_reach : forall h L ri ro self i, met h L ri ro self i ->
  reach h L (tcp_header I c i (fun x => _ <~ signal SIGTERM HANDLER ;; _ <~ signal SIGALRM HANDLER ;; _ <~ alarm (ttimeout c) ;; y <~ tcp_relay (ttimeout c) self fuel ri ro x ;; Ret (Exit y))).
Proof.
  intros h L ri ro self i M. unfold tcp_header. destruct ppo eqn:PO.
  2: { eapply final_reach; [exact M|unfold ahead; rewrite PO; reflexivity|rewrite len_nil; lia]. }
  destruct (mt_whole _ _ _ _ _ _ M) as (W1 & W2 & W3 & W4).
  set (e := mkep (localip i) (localport i) (remoteip i) (remoteport i)).
  assert (G : forall tr o, runs (proxyprotocol_v1 I (Some (repeat 0 (Z.to_nat 8192))) 8192 e) tr o -> _) by (intros tr o R; exact (C07_generator I (Some (repeat 0 (Z.to_nat 8192))) 8192 e tr o OK W1 W3 W2 W4 R ltac:(unfold len; rewrite repeat_length; lia))).
  apply reach_idle; [eapply calls_weak; [apply header_allocs|exact allocs_idle]| |apply M|].
  { intros tr o R _ ->. destruct (G _ _ R) as [X _]. exact X. }
  intros t [n b] R _ T Q. destruct (G _ _ R) as [X LE]. pose proof (met_idle _ _ _ _ _ _ _ M T) as M1. destruct X as [(-> & _ & X)|(NZ & x & b0 & HX & EB & -> & _ & ->)].
  - change (u64 0 =? 0) with true. cbv iota. apply reach_ret. left. split; [exact Q|]. right. right. split; [reflexivity|]. right. split; [exact PO|]. exists i. split; [apply (mt_info _ _ _ _ _ _ M1)|].
    unfold headless. fold e. destruct X as [X|[(t1 & n & a & -> & Z0)|[X|(x & HX & X)]]]; [left; exact X| |discriminate|exfalso; pose proof (LE _ HX); lia].
    right. exists n, a. split; [|exact Z0]. apply in_or_app. right. apply in_or_app. right. left. reflexivity.
  - assert (LX : 0 < len x <= 116).
    { split; [|apply LE; exact HX]. destruct HX as (rp & lp & _ & _ & ->). rewrite !len_app. pose proof (len_nonneg _ (iptostr I (rip e))). pose proof (len_nonneg _ (iptostr I (lip e))). pose proof (len_nonneg _ rp). pose proof (len_nonneg _ lp).
      destruct (list_eq_dec Z.eq_dec (firstn 12 (rip e)) v4prefix); change (len (bs "PROXY TCP4 ")) with 11; change (len (bs "PROXY TCP6 ")) with 11; change (len (bs " ")) with 1; change (len [13; 10]) with 2; lia. }
    assert (U : u64 (len x) =? 0 = false). { unfold u64. rewrite Z.mod_small by (unfold two64; lia). lia. }
    rewrite U. cbv iota. assert (FN : firstn (Z.to_nat (len x)) (x ++ skipn (length x) b0) = x) by (unfold len; rewrite Nat2Z.id, firstn_app, Nat.sub_diag, firstn_O, app_nil_r; apply firstn_all).
    rewrite FN. eapply final_reach; [exact M1|unfold ahead; rewrite PO; exact HX|lia].
Qed.

(** before the connection *)
Record prepared (h : trace) (L L0 : list Z) (sl : slots) (self : Z) (cs : list (list Z)) : Prop := {
  pr_quiet : quiet h;
  pr_answered : answered gai_list nojail host h cs;
  pr_self : exists a, In (Other (bs "pipe") [] [], a) h /\ ret a <> -1 /\ nth 0 (data a) 0 = self;
  pr_good : good L;
  pr_slots : ConnP.inv L0 L sl;
  pr_filled : ConnP.filled (length cs) sl;
  pr_dups : doubled h 0 (length cs) sl;
  pr_in : In 0 L0 /\ In 1 L0 /\ In self L0 /\ self <> 0 /\ self <> 1 }.
Lemma prepared_more : forall h t L L0 sl self cs, prepared h L L0 sl self cs -> quiet (h ++ t) -> prepared (h ++ t) L L0 sl self cs.
Proof.
  intros h t L L0 sl self cs [A B C D E F G H] Q. constructor; auto.
  - apply answered_more. exact B.
  - destruct C as (a & C1 & C2). exists a. split; [apply in_or_app; auto|exact C2].
  - intros k x y K N. destruct (G k x y K N) as (r & G1 & G2). exists r. split; [apply in_or_app; auto|exact G2].
Qed.
Lemma conn_reach : forall h L L0 sl self ip n cs i, prepared h L L0 sl self cs -> fits ip n cs -> (forall f m a, In (Read f m, a) h -> f = 0) -> learned I env ppi h i -> whole i ->
  reach h L ('(w, ip, _) <~ conn fuel sl (tconnect c) ip n (tport c) ;;
    match w with
    | None => Ret (Exit 111)
    | Some (ri, ro) => tcp_header I c i (fun x => _ <~ signal SIGTERM HANDLER ;; _ <~ signal SIGALRM HANDLER ;; _ <~ alarm (ttimeout c) ;; y <~ tcp_relay (ttimeout c) self fuel ri ro x ;; Ret (Exit y))
    end).
Proof.
  intros h L L0 sl self ip n cs i P FI RD LE WH. pose proof FI as (LI & EN & AD & LC & FN).
  eapply (reach_bind story story_cut); [apply conn_wordless| |apply P|].
  { apply h_and with (R := fun t '(w, _, _) => w = None -> in_vain cs [port / 256; port mod 256] (tconnect c) t).
    2: { intros t [[w ip'] sl'] R ->. apply conn_fail in R; [|lia|rewrite EN; lia|eapply inv_tracked; apply P]. rewrite PORT in R. cbn [firstn] in R.
      replace (map (ConnP.addr ip) (seq 0 (Z.to_nat (Z.min n 128 / 16)))) with cs in R; [exact R|]. eapply fits_all; eauto. }
    eapply h_weak; [|eapply (h_conn L0 L fuel sl (length cs) (tconnect c) ip n (tport c)); [apply P|apply P|lia|lia| | |]].
    - intros e T. apply T.
    - rewrite EN. unfold len in *. lia.
    - rewrite PORT. change (len [port / 256; port mod 256]) with 2. lia.
    - rewrite EN. rewrite Z.min_l by lia. rewrite Z.mul_comm, Z.div_mul by lia. unfold len. lia. }
  cbn beta. intros L1 t [[w ip'] sl'] [Q VA] R F E QT. destruct w as [[ri ro]|]; [|apply reach_ret, story_111; [exact QT|]; do 5 right; exists cs; split; [apply answered_more, P|apply within_end, VA; reflexivity]].
  destruct Q as (k & K & _ & J & NR & SL & PM). destruct P as [PQ PA PS PG PI PF PD (I0 & I1 & IS & S0 & S1)].
  pose proof (good_run t L L1 PG (tame_low _ F) E) as [N1 B1].
  assert (KC : (k < length cs)%nat) by (rewrite EN in K; unfold len in K; lia).
  assert (UN : forall f, In f L1 -> got f t = []).
  { intros f FL. apply unread_got. intros m a N. apply (conn_tidy _ _ _ _ _ _ _ _ R) in N. apply (noopen_closed t L L1 f) in N; auto. exact (conn_noopen _ _ _ _ _ _ _ _ R). }
  assert (INL : forall f, In f (ri :: ro :: L0) -> In f L1) by (intros f X; eapply Permutation_in; [apply Permutation_sym; exact PM|exact X]).
  assert (ND : NoDup (ri :: ro :: L0)) by (eapply Permutation_NoDup; [exact PM|exact N1]). inversion ND as [|? ? ND1 ND2]; subst. inversion ND2 as [|? ? ND3 ND4]; subst. cbn [In] in ND1.
  rewrite Forall_forall in B1.
  assert (NE : ri <> 0) by (intros ->; apply ND1; right; exact I0).
  apply header_reach. constructor; auto.
  - exists cs. split; [apply answered_more; exact PA|]. split.
    + destruct J as (a & J1 & J2). exists (ConnP.addr ip k), a. split; [eapply fits_addr; eauto|]. unfold conn_call in J1. rewrite PORT in J1. cbn [firstn] in J1. split; [apply in_or_app; right; exact J1|].
      destruct J2 as [J2|(g & J2 & J3)]; [auto|]. right. exists g. split; [apply in_or_app; auto|exact J3].
    + destruct (PD k ri ro ltac:(lia) SL) as (r & D1 & D2). exists r. split; [apply in_or_app; auto|exact D2].
  - rewrite got_app, (UN ri), app_nil_r by (apply INL; left; reflexivity). apply unread_got. intros m a X. apply RD in X. contradiction.
  - apply learned_more; [apply UN, INL; right; right; exact I0|exact LE].
  - destruct PS as (a & C1 & C2). exists a. split; [apply in_or_app; auto|exact C2].
  - split; [|split; [|split]; apply B1, INL; cbn [In]; auto].
    assert (A1 : ri <> 1) by (intros ->; apply ND1; right; exact I1). assert (A2 : ri <> self) by (intros ->; apply ND1; right; exact IS). assert (A3 : ri <> ro) by (intros ->; apply ND1; left; reflexivity).
    assert (A4 : ro <> 0) by (intros ->; auto). assert (A5 : ro <> 1) by (intros ->; auto). assert (A6 : ro <> self) by (intros ->; auto).
    repeat constructor; cbn [In]; intuition.
  - split; [|split; [|split]]; apply INL; cbn [In]; auto.
Qed.
Lemma peer_reach : forall g L L0 sl self ip n cs, prepared g L L0 sl self cs -> fits ip n cs -> Forall (fun e => noread (fst e)) g ->
  reach g L (peer_info I fuel env ppi (fun i =>
    '(w, ip, _) <~ conn fuel sl (tconnect c) ip n (tport c) ;;
    match w with
    | None => Ret (Exit 111)
    | Some (ri, ro) => tcp_header I c i (fun x => _ <~ signal SIGTERM HANDLER ;; _ <~ signal SIGALRM HANDLER ;; _ <~ alarm (ttimeout c) ;; y <~ tcp_relay (ttimeout c) self fuel ri ro x ;; Ret (Exit y))
    end)).
Proof.
  intros g L L0 sl self ip n cs P1 FI NR1.
  unfold peer_info. destruct ppi eqn:PP.
  - eapply (reach_bind story story_cut) with (Q := fun L' _ _ => L' = L).
    + eapply calls_weak; [apply proxy_reads|]. intros []; cbn; tauto.
    + apply h_inert; [eapply calls_weak; [apply proxy_reads|]; intros []; cbn; tauto|]. intros tr o R F ->. destruct (C06_reader _ _ _ _ _ _ OK R (tame_legal _ F)) as (_ & _ & []).
    + apply P1.
    + intros L1 t [r e] -> R F _ Q. destruct (C06_reader _ _ _ _ _ _ OK R (tame_legal _ F)) as (RE & _ & X).
      assert (G : got 0 (g ++ t) = got 0 t) by (rewrite got_app, (noread_got 0 g NR1); reflexivity).
      destruct X as [(-> & u & U1 & U2 & U3)|(-> & _ & X)].
      * change (1 =? 0) with false. cbv iota. eapply conn_reach; [apply prepared_more; [exact P1|exact Q]|exact FI| | |].
        -- intros f m a X. apply in_app_or in X as [X|X]; [rewrite Forall_forall in NR1; apply NR1 in X; destruct X|]. rewrite Forall_forall in RE. apply RE in X. cbn [fst] in X. congruence.
        -- unfold learned. rewrite PP. exists u. split; [exact (eq_trans G U1)|]. split; [exact U2|]. cbn [localip localport remoteip remoteport]. rewrite <- U1. destruct e. exact U3.
        -- exact (pp_whole I OK _ _ U3).
      * change (0 =? 0) with true. cbv iota. apply reach_ret. left. split; [exact Q|]. right. right. split; [reflexivity|]. left. split; [exact PP|]. unfold garbled. match goal with |- context [got 0 ?x] => replace (got 0 x) with (got 0 t) by (symmetry; exact G) end.
        destruct X as [(X1 & [(r & R1 & t1 & m & a & -> & _ & R2)|X2])|X]; [left; split; [exact X1|left]|left; auto|right; exact X].
        exists m, a. split; [|lia]. apply in_or_app. right. apply in_or_app. right. left. reflexivity.
  - apply reach_idle; [apply connection_idle| |apply P1|].
    + intros tr o R _. exact (proj1 (connection_whole I OK env tr o ENV R)).
    + intros t i R _ T Q. eapply conn_reach; [apply prepared_more; [exact P1|exact Q]|exact FI| | |].
      * intros f m a X. apply in_app_or in X as [X|X]; [rewrite Forall_forall in NR1; apply NR1 in X; destruct X|]. rewrite Forall_forall in T. apply T in X. destruct X.
      * destruct (connection_ok I OK env t i ENV R) as [_ OB]. unfold learned. rewrite PP. split; [rewrite got_idle by exact T; apply noread_got; exact NR1|].
        unfold observed in *. destruct OB as [H2|(H2 & [(x & y & a & b & k & d & X & Y & H3)|(nm & x & N & X & H3)])]; [left; exact H2|right; split; [exact H2|left]|right; split; [exact H2|right]].
        -- exists x, y, a, b, k, d. split; [apply in_or_app; auto|]. split; [apply in_or_app; auto|exact H3].
        -- exists nm, x. split; [exact N|]. split; [apply in_or_app; auto|exact H3].
      * exact (proj2 (connection_whole I OK env t (Fin i) ENV R) i eq_refl).
Qed.

Lemma jailed_reach : forall h L L0 sl self ip n cs, prepared h L L0 sl self cs -> fits ip n cs -> Forall (fun e => noread (fst e)) h ->
  reach h L (tcp_jailed I fuel env nojail c self sl ip n).
Proof.
  intros h L L0 sl self ip n cs P FI NR. unfold tcp_jailed. eapply reach_lift; [exact ACC|]. eapply reach_lift; [exact DIR|].
  apply reach_idle; [destruct nojail; [quick|apply jail_idle]| |apply P|].
  { intros tr o R F. destruct nojail; [destruct R as [_ ->]; discriminate|]. exact (proj1 (C36_no_ub _ _ _ _ _ R (tame_pids _ F))). }
  intros t r RJ FT T Q. destruct (Z.eqb_spec (fst r) (-1)) as [RE|RE].
  { apply reach_ret, story_111; [exact Q|]. do 4 right. left. destruct nojail; [destruct RJ as [_ RJ]; injection RJ as ->; discriminate|]. split; [reflexivity|]. apply within_end. eapply jail_blame; [exact RJ|apply tame_pids; exact FT|exact RE]. }
  eapply peer_reach; [exact (prepared_more _ t _ _ _ _ _ P Q)|exact FI|]. apply Forall_app. split; [exact NR|eapply Forall_impl; [|exact T]; intros e; apply idle_noread].
Qed.

(** the resolver's descriptor *)
Definition held (r : resolver) (L : list Z) : Prop := match r with Some (fd, _) => In fd L /\ fd <> 0 /\ fd <> 1 | None => True end.
Definition base (h : trace) (L : list Z) : Prop := quiet h /\ Forall (fun e => noread (fst e)) h /\ good L /\ In 0 L /\ In 1 L.
Lemma base_idle : forall h t L, base h L -> Forall (fun e => idle (fst e)) t -> base (h ++ t) L.
Proof.
  intros h t L (A & B & C) T. split; [|split; [|exact C]]; apply Forall_app; (split; [assumption|]); (eapply Forall_impl; [|exact T]); intros e; [apply idle_wordless|apply idle_noread].
Qed.
Lemma wait_nowrong : forall m pid tr o, runs (wait m pid) tr o -> o <> Wrong.
Proof.
  induction m as [|m IH]; intros pid tr o R; cbn [wait] in R; [destruct R as [_ ->]; discriminate|]. destruct R as [[_ ->]|(a & t & -> & R)]; [discriminate|]. cbn [pbind] in R.
  destruct (_ && _); [eapply IH; eauto|destruct R as [_ ->]; discriminate].
Qed.
Lemma h_shut : forall L f, In f L -> hoare tame L (do (Close f)) (fun L' _ _ => L' = filter (fun x => negb (x =? f)) L).
Proof.
  intros L f X. unfold do. eapply h_bind; [eapply h_close with (Q := fun L' _ _ => L' = filter (fun x => negb (x =? f)) L); auto|].
  cbn beta. intros L1 t x -> _ _. apply h_ret. reflexivity.
Qed.
Lemma filter_keeps : forall (L : list Z) f g, In g L -> g <> f -> In g (filter (fun x => negb (x =? f)) L).
Proof. intros L f g G N. apply filter_In. split; auto. apply negb_true_iff, Z.eqb_neq; auto. Qed.
(** a part that opens and closes but neither reads nor writes *)
Definition still0 (k : sys) : Prop := wordless k /\ noread k.
Lemma reach_base : forall A (p : prog A) (f : A -> prog ending) h L (Q : list Z -> trace -> A -> Prop), calls still0 p -> hoare tame L p Q -> base h L ->
  (forall L1 t x, Q L1 t x -> runs p t (Fin x) -> In 0 L1 /\ In 1 L1) ->
  (forall L1 t x, Q L1 t x -> runs p t (Fin x) -> base (h ++ t) L1 -> Forall tame t -> reach (h ++ t) L1 (f x)) -> reach h L (pbind p f).
Proof.
  intros A p f h L Q C H B K0 K. eapply (reach_bind story story_cut); [eapply calls_weak; [exact C|]; intros k X; apply X|exact H|apply B|].
  intros L1 t x QX R F E QT. apply K; auto. split; [exact QT|]. split; [|split; [|exact (K0 _ _ _ QX R)]].
  - apply Forall_app. split; [apply B|]. eapply Forall_impl; [|exact (C _ _ R)]. intros e X. apply X.
  - eapply good_run; [apply B|apply tame_low; exact F|exact E].
Qed.
Lemma close_reach : forall h L r k, base h L -> held r L -> (forall t L1, base (h ++ t) L1 -> reach (h ++ t) L1 k) -> reach h L (_ <~ resolvehost_close fuel r ;; k).
Proof.
  intros h L r k BA HE K. apply reach_base with (Q := fun L' _ _ => In 0 L' /\ In 1 L'); auto.
  - destruct r as [[fd pid]|]; unfold resolvehost_close, do, Send; quick; try (repeat split; fail). eapply calls_weak; [apply wait_idle|]. intros q X. split; [apply idle_wordless|apply idle_noread]; exact X.
  - destruct BA as (_ & _ & _ & B0 & B1). destruct r as [[fd pid]|]; cbn [resolvehost_close]; [|apply h_ret; auto]. destruct HE as (H1 & H2 & H3).
    eapply h_bind; [apply h_inert; [unfold do, Send; quick|intros ? ? R _; exact (do_nowrong _ _ _ R)]|]. cbn beta. intros L1 t x -> _ _.
    eapply h_bind; [apply h_shut; exact H1|]. cbn beta. intros L1 t1 x1 -> _ _.
    eapply h_bind; [apply h_inert; [eapply calls_weak; [apply wait_idle|exact idle_inert]|intros ? ? R _; exact (wait_nowrong _ _ _ _ R)]|]. cbn beta. intros L1 t2 x2 -> _ _. apply h_ret. split; apply filter_keeps; auto.
Qed.
Lemma log_ips_ok : forall ip n cs, fits ip n cs -> forall k i, 0 <= i -> i mod 16 = 0 -> log_ips k ip i n = Ok tt.
Proof.
  intros ip n cs (L & -> & _ & B & _). induction k as [|k IH]; intros i I0 M; cbn [log_ips]; [reflexivity|]. destruct (Z.ltb_spec i (16 * len cs)); [|reflexivity].
  assert (i + 16 <= 16 * len cs). { pose proof (Z.div_mod i 16 ltac:(lia)). rewrite M in *. nia. }
  unfold block. rewrite (proj2 (Z.ltb_ge i 0)) by lia. rewrite (proj2 (Z.ltb_ge (len ip) (i + 16))) by (unfold len at 1; lia). cbn [orb bind]. apply IH; [lia|]. rewrite Z.add_mod, M by lia. reflexivity.
Qed.
Lemma resolved_reach : forall h L r ip n, base h L -> held r L -> (n <= 0 /\ within (nowhere gai_list nojail 8 host) h) \/ (exists cs, fits ip n cs /\ answered gai_list nojail host h cs) ->
  reach h L (tcp_resolved I fuel env nojail c r ip n).
Proof.
  intros h L r ip n BA HE AN. unfold tcp_resolved. destruct (Z.leb_spec n 0) as [N0|N0].
  { destruct AN as [[_ AN]|(cs & (_ & EN & _ & LC & _) & _)]; [|lia]. apply close_reach; auto. intros t L1 B1. apply reach_ret, story_111; [apply B1|]. right. left. apply within_l. exact AN. }
  destruct AN as [[AN _]|(cs & FI & AN)]; [lia|].
  eapply reach_lift. { destruct (3 <=? _); [eapply log_ips_ok; [exact FI|lia|reflexivity]|reflexivity]. }
  apply close_reach; auto. clear BA HE L. intros t L BA.
  assert (AN1 : answered gai_list nojail host (h ++ t) cs) by (apply answered_more; exact AN). clear AN. revert BA AN1. generalize (h ++ t : trace). clear h t. intros h BA AN.
  apply reach_base with (Q := fun L' t a => t = [(Other (bs "pipe") [] [], a)] /\ (L' = L \/ exists z, L' = z :: nth 0 (data a) 0 :: L /\ ~ In (nth 0 (data a) 0) L /\ 0 <= nth 0 (data a) 0)
     /\ (ret a <> -1 -> exists z, L' = z :: nth 0 (data a) 0 :: L /\ ~ In (nth 0 (data a) 0) L)); auto.
  - quick; repeat split.
  - apply h_sys; [discriminate|]. intros a L' _ E. change (fd1 L (Other (bs "pipe") [] [], a)) with (opens2 L a) in E. apply opens2_ok in E as [[E ->]|(r0 & s0 & <- & <- & P1 & P2 & P3 & P4 & ->)].
    + split; [reflexivity|]. split; [left; reflexivity|]. intros X. destruct (X E).
    + split; [reflexivity|]. split; [right; eexists; eauto|]. intros _. eexists. eauto.
  - intros L1 t a (_ & [->|(z & -> & _)] & _) _; destruct BA as (_ & _ & _ & A & B); [auto|]. split; right; right; auto.
  - intros L1 t a (-> & _ & PI) _ B1 _. destruct (Z.eqb_spec (ret a) (-1)) as [EA|EA]; [apply reach_ret, story_111; [apply B1|]; right; right; left; apply within_end; exists a; auto|]. destruct (PI EA) as (z & -> & NI). clear PI.
    set (self := nth 0 (data a) 0) in *. destruct BA as (_ & _ & _ & I0 & I1).
    assert (SE : self <> 0 /\ self <> 1) by (split; intros X; rewrite X in NI; auto). destruct B1 as (Q1 & NR1 & [ND PO] & I0' & I1').
    eapply (reach_bind story story_cut); [apply init_calls| |exact Q1|].
    + apply h_and with (R := fun t '(ok, sl') => (ok : bool) = true -> doubled t 0 (Z.to_nat (Z.min (n / 16) 8)) sl').
      * apply h_init, start_inv; [exact ND|]. eapply Forall_impl; [|exact PO]. cbn beta. intros; lia.
      * intros tr [ok sl'] R ->. eapply init_dups; eauto.
    + cbn beta. intros L1 t [ok sl] [[IV FL] DU] R F E Q. destruct ok; cbn [negb]; [|apply reach_ret, story_111; [exact Q|]; do 3 right; left; apply within_r; eapply init_blame; exact R].
      assert (NC : Z.to_nat (Z.min (n / 16) 8) = length cs). { destruct FI as (_ & -> & _ & B & _). rewrite Z.mul_comm, Z.div_mul by lia. rewrite Z.min_l by lia. unfold len. lia. }
      rewrite NC in *. specialize (DU eq_refl). eapply jailed_reach; [|exact FI|].
      * constructor; [exact Q|apply answered_more, answered_more; exact AN| | |exact IV|exact FL| |].
        -- exists a. split; [apply in_or_app; left; apply in_or_app; right; left; reflexivity|]. auto.
        -- eapply good_run; [split; [exact ND|exact PO]|apply tame_low; exact F|exact E].
        -- intros k x y K N. destruct (DU k x y K N) as (r0 & G1 & G2). exists r0. split; [apply in_or_app; auto|exact G2].
        -- split; [exact I0'|]. split; [exact I1'|]. split; [right; left; reflexivity|exact SE].
      * apply Forall_app. split; [exact NR1|exact (proj2 (init_calls _ _) _ _ R)].
Qed.
Lemma resolve_reach : forall h L, base h L -> reach h L (tcp_resolve fuel buf0 ip0 nojail c (tcp_resolved I fuel env nojail c)).
Proof.
  intros h L BA. unfold tcp_resolve. destruct HOST as [NH HO]. rewrite HO. destruct nojail eqn:NJ.
  - apply reach_idle; [apply resolve_idle| |apply BA|].
    + intros tr o R F. exact (proj1 (resolve_any _ _ _ _ F R)).
    + intros t [[n e] ip] R F T Q. rewrite <- NJ; apply resolved_reach; [apply base_idle; auto|exact Logic.I|]. destruct (proj2 (resolve_any _ _ _ _ F R) n e ip eq_refl) as [X|(cs & X & Y)]; [left; split; [exact X|]; rewrite NJ; apply within_end; change 128 with (len (repeat 0 128)) in R; eapply (lookup_nowhere (repeat 0 128)); [| |exact R|exact X]; change (len (repeat 0 128)) with 128; lia|]. right. exists cs. split; [exact X|].
      destruct Y as (x & a & Y1 & Y2). rewrite NJ. exists x, a. split; [apply in_or_app; auto|exact Y2].
  - unfold resolvehost_init.
    apply reach_base with (Q := fun L' t a => t = [(Other (bs "socketpair") [] [], a)] /\ (L' = L /\ ret a = -1 \/ (L' = nth 1 (data a) 0 :: nth 0 (data a) 0 :: L /\ ~ In (nth 0 (data a) 0) L /\ ~ In (nth 1 (data a) 0) (nth 0 (data a) 0 :: L)))); auto.
    + quick; repeat split.
    + apply h_sys; [discriminate|]. intros a L' _ E. change (fd1 L (Other (bs "socketpair") [] [], a)) with (opens2 L a) in E. split; [reflexivity|]. apply opens2_ok in E as [[E ->]|(r0 & s0 & <- & <- & P1 & P2 & P3 & P4 & ->)]; [left; auto|right; auto].
    + intros L1 t a (_ & [[-> _]|(-> & _)]) _; destruct BA as (_ & _ & _ & A & B); [auto|]. split; right; right; auto.
    + intros L1 t a (-> & PI) _ B1 _. destruct (Z.eqb_spec (ret a) (-1)) as [EA|EA]; [apply reach_ret, story_111; [apply B1|]; left; split; [exact NJ|]; left; apply within_end; exists a; auto|]. destruct PI as [[_ X]|(-> & N0 & N1)]; [contradiction|].
      set (s0 := nth 0 (data a) 0) in *. set (s1 := nth 1 (data a) 0) in *. destruct BA as (_ & _ & _ & I0 & I1).
      assert (D0 : s0 <> 0 /\ s0 <> 1) by (split; intros X; rewrite X in N0; auto). assert (D1 : s1 <> 0 /\ s1 <> 1) by (split; intros X; rewrite X in N1; apply N1; right; auto). assert (D2 : s1 <> s0) by (intros X; apply N1; left; auto).
      revert B1. generalize (h ++ [(Other (bs "socketpair") [] [], a)] : trace). clearbody s0 s1. clear h a EA. intros h B1.
      apply reach_base with (Q := fun L' t f => L' = s1 :: s0 :: L /\ ret f <> 0 /\ t = [(Other (bs "fork") [] [], f)]); auto.
      * quick; repeat split.
      * apply h_neutral; [discriminate|reflexivity|]. intros f TF. split; [reflexivity|]. split; [apply TF; reflexivity|reflexivity].
      * intros L1 t f (-> & _) _. apply B1.
      * intros L1 t f (-> & FZ & ET) _ B2 _. assert (FK : ret f = -1 -> within (failing (bs "fork")) (h ++ t)) by (intros X; apply within_end; exists f; auto). destruct (Z.eqb_spec (ret f) (-1)) as [EF|EF]; [specialize (FK EF)|].
        -- apply reach_base with (Q := fun L' _ _ => L' = filter (fun x => negb (x =? s0)) (s1 :: s0 :: L)); auto.
           ++ unfold do. quick; repeat split.
           ++ apply h_shut. right. left. reflexivity.
           ++ intros L1 t1 x -> _. split; apply filter_keeps; try (apply B2); intros X; destruct D0; auto.
           ++ intros L1 t1 x -> _ B3 _. apply reach_base with (Q := fun L' _ _ => L' = filter (fun x => negb (x =? s1)) (filter (fun x => negb (x =? s0)) (s1 :: s0 :: L))); auto.
              ** unfold do. quick; repeat split.
              ** apply h_shut. apply filter_keeps; [left; reflexivity|exact D2].
              ** intros L1 t2 y -> _. split; apply filter_keeps; try (apply B3); intros X; destruct D1; auto.
              ** intros L1 t2 y -> _ B4 _. apply reach_ret, story_111; [apply B4|]. left. split; [exact NJ|]. right. apply within_l, within_l. exact FK.
        -- destruct (Z.eqb_spec (ret f) 0); [contradiction|].
           apply reach_base with (Q := fun L' _ _ => L' = filter (fun x => negb (x =? s0)) (s1 :: s0 :: L)); auto.
           ++ unfold do. quick; repeat split.
           ++ apply h_shut. right. left. reflexivity.
           ++ intros L1 t1 x -> _. split; apply filter_keeps; try (apply B2); intros X; destruct D0; auto.
           ++ intros L1 t1 x -> _ B3 _. apply reach_idle; [apply request_idle| |apply B3|].
              ** intros tr o R F. exact (proj1 (do_any _ _ _ _ _ NH F R)).
              ** intros t2 [n0 ip] R F T Q. rewrite <- NJ; apply resolved_reach; [apply base_idle; auto| |].
                 --- cbn [held]. split; [apply filter_keeps; [left; reflexivity|exact D2]|exact D1].
                 --- destruct (proj2 (do_any _ _ _ _ _ NH F R) n0 ip eq_refl) as [X|(cs & X & Y)]; [left; split; [exact X|]; rewrite NJ; apply within_end; eapply do_nowhere; [exact NH| |apply tame_dgram; exact F|apply tame_honest; exact F|exact R|exact X]; lia|]. right. exists cs. split; [exact X|].
                     destruct Y as (fd & u1 & sn & u2 & rc & u3 & E & Y). rewrite NJ. exists fd, (((h ++ t) ++ t1) ++ u1), sn, u2, rc, u3. split; [|exact Y]. rewrite E. rewrite <- !app_assoc. reflexivity.
Qed.
End Walk.
