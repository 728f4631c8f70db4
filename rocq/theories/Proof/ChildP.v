(** The program's process, up to the start of the program. *)
From Verif.Model Require Import Base Sys Io Str Inet Config Parsenum Fdio Relay Session Tlsphase Jail Pem Keyjail Proxy Conninfo Options Main.
From Verif.Spec Require Import Num Ip Text Stream Flow Restrict Endpoints Process Program.
From Verif.Proof Require Import Tac SysP CallsP StrP FrameP IoP IpP ConfigP OptionsP SafeP MainCallsP MainP.
From Verif.Props Require Import PropJail PropConninfo PropOptions.

Lemma fin_bind : forall A B (p : prog A) (f : A -> prog B) tr x, runs (pbind p f) tr (Fin x) ->
  exists a t1 t2, tr = t1 ++ t2 /\ runs p t1 (Fin a) /\ runs (f a) t2 (Fin x).
Proof. intros A B p f tr x R. apply runs_bind in R as [R|[[_ E]|[_ E]]]; [exact R|discriminate|discriminate]. Qed.
Lemma fin_sys : forall B c (f : ans -> prog B) tr x, runs (a <~ sys1 c ;; f a) tr (Fin x) ->
  exists a t, tr = (c, a) :: t /\ runs (f a) t (Fin x).
Proof. intros B c f tr x R. apply fin_bind in R as (a & t1 & t2 & -> & R1 & R2). apply runs_sys1 in R1 as [[_ E]|(b & -> & E)]; [discriminate|]. injection E as ->. exists b, t2. auto. Qed.
Lemma fin_lift : forall A B (r : res A) (f : A -> prog B) tr x, runs (a <~ lift r ;; f a) tr (Fin x) -> exists a, r = Ok a /\ runs (f a) tr (Fin x).
Proof. intros A B r f tr x R. apply fin_bind in R as (a & t1 & t2 & -> & R1 & R2). apply runs_lift in R1 as [-> E]. destruct r; try discriminate. injection E as ->. eauto. Qed.

(** A run that starts the program passes through [k], after calls in [P]. *)
Definition leads (P : sys -> Prop) (k p : prog ending) : Prop :=
  forall tr v, runs p tr (Fin (Exec v)) -> exists t1 t2, tr = t1 ++ t2 /\ Forall (fun e => P (fst e)) t1 /\ runs k t2 (Fin (Exec v)).
Lemma leads_here : forall P k, leads P k k.
Proof. intros P k tr v R. exists [], tr. auto. Qed.
Lemma leads_exit : forall P k c, leads P k (Ret (Exit c)).
Proof. intros P k c tr v [_ E]. discriminate. Qed.
Lemma leads_halt : forall P k, leads P k Halt.
Proof. intros P k tr v [_ E]. discriminate. Qed.
Lemma leads_bind : forall A P k (p : prog A) f, calls P p -> (forall a, leads P k (f a)) -> leads P k (pbind p f).
Proof.
  intros A P k p f C L tr v R. apply fin_bind in R as (a & t1 & t2 & -> & R1 & R2). destruct (L a _ _ R2) as (u1 & u2 & -> & F & R).
  exists (t1 ++ u1), u2. split; [rewrite app_assoc; reflexivity|]. split; [|exact R]. apply Forall_app. split; [exact (C _ _ R1)|exact F].
Qed.
Lemma leads_trans : forall P k q p, leads P q p -> leads P k q -> leads P k p.
Proof.
  intros P k q p L1 L2 tr v R. destruct (L1 _ _ R) as (t1 & t2 & -> & F1 & R1). destruct (L2 _ _ R1) as (u1 & u2 & -> & F2 & R2).
  exists (t1 ++ u1), u2. split; [rewrite app_assoc; reflexivity|]. split; [apply Forall_app; auto|exact R2].
Qed.
Lemma do_local : forall c, local c -> calls local (do c).
Proof. intros c L. unfold do. apply calls_bind; [apply calls_sys1; exact L|]. intros a. steps. Qed.
Lemma leads_dup : forall k fd n p, leads local k p -> leads local k (dup fd n p).
Proof. intros. unfold dup. apply leads_bind; [apply calls_sys1; here|]. intros a. destruct (_ =? _); [assumption|apply leads_exit]. Qed.
Ltac leads1 :=
  match goal with
  | |- leads _ _ (pbind (do _) _) => apply leads_bind; [apply do_local; here|intro]
  | |- leads _ _ (pbind (blocking _ _) _) => apply leads_bind; [apply blocking_local|intro]
  | |- leads _ _ (pbind (alarm _) _) => apply leads_bind; [unfold alarm; steps|intro]
  | |- leads _ _ (dup _ _ _) => apply leads_dup
  | |- leads _ ?k ?k => apply leads_here
  | |- leads _ _ ((if ?b then _ else _) _) => destruct b
  end.

Section Child.
Variable I : inet.
Variable stream : list Z -> list Z -> nat -> Z.
Variable fuel : nat.
Variables junk portbuf line0 key0 : list Z.
Variable env : environment.
Variable nojail : bool.
Notation start := (start_child I stream fuel junk portbuf line0 key0 env nojail).
Notation child := (child_start I fuel junk portbuf).

Lemma child_leads : forall cmd p, leads local (child (match certuser (settings cmd) with Some _ => true | None => false end) (user (settings cmd)) (program cmd)) (child_main I fuel junk portbuf cmd p).
Proof. intros cmd p. unfold child_main. cbv zeta. repeat (leads1 || cbv beta). Qed.

Definition exits (x : ending) : Prop := exists n, x = Exit n.
Lemma need_gives : forall q k, gives exits k -> gives exits (need q k).
Proof. intros. unfold need. repeat gives1; auto. eexists; reflexivity. Qed.
Lemma relay_gives : forall cm n z s d, (forall s, gives exits (d s)) -> gives exits (relay fuel cm n z s d).
Proof.
  intros cm n z s d H.
  assert (T : forall s, gives exits ((fun s => _ <~ init_tls (settings cm) n ;;
    '(r, t) <~ tls_phase (timeout cm) 1 z (match certuser (settings cm) with Some _ => true | None => false end) fuel (mkts s false (delayed (settings cm))) ;;
    if r =? 0 then d (fds t) else Ret (Exit r)) s)).
  { intros s1. cbv beta. repeat gives1; auto. eexists; reflexivity. }
  unfold relay, sigaction. cbv zeta. apply gives_bind. intros _. apply gives_bind. intros _. destruct (delayed (settings cm)).
  - apply gives_bind. intros [|]; [apply gives_ret; eexists; reflexivity|]. apply gives_bind. intros a. destruct (_ =? _); [apply gives_ret; eexists; reflexivity|].
    apply gives_bind. intros _. apply gives_bind. intros [r s1]. destruct (r =? 0); [apply H|]. apply gives_bind. intros _. apply T.
  - apply gives_bind. intros v1. apply gives_bind. intros w1. apply gives_bind. intros a. destruct (_ =? _); [apply gives_ret; eexists; reflexivity|]. apply T.
Qed.
Lemma jailed_gives : forall cmd p child key fk tk self, gives exits (jailed_main I fuel env nojail cmd p child key fk tk self).
Proof.
  intros. assert (FI : forall c k f t s, gives exits (finish fuel c k f t s)) by (intros; unfold finish; repeat gives1; eexists; reflexivity).
  unfold jailed_main. cbv zeta. apply gives_bind. intros acc. apply gives_bind. intros dir. apply gives_bind. intros r.
  destruct (_ =? -1); [apply gives_ret; eexists; reflexivity|].
  assert (AN : forall fn a b k, (forall n, gives exits (k n)) -> gives exits (anchor fuel fn a b k)).
  { intros [fn|] a b k H; [|apply H]. unfold anchor. apply gives_bind. intros fn'. apply gives_bind. intros n. apply need_gives. apply gives_bind. intros [x|pem]; [apply gives_ret; eexists; reflexivity|].
    apply gives_bind. intros q. destruct (_ =? _); [apply gives_ret; eexists; reflexivity|apply H]. }
  apply AN. intros talen. unfold peer_info. assert (TE : forall fd i k, gives exits k -> gives exits (tell fuel fd i k)) by (intros; unfold tell; repeat apply need_gives; auto).
  destruct (ppin _).
  - apply gives_bind. intros [q e]. destruct (_ =? _); [apply gives_ret; eexists; reflexivity|]. apply TE. apply relay_gives. intros s. apply FI.
  - apply gives_bind. intros i. apply TE. apply relay_gives. intros s. apply FI.
Qed.
Lemma parent_exits : forall cmd p c tr v, ~ runs (parent_main I stream fuel line0 key0 env nojail cmd p c) tr (Fin (Exec v)).
Proof.
  intros cmd p c tr v R.
  assert (PI : forall K, (forall r w, gives exits (K r w)) -> gives exits (open_pipe K)).
  { intros K H. unfold open_pipe. repeat gives1; [eexists; reflexivity|]. cbv zeta. repeat gives1. apply H. }
  assert (DU : forall fd n k, gives exits k -> gives exits (dup fd n k)).
  { intros. unfold dup. repeat gives1; auto. eexists; reflexivity. }
  assert (G : gives exits (parent_main I stream fuel line0 key0 env nojail cmd p c)).
  { clear R. unfold parent_main. do 9 (apply gives_bind; intros _). apply PI. intros kr kw. apply PI. intros tr' tw. apply gives_bind. intros f.
    destruct (_ =? -1); [apply gives_ret; eexists; reflexivity|]. destruct (_ =? 0).
    - unfold keyjail_main. do 8 (apply gives_bind; intros _). apply DU. apply gives_bind. intros _. apply DU. repeat gives1. eexists; reflexivity.
    - do 4 (apply gives_bind; intros _). apply PI. intros sr sw. apply jailed_gives. }
  destruct (G _ _ R) as (n & E). discriminate.
Qed.
Lemma start_exec : forall cmd tr v, runs (start cmd) tr (Fin (Exec v)) ->
  exists t1 a p t2, tr = t1 ++ (Other (bs "fork") [] [], a) :: t2 /\ Forall (fun e => local (fst e)) t1 /\ ret a = 0 /\ runs (child_main I fuel junk portbuf cmd p) t2 (Fin (Exec v)).
Proof.
  intros cmd tr v R.
  pose (forking := fun p => f <~ sys1 (Other (bs "fork") [] []) ;;
    if ret f =? -1 then Ret (Exit 111) else if ret f =? 0 then child_main I fuel junk portbuf cmd p else parent_main I stream fuel line0 key0 env nojail cmd p (ret f)).
  assert (PI : forall (K : Z -> Z -> prog ending) t, runs (open_pipe K) t (Fin (Exec v)) -> exists r w t1 t2, t = t1 ++ t2 /\ Forall (fun e => local (fst e)) t1 /\ runs (K r w) t2 (Fin (Exec v))).
  { intros K t RU. unfold open_pipe in RU. apply fin_sys in RU as (a & t1 & -> & RU). destruct (_ =? _); [destruct RU; discriminate|]. cbv zeta in RU.
    exists (nth 0 (data a) 0), (nth 1 (data a) 0).
    match type of RU with runs ?q _ _ => assert (L : leads local (K (nth 0 (data a) 0) (nth 1 (data a) 0)) q) by (repeat leads1) end.
    destruct (L _ _ RU) as (u1 & u2 & -> & F & RU2). exists ((Other (bs "pipe") [] [], a) :: u1), u2. split; auto. split; auto. constructor; auto. here. }
  assert (RE : forall k t, runs (reserve fuel k) t (Fin (Exec v)) -> exists t1 t2, t = t1 ++ t2 /\ Forall (fun e => local (fst e)) t1 /\ runs k t2 (Fin (Exec v))).
  { intros k t RU. assert (L : leads local k (reserve fuel k)); [|exact (L _ _ RU)]. unfold reserve. apply leads_bind; [apply calls_sys1; here|]. intros a. destruct (negb _); [apply leads_exit|].
    apply leads_bind; [apply calls_sys1; here|]. intros b. destruct (negb _); [apply leads_exit|]. clear RU.
    generalize fuel. intros f. induction f as [|f IH]; cbn [devnull]; [apply leads_halt|].
    apply leads_bind; [apply calls_sys1; here|]. intros c. destruct (_ =? _); [apply leads_exit|]. destruct (_ <? _); [|exact IH]. repeat leads1. }
  unfold start_child in R. apply fin_bind in R as (u & t0 & t1 & -> & R0 & R).
  assert (L0 : Forall (fun e => local (fst e)) t0). { assert (C : calls local (alarm (hstimeout cmd))) by (unfold alarm; steps). exact (C _ _ R0). }
  assert (R1 : exists t2 t3, t1 = t2 ++ t3 /\ Forall (fun e => local (fst e)) t2 /\ runs (open_pipe (fun a b => open_pipe (fun c d => open_pipe (fun e f => open_pipe (fun g h => forking (mkpipes a b c d e f g h)))))) t3 (Fin (Exec v))).
  { destruct (delayed (settings cmd)); [apply RE in R; exact R|]. exists [], t1. auto. }
  clear R. destruct R1 as (t2 & t3 & -> & L1 & R).
  apply PI in R as (a & b & t4 & t5 & -> & L2 & R). apply PI in R as (c & d & t6 & t7 & -> & L3 & R). apply PI in R as (e & f & t8 & t9 & -> & L4 & R). apply PI in R as (g & h & t10 & t11 & -> & L5 & R).
  unfold forking in R. apply fin_sys in R as (z & t & -> & R). destruct (ret z =? -1); [destruct R; discriminate|].
  destruct (Z.eqb_spec (ret z) 0); [|destruct (parent_exits _ _ _ _ _ R)].
  exists (t0 ++ t2 ++ t4 ++ t6 ++ t8 ++ t10), z, (mkpipes a b c d e f g h), t. split; [rewrite <- !app_assoc; reflexivity|]. split; [repeat (apply Forall_app; split; auto)|]. auto.
Qed.

Lemma receive_exec : forall n k tr v, runs (receive fuel n k) tr (Fin (Exec v)) -> legal tr -> 0 <= n <= CHUNK ->
  exists m t1 t2, tr = t1 ++ t2 /\ reading 0 t1 /\ len m = n /\ bytes m /\ got 0 t1 = frame m /\ runs (k m) t2 (Fin (Exec v)).
Proof.
  intros n k tr v R L B. unfold receive in R. apply fin_bind in R as ([c x] & t1 & t2 & -> & R1 & R2). apply legal_app in L as [L1 L2].
  assert (LZ : len (zeros n) = n) by (unfold len, zeros; rewrite repeat_length; lia).
  destruct (pipe_readall_ok _ _ _ _ _ _ R1 L1) as [O H]; [lia|lia|]. destruct c as [|e]; [|destruct R2; discriminate].
  destruct H as (m & LM & G & -> & _). exists m, t1, t2. split; auto. split; [exact O|]. split; auto. split.
  - pose proof (got_bytes 0 _ L1) as Y. rewrite G in Y. unfold frame in Y. apply Forall_app in Y as [_ Y]. exact Y.
  - split; auto. rewrite skipn_all2 in R2 by (unfold len in *; lia). rewrite app_nil_r in R2. exact R2.
Qed.
Lemma droppriv_exec : forall x k tr v, runs (droppriv x k) tr (Fin (Exec v)) -> pids tr ->
  exists t1 t2, tr = t1 ++ t2 /\ lowered x t1 /\ runs k t2 (Fin (Exec v)).
Proof.
  intros x k tr v R P. unfold droppriv in R. apply fin_bind in R as ([r lim] & t1 & t2 & -> & R1 & R2).
  destruct (Z.eqb_spec r (-1)); [destruct R2; discriminate|].
  assert (P1 : pids t1) by (intros a IN; apply P; apply in_or_app; auto).
  destruct (Z.eq_dec r 0) as [->|NZ]; [|destruct (C36_failure _ _ _ _ _ _ R1 P1 NZ); contradiction].
  destruct (C36_success _ _ _ _ _ R1 P1) as (e & nm & u & g & t & u1 & u2 & -> & ID & D & C1 & C2 & _). inversion ID; subst.
  exists ((Other (bs "getpwnam") [] x, a) :: t ++ u1 ++ u2), t2. split; auto. split; auto.
  eexists _, _, _, t, u1, u2. split; [reflexivity|]. split; [eapply from_name; eauto|auto].
Qed.
Lemma st_last : forall r rest, (0 < length r)%nat -> exists b, st (r ++ rest) (Z.to_nat (len r - 1)) 0 = Ok (removelast r ++ 0 :: b).
Proof.
  intros r rest L. destruct r as [|y r _] using rev_ind; [cbn in L; lia|]. rewrite removelast_last. exists rest.
  rewrite <- app_assoc. cbn [app]. replace (Z.to_nat (len (r ++ [y]) - 1)) with (length r) by (unfold len; rewrite app_length; cbn [length]; lia). apply st_app.
Qed.
Lemma cstr_before : forall l b, cstr (l ++ 0 :: b) = Ok (before 0 l).
Proof. induction l as [|c l IH]; intros b; cbn [app cstr before]; [reflexivity|]. destruct (c =? 0); [reflexivity|]. rewrite IH. reflexivity. Qed.
Lemma login_exec : forall usercert k tr v, runs (login fuel junk usercert k) tr (Fin (Exec v)) -> legal tr -> pids tr -> length junk = 256%nat ->
  exists r t1 d t2, tr = t1 ++ d ++ t2 /\ reading 0 t1 /\ got 0 t1 = frame r /\ bytes r /\ len r <= 256 /\
    ((usercert = true /\ 1 < len r /\ lowered (account_of r) d) \/ ((usercert = false \/ len r <= 1) /\ d = [])) /\ runs k t2 (Fin (Exec v)).
Proof.
  intros usercert k tr v R L P J. unfold login in R. apply fin_bind in R as ([[c x] n] & t1 & t2 & -> & R1 & R2). apply legal_app in L as [L1 L2].
  assert (P2 : pids t2) by (intros a IN; apply P; apply in_or_app; auto).
  destruct (pipe_readmax_ok _ _ _ _ _ _ R1 L1) as [O H]; [unfold len; rewrite J; lia|unfold CHUNK; lia|]. destruct c as [|e]; [|destruct R2; discriminate].
  destruct H as (m & LM & LE & G & X & _).
  assert (B : bytes m). { pose proof (got_bytes 0 _ L1) as Y. rewrite G in Y. unfold frame in Y. apply Forall_app in Y as [_ Y]. exact Y. }
  destruct (Z.leb_spec n 1).
  - exists m, t1, [], t2. split; [reflexivity|]. split; [exact O|]. split; [exact G|]. split; [exact B|]. split; [lia|]. split; [right; split; [right; lia|reflexivity]|exact R2].
  - apply fin_lift in R2 as (y & E & R2). subst x n. destruct (st_last m (skipn (length m) junk)) as (b & S); [unfold len in *; lia|]. rewrite S in E. injection E as <-.
    destruct usercert; cbn [negb] in R2.
    + apply fin_lift in R2 as (z & E & R2). rewrite cstr_before in E. injection E as <-. apply droppriv_exec in R2 as (d & t3 & -> & D & R2); [|exact P2].
      exists m, t1, d, t3. split; [reflexivity|]. split; [exact O|]. split; [exact G|]. split; [exact B|]. split; [lia|]. split; [left; auto|exact R2].
    + exists m, t1, [], t2. split; [reflexivity|]. split; [exact O|]. split; [exact G|]. split; [exact B|]. split; [lia|]. split; [right; auto|exact R2].
Qed.

Lemma ip_text_ok : inet_ok I -> forall a, addr6 a -> ip_text I (iptostr I a) a.
Proof.
  intros O a A. destruct (iptostr_chars I O a A) as (C & _ & _). pose proof (ipchars_nonul _ C) as NN.
  pose proof (parseip_iptostr I O a [] A) as P.
  destruct (ip_env I (Some (iptostr I a))) as (r & E & H); [intros s X; injection X as <-; auto|].
  cbn [parseip_env] in E. rewrite E in P. injection P as ->. destruct H as (s & X & T). injection X as <-. auto.
Qed.
Lemma fin_do : forall B c (f : unit -> prog B) tr x, runs (a <~ do c ;; f a) tr (Fin x) -> exists a t, tr = (c, a) :: t /\ runs (f tt) t (Fin x).
Proof.
  intros B c f tr x R. apply fin_bind in R as ([] & t1 & t2 & -> & R1 & R2). unfold do in R1. apply fin_sys in R1 as (a & t & -> & [-> _]). exists a, t2. auto.
Qed.
Lemma put_exec : forall i k tr v, runs (_ <~ put_connection I portbuf i ;; k) tr (Fin (Exec v)) -> inet_ok I -> length portbuf = 6%nat -> endpoints i ->
  exists t1 t2, tr = t1 ++ t2 /\ told_env I i t1 /\ runs k t2 (Fin (Exec v)).
Proof.
  intros [li lp ri rp] k tr v R O LB (A1 & A2 & L1 & B1 & L2 & B2). cbn [localip localport remoteip remoteport] in *.
  destruct lp as [|l0 [|l1 [|]]]; try discriminate L1. destruct rp as [|r0 [|r1 [|]]]; try discriminate L2.
  pose proof (Forall_inv B1) as Hl0. pose proof (Forall_inv (Forall_inv_tail B1)) as Hl1.
  pose proof (Forall_inv B2) as Hr0. pose proof (Forall_inv (Forall_inv_tail B2)) as Hr1.
  destruct (porttext_ok portbuf r0 r1 LB Hr0 Hr1) as (rs & ER & RT & _). destruct (porttext_ok portbuf l0 l1 LB Hl0 Hl1) as (ls & EL & LT & _).
  apply fin_bind in R as ([] & t1 & t2 & -> & R1 & R2). unfold put_connection, put_env in R1. cbn [localip localport remoteip remoteport] in R1.
  apply fin_do in R1 as (x1 & u1 & -> & R1). apply fin_lift in R1 as (y & E & R1). rewrite ER in E. injection E as <-.
  apply fin_do in R1 as (x2 & u2 & -> & R1). apply fin_do in R1 as (x3 & u3 & -> & R1). apply fin_lift in R1 as (y & E & R1). rewrite EL in E. injection E as <-.
  unfold do in R1. apply fin_sys in R1 as (x4 & u4 & -> & [-> _]).
  eexists _, t2. split; [reflexivity|]. split; [|exact R2]. exists (iptostr I li), ls, (iptostr I ri), rs. cbn [localip localport remoteip remoteport].
  split; [apply ip_text_ok; auto|]. split; [exact LT|]. split; [apply ip_text_ok; auto|]. split; [exact RT|].
  repeat apply Forall2_cons; try apply Forall2_nil; reflexivity.
Qed.

Lemma child_exec : forall usercert user up prg argv tr v, runs (child usercert up argv) tr (Fin (Exec v)) -> legal tr -> pids tr -> inet_ok I -> length junk = 256%nat -> length portbuf = 6%nat ->
  maybe user up -> Forall2 points prg argv ->
  v = prg /\ exists i r d1 d2, handed_over I usercert user prg tr i r d1 d2.
Proof.
  intros usercert user up prg argv tr v R L P O J B MU MP. unfold child_start in R.
  assert (PA : forall x y, pids (x ++ y) -> pids y) by (intros x y PP a IN; apply PP; apply in_or_app; auto).
  apply receive_exec in R as (lip & t1 & u & -> & T1 & L1 & B1 & G1 & R); [|exact L|unfold CHUNK; lia]. apply legal_app in L as [_ L]. apply PA in P.
  apply receive_exec in R as (lp & t2 & u2 & -> & T2 & L2 & B2 & G2 & R); [|exact L|unfold CHUNK; lia]. apply legal_app in L as [_ L]. apply PA in P.
  apply receive_exec in R as (rip & t3 & u3 & -> & T3 & L3 & B3 & G3 & R); [|exact L|unfold CHUNK; lia]. apply legal_app in L as [_ L]. apply PA in P.
  apply receive_exec in R as (rp & t4 & u4 & -> & T4 & L4 & B4 & G4 & R); [|exact L|unfold CHUNK; lia]. apply legal_app in L as [_ L]. apply PA in P.
  assert (EP : endpoints (mkinfo lip lp rip rp)).
  { unfold endpoints, addr6. cbn [localip localport remoteip remoteport]. unfold len in *. repeat split; auto; lia. }
  apply put_exec in R as (te & u5 & -> & TE & R); [|exact O|exact B|exact EP]. apply legal_app in L as [_ L]. apply PA in P.
  apply login_exec in R as (r & tl & d1 & u6 & -> & TL & GL & BR & LR & D1 & R); [|exact L|exact P|exact J]. apply PA in P. apply PA in P.
  apply fin_lift in R as (us & E & R).
  assert (R6 : exists d2 u7, u6 = d2 ++ u7 /\ match user with Some u => lowered u d2 | None => d2 = [] end /\
    runs (_ <~ signal SIGPIPE DFL ;; _ <~ signal SIGCHLD DFL ;; _ <~ signal SIGTERM DFL ;; v <~ lift (cstrs argv) ;; a <~ sys1 (Other (bs "execvp") [] (hd [] v)) ;; Ret (if ret a =? -1 then Exit 111 else Exec v)) u7 (Fin (Exec v))).
  { unfold maybe in MU. destruct user as [w|], up as [q|]; try contradiction; cbn [cstr_opt] in E.
    - rewrite (cstr_ptr _ _ MU) in E. injection E as <-. apply droppriv_exec in R as (d2 & u7 & -> & D & R); [|exact P]. eauto.
    - injection E as <-. exists [], u6. auto. }
  clear R. destruct R6 as (d2 & u7 & -> & D2 & R). unfold signal in R.
  apply fin_do in R as (s1 & v1 & -> & R). apply fin_do in R as (s2 & v2 & -> & R). apply fin_do in R as (s3 & v3 & -> & R).
  apply fin_lift in R as (ws & E2 & R). apply fin_sys in R as (a & v4 & -> & R). destruct R as [-> R].
  assert (WS : ws = prg).
  { clear - E2 MP. revert ws E2. induction MP as [|w q ws' qs PQ _ IH]; intros ws E; cbn [cstrs] in E; [congruence|]. rewrite (cstr_ptr _ _ PQ) in E. cbn [bind] in E.
    destruct (cstrs qs) as [l| |]; try discriminate. injection E as <-. f_equal. apply IH. reflexivity. }
  subst ws. destruct (Z.eqb_spec (ret a) (-1)); [discriminate|]. injection R as ->. split; [reflexivity|].
  exists (mkinfo lip lp rip rp), r, d1, d2. constructor; auto.
  exists (t1 ++ t2 ++ t3 ++ t4), te, tl, [(Other (bs "signal") [SIGPIPE; DFL] [], s1); (Other (bs "signal") [SIGCHLD; DFL] [], s2); (Other (bs "signal") [SIGTERM; DFL] [], s3)], a.
  split; [rewrite <- !app_assoc; reflexivity|]. split; [assumption|]. split; [unfold reading in *; repeat (apply Forall_app; split; auto)|]. split; [|auto 10].
  rewrite !got_app, G1, G2, G3, G4. reflexivity.
Qed.
End Child.
