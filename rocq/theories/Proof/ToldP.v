(** What the wrapper writes to the program's process. *)
From Verif.Model Require Import Base Sys Io Str Inet Config Parsenum Fdio Buffer Relay Session Tlsphase Jail Pem Keyjail Proxy Conninfo Options Profile Main.
From Verif.Spec Require Import Num Ip Text Stream Flow Restrict Starttls Tlsrelay Proxy Endpoints Process Program Fdtable.
From Verif.Proof Require Import Tac SysP CallsP StrP FrameP IoP IpP ProxyP FdioP ConfigP OptionsP SafeP MainCallsP MainP ChildP DescP.
From Verif.Props Require Import PropConninfo PropTlsphase.

(** neither a write to [ci] nor a call of the engine *)
Definition silent (ci : Z) (c : sys) : Prop := match c with Write f _ => f <> ci | _ => noengine c end.
Lemma silent_sent : forall ci t, Forall (fun e => silent ci (fst e)) t -> sent ci t = [].
Proof.
  intros ci t F. induction F as [|[c a] t S F IH]; [reflexivity|]. destruct c; cbn [sent]; auto. cbn [fst silent] in S. destruct (Z.eqb_spec fd ci); [contradiction|exact IH].
Qed.
Lemma engine_names : forall n, firstn 10 n <> bs "tls_engine" -> n <> bs "tls_engine_current_state" /\ n <> bs "tls_engine_recvapp_ack" /\ n <> bs "tls_engine_sendrec_ack".
Proof. intros n H. repeat split; intros ->; apply H; reflexivity. Qed.
Lemma silent_engine : forall ci c, silent ci c -> noengine c.
Proof. intros ci []; cbn; auto. Qed.
Lemma silents_engine : forall ci (t : trace), Forall (fun e => silent ci (fst e)) t -> Forall (fun e => noengine (fst e)) t.
Proof. intros ci t F. eapply Forall_impl; [|exact F]. intros a. apply silent_engine. Qed.
Lemma named_not : forall nm c, noengine c -> firstn 10 nm = bs "tls_engine" \/ nm = bs "clientcrt" -> namedb nm c = false.
Proof.
  intros nm c S E. destruct c; try reflexivity. cbn [namedb]. destruct (list_eq_dec Z.eq_dec name nm) as [->|]; [|reflexivity]. destruct S as [S1 S2]. destruct E; contradiction.
Qed.
Lemma acked_silent : forall nm t u, Forall (fun e => noengine (fst e)) t -> firstn 10 nm = bs "tls_engine" -> acked nm (t ++ u) = acked nm u.
Proof.
  intros nm t u F E. unfold acked. rewrite fold_left_app. f_equal. induction F as [|[c a] t S F IH]; [reflexivity|]. cbn [fold_left fst]. cbn [fst] in S.
  destruct c; try exact IH. rewrite (named_not nm _ S) by auto. destruct args; exact IH.
Qed.
Lemma seenapp_silent : forall t u, Forall (fun e => noengine (fst e)) t -> seenapp (t ++ u) -> seenapp u.
Proof.
  intros t u F (c & a & IN & C & B). exists c, a. split; auto. apply in_app_or in IN as [IN|IN]; auto. exfalso. rewrite Forall_forall in F. specialize (F _ IN). cbn [fst] in F.
  destruct C as (x & d & ->). destruct F as [F _]. apply F. reflexivity.
Qed.
Lemma engine_holds : forall P R t u, Forall (fun e => noengine (fst e)) t -> holds (engine_ok P R) t u -> always (engine_ok P R) u.
Proof.
  intros P R t u F A t1 [c a] t2 E. destruct (A t1 (c, a) t2 E) as (H1 & H2 & H3).
  rewrite acked_silent in H1 by auto. rewrite acked_silent in H2 by auto. split; auto. split; auto. intros C B. destruct (H3 C B) as [X|X]; auto. right. eapply seenapp_silent; eauto.
Qed.
Lemma engine_silent : forall P R t u, Forall (fun e => noengine (fst e)) t -> always (engine_ok P R) (t ++ u) -> always (engine_ok P R) u.
Proof. intros P R t u F A. apply engine_holds with (t := t); [exact F|]. apply (proj2 (holds_always _ _)) in A. apply holds_app in A as [_ A]. exact A. Qed.
Lemma find_silent : forall (t u : trace), Forall (fun e => noengine (fst e)) t -> find (fun e => namedb (bs "clientcrt") (fst e)) (t ++ u) = find (fun e => namedb (bs "clientcrt") (fst e)) u.
Proof. intros t u F. induction F as [|e t S F IH]; [reflexivity|]. cbn [app find]. rewrite (named_not _ _ S) by auto. exact IH. Qed.
Lemma record_silent : forall uc rep t u, Forall (fun e => noengine (fst e)) t -> record uc rep (t ++ u) = record uc rep u.
Proof. intros uc rep t u F. unfold record, account. rewrite find_silent by exact F. reflexivity. Qed.
Lemma record_after : forall uc rep t u, Forall (fun e => noengine (fst e)) u -> record uc rep (t ++ u) = record uc rep t.
Proof.
  intros uc rep t u F. unfold record, account.
  assert (E : find (fun e => namedb (bs "clientcrt") (fst e)) (t ++ u) = find (fun e => namedb (bs "clientcrt") (fst e)) t); [|rewrite E; reflexivity].
  induction t as [|e t IH]; cbn [app find]; [|destruct (namedb _ _); auto]. pose proof (find_silent u [] F) as X. rewrite app_nil_r in X. exact X.
Qed.
Lemma always_app1 : forall OK t u, always OK (t ++ u) -> always OK t.
Proof. intros OK t u A t1 e t2 ->. apply (A t1 e (t2 ++ u)). rewrite <- app_assoc. reflexivity. Qed.

(** ** silent parts *)
Ltac quiet1 := repeat (calls1 || (progress cbv zeta)); try (split; discriminate); try exact Logic.I.
Lemma jail_silent : forall ci a d l, calls (silent ci) (jail a d l).
Proof. intros. unfold jail, jail_main, must, mustbe, when, jail_limit_memory. destruct a, d, l; quiet1. Qed.
Lemma pipe_write_silent : forall ci f fd x n, fd <> ci -> calls (silent ci) (pipe_write f fd x n).
Proof. intros ci f fd x n D. eapply calls_weak; [apply pipe_write_calls|]. intros c [(b & ->)| ->]; [exact D|exact Logic.I]. Qed.
Lemma readalloc_silent : forall ci f fd, calls (silent ci) (pipe_readalloc f fd).
Proof. intros. assert (RA : forall f fd x n, calls (silent ci) (readall f fd x n)) by (induction f0; intros; cbn [readall]; quiet1; auto). unfold pipe_readalloc. quiet1; apply RA. Qed.
Lemma connection_silent : forall ci I e, calls (silent ci) (connection I e).
Proof. intros. unfold connection, socket_name. quiet1. Qed.
Lemma blocking_silent : forall ci fd b, calls (silent ci) (blocking fd b).
Proof. intros. unfold blocking, do. quiet1. Qed.
Lemma shut_r_silent : forall ci v, calls (silent ci) (shut_r v).
Proof. intros. unfold shut_r, fd_close_read, fd_close_, tryshutdown, tryclose. quiet1. Qed.
Lemma shut_w_silent : forall ci v, calls (silent ci) (shut_w v).
Proof. intros. unfold shut_w, fd_close_write, fd_close_, tryshutdown, tryclose. quiet1. Qed.
Lemma oneread_silent : forall ci f fd a n, calls (silent ci) (oneread f fd a n).
Proof. intros ci f. induction f; intros; cbn [oneread]; quiet1; auto. Qed.
Lemma getc_silent : forall ci f b, calls (silent ci) (buffer_GETC f b).
Proof. intros. unfold buffer_GETC, buffer_get, buffer_feed. quiet1; auto using oneread_silent. Qed.
Lemma pp_read_silent : forall ci f k b n l, calls (silent ci) (pp_read f k b n l).
Proof. intros ci f k. induction k; intros; cbn [pp_read]; quiet1; auto using getc_silent. Qed.
Lemma proxy_silent : forall ci f I fd o, calls (silent ci) (proxyprotocol_v1_get f I fd o).
Proof. intros. unfold proxyprotocol_v1_get. cbv zeta. apply calls_bind; [apply pp_read_silent|intros; quiet1]. Qed.

(** ** where the information comes from *)
Lemma field_model : forall x k n, (k + n <= 24)%nat -> firstn n (skipn k (map u8 (skipn 1 (data x)) ++ repeat 0 24)) = field x k n.
Proof.
  intros x k n L. unfold field. set (d := map u8 (skipn 1 (data x)) ++ repeat 0 24). assert (LD : (k + n <= length d)%nat) by (unfold d; rewrite app_length, repeat_length; lia).
  assert (N : forall j, nth j d 0 = nth (S j) (data x) 0 mod 256).
  { intros j. unfold d. assert (E : nth (S j) (data x) 0 = nth j (skipn 1 (data x)) 0) by (destruct (data x) as [|y l]; [destruct j; reflexivity|reflexivity]). rewrite E. clear.
    generalize (skipn 1 (data x)). intros l. destruct (lt_dec j (length l)).
    - rewrite app_nth1 by (rewrite map_length; lia). rewrite (nth_indep _ 0 (u8 0)) by (rewrite map_length; lia). rewrite map_nth. reflexivity.
    - rewrite app_nth2 by (rewrite map_length; lia). rewrite (nth_overflow l) by lia. rewrite nth_repeat. reflexivity. }
  clearbody d. revert k LD L. induction n as [|n IH]; intros k LD L; [reflexivity|]. cbn [seq map].
  rewrite <- seq_shift, map_map. replace (S k + 0)%nat with (S k) by lia.
  destruct (skipn k d) as [|y l] eqn:E; [exfalso; apply (f_equal (@length Z)) in E; rewrite skipn_length in E; cbn [length] in E; lia|]. cbn [firstn]. f_equal.
  - rewrite <- N. clear - E. revert d E. induction k; intros [|z d] E; cbn [skipn nth] in *; try discriminate; [congruence|apply IHk; exact E].
  - assert (E2 : l = skipn (S k) d). { clear - E. revert d E. induction k; intros [|z d] E; cbn [skipn] in *; try discriminate; [congruence|apply IHk in E; exact E]. }
    rewrite E2, IH by lia. apply map_ext. intros j. f_equal. f_equal. lia.
Qed.
Lemma socket_ok : forall nm t x, runs (socket_name nm) t (Fin x) -> exists a, t = [(Other nm [0] [], a)] /\ x = socket_answer a.
Proof.
  intros nm t x R. unfold socket_name in R. apply fin_sys in R as (a & u & -> & [-> E]). injection E as ->. exists a. split; auto.
  unfold socket_answer. destruct (_ =? _); [reflexivity|]. rewrite <- !field_model by lia. reflexivity.
Qed.
Lemma field_len : forall x k n, length (field x k n) = n.
Proof. intros. unfold field. rewrite map_length, seq_length. reflexivity. Qed.
Lemma endpoint_len : forall a s x p, socket_answer a = Some s -> endpoint s = Some (x, p) -> length x = 16%nat /\ length p = 2%nat.
Proof.
  intros a s x p E1 E2. unfold socket_answer in E1. destruct (_ =? _); [discriminate|]. injection E1 as <-. unfold endpoint in E2. cbn [family sin_addr sin_port sin6_addr sin6_port] in E2.
  destruct (nth 0 (data a) 0 =? AF_INET); [injection E2 as <- <-; unfold field; rewrite ?app_length, ?map_length, ?seq_length; auto|]. destruct (nth 0 (data a) 0 =? AF_INET6); [injection E2 as <- <-; rewrite !field_len; auto|discriminate].
Qed.
Section Info.
Variable I : inet.
Hypothesis OK : inet_ok I.
Lemma ip_text_len : forall s a, ip_text I s a -> length a = 16%nat.
Proof. intros s a [(q & E & ->)|(_ & E)]; [apply (ok_pton4_addr I OK) in E as [E _]; cbn [app length]; congruence|apply (ok_pton6_addr I OK) in E as [E _]; exact E]. Qed.
Lemma port_text_len : forall s p, port_text s p -> length p = 2%nat.
Proof. intros s p (a & b & -> & _). reflexivity. Qed.
Lemma fromenv_sized : forall e i b j, strings e -> sized i -> connectioninfo_fromenv I e i = Ok (b, j) -> sized j.
Proof.
  intros e i b j S (L1 & L2 & L3 & L4) E. unfold connectioninfo_fromenv in E.
  assert (N : forall n s, getenv e n = Some s -> nonul s) by (intros; eapply get_strings; eauto).
  destruct (ip_env I (getenv e (bs "TCPLOCALIP")) (N _)) as (r1 & E1 & H1). rewrite E1 in E. cbn [bind] in E. destruct r1 as [a|]; [|injection E as <- <-; repeat split; assumption]. destruct H1 as (s1 & _ & H1). apply ip_text_len in H1.
  destruct (port_env (getenv e (bs "TCPLOCALPORT")) (N _)) as (r2 & E2 & H2). rewrite E2 in E. cbn [bind] in E. destruct r2 as [p|]; [|injection E as <- <-; repeat split; assumption]. destruct H2 as (s2 & _ & H2). apply port_text_len in H2.
  destruct (ip_env I (getenv e (bs "TCPREMOTEIP")) (N _)) as (r3 & E3 & H3). rewrite E3 in E. cbn [bind] in E. destruct r3 as [c|]; [|injection E as <- <-; repeat split; assumption]. destruct H3 as (s3 & _ & H3). apply ip_text_len in H3.
  destruct (port_env (getenv e (bs "TCPREMOTEPORT")) (N _)) as (r4 & E4 & H4). rewrite E4 in E. cbn [bind] in E. destruct r4 as [d|]; [|injection E as <- <-; repeat split; assumption]. destruct H4 as (s4 & _ & H4). apply port_text_len in H4.
  injection E as <- <-. repeat split; assumption.
Qed.
Lemma connection_ok : forall env t i, strings env -> runs (connection I env) t (Fin i) -> sized i /\ observed I env false t i.
Proof.
  intros env t i S R. unfold connection in R. apply fin_lift in R as ([b j] & E & R).
  assert (SJ : sized j) by (eapply fromenv_sized; [exact S| |exact E]; repeat split; reflexivity).
  destruct (fromenv_ok I env zero_info S) as [(k & SAY & E')|(k & NO & E')]; rewrite E' in E; injection E as <- <-.
  - destruct R as [-> R]. injection R as ->. split; [exact SJ|]. left. exact SAY.
  - apply fin_bind in R as (h & t1 & t2 & -> & R1 & R). apply socket_ok in R1 as (x & -> & ->). destruct SJ as (S1 & S2 & S3 & S4).
    assert (BAD : forall y, (forall a b, ~ sock_says (socket_answer x) a b) -> observed I env false ([(Other (bs "getsockname") [0] [], x)] ++ t2) y).
    { intros y H. right. split; [exact NO|]. right. exists (bs "getsockname"), x. split; [auto|]. split; [left; reflexivity|exact H]. }
    destruct (socket_answer x) as [s|] eqn:EX.
    + pose proof (endpoint_ok s) as H. destruct (endpoint s) as [[a p]|] eqn:EE.
      * apply fin_bind in R as (pe & t3 & t4 & -> & R1 & R). apply socket_ok in R1 as (y & -> & ->). destruct R as [-> R]. assert (EI : i = snd (connectioninfo_fromfd (Some s) (socket_answer y) k)) by congruence. rewrite EI. clear R EI.
        destruct (endpoint_len _ _ _ _ EX EE) as [LA LP]. unfold connectioninfo_fromfd. rewrite EE. destruct (socket_answer y) as [s'|] eqn:EY.
        -- pose proof (endpoint_ok s') as H'. destruct (endpoint s') as [[c d]|] eqn:EE'.
           ++ destruct (endpoint_len _ _ _ _ EY EE') as [LC LD]. split; [repeat split; assumption|]. right. split; [exact NO|]. left. exists x, y, a, p, c, d.
              split; [left; reflexivity|]. split; [right; left; reflexivity|]. rewrite EX, EY. auto.
           ++ split; [repeat split; assumption|]. right. split; [exact NO|]. right. exists (bs "getpeername"), y. split; [auto|]. split; [right; left; reflexivity|]. rewrite EY. exact H'.
        -- split; [repeat split; assumption|]. right. split; [exact NO|]. right. exists (bs "getpeername"), y. split; [auto|]. split; [right; left; reflexivity|]. rewrite EY. intros a' b' (n & X & _). discriminate.
      * destruct R as [-> R]. assert (EI : i = snd (connectioninfo_fromfd (Some s) None k)) by congruence. rewrite EI. unfold connectioninfo_fromfd. rewrite EE. split; [repeat split; assumption|]. apply BAD. exact H.
    + destruct R as [-> R]. assert (EI : i = k) by (cbn in R; congruence). rewrite EI. split; [repeat split; assumption|]. apply BAD. intros a b (n & X & _). discriminate.
Qed.
Lemma pp_sized : forall u e, pp_line I u e -> sized (mkinfo (lip e) (lport e) (rip e) (rport e)).
Proof.
  intros u e H. inversion H; subst; [repeat split; reflexivity|].
  assert (A : forall v s a, (if (v : bool) then fam6 I s a else fam4 I s a) -> length a = 16%nat).
  { intros [|] s a X; [apply (ok_pton6_addr I OK) in X as [X _]; exact X|]. destruct X as (q & X & ->). apply (ok_pton4_addr I OK) in X as [X _]. rewrite app_length, X. reflexivity. }
  assert (B : forall s p, port2 s p -> length p = 2%nat) by (intros s p (_ & a & b & -> & _); reflexivity).
  unfold sized. cbn [lip lport rip rport localip localport remoteip remoteport]. repeat split; eauto.
Qed.
End Info.

(** ** The stream to the program's process *)
Lemma shut_r_gives : forall v, gives (eq (-1)) (shut_r v).
Proof.
  intros v tr x R. unfold shut_r in R. apply fin_bind in R as ([y e] & t1 & t2 & -> & R1 & R2). apply fd_close_ok in R1 as (_ & H1 & H2).
  destruct (Z.eq_dec v (-1)) as [->|N]; [destruct (H1 eq_refl) as [_ E]; injection E as -> _; destruct R2 as [_ R2]; congruence|].
  destruct (H2 N) as (n & _ & [E|[_ E]]); [discriminate|]. injection E as -> _. destruct R2 as [_ R2]. congruence.
Qed.
Lemma shut_w_gives : forall v, gives (eq (-1)) (shut_w v).
Proof.
  intros v tr x R. unfold shut_w in R. apply fin_bind in R as ([y e] & t1 & t2 & -> & R1 & R2). apply fd_close_ok in R1 as (_ & H1 & H2).
  destruct (Z.eq_dec v (-1)) as [->|N]; [destruct (H1 eq_refl) as [_ E]; injection E as -> _; destruct R2 as [_ R2]; congruence|].
  destruct (H2 N) as (n & _ & [E|[_ E]]); [discriminate|]. injection E as -> _. destruct R2 as [_ R2]. congruence.
Qed.
Lemma prefix_len : forall a b : list Z, is_prefix a b -> len a <= len b.
Proof. intros a b (u & ->). rewrite len_app. pose proof (len_nonneg _ u). lia. Qed.
Section Told.
Variable I : inet.
Variable fuel : nat.
Variable env : environment.
Variable nojail : bool.
Variable cmd : command.
Variable p : pipes.
Variables child key fk tk self : Z.
Variables P R : list Z.
Hypothesis OK : inet_ok I.
Hypothesis ENV : strings env.
Hypothesis SETUP : tls_setup 0 1 (toc_w p) (fromc_r p) self.
Hypothesis POS : 0 <= toc_w p /\ 0 <= fromc_r p.
Hypothesis TK : tk <> toc_w p.
Notation ci := (toc_w p).
Let uc := match certuser (settings cmd) with Some _ => true | None => false end.
Let delay := delayed (settings cmd).
Definition restok (w : trace) (rest : list Z) : Prop :=
  (delay = false -> rest = record uc false w ++ P) /\ (delay = true -> exists more, rest = frame [0] ++ more).
(** more than [n] bytes are sent only with a client certificate, if the name is to come from it *)
Definition beyond (n : Z) (x : list Z) (w : trace) : Prop := delay = false -> n < len x -> certified uc false w.
Definition outs (X : list Z) (q : prog ending) : Prop :=
  forall w o, runs q w o -> legal w -> always (engine_ok P R) w -> exists rest, is_prefix (sent ci w) (X ++ rest) /\ restok w rest /\ beyond (len X) (sent ci w) w.

Lemma restok_some : forall w, exists rest, restok w rest.
Proof. intros w. destruct (delay) eqn:E; [exists (frame [0])|exists (record uc false w ++ P)]; split; rewrite E; intros H; try discriminate; auto. exists []. rewrite app_nil_r. reflexivity. Qed.
Lemma restok_before : forall u w rest, Forall (fun e => noengine (fst e)) u -> restok w rest -> restok (u ++ w) rest.
Proof. intros u w rest F [H1 H2]. split; auto. intros E. rewrite record_silent by exact F. auto. Qed.
Lemma certified_more : forall (t u : trace), certified uc false t -> certified uc false (t ++ u).
Proof. intros t u H U V. destruct (H U V) as (e & E & N). exists e. split; auto. pose proof (TlsphaseP.find_app _ (fun e : event => namedb (bs "clientcrt") (fst e)) t u) as X. unfold event in *. rewrite X, E. reflexivity. Qed.
Lemma beyond_before : forall n x u w, Forall (fun e => noengine (fst e)) u -> beyond n x w -> beyond n x (u ++ w).
Proof. intros n x u w F H D L U V. destruct (H D L U V) as (e & E & N). exists e. split; [rewrite find_silent by exact F; exact E|exact N]. Qed.
Lemma beyond_after : forall n x u w, beyond n x u -> beyond n x (u ++ w).
Proof. intros n x u w H D L. apply certified_more. auto. Qed.
Lemma beyond_less : forall n x y w, len x <= len y -> beyond n y w -> beyond n x w.
Proof. intros n x y w LE H D L. apply H; [exact D|lia]. Qed.
Lemma beyond_short : forall X a w, is_prefix a X -> beyond (len X) a w.
Proof. intros X a w H D L. apply prefix_len in H. lia. Qed.
Lemma outs_nothing : forall X w, sent ci w = [] -> exists rest, is_prefix (sent ci w) (X ++ rest) /\ restok w rest /\ beyond (len X) (sent ci w) w.
Proof.
  intros X w E. destruct (restok_some w) as (rest & H). exists rest. split; [rewrite E; eexists; reflexivity|]. split; [exact H|]. apply beyond_short. rewrite E. eexists; reflexivity.
Qed.
Lemma outs_skip_gives : forall B (V : B -> Prop) X (q : prog B) f, calls (silent ci) q -> gives V q -> (forall a, V a -> outs X (f a)) -> outs X (pbind q f).
Proof.
  intros B V X q f C G K w o RU L A. apply runs_bind in RU as [(a & t1 & t2 & -> & R1 & R2)|[[R1 ->]|[R1 ->]]]; [|apply outs_nothing; apply silent_sent; exact (C _ _ R1)..].
  pose proof (C _ _ R1) as F. pose proof (silents_engine _ _ F) as FE. apply legal_app in L as [L1 L2]. destruct (K a (G _ _ R1) _ _ R2 L2) as (rest & H1 & H2 & H3); [eapply engine_silent; eauto|].
  exists rest. rewrite sent_app, (silent_sent _ _ F). cbn [app]. split; [exact H1|]. split; [apply restok_before; assumption|apply beyond_before; assumption].
Qed.
Lemma outs_skip : forall B X (q : prog B) f, calls (silent ci) q -> (forall a, outs X (f a)) -> outs X (pbind q f).
Proof. intros B X q f C K. apply (outs_skip_gives B (fun _ => True)); auto. intros w r _. exact Logic.I. Qed.
Lemma outs_silent : forall X q, calls (silent ci) q -> outs X q.
Proof. intros X q C w o RU L A. apply outs_nothing. apply silent_sent. exact (C _ _ RU). Qed.
Lemma outs_sys : forall X c f, silent ci c -> (forall a, outs X (f a)) -> outs X (a <~ sys1 c ;; f a).
Proof. intros. apply outs_skip; auto. apply calls_sys1. assumption. Qed.
Lemma outs_do : forall X c f, silent ci c -> (forall a, outs X (f a)) -> outs X (a <~ do c ;; f a).
Proof. intros. apply outs_skip; auto. unfold do. quiet1. assumption. Qed.
Lemma outs_exit : forall X n, outs X (Ret (Exit n)).
Proof. intros. apply outs_silent. quiet1. Qed.
Lemma finish_silent : forall s, calls (silent ci) (finish fuel child key fk tk s).
Proof.
  intros s. assert (W : forall n pid, calls (silent ci) (wait n pid)) by (induction n; intros; cbn [wait]; quiet1; auto).
  unfold finish, signal, do. quiet1; auto using shut_r_silent, shut_w_silent.
Qed.
Lemma writes_engine : forall fd (t : trace), Forall (fun e => writes fd (fst e)) t -> Forall (fun e => noengine (fst e)) t.
Proof. intros fd t F. eapply Forall_impl; [|exact F]. intros a [(b & ->)| ->]; exact Logic.I. Qed.
Lemma prefix_short : forall a b c : list Z, is_prefix a b -> is_prefix a (b ++ c).
Proof. intros a b c (u & ->). exists (u ++ c). rewrite app_assoc. reflexivity. Qed.
Lemma outs_write : forall X m f, len m < two63 -> (forall c, (c = Good -> outs X (f c)) /\ (c <> Good -> exists n, f c = Ret n)) -> outs (frame m ++ X) (c <~ pipe_write fuel ci m (len m) ;; f c).
Proof.
  intros X m f LM K w o RU L A. rewrite <- (app_nil_r m) in RU at 1.
  apply runs_bind in RU as [(c & t1 & t2 & -> & R1 & R2)|[[R1 ->]|[R1 ->]]].
  - pose proof (writes_engine _ _ (pipe_write_calls _ _ _ _ _ _ R1)) as FE. apply legal_app in L as [L1 L2]. apply pipe_write_ok in R1 as [_ H]; auto. destruct c as [|e].
    + destruct H as [H _]. destruct (K Good) as [K1 _]. destruct (K1 eq_refl _ _ R2 L2) as (rest & (u & H1) & H2 & H3); [eapply engine_silent; eauto|].
      exists rest. rewrite sent_app, H. split; [exists u; rewrite <- !app_assoc, H1; reflexivity|]. split; [apply restok_before; auto|]. apply beyond_before; [exact FE|].
      intros D LT. apply H3; [exact D|]. rewrite !len_app in LT. lia.
    + destruct H as [H _]. destruct (K (Fail e)) as [_ K2]. destruct K2 as (n & E); [discriminate|]. rewrite E in R2. destruct R2 as [-> _]. rewrite app_nil_r.
      destruct (restok_some t1) as (rest & HR). exists rest. split; [rewrite <- app_assoc; apply prefix_short; exact H|]. split; [exact HR|]. apply beyond_short. apply prefix_short. exact H.
  - apply pipe_write_ok in R1 as [_ H]; auto. destruct H.
  - apply pipe_write_ok in R1 as [_ [H _]]; auto. destruct (restok_some w) as (rest & HR). exists rest. split; [rewrite <- app_assoc; apply prefix_short; exact H|]. split; [exact HR|]. apply beyond_short. apply prefix_short. exact H.
Qed.
Lemma outs_need : forall X m n k, len m = n -> len m < two63 -> outs X k -> outs (frame m ++ X) (need (pipe_write fuel ci m n) k).
Proof. intros X m n k <- LM K. unfold need. apply outs_write; auto. intros [|e]; split; intros H; try contradiction; try discriminate; auto. eexists; reflexivity. Qed.
Lemma outs_tell : forall i k, sized i -> outs [] k -> outs (frames i) (tell fuel ci i k).
Proof.
  intros i k (S1 & S2 & S3 & S4) K. unfold tell, frames. rewrite <- (app_nil_r (frame (remoteport i))).
  assert (N : forall n, (n <= 16)%nat -> Z.of_nat n < two63) by (intros n H; unfold two63; lia).
  repeat (apply outs_need; [unfold len; rewrite ?S1, ?S2, ?S3, ?S4; reflexivity|unfold len; rewrite ?S1, ?S2, ?S3, ?S4; apply N; lia|]). exact K.
Qed.
Lemma outs_phase : delay = false -> forall b1 b2, outs [] ('(r, t) <~ tls_phase (timeout cmd) 1 self uc fuel (mkts (mksess 0 1 ci (fromc_r p) (-1) (-1) b1 b2) false false) ;;
  if r =? 0 then finish fuel child key fk tk (fds t) else Ret (Exit r)).
Proof.
  intros D b1 b2 w o RU L A.
  assert (EQ : mksess 0 1 ci (fromc_r p) (-1) (-1) b1 b2 = mksess 0 1 (closed_as ci) (closed_as (fromc_r p)) (-1) (-1) b1 b2).
  { unfold closed_as. destruct (Z.ltb_spec ci 0); [lia|]. destruct (Z.ltb_spec (fromc_r p) 0); [lia|]. reflexivity. }
  rewrite EQ in RU. clear EQ.
  assert (H : forall t q, runs (tls_phase (timeout cmd) 1 self uc fuel (mkts (mksess 0 1 (closed_as ci) (closed_as (fromc_r p)) (-1) (-1) b1 b2) false false)) t q -> legal t -> always (engine_ok P R) t -> is_prefix (sent ci t) (record uc false t ++ P) /\ (sent ci t <> [] -> certified uc false t)).
  { intros t q RT LT AT. destruct (C60_streams _ _ _ _ _ _ _ _ _ _ _ _ SETUP _ _ RT LT P R AT) as (X & _ & Y). split; [exact X|exact Y]. }
  assert (DO : forall t, is_prefix (sent ci t) (record uc false t ++ P) /\ (sent ci t <> [] -> certified uc false t) -> exists rest, is_prefix (sent ci t) ([] ++ rest) /\ restok t rest /\ beyond (len (@nil Z)) (sent ci t) t).
  { intros t [X Y]. exists (record uc false t ++ P). split; [exact X|]. split; [split; [reflexivity|rewrite D; discriminate]|]. intros _ LT. apply Y. intros Z. rewrite Z in LT. unfold len in LT. cbn in LT. lia. }
  apply runs_bind in RU as [([r ts] & t1 & t2 & -> & R1 & R2)|[[R1 ->]|[R1 ->]]]; [|apply DO; eapply H; eauto..].
  assert (F : Forall (fun e => silent ci (fst e)) t2).
  { assert (C : calls (silent ci) (if r =? 0 then finish fuel child key fk tk (fds ts) else Ret (Exit r))) by (destruct (r =? 0); [apply finish_silent|quiet1]). exact (C _ _ R2). }
  apply DO. rewrite sent_app, (silent_sent _ _ F), app_nil_r, record_after by (eapply silents_engine; eauto). apply legal_app in L as [L1 _]. destruct (H _ _ R1 L1 (always_app1 _ _ _ A)) as [X Y]. split; [exact X|]. intros N. apply certified_more. auto.
Qed.
Lemma alarm_silent : forall n, calls (silent ci) (alarm n).
Proof. intros. unfold alarm. quiet1. Qed.
Lemma init_silent : forall o n, calls (silent ci) (init_tls o n).
Proof. intros. unfold init_tls, tls_profile, client_certificates, br, randombytes. apply calls_bind; [apply calls_lift|]. intros x. quiet1. Qed.
Lemma outs_relay : forall n, outs [] (relay fuel cmd n self (mksess 0 1 ci (fromc_r p) (fromctl_r p) (toctl_w p) empty empty) (finish fuel child key fk tk)).
Proof.
  intros n. unfold relay. cbv zeta. fold uc. fold delay. apply outs_skip; [apply blocking_silent|]. intros _. apply outs_skip; [apply blocking_silent|]. intros _. destruct delay eqn:D.
  - intros w o RU L A. change (is_prefix (sent ci w)) with (fun x => is_prefix (sent ci w) x). cbn [childin] in RU. unfold report_user in RU. rewrite (eq_refl : str_len [0] = Ok 0) in RU. cbn [lift pbind] in RU.
    assert (Q : exists more, is_prefix (sent ci w) (frame [0] ++ more)).
    { apply runs_bind in RU as [(b & t1 & t2 & -> & R1 & R2)|[[R1 ->]|[R1 ->]]].
      - apply fin_bind in R1 as (c & t3 & t4 & -> & R1 & R3). apply legal_app in L as [L _]. apply legal_app in L as [L _]. destruct (pipe_write_ok fuel ci [0] [] t3 (Fin c) R1 L eq_refl) as [_ H].
        destruct c as [|e]; destruct R3 as [-> E]; injection E as ->.
        + exists (sent ci t2). rewrite app_nil_r, sent_app. destruct H as [-> _]. exists []. rewrite app_nil_r. reflexivity.
        + destruct R2 as [-> _]. rewrite !app_nil_r. exists []. rewrite app_nil_r. apply H.
      - apply runs_bind in R1 as [(c & t3 & t4 & -> & R1 & R3)|[[R1 E]|[R1 E]]]; [destruct c; destruct R3; discriminate| |discriminate]. destruct (pipe_write_ok fuel ci [0] [] w Wrong R1 L eq_refl) as [_ []].
      - apply runs_bind in R1 as [(c & t3 & t4 & -> & R1 & R3)|[[R1 E]|[R1 E]]]; [destruct c; destruct R3; discriminate|discriminate|]. destruct (pipe_write_ok fuel ci [0] [] w Cut R1 L eq_refl) as [_ [H _]]. exists []. rewrite app_nil_r. exact H. }
    destruct Q as (more & Q). exists (frame [0] ++ more). split; [exact Q|]. split; [split; [rewrite D; discriminate|eauto]|]. intros X. rewrite D in X. discriminate.
  - apply (outs_skip_gives _ (eq (-1))); [apply shut_r_silent|apply shut_r_gives|]. intros _ <-. apply (outs_skip_gives _ (eq (-1))); [apply shut_w_silent|apply shut_w_gives|]. intros _ <-.
    unfold sigaction. apply outs_sys; [split; discriminate|]. intros a. destruct (_ =? _); [apply outs_exit|]. apply outs_skip; [apply init_silent|]. intros _. unfold set_childack, set_childctl. cbn [peerin peerout childin childout childctl childack toc ton]. apply outs_phase. exact D.
Qed.

(** what the wrapper writes to the program's process, from the jail on *)
Definition tells (w : trace) : Prop :=
  exists i rest, is_prefix (sent ci w) (frames i ++ rest) /\ (sent ci w <> [] -> observed I env (ppin (settings cmd)) w i) /\ restok w rest /\ beyond (len (frames i)) (sent ci w) w /\ sized i.
Definition told1 (q : prog ending) : Prop := forall w o, runs q w o -> legal w -> always (engine_ok P R) w -> tells w.
Lemma tells_nothing : forall w, sent ci w = [] -> tells w.
Proof. intros w E. destruct (restok_some w) as (rest & H). exists zero_info, rest. split; [rewrite E; eexists; reflexivity|]. split; [contradiction|]. split; [exact H|]. split; [apply beyond_short; rewrite E; eexists; reflexivity|repeat split; reflexivity]. Qed.
Lemma observed_after : forall b u w i, observed I env b w i -> got 0 u = [] -> observed I env b (u ++ w) i.
Proof.
  intros [] u w i H E; [destruct H as (t1 & t2 & v & -> & H); exists (u ++ t1), t2, v; split; [rewrite app_assoc; reflexivity|rewrite got_app, E; exact H]|]. destruct H as [H|[N [H|H]]]; [left; exact H|right; split; [exact N|left]|right; split; [exact N|right]].
  - destruct H as (x & y & a & b & c & d & H1 & H2 & H). exists x, y, a, b, c, d. split; [apply in_or_app; auto|]. split; [apply in_or_app; auto|exact H].
  - destruct H as (nm & x & H1 & H2 & H). exists nm, x. split; auto. split; auto. apply in_or_app; auto.
Qed.
Lemma observed_more : forall b u w i, observed I env b u i -> observed I env b (u ++ w) i.
Proof.
  intros [] u w i H; [destruct H as (t1 & t2 & v & -> & H); exists t1, (t2 ++ w), v; split; [rewrite app_assoc; reflexivity|exact H]|]. destruct H as [H|[N [H|H]]]; [left; exact H|right; split; [exact N|left]|right; split; [exact N|right]].
  - destruct H as (x & y & a & b & c & d & H1 & H2 & H). exists x, y, a, b, c, d. split; [apply in_or_app; auto|]. split; [apply in_or_app; auto|exact H].
  - destruct H as (nm & x & H1 & H2 & H). exists nm, x. split; auto. split; auto. apply in_or_app; auto.
Qed.

(** neither a write to [ci], nor a read from the connection, nor a call of the engine *)
Definition mute (c : sys) : Prop := match c with Write f _ => f <> ci | Read f _ => f <> 0 | _ => noengine c end.
Lemma mute_silent : forall (t : trace), Forall (fun e => mute (fst e)) t -> Forall (fun e => silent ci (fst e)) t.
Proof. intros t F. eapply Forall_impl; [|exact F]. intros [[] a] M; cbn in *; auto. Qed.
Lemma mute_got : forall t, Forall (fun e => mute (fst e)) t -> got 0 t = [].
Proof. intros t F. induction F as [|[c a] t S F IH]; [reflexivity|]. destruct c; cbn [got]; auto. cbn [fst mute] in S. destruct (Z.eqb_spec fd 0); [contradiction|exact IH]. Qed.
Lemma told_skip : forall B (q : prog B) f, calls mute q -> (forall a, told1 (f a)) -> told1 (pbind q f).
Proof.
  intros B q f C K w o RU L A. apply runs_bind in RU as [(a & t1 & t2 & -> & R1 & R2)|[[R1 ->]|[R1 ->]]]; [|apply tells_nothing; apply silent_sent; apply mute_silent; exact (C _ _ R1)..].
  pose proof (C _ _ R1) as FM. pose proof (mute_silent _ FM) as F. pose proof (silents_engine _ _ F) as FE. apply legal_app in L as [L1 L2]. destruct (K a _ _ R2 L2) as (i & rest & H1 & H2 & H3 & H4 & H5); [eapply engine_silent; eauto|].
  exists i, rest. rewrite sent_app, (silent_sent _ _ F). cbn [app]. split; [exact H1|]. split; [|split; [apply restok_before; assumption|split; [apply beyond_before; assumption|exact H5]]]. intros N. apply observed_after; [auto|apply mute_got; exact FM].
Qed.
Lemma told_exit : forall n, told1 (Ret (Exit n)).
Proof. intros n w o [-> _] L A. apply tells_nothing. reflexivity. Qed.
Lemma jail_mute : forall a d l, calls mute (jail a d l).
Proof. intros. unfold jail, jail_main, must, mustbe, when, jail_limit_memory. destruct a, d, l; quiet1. Qed.
Lemma readalloc_mute : forall f fd, fd <> 0 -> calls mute (pipe_readalloc f fd).
Proof. intros f fd N. assert (RA : forall f x n, calls mute (readall f fd x n)) by (induction f0; intros; cbn [readall]; quiet1; auto). unfold pipe_readalloc. quiet1; apply RA. Qed.
Lemma lift_mute : forall B (r : res B), calls mute (lift r).
Proof. intros B []; cbn [lift]; quiet1. Qed.
Lemma write_mute : forall f x n, calls mute (pipe_write f tk x n).
Proof. intros. eapply calls_weak; [apply pipe_write_calls|]. intros c [(b & ->)| ->]; [exact TK|exact Logic.I]. Qed.
Lemma told_anchor : forall fn k, fk <> 0 -> (forall n, told1 (k n)) -> told1 (anchor fuel fn fk tk k).
Proof.
  intros [fn|] k NF K; [|apply K]. unfold anchor, need. apply told_skip; [apply lift_mute|]. intros x. apply told_skip; [apply lift_mute|]. intros n. apply told_skip; [apply write_mute|]. intros [|e]; [|apply told_exit].
  apply told_skip; [apply readalloc_mute; exact NF|]. intros [e|pem]; [apply told_exit|]. apply told_skip; [apply calls_sys1; split; discriminate|]. intros a. destruct (_ =? _); [apply told_exit|apply K].
Qed.
(** the information is collected in [q] *)
Lemma told_info : forall B (q : prog B) f, calls (silent ci) q ->
  (forall t a, runs q t (Fin a) -> legal t -> (exists n, f a = Ret (Exit n)) \/ (exists i, sized i /\ outs (frames i) (f a) /\ observed I env (ppin (settings cmd)) t i)) -> told1 (pbind q f).
Proof.
  intros B q f C K w o RU L A. apply runs_bind in RU as [(a & t1 & t2 & -> & R1 & R2)|[[R1 ->]|[R1 ->]]]; [|apply tells_nothing; apply silent_sent; exact (C _ _ R1)..].
  pose proof (C _ _ R1) as F. pose proof (silents_engine _ _ F) as FE. apply legal_app in L as [L1 L2]. destruct (K _ _ R1 L1) as [(n & E)|(i & SI & O & OB)].
  - rewrite E in R2. destruct R2 as [-> _]. rewrite app_nil_r. apply tells_nothing. apply silent_sent. exact F.
  - destruct (O _ _ R2 L2) as (rest & H1 & H2 & H3); [eapply engine_silent; eauto|]. exists i, rest. rewrite sent_app, (silent_sent _ _ F). cbn [app]. split; [exact H1|]. split; [intros _; apply observed_more; exact OB|]. split; [apply restok_before; assumption|split; [apply beyond_before; assumption|exact SI]].
Qed.
Lemma told_jailed : fk <> 0 -> told1 (jailed_main I fuel env nojail cmd p child key fk tk self).
Proof.
  intros NF. unfold jailed_main. cbv zeta. apply told_skip; [apply lift_mute|]. intros acc. apply told_skip; [apply lift_mute|]. intros dir. apply told_skip; [destruct nojail; [quiet1|apply jail_mute]|]. intros r.
  destruct (_ =? -1); [apply told_exit|]. apply told_anchor; [exact NF|]. intros talen. cbn [childin]. unfold peer_info. destruct (ppin (settings cmd)) eqn:PP.
  - apply told_info; [apply proxy_silent|]. intros t [r1 e] RU L. destruct (get_v1_ok _ _ _ _ _ _ OK RU L) as (_ & _ & [(-> & u & G & N & PL)|H]).
    + right. exists (mkinfo (lip e) (lport e) (rip e) (rport e)). split; [eapply pp_sized; eauto|]. split; [|rewrite PP; exists t, [], u; rewrite app_nil_r; cbn [localip localport remoteip remoteport]; split; auto; split; auto; split; auto; rewrite <- G; destruct e; exact PL].
      cbn [Z.eqb]. apply outs_tell; [eapply pp_sized; eauto|apply outs_relay].
    + left. destruct H as (-> & _). exists 100. reflexivity.
  - apply told_info; [apply connection_silent|]. intros t i RU L. right. exists i. rewrite PP. destruct (connection_ok I OK env t i ENV RU) as [S O]. split; [exact S|]. split; [apply outs_tell; [exact S|apply outs_relay]|exact O].
Qed.
End Told.

(** ** The whole process *)
Lemma runs_cut : forall A (q : prog A) t1 t2 o, runs q (t1 ++ t2) o -> exists o', runs q t1 o'.
Proof.
  intros A q. induction q as [r|c k IH| |]; intros t1 t2 o H; cbn [runs] in *.
  - destruct H as [H _]. apply app_eq_nil in H as [-> _]. eauto.
  - destruct t1 as [|e t1]; [exists Cut; auto|]. destruct H as [[H _]|(a & t & H & RU)]; [discriminate|]. injection H as -> <-. destruct (IH a _ _ _ RU) as (o' & R'). exists o'. right. eauto.
  - destruct H as [H _]. apply app_eq_nil in H as [-> _]. eauto.
  - destruct H as [H _]. apply app_eq_nil in H as [-> _]. eauto.
Qed.
Lemma flow_fst : forall (f : fdstate -> event -> list Z) t s x, fst (fold_left (fun x e => (step (fst x) e, snd x ++ f (fst x) e)) t (s, x)) = fold_left step t s.
Proof. intros f t. induction t as [|e t IH]; intros; cbn [fold_left fst snd]; [reflexivity|apply IH]. Qed.
Lemma flow_snoc : forall f T t e, flow f T (t ++ [e]) = flow f T t ++ f (descriptors T t) e.
Proof. intros. unfold flow. rewrite fold_left_app. cbn [fold_left snd]. rewrite flow_fst. reflexivity. Qed.
Lemma put_calm : forall o s e, calm (fst e) -> put o s e = [].
Proof. intros o s [[] a] [S _]; try reflexivity; destruct S. Qed.
Lemma took_calm : forall o s e, calm (fst e) -> took o s e = [].
Proof. intros o s [[] a] [S _]; try reflexivity; destruct S. Qed.
Lemma flow_nothing : forall f T t, (forall t1 e t2, t = t1 ++ e :: t2 -> f (descriptors T t1) e = []) -> flow f T t = [].
Proof.
  intros f T t. induction t as [|e t IH] using rev_ind; intros H; [reflexivity|]. rewrite flow_snoc, IH, (H t e []); [reflexivity|reflexivity|].
  intros t1 x t2 ->. apply (H t1 x (t2 ++ [e])). rewrite <- app_assoc. reflexivity.
Qed.
Lemma written_calm : forall T o t, Forall (fun e => calm (fst e)) t -> written T o t = [].
Proof. intros T o t F. apply flow_nothing. intros t1 e t2 ->. apply put_calm. rewrite Forall_forall in F. apply F. apply in_or_app. right. left. reflexivity. Qed.
Lemma taken_calm : forall T o t, Forall (fun e => calm (fst e)) t -> taken T o t = [].
Proof. intros T o t F. apply flow_nothing. intros t1 e t2 ->. apply took_calm. rewrite Forall_forall in F. apply F. apply in_or_app. right. left. reflexivity. Qed.
Lemma calms_engine : forall (t : trace), Forall (fun e => calm (fst e)) t -> Forall (fun e => noengine (fst e)) t.
Proof. intros t F. eapply Forall_impl; [|exact F]. intros a [_ H]. exact H. Qed.
Lemma calm_got : forall fd t, Forall (fun e => calm (fst e)) t -> got fd t = [].
Proof. intros fd t F. induction F as [|[c a] t [S _] F IH]; [reflexivity|]. destruct c; cbn [got]; auto; destruct S. Qed.
Lemma is_write1 : forall x, is_object (WriteEnd 1) x = true -> exists b, x = Some (WriteEnd 1, b).
Proof. intros [[[] b]|] H; try discriminate. cbn in H. apply Nat.eqb_eq in H. subst. eauto. Qed.
Lemma written_sent : forall T ci h w, Forall (fun e => calm (fst e)) h -> (exists b, tab (descriptors T h) ci = Some (WriteEnd 1, b)) ->
  (forall fd b, tab (descriptors T h) fd = Some (WriteEnd 1, b) -> fd = ci) -> Forall (fun e => wcall (fst e)) w ->
  is_prefix (written T (WriteEnd 1) (h ++ w)) (sent ci w) /\
  (written T (WriteEnd 1) (h ++ w) = sent ci w \/ (forall b, tab (descriptors T (h ++ w)) ci <> Some (WriteEnd 1, b))) /\
  (forall fd b, tab (descriptors T (h ++ w)) fd = Some (WriteEnd 1, b) -> fd = ci).
Proof.
  intros T ci h w CH TC ON. induction w as [|e w IH] using rev_ind; intros F.
  - rewrite app_nil_r, (written_calm _ _ _ CH). split; [exists []; reflexivity|]. split; [left; reflexivity|exact ON].
  - apply Forall_app in F as [F W]. apply Forall_inv in W. specialize (IH F). destruct IH as (P & D & N). unfold written in *. rewrite app_assoc, flow_snoc, sent_app.
    assert (ST : (exists f, fst e = Close f) \/ descriptors T ((h ++ w) ++ [e]) = descriptors T (h ++ w)).
    { rewrite fds_app. destruct W as [M|(x & W)]; [|right; apply step_neutral; rewrite W; repeat split; discriminate].
      destruct (fst e) eqn:EF; try (right; apply step_neutral; rewrite EF; exact Logic.I); [left; eauto|]. right. apply step_neutral. rewrite EF. apply mild_neutral; [exact M|discriminate]. }
    assert (ONE : sent ci [e] = (match fst e with Write f b => if f =? ci then firstn (Z.to_nat (ret (snd e))) b else [] | _ => [] end)) by (destruct e as [[] a]; cbn [sent fst snd]; try reflexivity; destruct (_ =? _); [apply app_nil_r|reflexivity]).
    rewrite ONE. clear ONE. rewrite fds_app in *. set (s := descriptors T (h ++ w)) in *.
    assert (PA : put (WriteEnd 1) s e = [] \/ put (WriteEnd 1) s e = (match fst e with Write f b => if f =? ci then firstn (Z.to_nat (ret (snd e))) b else [] | _ => [] end) /\ exists b, tab s ci = Some (WriteEnd 1, b)).
    { unfold put. destruct (fst e) as [f n|f b| | | | | | |] eqn:EF; auto. destruct (is_object (WriteEnd 1) (tab s f)) eqn:IO; [|auto]. apply is_write1 in IO as (x & IO). pose proof (N _ _ IO) as ->. rewrite Z.eqb_refl. right. eauto. }
    destruct ST as [(f & ST)|ST].
    + assert (PE : put (WriteEnd 1) s e = []) by (unfold put; rewrite ST; reflexivity). rewrite PE, ST, !app_nil_r. split; [exact P|].
      assert (TB : forall fd, tab (step s e) fd = set (tab s) f None fd) by (intros fd; unfold step; rewrite ST; reflexivity).
      split; [|intros fd b; rewrite TB; unfold set; destruct (fd =? f); [discriminate|apply N]]. destruct D as [D|D]; [left; exact D|right]. intros b. rewrite TB. unfold set. destruct (ci =? f); [discriminate|apply D].
    + rewrite ST. destruct PA as [PA|[PA (b & TB)]].
      * rewrite PA, app_nil_r. split; [apply prefix_short; exact P|]. split; [|exact N]. destruct D as [D|D]; [|right; exact D].
        destruct (is_object (WriteEnd 1) (tab s ci)) eqn:IO; [|right; intros b E; rewrite E in IO; discriminate IO]. left. rewrite <- D. unfold put in PA.
        destruct (fst e) as [f n|f b| | | | | | |] eqn:EF; try (rewrite app_nil_r; reflexivity). destruct (Z.eqb_spec f ci) as [->|]; [|rewrite app_nil_r; reflexivity]. rewrite IO in PA. rewrite PA, app_nil_r. reflexivity.
      * rewrite PA. destruct D as [D|D]; [|destruct (D _ TB)]. rewrite D. split; [exists []; rewrite app_nil_r; reflexivity|]. split; [left; reflexivity|exact N].
Qed.

Section Whole.
Variable I : inet.
Variable stream : list Z -> list Z -> nat -> Z.
Variable fuel : nat.
Variables junk portbuf line0 key0 : list Z.
Variable env : environment.
Variable nojail : bool.
Variable T : table.
Variables P R : list Z.
Hypothesis OK : inet_ok I.
Hypothesis ENV : strings env.
Hypothesis START : start_table T.
Variable cmd : command.
Definition tells_all (t : trace) : Prop :=
  exists i rest, is_prefix (written T (WriteEnd 1) t) (frames i ++ rest) /\ (written T (WriteEnd 1) t <> [] -> observed I env (ppin (settings cmd)) t i) /\ restok cmd P t rest /\
    beyond cmd (len (frames i)) (written T (WriteEnd 1) t) t /\ sized i.
Definition answers (t : trace) (e : event) : Prop := fd_answer (descriptors T t) e /\ sys_ok e /\ engine_ok P R t e.
Definition telling (t : trace) (e : event) : Prop := calm (fst e) \/ In 0 (forks t) \/ tells_all (t ++ [e]).

Lemma prefix_trans : forall a b c : list Z, is_prefix a b -> is_prefix b c -> is_prefix a c.
Proof. intros a b c (u & ->) (v & ->). exists (u ++ v). rewrite app_assoc. reflexivity. Qed.
Lemma telling_jailed : forall p child key fk tk self U h, now T [child; key] U 7 h -> seven T p fk tk self U ->
  sp answers telling h (jailed_main I fuel env nojail cmd p child key fk tk self) (fun _ _ => True).
Proof.
  intros p child key fk tk self U h N SV w o RU HA. split; [|auto].
  assert (CH : Forall (fun e => calm (fst e)) h) by apply N. pose proof (calms_engine _ CH) as EH.
  destruct (v_tab _ _ _ _ _ _ SV) as (V1 & V2 & _). pose proof (v_one _ _ _ _ _ _ SV) as V3. pose proof (v_range _ _ _ _ _ _ SV) as V4. pose proof (v_dup _ _ _ _ _ _ SV) as V5.
  assert (SET : tls_setup 0 1 (toc_w p) (fromc_r p) self /\ (0 <= toc_w p /\ 0 <= fromc_r p) /\ tk <> toc_w p /\ fk <> 0).
  { clear - V4 V5. repeat match goal with H : Forall _ (_ :: _) |- _ => apply Forall_cons_iff in H as [? H] end. repeat match goal with H : NoDup (_ :: _) |- _ => apply NoDup_cons_iff in H as [? H] end.
    cbn [In] in *. split; [|split; [lia|split; [intros X; subst tk; tauto|lia]]]. split; [|lia]. repeat (apply NoDup_cons; [cbn [In]; intuition lia|]). apply NoDup_nil. }
  destruct SET as (S1 & S2 & S3 & S4).
  intros t1 e t2 E. right. right. rewrite <- app_assoc.
  assert (E2 : w = (t1 ++ [e]) ++ t2) by (rewrite <- app_assoc; exact E). rewrite E2 in RU, HA. apply runs_cut in RU as (o' & RU). apply holds_app in HA as [HA _].
  set (u := t1 ++ [e]) in *. clearbody u. clear E E2 t1 t2 e.
  assert (L : legal u). { apply Forall_forall. intros x IN. apply in_split in IN as (a & b & ->). apply (HA a x b eq_refl). }
  assert (EN : always (engine_ok P R) u). { apply engine_holds with (t := h); [exact EH|]. intros a x b Y. apply (HA a x b Y). }
  pose proof (jailed_wcall I fuel env nojail cmd p child key fk tk self _ _ RU) as WC.
  destruct (told_jailed I fuel env nojail cmd p child key fk tk self P R OK ENV S1 S2 S3 S4 _ _ RU L EN) as (i & rest & H1 & H2 & H3 & H4 & H5).
  destruct (written_sent T (toc_w p) h u CH) as (W1 & _); [exists true; rewrite (n_tab _ _ _ _ _ N); exact V1|intros fd b; rewrite (n_tab _ _ _ _ _ N); apply V3|exact WC|].
  exists i, rest. split; [eapply prefix_trans; eauto|]. split.
  - intros NE. apply observed_after; [|apply calm_got; exact CH]. apply H2. intros X. apply NE. destruct W1 as (v & W1). rewrite X in W1. symmetry in W1. apply app_eq_nil in W1. tauto.
  - split; [apply restok_before; assumption|]. split; [|exact H5]. apply beyond_before; [exact EH|]. eapply beyond_less; [apply prefix_len; exact W1|exact H4].
Qed.
Lemma start_telling : forall h, now T [] T 0 h ->
  sp answers telling h (start_child I stream fuel junk portbuf line0 key0 env nojail cmd) (fun _ _ => True).
Proof.
  intros h N. assert (HA : forall t e, answers t e -> fd_answer (descriptors T t) e) by (intros t e H; apply H).
  assert (HOK : forall t e, calm (fst e) -> telling t e) by (intros; left; assumption).
  apply sp_start with (T0 := T); auto.
  - intros p a h' Z F N'. rewrite Z in N'. intros w o RU HW. split; [|auto]. intros t1 e t2 E. right. left. rewrite forks_app, (n_forks _ _ _ _ _ N'). left. reflexivity.
  - intros p a h' NZ F N'. apply sp_parent with (T0 := T); auto.
    + intros U h2 N2 KT w o RU HW. split; [|auto]. intros t1 e t2 E. right. left. rewrite forks_app, (n_forks _ _ _ _ _ N2). right. left. reflexivity.
    + intros U key fk tk self h2 NK N2 SV. eapply telling_jailed; eauto.
Qed.
Lemma telling_all : forall tr, always telling tr -> original tr -> tells_all tr.
Proof.
  intros tr. induction tr as [|e tr IH] using rev_ind; intros A O.
  - destruct (restok_some cmd P []) as (rest & H). exists zero_info, rest. split; [eexists; reflexivity|]. split; [intros X; destruct X; reflexivity|]. split; [exact H|]. split; [apply beyond_short; eexists; reflexivity|repeat split; reflexivity].
  - assert (O' : original tr) by (intros X; apply O; rewrite forks_app; apply in_or_app; auto).
    destruct (A tr e [] eq_refl) as [C|[X|X]]; [|contradiction|exact X].
    destruct IH as (i & rest & H1 & H2 & [H3 H4] & H5 & H6); [eapply always_app1; eauto|exact O'|]. exists i, rest. unfold written in *. rewrite flow_snoc, put_calm by exact C. rewrite app_nil_r.
    split; [exact H1|]. split; [intros X; apply observed_more; auto|]. split; [|split; [apply beyond_after; exact H5|exact H6]]. split; [|exact H4]. intros D. rewrite record_after; [auto|]. repeat constructor. apply C.
Qed.
End Whole.
