(** The alarm clocks of tlswrapper-tcp and tlswrapper-smtp. *)
From Verif.Model Require Import Base Sys Io Str Buffer Inet Parsenum Fdio Relay Session Jail Pem Proxy Conninfo Conn Resolve Main Getopt Lookup Tcpmain Smtpmain.
From Verif.Spec Require Import Flow Process Watchdog Clocks.
From Verif.Proof Require Import Tac SysP CallsP SafeP MainCallsP WatchdogP SmtpCallsP.

(** ** Parts that do not touch the clock *)
Lemma wait_early : forall n pid, calls early (wait n pid).
Proof. induction n; intros; cbn [wait]; early1. auto. Qed.
Lemma rclose_early : forall f r, calls early (resolvehost_close f r).
Proof. intros f [[fd pid]|]; unfold resolvehost_close, do, Send; early1. apply wait_early. Qed.
Lemma resolvehost_early : forall ip n host, calls early (resolvehost ip n host).
Proof.
  intros. unfold resolvehost. early1. unfold sortip. early1.
  assert (S : forall k s, calls early (shuffle k s)).
  { induction k as [|k IH]; intros s; cbn [shuffle]; early1. - unfold randommod. early1. apply random_early. - auto. }
  apply S.
Qed.
Lemma rdo_early : forall fd ip n host, calls early (resolvehost_do fd ip n host).
Proof. intros. unfold resolvehost_do, Send, Recv. early1. Qed.
Lemma cinit_early : forall sl n, calls early (conn_init sl n).
Proof.
  assert (X : forall sl s, calls early (closeslot sl s)) by (intros; unfold closeslot; early1).
  assert (R : forall m i sl, calls early (conn_reset_from m i sl)) by (induction m; intros; cbn [conn_reset_from]; early1; auto).
  assert (P : forall m i sl, calls early (conn_prepare m i sl)).
  { induction m; intros; cbn [conn_prepare]; early1; auto; try (apply R); unfold socket_tcp, fd_blocking_disable; early1. }
  intros. unfold conn_init, conn_reset. early1; auto.
Qed.
Lemma conn_early : forall f sl t ip n port, calls early (conn f sl t ip n port).
Proof.
  assert (X : forall sl s, calls early (closeslot sl s)) by (intros; unfold closeslot; early1).
  assert (R : forall m i sl, calls early (conn_reset_from m i sl)) by (induction m; intros; cbn [conn_reset_from]; early1; auto).
  assert (C : forall p sl, calls early (conn_check p sl)) by (induction p as [|[fd re] p IH]; intros; cbn [conn_check]; early1; auto; unfold socket_connected; early1).
  assert (S : forall m i sl ip port, calls early (conn_start m i sl ip port)) by (induction m; intros; cbn [conn_start]; early1; auto; unfold socket_connect; early1).
  assert (W : forall n d k sl, calls early (conn_wait n d k sl)).
  { induction n; intros; cbn [conn_wait]; early1; auto; try (unfold conn_reset; apply R); try (unfold milliseconds; early1). unfold jail_poll. early1. }
  assert (Y : forall m i w sl ip d, calls early (copyip_loop m i w sl ip d)) by (induction m; intros; cbn [copyip_loop]; early1; auto).
  intros. unfold conn. early1; auto; try (unfold milliseconds; early1). unfold conn_copyip. early1; auto.
Qed.
Lemma chain_early : forall l r, Forall (fun f => forall r, calls allocs (f r)) l -> calls allocs (sa_chain r l).
Proof. induction l as [|f l IH]; intros r F; cbn [sa_chain]; [early1|]. inversion F; subst. repeat calls1; auto. Qed.
Lemma header_early : forall I b n e, calls early (proxyprotocol_v1 I b n e).
Proof.
  intros. apply (calls_weak _ allocs); [|intros q [x ->]; exact Logic.I]. unfold proxyprotocol_v1. early1.
  apply chain_early. repeat constructor; intros; unfold cats, Stralloc.stralloc_copys, Stralloc.stralloc_0, Stralloc.stralloc_append; auto using cats_calls, catb_calls.
Qed.
#[export] Hint Resolve wait_early rclose_early resolvehost_early rdo_early cinit_early conn_early header_early : early.

(** ** tlswrapper-tcp *)
Section Relay.
Variable th : Z.
Hypothesis TH : 1 <= th.
Notation OK := (forward_guarded th).
Variable self : Z.
Hypothesis SELF : 0 <= self.
(** with the handler in place: [b] all of the timeout is left; [k] alarms more than reads *)
Definition F (b : bool) (k : Z) (t : trace) : Prop :=
  action (seen t) = 2 /\ newest (seen t) = self /\ (b = true -> due (seen t) = false /\ clk (seen t) = Running th) /\ rearmed (seen t) <= fed (seen t) + k.
Lemma f_two : forall t e, action (seen t) = 2 -> match fst e with
    | Select _ rd _ None => In (newest (seen t)) rd /\ due (seen t) = false /\ clk (seen t) = Running th
    | Other m args _ => m = bs "alarm" -> args = [th] /\ rearmed (seen t) + 1 <= fed (seen t) + 1
    | _ => True
    end -> OK t e.
Proof. intros t e A M. split; [intros X; rewrite A in X; discriminate|]. split; [right; exact A|]. intros _. exact M. Qed.
Lemma fquiet_ok : forall t e, action (seen t) = 2 -> quiet (fst e) -> OK t e.
Proof.
  intros t [c a] A Q. apply f_two; auto. cbn [fst] in *. unfold quiet in Q. destruct c as [| | | | |? ? ? [?|]| | |]; try exact Logic.I; [destruct Q|]. intros E. destruct Q as [Q _]. contradiction.
Qed.
Lemma f_then : forall R S (p : prog R) (f : R -> prog S) b k t Q, calls quiet p -> F b k t -> (forall u x, F b k u -> sp parent OK u (f x) Q) -> sp parent OK t (pbind p f) Q.
Proof.
  intros R S p f b k t Q C H K. eapply sp_bind with (M := fun u _ => F b k u); [|intros u x HU; auto]. apply (sp_quiet _ _ _ quiet); auto.
  intros u e HU E _. split; [apply fquiet_ok; auto; apply HU|]. unfold F. rewrite seen_app, look_quiet by auto. exact HU.
Qed.
Lemma f_alarm : forall S (f : unit -> prog S) b t Q, F b 0 t -> (forall u, F true 1 u -> sp parent OK u (f tt) Q) -> sp parent OK t (pbind (alarm th) f) Q.
Proof.
  intros S f b t Q H K. unfold alarm. unfold sys1. cbn [pbind]. apply sp_do. intros a _. destruct H as (H1 & H2 & H3 & H4). split.
  - apply f_two; auto. cbn [fst]. intros _. split; [reflexivity|lia].
  - apply K. unfold F. rewrite seen_app. unfold look. change (named (bs "alarm") (bs "alarm")) with true. cbv iota. cbn [clk action newest rearmed fed due hd]. rewrite H1.
    rewrite (proj2 (Z.eqb_neq th 0)) by lia. change (2 =? 2) with true. cbv iota. jj; auto. lia.
Qed.
Lemma f_read : forall S fd room n (f : Z * Z * list Z -> prog S) t Q, F true 1 t ->
  (forall u r e d, r <= 0 -> F true 1 u -> sp parent OK u (f (r, e, d)) Q) ->
  (forall u r e d, 0 < r -> F false 0 u -> sp parent OK u (f (r, e, d)) Q) ->
  sp parent OK t (pbind (fd_read fd room n) f) Q.
Proof.
  intros S fd room n f t Q H F1 F2. unfold fd_read. destruct (n <? 0); [cbn [pbind]; apply F1; auto; lia|]. cbv zeta. destruct (room <? _); [apply sp_bad|].
  unfold sys1. cbn [pbind]. apply sp_do. intros a _. destruct H as (H1 & H2 & H3 & H4). split; [apply f_two; [exact H1|exact Logic.I]|].
  destruct (Z.leb_spec (ret a) 0) as [L|L].
  - apply F1; auto. unfold F. rewrite seen_app. unfold look. rewrite (proj2 (Z.ltb_ge 0 (ret a))) by lia. rewrite andb_false_r. jj; auto.
  - apply F2; auto. unfold F. rewrite seen_app. unfold look. rewrite (proj2 (Z.ltb_lt 0 (ret a))) by lia. rewrite H1. change (2 =? 2) with true. cbn [andb clk action newest rearmed fed due]. jj; auto; [discriminate|lia].
Qed.
Lemma f_watch : forall S ws (f : list bool -> prog S) k t Q, In (true, self, POLLIN) ws -> F true k t -> (forall u x, F true k u -> sp parent OK u (f x) Q) ->
  sp parent OK t (pbind (watch ws) f) Q.
Proof.
  intros S ws f k t Q W H K. eapply sp_bind with (M := fun u _ => F true k u); [|intros u x HU; auto]. unfold watch. eapply sp_bind with (M := fun u _ => F true k u); [|intros u [[r e] rv] HU; destruct (r <? 0); apply sp_ret; exact HU].
  unfold jail_poll. cbv zeta. destruct (jp_sets _ _ _ _) as [[[n rd] wr]|] eqn:E; [|apply sp_ret; exact H]. apply jp_sets_rd in E as [_ E]. specialize (E self SELF (polled_in _ _ W)).
  eapply sp_bind with (M := fun u _ => F true k u).
  - apply sp_sys1. intros a _. split.
    + destruct H as (H1 & H2 & H3 & H4). apply f_two; auto. cbn [fst]. rewrite H2. split; [exact E|]. exact (H3 eq_refl).
    + unfold F. rewrite seen_app. exact H.
  - intros u a HU. destruct (_ <=? 0); [apply sp_ret; exact HU|]. destruct (jp_result _ _ _) as [[r l]|]; apply sp_ret; exact HU.
Qed.
Lemma f_iter : forall S R (body : S -> prog (nxt S R)), (forall s t, F true 1 t -> sp parent OK t (body s) (fun u _ => F true 1 u)) ->
  forall n s t, F true 1 t -> sp parent OK t (iter n body s) (fun u _ => F true 1 u).
Proof.
  intros S R body B. induction n as [|n IH]; intros s t H; cbn [iter]; [apply sp_halt|]. eapply sp_bind; [apply B; exact H|]. cbn beta. intros u [s1|r] HU; [apply IH; exact HU|apply sp_ret; exact HU].
Qed.
Lemma tcp_sp : forall s t, F true 1 t -> sp parent OK t (tcp_body th self s) (fun u _ => F true 1 u).
Proof.
  intros s t H. unfold tcp_body, tcp_eof. eapply f_then; [|exact H|clear t H; intros t s1 H].
  { apply calls_bind; intros; destruct (_ && _); quiet1; apply shut_w_quiet. }
  destruct (tcp_done s1); [apply sp_ret; exact H|]. eapply f_watch; [unfold tcp_watch; cbn [In]; auto 10|exact H|]. clear t H. intros t h H.
  destruct h as [|w0 [|w1 [|w2 [|w3 [|w4 [|]]]]]]; try apply sp_bad.
  assert (RD : forall fd room n (again1 : nxt tcp tcp) (fin : Z -> nxt tcp tcp) (put : Z -> list Z -> nxt tcp tcp) u, F true 1 u ->
    sp parent OK u ('(r, e, d) <~ fd_read fd room n ;; if again r e then Ret again1 else if r <=? 0 then x <~ shut_r fd ;; Ret (fin x) else _ <~ alarm th ;; Ret (put r d)) (fun v _ => F true 1 v)).
  { intros fd room n again1 fin put u HU. apply f_read; [exact HU| |]; clear u HU; intros u r e d L HU; destruct (again r e) eqn:AG.
    - apply sp_ret. exact HU.
    - rewrite (proj2 (Z.leb_le r 0)) by lia. eapply f_then; [apply shut_r_quiet|exact HU|]. intros. apply sp_ret. assumption.
    - apply again_neg in AG. lia.
    - rewrite (proj2 (Z.leb_gt r 0)) by lia. eapply f_alarm; [exact HU|]. intros. apply sp_ret. assumption. }
  destruct w2; [|destruct w1; [|destruct w0; [|destruct w3; [|destruct w4; apply sp_ret; exact H]]]].
  - unfold tcp_toremote. destruct (0 <? _); [|apply sp_ret; exact H]. eapply f_then; [apply write_quiet|exact H|]. clear t H. intros t [r e] H. destruct (again r e); [apply sp_ret; exact H|].
    destruct (r <=? 0); (eapply f_then; [solve [apply shut_w_quiet|apply lift_quiet]|exact H|]; intros; apply sp_ret; assumption).
  - unfold tcp_tolocal. eapply f_then; [apply write_quiet|exact H|]. clear t H. intros t [r e] H. destruct (again r e); [apply sp_ret; exact H|].
    destruct (r <=? 0); (eapply f_then; [solve [apply shut_w_quiet|apply lift_quiet]|exact H|]; intros; apply sp_ret; assumption).
  - apply (RD (localin s1) _ _ (Again s1) (fun li => Again (mktcp li (localout s1) (remotein s1) (remoteout s1) (inb s1) (outb s1)))
      (fun r d => Again (mktcp (localin s1) (localout s1) (remotein s1) (remoteout s1) (append (inb s1) r d) (outb s1)))). exact H.
  - apply (RD (remotein s1) _ _ (Again s1) (fun ri => Again (mktcp (localin s1) (localout s1) ri (remoteout s1) (inb s1) (outb s1)))
      (fun r d => Again (mktcp (localin s1) (localout s1) (remotein s1) (remoteout s1) (inb s1) (append (outb s1) r d)))). exact H.
Qed.
Lemma tcp_relay_sp : forall n ri ro h t, F true 1 t -> sp parent OK t (tcp_relay th self n ri ro h) (fun u _ => F true 1 u).
Proof.
  intros n ri ro h t H. unfold tcp_relay. eapply sp_bind; [apply f_iter; [exact tcp_sp|exact H]|]. cbn beta. clear t H. intros t s H.
  eapply f_then; [apply shut_r_quiet|exact H|]. clear t H. intros t x H. eapply f_then; [apply shut_w_quiet|exact H|]. intros. apply sp_ret. assumption.
Qed.
End Relay.

Section Tcp.
Variable I : inet.
Variable fuel : nat.
Variables buf0 ip0 : list Z.
Variable env : environment.
Variable nojail : bool.
Variable c : tcpcmd.
Hypothesis TH : 1 <= ttimeout c.
Notation OK := (forward_guarded (ttimeout c)).
Notation ok t p := (sp parent OK t p (fun _ _ => True)).
(** before the handler *)
Definition E (t : trace) : Prop := action (seen t) = 0 /\ clk (seen t) = Off /\ rearmed (seen t) = 0 /\ fed (seen t) = 0.
Lemma E_ok : forall t e, E t -> calling (bs "alarm") e = false -> OK t e.
Proof. intros t e (A & C & _) N. split; [auto|]. split; [left; exact A|]. intros X. rewrite A in X. discriminate. Qed.
Lemma early_not_alarm : forall e, early (fst e) -> calling (bs "alarm") e = false.
Proof.
  intros [[]  a] N; cbn [fst early] in N; try reflexivity. unfold calling. cbn [fst]. destruct N as [N _]. destruct (list_eq_dec Z.eq_dec _ _); [contradiction|reflexivity].
Qed.
Lemma e_then : forall R S (p : prog R) (f : R -> prog S) (N : trace -> Prop) t Q, (forall u e, N u -> early (fst e) -> action (seen u) = 0 -> N (u ++ [e])) -> calls early p -> E t -> N t ->
  (forall u x, E u -> N u -> sp parent OK u (f x) Q) -> sp parent OK t (pbind p f) Q.
Proof.
  intros R S p f N t Q ST C H HN K. eapply sp_bind with (M := fun u _ => E u /\ N u); [|intros u x [HU NU]; auto]. apply (sp_quiet _ _ _ early); auto.
  intros u e [HU NU] EA _. split; [apply E_ok; auto; apply early_not_alarm; auto|]. split; [|apply ST; auto; apply HU]. unfold E. rewrite seen_app, look_early; [exact HU|exact EA|]. destruct HU as [-> _]. discriminate.
Qed.
Lemma keeps_true : forall (u : trace) (e : event), True -> early (fst e) -> action (seen u) = 0 -> True.
Proof. auto. Qed.
Definition pipe_is (self : Z) (t : trace) : Prop := newest (seen t) = self.
Lemma keeps_pipe : forall self u e, pipe_is self u -> early (fst e) -> action (seen u) = 0 -> pipe_is self (u ++ [e]).
Proof. intros self u e H EA A. unfold pipe_is. rewrite seen_app, look_early; auto. rewrite A. discriminate. Qed.
Ltac et H := eapply (e_then _ _ _ _ (fun _ => True)); [exact keeps_true|auto with early|exact H|exact Logic.I|].
Lemma jailed_sp : forall self sl ip n t, 0 <= self -> E t -> pipe_is self t -> ok t (tcp_jailed I fuel env nojail c self sl ip n).
Proof.
  intros self sl ip n t SELF H N. unfold tcp_jailed.
  assert (T : forall R S (p : prog R) (f : R -> prog S) t, calls early p -> E t -> pipe_is self t -> (forall u x, E u -> pipe_is self u -> ok u (f x)) -> ok t (pbind p f)).
  { intros R S p f t0 C0 H0 N0 K. eapply (e_then _ _ _ _ (pipe_is self)); eauto. apply keeps_pipe. }
  apply T; [apply calls_lift|exact H|exact N|]. clear t H N. intros t acc H N. apply T; [apply calls_lift|exact H|exact N|]. clear t H N. intros t dir H N.
  apply T; [destruct nojail; auto with early|exact H|exact N|]. clear t H N. intros t x H N. destruct (_ =? _); [apply sp_ret; exact Logic.I|].
  assert (K : forall i t, E t -> pipe_is self t -> ok t ('(w, ip, _) <~ conn fuel sl (tconnect c) ip n (tport c) ;;
    match w with
    | None => Ret (Exit 111)
    | Some (ri, ro) =>
      tcp_header I c i (fun h =>
      _ <~ signal SIGTERM HANDLER ;; _ <~ signal SIGALRM HANDLER ;; _ <~ alarm (ttimeout c) ;;
      x <~ tcp_relay (ttimeout c) self fuel ri ro h ;;
      Ret (Exit x))
    end)).
  { clear t H N. intros i t H N. apply T; [auto with early|exact H|exact N|]. clear t H N. intros t [[w ip1] sl1] H N. destruct w as [[ri ro]|]; [|apply sp_ret; exact Logic.I].
    assert (K : forall h t, E t -> pipe_is self t -> ok t (_ <~ signal SIGTERM HANDLER ;; _ <~ signal SIGALRM HANDLER ;; _ <~ alarm (ttimeout c) ;; x <~ tcp_relay (ttimeout c) self fuel ri ro h ;; Ret (Exit x))).
    { clear t H N. intros h t H N. unfold signal, do, sys1. cbn [pbind]. apply sp_do. intros a1 _. split; [apply E_ok; [exact H|reflexivity]|].
      assert (H1 : seen (t ++ [(Other (bs "signal") [SIGTERM; HANDLER] [], a1)]) = seen t) by (rewrite seen_app; reflexivity).
      apply sp_do. intros a2 _. split; [apply E_ok; [unfold E; rewrite H1; exact H|reflexivity]|].
      set (u := t ++ [(Other (bs "signal") [SIGTERM; HANDLER] [], a1)]) in *.
      assert (HF : F (ttimeout c) self false 0 (u ++ [(Other (bs "signal") [SIGALRM; HANDLER] [], a2)])).
      { unfold F. rewrite seen_app, H1. change (seen t) with (seen t). destruct H as (A & C & R & FD). unfold pipe_is in N. cbn -[seen]. jj; auto; [discriminate|]. cbn -[seen]. lia. }
      eapply f_alarm; [exact TH|exact HF|]. intros v HV. eapply sp_bind; [apply tcp_relay_sp; auto|]. intros. apply sp_ret. exact Logic.I. }
    unfold tcp_header. destruct (tppout (tset c)); [|auto]. apply T; [auto with early|exact H|exact N|]. clear t H N. intros t [k b] H N. destruct (_ =? _); [apply sp_ret; exact Logic.I|]. destruct b; [auto|apply sp_bad]. }
  unfold peer_info. destruct (tppin (tset c)).
  - apply T; [auto with early|exact H|exact N|]. clear t H N. intros t [r e] H N. destruct (r =? 0); [apply sp_ret; exact Logic.I|auto].
  - apply T; [auto with early|exact H|exact N|]. auto.
Qed.
Lemma resolved_sp : forall r ip n t, E t -> ok t (tcp_resolved I fuel env nojail c r ip n).
Proof.
  intros r ip n t H. unfold tcp_resolved. destruct (n <=? 0).
  - unfold tcp_die. et H. intros. apply sp_ret. exact Logic.I.
  - et H. clear t H. intros t _ H _. et H. clear t H. intros t _ H _.
    unfold sys1. cbn [pbind]. apply sp_do. intros a [_ A]. split; [apply E_ok; [exact H|reflexivity]|]. destruct (Z.eqb_spec (ret a) (-1)) as [X|X]; [apply sp_ret; exact Logic.I|].
    set (self := nth 0 (data a) 0) in *. specialize (A eq_refl X). cbn [snd] in A. fold self in A.
    assert (S : seen (t ++ [(Other (bs "pipe") [] [], a)]) = mkguard (clk (seen t)) (action (seen t)) self (rearmed (seen t)) (fed (seen t)) (due (seen t))).
    { rewrite seen_app. unfold look. change (named (bs "pipe") (bs "alarm")) with false. change (named (bs "pipe") (bs "sigaction")) with false. change (named (bs "pipe") (bs "signal")) with false. change (named (bs "pipe") (bs "pipe")) with true.
      cbn [andb]. rewrite (proj2 (Z.eqb_neq _ _) X). reflexivity. }
    assert (H2 : E (t ++ [(Other (bs "pipe") [] [], a)])) by (unfold E; rewrite S; exact H). assert (N2 : pipe_is self (t ++ [(Other (bs "pipe") [] [], a)])) by (unfold pipe_is; rewrite S; reflexivity).
    eapply (e_then _ _ _ _ (pipe_is self)); [apply keeps_pipe|auto with early|exact H2|exact N2|]. intros u [b sl] HU NU. destruct (negb b); [apply sp_ret; exact Logic.I|]. apply jailed_sp; auto.
Qed.
(** fork(): the original process *)
Lemma e_fork : forall S (f : ans -> prog S) t Q, E t -> (forall u a, ret a <> 0 -> E u -> sp parent OK u (f a) Q) -> sp parent OK t (pbind (sys1 (Other (bs "fork") [] [])) f) Q.
Proof.
  intros S f t Q H K. unfold sys1. cbn [pbind]. apply sp_do. intros a [A _]. split; [apply E_ok; [exact H|reflexivity]|]. apply K; [exact (A eq_refl)|]. unfold E. rewrite seen_app. exact H.
Qed.
Lemma resolve_sp : forall t, E t -> ok t (tcp_resolve fuel buf0 ip0 nojail c (tcp_resolved I fuel env nojail c)).
Proof.
  intros t H. unfold tcp_resolve. destruct nojail eqn:NJ; rewrite <- NJ.
  - et H. intros u [[n e] ip] HU _. apply resolved_sp; auto.
  - unfold resolvehost_init. eapply (e_then _ _ _ _ (fun _ => True)); [exact keeps_true|early1|exact H|exact Logic.I|]. clear t H. intros t a H _. destruct (_ =? _); [apply sp_ret; exact Logic.I|]. cbv zeta.
    apply e_fork; [exact H|]. clear t H. intros t f N H. destruct (_ =? -1).
    + et H. clear t H. intros t _ H _. et H. intros. apply sp_ret. exact Logic.I.
    + rewrite (proj2 (Z.eqb_neq _ _) N). et H. clear t H. intros t _ H _. et H. intros u [n ip] HU _. apply resolved_sp; auto.
Qed.
End Tcp.

(** ** tlswrapper-smtp *)
(** neither a setting nor a new process; moreover nothing passed on *)
Definition unset (c : sys) : Prop := match c with Other m _ _ => m <> bs "alarm" /\ m <> bs "sigaction" /\ m <> bs "signal" /\ m <> bs "fork" | _ => True end.
Definition dry (c : sys) : Prop := match c with Read _ n => n = 1 | Write _ _ => False | _ => unset c end.
Ltac dry1 := repeat (calls1 || (progress cbv zeta)); try exact Logic.I; try (cbn [dry unset]; solve [reflexivity|repeat split; discriminate]).
Lemma random_dry : forall n, calls dry (randombytes n).
Proof. intros. unfold randombytes. dry1. Qed.
Lemma jail_dry : forall a d l, calls dry (jail a d l).
Proof. intros. unfold jail, jail_main, must, mustbe, when, jail_limit_memory. destruct a, d, l; dry1. Qed.
Lemma connection_dry : forall I e, calls dry (connection I e).
Proof. intros. unfold connection, socket_name. dry1. Qed.
Lemma blocking_dry : forall fd b, calls dry (blocking fd b).
Proof. intros. unfold blocking, do. dry1. Qed.
Lemma close_dry : forall fd, calls dry (do (Close fd)).
Proof. intros. unfold do. dry1. Qed.
Lemma wait_dry : forall n pid, calls dry (wait n pid).
Proof. induction n; intros; cbn [wait]; dry1. auto. Qed.
Lemma rclose_dry : forall f r, calls dry (resolvehost_close f r).
Proof. intros f [[fd pid]|]; unfold resolvehost_close, do, Send; dry1. apply wait_dry. Qed.
Lemma resolvehost_dry : forall ip n host, calls dry (resolvehost ip n host).
Proof.
  intros. unfold resolvehost. dry1. unfold sortip. dry1.
  assert (S : forall k s, calls dry (shuffle k s)).
  { induction k as [|k IH]; intros s; cbn [shuffle]; dry1. - unfold randommod. dry1. apply random_dry. - auto. }
  apply S.
Qed.
Lemma rdo_dry : forall fd ip n host, calls dry (resolvehost_do fd ip n host).
Proof. intros. unfold resolvehost_do, Send, Recv. dry1. Qed.
Lemma cinit_dry : forall sl n, calls dry (conn_init sl n).
Proof.
  assert (X : forall sl s, calls dry (closeslot sl s)) by (intros; unfold closeslot; dry1).
  assert (R : forall m i sl, calls dry (conn_reset_from m i sl)) by (induction m; intros; cbn [conn_reset_from]; dry1; auto).
  assert (P : forall m i sl, calls dry (conn_prepare m i sl)).
  { induction m; intros; cbn [conn_prepare]; dry1; auto; try (apply R); unfold socket_tcp, fd_blocking_disable; dry1. }
  intros. unfold conn_init, conn_reset. dry1; auto.
Qed.
Lemma conn_dry : forall f sl t ip n port, calls dry (conn f sl t ip n port).
Proof.
  assert (X : forall sl s, calls dry (closeslot sl s)) by (intros; unfold closeslot; dry1).
  assert (R : forall m i sl, calls dry (conn_reset_from m i sl)) by (induction m; intros; cbn [conn_reset_from]; dry1; auto).
  assert (C : forall p sl, calls dry (conn_check p sl)) by (induction p as [|[fd re] p IH]; intros; cbn [conn_check]; dry1; auto; unfold socket_connected; dry1).
  assert (S : forall m i sl ip port, calls dry (conn_start m i sl ip port)) by (induction m; intros; cbn [conn_start]; dry1; auto; unfold socket_connect; dry1).
  assert (W : forall n d k sl, calls dry (conn_wait n d k sl)).
  { induction n; intros; cbn [conn_wait]; dry1; auto; try (unfold conn_reset; apply R); try (unfold milliseconds; dry1). unfold jail_poll. dry1. }
  assert (Y : forall m i w sl ip d, calls dry (copyip_loop m i w sl ip d)) by (induction m; intros; cbn [copyip_loop]; dry1; auto).
  intros. unfold conn. dry1; auto; try (unfold milliseconds; dry1). unfold conn_copyip. dry1; auto.
Qed.
Lemma session_unset : forall f c, calls unset (Smtp.smtp f c).
Proof.
  intros. eapply calls_weak; [apply smtp_calls|]. intros [] H; cbn in *; auto.
  repeat split; intros ->; repeat destruct H as [H|H]; try discriminate; exact H.
Qed.
Create HintDb dry.
#[export] Hint Resolve random_dry jail_dry connection_dry blocking_dry close_dry wait_dry rclose_dry resolvehost_dry rdo_dry cinit_dry conn_dry calls_lift calls_ret : dry.
Lemma settings_app : forall t u : trace, settings (t ++ u) = settings t ++ settings u.
Proof. intros. unfold settings. rewrite filter_app, map_app. reflexivity. Qed.
Lemma unset_not : forall e, unset (fst e) -> sets e = false.
Proof. intros [[] a] H; cbn [fst unset] in H; try reflexivity. unfold sets. cbn [fst]. destruct H as (H1 & H2 & H3 & _). rewrite !named_not by auto. reflexivity. Qed.
Lemma unset_settings : forall t e, unset (fst e) -> settings (t ++ [e]) = settings t.
Proof. intros t e H. rewrite settings_app. unfold settings at 2. cbn [filter]. rewrite (unset_not e H). apply app_nil_r. Qed.
Lemma dry_unset : forall c, dry c -> unset c.
Proof. intros [] H; cbn in *; auto. Qed.

Section Smtp.
Variable I : inet.
Variable fuel : nat.
Variables buf0 ip0 junk : list Z.
Variable env : environment.
Variable nojail : bool.
Variable logid : option (list Z).
Variable c : smtpcmd.
Notation th := (stimeout c).
Notation OK := (mail_guarded th).
Notation ok t p := (sp parent OK t p (fun _ _ => True)).
Definition half_minute : list sys := [on_alarm; alarm_in 30].
Lemma m_then : forall R S (p : prog R) (f : R -> prog S) l t Q, calls dry p -> settings t = l -> (forall u x, settings u = l -> sp parent OK u (f x) Q) -> sp parent OK t (pbind p f) Q.
Proof.
  intros R S p f l t Q C H K. eapply sp_bind with (M := fun u _ => settings u = l); [|intros u x HU; auto]. apply (sp_quiet _ _ _ dry); auto.
  intros u e HU D _. split; [|rewrite unset_settings; auto; apply dry_unset, D]. split.
  - destruct e as [[] a]; cbn [fst dry] in *; try exact Logic.I; [intros N; contradiction|destruct D].
  - rewrite (unset_not e (dry_unset _ D)). discriminate.
Qed.
Lemma m_fork : forall S (f : ans -> prog S) l t Q, settings t = l -> (forall u a, ret a <> 0 -> settings u = l -> sp parent OK u (f a) Q) -> sp parent OK t (pbind (sys1 (Other (bs "fork") [] [])) f) Q.
Proof.
  intros S f l t Q H K. unfold sys1. cbn [pbind]. apply sp_do. intros a [A _]. split; [split; [exact Logic.I|discriminate]|]. apply K; [exact (A eq_refl)|]. rewrite settings_app, H. apply app_nil_r.
Qed.
Ltac mt H := eapply m_then; [auto with dry|exact H|].
Lemma msession_sp : forall grey tls child t1 f0 t, settings t = half_minute -> ok t (i <~ connection I env ;; _ <~ alarm th ;;
    x <~ Smtp.smtp fuel (Smtp.mkcfg (scrw c) logid (iptostr I (remoteip i) ++ [0]) grey (sfailclosed (sset c)) tls child f0 t1) ;; Ret (Exit x)).
Proof.
  intros grey tls child t1 f0 t H. mt H. clear t H. intros t i H. unfold alarm, sys1. cbn [pbind]. apply sp_do. intros a _.
  assert (S : settings (t ++ [(Other (bs "alarm") [th] [], a)]) = twice th) by (rewrite settings_app, H; reflexivity).
  split; [split; [exact Logic.I|intros _; exists 3%nat; exact S]|]. eapply sp_bind with (M := fun _ _ => True); [|intros; apply sp_ret; exact Logic.I].
  eapply sp_conseq; [apply (sp_quiet _ _ _ unset (fun u => settings u = twice th)); [apply session_unset|exact S|]|auto].
  intros u e HU E _. split; [|rewrite unset_settings; auto]. split; [destruct (fst e); auto|]. rewrite (unset_not e E). discriminate.
Qed.
Lemma sjailed_sp : forall tls child t1 f0 r sl t, settings t = half_minute -> ok t (smtp_jailed I fuel env nojail logid c tls child t1 f0 r sl).
Proof.
  intros tls child t1 f0 r sl t H. unfold smtp_jailed. mt H. clear t H. intros t acc H. mt H. clear t H. intros t dir H.
  eapply m_then; [destruct nojail; auto with dry|exact H|]. clear t H. intros t x H. destruct (_ =? _); [apply sp_ret; exact Logic.I|].
  unfold grey_connect. destruct (shost c) as [[host port]|]; [|apply msession_sp; exact H].
  eapply m_then; [|exact H|].
  { destruct nojail; [apply calls_bind; [auto with dry|intros [[? ?] ?]; auto with dry]|]. destruct r as [[fd pid]|]; auto with dry. apply calls_bad. }
  clear t H. intros t [n ip] H. destruct (n <=? 0); [apply sp_ret; exact Logic.I|]. eapply m_then; [destruct nojail; auto with dry|exact H|]. clear t H. intros t _ H.
  mt H. clear t H. intros t [[w ip1] sl1] H. destruct w as [[g0 g1]|].
  - mt H. clear t H. intros t _ H. apply msession_sp; exact H.
  - destruct (sfailclosed (sset c)) eqn:SC; [apply sp_ret; exact Logic.I|]. rewrite <- SC. apply msession_sp; exact H.
Qed.
Lemma sparent_sp : forall tls child t0 t1 f0 f1 t, settings t = half_minute -> ok t (smtp_parent I fuel buf0 ip0 env nojail logid c tls child t0 t1 f0 f1).
Proof.
  intros tls child t0 t1 f0 f1 t H. unfold smtp_parent. do 5 (mt H; clear t H; intros t ? H).
  destruct (shost c) as [hp|]; [|apply sjailed_sp; exact H].
  assert (K : forall r t, settings t = half_minute -> ok t ('(ok, sl) <~ conn_init conn_start_state 1 ;; if negb ok then Ret (Exit 111) else smtp_jailed I fuel env nojail logid c tls child t1 f0 r sl)).
  { clear t H. intros r t H. mt H. clear t H. intros t [b sl] H. destruct (negb b); [apply sp_ret; exact Logic.I|]. apply sjailed_sp; exact H. }
  destruct nojail eqn:NJ; rewrite <- NJ; rewrite <- NJ in K; [apply K; exact H|]. unfold resolvehost_init. eapply m_then; [dry1|exact H|]. clear t H. intros t a H. destruct (_ =? _); [apply sp_ret; exact Logic.I|]. cbv zeta.
  eapply m_fork; [exact H|]. clear t H. intros t f N H. destruct (_ =? -1).
  - mt H. clear t H. intros t _ H. mt H. intros. apply sp_ret. exact Logic.I.
  - rewrite (proj2 (Z.eqb_neq _ _) N). mt H. clear t H. intros t _ H. apply K. exact H.
Qed.
Lemma opened_sp : forall k, (forall r w t, settings t = half_minute -> ok t (k r w)) -> forall t, settings t = half_minute -> ok t (open_pipe k).
Proof.
  intros k K t H. unfold open_pipe. eapply m_then; [dry1|exact H|]. clear t H. intros t a H. destruct (_ =? _); [apply sp_ret; exact Logic.I|]. cbv zeta.
  do 4 (eapply m_then; [unfold blocking, do; dry1|exact H|]; clear t H; intros t ? H). apply K. exact H.
Qed.
Lemma started_sp : forall t, settings t = half_minute -> ok t (
    tls <~ has_starttls ;;
    open_pipe (fun t0 t1 => open_pipe (fun f0 f1 =>
    f <~ sys1 (Other (bs "fork") [] []) ;;
    if ret f =? -1 then Ret (Exit 111)
    else if ret f =? 0 then server_main c t0 t1 f0 f1
    else smtp_parent I fuel buf0 ip0 env nojail logid c tls (ret f) t0 t1 f0 f1))).
Proof.
  intros t H. eapply m_then; [unfold has_starttls; dry1|exact H|]. clear t H. intros t tls H. apply opened_sp; [|exact H]. clear t H. intros t0 t1 t H. apply opened_sp; [|exact H]. clear t H. intros f0 f1 t H.
  eapply m_fork; [exact H|]. clear t H. intros t f N H. destruct (_ =? -1); [apply sp_ret; exact Logic.I|]. rewrite (proj2 (Z.eqb_neq _ _) N). apply sparent_sp. exact H.
Qed.
Lemma settings_prefix : forall (tr h : trace), holds OK h tr -> (exists n, settings h = firstn n (twice th)) -> exists n, settings (h ++ tr) = firstn n (twice th).
Proof.
  intros tr. induction tr as [|e tr IH] using rev_ind; intros h H B; [rewrite app_nil_r; exact B|].
  assert (X : OK (h ++ tr) e) by (apply (H tr e []); reflexivity). rewrite app_assoc. destruct (sets e) eqn:S; [apply X; exact S|].
  rewrite settings_app. unfold settings at 2. cbn [filter]. rewrite S. cbn [map]. rewrite app_nil_r. apply IH; auto. intros t1 d t2 ->. apply (H t1 d (t2 ++ [e])). rewrite <- !app_assoc. reflexivity.
Qed.
End Smtp.
