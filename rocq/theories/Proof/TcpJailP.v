(** tlswrapper-tcp: nothing is exposed before the jail, in both processes. *)
From Verif.Model Require Import Base Sys Io Str Buffer Inet Parsenum Fdio Relay Session Jail Pem Proxy Conninfo Conn Resolve Main Getopt Lookup Tcpmain.
From Verif.Spec Require Import Flow Restrict Process Forward.
From Verif.Proof Require Import Tac SysP CallsP SafeP MainCallsP MainP.
From Verif.Props Require Import PropJail.

(** kinds of calls: no new process and no name looked up; moreover nothing exposed; moreover nothing received *)
Definition kind2 (c : sys) : Prop := match c with Other n _ _ => n <> bs "fork" /\ n <> bs "getaddrinfo" | _ => True end.
Definition kind1 (c : sys) : Prop := match c with Other n _ _ => n <> bs "fork" /\ n <> bs "getaddrinfo" /\ n <> bs "connect" | _ => still c end.
Definition kind0 (c : sys) : Prop := match c with Other n _ _ => n <> bs "fork" /\ n <> bs "getaddrinfo" /\ n <> bs "connect" /\ n <> bs "recv" | _ => still c end.
Definition nofork (c : sys) : Prop := match c with Other n _ _ => n <> bs "fork" | _ => True end.
Definition process (z : bool) (t : trace) : Prop := if z then In 0 (forks t) else ~ In 0 (forks t).
Lemma calling_other : forall n nm args d a, calling nm (Other n args d, a) = true -> n = nm.
Proof. intros n nm args d a H. unfold calling in H. cbn [fst] in H. destruct (list_eq_dec Z.eq_dec n nm); [auto|discriminate]. Qed.
Lemma nofork_forks : forall t e, nofork (fst e) -> forks (t ++ [e]) = forks t.
Proof.
  intros t [c a] N. rewrite forks_app. unfold forks at 2. cbn [filter]. destruct (calling (bs "fork") (c, a)) eqn:C; [|apply app_nil_r].
  destruct c; try discriminate. apply calling_other in C. destruct (N C).
Qed.
Lemma process_step : forall z t e, nofork (fst e) -> process z t -> process z (t ++ [e]).
Proof. intros z t e N P. unfold process in *. rewrite nofork_forks by auto. exact P. Qed.
Lemma kind1_quiet : forall e, kind1 (fst e) -> ~ exposed e /\ ~ asks e.
Proof.
  intros [c a] K. unfold exposed, asks, transfers. cbn [fst] in *. destruct c; cbn in K; try contradiction; try (split; [intros [H|H]; [exact H|discriminate]|discriminate]).
  destruct K as (K1 & K2 & K3). split; [intros [H|H]; [exact H|]; apply calling_other in H; auto|intros H; apply calling_other in H; auto].
Qed.
Lemma kind0_quiet : forall e, kind0 (fst e) -> ~ receives e.
Proof. intros [c a] K. unfold receives. cbn [fst] in K. destruct c; cbn in K; try contradiction; try discriminate. intros H. apply calling_other in H. tauto. Qed.
Lemma kind01 : forall c, kind0 c -> kind1 c.
Proof. intros [] K; cbn in *; tauto. Qed.
Lemma kind1_nofork : forall c, kind1 c -> nofork c.
Proof. intros [] K; cbn in *; tauto. Qed.

Section Tcp.
Variable I : inet.
Variable fuel : nat.
Variables buf0 ip0 : list Z.
Variable env : environment.
Variable nojail : bool.
Variables (acc : option (list Z)) (dir : list Z).
Definition confined (t : trace) : Prop := nojail = true \/ restricted acc (Some dir) true t.
(** in the helper; in the original process *)
Definition guarded (t : trace) (e : event) : Prop :=
  (In 0 (forks t) -> exposed e \/ asks e \/ receives e -> restricted None None false t) /\
  (~ In 0 (forks t) -> (exposed e -> confined t) /\ (asks e -> nojail = true)).
Definition pidok (t : trace) (e : event) : Prop := fst e = Other (bs "getpid") [] [] -> 0 <= ret (snd e).
Lemma pidok_pids : forall h tr, holds pidok h tr -> pids tr.
Proof. intros h tr H a IN. apply in_split in IN as (t1 & t2 & E). apply (H _ _ _ E). reflexivity. Qed.

(** ** Parts *)
Definition true1 {A} (t : trace) (x : A) : Prop := True.
(** original process, before the jail *)
Lemma part_early : forall A B (p : prog A) (f : A -> prog B) h Q, calls kind1 p -> process false h ->
  (forall t x, process false t -> sp pidok guarded t (f x) Q) -> sp pidok guarded h (pbind p f) Q.
Proof.
  intros A B p f h Q C P K. eapply sp_bind; [apply (sp_quiet _ _ _ kind1 (process false) h p C P)|].
  - intros t e PR KE _. destruct (kind1_quiet e KE) as [E1 E2]. split; [|apply process_step; auto; apply kind1_nofork; auto].
    split; [intros N; destruct (PR N)|]. intros _. tauto.
  - auto.
Qed.
(** original process, after the jail *)
Lemma part_late : forall A B (p : prog A) (f : A -> prog B) h Q, calls kind2 p -> process false h -> confined h ->
  (forall t x, process false t -> confined t -> sp pidok guarded t (f x) Q) -> sp pidok guarded h (pbind p f) Q.
Proof.
  intros A B p f h Q C P CO K. eapply sp_bind; [apply (sp_quiet _ _ _ kind2 (fun t => process false t /\ confined t) h p C (conj P CO))|].
  - intros t [c a] [PR CF] KE _. cbn [fst] in KE. assert (NF : nofork c) by (destruct c; cbn in *; tauto). split.
    + split; [intros N; destruct (PR N)|]. intros _. split; auto. intros AS. unfold asks in AS. destruct c; try discriminate. apply calling_other in AS. destruct KE. contradiction.
    + split; [apply process_step; auto|]. destruct CF as [CF|CF]; [left; auto|right; apply restricted_app; auto].
  - cbn beta. intros t x [H1 H2]. auto.
Qed.
(** without a jail *)
Lemma part_free : forall A B (p : prog A) (f : A -> prog B) h Q, calls nofork p -> process false h -> nojail = true ->
  (forall t x, process false t -> sp pidok guarded t (f x) Q) -> sp pidok guarded h (pbind p f) Q.
Proof.
  intros A B p f h Q C P CO K. eapply sp_bind; [apply (sp_quiet _ _ _ nofork (process false) h p C P)|].
  - intros t [c a] PR NF _. split; [|apply process_step; auto]. split; [intros N; destruct (PR N)|]. intros _. split; auto. intros _. left. exact CO.
  - auto.
Qed.
(** helper, before its jail *)
Lemma part_helper : forall A B (p : prog A) (f : A -> prog B) h Q, calls kind0 p -> process true h ->
  (forall t x, process true t -> sp pidok guarded t (f x) Q) -> sp pidok guarded h (pbind p f) Q.
Proof.
  intros A B p f h Q C P K. eapply sp_bind; [apply (sp_quiet _ _ _ kind0 (process true) h p C P)|].
  - intros t e PR KE _. pose proof (kind01 _ KE) as K1. destruct (kind1_quiet e K1) as [E1 E2]. pose proof (kind0_quiet e KE). split; [|apply process_step; auto; apply kind1_nofork; auto].
    split; [tauto|]. intros N. destruct (N PR).
  - auto.
Qed.
Lemma part_inside : forall A (p : prog A) h, calls nofork p -> process true h -> restricted None None false h -> sp pidok guarded h p true1.
Proof.
  intros A p h C P R. eapply sp_conseq; [apply (sp_quiet _ _ _ nofork (fun t => process true t /\ restricted None None false t) h p C (conj P R))|unfold true1; auto].
  intros t e [PR RE] NF _. split; [|split; [apply process_step; auto|apply restricted_app; auto]]. split; [auto|]. intros N. destruct (N PR).
Qed.
(** a jail in between *)
Lemma jail_kind : forall a d l, calls kind0 (jail a d l).
Proof. intros. unfold jail, jail_main, must, mustbe, when, jail_limit_memory. destruct a, d, l; steps. Qed.
Lemma jailing : forall B a d l z (f : Z * option Z -> prog B) h Q, process z h ->
  (forall t x, process z t -> fst x <> -1 -> restricted a d l t -> sp pidok guarded t (f x) Q) ->
  (forall t x, process z t -> fst x = -1 -> sp pidok guarded t (f x) Q) -> sp pidok guarded h (pbind (jail a d l) f) Q.
Proof.
  intros B a d l z f h Q P K1 K2.
  eapply sp_bind with (M := fun t x => process z t /\ (fst x <> -1 -> restricted a d l t)).
  - assert (S : sp pidok guarded h (jail a d l) (fun t _ => process z t)).
    { apply (sp_quiet _ _ _ kind0 (process z) h _ (jail_kind a d l) P). intros t e PR KE _. pose proof (kind01 _ KE) as KK. destruct (kind1_quiet e KK). pose proof (kind0_quiet e KE).
      split; [|apply process_step; auto; apply kind1_nofork; auto]. split; tauto. }
    intros tr o RU A. destruct (S _ _ RU A) as [X1 X2]. split; auto. intros r ->. split; [apply (X2 r eq_refl)|]. intros N. eapply jail_restricted; eauto. eapply pidok_pids; eauto.
  - cbn beta. intros t x [H1 H2]. destruct (Z.eq_dec (fst x) (-1)); auto.
Qed.

(** ** The parts of main_tcp *)
Ltac kinds := repeat (calls1 || (progress cbv zeta)); try exact Logic.I; try (repeat split; discriminate).
Lemma do_kind1 : forall c, kind1 c -> calls kind1 (do c).
Proof. intros c H. unfold do. kinds. auto. Qed.
Lemma wait_kind : forall n pid, calls kind1 (wait n pid).
Proof. induction n; intros; cbn [wait]; kinds. auto. Qed.
Lemma close_kind : forall r, calls kind1 (resolvehost_close fuel r).
Proof. intros [[fd pid]|]; unfold resolvehost_close, do, Send; kinds. apply wait_kind. Qed.
Lemma rnd_nofork : forall n, calls nofork (randombytes n).
Proof. intros. unfold randombytes. kinds. Qed.
Lemma resolve_nofork : forall ip n host, calls nofork (resolvehost ip n host).
Proof.
  intros. unfold resolvehost. kinds. unfold sortip. kinds.
  assert (S : forall k s, calls nofork (shuffle k s)).
  { induction k as [|k IH]; intros s; cbn [shuffle]; kinds. - unfold randommod. kinds. apply rnd_nofork. - auto. }
  apply S.
Qed.
Lemma helper_nofork : forall n fd pp b i, calls nofork (helper n fd pp b i).
Proof. induction n; intros; cbn [helper]; unfold Send, Recv; kinds; auto using resolve_nofork. Qed.
Lemma do_kind : forall fd ip n host, calls kind1 (resolvehost_do fd ip n host).
Proof. intros. unfold resolvehost_do, Send, Recv. kinds. Qed.
Lemma init_kind : forall sl n, calls kind1 (conn_init sl n).
Proof.
  assert (X : forall sl s, calls kind1 (closeslot sl s)) by (intros; unfold closeslot; kinds).
  assert (R : forall m i sl, calls kind1 (conn_reset_from m i sl)) by (induction m; intros; cbn [conn_reset_from]; kinds; auto).
  assert (P : forall m i sl, calls kind1 (conn_prepare m i sl)).
  { induction m; intros; cbn [conn_prepare]; kinds; auto; try (apply R); unfold socket_tcp, fd_blocking_disable; kinds. }
  intros. unfold conn_init, conn_reset. kinds; auto.
Qed.
Lemma conn_kind : forall sl t ip n port, calls kind2 (conn fuel sl t ip n port).
Proof.
  assert (X : forall sl s, calls kind2 (closeslot sl s)) by (intros; unfold closeslot; kinds).
  assert (R : forall m i sl, calls kind2 (conn_reset_from m i sl)) by (induction m; intros; cbn [conn_reset_from]; kinds; auto).
  assert (C : forall p sl, calls kind2 (conn_check p sl)) by (induction p as [|[fd re] p IH]; intros; cbn [conn_check]; kinds; auto; unfold socket_connected; kinds).
  assert (S : forall m i sl ip port, calls kind2 (conn_start m i sl ip port)) by (induction m; intros; cbn [conn_start]; kinds; auto; unfold socket_connect; kinds).
  assert (W : forall n d k sl, calls kind2 (conn_wait n d k sl)).
  { induction n; intros; cbn [conn_wait]; kinds; auto; try (unfold conn_reset; apply R); try (unfold milliseconds; kinds). unfold jail_poll. kinds. }
  assert (Y : forall m i w sl ip d, calls kind2 (copyip_loop m i w sl ip d)) by (induction m; intros; cbn [copyip_loop]; kinds; auto).
  intros. unfold conn. kinds; auto; try (unfold milliseconds; kinds). unfold conn_copyip. kinds; auto.
Qed.
Lemma relay_kind : forall t self ri ro x, calls kind2 (tcp_relay t self fuel ri ro x).
Proof.
  assert (SR : forall v, calls kind2 (shut_r v)) by (intros; unfold shut_r, fd_close_read, fd_close_, tryshutdown, tryclose; kinds).
  assert (SW : forall v, calls kind2 (shut_w v)) by (intros; unfold shut_w, fd_close_write, fd_close_, tryshutdown, tryclose; kinds).
  intros. unfold tcp_relay. apply calls_bind; [|intros; kinds; auto]. apply iter_calls. intros s.
  unfold tcp_body, tcp_eof, tcp_toremote, tcp_tolocal, tcp_fromlocal, tcp_fromremote, fd_read, fd_write, watch, jail_poll, alarm. kinds; auto.
Qed.
Lemma proxy_kind : forall fd o, calls kind2 (proxyprotocol_v1_get fuel I fd o).
Proof.
  assert (O : forall f fd a n, calls kind2 (oneread f fd a n)) by (induction f; intros; cbn [oneread]; kinds; auto).
  assert (G : forall f b, calls kind2 (buffer_GETC f b)) by (intros; unfold buffer_GETC, buffer_get, buffer_feed; kinds; auto).
  assert (R : forall f k b n l, calls kind2 (pp_read f k b n l)) by (intros f k; induction k as [|k IH]; intros; cbn [pp_read]; kinds; auto).
  intros. unfold proxyprotocol_v1_get. cbv zeta. apply calls_bind; [apply R|intros; kinds].
Qed.
Lemma chain_calls : forall l r, Forall (fun f => forall r, calls allocs (f r)) l -> calls allocs (sa_chain r l).
Proof. induction l as [|f l IH]; intros r F; cbn [sa_chain]; [kinds|]. inversion F; subst. kinds; auto. Qed.
Lemma header_allocs : forall b n e, calls allocs (proxyprotocol_v1 I b n e).
Proof.
  intros. unfold proxyprotocol_v1. kinds.
  apply chain_calls. repeat constructor; intros; unfold cats, Stralloc.stralloc_copys, Stralloc.stralloc_0, Stralloc.stralloc_append; auto using cats_calls, catb_calls.
Qed.
Lemma connection_kind : forall e, calls kind2 (connection I e).
Proof. intros. unfold connection, socket_name. kinds. Qed.

Notation ok h p := (sp pidok guarded h p true1).
Lemma jailed_ok : forall c self sl ip n h, process false h -> cstr_opt (taccount (tset c)) = Ok acc -> cstr (tdir (tset c)) = Ok dir ->
  ok h (tcp_jailed I fuel env nojail c self sl ip n).
Proof.
  intros c self sl ip n h P EA ED. unfold tcp_jailed. rewrite EA, ED. cbn [lift pbind].
  assert (K : forall t, process false t -> confined t -> ok t (peer_info I fuel env (tppin (tset c)) (fun i =>
    '(w, ip, _) <~ conn fuel sl (tconnect c) ip n (tport c) ;;
    match w with
    | None => Ret (Exit 111)
    | Some (ri, ro) =>
      tcp_header I c i (fun h =>
      _ <~ signal SIGTERM HANDLER ;; _ <~ signal SIGALRM HANDLER ;; _ <~ alarm (ttimeout c) ;;
      x <~ tcp_relay (ttimeout c) self fuel ri ro h ;;
      Ret (Exit x))
    end))).
  { clear h P. intros h P C.
    assert (K : forall t i, process false t -> confined t -> ok t ('(w, ip, _) <~ conn fuel sl (tconnect c) ip n (tport c) ;;
      match w with
      | None => Ret (Exit 111)
      | Some (ri, ro) =>
        tcp_header I c i (fun h =>
        _ <~ signal SIGTERM HANDLER ;; _ <~ signal SIGALRM HANDLER ;; _ <~ alarm (ttimeout c) ;;
        x <~ tcp_relay (ttimeout c) self fuel ri ro h ;;
        Ret (Exit x))
      end)).
    { clear h P C. intros h i P C. eapply part_late; [apply conn_kind|exact P|exact C|]. clear h P C. intros h [[w ip1] sl1] P C.
      destruct w as [[ri ro]|]; [|apply sp_ret; exact Logic.I].
      assert (K : forall t x, process false t -> confined t -> ok t (_ <~ signal SIGTERM HANDLER ;; _ <~ signal SIGALRM HANDLER ;; _ <~ alarm (ttimeout c) ;; y <~ tcp_relay (ttimeout c) self fuel ri ro x ;; Ret (Exit y))).
      { clear h P C. intros h x P C. unfold signal, do. do 2 (eapply part_late; [kinds|exact P|exact C|]; clear h P C; intros h _ P C).
        eapply part_late; [unfold alarm; kinds|exact P|exact C|]. clear h P C. intros h _ P C.
        eapply part_late; [apply relay_kind|exact P|exact C|]. intros. apply sp_ret. exact Logic.I. }
      unfold tcp_header. destruct (tppout (tset c)); [|auto].
      eapply part_late; [|exact P|exact C|].
      - eapply calls_weak; [apply header_allocs|]. intros q [x ->]. exact Logic.I.
      - clear h P C. intros h [k b] P C. destruct (u64 k =? 0); [apply sp_ret; exact Logic.I|]. destruct b; [auto|apply sp_bad]. }
    unfold peer_info. destruct (tppin (tset c)).
    - eapply part_late; [apply proxy_kind|exact P|exact C|]. clear h P C. intros h [r e] P C. destruct (r =? 0); [apply sp_ret; exact Logic.I|auto].
    - eapply part_late; [apply connection_kind|exact P|exact C|]. auto. }
  destruct nojail eqn:NJ; cbn [pbind].
  - cbn [fst]. change (0 =? -1) with false. cbn iota. apply K; auto. left. exact NJ.
  - eapply jailing; [exact P| |].
    + intros t x PT N R. destruct (Z.eqb_spec (fst x) (-1)); [contradiction|]. apply K; auto. right. exact R.
    + intros t x PT E. rewrite E. apply sp_ret. exact Logic.I.
Qed.
Lemma resolved_ok : forall c r ip n h, process false h -> cstr_opt (taccount (tset c)) = Ok acc -> cstr (tdir (tset c)) = Ok dir ->
  ok h (tcp_resolved I fuel env nojail c r ip n).
Proof.
  intros c r ip n h P EA ED. unfold tcp_resolved. destruct (n <=? 0).
  - unfold tcp_die. eapply part_early; [apply close_kind|exact P|]. intros. apply sp_ret. exact Logic.I.
  - eapply part_early; [kinds|exact P|]. clear h P. intros h _ P.
    eapply part_early; [apply close_kind|exact P|]. clear h P. intros h _ P.
    eapply part_early; [kinds|exact P|]. clear h P. intros h a P. destruct (ret a =? -1); [apply sp_ret; exact Logic.I|].
    eapply part_early; [apply init_kind|exact P|]. clear h P. intros h [b sl] P. destruct (negb b); [apply sp_ret; exact Logic.I|]. apply jailed_ok; auto.
Qed.
Lemma resolve_ok : forall c h, process false h -> cstr_opt (taccount (tset c)) = Ok acc -> cstr (tdir (tset c)) = Ok dir ->
  ok h (tcp_resolve fuel buf0 ip0 nojail c (tcp_resolved I fuel env nojail c)).
Proof.
  intros c h P EA ED. unfold tcp_resolve. destruct nojail eqn:NJ.
  - eapply part_free; [apply resolve_nofork|exact P|exact NJ|]. intros t [[n e] ip] PT. rewrite <- NJ. apply resolved_ok; auto.
  - unfold resolvehost_init. eapply part_early; [kinds|exact P|]. clear h P. intros h a P. destruct (ret a =? -1); [apply sp_ret; exact Logic.I|]. cbv zeta.
    unfold sys1 at 1. cbn [pbind]. apply sp_do. intros f _. split.
    { split; [intros N; destruct (P N)|]. intros _. split; [intros [[]|X]; discriminate|discriminate]. }
    assert (PF : ret f <> 0 -> process false (h ++ [(Other (bs "fork") [] [], f)])).
    { intros N. cbn [process]. rewrite forks_app. intros X. apply in_app_or in X as [X|[X|[]]]; [destruct (P X)|]. cbn in X. congruence. }
    assert (CL : forall fd, calls kind1 (do (Close fd))) by (intros; unfold do; kinds).
    destruct (Z.eqb_spec (ret f) (-1)) as [E|N1].
    + specialize (PF ltac:(lia)). eapply part_early; [apply CL|exact PF|]. clear P PF. intros t _ P. eapply part_early; [apply CL|exact P|]. intros. apply sp_ret. exact Logic.I.
    + destruct (Z.eqb_spec (ret f) 0) as [E|N0].
      * assert (PT : process true (h ++ [(Other (bs "fork") [] [], f)])). { cbn [process]. rewrite forks_app. apply in_or_app. right. left. exact E. }
        clear P PF CL. revert PT. generalize (h ++ [(Other (bs "fork") [] [], f)]). clear h. intros h P. unfold helper_main.
        eapply part_helper; [kinds|exact P|]. clear h P. intros h pp P. eapply part_helper; [unfold do; kinds|exact P|]. clear h P. intros h _ P.
        eapply part_helper; [unfold fd_blocking_disable; kinds|exact P|]. clear h P. intros h _ P. eapply (jailing _ None None false true); [exact P| |].
        -- intros t [r m] PT N R. cbn [fst] in N. destruct (Z.eqb_spec r (-1)); [contradiction|]. eapply part_inside; auto. apply calls_bind; [apply helper_nofork|intros; kinds].
        -- intros t [r m] PT E2. cbn [fst] in E2. subst r. apply sp_ret. exact Logic.I.
      * specialize (PF N0). eapply part_early; [apply CL|exact PF|]. clear P PF. intros t _ P. eapply part_early; [apply do_kind|exact P|]. clear t P. intros t [n ip] P.
        rewrite <- NJ. apply resolved_ok; auto.
Qed.
End Tcp.
