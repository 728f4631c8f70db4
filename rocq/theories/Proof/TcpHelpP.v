(** tlswrapper-tcp: the two processes. *)
From Verif.Model Require Import Base Sys Io Str Buffer Inet Parsenum Fdio Relay Session Jail Pem Proxy Conninfo Conn Resolve Main Getopt Lookup Tcpmain.
From Verif.Spec Require Import Text Flow Restrict Process Resolver Forward.
From Verif.Proof Require Import Tac SysP CallsP MainCallsP MainP ResolveP TcpJailP HelperP.
From Verif.Props Require Import PropJail.

Ltac kinds := repeat (calls1 || (progress cbv zeta)); try exact Logic.I; try (repeat split; discriminate).
(** neither a new process nor a datagram received *)
Definition single (c : sys) : Prop := match c with Other n _ _ => n <> bs "fork" /\ n <> bs "recv" | _ => True end.
Section Help.
Variable I : inet.
Variable fuel : nat.
Variables buf0 ip0 : list Z.
Variable env : environment.
Variable nojail : bool.

Lemma jail_single : forall a d l, calls single (jail a d l).
Proof. intros. eapply calls_weak; [apply jail_kind|]. intros [] K; cbn in *; tauto. Qed.
Lemma wait_single : forall n pid, calls single (wait n pid).
Proof. induction n; intros; cbn [wait]; kinds. auto. Qed.
Lemma close_single : forall r, calls single (resolvehost_close fuel r).
Proof. intros [[fd pid]|]; unfold resolvehost_close, do, Send; kinds. apply wait_single. Qed.
Lemma resolve_single : forall ip n host, calls single (resolvehost ip n host).
Proof.
  intros. unfold resolvehost. kinds. unfold sortip. kinds.
  assert (S : forall k s, calls single (shuffle k s)).
  { induction k as [|k IH]; intros s; cbn [shuffle]; kinds. - unfold randommod. kinds. unfold randombytes. kinds. - auto. }
  apply S.
Qed.
Lemma init_single : forall sl n, calls single (conn_init sl n).
Proof.
  assert (X : forall sl s, calls single (closeslot sl s)) by (intros; unfold closeslot; kinds).
  assert (R : forall m i sl, calls single (conn_reset_from m i sl)) by (induction m; intros; cbn [conn_reset_from]; kinds; auto).
  assert (P : forall m i sl, calls single (conn_prepare m i sl)).
  { induction m; intros; cbn [conn_prepare]; kinds; auto; try (apply R); unfold socket_tcp, fd_blocking_disable; kinds. }
  intros. unfold conn_init, conn_reset. kinds; auto.
Qed.
Lemma conn_single : forall sl t ip n port, calls single (conn fuel sl t ip n port).
Proof.
  assert (X : forall sl s, calls single (closeslot sl s)) by (intros; unfold closeslot; kinds).
  assert (R : forall m i sl, calls single (conn_reset_from m i sl)) by (induction m; intros; cbn [conn_reset_from]; kinds; auto).
  assert (C : forall p sl, calls single (conn_check p sl)) by (induction p as [|[fd re] p IH]; intros; cbn [conn_check]; kinds; auto; unfold socket_connected; kinds).
  assert (S : forall m i sl ip port, calls single (conn_start m i sl ip port)) by (induction m; intros; cbn [conn_start]; kinds; auto; unfold socket_connect; kinds).
  assert (W : forall n d k sl, calls single (conn_wait n d k sl)).
  { induction n; intros; cbn [conn_wait]; kinds; auto; try (unfold conn_reset; apply R); try (unfold milliseconds; kinds). unfold jail_poll. kinds. }
  assert (Y : forall m i w sl ip d, calls single (copyip_loop m i w sl ip d)) by (induction m; intros; cbn [copyip_loop]; kinds; auto).
  intros. unfold conn. kinds; auto; try (unfold milliseconds; kinds). unfold conn_copyip. kinds; auto.
Qed.
Lemma relay_single : forall t self ri ro x, calls single (tcp_relay t self fuel ri ro x).
Proof.
  assert (SR : forall v, calls single (shut_r v)) by (intros; unfold shut_r, fd_close_read, fd_close_, tryshutdown, tryclose; kinds).
  assert (SW : forall v, calls single (shut_w v)) by (intros; unfold shut_w, fd_close_write, fd_close_, tryshutdown, tryclose; kinds).
  intros. unfold tcp_relay. apply calls_bind; [|intros; kinds; auto]. apply iter_calls. intros s.
  unfold tcp_body, tcp_eof, tcp_toremote, tcp_tolocal, tcp_fromlocal, tcp_fromremote, fd_read, fd_write, watch, jail_poll, alarm. kinds; auto.
Qed.
Lemma proxy_single : forall fd o, calls single (proxyprotocol_v1_get fuel I fd o).
Proof.
  assert (O : forall f fd a n, calls single (oneread f fd a n)) by (induction f; intros; cbn [oneread]; kinds; auto).
  assert (G : forall f b, calls single (buffer_GETC f b)) by (intros; unfold buffer_GETC, buffer_get, buffer_feed; kinds; auto).
  assert (R : forall f k b n l, calls single (pp_read f k b n l)) by (intros f k; induction k as [|k IH]; intros; cbn [pp_read]; kinds; auto).
  intros. unfold proxyprotocol_v1_get. cbv zeta. apply calls_bind; [apply R|intros; kinds].
Qed.
Lemma connection_single : forall e, calls single (connection I e).
Proof. intros. unfold connection, socket_name. kinds. Qed.
Lemma header_single : forall b n e, calls single (proxyprotocol_v1 I b n e).
Proof. intros. eapply calls_weak; [apply header_allocs|]. intros q [x ->]. exact Logic.I. Qed.
Lemma resolved_single : forall nj c r ip n, calls single (tcp_resolved I fuel env nj c r ip n).
Proof.
  intros. unfold tcp_resolved, tcp_die. kinds; auto using close_single, init_single. unfold tcp_jailed.
  apply calls_bind; [kinds|intros]. apply calls_bind; [kinds|intros]. apply calls_bind; [destruct nj; [kinds|apply jail_single]|intros]. destruct (_ =? _); [kinds|]. unfold peer_info, tcp_header, signal, alarm, do. kinds; auto using proxy_single, connection_single, conn_single, relay_single, header_single.
Qed.

(** ** A process that the helper is *)
Lemma single_nofork : forall A (p : prog A), calls single p -> calls nofork p.
Proof. intros A p C. eapply calls_weak; [exact C|]. intros [] K; cbn in *; tauto. Qed.
Lemma no_forks : forall t, Forall (fun e => nofork (fst e)) t -> forks t = [].
Proof. induction t as [|e t IH]; intros F; [reflexivity|]. inversion F as [|? ? F1 F2]; subst. change (e :: t) with ([e] ++ t). rewrite forks_app, (IH F2), app_nil_r. exact (nofork_forks [] e F1). Qed.
Lemma split_bind : forall A (p : prog A) (f : A -> prog ending) tr o, calls nofork p -> runs (pbind p f) tr o -> In 0 (forks tr) ->
  exists x t1 t2, tr = t1 ++ t2 /\ forks t1 = [] /\ runs p t1 (Fin x) /\ runs (f x) t2 o /\ In 0 (forks t2).
Proof.
  intros A p f tr o C R Z. apply runs_bind in R as [(x & t1 & t2 & -> & R1 & R2)|[[R1 _]|[R1 _]]].
  - pose proof (no_forks _ (C _ _ R1)) as E. rewrite forks_app, E in Z. exists x, t1, t2. auto.
  - rewrite (no_forks _ (C _ _ R1)) in Z. destruct Z.
  - rewrite (no_forks _ (C _ _ R1)) in Z. destruct Z.
Qed.
Lemma split_none : forall A (p : prog A) tr o, calls single p -> runs p tr o -> ~ In 0 (forks tr).
Proof. intros A p tr o C R. rewrite (no_forks _ (single_nofork _ _ C _ _ R)). intros []. Qed.
Lemma main_split : forall argv tr o, runs (main_tcp I fuel buf0 ip0 env nojail argv) tr o -> In 0 (forks tr) ->
  exists t0 e s0 s1 t1, tr = t0 ++ e :: t1 /\ forks t0 = [] /\ calling (bs "fork") e = true /\ runs (helper_main fuel buf0 ip0 s0 s1) t1 o.
Proof.
  intros argv tr o R Z. unfold main_tcp in R.
  apply split_bind in R as (x & a1 & tr1 & -> & F1 & _ & R & Z1); [|apply single_nofork; unfold signal, do; kinds|exact Z].
  apply split_bind in R as (r & a2 & tr2 & -> & F2 & _ & R & Z2); [|apply single_nofork; kinds|exact Z1].
  destruct r as [c|]; [|destruct R as [-> _]; destruct Z2].
  apply split_bind in R as (y & a3 & tr3 & -> & F3 & _ & R & Z3); [|apply single_nofork; unfold Pem.randombytes; kinds|exact Z2].
  unfold tcp_resolve in R. destruct nojail eqn:NJ.
  { exfalso. revert Z3. eapply split_none; [|exact R]. apply calls_bind; [apply resolve_single|]. intros [[n e] ip]. apply resolved_single. }
  unfold resolvehost_init in R. apply split_bind in R as (a & a4 & tr4 & -> & F4 & _ & R & Z4); [|apply single_nofork; kinds|exact Z3].
  destruct (ret a =? -1); [destruct R as [-> _]; destruct Z4|].
  destruct R as [[-> _]|(f & tr5 & -> & R)]; [destruct Z4|]. cbn [pbind] in R.
  assert (FA : forks (a1 ++ a2 ++ a3 ++ a4) = []) by (rewrite !forks_app, F1, F2, F3, F4; reflexivity).
  destruct (ret f =? -1) eqn:EF.
  { exfalso. destruct R as [[-> _]|(c1 & tr6 & -> & R)].
    - unfold forks in Z4. cbn in Z4. lia.
    - cbn [pbind] in R. destruct R as [[-> _]|(c2 & tr7 & -> & [-> _])]; unfold forks in Z4; cbn in Z4; lia. }
  destruct (ret f =? 0) eqn:E0.
  - eexists (a1 ++ a2 ++ a3 ++ a4), _, _, _, tr5. split; [rewrite <- !app_assoc; reflexivity|]. split; [exact FA|]. split; [reflexivity|]. exact R.
  - exfalso. change ((Other (bs "fork") [] [], f) :: tr5) with ([(Other (bs "fork") [] [], f)] ++ tr5) in Z4. rewrite forks_app in Z4. apply in_app_or in Z4 as [Z4|Z4]; [unfold forks in Z4; cbn in Z4; lia|].
    revert Z4. clear - R. intros Z4. apply split_bind in R as (c1 & b1 & tr6 & -> & _ & _ & R & Z6); [|apply single_nofork; unfold do; kinds|exact Z4].
    apply split_bind in R as ([n0 ip] & b2 & tr7 & -> & _ & _ & R & Z7); [|eapply calls_weak; [apply do_kind|exact kind1_nofork]|exact Z6].
    revert Z7. eapply split_none; [|exact R]. apply resolved_single.
Qed.
(** ** Datagrams are received whole *)
Definition wide (c : sys) : Prop := match c with Other n [f; m] _ => n = bs "recv" -> 256 <= m | _ => True end.
Lemma single_wide : forall A (p : prog A), calls single p -> calls wide p.
Proof. intros A p C. eapply calls_weak; [exact C|]. intros [| | | | | | | |n [|f [|m []]] d] K; cbn in *; tauto. Qed.
Lemma main_wide : forall argv, calls wide (main_tcp I fuel buf0 ip0 env nojail argv).
Proof.
  assert (J : forall A (p : prog A), calls single p -> calls wide p) by (intros; apply single_wide; auto).
  assert (H : forall n fd pp b i, calls wide (helper n fd pp b i)).
  { induction n as [|n IH]; intros; cbn [helper]; unfold Send, Recv; kinds; auto using resolve_single; try (intros X; discriminate); cbn; lia. }
  assert (D : forall fd ip n host, calls wide (resolvehost_do fd ip n host)).
  { intros. unfold resolvehost_do, Send, Recv. kinds; try (intros X; discriminate); cbn; lia. }
  intros argv. unfold main_tcp. apply calls_bind; [apply J; unfold signal, do; kinds|intros]. apply calls_bind; [kinds|intros [c|]; [|kinds]]. apply calls_bind; [apply J; unfold Pem.randombytes; kinds|intros].
  unfold tcp_resolve, resolvehost_init, helper_main, do, fd_blocking_disable. destruct nojail eqn:NJ.
  - apply calls_bind; [apply J, resolve_single|]. intros [[? ?] ?]. apply J. apply resolved_single.
  - kinds; auto using jail_single, resolved_single; try (intros X; discriminate).
Qed.
End Help.
