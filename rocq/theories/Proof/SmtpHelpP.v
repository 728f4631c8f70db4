(** tlswrapper-smtp: the process of the resolver helper. *)
From Verif.Model Require Import Base Sys Io Str Buffer Inet Parsenum Fdio Relay Session Jail Pem Proxy Conninfo Conn Resolve Main Getopt Lookup Smtpmain.
From Verif.Model Require Smtp.
From Verif.Spec Require Import Text Flow Restrict Process Resolver Forward.
From Verif.Proof Require Import Tac SysP CallsP MainCallsP MainP ResolveP TcpJailP SmtpCallsP HelperP TcpHelpP.
From Verif.Props Require Import PropJail.

Lemma smtp_single : forall fuel c, calls single (Smtp.smtp fuel c).
Proof.
  intros. eapply calls_weak; [apply smtp_calls|]. intros [] K; cbn in *; auto. split; intros ->; repeat destruct K as [K|K]; try discriminate K; exact K.
Qed.
Section Help.
Variable I : inet.
Variable fuel : nat.
Variables buf0 ip0 junk : list Z.
Variable env : environment.
Variable nojail : bool.
Variable logid : option (list Z).

Lemma nofork_single_bind : forall A B (p : prog A) (f : A -> prog B), calls nofork p -> (forall x, calls nofork (f x)) -> calls nofork (pbind p f).
Proof. intros. apply calls_bind; auto. Qed.
Lemma session_single : forall cmd tls child t1 f0 grey strict, calls single (
    i <~ connection I env ;;
    _ <~ alarm (stimeout cmd) ;;
    x <~ Smtp.smtp fuel (Smtp.mkcfg (scrw cmd) logid (iptostr I (remoteip i) ++ [0]) grey strict tls child f0 t1) ;;
    Ret (Exit x)).
Proof.
  intros. apply calls_bind; [apply connection_single|]. intros i. apply calls_bind; [unfold alarm, do; kinds|]. intros _. apply calls_bind; [apply smtp_single|]. intros. apply calls_ret.
Qed.
Definition asking (r : resolver) (host : list Z) : prog (Z * list Z) :=
  if nojail then '(n, _, ip) <~ resolvehost (Some (repeat 0 16)) 16 (Some host) ;; Ret (n, ip)
  else match r with Some (fd, _) => resolvehost_do fd (Some (repeat 0 16)) 16 (Some host) | None => Bad end.
(** everything of the session's process but the asking *)
Lemma jailed_calls : forall (P : sys -> Prop) cmd tls child t1 f0 r sl, (forall c, single c -> P c) -> (forall host, calls P (asking r host)) ->
  calls P (smtp_jailed I fuel env nojail logid cmd tls child t1 f0 r sl).
Proof.
  intros P cmd tls child t1 f0 r sl W A. assert (J : forall A (p : prog A), calls single p -> calls P p) by (intros; eapply calls_weak; eauto).
  unfold smtp_jailed. apply calls_bind; [kinds|]. intros. apply calls_bind; [kinds|]. intros.
  apply calls_bind; [destruct nojail; [kinds|apply J, jail_single]|]. intros z. destruct (fst z =? -1); [kinds|].
  unfold grey_connect. destruct (shost cmd) as [[host port]|]; [|apply J, session_single].
  apply calls_bind; [apply A|]. intros [n y]. destruct (n <=? 0); [kinds|].
  apply calls_bind; [destruct nojail; [kinds|apply J, close_single]|]. intros _.
  apply calls_bind; [apply J, conn_single|]. intros [[w ip'] sl']. destruct w as [[g0 g1]|].
  - unfold do. apply calls_bind; [apply J; kinds|]. intros. apply J, session_single.
  - destruct (sfailclosed (sset cmd)); [kinds|apply J, session_single].
Qed.
Lemma asking_nofork : forall r host, calls nofork (asking r host).
Proof.
  intros. unfold asking. destruct nojail.
  - apply single_nofork. apply calls_bind; [apply resolve_single|]. intros [[n e] x]. apply calls_ret.
  - destruct r as [[fd pid]|]; [|apply calls_bad]. eapply calls_weak; [apply do_kind|exact kind1_nofork].
Qed.
Lemma jailed_nofork : forall cmd tls child t1 f0 r sl, calls nofork (smtp_jailed I fuel env nojail logid cmd tls child t1 f0 r sl).
Proof. intros. apply jailed_calls; [intros [] K; cbn in *; tauto|]. apply asking_nofork. Qed.
Lemma free : forall A (p : prog A) tr o, calls nofork p -> runs p tr o -> ~ In 0 (forks tr).
Proof. intros A p tr o C R. rewrite (no_forks _ (C _ _ R)). intros []. Qed.
Lemma inited_nofork : forall cmd tls child t1 f0 r, calls nofork ('(ok, sl) <~ conn_init conn_start_state 1 ;; if negb ok then Ret (Exit 111) else smtp_jailed I fuel env nojail logid cmd tls child t1 f0 r sl).
Proof. intros. apply calls_bind; [apply single_nofork, init_single|]. intros [b sl]. destruct (negb b); [apply calls_ret|apply jailed_nofork]. Qed.

Lemma parent_split : forall cmd tls child t0 t1 f0 f1 tr o, runs (smtp_parent I fuel buf0 ip0 env nojail logid cmd tls child t0 t1 f0 f1) tr o -> In 0 (forks tr) ->
  exists u e s0 s1 v, tr = u ++ e :: v /\ forks u = [] /\ calling (bs "fork") e = true /\ runs (helper_main fuel buf0 ip0 s0 s1) v o.
Proof.
  intros cmd tls child t0 t1 f0 f1 tr o R Z. unfold smtp_parent in R.
  apply split_bind in R as (? & a1 & tr1 & -> & F1 & _ & R & Z1); [|apply single_nofork; unfold do; kinds|exact Z].
  apply split_bind in R as (? & a2 & tr2 & -> & F2 & _ & R & Z2); [|apply single_nofork; unfold do; kinds|exact Z1].
  apply split_bind in R as (? & a3 & tr3 & -> & F3 & _ & R & Z3); [|apply single_nofork; unfold blocking, do; kinds|exact Z2].
  apply split_bind in R as (? & a4 & tr4 & -> & F4 & _ & R & Z4); [|apply single_nofork; unfold blocking, do; kinds|exact Z3].
  apply split_bind in R as (? & a5 & tr5 & -> & F5 & _ & R & Z5); [|apply single_nofork; unfold Pem.randombytes; kinds|exact Z4].
  destruct (shost cmd) as [hp|]; [|exfalso; revert Z5; eapply free; [apply jailed_nofork|exact R]].
  destruct nojail eqn:NJ; [exfalso; revert Z5; rewrite <- NJ in R; eapply free; [apply inited_nofork|exact R]|]. rewrite <- NJ in R.
  unfold resolvehost_init in R. apply split_bind in R as (a & a6 & tr6 & -> & F6 & _ & R & Z6); [|apply single_nofork; kinds|exact Z5].
  destruct (ret a =? -1); [destruct R as [-> _]; destruct Z6|].
  destruct R as [[-> _]|(f & tr7 & -> & R)]; [destruct Z6|]. cbn [pbind] in R.
  assert (FA : forks (a1 ++ a2 ++ a3 ++ a4 ++ a5 ++ a6) = []) by (rewrite !forks_app, F1, F2, F3, F4, F5, F6; reflexivity).
  destruct (ret f =? -1) eqn:EF.
  { exfalso. destruct R as [[-> _]|(c1 & tr8 & -> & R)].
    - unfold forks in Z6. cbn in Z6. lia.
    - cbn [pbind] in R. destruct R as [[-> _]|(c2 & tr9 & -> & [-> _])]; unfold forks in Z6; cbn in Z6; lia. }
  destruct (ret f =? 0) eqn:E0.
  - eexists (a1 ++ a2 ++ a3 ++ a4 ++ a5 ++ a6), _, _, _, tr7. split; [rewrite <- !app_assoc; reflexivity|]. split; [exact FA|]. split; [reflexivity|]. exact R.
  - exfalso. change ((Other (bs "fork") [] [], f) :: tr7) with ([(Other (bs "fork") [] [], f)] ++ tr7) in Z6. rewrite forks_app in Z6. apply in_app_or in Z6 as [Z6|Z6]; [unfold forks in Z6; cbn in Z6; lia|].
    clear - R Z6. apply split_bind in R as (c1 & b1 & tr8 & -> & _ & _ & R & Z8); [|apply single_nofork; unfold do; kinds|exact Z6].
    revert Z8. eapply free; [|exact R]. apply inited_nofork.
Qed.
Lemma split_pipe : forall k tr o, runs (open_pipe k) tr o -> In 0 (forks tr) ->
  exists r w t1 t2, tr = t1 ++ t2 /\ forks t1 = [] /\ runs (k r w) t2 o /\ In 0 (forks t2).
Proof.
  intros k tr o R Z. unfold open_pipe in R. apply split_bind in R as (a & a1 & tr1 & -> & F1 & _ & R & Z1); [|apply single_nofork; kinds|exact Z].
  destruct (ret a =? -1); [destruct R as [-> _]; destruct Z1|]. cbv zeta in R.
  apply split_bind in R as (? & a2 & tr2 & -> & F2 & _ & R & Z2); [|apply single_nofork; unfold do; kinds|exact Z1].
  apply split_bind in R as (? & a3 & tr3 & -> & F3 & _ & R & Z3); [|apply single_nofork; unfold blocking, do; kinds|exact Z2].
  apply split_bind in R as (? & a4 & tr4 & -> & F4 & _ & R & Z4); [|apply single_nofork; unfold do; kinds|exact Z3].
  apply split_bind in R as (? & a5 & tr5 & -> & F5 & _ & R & Z5); [|apply single_nofork; unfold blocking, do; kinds|exact Z4].
  eexists _, _, (a1 ++ a2 ++ a3 ++ a4 ++ a5), tr5. split; [rewrite <- !app_assoc; reflexivity|]. split; [rewrite !forks_app, F1, F2, F3, F4, F5; reflexivity|]. split; [exact R|exact Z5].
Qed.
(** the processes that are not the original one *)
Lemma main_split1 : forall argv tr o, runs (main_smtp I fuel buf0 ip0 junk env nojail logid argv) tr o -> In 0 (forks tr) ->
  (exists cmd t0 e a b c d t1, smtp_command I junk argv = Ok (Some cmd) /\ tr = t0 ++ e :: t1 /\ forks t0 = [] /\ calling (bs "fork") e = true /\ ret (snd e) = 0 /\ runs (server_main cmd a b c d) t1 o) \/
  (exists t0 e s0 s1 t1, tr = t0 ++ e :: t1 /\ ~ In 0 (forks t0) /\ calling (bs "fork") e = true /\ runs (helper_main fuel buf0 ip0 s0 s1) t1 o).
Proof.
  intros argv tr o R Z. unfold main_smtp in R.
  apply split_bind in R as (? & a1 & tr1 & -> & F1 & _ & R & Z1); [|apply single_nofork; unfold signal, do; kinds|exact Z].
  apply split_bind in R as (? & a2 & tr2 & -> & F2 & _ & R & Z2); [|apply single_nofork; unfold signal, do; kinds|exact Z1].
  apply split_bind in R as (? & a3 & tr3 & -> & F3 & _ & R & Z3); [|apply single_nofork; unfold alarm, do; kinds|exact Z2].
  apply split_bind in R as (r & a4 & tr4 & -> & F4 & EC & R & Z4); [|apply single_nofork; kinds|exact Z3].
  destruct r as [cmd|]; [|destruct R as [-> _]; destruct Z4].
  apply split_bind in R as (tls & a5 & tr5 & -> & F5 & _ & R & Z5); [|apply single_nofork; unfold has_starttls; kinds|exact Z4].
  apply split_pipe in R as (p1 & q1 & a6 & tr6 & -> & F6 & R & Z6); [|exact Z5]. apply split_pipe in R as (p2 & q2 & a7 & tr7 & -> & F7 & R & Z7); [|exact Z6].
  destruct R as [[-> _]|(f & tr8 & -> & R)]; [destruct Z7|]. cbn [pbind] in R.
  set (a := a1 ++ a2 ++ a3 ++ a4 ++ a5 ++ a6 ++ a7). assert (FA : forks a = []) by (unfold a; rewrite !forks_app, F1, F2, F3, F4, F5, F6, F7; reflexivity).
  replace (a1 ++ a2 ++ a3 ++ a4 ++ a5 ++ a6 ++ a7 ++ (Other (bs "fork") [] [], f) :: tr8) with (a ++ (Other (bs "fork") [] [], f) :: tr8) by (unfold a; rewrite <- !app_assoc; reflexivity).
  change ((Other (bs "fork") [] [], f) :: tr8) with ([(Other (bs "fork") [] [], f)] ++ tr8) in Z7. rewrite forks_app in Z7.
  destruct (ret f =? -1) eqn:EF; [destruct R as [-> _]; unfold forks in Z7; cbn in Z7; lia|].
  destruct (Z.eqb_spec (ret f) 0) as [E0|N0].
  - left. eexists cmd, a, _, p1, q1, p2, q2, tr8. split; [|auto 10]. apply runs_lift in EC. destruct (smtp_command I junk argv); destruct EC as [_ EC]; try discriminate; congruence.
  - right. apply in_app_or in Z7 as [Z7|Z7]; [unfold forks in Z7; cbn in Z7; lia|]. apply parent_split in R as (u & e & s0 & s1 & v & -> & FU & CE & RH); [|exact Z7].
    exists (a ++ (Other (bs "fork") [] [], f) :: u), e, s0, s1, v. split; [rewrite <- app_assoc; reflexivity|]. split; [|auto].
    change ((Other (bs "fork") [] [], f) :: u) with ([(Other (bs "fork") [] [], f)] ++ u). rewrite !forks_app, FA, FU. unfold forks. cbn. lia.
Qed.
(** ** Datagrams are received whole *)
Lemma main_wide1 : forall argv, calls wide (main_smtp I fuel buf0 ip0 junk env nojail logid argv).
Proof.
  assert (J : forall A (p : prog A), calls single p -> calls wide p) by (intros; apply single_wide; auto).
  assert (H : forall n fd pp b i, calls wide (helper n fd pp b i)).
  { induction n as [|n IH]; intros; cbn [helper]; unfold Send, Recv; kinds; auto using resolve_single; try (intros X; discriminate); cbn; lia. }
  assert (D : forall fd ip n host, calls wide (resolvehost_do fd ip n host)).
  { intros. unfold resolvehost_do, Send, Recv. kinds; try (intros X; discriminate); cbn; lia. }
  assert (A : forall r host, calls wide (asking r host)).
  { intros. unfold asking. destruct nojail; [apply J; apply calls_bind; [apply resolve_single|]; intros [[n e] x]; apply calls_ret|]. destruct r as [[fd pid]|]; [apply D|apply calls_bad]. }
  assert (W : forall cmd tls child t1 f0 r sl, calls wide (smtp_jailed I fuel env nojail logid cmd tls child t1 f0 r sl)).
  { intros. apply jailed_calls; auto. intros [| | | | | | | |n [|f [|m []]] d] K; cbn in *; tauto. }
  assert (N : forall cmd tls child t1 f0 r, calls wide ('(ok, sl) <~ conn_init conn_start_state 1 ;; if negb ok then Ret (Exit 111) else smtp_jailed I fuel env nojail logid cmd tls child t1 f0 r sl)).
  { intros. apply calls_bind; [apply J, init_single|]. intros [b sl]. destruct (negb b); [apply calls_ret|auto]. }
  assert (B : forall fd on, calls single (blocking fd on)) by (intros; unfold blocking, do; kinds).
  assert (P : forall k, (forall r w, calls wide (k r w)) -> calls wide (open_pipe k)).
  { intros k K. unfold open_pipe, do. kinds; auto; try (intros X; discriminate). }
  assert (DP : forall x k, calls wide k -> calls wide (droppriv x k)).
  { intros. unfold droppriv. apply calls_bind; [apply J, jail_single|]. intros [r m]. destruct (r =? -1); [kinds|auto]. }
  intros argv. unfold main_smtp. do 2 (apply calls_bind; [apply J; unfold signal, do; kinds|intros]). apply calls_bind; [apply J; unfold alarm, do; kinds|intros]. apply calls_bind; [kinds|intros [cmd|]; [|kinds]].
  apply calls_bind; [apply J; unfold has_starttls; kinds|intros tls]. apply P. intros p1 q1. apply P. intros p2 q2. apply calls_bind; [apply calls_sys1; exact Logic.I|intros f].
  destruct (ret f =? -1); [kinds|]. destruct (ret f =? 0).
  - unfold server_main, dup, alarm, do, signal.
    assert (K : calls wide (_ <~ signal SIGPIPE DFL ;; _ <~ signal Session.SIGALRM DFL ;; v <~ lift (cstrs (sprogram cmd)) ;; a <~ sys1 (Other (bs "execvp") [] (hd [] v)) ;; Ret (if ret a =? -1 then Exit 111 else Exec v))) by (apply J; unfold signal, do; kinds).
    kinds; auto. match goal with |- context [match ?u with Some _ => _ | None => _ end] => destruct u end; [apply DP|]; exact K.
  - unfold smtp_parent. do 2 (apply calls_bind; [apply J; unfold do; kinds|intros]). do 2 (apply calls_bind; [apply J; unfold blocking, do; kinds|intros]). apply calls_bind; [apply J; unfold Pem.randombytes; kinds|intros].
    destruct (shost cmd) as [hp|]; [|apply W]. destruct nojail eqn:NJ; rewrite <- NJ in *; [apply N|]. unfold resolvehost_init, helper_main, do, fd_blocking_disable. kinds; auto using jail_single, init_single; try (intros X; discriminate).
Qed.
End Help.
