(** tlswrapper-smtp: how the mail server is started. *)
From Verif.Model Require Import Base Sys Io Str Buffer Inet Parsenum Fdio Relay Session Jail Pem Proxy Conninfo Conn Resolve Main Getopt Lookup Smtpmain.
From Verif.Spec Require Import Text Num Settings Cmdline Words Restrict Process Fdtable Program Server.
From Verif.Proof Require Import Tac SysP CallsP StrP ConfigP OptionsP SafeP MainCallsP MainP ChildP DescP.
From Verif.Props Require Import PropJail PropOptions PropCommands.

Lemma blocking_switched : forall fd b t, runs (blocking fd b) t (Fin tt) -> switched fd b t.
Proof.
  intros fd b t R. unfold blocking in R. apply fin_sys in R as (a & t1 & -> & R). exists a. destruct (Z.eqb_spec (ret a) (-1)) as [E|E].
  - destruct R as [-> _]. left. auto.
  - unfold do in R. apply fin_sys in R as (c & t2 & -> & R). destruct R as [-> _]. right. split; auto.
    eexists _, c. split; [reflexivity|]. intros n N. unfold O_NONBLOCK. change 2048 with (2 ^ 11).
    destruct b.
    + rewrite Z.land_spec, Z.lnot_spec, Z.pow2_bits_eqb by lia. rewrite (Z.eqb_sym 11). destruct (n =? 11); cbn [negb]; rewrite ?andb_true_r, ?andb_false_r; reflexivity.
    + rewrite Z.lor_spec, Z.pow2_bits_eqb by lia. rewrite (Z.eqb_sym 11). destruct (n =? 11); cbn [negb]; rewrite ?orb_true_r, ?orb_false_r; reflexivity.
Qed.
Lemma fin_blocking : forall B fd b (f : unit -> prog B) tr x, runs (a <~ blocking fd b ;; f a) tr (Fin x) -> exists m t, tr = m ++ t /\ switched fd b m /\ runs (f tt) t (Fin x).
Proof. intros B fd b f tr x R. apply fin_bind in R as ([] & t1 & t2 & -> & R1 & R2). exists t1, t2. split; auto. split; auto. apply blocking_switched. exact R1. Qed.
Lemma fin_pipe : forall k tr v, runs (open_pipe k) tr (Fin (Exec v)) -> exists p t r w, tr = p ++ t /\ piped r w p /\ runs (k r w) t (Fin (Exec v)).
Proof.
  intros k tr v R. unfold open_pipe in R. apply fin_sys in R as (a & t & -> & R). destruct (Z.eqb_spec (ret a) (-1)) as [E|E]; [destruct R; discriminate|]. cbv zeta in R.
  apply fin_do in R as (b & t1 & -> & R). apply fin_blocking in R as (m1 & t2 & -> & M1 & R). apply fin_do in R as (c & t3 & -> & R). apply fin_blocking in R as (m2 & t4 & -> & M2 & R).
  exists ((Other (bs "pipe") [] [], a) :: ((Other (bs "fcntl") [nth 0 (data a) 0; 2; 1] [], b) :: m1) ++ ((Other (bs "fcntl") [nth 1 (data a) 0; 2; 1] [], c) :: m2)), t4, (nth 0 (data a) 0), (nth 1 (data a) 0).
  split; [cbn [app]; rewrite <- !app_assoc; reflexivity|]. split; [|exact R]. exists a, b, c, m1, m2. auto 10.
Qed.
Lemma fin_install : forall u fd n k tr v, runs (_ <~ do (Close u) ;; _ <~ do (Close n) ;; dup fd n (_ <~ blocking n true ;; k)) tr (Fin (Exec v)) ->
  exists s t, tr = s ++ t /\ installed u fd n s /\ runs k t (Fin (Exec v)).
Proof.
  intros u fd n k tr v R. apply fin_do in R as (a & t1 & -> & R). apply fin_do in R as (b & t2 & -> & R). unfold dup in R. apply fin_sys in R as (d & t3 & -> & R).
  destruct (Z.eqb_spec (ret d) n) as [E|E]; [|destruct R; discriminate]. apply fin_blocking in R as (m & t4 & -> & M & R).
  exists ((Close u, a) :: (Close n, b) :: (Other (bs "dup") [fd] [], d) :: m), t4. split; [reflexivity|]. split; [|exact R]. exists a, b, d, m. auto.
Qed.
Lemma fin_probe : forall tr tls, runs has_starttls tr (Fin tls) -> probed tls tr.
Proof.
  intros tr tls R. unfold has_starttls in R. apply fin_sys in R as (a & t & -> & R). exists a. destruct (Z.eqb_spec (ret a) 0) as [E|E]; cbn [negb] in R.
  - apply fin_sys in R as (b & t2 & -> & R). destruct R as [-> R]. injection R as ->. right. split; auto. exists b. split; [reflexivity|]. destruct (Z.eqb_spec (ret b) 0); intuition congruence.
  - destruct R as [-> R]. injection R as ->. left. auto.
Qed.
Lemma smtp_strings : forall l o, smtp_sets l o -> cstr_opt (suser o) = Ok (last_arg 117 l) /\ cstr_opt (saccount o) = Ok (last_arg 106 l) /\ cstr (sdir o) = Ok (given (last_arg 74 l) (bs "/var/lib/tlswrapper/empty")).
Proof.
  intros l o S.
  assert (M : forall x y, maybe x y -> cstr_opt y = Ok x). { intros x y X. unfold maybe in X. unfold cstr_opt. destruct x, y; try contradiction; [|reflexivity]. rewrite (cstr_ptr _ _ X). reflexivity. }
  split; [apply M; apply S|]. split; [apply M; apply S|]. exact (cstr_ptr _ _ (ss_dir _ _ S)).
Qed.
Lemma cstrs_points : forall prg argv, Forall2 points prg argv -> cstrs argv = Ok prg.
Proof. induction 1 as [|w p ws ps P F IH]; cbn [cstrs]; auto. rewrite (cstr_ptr _ _ P). cbn [bind]. rewrite IH. reflexivity. Qed.

Section Server.
Variable I : inet.
Variable fuel : nat.
Variables buf0 ip0 junk : list Z.
Variable env : environment.
Variable nojail : bool.
Variable logid : option (list Z).

(** only the server's process executes a program *)
Definition noexec (p : prog ending) : Prop := forall tr v, ~ runs p tr (Fin (Exec v)).
Lemma noexec_bind : forall A (p : prog A) f, (forall x, noexec (f x)) -> noexec (pbind p f).
Proof. intros A p f H tr v R. apply fin_bind in R as (a & t1 & t2 & _ & _ & R). exact (H _ _ _ R). Qed.
Lemma noexec_exit : forall c, noexec (Ret (Exit c)).
Proof. intros c tr v [_ R]. discriminate. Qed.
Lemma noexec_bad : noexec Bad.
Proof. intros tr v [_ R]. discriminate. Qed.
Lemma noexec_halt : noexec Halt.
Proof. intros tr v [_ R]. discriminate. Qed.
Ltac noexecs := repeat (cbn beta iota zeta || match goal with
  | |- noexec (pbind _ _) => apply noexec_bind; intros
  | |- noexec (Ret (Exit _)) => apply noexec_exit
  | |- noexec Bad => apply noexec_bad
  | |- noexec Halt => apply noexec_halt
  | |- noexec (match ?x with _ => _ end) => destruct x
  | |- noexec (let '(_, _) := ?x in _) => destruct x end).
Lemma jailed_noexec : forall nj cmd tls c t1 f0 r sl, noexec (smtp_jailed I fuel env nj logid cmd tls c t1 f0 r sl).
Proof.
  intros. unfold smtp_jailed, grey_connect. noexecs.
Qed.
Lemma parent_noexec : forall cmd tls c t0 t1 f0 f1, noexec (smtp_parent I fuel buf0 ip0 env nojail logid cmd tls c t0 t1 f0 f1).
Proof.
  intros. unfold smtp_parent, resolvehost_init, helper_main. noexecs; auto using jailed_noexec.
Qed.
Theorem server_exec : forall name words argv tr v, length junk = 6%nat -> Forall2 points words argv ->
  runs (main_smtp I fuel buf0 ip0 junk env nojail logid (name :: argv)) tr (Fin (Exec v)) -> pids tr ->
  exists l prg timeout crw grey, smtp_line I words l prg timeout crw grey /\ v = prg /\ served (last_arg 117 l) prg tr.
Proof.
  intros name words argv tr v J F R P. destruct (C78_exact I junk name words argv J F) as (r & E & H). unfold main_smtp in R.
  unfold signal in R at 1 2. apply fin_do in R as (a1 & t1 & -> & R). apply fin_do in R as (a2 & t2 & -> & R). apply fin_sys in R as (a3 & t3 & -> & R).
  rewrite E in R. cbn [lift pbind] in R. destruct r as [cmd|]; [|destruct R; discriminate]. destruct H as (l & prg & grey & SL & SE & PP & _).
  apply fin_bind in R as (tls & tp & t4 & -> & RP & R). apply fin_probe in RP. apply fin_pipe in R as (p1 & t5 & r1 & w1 & -> & P1 & R). apply fin_pipe in R as (p2 & t6 & r2 & w2 & -> & P2 & R).
  apply fin_sys in R as (f & t7 & -> & R). destruct (ret f =? -1); [destruct R; discriminate|]. destruct (Z.eqb_spec (ret f) 0) as [E0|E0]; [|destruct (parent_noexec _ _ _ _ _ _ _ _ _ R)].
  unfold server_main in R. apply fin_sys in R as (a4 & t8 & -> & R). apply fin_install in R as (s0 & t9 & -> & S0 & R). apply fin_install in R as (s1 & t10 & -> & S1 & R).
  apply fin_do in R as (a5 & t11 & -> & R). destruct (smtp_strings _ _ SE) as (SU & _ & _). rewrite SU in R. cbn [lift pbind] in R. rewrite (cstrs_points _ _ PP) in R. cbn [lift pbind] in R.
  assert (X : exists d t12, t11 = d ++ t12 /\ match last_arg 117 l with Some u => lowered u d | None => d = [] end /\
    runs (_ <~ signal SIGPIPE DFL ;; _ <~ signal SIGALRM DFL ;; a <~ sys1 (Other (bs "execvp") [] (hd [] prg)) ;; Ret (if ret a =? -1 then Exit 111 else Exec prg)) t12 (Fin (Exec v))).
  { destruct (last_arg 117 l) as [u|]; [|exists [], t11; auto]. apply droppriv_exec in R as (d & t12 & -> & D & R); [eauto|].
    intros a IN. apply P. repeat (try (apply in_or_app; right); try right). exact IN. }
  destruct X as (d & t12 & -> & D & X). unfold signal in X. apply fin_do in X as (a6 & t13 & -> & X). apply fin_do in X as (a7 & t14 & -> & X). apply fin_sys in X as (x & t15 & -> & X). destruct X as [-> X].
  destruct (Z.eqb_spec (ret x) (-1)) as [E1|E1]; [discriminate|]. injection X as ->.
  exists l, prg, (stimeout cmd), (scrw cmd), grey. split; [exact SL|]. split; [reflexivity|]. constructor.
  exists [(Other (bs "signal") [13; 1] [], a1); (Other (bs "signal") [14; 2] [], a2); (Other (bs "alarm") [30] [], a3)], tp, tls, p1, p2, f, (Other (bs "alarm") [0] [], a4), s0, s1, (Close 5, a5), d,
    [(Other (bs "signal") [13; 0] [], a6); (Other (bs "signal") [14; 0] [], a7)], x, r1, w1, r2, w2.
  split; [cbn [app]; reflexivity|]. auto 20.
Qed.

(** ** Descriptors *)
Variable T0 : table.
Hypothesis START : start_table T0.
Definition A0 (t : trace) (e : event) : Prop := fd_answer (descriptors T0 t) e.
Definition OK0 (t : trace) (e : event) : Prop := True.
Definition Q0 (t : trace) (x : ending) : Prop := match x with Exec _ => server_fds T0 (descriptors T0 t) | Exit _ => True end.
Notation spz h p := (sp A0 OK0 h p Q0).
Lemma z1 : forall t e, A0 t e -> fd_answer (descriptors T0 t) e. Proof. auto. Qed.
Lemma z2 : forall t e, calm (fst e) -> OK0 t e. Proof. intros. exact Logic.I. Qed.
Lemma z3 : forall t, Q0 t (Exit 111). Proof. intros. exact Logic.I. Qed.
Lemma sp_noexec : forall h p, noexec p -> spz h p.
Proof. intros h p N tr o R _. split; [intros ? ? ? _; exact Logic.I|]. intros [c|v] ->; [exact Logic.I|destruct (N _ _ R)]. Qed.
Lemma sp_rest : forall (p : prog ending) h, calls pcall p -> server_fds T0 (descriptors T0 h) -> sp A0 OK0 h p (fun t _ => server_fds T0 (descriptors T0 t)).
Proof.
  intros p h C S. apply (sp_quiet _ _ _ pcall (fun t => server_fds T0 (descriptors T0 t)) h p C S). intros t e H PE _. split; [exact Logic.I|].
  rewrite fds_app, step_neutral; [exact H|]. destruct e as [c a]. cbn [fst] in *. destruct PE as [[M N]|(n & ->)]; [|cbn; repeat split; discriminate].
  apply mild_neutral; [exact M|]. intros fd ->. exact N.
Qed.
Lemma start_pcalls : forall cmd, calls pcall (
  u <~ lift (cstr_opt (suser (sset cmd))) ;;
  (match u with Some u => droppriv u | None => fun k => k end) (
  _ <~ signal SIGPIPE DFL ;; _ <~ signal SIGALRM DFL ;;
  v <~ lift (cstrs (sprogram cmd)) ;;
  a <~ sys1 (Other (bs "execvp") [] (hd [] v)) ;;
  Ret (if ret a =? -1 then Exit 111 else Exec v))).
Proof.
  intros. assert (K : calls pcall (_ <~ signal SIGPIPE DFL ;; _ <~ signal SIGALRM DFL ;; v <~ lift (cstrs (sprogram cmd)) ;; a <~ sys1 (Other (bs "execvp") [] (hd [] v)) ;; Ret (if ret a =? -1 then Exit 111 else Exec v))).
  { unfold signal, do. repeat calls1; try (left; split; [here|exact Logic.I]). right. eauto. }
  apply calls_bind; [repeat calls1|]. intros [u|]; [apply droppriv_pcall; exact K|exact K].
Qed.
Ltac calmx N := match goal with
  | |- sp _ _ _ (pbind (blocking _ _) _) _ => eapply sp_calm; [apply z2|apply blocking_calmer|exact N|]; clear N; intros _ ? N
  | |- sp _ _ _ (pbind (alarm _) _) _ => eapply sp_calm; [apply z2|apply alarm_calmer|exact N|]; clear N; intros _ ? N
  | |- sp _ _ _ (pbind (signal _ _) _) _ => eapply sp_calm; [apply z2|apply signal_calmer|exact N|]; clear N; intros _ ? N end.
Ltac closex N := eapply sp_close; [apply z2|exact N|]; clear N; intros ? N.
Ltac dupx N o := eapply (sp_dup1 _ _ _ _ z1 z2 z3 o true); [exact N| | |unfold Z.le; discriminate]; [|clear N; intros ? N].
Lemma sp_server : forall argv h, now T0 [] T0 0 h -> spz h (main_smtp I fuel buf0 ip0 junk env nojail logid argv).
Proof.
  intros argv h N. unfold main_smtp. calmx N. calmx N. calmx N.
  eapply sp_bind with (M := fun t _ => now T0 [] T0 0 t); [apply sp_lift; intros; exact N|]. clear N. clear h. intros h [cmd|] N; [|apply sp_ret; exact Logic.I].
  eapply sp_calm; [apply z2| |exact N|].
  { unfold has_starttls. repeat calls1; repeat split; discriminate. }
  clear h N. intros tls h N. eapply (sp_pipe _ _ _ _ z1 z2 z3); [exact N|]. clear h N. intros r1 w1 h D1 L1 L2 N. eapply (sp_pipe _ _ _ _ z1 z2 z3); [exact N|]. clear h N. intros r2 w2 h D2 L3 L4 N.
  eapply sp_fork; [apply z2|exact N|]. clear h N. intros f h N. destruct (ret f =? -1); [apply sp_ret; exact Logic.I|]. destruct (ret f =? 0); [|apply sp_noexec; apply parent_noexec].
  destruct START as (S1 & S2 & S3).
  assert (Z1 : T0 r1 = None /\ 2 <= r1). { destruct L1 as (X & Y & _). split; auto. assert (r1 <> 0) by congruence. assert (r1 <> 1) by congruence. lia. }
  assert (Z2 : T0 w1 = None /\ 2 <= w1). { destruct L2 as (X & Y & _). split; auto. assert (w1 <> 0) by congruence. assert (w1 <> 1) by congruence. lia. }
  assert (Y : forall x, pipe_table T0 1 r1 w1 x = None -> T0 x = None /\ x <> r1 /\ x <> w1).
  { intros x. unfold pipe_table, Fdtable.set. destruct (Z.eqb_spec x w1); [discriminate|]. destruct (Z.eqb_spec x r1); [discriminate|]. auto. }
  assert (Z3 : T0 r2 = None /\ 2 <= r2 /\ r2 <> r1 /\ r2 <> w1). { destruct L3 as (X & Z & _). apply Y in X as (X & X1 & X2). split; auto. assert (r2 <> 0) by congruence. assert (r2 <> 1) by congruence. lia. }
  assert (Z4 : T0 w2 = None /\ 2 <= w2 /\ w2 <> r1 /\ w2 <> w1). { destruct L4 as (X & Z & _). apply Y in X as (X & X1 & X2). split; auto. assert (w2 <> 0) by congruence. assert (w2 <> 1) by congruence. lia. }
  clear Y L1 L2 L3 L4. unfold server_main.
  calmx N. closex N. closex N. dupx N (ReadEnd 1).
  { unfold pipe_table. rewrite !set_other by lia. apply set_same. }
  calmx N. closex N. closex N. dupx N (WriteEnd 2).
  { unfold pipe_table. rewrite !set_other by lia. apply set_same. }
  calmx N. closex N.
  eapply sp_conseq; [apply sp_rest; [apply start_pcalls|]|].
  - intros fd o. rewrite (n_tab _ _ _ _ _ N). unfold pipe_table, Fdtable.set.
    assert (C1 : forall (o : object) (b : bool) o' b', (Some (o', b') = Some (o, b)) <-> o = o' /\ b = b') by (intros; split; [intros E; injection E as -> ->; auto|intros [-> ->]; reflexivity]).
    assert (C0 : forall b o, (None = Some (o, b) :> option (object * bool)) <-> False) by (intros; split; [discriminate|tauto]).
    destruct (Z.eqb_spec fd 5) as [->|].
    { rewrite C0. intuition lia. }
    destruct (Z.eqb_spec fd 1) as [->|]; [rewrite C1; intuition (try lia)|]. destruct (Z.eqb_spec fd r2) as [->|]; [rewrite (proj1 Z3), C0; intuition lia|].
    destruct (Z.eqb_spec fd 0) as [->|]; [rewrite C1; intuition (try lia)|]. destruct (Z.eqb_spec fd w1) as [->|]; [rewrite (proj1 Z2), C0; intuition lia|].
    destruct (Z.eqb_spec fd w2) as [->|]; [rewrite (proj1 Z4), C0, C1; intuition (try lia; try discriminate)|].
    destruct (Z.eqb_spec fd r1) as [->|]; [rewrite (proj1 Z1), C0, C1; intuition (try lia; try discriminate)|]. intuition lia.
  - intros t [c|v] H; [exact Logic.I|exact H].
Qed.
End Server.
