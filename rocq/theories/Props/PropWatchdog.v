(** C91: the alarm clock of the wrapper. *)
From Verif.Model Require Import Base Sys Io Str Inet InetIsc Config Parsenum Fdio Relay Session Tlsphase Jail Pem Keyjail Proxy Conninfo Options Profile Main.
From Verif.Spec Require Import Text Num Ip Settings Cmdline Flow Restrict Process Watchdog.
From Verif.Proof Require Import Tac SysP CallsP StrP ConfigP OptionsP PlayP PerformP SafeP MainCallsP MainP WatchdogP ChildClockP.
From Verif.Props Require Import PropJail PropOptions PropMain.

Lemma options_early : forall argv, calls early (command_line argv).
Proof.
  assert (SO : forall c x o, calls early (set_option c x o)).
  { intros. unfold set_option, statted, configured. early1. }
  assert (CL : forall x next o, calls early (cluster x next o)).
  { intros x. induction x as [|c x IH]; intros; cbn [cluster]; early1; auto. }
  assert (OP : forall argv o, calls early (options argv o)).
  { fix IH 1. intros argv o. destruct argv as [|x argv]; cbn [options]; early1; auto. }
  intros. unfold command_line. early1; apply OP.
Qed.
Lemma early_same : forall u t : trace, action (seen t) = 0 -> Forall (fun e => early (fst e)) u -> seen (t ++ u) = seen t.
Proof.
  intros u. induction u as [|e u IH]; intros t A F; [rewrite app_nil_r; reflexivity|]. inversion F as [|? ? E F']. subst.
  change (e :: u) with ([e] ++ u). rewrite app_assoc. assert (S : seen (t ++ [e]) = seen t) by (rewrite seen_app; apply look_early; [exact E|lia]). rewrite IH; [exact S|congruence|exact F'].
Qed.
(** pipe(2) gives descriptors *)
Definition real_pipes (tr : trace) : Prop := forall e, In e tr -> calling (bs "pipe") e = true -> ret (snd e) <> -1 -> 0 <= nth 0 (data (snd e)) 0.
Lemma parent_holds : forall h tr, original tr -> real_pipes tr -> holds parent h tr.
Proof.
  intros h tr O P t1 e t2 ->. split.
  - intros C E. apply O. unfold forks. rewrite filter_app, map_app. apply in_or_app. right. cbn [filter]. rewrite C. left. exact E.
  - intros C N. apply P; auto. apply in_or_app. right. left. reflexivity.
Qed.

Section Watchdog.
Variable I : inet.
Variable stream : list Z -> list Z -> nat -> Z.
Variable fuel : nat.
Variables junk portbuf line0 key0 : list Z.
Variable env : environment.
Variable nojail : bool.
Notation main := (main_tlswrapper I stream fuel junk portbuf line0 key0 env nojail).
Notation start := (start_child I stream fuel junk portbuf line0 key0 env nojail).

Lemma main_clock : forall argv tr out, runs (main argv) tr out ->
  (length tr <= 4)%nat /\ Forall (fun e => nofork (fst e)) tr \/
  exists t0 t1 t2, tr = t0 ++ t1 ++ t2 /\ length t0 = 4%nat /\ seen t0 = mkguard (Running 10) 0 (-1) 0 0 false /\ Forall (fun e => nofork (fst e)) t0 /\ Forall (fun e => early (fst e)) t1 /\
    (t2 = [] \/ exists cmd, runs (command_line argv) t1 (Fin (Some cmd)) /\ runs (start cmd) t2 out).
Proof.
  intros argv tr out R. unfold main_tlswrapper, signal, sigaction, alarm, do, sys1 in R. cbn [pbind] in R.
  assert (N : forall n a d, n <> bs "fork" -> nofork (Other n a d)) by (intros n a d H; exact H).
  destruct R as [[-> ->]|(a1 & u1 & -> & R)]; [left; split; [cbn; lia|constructor]|].
  destruct R as [[-> ->]|(a2 & u2 & -> & R)]; [left; split; [cbn; lia|repeat constructor; discriminate]|].
  destruct (Z.eqb_spec (ret a2) (-1)); [destruct R as [-> ->]; left; split; [cbn; lia|repeat constructor; discriminate]|].
  destruct R as [[-> ->]|(a3 & u3 & -> & R)]; [left; split; [cbn; lia|repeat constructor; discriminate]|].
  destruct (Z.eqb_spec (ret a3) (-1)); [destruct R as [-> ->]; left; split; [cbn; lia|repeat constructor; discriminate]|].
  destruct R as [[-> ->]|(a4 & u4 & -> & R)]; [left; split; [cbn; lia|repeat constructor; discriminate]|]. right.
  assert (G : forall c1 c2 c3 c4, c1 = Other (bs "signal") [13; 1] [] -> c2 = Other (bs "sigaction") [17] [] -> c3 = Other (bs "sigaction") [15] [] -> c4 = Other (bs "alarm") [10] [] ->
    seen [(c1, a1); (c2, a2); (c3, a3); (c4, a4)] = mkguard (Running 10) 0 (-1) 0 0 false) by (intros ? ? ? ? -> -> -> ->; reflexivity).
  apply runs_bind in R as [(x & t1 & t2 & -> & R1 & R2)|R].
  - pose proof (options_early _ _ _ R1) as F1. eexists [_; _; _; _], t1, t2. split; [reflexivity|]. split; [reflexivity|]. split; [apply G; reflexivity|]. split; [repeat constructor; discriminate|]. split; [exact F1|].
    destruct x as [cmd|]; [right; eauto|]. destruct R2 as [-> _]. left. reflexivity.
  - eexists [_; _; _; _], u4, []. split; [rewrite app_nil_r; reflexivity|]. split; [reflexivity|]. split; [apply G; reflexivity|]. split; [repeat constructor; discriminate|]. split; [|left; reflexivity].
    destruct R as [[R _]|[R _]]; exact (options_early _ _ _ R).
Qed.

(** The wrapper is supervised by its alarm clock from the fourth call on. *)
Theorem C91_watched : forall name words argv tr out, Forall2 points words argv -> runs (main (name :: argv)) tr out -> original tr -> real_pipes tr ->
  (length tr <= 4)%nat \/
  exists t0 t1 t2, tr = t0 ++ t1 ++ t2 /\ length t0 = 4%nat /\
    (forall u v, t1 = u ++ v -> clk (seen (t0 ++ u)) = Running 10 /\ action (seen (t0 ++ u)) = 0) /\
    (t2 = [] \/ exists l prg th hh, accepted words l prg th hh t1 /\ day th /\ day hh /\ holds (guarded th hh) (t0 ++ t1) t2).
Proof.
  intros name words argv tr out F R O P. destruct (main_clock _ _ _ R) as [[L _]|(t0 & t1 & t2 & -> & L & S & _ & E & C)]; [left; exact L|right].
  assert (A0 : action (seen t0) = 0) by (rewrite S; reflexivity). assert (S1 : seen (t0 ++ t1) = seen t0) by (apply early_same; assumption).
  exists t0, t1, t2. split; [reflexivity|]. split; [exact L|]. split.
  - intros u v ->. apply Forall_app in E as [E _]. rewrite (early_same _ _ A0 E), S. split; reflexivity.
  - destruct C as [-> |(cmd & R1 & R2)]; [left; reflexivity|right]. destruct (C64_exact _ _ _ _ _ F R1) as (_ & X & _). destruct (X cmd eq_refl) as (l & prg & A & _).
    exists l, prg, (timeout cmd), (hstimeout cmd). pose proof (proj2 (a_timeout _ _ _ _ _ _ A)) as D1. pose proof (proj2 (a_hstimeout _ _ _ _ _ _ A)) as D2. split; [exact A|]. split; [exact D1|]. split; [exact D2|].
    pose proof (parent_holds [] _ O P) as PH. rewrite app_assoc in PH. apply holds_app in PH as [_ PH]. cbn [app] in PH.
    destruct (start_sp I stream fuel junk portbuf line0 key0 env nojail cmd ltac:(lia) ltac:(lia) (t0 ++ t1) ltac:(rewrite S1, S; reflexivity) ltac:(rewrite S1; exact A0) t2 _ R2 PH) as [H _]. exact H.
Qed.

(** A new process stops the clock it would not have inherited anyway, and sets none: its program and the one with the key run without. *)
Theorem C91_children : forall argv tr out, runs (main argv) tr out ->
  forall t e t', tr = t ++ e :: t' -> calling (bs "fork") e = true -> ret (snd e) = 0 ->
  t' = [] \/ exists a u, t' = (Other (bs "alarm") [0] [], a) :: u /\ Forall (fun x => calling (bs "alarm") x = false) u /\ original u.
Proof.
  intros argv tr out R t e t' E F Z.
  assert (NI : forall u : trace, Forall (fun e => nofork (fst e)) u -> In e u -> False) by (intros u X Y; exact (nofork_in _ _ X Y F)).
  assert (ST : stopped t').
  { destruct (main_clock _ _ _ R) as [[_ N]|(t0 & t1 & t2 & TR & L & S & N0 & E1 & C)]; [exfalso; apply (NI _ N); rewrite E; apply in_or_app; right; left; reflexivity|].
    assert (N1 : Forall (fun e => nofork (fst e)) (t0 ++ t1)).
    { apply Forall_app. split; [exact N0|]. eapply Forall_impl; [|exact E1]. intros x H. unfold early in H. unfold nofork. destruct (fst x); auto. apply H. }
    rewrite app_assoc in TR. destruct C as [-> |(cmd & R1 & R2)]; [exfalso; apply (NI _ N1); rewrite app_nil_r in TR; rewrite <- TR, E; apply in_or_app; right; left; reflexivity|].
    rewrite TR in E. apply app_eq_app in E as (m & [[E3 E2]|[E3 E2]]).
    - destruct m as [|y m]; cbn [app] in E2; [exact (start_born I stream fuel junk portbuf line0 key0 env nojail cmd t2 _ R2 [] e t' (eq_sym E2) F Z)|]. injection E2 as <- ->. exfalso. apply (NI _ N1). rewrite E3. apply in_or_app. right. left. reflexivity.
    - exact (start_born I stream fuel junk portbuf line0 key0 env nojail cmd t2 _ R2 m e t' E2 F Z). }
  destruct ST as [-> |(a & u & -> & FU)]; [left; reflexivity|right]. exists a, u. split; [reflexivity|]. split.
  - eapply Forall_impl; [|exact FU]. intros y H. unfold idler in H. unfold calling. destruct (fst y); auto. destruct (list_eq_dec _ _ _); [destruct H; contradiction|reflexivity].
  - intros IN. unfold forks in IN. apply in_map_iff in IN as (y & _ & IN). apply filter_In in IN as [IN C]. rewrite Forall_forall in FU. specialize (FU y IN). unfold calling in C. destruct (fst y); try discriminate. cbn [idler] in FU. destruct (list_eq_dec _ _ _); [apply FU; assumption|discriminate].
Qed.
End Watchdog.
Print Assumptions C91_watched.
Print Assumptions C91_children.

(** ** What the clock does not do *)
(** a session in the handshake: the engine wants records, the program's side is open *)
Definition waiting : tsess := mkts (mksess 0 1 4 5 (-1) (-1) empty empty) false false.
(** the peer sends one byte at a time *)
Definition trickle (s : os) (c : sys) : ans * os :=
  match c with
  | Select _ rd _ _ => if existsb (Z.eqb 0) rd then (mkans 1 0 [0], s) else (ok 0, s)
  | Other n _ _ => if same n (bs "tls_engine_recvrec_buf") then (ok 5, s) else kernel s c
  | _ => kernel s c
  end.
Definition set60 (e : event) : bool := match fst e with Other n [60] _ => same n (bs "alarm") | _ => false end.
Definition shaking (e : event) : bool := match e with (Other n _ _, a) => negb (same n (bs "tls_engine_current_state")) || negb (Z.testbit (ret a) 3) | _ => true end.
Lemma slow : forall n fuel, exists tr, runs (iter n (tls_body 60 1 15 false fuel) waiting) tr Cut /\ legal tr /\ length (filter set60 tr) = n /\ forallb shaking tr = true.
Proof.
  induction n as [|n IH]; intros fuel.
  - exists []. split; [cbn [iter]; split; reflexivity|]. split; [constructor|]. split; reflexivity.
  - destruct (IH fuel) as (tr & R & L & N & S). cbn [iter].
    pose proof (perform_runs _ _ trickle (Z.to_nat 20) (mkos 3 [] [] [(0, [[22]])] [4; 4; 4; 4]) (tls_body 60 1 15 false fuel waiting)) as P.
    destruct (perform _ _ _ _) as [t o] eqn:E. vm_compute in E. injection E as <- <-. cbn [fst snd] in P.
    eexists. split; [apply runs_bind; left; eexists _, _, tr; split; [reflexivity|split; [exact P|exact R]]|]. split; [|split].
    + apply legal_app. split; [apply legal_dec; vm_compute; reflexivity|exact L].
    + rewrite filter_app, app_length, N. vm_compute (length (filter _ _)). reflexivity.
    + rewrite forallb_app, S. vm_compute. reflexivity.
Qed.
(** The timeout of the handshake does not limit it: every byte of the peer sets the clock to the timeout of the session, 60
    seconds by default, although the engine is still in the handshake.  So the handshake takes as long as the peer likes. *)
Theorem C91_handshake_refuted : forall n, exists tr, runs (tls_phase 60 1 15 false n waiting) tr Cut /\ legal tr /\ length (filter set60 tr) = n /\ forallb shaking tr = true.
Proof. intros n. exact (slow n n). Qed.
Print Assumptions C91_handshake_refuted.

(** the clock at certain calls *)
Fixpoint at_call (p : event -> bool) (w : guard) (tr : trace) : list guard :=
  match tr with [] => [] | e :: tr => (if p e then [w] else []) ++ at_call p (look w e) tr end.
Lemma at_call_in : forall p q tr w, existsb q (at_call p w tr) = true -> exists t e t', tr = t ++ e :: t' /\ p e = true /\ q (fold_left look t w) = true.
Proof.
  intros p q. induction tr as [|e tr IH]; intros w H; [discriminate|]. cbn [at_call] in H. rewrite existsb_app in H. apply orb_prop in H as [H|H].
  - destruct (p e) eqn:C; [|discriminate]. cbn [existsb] in H. rewrite orb_false_r in H. exists [], e, tr. auto.
  - destruct (IH _ H) as (t & e' & t' & -> & C & E). exists (e :: t), e', t'. auto.
Qed.
(** waitpid for the program *)
Definition last_wait (e : event) : bool := match fst e with Other n [z] [] => same n (bs "waitpid") && (z =? 500) | _ => false end.
Definition waits_with (q : guard -> bool) (tr : trace) (o : outcome ending) : bool :=
  ends_with 42 [500; 501] tr o && existsb q (at_call last_wait (mkguard Off 0 (-1) 0 0 false) tr).
Definition waits_so (c : clock) : Prop :=
  exists tr t e t', runs (wrapper false plainwords) tr (Fin (Exit 42)) /\ legal tr /\ forks tr = [500; 501] /\ tr = t ++ e :: t' /\ fst e = Other (bs "waitpid") [500] [] /\ clk (seen t) = c /\ action (seen t) = 3.
Lemma waits_dec : forall c q, (exists tr o, runs (wrapper false plainwords) tr o /\ legal tr /\ waits_with q tr o = true) -> (forall g, q g = true -> clk g = c /\ action g = 3) -> waits_so c.
Proof.
  intros c q (tr & o & R & L & W) Q. unfold waits_with in W. apply andb_prop in W as [E W]. apply at_call_in in W as (t & e & t' & T & P & G). exists tr, t, e, t'.
  unfold ends_with in E. destruct o as [[x|]| |]; try discriminate. apply andb_prop in E as [E _]. apply andb_prop in E as [E1 E2]. apply Z.eqb_eq in E1. subst x. apply same_true in E2.
  repeat match goal with |- _ /\ _ => split end; auto; [|apply Q; exact G..].
  unfold last_wait in P. destruct (fst e) as [| | | | | | | |n a d]; try discriminate. destruct a as [|z [|]], d; try discriminate. apply andb_prop in P as [P1 P2]. apply same_true in P1. apply Z.eqb_eq in P2. subst. reflexivity.
Qed.
(** descriptor 15 is the self-pipe, with these bytes *)
Definition ringing (s : os) (c : sys) : ans * os :=
  match c with
  | Select _ rd _ _ => if existsb (Z.eqb 15) rd then (mkans 1 0 [15], s) else (ok 0, s)
  | _ => kernel s c
  end.
(** The wrapper does not always come to an end in time, and does not always tell how its program ended: in the first run
    the clock has rung when waitpid for the program is called, and nothing ends this wait; in the second one the clock runs
    and the signal now ends the wrapper, so if the program takes longer than that second, its exit code is lost. *)
Theorem C91_last_wait_refuted : waits_so Rung /\ waits_so (Running 1).
Proof.
  split.
  - apply (waits_dec _ (fun g => match clk g with Rung => action g =? 3 | _ => false end)).
    + apply (perform_show _ _ ringing (Z.to_nat 400) (mkos 3 [500; 501] [mkans 501 0 [0]; mkans 500 0 [10752]] [(15, [[65]; [65]])] (repeat 6 9))). vm_compute. reflexivity.
    + intros g H. destruct (clk g); try discriminate. split; [reflexivity|lia].
  - apply (waits_dec _ (fun g => match clk g with Running n => (n =? 1) && (action g =? 3) | _ => false end)).
    + apply (perform_show _ _ ringing (Z.to_nat 400) (mkos 3 [500; 501] [mkans 501 0 [0]; mkans 500 0 [10752]] [(15, [[65]; [65]])] (repeat 4 9))). vm_compute. reflexivity.
    + intros g H. destruct (clk g); try discriminate. apply andb_prop in H as [H1 H2]. apply Z.eqb_eq in H1. subst. split; [reflexivity|lia].
Qed.
Print Assumptions C91_last_wait_refuted.

(** ** Examples *)
(** A whole run, with waits during the handshake and after data: the clock is set to 30, then to 60, and rings. *)
Definition pipesb (tr : trace) : bool := forallb (fun e => negb (calling (bs "pipe") e) || (ret (snd e) =? -1) || (0 <=? nth 0 (data (snd e)) 0)) tr.
Definition selecting (e : event) : bool := match fst e with Select _ _ _ None => true | _ => false end.
Definition running (n : Z) (g : guard) : bool := match clk g with Running m => m =? n | _ => false end.
Definition supervised (ns : list Z) (tr : trace) (o : outcome ending) : bool :=
  ends_with 42 [500; 501] tr o && pipesb tr && forallb (fun n => existsb (running n) (at_call selecting (mkguard Off 0 (-1) 0 0 false) tr)) ns.
Definition busy (s : os) (c : sys) : ans * os :=
  match c with
  | Select _ rd _ _ =>
    if existsb (Z.eqb 0) rd && (match net s with (0, _ :: _) :: _ => true | _ => false end) then (mkans 1 0 [0], s)
    else if existsb (Z.eqb 15) rd then (mkans 1 0 [15], s) else if existsb (Z.eqb 20) rd then (mkans 1 0 [20], s) else (ok 0, s)
  | Other n _ _ => if same n (bs "tls_engine_recvrec_buf") then (ok 5, s) else if same n (bs "fstat") then (ok (-1), s) else if same n (bs "open") then (ok 7, s) else kernel s c
  | _ => kernel s c
  end.
Example ex_watched :
  (exists tr o, runs (wrapper false plainwords) tr o /\ legal tr /\ supervised [30; 60; 1] tr o = true) /\
  (exists tr o, runs (wrapper false (bs "-n" :: bs "-t" :: bs "7" :: bs "-T" :: bs "3" :: plainwords)) tr o /\ legal tr /\ supervised [7; 1] tr o = true).
Proof.
  split.
  - apply (perform_show _ _ busy (Z.to_nat 600) (mkos 3 [500; 501] [mkans 501 0 [0]; mkans 500 0 [10752]] [(0, [[22; 3; 1]; [0; 0]]); (15, [[65]; [65]])] (repeat 6 30))). vm_compute. reflexivity.
  - apply (perform_show _ _ busy (Z.to_nat 600) (mkos 8 [500; 501] [mkans 501 0 [0]; mkans 500 0 [10752]] [(0, [bs "EHLO"]); (20, [[65]; [65]])] (repeat 6 30))). vm_compute. reflexivity.
Qed.
(** the program's process, and the one with the key *)
Definition stops_it (k : nat) (tr : trace) (o : outcome ending) : bool :=
  match rev (filter (fun x => calling (bs "fork") (fst x)) (combine tr (tl tr))) with
  | ((_, a), (c, _)) :: _ => (ret a =? 0) && (match c with Other n [0] _ => same n (bs "alarm") | _ => false end) && (length (forks tr) =? k)%nat
  | [] => false
  end.
Example ex_children :
  (exists tr o, runs (wrapper false plainwords) tr o /\ legal tr /\ stops_it 1 tr o = true) /\
  (exists tr o, runs (wrapper false plainwords) tr o /\ legal tr /\ stops_it 2 tr o = true).
Proof.
  split.
  - apply (perform_show _ _ kernel (Z.to_nat 400) (mkos 3 [0] [] [] [])). vm_compute. reflexivity.
  - apply (perform_show _ _ kernel (Z.to_nat 400) (mkos 3 [500; 0] [] [] [])). vm_compute. reflexivity.
Qed.
