(** C63, C71: exit codes, and the jail before the first transfer. *)
From Verif.Model Require Import Base Sys Io Str Inet InetIsc Config Parsenum Fdio Relay Session Tlsphase Jail Pem Keyjail Proxy Conninfo Options Main.
From Verif.Spec Require Import Text Num Ip Settings Cmdline Flow Restrict Process Blame Forward Quit.
From Verif.Proof Require Import Tac SysP CallsP StrP ConfigP OptionsP PlayP PerformP SafeP MainCallsP MainP ChildP BlameP QuitP.
From Verif.Props Require Import PropJail PropOptions.

Section Main.
Variable I : inet.
Variable stream : list Z -> list Z -> nat -> Z.
Variable fuel : nat.
Variables junk portbuf line0 key0 : list Z.
Variable env : environment.
Variable nojail : bool.
Notation main := (main_tlswrapper I stream fuel junk portbuf line0 key0 env nojail).
Notation start := (start_child I stream fuel junk portbuf line0 key0 env nojail).

(** The parts of a run: preparations, options, the rest. *)
Definition prelude : list sys := [Other (bs "signal") [13; 1] []; Other (bs "sigaction") [17] []; Other (bs "sigaction") [15] []; Other (bs "alarm") [10] []].
Lemma main_parts : forall argv tr out, runs (main argv) tr out ->
  (out <> Wrong /\ (forall x, out = Fin x -> x = Exit 111 /\ exists n, within (answering (bs "sigaction") [n] [] (fun a => ret a = -1)) tr) /\ Forall (fun e => local (fst e)) tr) \/
  exists t0 t1 t2, tr = t0 ++ t1 ++ t2 /\ map fst t0 = prelude /\ Forall (fun e => local (fst e)) t0 /\
    ((runs (command_line argv) t1 (Fin None) /\ t2 = [] /\ out = Fin (Exit 100)) \/
     (exists cmd, runs (command_line argv) t1 (Fin (Some cmd)) /\ runs (start cmd) t2 out) \/
     (runs (command_line argv) t1 Wrong /\ t2 = [] /\ out = Wrong) \/ (runs (command_line argv) t1 Cut /\ t2 = [] /\ out = Cut)).
Proof.
  intros argv tr out R. unfold main_tlswrapper, signal, sigaction, alarm, do in R. unfold sys1 in R. cbn [pbind] in R.
  assert (L : forall n a d, n <> bs "fork" /\ n <> bs "waitpid" -> local (Other n a d)) by (intros n a d H; split; [exact H|exact Logic.I]).
  destruct R as [[-> ->]|(a1 & u1 & -> & R)]; [left; split; [discriminate|split; [discriminate|constructor]]|].
  destruct R as [[-> ->]|(a2 & u2 & -> & R)]; [left; split; [discriminate|split; [discriminate|repeat constructor; cbn [fst]; here]]|].
  destruct (Z.eqb_spec (ret a2) (-1)); [destruct R as [-> ->]; left; split; [discriminate|split; [intros x E; split; [congruence|exists 17; apply (within_r _ [_]), within_here; exists a2; auto]|repeat constructor; cbn [fst]; here]]|].
  destruct R as [[-> ->]|(a3 & u3 & -> & R)]; [left; split; [discriminate|split; [discriminate|repeat constructor; cbn [fst]; here]]|].
  destruct (Z.eqb_spec (ret a3) (-1)); [destruct R as [-> ->]; left; split; [discriminate|split; [intros x E; split; [congruence|exists 15; apply (within_r _ [_; _]), within_here; exists a3; auto]|repeat constructor; cbn [fst]; here]]|].
  destruct R as [[-> ->]|(a4 & u4 & -> & R)]; [left; split; [discriminate|split; [discriminate|repeat constructor; cbn [fst]; here]]|].
  right. apply runs_bind in R as [(x & t1 & t2 & -> & R1 & R2)|R].
  - eexists [_; _; _; _], t1, t2. split; [reflexivity|]. split; [reflexivity|]. split; [repeat constructor; cbn [fst]; here|].
    destruct x as [cmd|]; [right; left; eauto|]. left. destruct R2 as [-> ->]. auto.
  - eexists [_; _; _; _], u4, []. split; [rewrite app_nil_r; reflexivity|]. split; [reflexivity|]. split; [repeat constructor; cbn [fst]; here|]. tauto.
Qed.
Lemma local_live : forall l t u, live l t -> Forall (fun e => local (fst e)) u -> live l (t ++ u).
Proof.
  intros l t u L F. revert t L. induction F as [|e u H F IH]; intros t L; [rewrite app_nil_r; auto|].
  change (e :: u) with ([e] ++ u). rewrite app_assoc. apply IH. apply live_plain; auto. apply H.
Qed.
Lemma live_nil : live [] [].
Proof. split; reflexivity. Qed.
Lemma answers_all : forall h tr, original tr -> pids tr -> holds answers h tr.
Proof.
  intros h tr O P t1 e t2 ->. split.
  - intros C E. apply O. unfold forks. rewrite filter_app, map_app. apply in_or_app. right. cbn [filter]. rewrite C. left. exact E.
  - intros C. destruct e as [c a]. cbn [fst snd] in *. subst c. apply P. apply in_or_app. right. left. reflexivity.
Qed.
Lemma strings : forall words argv name tr cmd l prg t h, Forall2 points words argv -> runs (command_line (name :: argv)) tr (Fin (Some cmd)) -> accepted words l prg t h tr ->
  cstr_opt (jailaccount (settings cmd)) = Ok (last_arg 106 l) /\ cstr (jaildir (settings cmd)) = Ok (given (last_arg 74 l) (bs "/var/lib/tlswrapper/empty")).
Proof.
  intros words argv name tr cmd l prg t h F R A. pose proof (C64_settings _ _ _ _ _ _ _ _ _ F R A) as S. split.
  - pose proof (s_account _ _ S) as X. unfold maybe in X. unfold cstr_opt. destruct (last_arg 106 l), (jailaccount _); try contradiction; [|reflexivity]. rewrite (cstr_ptr _ _ X). reflexivity.
  - exact (cstr_ptr _ _ (s_dir _ _ S)).
Qed.

(** ** C63: every end of the wrapper *)
Theorem C63_status : forall name words argv tr x, Forall2 points words argv -> runs (main (name :: argv)) tr (Fin x) -> original tr -> pids tr ->
  exists code, x = Exit code /\
    ((code = 111 /\ waits tr = []) \/
     (code = 100 /\ forks tr = [] /\ waits tr = []) \/
     (code = 100 /\ waits tr = [] /\ (exists child key, forks tr = [child; key]) /\
      exists t0 t1 t2 l prg th hh, tr = t0 ++ t1 ++ t2 /\ accepted words l prg th hh t1 /\ In (bs "1") (args 112 l)) \/
     (exists child key t a, forks tr = [child; key] /\ tr = t ++ [(Other (bs "waitpid") [child] [], a)] /\ reported_status child a code)).
Proof.
  intros name words argv tr x F R O P.
  destruct (main_parts _ _ _ R) as [(_ & E & L)|(t0 & t1 & t2 & -> & _ & L0 & C)].
  - exists 111. split; [apply E; reflexivity|]. left. split; auto. apply (local_live [] [] tr live_nil L).
  - assert (L1 : live [] (t0 ++ t1)).
    { apply local_live; [apply (local_live [] [] _ live_nil L0)|]. destruct C as [(R1 & _)|[(cmd & R1 & _)|[(R1 & _)|(R1 & _)]]]; exact (command_local _ _ _ R1). }
    destruct C as [(R1 & -> & E)|[(cmd & R1 & R2)|[(_ & _ & E)|(_ & _ & E)]]]; try discriminate.
    + injection E as ->. exists 100. split; auto. right. left. rewrite app_nil_r. destruct L1. auto.
    + destruct (C64_exact _ _ _ _ _ F R1) as (_ & X & _). destruct (X cmd eq_refl) as (l & prg & A & _). destruct (strings _ _ _ _ _ _ _ _ _ F R1 A) as [S1 S2].
      rewrite app_assoc in *.
      destruct (start_sp I stream fuel junk portbuf line0 key0 env nojail _ _ cmd (t0 ++ t1) L1 S1 S2 t2 _ R2) as [_ E].
      { pose proof (answers_all [] _ O P) as Y. apply holds_app in Y as [_ Y]. exact Y. }
      specialize (E x eq_refl). destruct x as [code|]; [|destruct E]. exists code. split; auto. cbn [ends] in E. destruct E as [E|[(E1 & PP & E2 & E3)|E]]; [tauto| |tauto].
      right. right. left. repeat (split; [assumption|]). exists t0, t1, t2, l, prg, (timeout cmd), (hstimeout cmd). split; [rewrite app_assoc; reflexivity|]. split; auto.
      apply (s_proxy _ _ (C64_settings _ _ _ _ _ _ _ _ _ F R1 A)). exact PP.
Qed.

(** A refused command line is one that no answers could make acceptable, and processes are started only on an
    accepted one. *)
Theorem C63_usage : forall name words argv tr out, Forall2 points words argv -> runs (main (name :: argv)) tr out -> pids tr ->
  (out = Fin (Exit 100) -> forks tr = [] -> exists t0 t1, tr = t0 ++ t1 /\ length t0 = 4%nat /\ forall l prg t h rest, ~ accepted words l prg t h (t1 ++ rest)) /\
  (forks tr <> [] -> exists t0 t1 t2 l prg t h, tr = t0 ++ t1 ++ t2 /\ length t0 = 4%nat /\ accepted words l prg t h t1).
Proof.
  intros name words argv tr out F R P. destruct (main_parts _ _ _ R) as [(_ & E & L)|(t0 & t1 & t2 & -> & N' & L0 & C)]; [|assert (N : length t0 = 4%nat) by (apply (f_equal (@length sys)) in N'; rewrite map_length in N'; exact N')].
  - split; [intros ->; destruct (E _ eq_refl); discriminate|]. intros X. destruct X. apply (local_live [] [] tr live_nil L).
  - assert (L1 : live [] (t0 ++ t1)).
    { apply local_live; [apply (local_live [] [] _ live_nil L0)|]. destruct C as [(R1 & _)|[(cmd & R1 & _)|[(R1 & _)|(R1 & _)]]]; exact (command_local _ _ _ R1). }
    destruct C as [(R1 & -> & ->)|[(cmd & R1 & R2)|[(_ & -> & ->)|(_ & -> & ->)]]].
    + rewrite app_nil_r. split; [|intros X; destruct X; apply L1]. intros _ _. exists t0, t1. split; auto. split; auto. destruct (C64_exact _ _ _ _ _ F R1) as (_ & _ & X). exact (X eq_refl).
    + destruct (C64_exact _ _ _ _ _ F R1) as (_ & X & _). destruct (X cmd eq_refl) as (l & prg & A & _). split.
      2:{ intros _. exists t0, t1, t2, l, prg, (timeout cmd), (hstimeout cmd). auto. }
      intros -> FK. exfalso. destruct (strings _ _ _ _ _ _ _ _ _ F R1 A) as [S1 S2]. rewrite app_assoc in *.
      assert (O : original ((t0 ++ t1) ++ t2)) by (unfold original; rewrite FK; intros []).
      destruct (start_sp I stream fuel junk portbuf line0 key0 env nojail _ _ cmd (t0 ++ t1) L1 S1 S2 t2 _ R2) as [_ E].
      { pose proof (answers_all [] _ O P) as Y. apply holds_app in Y as [_ Y]. exact Y. }
      specialize (E _ eq_refl). cbn [ends] in E. rewrite FK in E. destruct E as [(E & _)|[(_ & _ & _ & ? & ? & E)|(? & ? & ? & ? & E & _)]]; discriminate.
    + rewrite app_nil_r. split; [discriminate|]. intros X. destruct X. apply L1.
    + rewrite app_nil_r. split; [discriminate|]. intros X. destruct X. apply L1.
Qed.

(** 111 without having waited for the program has a reason: [wrapper_gives_up], with the settings of the command line. *)
Definition some {A} (x : option A) : bool := match x with Some _ => true | None => false end.
Theorem C63_gives_up : forall name words argv tr, Forall2 points words argv -> runs (main (name :: argv)) tr (Fin (Exit 111)) -> original tr -> pids tr -> legal tr -> waits tr = [] ->
  (forks tr = [] /\ exists n, within (answering (bs "sigaction") [n] [] (fun a => ret a = -1)) tr) \/
  exists t0 t1 t2 l prg th hh, tr = t0 ++ t1 ++ t2 /\ length t0 = 4%nat /\ accepted words l prg th hh t1 /\
    wrapper_gives_up nojail (last_flag 110 78 false l) (some (last_arg 85 l)) (some (last_arg 97 l)) (last_arg 106 l) (given (last_arg 74 l) (bs "/var/lib/tlswrapper/empty")) t2.
Proof.
  intros name words argv tr F R O P L W. destruct (main_parts _ _ _ R) as [(_ & E & LO)|(t0 & t1 & t2 & -> & N' & L0 & C)].
  - left. split; [apply (local_live [] [] tr live_nil LO)|]. apply E with (x := Exit 111). reflexivity.
  - assert (N : length t0 = 4%nat) by (apply (f_equal (@length sys)) in N'; rewrite map_length in N'; exact N').
    destruct C as [(_ & _ & E)|[(cmd & R1 & R2)|[(_ & _ & E)|(_ & _ & E)]]]; try discriminate. right.
    destruct (C64_exact _ _ _ _ _ F R1) as (_ & X & _). destruct (X cmd eq_refl) as (l & prg & A & _). destruct (strings _ _ _ _ _ _ _ _ _ F R1 A) as [S1 S2].
    exists t0, t1, t2, l, prg, (timeout cmd), (hstimeout cmd). split; [reflexivity|]. split; [exact N|]. split; [exact A|]. pose proof (C64_settings _ _ _ _ _ _ _ _ _ F R1 A) as S.
    apply original_app in O as [_ O]. apply original_app in O as [_ O]. apply pids_app in P as [_ P]. apply pids_app in P as [_ P]. apply legal_app in L as [_ L]. apply legal_app in L as [_ L].
    rewrite !waits_app in W. apply app_eq_nil in W as [_ W]. apply app_eq_nil in W as [_ W]. apply (why_up stream fuel junk). eapply start_blame; [| | | | |exact R2|assumption..].
    + apply (s_delay _ _ S).
    + pose proof (s_certuser _ _ S) as X2. destruct (last_arg 85 l), (certuser (settings cmd)); cbn in *; tauto.
    + pose proof (s_anchor _ _ S) as X2. unfold last_arg. rewrite X2. destruct (anchorfn _); reflexivity.
    + exact S1.
    + exact S2.
Qed.
(** 100 after processes were started has a reason: the last things read were no PROXY line. *)
Theorem C63_proxy : forall name words argv tr, inet_ok I -> Forall2 points words argv -> runs (main (name :: argv)) tr (Fin (Exit 100)) -> original tr -> legal tr -> waits tr = [] -> forks tr <> [] ->
  exists t u, tr = t ++ u /\ Forall (fun e => fst e = Read 0 1) u /\ garbled I u.
Proof.
  intros name words argv tr IO F R O L W K. destruct (main_parts _ _ _ R) as [(_ & E & _)|(t0 & t1 & t2 & -> & _ & L0 & C)]; [destruct (E _ eq_refl); discriminate|].
  destruct C as [(R1 & -> & _)|[(cmd & R1 & R2)|[(_ & _ & E)|(_ & _ & E)]]]; try discriminate.
  - destruct K. rewrite app_nil_r. apply (local_live [] [] (t0 ++ t1) live_nil). apply Forall_app. split; [exact L0|exact (command_local _ _ _ R1)].
  - apply original_app in O as [_ O]. apply original_app in O as [_ O]. apply legal_app in L as [_ L]. apply legal_app in L as [_ L].
    rewrite !waits_app in W. apply app_eq_nil in W as [_ W]. apply app_eq_nil in W as [_ W].
    rewrite app_assoc. apply unheaded_r. eapply start_refuse; eauto.
Qed.

(** ** C71: nothing is read, written or waited for before the jail *)
Theorem C71_jail_first : forall name words argv tr out, Forall2 points words argv -> runs (main (name :: argv)) tr out -> original tr -> pids tr ->
  always (fun t e => transfers e -> exists t0 t1 t2 l prg th hh, t = t0 ++ t1 ++ t2 /\ accepted words l prg th hh t1 /\
    (nojail = true \/ restricted (last_arg 106 l) (Some (given (last_arg 74 l) (bs "/var/lib/tlswrapper/empty"))) true t)) tr.
Proof.
  intros name words argv tr out F R O P t e t' E T.
  assert (NT : forall u, Forall (fun e => local (fst e)) u -> ~ In e u).
  { intros u L N. rewrite Forall_forall in L. destruct (L e N) as [_ S]. unfold transfers in T. unfold still in S. destruct (fst e); contradiction. }
  destruct (main_parts _ _ _ R) as [(_ & _ & L)|(t0 & t1 & t2 & TR & N & L0 & C)].
  - destruct (NT _ L). rewrite E. apply in_or_app. right. left. reflexivity.
  - assert (L1 : Forall (fun e => local (fst e)) t1). { destruct C as [(R1 & _)|[(cmd & R1 & _)|[(R1 & _)|(R1 & _)]]]; exact (command_local _ _ _ R1). }
    assert (L2 : Forall (fun e => local (fst e)) (t0 ++ t1)) by (apply Forall_app; auto).
    assert (LV : live [] (t0 ++ t1)) by (apply (local_live [] [] _ live_nil L2)).
    destruct C as [(_ & -> & _)|[(cmd & R1 & R2)|[(_ & -> & _)|(_ & -> & _)]]];
      try (destruct (NT _ L2); rewrite app_nil_r in TR; rewrite <- TR, E; apply in_or_app; right; left; reflexivity).
    destruct (C64_exact _ _ _ _ _ F R1) as (_ & X & _). destruct (X cmd eq_refl) as (l & prg & A & _). destruct (strings _ _ _ _ _ _ _ _ _ F R1 A) as [S1 S2].
    rewrite app_assoc in TR. assert (HA : holds answers (t0 ++ t1) t2). { pose proof (answers_all [] _ O P) as Y. rewrite TR in Y. apply holds_app in Y as [_ Y]. exact Y. }
    destruct (start_sp I stream fuel junk portbuf line0 key0 env nojail _ _ cmd (t0 ++ t1) LV S1 S2 t2 _ R2 HA) as [J _].
    assert (EX : exists u, t = (t0 ++ t1) ++ u /\ t2 = u ++ e :: t').
    { rewrite TR in E. apply app_eq_app in E as (m & [[E1 E2]|[E1 E2]]).
      - destruct m as [|y m]; cbn [app] in E2; [exists []; rewrite app_nil_r in *; auto|]. injection E2 as <- ->.
        destruct (NT _ L2). rewrite E1. apply in_or_app. right. left. reflexivity.
      - exists m. split; auto. }
    destruct EX as (u & -> & E2). specialize (J _ _ _ E2 T). exists t0, t1, u, l, prg, (timeout cmd), (hstimeout cmd).
    split; [rewrite app_assoc; reflexivity|]. split; auto.
Qed.
End Main.

(** ** Examples *)
(** A small operating system: new descriptors count upwards from [nfd], fork and waitpid give the scripted answers,
    every process has the id 77, the peer's bytes are in [net], the TLS engine reports the scripted states. *)
Record os := mkos { nfd : Z; fk : list Z; wt : list ans; net : world; eng : list Z }.
Definition id77 : Z := 141500077.
Definition next {A} (l : list A) (d : A) : A * list A := match l with x :: t => (x, t) | [] => (d, []) end.
Definition kernel (s : os) (c : sys) : ans * os :=
  match c with
  | Other n a d =>
    if same n (bs "pipe") then (mkans 0 0 [nfd s; nfd s + 1], mkos (nfd s + 2) (fk s) (wt s) (net s) (eng s))
    else if same n (bs "fork") then let '(r, l) := next (fk s) (-1) in (ok r, mkos (nfd s) l (wt s) (net s) (eng s))
    else if same n (bs "waitpid") then let '(r, l) := next (wt s) (ok (-1)) in (r, mkos (nfd s) (fk s) l (net s) (eng s))
    else if same n (bs "tls_engine_current_state") then let '(r, l) := next (eng s) 1 in (ok r, mkos (nfd s) (fk s) (wt s) (net s) l)
    else if same n (bs "stat") then (dir, s)
    else if same n (bs "getpid") then (ok 77, s)
    else if same n (bs "getuid") || same n (bs "getgid") then (ok id77, s)
    else if same n (bs "getrlimit") then (mkans 0 0 [100; 100], s)
    else if same n (bs "getsockname") || same n (bs "getpeername") then (ok (-1), s)
    else (ok 0, s)
  | Read fd n => let '(a, w) := pull (net s) fd n in (a, mkos (nfd s) (fk s) (wt s) w (eng s))
  | Write fd b => (ok (len b), s)
  | _ => (ok 0, s)
  end.
Definition wrapper (nojail : bool) (words : list (list Z)) : prog ending :=
  main_tlswrapper isc (fun _ _ _ => 0) (Z.to_nat 200) (repeat 0 (Z.to_nat 256)) (repeat 0 6) [] [] [] nojail (vec (bs "tlswrapper" :: words)).
Print Assumptions C63_status.
Print Assumptions C63_usage.
Print Assumptions C63_gives_up.
Print Assumptions C63_proxy.
Print Assumptions C71_jail_first.

Definition ends_with (code : Z) (procs : list Z) (tr : trace) (o : outcome ending) : bool :=
  match o with Fin (Exit c) => (c =? code) && same (forks tr) procs && forallb (fun e => match e with (Other n [] [], a) => negb (same n (bs "getpid")) || (0 <=? ret a) | _ => true end) tr | _ => false end.
Definition plainwords : list (list Z) := [bs "-d"; bs "certs"; bs "prog"].
(** the program exits with 42; it is killed; the command line is refused; fork fails *)
Example ex_status :
  (exists tr o, runs (wrapper false plainwords) tr o /\ legal tr /\ ends_with 42 [500; 501] tr o = true) /\
  (exists tr o, runs (wrapper false plainwords) tr o /\ legal tr /\ ends_with 111 [500; 501] tr o = true) /\
  (exists tr o, runs (wrapper false [bs "-z"]) tr o /\ legal tr /\ ends_with 100 [] tr o = true) /\
  (exists tr o, runs (wrapper false plainwords) tr o /\ legal tr /\ ends_with 111 [-1] tr o = true).
Proof.
  split; [|split; [|split]].
  - apply (perform_show _ _ kernel (Z.to_nat 400) (mkos 3 [500; 501] [mkans 501 0 [0]; mkans (-1) EINTR []; mkans 500 0 [10752]] [] [1])). vm_compute. reflexivity.
  - apply (perform_show _ _ kernel (Z.to_nat 400) (mkos 3 [500; 501] [mkans 501 0 [0]; mkans 500 0 [9]] [] [1])). vm_compute. reflexivity.
  - apply (perform_show _ _ kernel (Z.to_nat 400) (mkos 3 [] [] [] [])). vm_compute. reflexivity.
  - apply (perform_show _ _ kernel (Z.to_nat 400) (mkos 3 [-1] [] [] [])). vm_compute. reflexivity.
Qed.

(** giving up without having waited: fork fails; the program is gone when it is to be written to; descriptor 5 is in use *)
Definition gone (s : os) (c : sys) : ans * os := match c with Write _ _ => (mkans (-1) 32 [], s) | _ => kernel s c end.
Definition unwaited (procs : list Z) (tr : trace) (o : outcome ending) : bool := ends_with 111 procs tr o && match waits tr with [] => true | _ => false end.
Example ex_gives_up :
  (exists tr o, runs (wrapper false plainwords) tr o /\ legal tr /\ unwaited [-1] tr o = true) /\
  (exists tr o, runs (wrapper false plainwords) tr o /\ legal tr /\ unwaited [500; 501] tr o = true) /\
  (exists tr o, runs (wrapper false (bs "-n" :: plainwords)) tr o /\ legal tr /\ unwaited [] tr o = true).
Proof.
  split; [|split].
  - apply (perform_show _ _ kernel (Z.to_nat 400) (mkos 3 [-1] [] [] [])). vm_compute. reflexivity.
  - apply (perform_show _ _ gone (Z.to_nat 400) (mkos 3 [500; 501] [] [] [1])). vm_compute. reflexivity.
  - apply (perform_show _ _ kernel (Z.to_nat 400) (mkos 3 [] [] [] [])). vm_compute. reflexivity.
Qed.

(** A client that closes its side of the connection as soon as the handshake allows: the pipe to the program is closed,
    then the handshake is over and the account is written to it, that is to descriptor -1.  The wrapper ends with 111 and
    does not wait for the program, although nothing else failed. *)
Definition half (s : os) (c : sys) : ans * os :=
  match c with
  | Write fd b => if fd =? -1 then (mkans (-1) 9 [], s) else (ok (len b), s)
  | Select _ rd _ _ => if existsb (Z.eqb 0) rd then (mkans 1 0 [0], s) else (ok 0, s)
  | _ => kernel s c
  end.
Definition badwrite (tr : trace) (o : outcome ending) : bool :=
  unwaited [500; 501] tr o &&
  match rev tr with
  | (Write fd _, _) :: t => (fd =? -1) && forallb (fun e => match e with (Write _ b, a) => ret a =? len b | (Other n _ _, a) => negb (same n (bs "pipe") || same n (bs "fork") || same n (bs "sigaction")) || negb (ret a =? -1) | _ => true end) t
  | _ => false
  end.
Theorem C63_half_close_refuted : exists tr o, runs (wrapper false plainwords) tr o /\ legal tr /\ badwrite tr o = true.
Proof. apply (perform_show _ _ half (Z.to_nat 400) (mkos 3 [500; 501] [] [(0, [[]])] [4; 2; 8])). vm_compute. reflexivity. Qed.
Print Assumptions C63_half_close_refuted.

(** With "-p 1" a connection without a PROXY line ends with 100 after both processes were started. *)
Theorem C63_no_process_refuted : exists tr, runs (wrapper false [bs "-p"; bs "1"; bs "-d"; bs "certs"; bs "prog"]) tr (Fin (Exit 100)) /\ legal tr /\ pids tr /\ forks tr = [500; 501].
Proof.
  destruct (perform_show _ _ kernel (Z.to_nat 400) (mkos 3 [500; 501] [] [(0, [bs "HELO x"; [10]])] [])
    (wrapper false [bs "-p"; bs "1"; bs "-d"; bs "certs"; bs "prog"]) (ends_with 100 [500; 501])) as (tr & o & R & L & Q); [vm_compute; reflexivity|].
  destruct o as [[c|]| |]; try discriminate. cbn [ends_with] in Q. apply andb_prop in Q as [Q Q3]. apply andb_prop in Q as [Q1 Q2]. apply Z.eqb_eq in Q1. subst c. apply same_true in Q2.
  exists tr. split; auto. split; auto. split; auto. intros a IN. rewrite forallb_forall in Q3. specialize (Q3 _ IN). cbn beta iota in Q3. unfold same at 1 in Q3. destruct (list_eq_dec _ _ _); [|congruence]. cbn [negb orb] in Q3. lia.
Qed.
(** a run that transfers data, in the jail and without it *)
Definition transferring (tr : trace) (o : outcome ending) : bool :=
  ends_with 42 [500; 501] tr o && existsb (fun e => match fst e with Write 4 _ => true | _ => false end) tr.
Example ex_transfers : Forall (fun nj => exists tr o, runs (wrapper nj plainwords) tr o /\ legal tr /\ transferring tr o = true) [true; false].
Proof.
  repeat apply Forall_cons; try apply Forall_nil; apply (perform_show _ _ kernel (Z.to_nat 400) (mkos 3 [500; 501] [mkans 501 0 [0]; mkans 500 0 [10752]] [] [1])); vm_compute; reflexivity.
Qed.
