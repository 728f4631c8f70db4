(** C83, C84: tlswrapper-smtp: how the mail server is started, and what is done outside the jail. *)
From Verif.Model Require Import Base Sys Io Str Inet InetIsc Parsenum Fdio Relay Jail Conninfo Conn Resolve Main Getopt Lookup Smtpmain.
From Verif.Spec Require Import Text Num Settings Cmdline Words Flow Restrict Process Forward Fdtable Program Server.
From Verif.Proof Require Import Tac SysP CallsP StrP ConfigP OptionsP GetoptP PlayP PerformP SafeP MainCallsP MainP ChildP DescP TcpJailP SmtpJailP ServerP.
From Verif.Props Require Import PropJail PropOptions PropCommands PropDesc PropTcpmain.

Section Smtp.
Variable I : inet.
Variable fuel : nat.
Variables buf0 ip0 junk : list Z.
Variable env : environment.
Variable nojail : bool.
Variable logid : option (list Z).
Notation main := (main_smtp I fuel buf0 ip0 junk env nojail logid).

(** ** C83 *)
(** The mail server is run as the command line says, after exactly these calls and with the account of -u. *)
Theorem C83_server : forall name words argv tr v, length junk = 6%nat -> Forall2 points words argv ->
  runs (main (name :: argv)) tr (Fin (Exec v)) -> pids tr ->
  exists l prg timeout crw grey, smtp_line I words l prg timeout crw grey /\ v = prg /\ served (last_arg 117 l) prg tr.
Proof. exact (server_exec I fuel buf0 ip0 junk env nojail logid). Qed.
Theorem C83_descriptors : forall T argv tr v, runs (main argv) tr (Fin (Exec v)) -> start_table T -> kernel_fds T tr -> server_fds T (descriptors T tr).
Proof.
  intros T argv tr v R ST KF. assert (N : now T [] T 0 []) by (constructor; auto).
  destruct (sp_server I fuel buf0 ip0 junk env nojail logid T ST argv [] N tr _ R KF) as [_ H]. exact (H _ eq_refl).
Qed.

(** ** C84 *)
(** The mail server's process exposes nothing at all before the program runs; the resolver helper does nothing with
    the network, and receives nothing, outside its jail; the original process neither transfers anything nor connects
    before it is in its jail, and never resolves a name unless the jail is switched off. *)
Theorem C84_jail_first : forall name words argv tr out, length junk = 6%nat -> Forall2 points words argv -> runs (main (name :: argv)) tr out -> pids tr ->
  always (fun t e =>
    (hd 1 (forks t) = 0 -> ~ exposed e /\ ~ asks e /\ ~ receives e) /\
    (In 0 (forks t) -> exposed e \/ asks e \/ receives e -> restricted None None false t) /\
    (~ In 0 (forks t) ->
      (exposed e -> exists l prg timeout crw grey, smtp_line I words l prg timeout crw grey /\
        (nojail = true \/ restricted (last_arg 106 l) (Some (given (last_arg 74 l) (bs "/var/lib/tlswrapper/empty"))) true t)) /\
      (asks e -> nojail = true))) tr.
Proof.
  intros name words argv tr out J F R P. destruct (C78_exact I junk name words argv J F) as (r & E & H). pose proof (pidok_all [] tr P) as A.
  destruct r as [c|].
  - destruct H as (l & prg & grey & SL & SE & _). destruct (smtp_strings _ _ SE) as (_ & S1 & S2).
    assert (P0 : process false []) by (intros []).
    destruct (smain_ok I fuel buf0 ip0 env nojail logid _ _ junk name argv c [] P0 E S1 S2 _ _ R A) as [G _].
    destruct (smain_silent I fuel buf0 ip0 env nojail logid junk name argv c [] eq_refl E _ _ R A) as [Q _].
    intros t e t' ET. destruct (G _ _ _ ET) as [G1 G2]. specialize (Q _ _ _ ET). cbn [app] in *. split; [exact Q|]. split; [exact G1|]. intros N. destruct (G2 N) as [G3 G4]. split; [|exact G4].
    intros EX. exists l, prg, (stimeout c), (scrw c), grey. split; [exact SL|]. apply (G3 EX).
  - unfold main_smtp in R. rewrite E in R. cbn [lift pbind] in R. assert (C : calls kind0 (_ <~ signal SIGPIPE IGN ;; _ <~ signal Session.SIGALRM HANDLER ;; _ <~ alarm 30 ;; Ret (Exit 100))) by (unfold signal, do, alarm; SmtpJailP.kinds).
    pose proof (C _ _ R) as FA. intros t e t' ET. rewrite ET, Forall_app in FA. destruct FA as [_ FA]. apply Forall_inv in FA. pose proof (kind01 _ FA) as K1. destruct (kind1_quiet e K1) as [X1 X2]. pose proof (kind0_quiet e FA). tauto.
Qed.
End Smtp.
Print Assumptions C83_server.
Print Assumptions C83_descriptors.
Print Assumptions C84_jail_first.

(** ** Examples *)
(** A small operating system: the lowest free numbers for pipes and duplicates of known descriptors; other new
    descriptors count upwards from [next]; fork gives the scripted answers. *)
Record sos := mksos { sused : fdstate; snext : Z; sforks : list Z; sdgrams : list (list Z); snet : world }.
Definition skernel (s : sos) (c : sys) : ans * sos :=
  let put a := (a, mksos (step (sused s) (c, a)) (snext s) (sforks s) (sdgrams s) (snet s)) in
  let f := lowest_free (Z.to_nat 100) (sused s) 0 in
  let g := lowest_free (Z.to_nat 100) (sused s) (f + 1) in
  match c with
  | Other n a d =>
    if same n (bs "pipe") then put (mkans 0 0 [f; g])
    else if same n (bs "dup") then
      if absent (sused s) (nth 0 a 0) then (ok (snext s), mksos (sused s) (snext s + 1) (sforks s) (sdgrams s) (snet s)) else put (ok f)
    else if same n (bs "socketpair") then (mkans 0 0 [snext s; snext s + 1], mksos (sused s) (snext s + 2) (sforks s) (sdgrams s) (snet s))
    else if same n (bs "socket") then (ok (snext s), mksos (sused s) (snext s + 1) (sforks s) (sdgrams s) (snet s))
    else if same n (bs "fork") then (ok (hd (-1) (sforks s)), mksos (sused s) (snext s) (tl (sforks s)) (sdgrams s) (snet s))
    else if same n (bs "fstat") then (ok (if absent (sused s) (nth 0 a 0) then -1 else 0), s)
    else if same n (bs "waitpid") then (mkans (nth 0 a 0) 0 [0], s)
    else if same n (bs "send") then (ok (len d), s)
    else if same n (bs "recv") then
      match sdgrams s with
      | x :: l => (mkans (len x) 0 x, mksos (sused s) (snext s) (sforks s) l (snet s))
      | [] => (ok (-1), s)
      end
    else if same n (bs "getpid") then (ok 77, s)
    else if same n (bs "getuid") || same n (bs "getgid") then (ok id77, s)
    else if same n (bs "getpwnam") then (mkans 1 0 [id77; id77], s)
    else if same n (bs "getrlimit") then (mkans 0 0 [100; 100], s)
    else if same n (bs "getaddrinfo") then (mkans 0 0 [4; 192; 0; 2; 7], s)
    else if same n (bs "randombytes") then (mkans 0 0 (repeat 0 32), s)
    else put (ok 0)
  | Read fd n => let '(a, w) := pull (snet s) fd n in (a, mksos (sused s) (snext s) (sforks s) (sdgrams s) w)
  | Write fd b => (ok (len b), s)
  | Alloc n => (ok 1, s)
  | Time => (ok 1000000000, s)
  | Poll _ _ => (mkans 1 0 [1], s)
  | Select _ r w _ => (mkans 1 0 (r ++ map (fun f => -1 - f) w), s)
  | _ => put (ok 0)
  end.
Definition smtp (nojail : bool) (words : list (list Z)) : prog ending :=
  main_smtp isc (Z.to_nat 400) (repeat 0 (Z.to_nat 257)) (repeat 0 (Z.to_nat 129)) (repeat 0 6) [] nojail None (vec (bs "tlswrapper-smtp" :: words)).
(** descriptors 0 to 2, 5 and 6 at the start *)
Definition T5 : table := fun fd => if existsb (Z.eqb fd) [0; 1; 2; 5; 6] then Some (Given fd, false) else None.
Lemma T5_start : start_table T5.
Proof.
  split; [|split; discriminate]. intros fd o b E. unfold T5 in E. destruct (existsb (Z.eqb fd) [0; 1; 2; 5; 6]) eqn:X; [|discriminate]. apply existsb_exists in X as (y & IN & X).
  apply Z.eqb_eq in X. subst y. injection E as <- <-. split; [reflexivity|]. cbn in IN. lia.
Qed.
Definition smtpwords : list (list Z) := [bs "-u"; bs "mail"; bs "-ggrey:10023"; bs "smtpd"; bs "-x"].
Lemma smtpwords_ok : Forall2 points smtpwords (vec smtpwords).
Proof. repeat apply Forall2_cons; try apply Forall2_nil; (split; [repeat constructor|exists []; reflexivity]). Qed.
Definition startos (T : table) (f : list Z) (d : list (list Z)) (w : world) : sos := mksos (mkfds T 0) 20 f d w.
Definition run_server (T : table) (tr : trace) (o : outcome ending) : bool := match o with Fin (Exec v) => pidsb tr && answersb (mkfds T 0) tr && Nat.eqb (length v) 2 | _ => false end.
(** the mail server runs: the hypotheses of C83 *)
Lemma server_runs : exists tr v, runs (smtp false smtpwords) tr (Fin (Exec v)) /\ legal tr /\ pids tr /\ kernel_fds T5 tr.
Proof.
  assert (X : exists tr o, runs (smtp false smtpwords) tr o /\ legal tr /\ run_server T5 tr o = true).
  { apply (perform_show _ _ skernel (Z.to_nat 400) (startos T5 [0] [] [])). vm_compute. reflexivity. }
  destruct X as (tr & o & R & L & E). unfold run_server in E. destruct o as [[c|v]| |]; try discriminate. apply andb_prop in E as [E _]. apply andb_prop in E as [E1 E2].
  exists tr, v. split; auto. split; auto. split; [apply pidsb_ok; exact E1|apply answersb_ok; exact E2].
Qed.
Example ex_server : Forall2 points smtpwords (vec smtpwords) /\ start_table T5 /\ exists tr v, runs (smtp false smtpwords) tr (Fin (Exec v)) /\ legal tr /\ pids tr /\ kernel_fds T5 tr.
Proof. split; [exact smtpwords_ok|]. split; [exact T5_start|]. exact server_runs. Qed.
(** Nothing of the STARTTLS control channel should reach the mail server; but it inherits descriptor 6. *)
Theorem C83_control_refuted : exists T tr v, start_table T /\ T 5 <> None /\ T 6 <> None /\
  runs (smtp false smtpwords) tr (Fin (Exec v)) /\ legal tr /\ pids tr /\ kernel_fds T tr /\ tab (descriptors T tr) 6 = Some (Given 6, false).
Proof.
  destruct server_runs as (tr & v & R & L & P & K). exists T5, tr, v. split; [exact T5_start|]. split; [discriminate|]. split; [discriminate|]. split; [exact R|]. split; [exact L|]. split; [exact P|]. split; [exact K|].
  apply (C83_descriptors _ _ _ _ _ _ _ _ T5 _ _ _ R T5_start K). right. right. repeat split; discriminate.
Qed.
Print Assumptions C83_control_refuted.
(** the session after a connection to the greylisting server; the helper answers *)
Definition mailnet : world := [(0, [bs "QUIT" ++ [13; 10]]); (7, [bs "220 hi" ++ [13; 10]; bs "221 bye" ++ [13; 10]])].
Definition served_session (tr : trace) (o : outcome ending) : bool :=
  match o with Fin (Exit c) => (c =? 0) && pidsb tr && same (sent 1 tr) (bs "220 hi" ++ [13; 10] ++ bs "221 bye" ++ [13; 10]) && existsb (calling (bs "connect")) tr | _ => false end.
Example ex_smtp_jail :
  (exists tr o, runs (smtp false smtpwords) tr o /\ legal tr /\ served_session tr o = true) /\
  (exists tr o, runs (smtp false smtpwords) tr o /\ legal tr /\ helped tr o = true).
Proof.
  split.
  - apply (perform_show _ _ skernel (Z.to_nat 900) (startos T5 [500; 501] [reply1] mailnet)). vm_compute. reflexivity.
  - apply (perform_show _ _ skernel (Z.to_nat 400) (startos T5 [500; 0] [bs "grey" ++ repeat 0 (Z.to_nat 252)] [])). vm_compute. reflexivity.
Qed.
