(** C85-C87: tlswrapper-smtp as a whole, from its command line to its exit. *)
From Coq Require Import Permutation.
From Verif.Model Require Import Base Sys Io Str Buffer Inet InetIsc Parsenum Fdio Relay Session Jail Pem Proxy Conninfo Conn Resolve Main Getopt Lookup Smtpmain.
From Verif.Model Require Smtp.
From Verif.Spec Require Fdtable.
From Verif.Spec Require Import Text Num Ip Hostport Settings Cmdline Words Proxy Program Descriptors Flow Restrict Process Endpoints Resolver Forward Server Attempt SmtpView SmtpSpec Mailer Blame.
From Verif.Proof Require Import Tac SysP StrP BufferP CallsP ConfigP OptionsP GetoptP PlayP PerformP SafeP MainCallsP MainP ChildP ResolveP ConnP ToldP ForwardP SmtpStP SmtpP TcpJailP TcpmainP TcpDestP HelperP TcpHelpP ServerP SmtpResolveP SmtpDestP SmtpmainP SmtpHelpP.
From Verif.Props Require Import PropJail PropOptions PropCommands PropConninfo PropTcpmain PropForward PropSmtp PropSmtpmain.

(** the policy server of the command line *)
Lemma grey_line : forall I words l prg timeout crw grey o h, smtp_line I words l prg timeout crw grey -> smtp_sets l o ->
  h = option_map (fun g => (Hostport.stored 256 (fst g), [snd g / 256; snd g mod 256])) grey -> grey_kept grey h.
Proof.
  intros I words l prg timeout crw grey o h SL SE ->. pose proof (sl_grey _ _ _ _ _ _ _ SL) as G. pose proof (ss_grey _ _ SE) as S. destruct grey as [[host port]|]; [|reflexivity].
  destruct (last_arg 103 l) as [a|]; [|destruct G]. destruct G as (p & HP & _). unfold maybe in S. destruct (sgrey o) as [q|]; [|destruct S]. destruct S as [NA _].
  destruct (host_nonul _ _ _ _ NA HP) as [NH _]. destruct HP as (six & _ & LE & _). cbn [grey_kept option_map fst snd]. split; [exact NH|].
  exists (repeat 0 (255 - length host)). unfold Hostport.stored. replace (256 - length host)%nat with (S (255 - length host)) by lia. reflexivity.
Qed.

Section Smtp.
Variable I : inet.
Hypothesis OK : inet_ok I.
Variable fuel : nat.
Variables buf0 ip0 junk : list Z.
Hypothesis JUNK : length junk = 6%nat.
Variable env : environment.
Hypothesis ENV : strings env.
Variable nojail : bool.
Variable logid idtext : option (list Z).
Hypothesis ID : match logid, idtext with
  | None, None => True
  | Some m, Some i => cstring m i /\ nonul i /\ len i <= 2 ^ 32
  | _, _ => False
  end.
Notation main := (main_smtp I fuel buf0 ip0 junk env nojail logid).

(** ** C85 *)
(** Every connection of the original process is to the first address that was given for the host of -g, and to its
    port; without -g there is none. *)
Theorem C85_destination : forall name words argv tr out, Forall2 points words argv ->
  runs (main (name :: argv)) tr out -> kernel tr -> Forall honest tr -> original tr ->
  always (fun t e => calling (bs "connect") e = true -> exists l prg timeout crw host port x fd, smtp_line I words l prg timeout crw (Some (host, port)) /\
    chosen gai_list nojail host t x /\ fst e = Other (bs "connect") [fd] (x ++ [port / 256; port mod 256])) tr.
Proof.
  intros name words argv tr out FW R K H O. pose proof (tame_all _ K H O) as F. clear K H O.
  destruct (C78_exact I junk name words argv JUNK FW) as (r & EC & HC). unfold main_smtp in R. rewrite EC in R. cbn [lift pbind] in R.
  destruct r as [c|].
  - destruct HC as (l & prg & grey & SL & SE & _ & HO). pose proof (grey_line _ _ _ _ _ _ _ _ _ SL SE HO) as GK.
    set (G := fun (t : trace) (e : event) => calling (bs "connect") e = true -> exists host port x fd, grey = Some (host, port) /\ chosen gai_list nojail host t x /\ fst e = Other (bs "connect") [fd] (x ++ [port / 256; port mod 256])).
    assert (PA : forall A (p : prog A) (f : A -> prog ending) h, calls unconn p -> (forall t x, runs p t (Fin x) -> Forall tame t -> sp tamed G (h ++ t) (f x) true1) -> sp tamed G h (pbind p f) true1).
    { intros A p f h C KK. eapply sp_bind with (M := fun t x => exists u, t = h ++ u /\ runs p u (Fin x) /\ Forall tame u).
      - intros tr1 o R1 H1. split.
        + intros t1 e t2 E CC. pose proof (C _ _ R1) as F1. rewrite E, Forall_app in F1. destruct F1 as [_ F1]. inversion F1 as [|? ? F2 _]; subst. destruct e as [[] a]; try discriminate. apply calling_other in CC. destruct (F2 CC).
        + intros y ->. exists tr1. split; auto. split; auto. eapply tamed_all; eauto.
      - intros t x (u & -> & R1 & T). auto. }
    assert (PI : forall k h, (forall r w t, sp tamed G t (k r w) true1) -> sp tamed G h (open_pipe k) true1).
    { intros k h KK. unfold open_pipe, do. apply PA; [TcpHelpP.kinds|]. intros ? a _ _. destruct (ret a =? -1); [apply sp_ret; exact Logic.I|]. cbv zeta.
      do 4 (apply PA; [unfold blocking, do; TcpHelpP.kinds|]; intros ? ? _ _). apply KK. }
    match type of R with runs ?p _ _ => assert (S : sp tamed G [] p true1) end.
    { do 2 (apply PA; [unfold signal, do; TcpHelpP.kinds|]; intros ? ? _ _). apply PA; [unfold alarm, do; TcpHelpP.kinds|]. intros ? ? _ _. apply PA; [unfold has_starttls; TcpHelpP.kinds|]. intros ? tls _ _.
      apply PI. intros p1 q1 ?. apply PI. intros p2 q2 ?. apply PA; [TcpHelpP.kinds|]. intros u f RF FF. destruct (ret f =? -1); [apply sp_ret; exact Logic.I|].
      pose proof (fork_tame _ _ RF FF). destruct (Z.eqb_spec (ret f) 0); [contradiction|]. apply dest1. exact GK. }
    destruct (S _ _ R) as [D _]; [intros t1 e t2 ->; apply Forall_app in F as [_ F]; inversion F; auto|].
    intros t1 e t2 ET CC. destruct (D _ _ _ ET CC) as (host & port & x & fd & -> & X). exists l, prg, (stimeout c), (scrw c), host, port, x, fd. split; [exact SL|exact X].
  - intros t1 e t2 ET CC. assert (C : calls unconn (_ <~ signal SIGPIPE IGN ;; _ <~ signal Session.SIGALRM HANDLER ;; _ <~ alarm 30 ;; Ret (Exit 100))) by (unfold signal, alarm, do; TcpHelpP.kinds).
    pose proof (C _ _ R) as FA. rewrite ET, Forall_app in FA. destruct FA as [_ FA]. inversion FA as [|? ? F1 _]; subst. destruct e as [[] a]; try discriminate. apply calling_other in CC. destruct (F1 CC).
Qed.

(** ** C86 *)
(** The original process, with the helper's replies: no undefined behaviour.  Either nothing is written, nothing closed
    that is not open, and the program ends with 111 because a step before the session failed, or with 100 because of its command line; or the mail server was
    started, the session opened as the command line says with no descriptor open but the given ones, the two pipes and
    the policy connection, and everything after that is the session of C51 with this mail server. *)
Theorem C86_session : forall name words argv L L' tr out, Forall2 points words argv -> good L -> In 0 L -> In 1 L ->
  runs (main (name :: argv)) tr out -> fdrun L tr = Some L' -> kernel tr -> Forall honest tr -> original tr -> fstats L tr ->
  out <> Wrong /\
  ((Forall (fun e => wordless (fst e)) tr /\ closes_open L tr /\
    (out = Cut \/
     (out = Fin (Exit 111) /\ exists l prg timeout crw grey, smtp_line I words l prg timeout crw grey /\
       smtp_gives_up gai_list nojail (last_arg 106 l) (given (last_arg 74 l) (bs "/var/lib/tlswrapper/empty")) crw grey (last_flag 99 67 false l) tr) \/
     (out = Fin (Exit 100) /\ forall l prg timeout crw grey, ~ smtp_line I words l prg timeout crw grey))) \/
   exists l prg timeout crw grey t0 u g L1, smtp_line I words l prg timeout crw grey /\ tr = t0 ++ u /\
     opened I env gai_list nojail timeout crw grey t0 g /\ strict g = last_flag 99 67 false l /\ patience g = crw /\ SmtpSpec.id g = idtext /\ distinct g /\
     closes_open L t0 /\ fdrun L t0 = Some L1 /\ Permutation L1 (wired g ++ L) /\
     conforms g u (code out) /\ (out = Cut \/ exists x, out = Fin (Exit x))).
Proof.
  intros name words argv L L' tr out FW GL I0 I1 R E K H O ST. pose proof (tame_all _ K H O) as F. clear K H O.
  destruct (C78_exact I junk name words argv JUNK FW) as (r & EC & HC). unfold main_smtp in R. rewrite EC in R. cbn [lift pbind] in R.
  destruct r as [c|].
  - destruct HC as (l & prg & grey & SL & SE & _ & HO). pose proof (grey_line _ _ _ _ _ _ _ _ _ SL SE HO) as GK. destruct (smtp_strings _ _ SE) as (_ & S1 & S2).
    assert (CRW : 1 <= scrw c <= 86400) by (destruct (sl_crw _ _ _ _ _ _ _ SL) as [_ X]; exact X).
    assert (ST' : stats L [] tr) by (intros t1 fd a t2 L1 X; apply (ST t1 fd a t2 L1 X)).
    destruct (begin_go I OK fuel buf0 ip0 env ENV nojail logid idtext ID c grey GK _ _ S1 S2 CRW L I0 I1 GL _ _ _ R E F ST') as [W S]. split; [exact W|]. cbn [app] in S.
    destruct S as [(Q & C & S)|(t0 & u & g & L1 & ET & C0 & E0 & P & OP & SG & IG & D & CF & OU)].
    + left. split; [exact Q|]. split; [exact C|]. destruct S as [S|[-> G]]; [auto|]. right. left. split; [reflexivity|]. exists l, prg, (stimeout c), (scrw c), grey. split; [exact SL|]. rewrite <- (ss_closed _ _ SE). exact G.
    + right. exists l, prg, (stimeout c), (scrw c), grey, t0, u, g, L1. split; [exact SL|]. split; [exact ET|]. split; [exact OP|]. split; [rewrite SG; apply (ss_closed _ _ SE)|]. auto 10.
  - assert (RE : forall t o, runs (_ <~ signal SIGPIPE IGN ;; _ <~ signal Session.SIGALRM HANDLER ;; _ <~ alarm 30 ;; Ret (Exit 100)) t o -> o = Cut \/ o = Fin (Exit 100)).
    { intros t o RX. unfold signal, alarm, do in RX. destruct RX as [[_ ->]|(x1 & u1 & _ & RX)]; [auto|]. cbn [pbind] in RX. destruct RX as [[_ ->]|(x2 & u2 & _ & RX)]; [auto|]. cbn [pbind] in RX. destruct RX as [[_ ->]|(x3 & u3 & _ & RX)]; [auto|]. destruct RX as [_ ->]. auto. }
    assert (C : calls idle (_ <~ signal SIGPIPE IGN ;; _ <~ signal Session.SIGALRM HANDLER ;; _ <~ alarm 30 ;; Ret (Exit 100))) by (unfold signal, alarm, do; quick).
    specialize (C _ _ R). destruct (inert_run tr L) as [_ CL]; [eapply Forall_impl; [|exact C]; intros e; apply idle_inert|].
    assert (Q : Forall (fun e => wordless (fst e)) tr) by (eapply Forall_impl; [|exact C]; intros e; apply idle_wordless).
    destruct (RE _ _ R) as [->| ->]; (split; [discriminate|]); left; split; auto.
Qed.

(** ** C87 *)
(** The mail server's process: no undefined behaviour. *)
Definition sound {A} (p : prog A) : Prop := forall tr o, runs p tr o -> pids tr -> o <> Wrong.
Lemma sound_bind : forall A B (p : prog A) (f : A -> prog B), sound p -> (forall x, sound (f x)) -> sound (pbind p f).
Proof.
  intros A B p f P Q tr o R D. apply runs_bind in R as [(x & t1 & t2 & -> & R1 & R2)|[[R1 ->]|[R1 ->]]].
  - apply (Q x t2 o R2). intros a X. apply D. apply in_or_app. auto.
  - destruct (P _ _ R1 D eq_refl).
  - discriminate.
Qed.
Lemma sound_ret : forall A (x : A), sound (Ret x). Proof. intros A x tr o [_ ->] _. discriminate. Qed.
Lemma sound_sys : forall c, sound (sys1 c). Proof. intros c tr o R _. exact (sys_nowrong _ _ _ R). Qed.
Lemma sound_do : forall c, sound (do c). Proof. intros c tr o R _. exact (do_nowrong _ _ _ R). Qed.
Lemma sound_if : forall A (b : bool) (p q : prog A), sound p -> sound q -> sound (if b then p else q). Proof. intros A [] p q; auto. Qed.
Lemma sound_server : forall cmd a b c d u v, cstr_opt (suser (sset cmd)) = Ok u -> cstrs (sprogram cmd) = Ok v -> sound (server_main cmd a b c d).
Proof.
  intros cmd a b c d u v EU EV. unfold server_main, dup, blocking, alarm, signal. rewrite EU, EV. cbn [lift pbind].
  assert (Z : sound (_ <~ do (Other (bs "signal") [13; 0] []) ;; _ <~ do (Other (bs "signal") [14; 0] []) ;; a <~ sys1 (Other (bs "execvp") [] (hd [] v)) ;; Ret (if ret a =? -1 then Exit 111 else Exec v)))
    by (repeat (apply sound_bind; [apply sound_do || apply sound_sys|intros ?]); apply sound_ret).
  repeat (apply sound_bind; [apply sound_do || apply sound_sys|intros ?] || apply sound_if || apply sound_ret || (apply sound_bind; [|intros ?])); auto using sound_do, sound_ret, sound_sys.
  all: destruct u as [w|]; [|exact Z]; unfold droppriv; apply sound_bind; [intros t o R P; exact (proj1 (C36_no_ub _ _ _ _ _ R P))|]; intros [r m]; destruct (r =? -1); [apply sound_ret|exact Z].
Qed.
Lemma jail_unsent : forall a d l, calls unsent (jail a d l).
Proof. intros. unfold jail, jail_main, must, mustbe, when, jail_limit_memory. destruct a, d, l; repeat calls1; discriminate. Qed.
Lemma unsent_server : forall cmd a b c d, calls unsent (server_main cmd a b c d).
Proof.
  intros. unfold server_main, dup, blocking, signal, do, alarm.
  assert (K : calls unsent (_ <~ signal SIGPIPE DFL ;; _ <~ signal Session.SIGALRM DFL ;; v <~ lift (cstrs (sprogram cmd)) ;; a <~ sys1 (Other (bs "execvp") [] (hd [] v)) ;; Ret (if ret a =? -1 then Exit 111 else Exec v))) by (unfold signal, do; TcpHelpP.kinds).
  TcpHelpP.kinds; auto. match goal with |- context [match ?u with Some _ => _ | None => _ end] => destruct u end; [|exact K].
  unfold droppriv. apply calls_bind; [apply jail_unsent|]. intros [r m]. destruct (r =? -1); [TcpHelpP.kinds|exact K].
Qed.
(** The other processes - the mail server's before the program runs, and the helper, whatever it receives: no undefined
    behaviour, and nothing is sent but 255 or addresses. *)
Theorem C87_others : forall name words argv tr out, Forall2 points words argv -> length buf0 = 257%nat -> length ip0 = 129%nat ->
  runs (main (name :: argv)) tr out -> Forall dgram tr -> pids tr -> In 0 (forks tr) ->
  out <> Wrong /\ always (fun t e => In 0 (forks t) -> forall fd b, fst e = Other (bs "send") [fd] b -> b = [255] \/ exists cs, offer cs b) tr.
Proof.
  intros name words argv tr out FW LB LI R D P Z.
  assert (X : exists t0 f t1, tr = t0 ++ f :: t1 /\ ~ In 0 (forks t0) /\ out <> Wrong /\ Forall states t1).
  { destruct (main_split1 _ _ _ _ _ _ _ _ _ _ _ R Z) as [(cmd & t0 & e & a & b & c & d & t1 & EC & -> & F0 & _ & _ & RS)|(t0 & e & s0 & s1 & t1 & -> & F0 & CF & RH)];
      (assert (P1 : pids t1) by (intros x X; apply P; apply in_or_app; right; right; exact X)); exists t0, e, t1.
    - destruct (C78_exact I junk name words argv JUNK FW) as (r & EC' & HC). rewrite EC in EC'. assert (r = Some cmd) by congruence. subst r. destruct HC as (l & prg & grey & SL & SE & PP & _).
      destruct (smtp_strings _ _ SE) as (SU & _ & _). split; [reflexivity|]. split; [rewrite F0; intros []|]. split; [exact (sound_server cmd a b c d _ _ SU (cstrs_points _ _ PP) t1 _ RS P1)|].
      apply unsent_states. exact (unsent_server _ _ _ _ _ _ _ RS).
    - apply Forall_app in D as [_ D]. inversion D as [|? ? _ D1]; subst. destruct (helper_main_offers _ _ _ _ _ _ _ LB LI D1 P1 RH) as [W S]. auto. }
  destruct X as (t0 & f & t1 & -> & F0 & W & S). split; [exact W|].
  intros u e v E IN fd b EB. apply cut_app in E as EE. destruct EE as [(w & EE)|(w & ->)].
  - exfalso. apply F0. rewrite EE, forks_app. apply in_or_app. auto.
  - rewrite <- !app_assoc in E. cbn [app] in E. apply app_inv_head in E. injection E as ->. apply Forall_app in S as [_ S]. inversion S as [|? ? S1 _]; subst. exact (S1 fd b EB).
Qed.
(** Hence what the original process receives is honest, if it was sent by a helper of the same program. *)
Theorem C87_honest : forall name words argv tr tr' out out', Forall2 points words argv -> length buf0 = 257%nat -> length ip0 = 129%nat ->
  runs (main (name :: argv)) tr out -> runs (main (name :: argv)) tr' out' -> Forall dgram tr' -> pids tr' -> In 0 (forks tr') ->
  (forall fd n a, In (Other (bs "recv") [fd; n] [], a) tr -> 0 < ret a ->
     exists t1 fd' b r t2, tr' = t1 ++ (Other (bs "send") [fd'] b, r) :: t2 /\ In 0 (forks t1) /\ data a = firstn (Z.to_nat n) b) ->
  Forall honest tr.
Proof.
  intros name words argv tr tr' out out' FW LB LI R R' D P Z CH. apply Forall_forall. intros [q a] X fd n E A. cbn [fst snd] in *. subst q.
  destruct (CH fd n a X A) as (t1 & fd' & b & r & t2 & ET & Z1 & ->). destruct (C87_others _ _ _ _ _ FW LB LI R' D P Z) as [_ S].
  assert (N : 256 <= n). { pose proof (main_wide1 I fuel buf0 ip0 junk env nojail logid (name :: argv) _ _ R) as W. rewrite Forall_forall in W. apply W in X. apply X. reflexivity. }
  assert (T : forall b', b' = [255] \/ (exists cs, offer cs b') -> firstn (Z.to_nat n) b' = b').
  { intros b' [->|(cs & O1 & O2 & ->)]; apply firstn_all2; [cbn [length]; lia|]. cbn [length]. rewrite (concat_len16 cs O1). unfold len in O2. lia. }
  pose proof (S _ _ _ ET Z1 fd' b eq_refl) as G. rewrite (T b G). exact G.
Qed.
End Smtp.
Print Assumptions C85_destination.
Print Assumptions C86_session.
Print Assumptions C87_others.
Print Assumptions C87_honest.

(** ** Examples *)
Fixpoint fstatsb (L : list Z) (tr : trace) : bool :=
  match tr with
  | [] => true
  | (c, a) :: t => match c with Other n [fd] [] => negb (same n (bs "fstat")) || negb (ret a =? 0) || existsb (Z.eqb fd) L | _ => true end &&
                   match fd1 L (c, a) with Some L1 => fstatsb L1 t | None => true end
  end.
Lemma fstatsb_ok : forall tr L, fstatsb L tr = true -> fstats L tr.
Proof.
  induction tr as [|[c a] tr IH]; intros L H t1 fd b t2 L1 E RB F; [destruct t1; discriminate|]. cbn [fstatsb] in H. apply andb_prop in H as [H1 H2]. destruct t1 as [|e t1]; cbn [app] in E.
  - injection E as -> -> ->. cbn [fdrun] in F. injection F as <-. change (same (bs "fstat") (bs "fstat")) with true in H1. rewrite RB in H1. cbn [negb orb] in H1. change (0 =? 0) with true in H1. cbn [negb orb] in H1.
    apply existsb_exists in H1 as (x & X & EX). assert (x = fd) by lia. subst x. exact X.
  - injection E as <- ->. cbn [fdrun] in F. destruct (fd1 L (c, a)) as [L2|]; [|discriminate]. apply (IH L2 H2 t1 fd b t2 L1); auto.
Qed.
Definition mailfds : list Z := [0; 1; 2; 5; 6].
Lemma mailfds_good : good mailfds.
Proof. split; [repeat constructor; cbn; lia|repeat constructor; lia]. Qed.
(** a session after a connection to the policy server: the answers are a kernel's, the helper's reply is honest *)
Example ex_mail : good mailfds /\ Forall2 points smtpwords (vec smtpwords) /\
  exists tr o L', runs (smtp false smtpwords) tr o /\ fdrun mailfds tr = Some L' /\ kernel tr /\ Forall honest tr /\ original tr /\ fstats mailfds tr /\ served_session tr o = true.
Proof.
  split; [exact mailfds_good|]. split; [exact smtpwords_ok|].
  destruct (perform_show _ _ skernel (Z.to_nat 900) (startos T5 [500; 501] [reply1] mailnet) (smtp false smtpwords)
    (fun tr o => fair mailfds tr && forallb honestb tr && fstatsb mailfds tr && served_session tr o)) as (tr & o & R & LE & Q).
  { vm_compute. reflexivity. }
  rewrite !andb_true_iff in Q. destruct Q as [[[Q1 Q2] Q3] Q4]. destruct (fair_ok _ _ LE Q1) as (K & O & L' & E).
  assert (H : Forall honest tr) by (apply Forall_forall; intros e X; apply honestb_ok; rewrite forallb_forall in Q2; auto). exists tr, o, L'. pose proof (fstatsb_ok _ _ Q3). auto 10.
Qed.
(** without -g, and without the STARTTLS descriptors *)
Definition T3 : Fdtable.table := fun fd => if existsb (Z.eqb fd) [0; 1; 2] then Some (Fdtable.Given fd, false) else None.
Example ex_mail_plain : exists tr o L', runs (smtp true [bs "-c"; bs "smtpd"]) tr o /\ fdrun [0; 1; 2] tr = Some L' /\ kernel tr /\ Forall honest tr /\ original tr /\ fstats [0; 1; 2] tr /\ o = Fin (Exit 0).
Proof.
  destruct (perform_show _ _ skernel (Z.to_nat 900) (startos T3 [500] [] [(0, [bs "QUIT" ++ [13; 10]]); (5, [bs "220 hi" ++ [13; 10]; bs "221 bye" ++ [13; 10]])]) (smtp true [bs "-c"; bs "smtpd"])
    (fun tr o => fair [0; 1; 2] tr && forallb honestb tr && fstatsb [0; 1; 2] tr && match o with Fin (Exit c) => c =? 0 | _ => false end)) as (tr & o & R & LE & Q).
  { vm_compute. reflexivity. }
  rewrite !andb_true_iff in Q. destruct Q as [[[Q1 Q2] Q3] Q4]. destruct (fair_ok _ _ LE Q1) as (K & O & L' & E).
  assert (H : Forall honest tr) by (apply Forall_forall; intros e X; apply honestb_ok; rewrite forallb_forall in Q2; auto). exists tr, o, L'. pose proof (fstatsb_ok _ _ Q3). repeat (split; [assumption|]).
  destruct o as [[x|]| |]; try discriminate. f_equal. f_equal. lia.
Qed.
(** Without -c a policy server that cannot be reached should not stop the mail.  It does not if the connection fails;
    but if its name cannot be resolved the program ends with 111 and the client gets nothing.  No system call failed:
    the helper answered that there is no address. *)
Theorem C86_fail_open_refuted : exists l prg timeout crw grey tr L', smtp_line isc smtpwords l prg timeout crw grey /\ last_flag 99 67 false l = false /\
  runs (smtp false smtpwords) tr (Fin (Exit 111)) /\ fdrun mailfds tr = Some L' /\ kernel tr /\ Forall honest tr /\ original tr /\ fstats mailfds tr /\
  Forall (fun e => ret (snd e) <> -1) tr /\ Forall (fun e => wordless (fst e)) tr.
Proof.
  destruct (perform_show _ _ skernel (Z.to_nat 900) (startos T5 [500; 501] [[255]] mailnet) (smtp false smtpwords)
    (fun tr o => fair mailfds tr && forallb honestb tr && fstatsb mailfds tr && forallb (fun e => negb (ret (snd e) =? -1)) tr && forallb (fun e => match fst e with Write _ _ | Read _ _ | Shutdown _ _ => false | _ => true end) tr &&
      match o with Fin (Exit c) => c =? 111 | _ => false end)) as (tr & o & R & LE & Q).
  { vm_compute. reflexivity. }
  rewrite !andb_true_iff in Q. destruct Q as [[[[[Q1 Q2] Q3] Q4] Q5] Q6]. destruct (fair_ok _ _ LE Q1) as (K & O & L' & E).
  assert (H : Forall honest tr) by (apply Forall_forall; intros e X; apply honestb_ok; rewrite forallb_forall in Q2; auto).
  assert (OE : o = Fin (Exit 111)) by (destruct o as [[x|]| |]; try discriminate; f_equal; f_equal; lia). subst o.
  destruct (C78_exact isc (repeat 0 6) (bs "tlswrapper-smtp" ++ [0]) smtpwords (vec smtpwords) eq_refl smtpwords_ok) as (r & EC & HC). vm_compute in EC.
  destruct r as [c|]; [|discriminate]. destruct HC as (l & prg & grey & SL & SE & _ & _). exists l, prg, (stimeout c), (scrw c), grey, tr, L'.
  split; [exact SL|]. split; [rewrite <- (ss_closed _ _ SE); injection EC as <-; reflexivity|]. split; [exact R|]. pose proof (fstatsb_ok _ _ Q3). repeat (split; [assumption|]). split.
  - apply Forall_forall. intros e X. rewrite forallb_forall in Q4. specialize (Q4 _ X). cbn beta in Q4. lia.
  - apply Forall_forall. intros e X. rewrite forallb_forall in Q5. specialize (Q5 _ X). destruct e as [[] a]; try discriminate; exact Logic.I.
Qed.
Print Assumptions C86_fail_open_refuted.
(** the helper answers a request; the mail server's process reaches the program *)
Example ex_mail_others :
  (exists tr o, runs (smtp false smtpwords) tr o /\ Forall dgram tr /\ pids tr /\ In 0 (forks tr) /\ exists fd r, In (Other (bs "send") [fd] reply1, r) tr) /\
  (exists tr v, runs (smtp false smtpwords) tr (Fin (Exec v)) /\ Forall dgram tr /\ pids tr /\ In 0 (forks tr)).
Proof.
  assert (D : forall tr, forallb dgramb tr = true -> Forall dgram tr).
  { intros tr Q1. apply Forall_forall. intros [q a] X. rewrite forallb_forall in Q1. specialize (Q1 _ X). unfold dgram. cbn [fst snd]. destruct q as [| | | | | | | |n [|f [|m []]] d]; auto; intros ->; unfold dgramb in Q1.
    + change (same (bs "send") (bs "send")) with true in Q1. cbn [negb orb] in Q1. lia.
    + change (same (bs "recv") (bs "recv")) with true in Q1. cbn [negb orb] in Q1. lia. }
  assert (N : forall tr, existsb (Z.eqb 0) (forks tr) = true -> In 0 (forks tr)) by (intros tr Q; apply existsb_exists in Q as (x & X & E); assert (x = 0) as -> by lia; exact X).
  split.
  - destruct (perform_show _ _ skernel (Z.to_nat 400) (startos T5 [500; 0] [bs "grey" ++ repeat 0 (Z.to_nat 252)] []) (smtp false smtpwords)
      (fun tr o => forallb dgramb tr && pidsb tr && existsb (Z.eqb 0) (forks tr) && existsb (fun e => match fst e with Other n [f] b => same n (bs "send") && same b reply1 | _ => false end) tr)) as (tr & o & R & LE & Q).
    { vm_compute. reflexivity. }
    rewrite !andb_true_iff in Q. destruct Q as [[[Q1 Q2] Q3] Q5]. exists tr, o. split; [exact R|]. split; [auto|]. split; [apply pidsb_ok; exact Q2|]. split; [auto|].
    apply existsb_exists in Q5 as ([q a] & X & E). cbn [fst] in E. destruct q as [| | | | | | | |n [|f []] d]; try discriminate. apply andb_prop in E as [E1 E2]. apply same_true in E1, E2. subst. eauto.
  - destruct (perform_show _ _ skernel (Z.to_nat 400) (startos T5 [0] [] []) (smtp false smtpwords)
      (fun tr o => forallb dgramb tr && pidsb tr && existsb (Z.eqb 0) (forks tr) && match o with Fin (Exec _) => true | _ => false end)) as (tr & o & R & LE & Q).
    { vm_compute. reflexivity. }
    rewrite !andb_true_iff in Q. destruct Q as [[[Q1 Q2] Q3] Q5]. destruct o as [[x|v]| |]; try discriminate. exists tr, v. split; [exact R|]. split; [auto|]. split; [apply pidsb_ok; exact Q2|auto].
Qed.
