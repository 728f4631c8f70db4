(** C92: the alarm clocks of tlswrapper-tcp and tlswrapper-smtp. *)
From Verif.Model Require Import Base Sys Io Str Inet InetIsc Parsenum Fdio Relay Session Jail Pem Conninfo Conn Resolve Main Getopt Lookup Tcpmain Smtpmain.
From Verif.Spec Require Import Text Num Ip Words Flow Restrict Process Watchdog Clocks.
From Verif.Proof Require Import Tac SysP CallsP StrP ConfigP OptionsP PlayP PerformP SafeP MainCallsP WatchdogP ClocksP.
From Verif.Props Require Import PropOptions PropMain PropWatchdog PropCommands PropTcpmain PropSmtpmain.

Section Applets.
Variable I : inet.
Variable fuel : nat.
Variables buf0 ip0 junk : list Z.
Variable env : environment.
Variable nojail : bool.
Variable logid : option (list Z).
Notation tcp := (main_tcp I fuel buf0 ip0 env nojail).
Notation smtp := (main_smtp I fuel buf0 ip0 junk env nojail logid).

(** tlswrapper-tcp has no clock before it relays, and from then on never waits without. *)
Theorem C92_forward : forall name words argv tr out, Forall2 points words argv -> runs (tcp (name :: argv)) tr out -> original tr -> real_pipes tr ->
  ((forall l host port t c, ~ tcp_line words l host port t c) /\ settings tr = []) \/
  exists l host port timeout connect, tcp_line words l host port timeout connect /\ day timeout /\ always (forward_guarded timeout) tr.
Proof.
  intros name words argv tr out FW R O P. destruct (C77_exact name words argv FW) as (r & EC & HC). unfold main_tcp in R. rewrite EC in R. cbn [lift] in R.
  destruct r as [c|].
  - right. destruct HC as (l & host & port & TL & _). pose proof (proj2 (tl_timeout _ _ _ _ _ _ TL)) as D. exists l, host, port, (ttimeout c), (tconnect c). split; [exact TL|]. split; [exact D|].
    assert (S : sp parent (forward_guarded (ttimeout c)) [] (_ <~ signal SIGPIPE IGN ;; x <~ Ret (Some c) ;; match x with
      | None => Ret (Exit 100) | Some c => _ <~ randombytes 1 ;; tcp_resolve fuel buf0 ip0 nojail c (tcp_resolved I fuel env nojail c) end) (fun _ _ => True)).
    { unfold signal, do, sys1. cbn [pbind]. apply sp_do. intros a _. split; [apply E_ok; [repeat split|reflexivity]|].
      eapply (e_then c _ _ _ _ (fun _ => True)); [exact keeps_true|auto with early|repeat split|exact Logic.I|]. intros u x HU _. apply resolve_sp; [lia|exact HU]. }
    destruct (S _ _ R (parent_holds [] _ O P)) as [H _]. intros t e t' ET. exact (H _ _ _ ET).
  - left. split; [exact HC|]. unfold signal, do, sys1 in R. cbn [pbind] in R. destruct R as [[-> _]|(a & u & -> & [-> _])]; reflexivity.
Qed.

(** tlswrapper-smtp begins by setting its clock to half a minute, and sets it once more, to the time of the session, before
    it passes anything on: it ends within the sum of the two. *)
Theorem C92_mail : forall name words argv tr out, length junk = 6%nat -> Forall2 points words argv -> runs (smtp (name :: argv)) tr out -> original tr -> real_pipes tr ->
  map fst (firstn 3 tr) = firstn (length tr) [Other (bs "signal") [13; 1] []; on_alarm; alarm_in 30] /\
  (((forall l prg t crw grey, ~ smtp_line I words l prg t crw grey) /\ (length tr <= 3)%nat) \/
   exists l prg timeout crw grey, smtp_line I words l prg timeout crw grey /\ day timeout /\
     (exists n, settings tr = firstn n (twice timeout)) /\ always (mail_guarded timeout) tr).
Proof.
  intros name words argv tr out J FW R O P. destruct (C78_exact I junk name words argv J FW) as (r & EC & HC). unfold main_smtp in R. rewrite EC in R. cbn [lift] in R.
  assert (B : map fst (firstn 3 tr) = firstn (length tr) [Other (bs "signal") [13; 1] []; on_alarm; alarm_in 30]).
  { clear - R. unfold signal, do, alarm, sys1 in R. cbn [pbind] in R. destruct R as [[-> _]|(a1 & u1 & -> & R)]; [reflexivity|]. destruct R as [[-> _]|(a2 & u2 & -> & R)]; [reflexivity|].
    destruct R as [[-> _]|(a3 & u3 & -> & R)]; [reflexivity|]. cbn [length firstn map fst]. rewrite firstn_nil. reflexivity. }
  split; [exact B|]. destruct r as [c|].
  - right. destruct HC as (l & prg & grey & SL & _). pose proof (proj2 (sl_timeout _ _ _ _ _ _ _ SL)) as D. exists l, prg, (stimeout c), (scrw c), grey. split; [exact SL|]. split; [exact D|].
    assert (S : holds (mail_guarded (stimeout c)) [] tr).
    { pose proof (parent_holds [] _ O P) as PH. revert R PH. match goal with |- runs ?p _ _ -> _ => assert (S : sp parent (mail_guarded (stimeout c)) [] p (fun _ _ => True)) end.
      { unfold signal, do, alarm, sys1. cbn [pbind]. apply sp_do. intros a1 _. split; [split; [exact Logic.I|discriminate]|].
        apply sp_do. intros a2 _. split; [split; [exact Logic.I|intros _; exists 1%nat; reflexivity]|]. apply sp_do. intros a3 _. split; [split; [exact Logic.I|intros _; exists 2%nat; reflexivity]|].
        apply started_sp. reflexivity. }
      intros R PH. exact (proj1 (S _ _ R PH)). }
    split; [|intros t e t' ET; exact (S _ _ _ ET)]. apply (settings_prefix c tr [] S). exists 0%nat. reflexivity.
  - left. split; [exact HC|]. unfold signal, do, alarm, sys1 in R. cbn [pbind] in R. destruct R as [[-> _]|(a1 & u1 & -> & R)]; [cbn; lia|]. destruct R as [[-> _]|(a2 & u2 & -> & R)]; [cbn; lia|].
    destruct R as [[-> _]|(a3 & u3 & -> & [-> _])]; cbn; lia.
Qed.
End Applets.
Print Assumptions C92_forward.
Print Assumptions C92_mail.

(** ** What the clocks do not do *)
Definition fresh : guard := mkguard Off 0 (-1) 0 0 false.
Definition headwords : list (list Z) := [bs "-p1"; bs "-t5"; bs "host"; bs "25"].
Definition headline : list Z := bs "PROXY TCP4 192.0.2.1 192.0.2.2 1000 25" ++ [13; 10].
Definition from_peer (e : event) : bool := match fst e with Read 0 _ => true | _ => false end.
Definition parentb (tr : trace) : bool := negb (existsb (Z.eqb 0) (forks tr)) && pipesb tr.
Lemma parentb_ok : forall tr, parentb tr = true -> original tr /\ real_pipes tr.
Proof.
  intros tr H. apply andb_prop in H as [H1 H2]. split.
  - intros Z. apply negb_true_iff in H1. assert (X : existsb (Z.eqb 0) (forks tr) = true) by (apply existsb_exists; exists 0; auto). congruence.
  - intros e IN C N. unfold pipesb in H2. rewrite forallb_forall in H2. specialize (H2 _ IN). rewrite C in H2. cbn [negb orb] in H2. destruct (Z.eqb_spec (ret (snd e)) (-1)); [contradiction|]. cbn [orb] in H2. lia.
Qed.
(** The timeouts of tlswrapper-tcp do not cover its beginning: with -p 1 it reads from the peer while there is no clock. *)
Theorem C92_header_refuted : exists tr out t e t', runs (PropTcpmain.tcp false headwords) tr out /\ legal tr /\ original tr /\ real_pipes tr /\
  tr = t ++ e :: t' /\ from_peer e = true /\ clk (seen t) = Off.
Proof.
  destruct (perform_show _ _ tkernel (Z.to_nat 600) (PropTcpmain.mkos 3 500 [reply1] [(0, map (fun c => [c]) headline ++ [bs "hello"]); (7, [bs "world"])] (-1)) (PropTcpmain.tcp false headwords)
    (fun tr o => parentb tr && existsb (fun g => match clk g with Off => true | _ => false end) (at_call from_peer fresh tr))) as (tr & o & R & LE & Q).
  { vm_compute. reflexivity. }
  apply andb_prop in Q as [Q1 Q2]. destruct (parentb_ok _ Q1). apply at_call_in in Q2 as (t & e & t' & ET & FP & OFF). exists tr, o, t, e, t'. repeat (split; [assumption|]). unfold seen. fold fresh. destruct (clk _); [reflexivity|discriminate..].
Qed.
Print Assumptions C92_header_refuted.
(** The time to connect (-T) of tlswrapper-smtp is not always allowed: it waits for the greylisting server up to a minute, with
    the clock still at half a minute; so it ends there with 111, also if it is to go on without greylisting. *)
Definition slowwords : list (list Z) := [bs "-C"; bs "-T60"; bs "-ggrey:10023"; bs "smtpd"].
Definition long_wait (e : event) : bool := match fst e with Select _ _ _ (Some t) => 30000000 <? t | _ => false end.
(** connecting takes time *)
Definition sluggish (s : sos) (c : sys) : ans * sos :=
  match c with Other n _ _ => if same n (bs "connect") then (mkans (-1) EINPROGRESS [], s) else skernel s c | _ => skernel s c end.
Theorem C92_connect_refuted : exists tr out t e t', runs (PropSmtpmain.smtp false slowwords) tr out /\ legal tr /\ original tr /\ real_pipes tr /\
  tr = t ++ e :: t' /\ long_wait e = true /\ clk (seen t) = Running 30 /\ action (seen t) = 2.
Proof.
  destruct (perform_show _ _ sluggish (Z.to_nat 900) (startos T5 [500; 501] [reply1] mailnet) (PropSmtpmain.smtp false slowwords)
    (fun tr o => parentb tr && existsb (fun g => running 30 g && (action g =? 2)) (at_call long_wait fresh tr))) as (tr & o & R & LE & Q).
  { vm_compute. reflexivity. }
  apply andb_prop in Q as [Q1 Q2]. destruct (parentb_ok _ Q1). apply at_call_in in Q2 as (t & e & t' & ET & FP & OFF). exists tr, o, t, e, t'. repeat (split; [assumption|]).
  unfold seen. fold fresh. apply andb_prop in OFF as [OFF1 OFF2]. unfold running in OFF1. destruct (clk _); try discriminate. split; [f_equal; lia|lia].
Qed.
Print Assumptions C92_connect_refuted.

(** ** Examples *)
(** Both directions relayed, every wait of the relay with the clock at 5 seconds; and a session in which both settings are made. *)
Example ex_clocks :
  Forall2 points headwords (vec headwords) /\ Forall2 points smtpwords (vec smtpwords) /\
  (exists tr o, runs (PropTcpmain.tcp false headwords) tr o /\ legal tr /\ (parentb tr && existsb (running 5) (at_call selecting fresh tr) && (3 <=? rearmed (seen tr)) && match o with Fin (Exit c) => c =? 0 | _ => false end) = true) /\
  (exists tr o, runs (PropSmtpmain.smtp false smtpwords) tr o /\ legal tr /\ (parentb tr && (length (settings tr) =? 3)%nat && served_session tr o) = true).
Proof.
  split; [repeat apply Forall2_cons; try apply Forall2_nil; (split; [repeat constructor|exists []; reflexivity])|]. split; [exact smtpwords_ok|]. split.
  - apply (perform_show _ _ tkernel (Z.to_nat 600) (PropTcpmain.mkos 3 500 [reply1] [(0, map (fun c => [c]) headline ++ [bs "hello"]); (7, [bs "world"])] (-1))). vm_compute. reflexivity.
  - apply (perform_show _ _ skernel (Z.to_nat 900) (startos T5 [500; 501] [reply1] mailnet)). vm_compute. reflexivity.
Qed.
