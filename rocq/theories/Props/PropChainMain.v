(** C101, continued: a row of tlswrapper-tcp in front of tlswrapper, up to the program. *)
From Verif.Model Require Import Base Sys Io Str Inet InetIsc Config Parsenum Fdio Relay Session Tlsphase Jail Pem Keyjail Proxy Conninfo Options Conn Resolve Main Getopt Lookup Tcpmain.
From Verif.Spec Require Import Text Num Ip Stream Settings Cmdline Words Proxy Flow Restrict Process Fdtable Endpoints Tlsrelay Program Resolver Forward.
From Verif.Proof Require Import Tac SysP CallsP StrP IoP ConfigP OptionsP PlayP PerformP SafeP MainCallsP MainP ChildP DescP ToldP ProxyP InetIscP.
From Verif.Props Require Import PropJail PropOptions PropCommands PropConninfo PropTcpmain PropForward PropChain PropTlsphase PropMain PropDesc PropProgram.

(** What tlswrapper reads from the connection of [x] is what was written to it, or less. *)
Definition feeds (x : leg) (tr : trace) : Prop := forall ri ro, connected (l_calls x) ri ro -> is_prefix (got 0 tr) (sent ro (l_calls x)).

Lemma ends_inj : forall i j, ends_of i = ends_of j -> i = j.
Proof. intros [a b c d] [a' b' c' d'] E. injection E as -> -> -> ->. reflexivity. Qed.

Section Chain.
Variable I : inet.
Variable stream : list Z -> list Z -> nat -> Z.
Variable fuel : nat.
Variables junk portbuf line0 key0 : list Z.
Variable env : environment.
Variable nojail : bool.
Notation main := (main_tlswrapper I stream fuel junk portbuf line0 key0 env nojail).
Hypothesis OK : inet_ok I.
Hypothesis JUNK : length junk = 256%nat.
Hypothesis PORT : length portbuf = 6%nat.
Variable T : table.
Variables P R : list Z.
Hypothesis ENV : Endpoints.strings env.
Hypothesis START : start_table T.

(** The wrapper behind a stage learns its ends. *)
Lemma wrapper_learns : forall x t0 u i h ri ro tr j, stage I x t0 u i h ri ro -> addr6 (localip i) -> addr6 (remoteip i) -> switched 80 x ->
  feeds x tr -> legal tr -> observed I env true tr j -> j = i.
Proof.
  intros x t0 u i h ri ro tr j (px & wx & _ & W1 & _ & _ & AH & CO & SX & _) AL AR S1 FD LG (t1 & t2 & v & ET & G & NV & PP).
  apply W1 in S1. subst wx. cbn [ahead] in AH. assert (ID : header I (ends_of i) h) by exact AH. apply ends_inj. change (pp_line I (v ++ [10]) (ends_of j)) in PP.
  assert (IS2 : is2 (lport (ends_of i)) /\ is2 (rport (ends_of i))).
  { destruct ID as (rp & lp & (_ & a & b & A1 & A2 & A3 & _) & (_ & c & d & B1 & B2 & B3 & _) & _). split; [exists c, d|exists a, b]; auto. }
  destruct IS2 as [PL PR]. destruct (header_ends I (ends_of i) h OK AL AR PL PR ID) as (w & EW & NWl).
  destruct (prefix_trans _ _ _ (FD _ _ CO) SX) as (rest & PX).
  assert (F10 : forall z : list Z, ~ In 10 z -> Forall (fun c => ~ 10 = c) z) by (intros z Z; apply Forall_forall; intros c C <-; auto).
  rewrite ET, got_app, G, EW, <- !app_assoc in PX. cbn [app] in PX.
  destruct (split_unique (fun c => 10 = c) w 10 (got 0 u) v 10 (got 0 t2 ++ rest)) as (EV & _ & EQ); auto. subst v.
  rewrite <- EW in G, PP.
  destruct (list_eq_dec Z.eq_dec (firstn 12 (localip i)) v4prefix) as [D|D]; destruct (list_eq_dec Z.eq_dec (firstn 12 (remoteip i)) v4prefix) as [D'|D'];
    try (exfalso; apply (mixed_rejected I (ends_of i) h (ends_of j) OK AL AR); [cbn [lip rip ends_of]; tauto|exact ID|exact PP]);
    (destruct (header_line I (ends_of i) h OK AL AR PL PR) as [HL _]; [cbn [lip rip ends_of]; tauto|exact ID|];
     assert (B : bytes h) by (rewrite <- G; pose proof (got_bytes 0 _ LG) as B; rewrite ET, got_app in B; apply Forall_app in B as [B _]; exact B);
     exact (line_unique I h w _ _ OK B EW PP HL)).
Qed.

(** The program's environment names the two ends that the first of the row learned. *)
Theorem C101_program : forall x l, passes I x -> Forall (passes I) l -> row x l -> known I x -> switched 80 (last l x) ->
  forall name words argv trw out trc v, Forall2 points words argv ->
  runs (main (name :: argv)) trw out -> original trw -> legal trw -> kernel_fds T trw -> always (engine_ok P R) trw ->
  runs (main (name :: argv)) trc (Fin (Exec v)) -> legal trc -> pids trc -> kernel_fds T trc ->
  is_prefix (taken T (ReadEnd 1) trc) (written T (WriteEnd 1) trw) ->
  (exists o prg th hh t, Cmdline.accepted words o prg th hh t /\ In (bs "1") (args 112 o)) -> feeds (last l x) trw ->
  exists t0 u i h ri ro t1 tenv t2, stage I x t0 u i h ri ro /\ trc = t1 ++ tenv ++ t2 /\ told_env I i tenv.
Proof.
  intros x l PX PL RW KN SL name words argv trw out trc v F RU O LW KW EN RC LC PC KC PR PP FD.
  destruct (C11_account I stream fuel junk portbuf line0 key0 env nojail OK JUNK PORT T P R ENV START name words argv trw out trc v F RU O LW KW EN RC LC PC KC PR)
    as (t0 & t1 & t2 & t3 & o & prg & th & hh & j & r & d1 & d2 & TR & A & _ & H & OB & _).
  assert (X : proxied o = true). { unfold proxied. destruct (in_dec _ _ _) as [Y|Y]; [reflexivity|]. destruct PP as (o' & prg' & th' & hh' & t' & A' & IN). destruct (C64_unique _ _ _ _ _ _ _ _ _ _ _ A A') as (-> & _). destruct (Y IN). }
  rewrite X in OB.
  destruct (C101_chain I OK x l PX PL RW KN) as (s0 & u & i & h & ri & ro & ST & FA).
  destruct (known_addr I OK _ _ _ _ _ _ _ KN ST) as [AL AR].
  assert (E : j = i).
  { destruct l as [|y l]; [eapply wrapper_learns; eauto|].
    assert (IN : In (last (y :: l) x) (y :: l)). { clear. revert y. induction l as [|z l IH]; intros y; [left; reflexivity|]. right. apply IH. }
    rewrite Forall_forall in FA. destruct (FA _ IN) as (s0' & u' & i' & h' & ri' & ro' & ST' & EI & _). apply ends_inj in EI. subst i'. eapply wrapper_learns; eauto. }
  subst j. destruct (ho_trace _ _ _ _ _ _ _ _ _ H) as (tinfo & tenv & trec & sigs & a & T3 & _ & _ & _ & TE & _).
  exists s0, u, i, h, ri, ro, (t0 ++ t1 ++ t2 ++ tinfo), tenv, (trec ++ d1 ++ d2 ++ sigs ++ [(Other (bs "execvp") [] (hd [] prg), a)]).
  split; [exact ST|]. split; [rewrite TR, T3, <- !app_assoc; reflexivity|exact TE].
Qed.
End Chain.
Print Assumptions C101_program.

(** ** Example: two tlswrapper-tcp, then tlswrapper -p 1; the program learns 192.0.2.1 port 1000 and 192.0.2.2 port 25 *)
Definition pwords : list (list Z) := [bs "-p1"; bs "-d"; bs "certs"; bs "prog"].
Definition pinfo : list (list Z) := [v4prefix ++ [192; 0; 2; 2]; [0; 25]; v4prefix ++ [192; 0; 2; 1]; [3; 232]; [0]].
Definition agree_p (x : list Z) (t : trace) : bool := answersb (mkfds T3 0) t && same x (concat (map frame0 pinfo)).
Definition wrapper_p (tr : trace) (o : outcome ending) : bool :=
  agree_p (written T3 (WriteEnd 1) tr) tr && same (forks tr) [500; 501] && always_b (engine_b [] []) [] tr && same (got 0 tr) proxyline.
Definition program_p (tr : trace) (o : outcome ending) : bool :=
  match o with Fin (Exec _) => agree_p (taken T3 (ReadEnd 1) tr) tr && forallb (fun e => match e with (Other n [] [], a) => negb (same n (bs "getpid")) || (0 <=? ret a) | _ => true end) tr &&
    existsb (fun e => match fst e with Other n [] b => same n (bs "setenv") && same b (bs "TCPREMOTEIP=192.0.2.1") | _ => false end) tr | _ => false end.
Lemma pwords_ok : Forall2 points pwords (vec pwords).
Proof. repeat apply Forall2_cons; try apply Forall2_nil; (split; [repeat constructor|exists []; reflexivity]). Qed.
Lemma ex_wrapper : exists trw trc v, pair_of pwords trw trc v /\ got 0 trw = proxyline /\ exists a, In (Other (bs "setenv") [] (bs "TCPREMOTEIP=192.0.2.1"), a) trc.
Proof.
  destruct (perform_show _ _ kernel3 (Z.to_nat 600) (start4 [500; 501] [(0, map (fun c => [c]) proxyline)]) (wrapper false pwords) wrapper_p) as (trw & ow & R1 & L1 & H1); [vm_compute; reflexivity|].
  destruct (perform_show _ _ kernel3 (Z.to_nat 600) (start4 [0] [(0, PropProgram.pieces pinfo)]) (wrapper false pwords) program_p) as (trc & oc & R2 & L2 & H2); [vm_compute; reflexivity|].
  unfold wrapper_p, agree_p in H1. unfold program_p, agree_p in H2. destruct oc as [[c|v]| |]; try discriminate. rewrite !andb_true_iff in H1. rewrite !andb_true_iff in H2. destruct H1 as [[[[K1 W1] F1] E1] G1]. destruct H2 as [[[K2 W2] P2] X2].
  apply same_true in W1, W2, F1, G1. exists trw, trc, v. split; [|split; [exact G1|]].
  - split; [exact pwords_ok|]. split; [eauto|]. split; [unfold original; rewrite F1; cbn; intuition discriminate|]. split; [exact L1|]. split; [apply answersb_ok; exact K1|].
    split; [intros t1 e t2 E; apply (always_b_ok _ _ (engine_b_ok _ _) trw [] E1 t1 e t2 E)|]. split; [exact R2|]. split; [exact L2|]. split; [|split; [apply answersb_ok; exact K2|exists []; rewrite W1, W2, app_nil_r; reflexivity]].
    intros a IN. rewrite forallb_forall in P2. specialize (P2 _ IN). cbn in P2. lia.
  - apply existsb_exists in X2 as ([q a] & IN & E). cbn [fst] in E. destruct q as [| | | | | | | |n [|] d]; try discriminate. apply andb_prop in E as [E1' E2']. apply same_true in E1', E2'. subst. eauto.
Qed.
Example ex_behind : exists x trw trc v, passes isc x /\ row x [x] /\ known isc x /\ switched 80 x /\ pair_of pwords trw trc v /\ feeds x trw /\
  (exists o prg th hh t, Cmdline.accepted pwords o prg th hh t /\ In (bs "1") (args 112 o)) /\
  exists a, In (Other (bs "setenv") [] (bs "TCPREMOTEIP=192.0.2.1"), a) trc.
Proof.
  destruct ex_chain as (x & PX & RW & KN & C & _ & S8 & S1). destruct ex_wrapper as (trw & trc & v & PA & G & SE). exists x, trw, trc, v.
  cbn [row] in RW. destruct RW as (A1 & A2 & A3 & _). split; [exact PX|]. split; [cbn [row]; auto|]. split; [exact KN|]. split; [exact A1|]. split; [exact PA|].
  split; [intros ri ro CO; destruct (C _ _ CO) as [_ ->]; rewrite G, S8; eexists; reflexivity|]. split; [|exact SE].
  destruct (perform_show _ _ kernel3 (Z.to_nat 600) (start4 [] []) (command_line (vec (bs "tlswrapper" :: pwords))) (fun _ o => match o with Fin (Some c) => ppin (settings c) | _ => false end)) as (t & o & R & _ & Q); [vm_compute; reflexivity|].
  destruct o as [[c|]| |]; try discriminate. cbn [vec map] in R. destruct (C64_exact _ _ _ _ _ pwords_ok R) as (_ & X & _). destruct (X c eq_refl) as (l & prg & A & _).
  exists l, prg, (timeout c), (hstimeout c), t. split; [exact A|]. apply (s_proxy _ _ (C64_settings _ _ _ _ _ _ _ _ _ pwords_ok R A)). exact Q.
Qed.
