(** C90: the TLS engine is set up as the command line asks before it is used. *)
From Verif.Model Require Import Base Sys Io Str Inet InetIsc Config Parsenum Fdio Relay Session Tlsphase Jail Pem Keyjail Proxy Conninfo Options Profile Main.
From Verif.Spec Require Import Text Num Ip Settings Cmdline Flow Restrict Process Engine.
From Verif.Proof Require Import Tac SysP CallsP StrP ConfigP OptionsP PlayP PerformP SafeP MainCallsP MainP ChildP QuitP ProfileP UsesP.
From Verif.Props Require Import PropJail PropOptions PropMain.

Lemma allowed_user : forall before l t, all_allowed before l t -> forall x, In x (args 85 l) -> x = bs "commonName" \/ x = bs "emailAddress".
Proof.
  intros before l t A. induction A as [|before i l t1 t2 H A IH]; intros x IN; [destruct IN|]. unfold args in IN. cbn [flat_map] in IN. apply in_app_or in IN as [IN|IN]; [|apply IH; exact IN].
  destruct i as [c|c a]; [destruct IN|]. cbn [allowed] in H. destruct (Z.eqb_spec c 85) as [-> |N]; [|destruct IN]. destruct IN as [<- |[]]. cbn in H. tauto.
Qed.
Lemma accepted_attributes : forall words l prg th hh t, accepted words l prg th hh t -> attributes l.
Proof.
  intros words l prg th hh t A x E. apply (allowed_user _ _ _ (a_allowed _ _ _ _ _ _ A)). unfold last_arg in E. rewrite in_rev. destruct (rev (args 85 l)); [discriminate|]. injection E as ->. left. reflexivity.
Qed.
Lemma options_idle : forall argv, calls idle (command_line argv).
Proof.
  assert (SO : forall c x o, calls idle (set_option c x o)).
  { intros. unfold set_option, statted, configured. idle1. }
  assert (CL : forall x next o, calls idle (cluster x next o)).
  { intros x. induction x as [|c x IH]; intros; cbn [cluster]; idle1; auto. }
  assert (OP : forall argv o, calls idle (options argv o)).
  { fix IH 1. intros argv o. destruct argv as [|x argv]; cbn [options]; idle1; auto. }
  intros. unfold command_line. idle1; apply OP.
Qed.

Section Profile.
Variable I : inet.
Variable stream : list Z -> list Z -> nat -> Z.
Variable fuel : nat.
Variables junk portbuf line0 key0 : list Z.
Variable env : environment.
Variable nojail : bool.
Notation main := (main_tlswrapper I stream fuel junk portbuf line0 key0 env nojail).

Lemma main_idle : forall argv tr out, runs (main argv) tr out ->
  Forall (fun e => idle (fst e)) tr \/
  exists t0 t1 t2 cmd, tr = (t0 ++ t1) ++ t2 /\ length t0 = 4%nat /\ Forall (fun e => idle (fst e)) (t0 ++ t1) /\ runs (command_line argv) t1 (Fin (Some cmd)) /\ runs (start_child I stream fuel junk portbuf line0 key0 env nojail cmd) t2 out.
Proof.
  intros argv tr out R. unfold main_tlswrapper, signal, sigaction, alarm, do, sys1 in R. cbn [pbind] in R.
  destruct R as [[-> ->]|(a1 & u1 & -> & R)]; [left; constructor|].
  destruct R as [[-> ->]|(a2 & u2 & -> & R)]; [left; repeat constructor|].
  destruct (Z.eqb_spec (ret a2) (-1)); [destruct R as [-> ->]; left; repeat constructor|].
  destruct R as [[-> ->]|(a3 & u3 & -> & R)]; [left; repeat constructor|].
  destruct (Z.eqb_spec (ret a3) (-1)); [destruct R as [-> ->]; left; repeat constructor|].
  destruct R as [[-> ->]|(a4 & u4 & -> & R)]; [left; repeat constructor|].
  apply runs_bind in R as [(x & t1 & t2 & -> & R1 & R2)|[[R1 ->]|[R1 ->]]]; [|left; do 4 (constructor; [reflexivity|]); exact (options_idle _ _ _ R1)..].
  pose proof (options_idle _ _ _ R1) as F1. destruct x as [cmd|].
  - right. eexists [_; _; _; _], t1, t2, cmd. split; [reflexivity|]. split; [reflexivity|]. split; [do 4 (constructor; [reflexivity|]); exact F1|]. auto.
  - left. destruct R2 as [-> _]. rewrite app_nil_r. do 4 (constructor; [reflexivity|]). exact F1.
Qed.

(** Whenever the engine is used, it is the one the command line asks for. *)
Theorem C90_engine : forall name words argv tr out, Forall2 points words argv -> runs (main (name :: argv)) tr out -> original tr -> plausible tr ->
  always (fun t e => engine_call (fst e) = true -> exists t0 t1 t2 l prg th hh, t = t0 ++ t1 ++ t2 /\ length t0 = 4%nat /\ accepted words l prg th hh t1 /\ engine_for l t) tr.
Proof.
  intros name words argv tr out F R O P t e t' E U.
  assert (NT : forall u : trace, Forall (fun e => idle (fst e)) u -> ~ In e u) by (intros u X Y; rewrite Forall_forall in X; specialize (X e Y); unfold idle in X; congruence).
  destruct (main_idle _ _ _ R) as [L|(t0 & t1 & t2 & cmd & TR & N & L & R1 & R2)]; [destruct (NT _ L); rewrite E; apply in_or_app; right; left; reflexivity|].
  destruct (C64_exact _ _ _ _ _ F R1) as (_ & X & _). destruct (X cmd eq_refl) as (l & prg & A & _). pose proof (C64_settings _ _ _ _ _ _ _ _ _ F R1 A) as S.
  assert (EX : exists u, t = (t0 ++ t1) ++ u /\ t2 = u ++ e :: t').
  { rewrite TR in E. apply app_eq_app in E as (m & [[E1 E2]|[E1 E2]]).
    - destruct m as [|y m]; cbn [app] in E2; [exists []; rewrite app_nil_r in *; auto|]. injection E2 as <- ->. destruct (NT _ L). rewrite E1. apply in_or_app. right. left. reflexivity.
    - exists m. split; auto. }
  destruct EX as (u & -> & E2). rewrite TR in O, P. apply original_app in O as [_ O]. apply plausible_app in P as [_ P].
  pose proof (start_good I stream fuel junk portbuf line0 key0 env nojail l cmd S (accepted_attributes _ _ _ _ _ _ A) (t0 ++ t1) t2 out Logic.I R2 O P) as H.
  exists t0, t1, u, l, prg, (timeout cmd), (hstimeout cmd). split; [rewrite app_assoc; reflexivity|]. split; [exact N|]. split; [exact A|]. exact (H _ _ _ E2 U).
Qed.
End Profile.
Print Assumptions C90_engine.

(** ** Examples *)
(** the system of PropMain, with full random buffers and two certificates in the file of -a, which the key process sends *)
Definition kernel90 (s : os) (c : sys) : ans * os :=
  match c with
  | Other n a d =>
    if same n (bs "randombytes") then (mkans 0 0 (map (fun i => (Z.of_nat i * 37) mod 256) (seq 0 (Z.to_nat (nth 0 a 0)))), s)
    else if same n (bs "tls_pubcrt_parse") then (mkans 1 0 [2], s)
    else if same n (bs "stat") then (if same d (bs "ca.pem") then file else dir, s)
    else if same n (bs "clientcrt") then (mkans 0 0 (bs "alice" ++ [0]), s)
    else kernel s c
  | Alloc _ => (ok 1, s)
  | _ => kernel s c
  end.
Definition plausibleb (tr : trace) : bool :=
  forallb (fun e => match e with
    | (Other n [k] [], a) => negb (same n (bs "randombytes")) || ((len (data a) =? k) && forallb (fun b => (0 <=? b) && (b <? 256)) (data a))
    | (Other n [] d, a) => negb (same n (bs "tls_pubcrt_parse")) || (1 <=? nth 0 (data a) 0) && (nth 0 (data a) 0 <=? 16)
    | _ => true end) tr.
Definition with_engine (ask : bool) (tr : trace) (o : outcome ending) : bool :=
  ends_with 42 [500; 501] tr o && plausibleb tr && existsb (fun e => engine_call (fst e)) tr &&
  Bool.eqb ask (existsb (fun e => called [bs "br_x509_minimal_set_name_elements"] (fst e)) tr).
Definition certwords : list (list Z) := [bs "-a"; bs "ca.pem"; bs "-U"; bs "emailAddress"; bs "-S"; bs "-m"; bs "tls11"; bs "-e"; bs "secp384r1"; bs "-d"; bs "certs"; bs "prog"].
Example ex_engine :
  (exists tr o, runs (wrapper false plainwords) tr o /\ legal tr /\ with_engine false tr o = true) /\
  (exists tr o, runs (wrapper false certwords) tr o /\ legal tr /\ with_engine true tr o = true).
Proof.
  split.
  - apply (perform_show _ _ kernel90 (Z.to_nat 400) (mkos 3 [500; 501] [mkans 501 0 [0]; mkans 500 0 [10752]] [] [1])). vm_compute. reflexivity.
  - apply (perform_show _ _ kernel90 (Z.to_nat 400) (mkos 3 [500; 501] [mkans 501 0 [0]; mkans 500 0 [10752]] [(11, [[3; 0; 0; 0; 0; 0; 0; 0]; bs "PEM"])] [1])). vm_compute. reflexivity.
Qed.
Lemma plausible_dec : forall tr, plausibleb tr = true -> plausible tr.
Proof.
  intros tr H. unfold plausibleb in H. rewrite forallb_forall in H. split.
  - intros n a IN. specialize (H _ IN). cbn beta iota in H. unfold same in H at 1. destruct (list_eq_dec _ _ _); [|congruence]. cbn [negb orb] in H. apply andb_prop in H as [H1 H2]. split; [lia|].
    rewrite forallb_forall in H2. apply Forall_forall. intros b B. specialize (H2 _ B). lia.
  - intros pem a IN _. specialize (H _ IN). cbn beta iota in H. unfold same in H at 1. destruct (list_eq_dec _ _ _); [|congruence]. cbn [negb orb] in H. lia.
Qed.
(** the object identifiers *)
Example ex_oid : oid [2; 5; 4; 3] = [3; 0x55; 4; 3] /\ oid [1; 2; 840; 113549; 1; 9; 1] = [9; 0x2A; 0x86; 0x48; 0x86; 0xF7; 0x0D; 1; 9; 1].
Proof. split; reflexivity. Qed.
