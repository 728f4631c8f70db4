(** C72: the start of the program.  C76: what the wrapper tells its process.  C11: the account of the client
    certificate, over both processes. *)
From Verif.Model Require Import Base Sys Io Str Inet InetIsc Config Parsenum Fdio Relay Session Tlsphase Jail Pem Keyjail Proxy Conninfo Options Main.
From Verif.Spec Require Import Text Num Ip Stream Settings Cmdline Flow Restrict Process Fdtable Endpoints Tlsrelay Program.
From Verif.Proof Require Import Tac SysP CallsP StrP IoP ConfigP OptionsP PlayP PerformP SafeP MainCallsP MainP ChildP DescP ToldP.
From Verif.Props Require Import PropJail PropOptions PropTlsphase PropMain PropDesc.

Lemma fromcert_ok : forall l o, sets l o -> match certuser o with Some _ => true | None => false end = fromcert l.
Proof. intros l o S. pose proof (s_certuser _ _ S) as H. unfold maybe in H. unfold fromcert. destruct (last_arg 85 l), (certuser o); auto; contradiction. Qed.
Lemma proxied_ok : forall l o, sets l o -> ppin o = proxied l.
Proof. intros l o S. pose proof (s_proxy _ _ S) as H. unfold proxied. destruct (in_dec _ _ _) as [I|I]; [apply H; exact I|]. destruct (ppin o); [destruct I; apply H; reflexivity|reflexivity]. Qed.

Section Main.
Variable I : inet.
Variable stream : list Z -> list Z -> nat -> Z.
Variable fuel : nat.
Variables junk portbuf line0 key0 : list Z.
Variable env : environment.
Variable nojail : bool.
Notation main := (main_tlswrapper I stream fuel junk portbuf line0 key0 env nojail).
Hypothesis OK : inet_ok I.
Hypothesis JUNK : length junk = 256%nat.
Hypothesis PORT : length portbuf = 6%nat.

(** ** C72 *)
Lemma program_start : forall name words argv tr v, Forall2 points words argv -> runs (main (name :: argv)) tr (Fin (Exec v)) -> legal tr -> pids tr ->
  exists t0 t1 t2 f t3 t4 l prg th hh i r d1 d2, tr = (t0 ++ t1 ++ t2 ++ [f] ++ t3) ++ t4 /\ accepted words l prg th hh t1 /\ v = prg /\
    Forall (fun e => local (fst e)) (t0 ++ t1 ++ t2 ++ t3) /\ calling (bs "fork") f = true /\ ret (snd f) = 0 /\
    handed_over I (fromcert l) (last_arg 117 l) prg t4 i r d1 d2.
Proof.
  intros name words argv tr v F R L P.
  destruct (main_parts _ _ _ _ _ _ _ _ _ _ _ _ R) as [(_ & E & _)|(t0 & t1 & t2 & -> & _ & L0 & C)]; [destruct (E _ eq_refl); discriminate|].
  destruct C as [(_ & _ & E)|[(cmd & R1 & R2)|[(_ & _ & E)|(_ & _ & E)]]]; try discriminate.
  pose proof (command_local _ _ _ R1) as L1. destruct (C64_exact _ _ _ _ _ F R1) as (_ & X & _). destruct (X cmd eq_refl) as (l & prg & A & PR). pose proof (C64_settings _ _ _ _ _ _ _ _ _ F R1 A) as S.
  apply start_exec in R2 as (u1 & a & p & u2 & -> & LU & Z & R2). apply child_leads in R2 as (u3 & u4 & -> & L3 & R3).
  apply legal_app in L as [_ L]. apply legal_app in L as [_ L]. apply legal_app in L as [_ L]. apply Forall_inv_tail in L. apply legal_app in L as [_ L].
  assert (P4 : pids u4) by (intros x IN; apply P; repeat (apply in_or_app; right); right; apply in_or_app; right; exact IN).
  destruct (child_exec I stream fuel junk portbuf key0 _ _ _ _ _ _ _ R3 L P4 OK JUNK PORT (s_user _ _ S) PR) as (-> & i & r & d1 & d2 & H).
  rewrite (fromcert_ok _ _ S) in H.
  exists t0, t1, u1, (Other (bs "fork") [] [], a), u3, u4, l, prg, (timeout cmd), (hstimeout cmd), i, r, d1, d2.
  split; [rewrite <- !app_assoc; cbn [app]; reflexivity|]. split; [exact A|]. split; [reflexivity|]. split; [repeat (apply Forall_app; split; auto)|]. split; [reflexivity|]. split; [exact Z|exact H].
Qed.
Lemma local_forks : forall t, Forall (fun e => local (fst e)) t -> forks t = [].
Proof. intros t F. exact (proj1 (local_live [] [] t live_nil F)). Qed.
Lemma local_transfers : forall (t : trace), Forall (fun e => local (fst e)) t -> Forall (fun e => ~ transfers e) t.
Proof. intros t F. eapply Forall_impl; [|exact F]. intros e [_ S] X. unfold transfers in X. unfold still in S. destruct (fst e); contradiction. Qed.
Theorem C72_start : forall name words argv tr v, Forall2 points words argv -> runs (main (name :: argv)) tr (Fin (Exec v)) -> legal tr -> pids tr ->
  exists t0 t1 t2 t3 l prg th hh i r d1 d2, tr = t0 ++ t1 ++ t2 ++ t3 /\ accepted words l prg th hh t1 /\ v = prg /\
    forks (t0 ++ t1 ++ t2) = [0] /\ Forall (fun e => ~ transfers e) (t0 ++ t1 ++ t2) /\ handed_over I (fromcert l) (last_arg 117 l) prg t3 i r d1 d2.
Proof.
  intros name words argv tr v F R L P.
  destruct (program_start _ _ _ _ _ F R L P) as (t0 & t1 & t2 & f & t3 & t4 & l & prg & th & hh & i & r & d1 & d2 & -> & A & V & LO & FO & Z & H).
  exists t0, t1, (t2 ++ [f] ++ t3), t4, l, prg, th, hh, i, r, d1, d2. split; [rewrite <- !app_assoc; reflexivity|]. split; [exact A|]. split; [exact V|].
  apply Forall_app in LO as [LO0 LO]. apply Forall_app in LO as [LO1 LO]. apply Forall_app in LO as [LO2 LO3].
  split; [|split; [|exact H]].
  - rewrite !forks_app, (local_forks _ LO0), (local_forks _ LO1), (local_forks _ LO2), (local_forks _ LO3). unfold forks. cbn [filter]. rewrite FO. cbn [map app]. rewrite Z. reflexivity.
  - repeat (apply Forall_app; split; auto using local_transfers). constructor; [|constructor]. intros X. unfold transfers in X. unfold calling in FO. destruct (fst f); try contradiction; discriminate.
Qed.

(** ** C76 *)
Variable T : table.
Variables P R : list Z.
Hypothesis ENV : Endpoints.strings env.
Hypothesis START : start_table T.
Theorem C76_told : forall name words argv tr out, Forall2 points words argv -> runs (main (name :: argv)) tr out -> original tr ->
  legal tr -> kernel_fds T tr -> always (engine_ok P R) tr ->
  written T (WriteEnd 1) tr = [] \/
  exists t0 t1 t2 l prg th hh i rest, tr = t0 ++ t1 ++ t2 /\ accepted words l prg th hh t1 /\
    is_prefix (written T (WriteEnd 1) tr) (frames i ++ rest) /\ sized i /\ observed I env (proxied l) tr i /\
    (delay l = false -> rest = frame (account (fromcert l) tr) ++ P /\ (len (frames i) < len (written T (WriteEnd 1) tr) -> certified (fromcert l) false tr)) /\
    (delay l = true -> exists more, rest = frame [0] ++ more).
Proof.
  intros name words argv tr out F RU O L KF EN.
  destruct (main_parts _ _ _ _ _ _ _ _ _ _ _ _ RU) as [(_ & E & LO)|(t0 & t1 & t2 & TR & PR & L0 & C)].
  - left. apply flow_nothing. intros a e b E2. rewrite Forall_forall in LO. destruct (LO e) as [_ S]; [rewrite E2; apply in_or_app; right; left; reflexivity|]. unfold put. destruct (fst e); try reflexivity. destruct S.
  - assert (N0 : forall av o, runs (command_line av) t1 o -> now T [] T 0 (t0 ++ t1)).
    { intros av o R1. apply now_prefix. apply Forall_app. split; [|exact (command_calmer _ _ _ R1)].
      clear - PR. assert (Y : Forall calmer (map fst t0)) by (rewrite PR; repeat constructor; here). rewrite Forall_map in Y. exact Y. }
    destruct C as [(R1 & E & _)|[(cmd & R1 & R2)|[(R1 & E & _)|(R1 & E & _)]]];
      try (left; rewrite TR, E, app_nil_r; apply written_calm; exact (n_calm _ _ _ _ _ (N0 _ _ R1))).
    specialize (N0 _ _ R1). destruct (C64_exact _ _ _ _ _ F R1) as (_ & X & _). destruct (X cmd eq_refl) as (l & prg & A & _). pose proof (C64_settings _ _ _ _ _ _ _ _ _ F R1 A) as S.
    assert (HA : holds (answers T P R) [] ((t0 ++ t1) ++ t2)).
    { rewrite <- app_assoc, <- TR. intros a e b E. cbn [app]. split; [eapply KF; exact E|]. split; [|eapply EN; exact E]. unfold legal in L. rewrite Forall_forall in L. apply L. rewrite E. apply in_or_app. right. left. reflexivity. }
    apply holds_app in HA as [_ HA]. destruct (start_telling I stream fuel junk portbuf line0 key0 env nojail T P R OK ENV START cmd (t0 ++ t1) N0 t2 out R2 HA) as [HO _].
    assert (AL : always (telling I env T P cmd) tr).
    { apply (proj1 (holds_always _ _)). rewrite TR, app_assoc. apply (proj2 (holds_app _ [] _ _)). split; [|exact HO].
      intros a e b E. left. pose proof (n_calm _ _ _ _ _ N0) as Y. rewrite Forall_forall in Y. apply Y. rewrite E. apply in_or_app. right. left. reflexivity. }
    destruct (telling_all I env T P cmd tr AL O) as (i & rest & H1 & H2 & [H3 H4] & H5 & H6).
    destruct (written T (WriteEnd 1) tr) as [|w ws] eqn:EW; [left; reflexivity|right].
    exists t0, t1, t2, l, prg, (timeout cmd), (hstimeout cmd), i, rest. split; [exact TR|]. split; [exact A|]. split; [exact H1|]. split; [exact H6|].
    unfold beyond in H5. unfold delay. rewrite (s_delay _ _ S), ?(fromcert_ok _ _ S) in *. rewrite (proxied_ok _ _ S) in H2. split; [apply H2; discriminate|].
    split; [|exact H4]. intros D. split; [rewrite (H3 D); reflexivity|exact (H5 D)].
Qed.

(** ** C11 *)
(** what the program's process reads *)
Definition other (c : sys) : Prop := match c with Other n _ _ => n <> bs "fork" | _ => False end.
Lemma other_got : forall fd t, Forall (fun e => other (fst e)) t -> got fd t = [].
Proof. intros fd t F. induction F as [|[c a] t S F IH]; [reflexivity|]. destruct c; cbn [got fst other] in *; auto; contradiction. Qed.
Lemma capped_other : forall r m t, capped r m t -> Forall (fun e => other (fst e)) t.
Proof. intros r m t C. inversion C; subst; repeat constructor; discriminate. Qed.
Lemma lowered_other : forall u t, lowered u t -> Forall (fun e => other (fst e)) t.
Proof.
  intros u t (e & uid & gid & steps & t1 & t2 & -> & ID & S & C1 & C2). constructor; [inversion ID; discriminate|].
  apply Forall_app. split; [|apply Forall_app; split; eapply capped_other; eauto].
  assert (ST : Forall (fun s => other (fst s)) (restrictions true None false uid gid)) by (repeat constructor; discriminate).
  clear - S ST. induction S as [|x y l l' D _ IH]; [constructor|]. constructor; [|apply IH; exact (Forall_inv_tail ST)]. destruct D as [D _]. rewrite D. exact (Forall_inv ST).
Qed.
Lemma stored_other : forall v t, stored v t -> Forall (fun e => other (fst e)) t.
Proof. intros v t S. induction S as [|x y l l' D _ IH]; [constructor|]. constructor; auto. rewrite D. discriminate. Qed.
Lemma handed_reads : forall uc us prg t i r d1 d2, handed_over I uc us prg t i r d1 d2 ->
  Forall (fun e => match fst e with Read fd _ => fd = 0 | _ => True end) t /\ got 0 t = frames i ++ frame r /\ forks t = [].
Proof.
  intros uc us prg t i r d1 d2 H. destruct (ho_trace _ _ _ _ _ _ _ _ _ H) as (ti & te & tr & sg & a & -> & _ & RI & GI & (x1 & x2 & x3 & x4 & _ & _ & _ & _ & TE) & RR & GR & SG).
  apply stored_other in TE.
  assert (D1 : Forall (fun e => other (fst e)) d1) by (destruct (ho_cert _ _ _ _ _ _ _ _ _ H) as [(_ & _ & D)|(_ & ->)]; [eapply lowered_other; eauto|constructor]).
  assert (D2 : Forall (fun e => other (fst e)) d2) by (pose proof (ho_user _ _ _ _ _ _ _ _ _ H) as D; destruct us; [eapply lowered_other; eauto|subst; constructor]).
  assert (DS : Forall (fun e => other (fst e)) (sg ++ [(Other (bs "execvp") [] (hd [] prg), a)])).
  { apply Forall_app. split; [|repeat constructor; discriminate]. assert (Y : Forall other (map fst sg)) by (rewrite SG; repeat constructor; discriminate). rewrite Forall_map in Y. exact Y. }
  set (tl := sg ++ _) in *. clearbody tl. clear H SG sg.
  assert (W : forall u : trace, Forall (fun e => other (fst e)) u -> Forall (fun e => match fst e with Read fd _ => fd = 0 | _ => True end) u).
  { intros u. apply Forall_impl. intros [[] y] O; cbn in *; auto; contradiction. }
  assert (W2 : forall u, reading 0 u -> Forall (fun e => match fst e with Read fd _ => fd = 0 | _ => True end) u).
  { intros u. apply Forall_impl. intros e (n & ->). reflexivity. }
  split; [repeat (apply Forall_app; split; [auto|]); apply W; exact DS|].
  assert (NF : forall u : trace, Forall (fun e => other (fst e) \/ exists n, fst e = Read 0 n) u -> forks u = []).
  { intros u FU. induction FU as [|e u S _ IH]; [reflexivity|]. unfold forks in *. cbn [filter]. assert (E : calling (bs "fork") e = false); [|rewrite E; exact IH].
    unfold calling. destruct S as [S|(n & S)]; [|rewrite S; reflexivity]. destruct (fst e); try contradiction. cbn in S. destruct (list_eq_dec _ _ _); [contradiction|reflexivity]. }
  split; [|apply NF; assert (Y1 : forall u : trace, Forall (fun e => other (fst e)) u -> Forall (fun e => other (fst e) \/ exists n, fst e = Read 0 n) u) by (intros u; apply Forall_impl; auto);
    assert (Y2 : forall u, reading 0 u -> Forall (fun e => other (fst e) \/ exists n, fst e = Read 0 n) u) by (intros u; apply Forall_impl; auto);
    repeat (apply Forall_app; split; [auto|]); apply Y1; exact DS].
  rewrite !got_app, GI, GR, (other_got 0 _ TE), (other_got 0 _ D1), (other_got 0 _ D2), (other_got 0 _ DS). cbn [app]. unfold frames. rewrite app_nil_r. reflexivity.
Qed.
Lemma taken_got : forall tr, always (fun t e => match fst e with Read fd _ => fd = 0 /\ is_object (ReadEnd 1) (tab (descriptors T t) 0) = true | _ => True end) tr -> taken T (ReadEnd 1) tr = got 0 tr.
Proof.
  intros tr. induction tr as [|e tr IH] using rev_ind; intros A; [reflexivity|]. unfold taken in *. rewrite flow_snoc, got_app, IH by (eapply always_app1; eauto). f_equal.
  specialize (A tr e [] eq_refl). destruct e as [c a]. cbn [fst] in A. unfold took. destruct c; cbn [fst snd got]; try reflexivity. destruct A as [-> A]. rewrite A. cbn. rewrite app_nil_r. reflexivity.
Qed.
Lemma program_taken : forall name words argv tr v, Forall2 points words argv -> runs (main (name :: argv)) tr (Fin (Exec v)) -> legal tr -> pids tr -> kernel_fds T tr ->
  exists t0 t1 t2 t3 l prg th hh i r d1 d2, tr = t0 ++ t1 ++ t2 ++ t3 /\ accepted words l prg th hh t1 /\ v = prg /\
    handed_over I (fromcert l) (last_arg 117 l) prg t3 i r d1 d2 /\ taken T (ReadEnd 1) tr = frames i ++ frame r.
Proof.
  intros name words argv tr v F RU L PI KF.
  destruct (C72_start _ _ _ _ _ F RU L PI) as (t0 & t1 & t2 & t3 & l & prg & th & hh & i & r & d1 & d2 & TR & A & V & FK & NT & H).
  exists t0, t1, t2, t3, l, prg, th, hh, i, r, d1, d2. split; [exact TR|]. split; [exact A|]. split; [exact V|]. split; [exact H|].
  destruct (handed_reads _ _ _ _ _ _ _ _ H) as (HR & HG & NF). assert (TR2 : tr = (t0 ++ t1 ++ t2) ++ t3) by (rewrite TR, <- !app_assoc; reflexivity).
  rewrite taken_got.
  - rewrite TR2, got_app, HG.
    assert (G : forall u : trace, Forall (fun e => ~ transfers e) u -> got 0 u = []).
    { intros u FU. induction FU as [|[c a] u S _ IH]; [reflexivity|]. destruct c; cbn [got]; auto. destruct S. exact Logic.I. }
    rewrite (G _ NT). reflexivity.
  - intros a e b E. destruct (fst e) as [fd n| | | | | | | |] eqn:EF; auto.
    assert (IN : In e t3).
    { assert (X : In e tr) by (rewrite E; apply in_or_app; right; left; reflexivity). rewrite TR2 in X. apply in_app_or in X as [X|X]; [|exact X]. rewrite Forall_forall in NT. destruct (NT e X). unfold transfers. rewrite EF. exact Logic.I. }
    split; [rewrite Forall_forall in HR; specialize (HR e IN); rewrite EF in HR; exact HR|].
    destruct (main_fds _ _ _ _ _ _ _ _ _ _ _ _ _ _ _ F RU START KF) as [(X & _)|(u0 & u1 & u2 & l' & prg' & th' & hh' & _ & _ & OR & _)]; [destruct (X v); reflexivity|].
    assert (TF : transfers e) by (unfold transfers; rewrite EF; exact Logic.I).
    assert (FT : (length (forks a) <= 1)%nat).
    { assert (X : length (forks tr) = 1%nat) by (rewrite TR2, forks_app, FK, NF; reflexivity). rewrite E, forks_app, app_length in X. lia. }
    destruct (OR a e b E TF) as [(_ & PF)|[(c & _ & FA & _)|(c & k & _ & _ & FA & _)]]; [|rewrite FA in FT; cbn in FT; lia..].
    assert (Y : tab (descriptors T a) 0 = Some (ReadEnd 1, false)) by (apply PF; auto). rewrite Y. reflexivity.
Qed.

(** the four frames determine the information *)
Lemma frames_same : forall i j x y, sized i -> sized j -> frames i ++ x = frames j ++ y -> i = j /\ x = y.
Proof.
  intros [a b c d] [a' b' c' d'] x y (A & B & C & D) (A' & B' & C' & D') E. unfold frames in E. cbn [localip localport remoteip remoteport] in *. rewrite <- !app_assoc in E.
  assert (S : forall (l : list Z) n, length l = n -> (n <= 16)%nat -> len l < two64) by (intros l n H1 H2; unfold len, two64; rewrite H1; lia).
  repeat (apply frame_prefix in E as [-> E]; [|eapply S; [eassumption|lia]..]). auto.
Qed.
Lemma before_in : forall c x l, In x (before c l) -> In x l.
Proof. intros c x l. induction l as [|y l IH]; cbn [before]; [auto|]. destruct (y =? c); [intros []|]. intros [->|H]; [left; reflexivity|right; auto]. Qed.
Lemma before_short : forall c l, (length (before c l) <= length l)%nat.
Proof. intros c l. induction l as [|y l IH]; cbn [before]; [lia|]. destruct (y =? c); cbn [length]; lia. Qed.
Lemma before_none : forall c l, ~ In c l -> before c l = l.
Proof. intros c l. induction l as [|y l IH]; cbn [before In]; [auto|]. intros H. destruct (Z.eqb_spec y c); [destruct H; auto|]. f_equal. apply IH. tauto. Qed.
Lemma login_account : forall a, account_of (login a ++ [0]) = login a /\ len (login a ++ [0]) <= 256.
Proof.
  intros a. unfold account_of. rewrite removelast_last. split.
  - apply before_none. intros H. unfold login in H. apply before_in in H. revert H. apply before_spec.
  - unfold len, login. rewrite app_length. cbn [length]. set (m := firstn 255 _). assert (length m <= 255)%nat by (unfold m; rewrite firstn_length; lia).
    pose proof (before_short 0 m). pose proof (before_short 64 (before 0 m)). lia.
Qed.
(** Both processes; what the program's process reads from its pipe is what the wrapper wrote there, or less. *)
Theorem C11_account : forall name words argv trw out trc v, Forall2 points words argv ->
  runs (main (name :: argv)) trw out -> original trw -> legal trw -> kernel_fds T trw -> always (engine_ok P R) trw ->
  runs (main (name :: argv)) trc (Fin (Exec v)) -> legal trc -> pids trc -> kernel_fds T trc ->
  is_prefix (taken T (ReadEnd 1) trc) (written T (WriteEnd 1) trw) ->
  exists t0 t1 t2 t3 l prg th hh i r d1 d2, trc = t0 ++ t1 ++ t2 ++ t3 /\ accepted words l prg th hh t1 /\ v = prg /\
    handed_over I (fromcert l) (last_arg 117 l) prg t3 i r d1 d2 /\ observed I env (proxied l) trw i /\
    (fromcert l = false -> r = [0]) /\
    (fromcert l = true -> exists e, find (fun e => namedb (bs "clientcrt") (fst e)) trw = Some e /\ ret (snd e) <> 0 /\ r = login (snd e) ++ [0] /\
      (login (snd e) <> [] -> lowered (login (snd e)) d1) /\ (login (snd e) = [] -> d1 = [])).
Proof.
  intros name words argv trw out trc v F RW O LW KW EN RC LC PC KC PR.
  destruct (program_taken _ _ _ _ _ F RC LC PC KC) as (t0 & t1 & t2 & t3 & l & prg & th & hh & i & r & d1 & d2 & TR & A & V & H & TK).
  exists t0, t1, t2, t3, l, prg, th, hh, i, r, d1, d2. split; [exact TR|]. split; [exact A|]. split; [exact V|]. split; [exact H|].
  rewrite TK in PR. destruct PR as (x & PR).
  assert (FL : forall m, (8 <= length (frame m))%nat) by (intros m; unfold frame; rewrite app_length, le_length; lia).
  destruct (C76_told _ _ _ _ _ F RW O LW KW EN) as [E|(w0 & w1 & w2 & l' & prg' & th' & hh' & j & rest & _ & A' & (y & W) & SJ & OB & D1 & D2)].
  { exfalso. rewrite E in PR. symmetry in PR. apply app_eq_nil in PR as [PR _]. apply app_eq_nil in PR as [_ PR]. specialize (FL r). rewrite PR in FL. cbn in FL. lia. }
  destruct (C64_unique _ _ _ _ _ _ _ _ _ _ _ A A') as (-> & _).
  assert (SI : sized i). { destruct (ho_info _ _ _ _ _ _ _ _ _ H) as (E1 & E2 & E3 & _ & E4 & _). repeat split; auto; [apply E1|apply E2]. }
  rewrite PR, <- !app_assoc in W. destruct (frames_same _ _ _ _ SJ SI W) as [-> W2]. split; [exact OB|].
  destruct (ho_record _ _ _ _ _ _ _ _ _ H) as [_ LR].
  assert (RS : forall m u, rest = frame m ++ u -> len m <= 256 -> r = m).
  { intros m u E LM. rewrite E in W2. apply frame_prefix in W2 as [-> _]; [reflexivity|unfold two64; lia..]. }
  assert (L1 : len [0] <= 256) by (unfold len; cbn; lia).
  split.
  - intros FC. destruct (delay l) eqn:D; [destruct (D2 eq_refl) as (more & E); eapply RS; eauto|]. destruct (D1 eq_refl) as [E _]. rewrite FC in E. cbn [account] in E. eapply RS; eauto.
  - intros FC. assert (D : delay l = false). { apply (a_delay _ _ _ _ _ _ A). unfold fromcert, last_arg in FC. intros X. rewrite X in FC. discriminate. }
    destruct (D1 D) as [E CE]. rewrite FC in *.
    assert (LT : len (frames i) < len (written T (WriteEnd 1) trw)). { rewrite PR, !len_app. specialize (FL r). pose proof (len_nonneg _ x). assert (8 <= len (frame r)) by (unfold len; lia). lia. }
    destruct (CE LT eq_refl eq_refl) as (e & FE & NE). exists e. split; [exact FE|]. split; [exact NE|]. unfold account in E. rewrite FE in E.
    destruct (login_account (snd e)) as [LA LL]. assert (RE : r = login (snd e) ++ [0]) by (eapply RS; eauto). split; [exact RE|].
    pose proof (ho_cert _ _ _ _ _ _ _ _ _ H) as HC. rewrite RE, LA in HC. split.
    + intros NN. destruct HC as [(_ & _ & HC)|([X|X] & _)]; [exact HC|discriminate|]. exfalso. rewrite len_app in X. destruct (login (snd e)) as [|c s]; [contradiction|]. unfold len in X. cbn [length] in X. lia.
    + intros EE. destruct HC as [(_ & X & _)|(_ & ->)]; [|reflexivity]. exfalso. rewrite EE in X. unfold len in X. cbn in X. lia.
Qed.
End Main.
Print Assumptions C72_start.
Print Assumptions C76_told.
Print Assumptions C11_account.

(** ** Examples *)
(** a system with an account database and an engine that has a client certificate with this name *)
Definition kernel4 (name : list Z) (s : os3) (c : sys) : ans * os3 :=
  let '(a, r) := kernel3 s c in
  (match c with
   | Other n _ d =>
     if same n (bs "getpwnam") then mkans 1 0 [id77; id77]
     else if same n (bs "stat") then if same d (bs "ca.pem") then mkans 0 0 [32768] else a
     else if same n (bs "tls_pubcrt_parse") then ok 1
     else if same n (bs "clientcrt") then mkans 1 0 name
     else a
   | Alloc _ => ok 1
   | _ => a end, r).
Definition certwords : list (list Z) := [bs "-U"; bs "commonName"; bs "-a"; bs "ca.pem"; bs "-d"; bs "certs"; bs "prog"].
Definition zeros4 : info := mkinfo (repeat 0 16) (repeat 0 2) (repeat 0 16) (repeat 0 2).
Definition pieces (ms : list (list Z)) : list (list Z) := concat (map (fun m => [firstn 8 (frame0 m); m]) ms).
Definition record4 (name : list Z) : list (list Z) := [localip zeros4; localport zeros4; remoteip zeros4; remoteport zeros4; name ++ [0]].
Definition start4 (forks : list Z) (net : list (Z * list (list Z))) : os3 := mkos3 (mkfds T3 0) (mkos 3 forks [mkans 501 0 [0]; mkans 500 0 [0]] net [12; 1]).
Definition agree (T : table) (name : list Z) (x : list Z) (t : trace) : bool :=
  answersb (mkfds T 0) t && same x (concat (map frame0 (record4 name))).
Definition wrapper_side (name : list Z) (tr : trace) (o : outcome ending) : bool :=
  agree T3 name (written T3 (WriteEnd 1) tr) tr && same (forks tr) [500; 501] && always_b (engine_b [] []) [] tr.
Definition program_side (name : list Z) (tr : trace) (o : outcome ending) : bool :=
  match o with Fin (Exec _) => agree T3 name (taken T3 (ReadEnd 1) tr) tr && forallb (fun e => match e with (Other n [] [], a) => negb (same n (bs "getpid")) || (0 <=? ret a) | _ => true end) tr | _ => false end.
(** both processes of one connection *)
Definition pair_of (words : list (list Z)) (trw trc : trace) (v : list (list Z)) : Prop :=
  Forall2 points words (vec words) /\
  (exists out, runs (wrapper false words) trw out) /\ original trw /\ legal trw /\ kernel_fds T3 trw /\ always (engine_ok [] []) trw /\
  runs (wrapper false words) trc (Fin (Exec v)) /\ legal trc /\ pids trc /\ kernel_fds T3 trc /\
  is_prefix (taken T3 (ReadEnd 1) trc) (written T3 (WriteEnd 1) trw).
Lemma pair_show : forall (who : os3 -> sys -> ans * os3) s1 s2 name words, Forall2 points words (vec words) ->
  (let '(tr, o) := perform who (Z.to_nat 400) s1 (wrapper false words) in forallb sys_okb tr && wrapper_side name tr o) = true ->
  (let '(tr, o) := perform who (Z.to_nat 400) s2 (wrapper false words) in forallb sys_okb tr && program_side name tr o) = true ->
  exists trw trc v, pair_of words trw trc v /\ trw = fst (perform who (Z.to_nat 400) s1 (wrapper false words)) /\ trc = fst (perform who (Z.to_nat 400) s2 (wrapper false words)).
Proof.
  intros who s1 s2 name words F H1 H2. pose proof (perform_runs _ _ who (Z.to_nat 400) s1 (wrapper false words)) as R1. pose proof (perform_runs _ _ who (Z.to_nat 400) s2 (wrapper false words)) as R2.
  destruct (perform who (Z.to_nat 400) s1 (wrapper false words)) as [trw ow]. destruct (perform who (Z.to_nat 400) s2 (wrapper false words)) as [trc oc]. cbn [fst snd] in *.
  apply andb_prop in H1 as [L1 H1]. apply andb_prop in H2 as [L2 H2]. apply legal_dec in L1, L2. unfold wrapper_side, agree in H1. unfold program_side, agree in H2. destruct oc as [[c|v]| |]; try discriminate.
  apply andb_prop in H1 as [H1 E1]. apply andb_prop in H1 as [H1 F1]. apply andb_prop in H1 as [K1 W1]. apply andb_prop in H2 as [H2 G2]. apply andb_prop in H2 as [K2 W2]. apply same_true in W1, W2, F1.
  exists trw, trc, v. split; [|split; reflexivity]. split; [exact F|]. split; [eauto|]. split; [unfold original; rewrite F1; cbn; intuition discriminate|]. split; [exact L1|]. split; [apply answersb_ok; exact K1|].
  split; [intros t1 e t2 E; apply (always_b_ok _ _ (engine_b_ok _ _) trw [] E1 t1 e t2 E)|]. split; [exact R2|]. split; [exact L2|]. split; [|split; [apply answersb_ok; exact K2|exists []; rewrite W1, W2, app_nil_r; reflexivity]].
  intros a IN. rewrite forallb_forall in G2. specialize (G2 _ IN). cbn in G2. lia.
Qed.
Lemma certwords_ok : Forall2 points certwords (vec certwords).
Proof. repeat apply Forall2_cons; try apply Forall2_nil; (split; [repeat constructor|exists []; reflexivity]). Qed.
(** The name in the certificate is joe@example.org: the hypotheses of C11 are met. *)
Example ex_account : exists trw trc v, pair_of certwords trw trc v /\ In (Other (bs "setuid") [id77] [], ok 0) trc.
Proof.
  destruct (pair_show (kernel4 (bs "joe@example.org")) (start4 [500; 501] [(3, pieces [bs "PEM"])]) (start4 [0] [(0, pieces (record4 (bs "joe")))]) (bs "joe") certwords certwords_ok) as (trw & trc & v & H & E1 & E2);
    [vm_compute; reflexivity..|]. exists trw, trc, v. split; [exact H|]. rewrite E2. vm_compute. tauto.
Qed.
(** It is @example.org: the program runs although no user id was ever set. *)
Theorem C11_privileges_refuted : exists trw trc v, pair_of certwords trw trc v /\
  (exists e, find (fun e => namedb (bs "clientcrt") (fst e)) trw = Some e /\ ret (snd e) <> 0) /\
  forall e a d, In e trc -> fst e <> Other (bs "setuid") a d.
Proof.
  destruct (pair_show (kernel4 (bs "@example.org")) (start4 [500; 501] [(3, pieces [bs "PEM"])]) (start4 [0] [(0, pieces (record4 []))]) [] certwords certwords_ok) as (trw & trc & v & H & E1 & E2);
    [vm_compute; reflexivity..|]. exists trw, trc, v. split; [exact H|]. split.
  - assert (Y : (match find (fun e => namedb (bs "clientcrt") (fst e)) trw with Some e => negb (ret (snd e) =? 0) | None => false end) = true) by (rewrite E1; vm_compute; reflexivity).
    match type of Y with context [find ?f ?t] => destruct (find f t) as [e|] end; [|discriminate]. exists e. split; [reflexivity|]. intros X. rewrite X in Y. discriminate.
  - intros e a d IN X. assert (Y : forallb (fun e => match fst e with Other n _ _ => negb (same n (bs "setuid")) | _ => true end) trc = true).
    { rewrite E2. vm_compute. reflexivity. }
    rewrite forallb_forall in Y. specialize (Y _ IN). rewrite X in Y. discriminate.
Qed.
Print Assumptions C11_privileges_refuted.
