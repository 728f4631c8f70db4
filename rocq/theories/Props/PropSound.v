(** C96: tlswrapper as a whole is free of undefined behaviour, with two exceptions. *)
From Verif.Model Require Import Base Sys Io Framed Str Inet InetIsc Config Parsenum Fdio Relay Session Tlsphase Jail Pem Scalar Keyjail Proxy Conninfo Options Profile Main.
From Verif.Spec Require Import Num Ip Text Stream Flow Restrict Settings Starttls Tlsrelay Proxy Endpoints Cmdline Process Program Fdtable Sound.
From Verif.Proof Require Import Tac SysP PlayP CallsP StrP FrameP IoP IpP ProxyP FdioP KeyjailP ConfigP OptionsP ProfileP SafeP MainCallsP MainP ChildP DescP WpP CurP ToldP SoundP SoundMainP PerformP.
From Verif.Props Require Import PropConninfo PropOptions PropJail PropKeyjail PropProfile PropTcpmain PropMain PropDesc.

(** an argument is no longer than the words of the line *)
Lemma group_bounded : forall n t ws l ws', group t ws l ws' -> len t < n -> Forall (fun w => len w < n) ws ->
  (forall c a, In (Opt c a) l -> len a < n) /\ Forall (fun w => len w < n) ws'.
Proof.
  intros n t ws l ws' G. induction G; intros LT F.
  - split; [intros c a []|exact F].
  - rewrite len_cons in LT. destruct IHG as [IH1 IH2]; [lia|exact F|]. split; [|exact IH2]. intros d a [X|X]; [discriminate X|eauto].
  - rewrite len_cons in LT. split; [|exact F]. intros d a [X|[]]. injection X as _ <-. lia.
  - apply Forall_cons_iff in F as [F1 F2]. split; [|exact F2]. intros d a [X|[]]. injection X as _ <-. exact F1.
Qed.
Lemma line_bounded : forall n ws l prg, line ws l prg -> Forall (fun w => len w < n) ws -> forall c a, In (Opt c a) l -> len a < n.
Proof.
  intros n ws l prg L. induction L; intros F c a IN; try destruct IN.
  apply Forall_cons_iff in F as [F1 F2]. rewrite len_cons in F1. destruct (group_bounded n _ _ _ _ H1) as [A B]; [lia|exact F2|]. apply in_app_or in IN as [IN|IN]; [eauto|eapply IHL; eauto].
Qed.
Lemma args_in : forall c l a, In a (args c l) -> In (Opt c a) l.
Proof. intros c l a IN. unfold args in IN. apply in_flat_map in IN as ([d|d x] & I & H); [destruct H|]. destruct (Z.eqb_spec d c); [|destruct H]. subst d. destruct H as [->|[]]. exact I. Qed.

Lemma forks_app : forall a b, forks (a ++ b) = forks a ++ forks b.
Proof. intros a b. unfold forks. rewrite filter_app. apply map_app. Qed.

Section Sound.
Variable I : inet.
Hypothesis OK : inet_ok I.
Variable stream : list Z -> list Z -> nat -> Z.
Variable fuel : nat.
Variables junk portbuf line0 key0 : list Z.
Hypothesis JUNK : length junk = 256%nat.
Hypothesis PORT : length portbuf = 6%nat.
Hypothesis LINE : length line0 = 65%nat.
Variable env : environment.
Hypothesis ENV : Endpoints.strings env.
Variable nojail : bool.
Variable T : table.
Notation main := (main_tlswrapper I stream fuel junk portbuf line0 key0 env nojail).

(** what is asked of the system's answers *)
Definition system (t : trace) (e : event) : Prop := fd_answer (descriptors T t) e /\ sys_ok e /\ env_ok e /\ (forall a, e = (Other (bs "getpid") [] [], a) -> 0 <= ret a).
Lemma system_parts : forall h tr, holds system h tr -> legal tr /\ Forall env_ok tr /\ pids tr.
Proof.
  intros h tr H.
  assert (X : forall e, In e tr -> sys_ok e /\ env_ok e /\ (forall a, e = (Other (bs "getpid") [] [], a) -> 0 <= ret a)) by (intros e IN; apply in_split in IN as (a & b & ->); apply (H a e b eq_refl)).
  split; [apply Forall_forall; intros e IN; apply (X e IN)|]. split; [apply Forall_forall; intros e IN; apply (X e IN)|]. intros a IN. apply (X _ IN). reflexivity.
Qed.
Lemma start_sound : forall words l prg th hh u cmd h, accepted words l prg th hh u -> sets l (settings cmd) -> Forall2 points prg (program cmd) -> Forall (fun w => len w < 2 ^ 62) words ->
  start_table T -> now T [] T 0 h -> sw (excepted T l) system h (start_child I stream fuel junk portbuf line0 key0 env nojail cmd).
Proof.
  intros words l prg th hh u cmd h A S PG BD ST N.
  assert (HA : forall t e, system t e -> fd_answer (descriptors T t) e) by (intros t e H; apply H).
  apply sw_start with (T0 := T); auto.
  - intros p a h' _ _ _ tr o RU HS E. exfalso. destruct (system_parts _ _ HS) as (L & _ & D). revert E. eapply child_safe; eauto. apply (s_user _ _ S).
  - intros p a h' NZ F N'. apply sw_parent with (T0 := T); auto.
    + intros U h2 N2 KT tr o RU HS E. destruct (system_parts _ _ HS) as (L & EO & _).
      assert (CH : Forall (fun e => calm (fst e)) h2) by apply N2.
      rewrite (cstr_opt_maybe _ _ (s_account _ _ S)), (cstr_points _ _ (s_dir _ _ S)) in RU.
      assert (STEP : forall B (q : prog B) (f : B -> prog ending) t, total q -> calls calmer q -> runs (pbind q f) t Wrong -> exists t1 t2 x, t = t1 ++ t2 /\ Forall (fun e => calmer (fst e)) t1 /\ runs (f x) t2 Wrong).
      { intros B q f t TQ CQ R. apply runs_bind in R as [(x & t1 & t2 & -> & R1 & R2)|[[R1 _]|[_ X]]]; [|destruct (TQ _ _ R1 eq_refl)|discriminate]. exists t1, t2, x. split; auto. split; auto. exact (CQ _ _ R1). }
      subst o.
      apply STEP in RU as (t1 & t2 & ? & -> & Q1 & RU); [|apply blocking_total|apply blocking_calmer].
      apply STEP in RU as (t3 & t4 & ? & -> & Q2 & RU); [|apply blocking_total|apply blocking_calmer].
      apply STEP in RU as (t5 & t6 & ? & -> & Q3 & RU); [|apply signal_total|apply signal_calmer].
      apply STEP in RU as (t7 & t8 & ? & -> & Q4 & RU); [|apply signal_total|apply signal_calmer].
      apply STEP in RU as (t9 & t0 & ? & -> & Q5 & RU); [|apply signal_total|apply signal_calmer]. cbn [lift pbind] in RU.
      apply runs_bind in RU as [(y & w1 & w2 & -> & _ & [_ X])|[[RU _]|[_ X]]]; try discriminate X.
      repeat (apply legal_app in L as [_ L]; apply Forall_app in EO as [_ EO]).
      destruct (C69_only_label _ _ _ _ _ _ _ LINE _ L EO RU) as (ms & ty & label & n & seed & TY & NL & G).
      assert (G0 : forall t, Forall (fun e => calmer (fst e)) t -> got 0 t = []) by (intros t Q; apply calm_got; eapply Forall_impl; [|exact Q]; intros e C; apply C).
      eapply (unterminated_label _ _ _ h2 (t1 ++ t3 ++ t5 ++ t7 ++ t9 ++ t0)); [reflexivity| | |exact TY|exact NL].
      * exists (ret a). split; [exact NZ|apply N2].
      * rewrite !got_app, (calm_got _ _ CH), (G0 t1), (G0 t3), (G0 t5), (G0 t7), (G0 t9) by assumption. exact G.
    + intros U key fk tk self h2 NK N2 SV tr o RU HS E. destruct (system_parts _ _ HS) as (L & _ & D).
      assert (CH : Forall (fun e => calm (fst e)) h2) by apply N2.
      pose proof (v_range _ _ _ _ _ _ SV) as V4. pose proof (v_dup _ _ _ _ _ _ SV) as V5.
      assert (SET : NoDup [0; 1; toc_w p; fromc_r p; fromctl_r p; toctl_w p; self] /\ Forall (fun f => 0 <= f < 1024) [0; 1; toc_w p; fromc_r p; fromctl_r p; toctl_w p; self]).
      { clear - V4 V5. repeat match goal with H : Forall _ (_ :: _) |- _ => apply Forall_cons_iff in H as [? H] end. repeat match goal with H : NoDup (_ :: _) |- _ => apply NoDup_cons_iff in H as [? H] end.
        cbn [In] in *. split; [repeat (apply NoDup_cons; [cbn [In]; intuition lia|]); apply NoDup_nil|repeat (apply Forall_cons; [lia|]); apply Forall_nil]. }
      assert (OID : exists x, name_oid (certuser (settings cmd)) = Ok x) by (destruct (oid_ok _ _ S (accepted_attributes _ _ _ _ _ _ A)) as (x & X & _); eauto).
      assert (AN : forall x, anchorfn (cfg (settings cmd)) = Some x -> exists w, points w x /\ len w < 2 ^ 62).
      { intros x X. exists (Settings.text x). split; [apply (s_anchor_ends _ _ S); exact X|]. pose proof (s_anchor _ _ S) as Y. rewrite X in Y.
        eapply line_bounded; [apply A|exact BD|]. apply args_in. rewrite Y. left. reflexivity. }
      destruct (jailed_safe I OK fuel junk portbuf JUNK PORT env ENV nojail cmd p (ret a) key fk tk self SET OID _ _ (s_dir _ _ S) (s_account _ _ S) AN) as [BUT NONE].
      apply (negative_length _ _ _ h2 tr fk).
      * intros X. rewrite (s_anchor _ _ S) in X. destruct (anchorfn (cfg (settings cmd))); [discriminate X|]. exact (NONE eq_refl _ _ RU L D E).
      * reflexivity.
      * exists (ret a), key. split; [exact NZ|]. split; [exact NK|]. apply N2.
      * rewrite (n_tab _ _ _ _ _ N2). apply (v_tab _ _ _ _ _ _ SV).
      * rewrite got_app, (calm_got _ _ CH). exact (BUT _ _ RU L D E).
Qed.

(** ** C96 *)
Theorem C96_sound : forall name words argv tr, Forall2 points words argv -> Forall (fun w => len w < 2 ^ 62) words ->
  runs (main (name :: argv)) tr Wrong -> legal tr -> pids tr -> Forall env_ok tr -> start_table T -> kernel_fds T tr ->
  exists t0 t1 t2 l prg th hh, tr = t0 ++ t1 ++ t2 /\ accepted words l prg th hh t1 /\ excepted T l tr.
Proof.
  intros name words argv tr F BD R L D E ST KF. destruct (main_parts _ _ _ _ _ _ _ _ _ _ _ _ R) as [(X & _)|(t0 & t1 & t2 & -> & PR & L0 & C)]; [congruence|].
  destruct C as [(_ & _ & X)|[(cmd & R1 & R2)|[(R1 & _ & _)|(_ & _ & X)]]]; try discriminate X; [|destruct (C64_exact _ _ _ _ _ F R1) as (X & _); congruence].
  destruct (C64_exact _ _ _ _ _ F R1) as (_ & X & _). destruct (X cmd eq_refl) as (l & prg & A & PG). exists t0, t1, t2, l, prg, (timeout cmd), (hstimeout cmd).
  split; [reflexivity|]. split; [exact A|].
  assert (N : now T [] T 0 (t0 ++ t1)).
  { apply now_prefix. apply Forall_app. split; [|exact (command_calmer _ _ _ R1)].
    clear - PR. assert (Y : Forall calmer (map fst t0)) by (rewrite PR; repeat constructor; here). rewrite Forall_map in Y. exact Y. }
  rewrite app_assoc in *.
  assert (HA : holds system [] ((t0 ++ t1) ++ t2)).
  { intros a e b Q. split; [exact (KF a e b Q)|]. assert (IN : In e ((t0 ++ t1) ++ t2)) by (rewrite Q; apply in_or_app; right; left; reflexivity).
    unfold legal in L. rewrite Forall_forall in L, E. split; [apply L; exact IN|]. split; [apply E; exact IN|]. intros x ->. apply D. exact IN. }
  apply holds_app in HA as [_ HA].
  exact (start_sound _ _ _ _ _ _ cmd (t0 ++ t1) A (C64_settings _ _ _ _ _ _ _ _ _ F R1 A) PG BD ST N t2 Wrong R2 HA eq_refl).
Qed.

(** the program's process, and the process with the sockets when no -2^63 arrives as a length or -a is not given *)
Theorem C96_program : forall name words argv tr out, Forall2 points words argv -> Forall (fun w => len w < 2 ^ 62) words ->
  runs (main (name :: argv)) tr out -> legal tr -> pids tr -> Forall env_ok tr -> start_table T -> kernel_fds T tr ->
  (forall c r, forks tr = c :: r -> c = 0) -> out <> Wrong.
Proof.
  intros name words argv tr out F BD R L D E ST KF FK ->. destruct (C96_sound _ _ _ _ F BD R L D E ST KF) as (t0 & t1 & t2 & l & prg & th & hh & _ & _ & X).
  destruct X as [b a ms ty la n se Q (c & NZ & X) _ _ _|b a fd _ Q (c & k & NZ & _ & X) _ _]; rewrite Q, forks_app, X in FK; specialize (FK _ _ eq_refl); congruence.
Qed.
Theorem C96_network : forall name words argv tr out, Forall2 points words argv -> Forall (fun w => len w < 2 ^ 62) words ->
  runs (main (name :: argv)) tr out -> legal tr -> pids tr -> Forall env_ok tr -> start_table T -> kernel_fds T tr ->
  (forall c k r, forks tr = c :: k :: r -> k <> 0) ->
  (forall fd, got fd tr <> le 8 (2 ^ 63)) \/ (forall l prg, line words l prg -> args 97 l = []) -> out <> Wrong.
Proof.
  intros name words argv tr out F BD R L D E ST KF FK C ->. destruct (C96_sound _ _ _ _ F BD R L D E ST KF) as (t0 & t1 & t2 & l & prg & th & hh & _ & A & X).
  destruct X as [b a ms ty la n se Q (c & NZ & X) _ _ _|b a fd AN Q _ _ G].
  - rewrite Q, forks_app, X in FK. exact (FK _ _ _ eq_refl eq_refl).
  - destruct C as [C|C]; [exact (C _ G)|]. apply AN. apply (C l prg). apply A.
Qed.
End Sound.
Print Assumptions C96_sound.
Print Assumptions C96_program.
Print Assumptions C96_network.

(** ** Examples *)
Definition tw (nojail : bool) (words : list (list Z)) : prog ending :=
  main_tlswrapper isc toys (Z.to_nat 200) (repeat 0 (Z.to_nat 256)) (repeat 0 6) (zeros 65) (zeros 32) [] nojail (vec (bs "tlswrapper" :: words)).
Definition good (tr : trace) : bool := pidsb tr && forallb env_okb tr && answersb (mkfds T3 0) tr.
Lemma good_ok : forall tr, good tr = true -> pids tr /\ Forall env_ok tr /\ kernel_fds T3 tr.
Proof. intros tr H. unfold good in H. rewrite !andb_true_iff in H. destruct H as [[A B] C]. split; [apply pidsb_ok; exact A|]. split; [apply env_dec; exact B|apply answersb_ok; exact C]. Qed.
Definition ended (l : list Z) (tr : trace) (o : outcome ending) : bool := good tr && same (forks tr) l && match o with Fin _ => true | _ => false end.
Definition anchorwords : list (list Z) := [bs "-d"; bs "certs"; bs "-a"; bs "ca.pem"; bs "prog"].
Example ex_words : Forall (fun words => Forall2 points words (vec words) /\ Forall (fun w => len w < 2 ^ 62) words) [plainwords; anchorwords].
Proof.
  repeat apply Forall_cons; try apply Forall_nil; (split; [|repeat (apply Forall_cons; [vm_compute; reflexivity|]); apply Forall_nil]);
    repeat apply Forall2_cons; try apply Forall2_nil; (split; [repeat constructor|exists []; reflexivity]).
Qed.

(** each of the three processes, running to its end *)
Example ex_ends : Forall (fun l => exists tr r, runs (tw false plainwords) tr (Fin r) /\ legal tr /\ pids tr /\ Forall env_ok tr /\ start_table T3 /\ kernel_fds T3 tr /\ forks tr = l) [[0]; [500; 0]; [500; 501]].
Proof.
  assert (X : forall l, (exists tr o, runs (tw false plainwords) tr o /\ legal tr /\ ended l tr o = true) ->
    exists tr r, runs (tw false plainwords) tr (Fin r) /\ legal tr /\ pids tr /\ Forall env_ok tr /\ start_table T3 /\ kernel_fds T3 tr /\ forks tr = l).
  { intros l (tr & o & R & L & E). unfold ended in E. rewrite !andb_true_iff in E. destruct E as [[E1 E2] E3]. destruct o as [r| |]; try discriminate. destruct (good_ok _ E1) as (A & B & C).
    exists tr, r. repeat (split; [solve [auto using T3_start]|]). apply same_true. exact E2. }
  repeat apply Forall_cons; try apply Forall_nil; apply X.
  - apply (perform_show _ _ kernel3 (Z.to_nat 400) (mkos3 (mkfds T3 0) (mkos 3 [0] [] [(0, told)] []))). vm_compute. reflexivity.
  - apply (perform_show _ _ kernel3 (Z.to_nat 400) (mkos3 (mkfds T3 0) (mkos 3 [500; 0] [] [] []))). vm_compute. reflexivity.
  - apply (perform_show _ _ kernel3 (Z.to_nat 400) (mkos3 (mkfds T3 0) (mkos 3 [500; 501] [mkans 501 0 [0]; mkans 500 0 [10752]] [] [1]))). vm_compute. reflexivity.
Qed.

Definition bad (l : list Z) (tr : trace) (o : outcome ending) : bool := good tr && same (forks tr) l && match o with Wrong => true | _ => false end.
(** Both exceptions happen.  The key process, asked for a PRF with a label of sixteen x: *)
Definition kernel4 (s : os3 * option (list ans)) (c : sys) : ans * (os3 * option (list ans)) :=
  match snd s with
  | Some (a :: script) => let a := match c with Other n _ _ => if same n (bs "open_read") then fst (kernel3 (fst s) c) else a | _ => a end in (a, (mkos3 (step (used (fst s)) (c, a)) (rest (fst s)), Some script))
  | Some [] => let '(a, r) := kernel3 (fst s) c in (a, (r, Some []))
  | None => match c with
            | Other n _ _ => if same n (bs "getppid") then (mkans 7 0 [], (fst s, Some (skipn 1 (session (repeat 120 16))))) else let '(a, r) := kernel3 (fst s) c in (a, (r, None))
            | _ => let '(a, r) := kernel3 (fst s) c in (a, (r, None))
            end
  end.
Theorem C96_label_refuted : exists tr, runs (tw true plainwords) tr Wrong /\ legal tr /\ pids tr /\ Forall env_ok tr /\ kernel_fds T3 tr /\ forks tr = [500; 0].
Proof.
  destruct (perform_show _ _ kernel4 (Z.to_nat 400) (mkos3 (mkfds T3 0) (mkos 3 [500; 0] [] [] []), None) (tw true plainwords) (bad [500; 0])) as (tr & o & R & L & E); [vm_compute; reflexivity|].
  unfold bad in E. rewrite !andb_true_iff in E. destruct E as [[E1 E2] E3]. destruct o; try discriminate. destruct (good_ok _ E1) as (A & B & C). exists tr. repeat (split; [solve [auto]|]). apply same_true. exact E2.
Qed.
(** the process with the sockets, when the key process answers the name of the anchor file with the length -2^63: *)
Definition kernel5 (s : os3) (c : sys) : ans * os3 :=
  match c with
  | Other n _ d => if same n (bs "stat") && same d (bs "ca.pem") then let '(a, r) := kernel3 s c in (mkans 0 0 [33188], r) else kernel3 s c
  | _ => kernel3 s c
  end.
Theorem C96_length_refuted : exists tr, runs (tw false anchorwords) tr Wrong /\ legal tr /\ pids tr /\ Forall env_ok tr /\ kernel_fds T3 tr /\ forks tr = [500; 501].
Proof.
  destruct (perform_show _ _ kernel5 (Z.to_nat 400) (mkos3 (mkfds T3 0) (mkos 3 [500; 501] [] [(3, [le 8 (2 ^ 63)])] [])) (tw false anchorwords) (bad [500; 501])) as (tr & o & R & L & E); [vm_compute; reflexivity|].
  unfold bad in E. rewrite !andb_true_iff in E. destruct E as [[E1 E2] E3]. destruct o; try discriminate. destruct (good_ok _ E1) as (A & B & C). exists tr. repeat (split; [solve [auto]|]). apply same_true. exact E2.
Qed.
Print Assumptions C96_label_refuted.
Print Assumptions C96_length_refuted.
