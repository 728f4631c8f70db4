(** C59: the reply before TLS. *)
From Verif.Model Require Import Base Sys Io Fdio Relay Session.
From Verif.Spec Require Import Flow Starttls Scan.
From Verif.Proof Require Import Tac SysP PlayP WpP TcpP CurP ClearP.
From Verif.Props Require Import PropClear PropTlsphase.

Lemma in_got : forall f t, got f t <> [] -> exists t1 n a t2, t = t1 ++ (Read f n, a) :: t2 /\ data a <> [].
Proof.
  intros f t. induction t as [|[c a] t IH]; intros N; [destruct N; reflexivity|].
  assert (D : got f t <> [] \/ exists n, c = Read f n /\ data a <> []).
  { destruct (got f t) eqn:G; [|left; discriminate]. right. change ((c, a) :: t) with ([(c, a)] ++ t) in N. rewrite got_app, G, app_nil_r in N.
    destruct c; cbn in N; try (destruct N; reflexivity). destruct (Z.eqb_spec fd f); [|destruct N; reflexivity]. subst. exists n. split; [reflexivity|]. intros E. rewrite E in N. apply N. reflexivity. }
  destruct D as [D|(n & -> & D)]; [|exists [], n, a, t; auto]. destruct (IH D) as (t1 & n & b & t2 & -> & E). exists ((c, a) :: t1), n, b, t2. auto.
Qed.

Section Phase.
Variables timeout finish pi po ci co cc ck self f1 f2 : Z.
Variables m1 m2 : list Z.
Variable fuel : nat.
Hypothesis SETUP : clear_setup pi po ci co cc ck self.
Hypothesis MEM : len m1 = 8192 /\ len m2 = 8192.
Variable tr : trace.
Variable s : sess.
Hypothesis RUN : runs (cleartext timeout finish self fuel (mksess pi po ci co cc ck (mkrbuf m1 f1) (mkrbuf m2 f2))) tr (Fin (1, s)).
Hypothesis LEGAL : legal tr.
Variable T : timing.
Variable reply : list Z.

(** Encryption starts only after the reply has gone out, if waiting looks at the control pipe not after the
    output. *)
Theorem C59_reply_first : side_by_side co cc T tr -> replies T reply -> control_first co cc T -> exists u, sent po tr = reply ++ u.
Proof.
  intros (GO & GC & LK & PA) RP CF.
  pose proof (C58_boundary timeout finish pi po ci co cc ck self f1 f2 m1 m2 fuel SETUP MEM tr _ RUN LEGAL) as BO.
  destruct (C58_flow timeout finish pi po ci co cc ck self f1 f2 m1 m2 fuel SETUP MEM tr _ RUN LEGAL) as [SE SV].
  destruct (C58_tls timeout finish pi po ci co cc ck self f1 f2 m1 m2 fuel SETUP MEM tr _ RUN LEGAL s eq_refl) as [(G & _) _].
  destruct (in_got cc tr) as (t & n & a & t2 & E & D); [rewrite G; discriminate|].
  pose proof (BO _ _ _ E) as (B1 & B2). destruct (B2 eq_refl) as (_ & NP & GS & t0 & m & rd & wr & us & b & -> & RB & IN & REP). clear BO B2.
  pose proof (SV _ _ _ E t0 m rd wr us b eq_refl RB) as (S1 & S2 & _). cbn [fst] in S1, S2. clear SV.
  assert (NC : cc <> co) by (apply (n_cc_co pi po ci co cc ck self); exact SETUP).
  assert (NW : ~ (In po wr /\ In (-1 - po) (data b))) by (intros X; destruct (S1 X); discriminate).
  assert (NR : ~ (In co rd /\ In co (data b))). { intros X. destruct (S2 NW X) as (n' & X'). injection X' as X' _. contradiction. }
  rewrite <- app_assoc in E. cbn [app] in E. pose proof (SE _ _ _ E) as S. unfold clear_select in S. cbn [fst] in S. destruct S as (_ & _ & _ & SC & SK & _ & _ & _ & CLOSE & _). clear SE.
  destruct (proj1 SK IN) as (_ & NP0 & GS0). assert (NCO : ~ closed co t0) by (intros X; apply NP0; apply CLOSE; assumption).
  assert (INC : In co rd). { apply SC. split; [exact NCO|]. exists []. rewrite app_nil_r. split; [exact GS0|]. rewrite len_nil. lia. }
  pose proof (PA _ _ _ E) as P. cbn [pipes_answer fst snd] in P. destruct (P RB) as (P1 & P2). specialize (P1 INC (fun X => NR (conj INC X))).
  assert (B0 : got cc t0 = []). { rewrite got_app in B1. cbn [got] in B1. destruct (got cc t0); [reflexivity|discriminate]. }
  assert (NE : control T (looks T (length t0) cc) <> []).
  { destruct (P2 IN REP) as [X|X]; [rewrite B0 in X; intros W; apply X; symmetry; exact W|]. exfalso. rewrite B0 in X.
    assert (E2 : tr = (t0 ++ [(Select m rd wr us, b)]) ++ (Read cc n, a) :: t2) by (rewrite <- app_assoc; exact E).
    pose proof (PA _ _ _ E2) as Y. cbn [pipes_answer fst snd] in Y. destruct Y as [_ Y]. destruct (Y eq_refl) as (u & Y').
    rewrite X, B1 in Y'; [|apply LK; rewrite app_length; apply Nat.lt_add_pos_r, Nat.lt_0_1]. destruct (data a); [contradiction|discriminate]. }
  destruct (RP _ NE) as (u & O). destruct (GO _ _ (CF (length t0))) as (v & O'). rewrite O, <- app_assoc in O'.
  exists (u ++ v ++ sent po ((Select m rd wr us, b) :: (Read cc n, a) :: t2)). rewrite E at 1. rewrite sent_app, <- GS0, (eq_trans P1 O'), <- !app_assoc. reflexivity.
Qed.
(** So also if it looks at everything at once. *)
Theorem C59_at_once : side_by_side co cc T tr -> replies T reply -> at_once T -> exists u, sent po tr = reply ++ u.
Proof. intros S R A. apply C59_reply_first; auto. intros n. rewrite (A n cc co). lia. Qed.
End Phase.
Print Assumptions C59_reply_first. Print Assumptions C59_at_once.

(** ** Examples *)
Definition pipes_b (T : timing) (co cc : Z) (t : trace) (e : event) : bool :=
  let n := length t in let a := snd e in
  match fst e with
  | Read f _ =>
    let ok g x := if f =? g then same (firstn (length (got g t ++ data a)) x) (got g t ++ data a) else true in
    ok co (output T (looks T n co)) && ok cc (control T (looks T n cc))
  | Select _ rd _ _ =>
    (existsb (Z.eqb co) (data a) || same (got co t) (output T (looks T n co))) &&
    (negb (existsb (Z.eqb cc) (data a)) || negb (same (got cc t) (control T (looks T n cc))))
  | _ => true
  end.
Lemma pipes_b_ok : forall T co cc t e, pipes_b T co cc t e = true -> pipes_answer co cc T t e.
Proof.
  intros T co cc t [c a] H. destruct c; try exact I; unfold pipes_b in H; unfold pipes_answer; cbn [fst snd] in *; apply andb_prop in H as [H1 H2].
  - assert (X : forall g x, (if fd =? g then same (firstn (length (got g t ++ data a)) x) (got g t ++ data a) else true) = true -> fd = g -> exists u, x = got g t ++ data a ++ u).
    { intros g x H E. rewrite (proj2 (Z.eqb_eq _ _) E) in H. apply same_true in H. exists (skipn (length (got g t ++ data a)) x). rewrite app_assoc, <- H at 1. rewrite H at 1. symmetry. rewrite <- H at 1. apply firstn_skipn. }
    split; apply X; assumption.
  - intros _. split.
    + intros _ N. apply orb_true_iff in H1 as [H1|H1]; [|apply same_true; exact H1]. destruct N. apply existsb_exists in H1 as (x & IN & E). apply Z.eqb_eq in E. subst x. exact IN.
    + intros _ IN. apply orb_true_iff in H2 as [H2|H2].
      * exfalso. rewrite negb_true_iff in H2. assert (existsb (Z.eqb cc) (data a) = true) by (apply existsb_exists; exists cc; split; [exact IN|apply Z.eqb_refl]). congruence.
      * left. rewrite negb_true_iff in H2. intros E. rewrite E in H2. unfold same in H2. destruct (list_eq_dec Z.eq_dec _ _); congruence.
Qed.
Lemma grows_two : forall k x y, (exists u, y = x ++ u) -> grows (fun n => if Nat.ltb n k then x else y).
Proof. intros k x y (u & ->) n m L. destruct (Nat.ltb_spec n k), (Nat.ltb_spec m k); try lia; [exists []|exists u|exists []]; rewrite ?app_nil_r; reflexivity. Qed.
Definition reply0 : list Z := bs "220 go".
(** The reply arrives in two parts, then the control byte. *)
Definition timing1 : timing := mktiming (fun k => if Nat.ltb k 2 then bs "220" else reply0) (fun k => if Nat.ltb k 4 then [] else [0]) (fun n _ => n).
Definition script1 : list ans := [ready [3]; rd (bs "220"); ok 0; ready [3; -2]; ok 3; ready [3; 5]; rd (bs " go"); ok 0; ready [5; -2]; ok 3; ready [5]; rd [0]; ok 0; ok 0; ok 1; ok 0; ok 0].
Definition run1_ok (tr : trace) (o : outcome (Z * sess)) : bool := match o with Fin (r, s) => r =? 1 | _ => false end && always_b (pipes_b timing1 3 5) [] tr && same (sent 1 tr) reply0.
Example ex_reply_first : clear_setup 0 1 4 3 5 6 7 /\ replies timing1 reply0 /\ at_once timing1 /\ control_first 3 5 timing1 /\
  exists tr s, runs (cleartext 60 10 7 (Z.to_nat 40) start) tr (Fin (1, s)) /\ legal tr /\ side_by_side 3 5 timing1 tr /\ sent 1 tr = reply0.
Proof.
  split; [apply ex_starttls|]. split. { intros k N. cbn [control output timing1] in *. destruct (Nat.ltb_spec k 4); [contradiction|]. destruct (Nat.ltb_spec k 2); [lia|]. exists []. symmetry. apply app_nil_r. }
  split; [intros n f g; reflexivity|]. split; [intros n; cbn; lia|].
  destruct (follow_show _ script1 (cleartext 60 10 7 (Z.to_nat 40) start) run1_ok) as (tr & o & R & L & Q); [vm_compute; reflexivity|].
  unfold run1_ok in Q. rewrite !andb_true_iff in Q. destruct Q as [[Q1 Q2] Q3]. destruct o as [[r s]| |]; try discriminate. assert (r = 1) by lia. subst r. exists tr, s. split; [exact R|]. split; [exact L|].
  split; [|apply same_true; exact Q3]. split; [apply grows_two; exists (bs " go"); reflexivity|]. split; [apply grows_two; exists [0]; reflexivity|]. split; [intros n m f g X; cbn; lia|].
  intros t1 e t2 E. apply (always_b_ok _ _ (pipes_b_ok timing1 3 5) tr [] Q2 t1 e t2 E).
Qed.

(** ** The order of the numbers *)
(** The control pipe has the larger number (C75), and select looks at the descriptors in ascending order: the
    program writes its reply and the control byte between the two looks, and encryption starts with the reply
    still in the pipe. *)
Definition timing2 : timing := mktiming (fun k => if Nat.ltb k 1 then [] else reply0) (fun k => if Nat.ltb k 1 then [] else [0]) (fun n f => (2 * n + if Z.ltb f 5 then 0 else 1)%nat).
Definition script2 : list ans := [ready [5]; rd [0]; ok 0; ok 0; ok 1; ok 0; ok 0].
Definition run2_ok (tr : trace) (o : outcome (Z * sess)) : bool := match o with Fin (r, s) => r =? 1 | _ => false end && always_b (pipes_b timing2 3 5) [] tr && same (sent 1 tr) [].
Theorem C59_scan_refuted : exists timeout finish pi po ci co cc ck self f1 f2 m1 m2 fuel tr s T reply,
  clear_setup pi po ci co cc ck self /\ co < cc /\ (len m1 = 8192 /\ len m2 = 8192) /\
  runs (cleartext timeout finish self fuel (mksess pi po ci co cc ck (mkrbuf m1 f1) (mkrbuf m2 f2))) tr (Fin (1, s)) /\ legal tr /\
  side_by_side co cc T tr /\ replies T reply /\ ascending T /\ ~ exists u, sent po tr = reply ++ u.
Proof.
  exists 60, 10, 0, 1, 4, 3, 5, 6, 7, 0, 0, buf, buf, (Z.to_nat 40).
  destruct (follow_show _ script2 (cleartext 60 10 7 (Z.to_nat 40) start) run2_ok) as (tr & o & R & L & Q); [vm_compute; reflexivity|].
  unfold run2_ok in Q. rewrite !andb_true_iff in Q. destruct Q as [[Q1 Q2] Q3]. destruct o as [[r s]| |]; try discriminate. assert (r = 1) by lia. subst r.
  exists tr, s, timing2, reply0. split; [apply ex_starttls|]. split; [lia|]. split; [split; reflexivity|]. split; [exact R|]. split; [exact L|]. split.
  { split; [apply grows_two; exists reply0; reflexivity|]. split; [apply grows_two; exists [0]; reflexivity|]. split.
    - intros n m f g X. cbn [looks timing2]. destruct (f <? 5), (g <? 5); lia.
    - intros t1 e t2 E. apply (always_b_ok _ _ (pipes_b_ok timing2 3 5) tr [] Q2 t1 e t2 E). }
  split. { intros k N. cbn [control output timing2] in *. destruct (Nat.ltb_spec k 1); [contradiction|]. exists []. symmetry. apply app_nil_r. }
  split. { intros n f g X. cbn [looks timing2]. destruct (Z.ltb_spec f 5), (Z.ltb_spec g 5); lia. }
  apply same_true in Q3. rewrite Q3. intros (u & X). discriminate X.
Qed.
Print Assumptions C59_scan_refuted.
