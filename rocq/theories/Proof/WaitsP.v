(** Reads and writes are made only while something is missing. *)
From Verif.Model Require Import Base Sys Io Framed.
From Verif.Spec Require Import Stream Waits.
From Verif.Proof Require Import Tac SysP CallsP IoP FrameP.

Lemma faces_bind : forall A B (p : prog A) (f : A -> prog B) tr c, faces (pbind p f) tr c ->
  faces p tr c \/ exists r t1 t2, tr = t1 ++ t2 /\ runs p t1 (Fin r) /\ faces (f r) t2 c.
Proof.
  induction p as [r|c' k IH| |]; intros f tr c H; cbn [pbind faces] in *; try contradiction.
  - right. exists r, [], tr. cbn. auto.
  - destruct H as [H|(a & t & -> & H)]; auto. apply IH in H as [H|(r & t1 & t2 & -> & R & H)].
    + left. eauto.
    + right. exists r, ((c', a) :: t1), t2. split; auto. split; auto. cbn [runs]. eauto.
Qed.
Lemma runs_faces : forall R (p : prog R) u c a v o, runs p (u ++ (c, a) :: v) o -> faces p u c.
Proof.
  induction p as [r|c' k IH| |]; intros u c a v o H; cbn [runs faces] in *; try (destruct H as [H _]; destruct u; discriminate H).
  destruct H as [[H _]|(b & t & E & H)]; [destruct u; discriminate H|]. destruct u as [|x u].
  - cbn in E. injection E as -> _ _. auto.
  - cbn in E. injection E as -> <-. right. eauto.
Qed.
Lemma faces_runs : forall R (p : prog R) t c, faces p t c -> runs p t Cut.
Proof. induction p as [r|c' k IH| |]; intros t c H; cbn [runs faces] in *; try contradiction. destruct H as [[-> ->]|(a & u & -> & H)]; [auto|]. right. exists a, u. split; auto. eapply IH; eauto. Qed.
Lemma faces_more : forall R (p : prog R) t c a, faces p t c -> exists o, runs p (t ++ [(c, a)]) o.
Proof.
  induction p as [r|c' k IH| |]; intros t c a H; cbn [runs faces] in *; try contradiction. destruct H as [[-> ->]|(b & u & -> & H)].
  - assert (X : exists o, runs (k a) [] o) by (destruct (k a); cbn [runs]; eauto). destruct X as (o & X). exists o. right. exists a, []. auto.
  - destruct (IH b u c a H) as (o & X). exists o. right. exists b, (u ++ [(c, a)]). auto.
Qed.
Lemma faces_calls : forall R (p : prog R) (P : sys -> Prop) t c, calls P p -> faces p t c -> P c.
Proof.
  intros R p P t c C F. destruct (faces_more _ _ _ _ (mkans 0 0 []) F) as (o & R0). pose proof (use_calls _ _ _ _ _ R0 C) as X. apply Forall_app in X as [_ X]. inversion X; auto.
Qed.

(** ** Reading *)
Lemma readall_faces : forall fuel fd x xlen t c, faces (readall fuel fd x xlen) t c -> legal t ->
  (exists n, c = Read fd n) /\ len (got fd t) < xlen.
Proof.
  induction fuel as [|fuel IH]; intros fd x xlen t c F L; cbn [readall] in F; [contradiction|].
  destruct (Z.ltb_spec 0 xlen) as [P|P]; [|contradiction].
  set (n := if CHUNK <? xlen then CHUNK else xlen) in *.
  assert (N : 0 < n <= xlen) by (unfold n, CHUNK; destruct (Z.ltb_spec 1048576 xlen); lia).
  destruct (Z.ltb_spec (len x) n); [contradiction|]. destruct F as [[-> <-]|(a & t' & -> & F)].
  { split; [eauto|]. cbn [got]. rewrite len_nil. lia. }
  apply legal_cons in L as [A L]. cbn [sys_ok] in A. cbn [got]. rewrite Z.eqb_refl, len_app.
  destruct (Z.leb_spec (ret a) 0) as [Z0|Z0].
  - assert (D : len (data a) = 0). { destruct A as [[_ ->]|(A1 & A2 & _)]; [reflexivity|]. lia. }
    destruct (transient _); [|contradiction]. destruct (IH _ _ _ _ _ F L) as [H1 H2]. split; auto. lia.
  - destruct A as [[A _]|(A1 & A2 & _)]; [lia|]. apply faces_bind in F as [F|([y z] & t1 & t2 & -> & _ & F)]; [|contradiction].
    destruct (IH _ _ _ _ _ F L) as [H1 H2]. split; auto. lia.
Qed.

(** A message that has not arrived completely. *)
Definition partial (g : list Z) : Prop :=
  (length g < 8)%nat \/ exists h b, g = h ++ b /\ length h = 8%nat /\ leval h < two63 /\ len b < leval h.
Lemma partial_frame : forall g m x, partial g -> len m < two63 -> g <> frame m ++ x.
Proof.
  intros g m x P M ->. destruct P as [P|(h & b & E & L & _ & B)].
  - unfold frame in P. rewrite !app_length, le_length in P. lia.
  - unfold frame in E. rewrite <- app_assoc in E. apply app_eq_len in E as [<- E]; [|rewrite le_length; auto].
    rewrite leval_len in B by (pose proof two63_64; unfold two63 in *; lia). rewrite <- E, len_app in B. pose proof (len_nonneg _ x). lia.
Qed.
Lemma partial_err : forall g v x, partial g -> 0 < v < two63 -> g <> errframe v ++ x.
Proof.
  intros g v x P V ->. unfold errframe in P. destruct P as [P|(h & b & E & L & H & B)].
  - rewrite app_length, le_length in P. lia.
  - apply app_eq_len in E as [<- E]; [|rewrite le_length; auto]. change (2 ^ 64) with two64 in H. pose proof two63_64.
    rewrite leval_le in H by (change (256 ^ Z.of_nat 8) with two64; lia). lia.
Qed.

Section FD.
Variables (fuel : nat) (fd : Z).
(** The header, then the rest. *)
Lemma body_partial : forall t1 t2 out l, length (got fd t1) = 8%nat -> legal t2 -> l = leval (got fd t1) -> l < two63 ->
  forall c, faces (readall fuel fd out l) t2 c -> (exists n, c = Read fd n) /\ partial (got fd (t1 ++ t2)).
Proof.
  intros t1 t2 out l N L -> V c F. destruct (readall_faces _ _ _ _ _ _ F L) as [H1 H2]. split; auto. right. exists (got fd t1), (got fd t2). rewrite got_app. auto.
Qed.
Lemma head_partial : forall t c, faces (readall fuel fd (zeros 8) 8) t c -> legal t -> (exists n, c = Read fd n) /\ partial (got fd t).
Proof. intros t c F L. destruct (readall_faces _ _ _ _ _ _ F L) as [H1 H2]. split; auto. left. unfold len in H2. lia. Qed.

Lemma pipe_readall_faces : forall out n t c, faces (pipe_readall fuel fd out n) t c -> legal t ->
  (exists k, c = Read fd k) /\ partial (got fd t).
Proof.
  intros out n t c F L. unfold pipe_readall in F. destruct (Z.ltb_spec CHUNK n); [contradiction|]. unfold CHUNK in *.
  apply faces_bind in F as [F|([r num] & t1 & t2 & -> & R & F)]; [apply head_partial; auto|].
  apply legal_app in L as [L1 L2]. destruct (readhdr_ok _ _ _ _ R L1) as [_ H1]. destruct r as [|e]; [|contradiction].
  destruct H1 as (-> & N8 & NB & _). rewrite unpack_le in F by assumption. cbn [lift pbind] in F.
  pose proof (leval8 _ NB N8) as V. rewrite tosigned_u64 in F by assumption. destruct (Z.eqb_spec (leval (got fd t1)) n) as [E|E]; cbn [negb] in F; [|contradiction].
  rewrite tosigned_small in F by (unfold two63; lia). eapply body_partial; eauto; unfold two63; lia.
Qed.
Lemma pipe_readmax_faces : forall out n t c, faces (pipe_readmax fuel fd out n) t c -> legal t ->
  (exists k, c = Read fd k) /\ partial (got fd t).
Proof.
  intros out n t c F L. unfold pipe_readmax in F. destruct (Z.ltb_spec CHUNK n); [contradiction|]. unfold CHUNK in *.
  apply faces_bind in F as [F|([r num] & t1 & t2 & -> & R & F)]; [apply head_partial; auto|].
  apply legal_app in L as [L1 L2]. destruct (readhdr_ok _ _ _ _ R L1) as [_ H1]. destruct r as [|e]; [|contradiction].
  destruct H1 as (-> & N8 & NB & _). rewrite unpack_le in F by assumption. cbn [lift pbind] in F.
  pose proof (leval8 _ NB N8) as V. rewrite tosigned_u64 in F by assumption. destruct (Z.ltb_spec n (leval (got fd t1))) as [E|E]; [contradiction|].
  rewrite tosigned_small in F by (unfold two63; lia). apply faces_bind in F as [F|([r out'] & u1 & u2 & -> & _ & F)].
  - eapply body_partial; eauto; unfold two63; lia.
  - destruct r; contradiction.
Qed.
Lemma pipe_readalloc_faces : forall t k, faces (pipe_readalloc fuel fd) t (Read fd k) -> legal t -> partial (got fd t).
Proof.
  intros t k F L. unfold pipe_readalloc in F. apply faces_bind in F as [F|([r num] & t1 & t2 & -> & R & F)]; [apply head_partial in F; tauto|].
  apply legal_app in L as [L1 L2]. destruct (readhdr_ok _ _ _ _ R L1) as [_ H1]. destruct r as [|e]; [|contradiction].
  destruct H1 as (-> & N8 & NB & _). rewrite unpack_le in F by assumption. cbn [lift pbind] in F.
  pose proof (leval8 _ NB N8) as V. destruct (Z.ltb_spec (tosigned (leval (got fd t1))) 0) as [E|E].
  { destruct (s64 (- tosigned (leval (got fd t1)))); cbn in F; contradiction. }
  assert (V2 : leval (got fd t1) < two63). { unfold tosigned in E. destruct (Z.ltb_spec (leval (got fd t1)) two63); auto. lia. }
  rewrite tosigned_small in * by lia. destruct F as [[_ F]|(a & t' & -> & F)]; [discriminate|]. apply legal_cons in L2 as [_ L2]. destruct (ret a =? 0); [contradiction|].
  apply faces_bind in F as [F|([r out'] & u1 & u2 & -> & _ & F)]; [|destruct r; contradiction].
  pose proof (body_partial t1 t' (zeros (leval (got fd t1))) _ N8 L2 eq_refl V2) as X.  specialize (X _ F). destruct X as [_ X].
  rewrite got_app in X |- *. exact X.
Qed.

(** ** Writing *)
Definition writing (c : sys) : Prop := (exists b, c = Write fd b) \/ c = Poll [(fd, 4)] (-1).
Lemma writeall_faces : forall f x xlen t c, faces (writeall f fd x xlen) t c -> legal t -> xlen <= len x ->
  writing c /\ exists r, r <> [] /\ firstn (Z.to_nat xlen) x = sent fd t ++ r.
Proof.
  induction f as [|f IH]; intros x xlen t c F L Lx; cbn [writeall] in F; [contradiction|].
  destruct (Z.ltb_spec 0 xlen) as [P|P]; [|contradiction].
  set (n := if CHUNK <? xlen then CHUNK else xlen) in *.
  assert (N : 0 < n <= xlen) by (unfold n, CHUNK; destruct (Z.ltb_spec 1048576 xlen); lia).
  assert (NE : firstn (Z.to_nat xlen) x <> []). { intros E. apply (f_equal (@length Z)) in E. rewrite firstn_length in E. unfold len in Lx. cbn in E. lia. }
  destruct (Z.ltb_spec (len x) n); [lia|]. destruct F as [[-> <-]|(a & t' & -> & F)].
  { split; [left; eauto|]. cbn [sent app]. eauto. }
  apply legal_cons in L as [A L]. cbn [sys_ok] in A. cbn [sent]. rewrite Z.eqb_refl.
  destruct (Z.leb_spec (ret a) 0) as [Z0|Z0].
  - replace (Z.to_nat (ret a)) with O by lia. rewrite firstn_O. cbn [app]. destruct (transient _); [|contradiction].
    destruct F as [[-> <-]|(p & t2 & -> & F)]. { split; [right; auto|]. cbn [sent app]. eauto. }
    apply legal_cons in L as [_ L]. cbn [sent]. destruct (_ && _); [contradiction|]. eauto.
  - destruct A as [A|A]; [lia|]. assert (LF : len (firstn (Z.to_nat n) x) = n) by (unfold len in *; rewrite firstn_length; lia). rewrite LF in A.
    assert (LS : len (skipn (Z.to_nat (ret a)) x) = len x - ret a) by (unfold len in *; rewrite skipn_length; lia).
    destruct (IH _ _ _ _ F L) as (H1 & r & H2 & H3); [lia|]. split; auto. exists r. split; auto. rewrite <- app_assoc, <- H3, firstn_firstn.
    replace (Nat.min (Z.to_nat (ret a)) (Z.to_nat n)) with (Z.to_nat (ret a)) by lia.
    replace (Z.to_nat xlen) with (Z.to_nat (ret a) + Z.to_nat (xlen - ret a))%nat by lia.
    rewrite <- (firstn_skipn (Z.to_nat (ret a)) x) at 1. rewrite firstn_app, firstn_firstn.
    replace (Nat.min (Z.to_nat (ret a) + Z.to_nat (xlen - ret a)) (Z.to_nat (ret a))) with (Z.to_nat (ret a)) by lia.
    rewrite firstn_length. unfold len in *. f_equal. f_equal. lia.
Qed.
Lemma pipe_write_faces : forall m extra t c, faces (pipe_write fuel fd (m ++ extra) (len m)) t c -> legal t -> len m < two63 ->
  writing c /\ exists r, r <> [] /\ frame m = sent fd t ++ r.
Proof.
  intros m extra t c F L M. unfold pipe_write in F. pose proof (len_nonneg _ m). destruct (Z.ltb_spec (len m) 0); [lia|]. pose proof two63_64.
  assert (HP : uint64_pack (len m) = le 8 (len m)) by (apply pack_le; lia). rewrite HP in F.
  apply faces_bind in F as [F|(r & t1 & t2 & -> & R & F)].
  - destruct (writeall_faces _ _ _ _ _ F L) as (W & r & NR & E); [unfold len; rewrite le_length; lia|]. split; auto. exists (r ++ m).
    split; [destruct r; [congruence|discriminate]|]. unfold frame. rewrite app_assoc, <- E. f_equal.
  - apply legal_app in L as [L1 L2]. destruct r as [|e]; [|contradiction]. destruct (writeall_ok _ _ _ _ _ _ R L1) as [_ [S _]]; [unfold len; rewrite le_length; lia|].
    destruct (writeall_faces _ _ _ _ _ F L2) as (W & r & NR & E); [rewrite len_app; pose proof (len_nonneg _ extra); lia|]. split; auto. exists r. split; auto.
    rewrite sent_app, S. unfold frame. rewrite <- app_assoc, <- E. unfold len. rewrite Nat2Z.id, firstn_app, firstn_all, Nat.sub_diag, firstn_O, app_nil_r. reflexivity.
Qed.
End FD.
