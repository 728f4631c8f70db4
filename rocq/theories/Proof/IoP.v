(** Lemmas about readall, writeall and the framed pipe functions. *)
From Verif.Model Require Import Base Sys Io.
From Verif.Spec Require Import Stream.
From Verif.Proof Require Import Tac SysP.

Lemma transient_spec : forall e, transient e = true <-> e = 4 \/ e = 11.
Proof. intros. unfold transient, EINTR, EAGAIN. lia. Qed.

Lemma quiet_nil : quiet [].
Proof. constructor. Qed.
Lemma quiet_app : forall a b, quiet (a ++ b) <-> quiet a /\ quiet b.
Proof. intros. apply Forall_app. Qed.
Lemma quiet_cons : forall a b, quiet (a :: b) <-> ~ hard a /\ quiet b.
Proof. intros. apply Forall_cons_iff. Qed.
Lemma ends_hard_app : forall a b, quiet a -> ends_hard b -> ends_hard (a ++ b).
Proof.
  intros a b Q (t & e & -> & H & F). exists (a ++ t), e. rewrite app_assoc. repeat split; auto.
  apply Forall_app. auto.
Qed.
Lemma ends_hard_one : forall e, hard e -> ends_hard [e].
Proof. intros. exists [], e. auto. Qed.
Lemma ends_hard_cons : forall a b, ~ hard a -> ends_hard b -> ends_hard (a :: b).
Proof. intros. apply (ends_hard_app [a]); auto. repeat constructor. assumption. Qed.

Definition onlyread (fd : Z) (tr : trace) : Prop := Forall (fun e => exists n, fst e = Read fd n) tr.

Lemma readall_ok : forall fuel fd x xlen tr o,
  runs (readall fuel fd x xlen) tr o -> legal tr -> xlen <= len x ->
  onlyread fd tr /\
  match o with
  | Wrong => False
  | Cut => len (got fd tr) <= Z.max 0 xlen /\ quiet tr /\ ((length tr < fuel)%nat -> len (got fd tr) < xlen)
  | Fin (Good, x') => len (got fd tr) = Z.max 0 xlen /\ x' = got fd tr ++ skipn (Z.to_nat xlen) x /\ quiet tr
  | Fin (Fail e, x') => len (got fd tr) < xlen /\ x' = got fd tr ++ skipn (length (got fd tr)) x /\ ends_hard tr
  end.
Proof.
  induction fuel as [|fuel IH]; intros fd x xlen tr o R Lg Lx; cbn [readall] in R.
  { destruct R as [-> ->]. cbn [got]. rewrite len_nil. split; [constructor|]. split; [lia|]. split; [apply quiet_nil|]. cbn [length]. lia. }
  destruct (Z.ltb_spec 0 xlen) as [P|P].
  2:{ destruct R as [-> ->]. cbn [got app]. rewrite len_nil. split; [constructor|]. split; [lia|].
      split; [|apply quiet_nil]. replace (Z.to_nat xlen) with O by lia. reflexivity. }
  set (n := if CHUNK <? xlen then CHUNK else xlen) in *.
  assert (N : 0 < n <= xlen) by (unfold n, CHUNK; destruct (Z.ltb_spec 1048576 xlen); lia).
  destruct (Z.ltb_spec (len x) n); [lia|].
  destruct R as [[-> ->]|(a & tr' & -> & R)].
  { cbn [got]. rewrite len_nil. split; [constructor|]. split; [lia|]. split; [apply quiet_nil|]. lia. }
  apply legal_cons in Lg as [A Lg]. cbn [sys_ok] in A. cbn [got]. rewrite Z.eqb_refl.
  destruct (Z.leb_spec (ret a) 0) as [Z0|Z0].
  - assert (D : data a = []).
    { destruct A as [[_ A]|(A & B & _)]; auto. destruct (data a); auto. rewrite len_cons in B. pose proof (len_nonneg _ l). lia. }
    rewrite D. cbn [app].
    destruct (transient (if ret a =? 0 then EPIPE else err a)) eqn:T.
    + apply transient_spec in T. destruct (Z.eqb_spec (ret a) 0); [unfold EPIPE in T; lia|].
      assert (NH : ~ hard (Read fd n, a)) by (cbn; lia).
      specialize (IH fd x xlen tr' o R Lg Lx). destruct IH as [O IH].
      split; [constructor; [exists n; reflexivity|exact O]|].
      destruct o as [[[|e] x']| |]; auto.
      * rewrite quiet_cons. tauto.
      * destruct IH as (I1 & I2 & I3). repeat split; auto. apply ends_hard_cons; auto.
      * rewrite quiet_cons. cbn [length]. destruct IH as (I1 & I2 & I3). repeat split; auto. intros. apply I3. lia.
    + destruct R as [-> ->]. cbn [got]. rewrite len_nil. split; [repeat constructor; exists n; reflexivity|].
      cbn [length skipn app]. repeat split; auto. apply ends_hard_one. cbn.
      destruct (Z.eqb_spec (ret a) 0); [left; assumption|right].
      assert (~ (err a = 4 \/ err a = 11)) by (rewrite <- transient_spec, T; discriminate). lia.
  - destruct A as [[A _]|(A & B & C)]; [lia|].
    assert (NH : ~ hard (Read fd n, a)) by (cbn; lia).
    apply runs_bind in R.
    assert (Lx' : xlen - ret a <= len (skipn (Z.to_nat (ret a)) x)).
    { unfold len in *. rewrite skipn_length. lia. }
    assert (L1 : length (data a) = Z.to_nat (ret a)) by (unfold len in B; lia).
    destruct R as [([c x'] & t1 & t2 & -> & R1 & R2)|[[R1 ->]|[R1 ->]]].
    + destruct R2 as [-> ->]. rewrite app_nil_r in *. specialize (IH _ _ _ _ _ R1 Lg Lx'). destruct IH as [O IH].
      split; [constructor; [exists n; reflexivity|exact O]|].
      destruct c as [|e].
      * destruct IH as (I1 & -> & I3). rewrite len_app, quiet_cons. repeat split; auto; [lia|].
        rewrite app_assoc_reverse. do 2 f_equal. rewrite skipn_skipn. f_equal. lia.
      * destruct IH as (I1 & -> & I3). rewrite len_app, app_length. repeat split; [lia| |apply ends_hard_cons; auto].
        rewrite app_assoc_reverse. do 2 f_equal. rewrite skipn_skipn. f_equal. lia.
    + specialize (IH _ _ _ _ _ R1 Lg Lx'). destruct IH as [_ []].
    + specialize (IH _ _ _ _ _ R1 Lg Lx'). destruct IH as [O (I1 & I2 & I3)].
      split; [constructor; [exists n; reflexivity|exact O]|].
      rewrite len_app, quiet_cons. cbn [length]. repeat split; auto; [lia|]. intros. specialize (I3 ltac:(lia)). lia.
Qed.

(** Calls made by writeall. *)
Definition onlywrite (fd : Z) (tr : trace) : Prop :=
  Forall (fun e => (exists b, fst e = Write fd b) \/ fst e = Poll [(fd, 4)] (-1)) tr.

Lemma writeall_ok : forall fuel fd x xlen tr o,
  runs (writeall fuel fd x xlen) tr o -> legal tr -> xlen <= len x ->
  onlywrite fd tr /\
  match o with
  | Wrong => False
  | Cut => (exists k, sent fd tr = firstn k x /\ Z.of_nat k <= Z.max 0 xlen) /\ quiet tr
  | Fin Good => sent fd tr = firstn (Z.to_nat xlen) x /\ quiet tr
  | Fin (Fail e) => (exists k, sent fd tr = firstn k x /\ Z.of_nat k < xlen) /\ ends_hard tr
  end.
Proof.
  induction fuel as [|fuel IH]; intros fd x xlen tr o R Lg Lx; cbn [writeall] in R.
  { destruct R as [-> ->]. cbn [sent]. split; [constructor|]. split; [|apply quiet_nil]. exists O. split; [reflexivity|lia]. }
  destruct (Z.ltb_spec 0 xlen) as [P|P].
  2:{ destruct R as [-> ->]. cbn [sent]. split; [constructor|]. split; [|apply quiet_nil].
      replace (Z.to_nat xlen) with O by lia. reflexivity. }
  set (n := if CHUNK <? xlen then CHUNK else xlen) in *.
  assert (N : 0 < n <= xlen) by (unfold n, CHUNK; destruct (Z.ltb_spec 1048576 xlen); lia).
  destruct (Z.ltb_spec (len x) n); [lia|].
  destruct R as [[-> ->]|(a & tr' & -> & R)].
  { cbn [sent]. split; [constructor|]. split; [|apply quiet_nil]. exists O. split; [reflexivity|lia]. }
  apply legal_cons in Lg as [A Lg]. cbn [sys_ok] in A. cbn [sent]. rewrite Z.eqb_refl.
  assert (W1 : (exists b, fst (Write fd (firstn (Z.to_nat n) x), a) = Write fd b) \/
     fst (Write fd (firstn (Z.to_nat n) x), a) = Poll [(fd, 4)] (-1)) by (left; eexists; reflexivity).
  destruct (Z.leb_spec (ret a) 0) as [Z0|Z0].
  - replace (Z.to_nat (ret a)) with O by lia. rewrite firstn_O. cbn [app].
    destruct (transient (if ret a =? 0 then EPIPE else err a)) eqn:T.
    + apply transient_spec in T. destruct (Z.eqb_spec (ret a) 0); [unfold EPIPE in T; lia|].
      assert (NH : ~ hard (Write fd (firstn (Z.to_nat n) x), a)) by (cbn; lia).
      destruct R as [[-> ->]|(p & tr2 & -> & R)].
      { cbn [sent]. split; [constructor; auto; constructor|]. split; [exists O; split; [reflexivity|lia]|].
        apply quiet_cons. split; [exact NH|apply quiet_nil]. }
      apply legal_cons in Lg as [_ Lg]. cbn [sent].
      destruct ((ret p =? -1) && negb (err p =? EINTR)) eqn:B.
      * destruct R as [-> ->]. cbn [sent]. split; [constructor; [exact W1|constructor; [right; reflexivity|constructor]]|].
        split; [exists O; split; [reflexivity|lia]|]. apply ends_hard_cons; [exact NH|]. apply ends_hard_one.
        cbn. unfold EINTR in B. lia.
      * assert (NH2 : ~ hard (Poll [(fd, 4)] (-1), p)) by (cbn; unfold EINTR in B; lia).
        specialize (IH fd x xlen tr2 o R Lg Lx). destruct IH as [O IH].
        split; [constructor; [exact W1|constructor; [right; reflexivity|exact O]]|].
        destruct o as [[|e]| |]; auto.
        -- rewrite !quiet_cons. tauto.
        -- destruct IH as (I1 & I2). split; auto. apply ends_hard_cons, ends_hard_cons; auto.
        -- rewrite !quiet_cons. tauto.
    + destruct R as [-> ->]. cbn [sent]. split; [constructor; [exact W1|constructor]|].
      split; [exists O; split; [reflexivity|lia]|]. apply ends_hard_one. cbn.
      destruct (Z.eqb_spec (ret a) 0); [left; assumption|right].
      assert (~ (err a = 4 \/ err a = 11)) by (rewrite <- transient_spec, T; discriminate). lia.
  - destruct A as [A|A]; [lia|].
    assert (NH : ~ hard (Write fd (firstn (Z.to_nat n) x), a)) by (cbn; lia).
    assert (Rn : ret a <= n). { unfold len in *. rewrite firstn_length in A. lia. }
    assert (Lx' : xlen - ret a <= len (skipn (Z.to_nat (ret a)) x)).
    { unfold len in *. rewrite skipn_length. lia. }
    rewrite firstn_firstn. replace (Init.Nat.min (Z.to_nat (ret a)) (Z.to_nat n)) with (Z.to_nat (ret a)) by lia.
    specialize (IH _ _ _ _ _ R Lg Lx'). destruct IH as [O IH].
    split; [constructor; [exact W1|exact O]|].
    assert (F : forall k, firstn (Z.to_nat (ret a)) x ++ firstn k (skipn (Z.to_nat (ret a)) x) = firstn (Z.to_nat (ret a) + k) x).
    { intros k. rewrite <- (firstn_skipn (Z.to_nat (ret a)) x) at 3. rewrite firstn_app, firstn_firstn.
      rewrite firstn_length. unfold len in *.
      replace (Init.Nat.min (Z.to_nat (ret a) + k) (Z.to_nat (ret a))) with (Z.to_nat (ret a)) by lia.
      f_equal. f_equal. lia. }
    destruct o as [[|e]| |]; auto.
    + destruct IH as (I1 & I2). rewrite quiet_cons, I1, F. split; auto. f_equal. lia.
    + destruct IH as ((k & I1 & I3) & I2). split; [|apply ends_hard_cons; auto].
      exists (Z.to_nat (ret a) + k)%nat. rewrite I1, F. split; [reflexivity|lia].
    + destruct IH as ((k & I1 & I3) & I2). rewrite quiet_cons. split; auto.
      exists (Z.to_nat (ret a) + k)%nat. rewrite I1, F. split; [reflexivity|lia].
Qed.

(** ** Length encoding *)
Lemma le_length : forall n v, length (le n v) = n.
Proof. induction n; intros; cbn; auto. Qed.
Lemma le_bytes : forall n v, bytes (le n v).
Proof.
  induction n; intros; cbn [le]; constructor; [|apply IHn]. unfold is_byte. apply Z.mod_pos_bound. lia.
Qed.
Lemma leval_le : forall n v, 0 <= v < 256 ^ Z.of_nat n -> leval (le n v) = v.
Proof.
  induction n as [|n IH]; intros v H; cbn [le leval].
  - change (256 ^ Z.of_nat 0) with 1 in H. lia.
  - rewrite Nat2Z.inj_succ, Z.pow_succ_r in H by lia. rewrite IH.
    + pose proof (Z.div_mod v 256). lia.
    + split; [apply Z.div_pos; lia|apply Z.div_lt_upper_bound; lia].
Qed.
Lemma leval_bound : forall l, bytes l -> 0 <= leval l < 256 ^ len l.
Proof.
  induction l as [|b l IH]; intros B; cbn [leval].
  - change (256 ^ len []) with 1. lia.
  - apply Forall_cons_iff in B as [B1 B]. specialize (IH B). rewrite len_cons, Z.pow_add_r by (pose proof (len_nonneg _ l); lia).
    unfold is_byte in B1. change (256 ^ 1) with 256. lia.
Qed.
Lemma le_leval : forall l, bytes l -> le (length l) (leval l) = l.
Proof.
  induction l as [|b l IH]; intros B; cbn [length le leval]; auto.
  apply Forall_cons_iff in B as [B1 B]. unfold is_byte in B1. f_equal.
  - replace (b + 256 * leval l) with (b + leval l * 256) by lia. rewrite Z_mod_plus_full. apply Z.mod_small. lia.
  - transitivity (le (length l) (leval l)); [f_equal|apply IH, B]. replace (b + 256 * leval l) with (leval l * 256 + b) by lia.
    rewrite Z.div_add_l by lia. rewrite (Z.div_small b) by lia. lia.
Qed.

Lemma pack_loop_le : forall n x, pack_loop n x = le n x.
Proof.
  induction n; intros x; cbn [pack_loop le]; auto. unfold u8. rewrite IHn, Z.shiftr_div_pow2 by lia. reflexivity.
Qed.
Lemma pack_le : forall x, 0 <= x < two64 -> uint64_pack x = le 8 x.
Proof. intros. unfold uint64_pack. rewrite pack_loop_le, u64_id by assumption. reflexivity. Qed.
Lemma pack_neg : forall e, 0 < e <= two63 -> uint64_pack (- e) = le 8 (2 ^ 64 - e).
Proof.
  intros. unfold uint64_pack. rewrite pack_loop_le. f_equal. unfold u64.
  replace (- e) with (2 ^ 64 - e + (-1) * two64) by (unfold two64; lia). rewrite Z_mod_plus_full. apply Z.mod_small.
  unfold two63, two64 in *. lia.
Qed.

Lemma pow256 : forall n, 256 ^ Z.of_nat n = 2 ^ (8 * Z.of_nat n).
Proof. intros. change 256 with (2 ^ 8). rewrite <- Z.pow_mul_r by lia. reflexivity. Qed.

Lemma unpack_le : forall x, bytes x -> length x = 8%nat -> uint64_unpack x = Ok (tosigned (leval x)).
Proof.
  intros x B L. unfold uint64_unpack.
  assert (G : forall a b y, bytes a -> bytes b -> y = leval b -> (length a + length b = 8)%nat ->
     unpack_loop (length a) (a ++ b) y = Ok (leval (a ++ b))).
  { induction a as [|c a IH] using rev_ind; intros b y Ba Bb Y L8.
    - subst. reflexivity.
    - rewrite app_length in *. cbn [length] in *. rewrite Nat.add_1_r. cbn [unpack_loop].
      apply Forall_app in Ba as [Ba C]. apply Forall_cons_iff in C as [C _].
      rewrite <- app_assoc. cbn [app]. rewrite ld_app. cbn [bind].
      apply IH; auto; [constructor; auto| |cbn [length]; lia].
      pose proof (leval_bound b Bb) as LB. unfold len in LB.
      assert (leval b < 2 ^ 56).
      { eapply Z.lt_le_trans; [apply LB|]. change (2 ^ 56) with (256 ^ 7). apply Z.pow_le_mono_r; lia. }
      rewrite Y, Z.shiftl_mul_pow2 by lia. rewrite u64_id by (unfold two64; lia).
      rewrite lor_add by (try lia; exact C). cbn [leval]. lia. }
  specialize (G x [] 0 B (Forall_nil _) eq_refl). rewrite app_nil_r, L in G. rewrite G by (cbn; lia). reflexivity.
Qed.

Lemma tosigned_u64 : forall v, 0 <= v < two64 -> u64 (tosigned v) = v.
Proof.
  intros. unfold tosigned. destruct (Z.ltb_spec v two63).
  - apply u64_id. assumption.
  - unfold u64. replace (v - two64) with (v + (-1) * two64) by lia. rewrite Z_mod_plus_full. apply Z.mod_small. assumption.
Qed.

Lemma two64_256 : two64 = 256 ^ 8.
Proof. reflexivity. Qed.

Lemma leval8 : forall x, bytes x -> length x = 8%nat -> 0 <= leval x < two64.
Proof. intros x B L. pose proof (leval_bound x B) as H. unfold len in H. rewrite L in H. exact H. Qed.

(** legal reads deliver bytes *)
Lemma got_bytes : forall fd tr, legal tr -> bytes (got fd tr).
Proof.
  induction tr as [|[c a] tr IH]; intros L; cbn [got]; [constructor|]. apply legal_cons in L as [A L].
  destruct c; auto. destruct (fd0 =? fd); auto. apply Forall_app. split; [|apply IH, L].
  cbn in A. destruct A as [[_ ->]|(_ & _ & A)]; [constructor|exact A].
Qed.

(** ** Reading the 8-byte header *)
Lemma readhdr_ok : forall fuel fd tr o, runs (readall fuel fd (zeros 8) 8) tr o -> legal tr ->
  onlyread fd tr /\
  match o with
  | Wrong => False
  | Cut => (length (got fd tr) <= 8)%nat /\ quiet tr
  | Fin (Good, num) => num = got fd tr /\ length num = 8%nat /\ bytes num /\ quiet tr
  | Fin (Fail e, _) => (length (got fd tr) < 8)%nat /\ ends_hard tr
  end.
Proof.
  intros fuel fd tr o R L. destruct (readall_ok _ _ _ _ _ _ R L) as [O H]. { reflexivity. }
  split; auto. destruct o as [[[|e] num]| |]; auto.
  - destruct H as (H1 & -> & H3). change (skipn (Z.to_nat 8) (zeros 8)) with (@nil Z). rewrite app_nil_r.
    pose proof (got_bytes fd tr L). unfold len in H1. split; [reflexivity|]. split; [lia|auto].
  - destruct H as (H1 & _ & H3). unfold len in H1. split; [lia|auto].
  - unfold len in H. split; [lia|tauto].
Qed.

Lemma is_prefix_refl : forall l, is_prefix l l.
Proof. intros. exists []. rewrite app_nil_r. reflexivity. Qed.
Lemma is_prefix_firstn : forall k l, is_prefix (firstn k l) l.
Proof. intros. exists (skipn k l). rewrite firstn_skipn. reflexivity. Qed.
Lemma is_prefix_app : forall p q r, is_prefix p q -> is_prefix p (q ++ r).
Proof. intros p q r [u ->]. exists (u ++ r). rewrite app_assoc. reflexivity. Qed.
Lemma is_prefix_app2 : forall p q r, is_prefix q r -> is_prefix (p ++ q) (p ++ r).
Proof. intros p q r [u ->]. exists u. rewrite app_assoc. reflexivity. Qed.
Lemma is_prefix_trans : forall p q r, is_prefix p q -> is_prefix q r -> is_prefix p r.
Proof. intros p q r [u ->] [v ->]. exists (u ++ v). rewrite app_assoc. reflexivity. Qed.

Lemma app_eq_len : forall A (a b c d : list A), length a = length c -> a ++ b = c ++ d -> a = c /\ b = d.
Proof.
  induction a as [|x a IH]; intros b [|y c] d L E; cbn in *; try lia; auto.
  injection E as -> E. apply IH in E as [-> ->]; auto.
Qed.

Lemma two63_64 : 2 * two63 = two64.
Proof. reflexivity. Qed.

Lemma pipe_write_ok : forall fuel fd m extra tr o,
  runs (pipe_write fuel fd (m ++ extra) (len m)) tr o -> legal tr -> len m < two63 ->
  onlywrite fd tr /\
  match o with
  | Wrong => False
  | Cut => is_prefix (sent fd tr) (frame m) /\ quiet tr
  | Fin Good => sent fd tr = frame m /\ quiet tr
  | Fin (Fail e) => is_prefix (sent fd tr) (frame m) /\ sent fd tr <> frame m /\ ends_hard tr
  end.
Proof.
  intros fuel fd m extra tr o R L Lm. unfold pipe_write in R. pose proof (len_nonneg _ m).
  destruct (Z.ltb_spec (len m) 0); [lia|]. rewrite pack_le in R by (pose proof two63_64; lia).
  apply runs_bind in R as [(c & t1 & t2 & -> & R1 & R2)|[[R1 ->]|[R1 ->]]].
  - apply legal_app in L as [L1 L2]. destruct (writeall_ok _ _ _ _ _ _ R1 L1) as [O1 H1]. { unfold len. rewrite le_length. lia. }
    destruct c as [|e].
    + destruct H1 as [S1 Q1]. rewrite firstn_all2 in S1 by (rewrite le_length; lia).
      destruct (writeall_ok _ _ _ _ _ _ R2 L2) as [O2 H2]. { rewrite len_app. pose proof (len_nonneg _ extra). lia. }
      split; [apply Forall_app; auto|]. rewrite sent_app, S1. unfold frame.
      assert (FX : forall k, Z.of_nat k <= len m -> firstn k (m ++ extra) = firstn k m).
      { intros k K. rewrite firstn_app. replace (k - length m)%nat with O by (unfold len in K; lia).
        rewrite firstn_O, app_nil_r. reflexivity. }
      destruct o as [[|e]| |]; auto.
      * destruct H2 as [-> Q2]. rewrite FX by lia. split; [|apply quiet_app; auto].
        rewrite firstn_all2 by (unfold len; lia). reflexivity.
      * destruct H2 as [(k & -> & K) E]. rewrite FX by lia. split; [apply is_prefix_app2, is_prefix_firstn|].
        split; [|apply ends_hard_app; auto]. intro X. apply app_inv_head in X.
        apply (f_equal (@length Z)) in X. rewrite firstn_length in X. unfold len in K. lia.
      * destruct H2 as [(k & -> & K) E]. rewrite FX by lia. split; [apply is_prefix_app2, is_prefix_firstn|]. apply quiet_app; auto.
    + destruct R2 as [-> ->]. rewrite app_nil_r. destruct H1 as [(k & -> & K) E]. split; auto.
      split; [apply is_prefix_app, is_prefix_firstn|]. split; auto. intro X. apply (f_equal (@length Z)) in X.
      unfold frame in X. rewrite firstn_length, app_length, le_length in X. lia.
  - destruct (writeall_ok _ _ _ _ _ _ R1 L) as [_ []]. unfold len. rewrite le_length. lia.
  - destruct (writeall_ok _ _ _ _ _ _ R1 L) as [O1 [(k & -> & K) Q]]. { unfold len. rewrite le_length. lia. }
    split; auto. split; auto. apply is_prefix_app, is_prefix_firstn.
Qed.

Lemma pipe_writeerrno_ok : forall fuel fd e tr o,
  runs (pipe_writeerrno fuel fd e) tr o -> legal tr -> 0 < e <= two63 ->
  onlywrite fd tr /\
  match o with
  | Wrong => False
  | Cut => is_prefix (sent fd tr) (errframe e) /\ quiet tr
  | Fin Good => sent fd tr = errframe e /\ quiet tr
  | Fin (Fail _) => is_prefix (sent fd tr) (errframe e) /\ ends_hard tr
  end.
Proof.
  intros fuel fd e tr o R L E. unfold pipe_writeerrno in R. rewrite pack_neg in R by assumption.
  destruct (writeall_ok _ _ _ _ _ _ R L) as [O H]. { unfold len. rewrite le_length. lia. }
  split; auto. unfold errframe. destruct o as [[|e']| |]; try contradiction.
  - destruct H as [-> Q]. split; auto.
  - destruct H as [(k & -> & K) Q]. split; auto. apply is_prefix_firstn.
  - destruct H as [(k & -> & K) Q]. split; auto. apply is_prefix_firstn.
Qed.

(** The body of a frame has the length announced by its header. *)
Lemma frame_intro : forall h m, bytes h -> length h = 8%nat -> leval h = len m -> h ++ m = frame m.
Proof. intros h m B L E. unfold frame. rewrite <- E, <- L, le_leval by assumption. reflexivity. Qed.

Lemma tosigned_small : forall v, 0 <= v < two63 -> tosigned v = v.
Proof. intros. unfold tosigned. destruct (Z.ltb_spec v two63); lia. Qed.

Lemma pipe_readall_ok : forall fuel fd out outlen tr o,
  runs (pipe_readall fuel fd out outlen) tr o -> legal tr -> 0 <= outlen <= len out -> outlen <= CHUNK ->
  onlyread fd tr /\
  match o with
  | Wrong => False
  | Cut => quiet tr
  | Fin (Good, out') => exists m, len m = outlen /\ got fd tr = frame m /\ out' = m ++ skipn (Z.to_nat outlen) out /\ quiet tr
  | Fin (Fail e, out') =>
      (ends_hard tr /\ exists p, out' = p ++ skipn (length p) out /\ len p <= outlen) \/
      (quiet tr /\ out' = out /\ length (got fd tr) = 8%nat /\ leval (got fd tr) <> outlen)
  end.
Proof.
  intros fuel fd out outlen tr o R L Lo Lc. unfold pipe_readall in R.
  destruct (Z.ltb_spec CHUNK outlen); [lia|]. unfold CHUNK in *.
  apply runs_bind in R as [([c num] & t1 & t2 & -> & R1 & R2)|[[R1 ->]|[R1 ->]]].
  - apply legal_app in L as [L1 L2]. destruct (readhdr_ok _ _ _ _ R1 L1) as [O1 H1].
    destruct c as [|e].
    + destruct H1 as (-> & N8 & NB & Q1). rewrite unpack_le in R2 by assumption. cbn [lift pbind] in R2.
      pose proof (leval8 _ NB N8) as V. rewrite tosigned_u64 in R2 by assumption.
      rewrite got_app. destruct (Z.eqb_spec (leval (got fd t1)) outlen) as [E|E]; cbn [negb] in R2.
      * rewrite tosigned_small in R2 by (unfold two63; lia). rewrite E in R2.
        destruct (readall_ok _ _ _ _ _ _ R2 L2) as [O2 H2]. { lia. }
        split; [apply Forall_app; auto|]. destruct o as [[[|e] out']| |]; auto.
        -- destruct H2 as (H2 & -> & Q2). exists (got fd t2). split; [lia|]. split; [apply frame_intro; auto; lia|].
           split; [reflexivity|apply quiet_app; auto].
        -- destruct H2 as (H2 & -> & Q2). left. split; [apply ends_hard_app; auto|]. exists (got fd t2). split; auto. lia.
        -- apply quiet_app. tauto.
      * destruct R2 as [-> ->]. rewrite app_nil_r. cbn [got]. rewrite app_nil_r. split; auto.
    + destruct R2 as [-> ->]. rewrite app_nil_r. split; auto. left. split; [tauto|]. exists []. split; [reflexivity|]. rewrite len_nil. lia.
  - destruct (readhdr_ok _ _ _ _ R1 L) as [_ []].
  - destruct (readhdr_ok _ _ _ _ R1 L) as [O1 H1]. tauto.
Qed.

Lemma pipe_readmax_ok : forall fuel fd out outlen tr o,
  runs (pipe_readmax fuel fd out outlen) tr o -> legal tr -> 0 <= outlen <= len out -> outlen <= CHUNK ->
  onlyread fd tr /\
  match o with
  | Wrong => False
  | Cut => quiet tr
  | Fin (Good, out', n) => exists m, len m = n /\ n <= outlen /\ got fd tr = frame m /\ out' = m ++ skipn (length m) out /\ quiet tr
  | Fin (Fail e, out', n) => n = outlen /\
      ((ends_hard tr /\ exists p, out' = p ++ skipn (length p) out /\ len p <= outlen) \/
      (quiet tr /\ out' = out /\ length (got fd tr) = 8%nat /\ leval (got fd tr) > outlen))
  end.
Proof.
  intros fuel fd out outlen tr o R L Lo Lc. unfold pipe_readmax in R.
  destruct (Z.ltb_spec CHUNK outlen); [lia|]. unfold CHUNK in *.
  apply runs_bind in R as [([c num] & t1 & t2 & -> & R1 & R2)|[[R1 ->]|[R1 ->]]].
  - apply legal_app in L as [L1 L2]. destruct (readhdr_ok _ _ _ _ R1 L1) as [O1 H1].
    destruct c as [|e].
    + destruct H1 as (-> & N8 & NB & Q1). rewrite unpack_le in R2 by assumption. cbn [lift pbind] in R2.
      pose proof (leval8 _ NB N8) as V. rewrite tosigned_u64 in R2 by assumption.
      rewrite got_app. destruct (Z.ltb_spec outlen (leval (got fd t1))) as [E|E].
      * destruct R2 as [-> ->]. rewrite app_nil_r. cbn [got]. rewrite app_nil_r. split; auto. split; auto. right. repeat split; auto. lia.
      * rewrite tosigned_small in R2 by (unfold two63; lia).
        apply runs_bind in R2 as [([c out'] & u1 & u2 & -> & S1 & S2)|[[S1 ->]|[S1 ->]]].
        -- apply legal_app in L2 as [L2 L3]. destruct (readall_ok _ _ _ _ _ _ S1 L2) as [O2 H2]. { lia. }
           destruct c as [|e].
           ++ destruct S2 as [-> ->]. rewrite app_nil_r. split; [apply Forall_app; auto|].
              destruct H2 as (H2 & -> & Q2). exists (got fd u1). split; [lia|]. split; [lia|].
              split; [apply frame_intro; auto; lia|]. split; [|apply quiet_app; auto].
              do 2 f_equal. unfold len in H2. lia.
           ++ destruct S2 as [-> ->]. rewrite app_nil_r. split; [apply Forall_app; auto|].
              destruct H2 as (H2 & -> & Q2). split; auto. left. split; [apply ends_hard_app; auto|]. exists (got fd u1). split; auto. lia.
        -- destruct (readall_ok _ _ _ _ _ _ S1 L2) as [_ []]. lia.
        -- destruct (readall_ok _ _ _ _ _ _ S1 L2) as [O2 H2]. { lia. } split; [apply Forall_app; auto|]. apply quiet_app. tauto.
    + destruct R2 as [-> ->]. rewrite app_nil_r. split; auto. split; auto. left. split; [tauto|]. exists []. split; [reflexivity|]. rewrite len_nil. lia.
  - destruct (readhdr_ok _ _ _ _ R1 L) as [_ []].
  - destruct (readhdr_ok _ _ _ _ R1 L) as [O1 H1]. tauto.
Qed.

Lemma pipe_readalloc_ok : forall fuel fd tr o,
  runs (pipe_readalloc fuel fd) tr o -> legal tr ->
  match o with
  | Wrong => got fd tr = le 8 (2 ^ 63)
  | Cut => quiet tr
  | Fin (inr m) => got fd tr = frame m /\ quiet tr /\ len m < two63 /\ exists a, In (Alloc (len m), a) tr /\ ret a = 1
  | Fin (inl e) => ends_hard tr \/
      (quiet tr /\ exists v, 0 < v < 2 ^ 63 /\ got fd tr = errframe v /\ e = toint v)
  end.
Proof.
  intros fuel fd tr o R L. unfold pipe_readalloc in R.
  apply runs_bind in R as [([c num] & t1 & t2 & -> & R1 & R2)|[[R1 ->]|[R1 ->]]].
  - apply legal_app in L as [L1 L2]. destruct (readhdr_ok _ _ _ _ R1 L1) as [O1 H1].
    destruct c as [|e].
    + destruct H1 as (-> & N8 & NB & Q1). rewrite unpack_le in R2 by assumption. cbn [lift pbind] in R2.
      pose proof (leval8 _ NB N8) as V. pose proof (le_leval _ NB) as LE. rewrite N8 in LE. rewrite got_app.
      remember (leval (got fd t1)) as v. unfold tosigned in R2. pose proof two63_64 as TT.
      destruct (Z.ltb_spec v two63) as [P|P].
      * destruct (Z.ltb_spec v 0); [lia|].
        destruct R2 as [[-> ->]|(a & tr' & -> & R2)]; [rewrite app_nil_r; exact Q1|].
        apply legal_cons in L2 as [A L2]. cbn [sys_ok] in A. cbn [got].
        destruct (Z.eqb_spec (ret a) 0) as [E0|E0].
        -- destruct R2 as [-> ->]. left. apply ends_hard_app; auto. apply ends_hard_one. exact E0.
        -- assert (NH : ~ hard (Alloc v, a)) by exact E0.
           assert (Z8 : v <= len (zeros v)) by (unfold zeros, len; rewrite repeat_length; lia).
           apply runs_bind in R2 as [([c out'] & u1 & u2 & -> & S1 & S2)|[[S1 ->]|[S1 ->]]].
           ++ apply legal_app in L2 as [L2 L3]. destruct (readall_ok _ _ _ _ _ _ S1 L2 Z8) as [O2 H2].
              destruct c as [|e].
              ** destruct S2 as [-> ->]. rewrite app_nil_r. destruct H2 as (H2 & -> & Q2).
                 rewrite skipn_all2 by (unfold zeros; rewrite repeat_length; lia). rewrite app_nil_r.
                 split; [apply frame_intro; auto; lia|]. split; [apply quiet_app; split; auto; apply quiet_cons; auto|]. split; [lia|].
                 exists a. replace (len (got fd u1)) with v by lia. split; [apply in_or_app; right; left; reflexivity|lia].
              ** destruct S2 as [-> ->]. rewrite app_nil_r. destruct H2 as (H2 & -> & Q2). left.
                 apply ends_hard_app; auto. apply ends_hard_cons; auto.
           ++ destruct (readall_ok _ _ _ _ _ _ S1 L2 Z8) as [_ []].
           ++ destruct (readall_ok _ _ _ _ _ _ S1 L2 Z8) as [O2 H2]. apply quiet_app. split; auto. apply quiet_cons. tauto.
      * destruct (Z.ltb_spec (v - two64) 0); [|lia].
        unfold s64 in R2. destruct (in_s64b (- (v - two64))) eqn:IS; cbn [lift pbind] in R2; destruct R2 as [-> ->];
          cbn [got]; rewrite !app_nil_r; unfold in_s64b in IS.
        -- right. split; auto. exists (two64 - v). split; [unfold two63, two64 in *; lia|]. split.
           ++ unfold errframe. rewrite <- LE. f_equal. change (2 ^ 64) with two64. lia.
           ++ f_equal. lia.
        -- rewrite <- LE. f_equal. change (2 ^ 63) with two63. lia.
    + destruct R2 as [-> ->]. rewrite app_nil_r. left. tauto.
  - destruct (readhdr_ok _ _ _ _ R1 L) as [_ []].
  - destruct (readhdr_ok _ _ _ _ R1 L) as [O1 H1]. tauto.
Qed.

(** Frames are self-delimiting. *)
Lemma frame_prefix : forall m m' r r', len m < two64 -> len m' < two64 -> frame m ++ r = frame m' ++ r' -> m = m' /\ r = r'.
Proof.
  intros m m' r r' L L' E. unfold frame in E. rewrite <- !app_assoc in E.
  apply app_eq_len in E as [H E]; [|rewrite !le_length; reflexivity].
  pose proof (len_nonneg _ m). pose proof (len_nonneg _ m').
  apply (f_equal leval) in H. rewrite !leval_le in H by (change (256 ^ Z.of_nat 8) with two64; lia).
  apply app_eq_len in E; auto. unfold len in H. lia.
Qed.
