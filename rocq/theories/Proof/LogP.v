(** Lemmas about logging. *)
From Verif.Model Require Import Base Sys Io Stralloc Log.
From Verif.Spec Require Import Num Grow Stream LogText.
From Verif.Proof Require Import Tac NumP SysP IoP BufferP StrallocP.

(** ** Subsequences *)
Lemma sub_refl : forall a, sub a a.
Proof. induction a; constructor; auto. Qed.
Lemma sub_app : forall a b c d, sub a b -> sub c d -> sub (a ++ c) (b ++ d).
Proof.
  induction 1; intros; cbn [app]; try (constructor; auto; fail).
  induction b; cbn [app]; auto. constructor. auto.
Qed.
Lemma sub_trans : forall b c, sub b c -> forall a, sub a b -> sub a c.
Proof.
  induction 1; intros a' S.
  - inv S. constructor.
  - inv S; constructor; auto.
  - constructor. auto.
Qed.
Lemma sub_prefix : forall a b, sub a (a ++ b).
Proof. induction a; intros; cbn [app]; constructor; auto. Qed.
Lemma sub_pre : forall a b c, sub (a ++ b) c -> sub a c.
Proof. intros a b c H. eapply sub_trans; [exact H|apply sub_prefix]. Qed.

(** ** Numbers *)
Lemma nts_count_ok : forall f n l, 0 <= n < 10 ^ Z.of_nat f -> (0 < f)%nat ->
  exists k, nts_count f n l = Ok (l + 1 + Z.of_nat k) /\ n < 10 ^ Z.of_nat (S k) /\ (k = O \/ 10 ^ Z.of_nat k <= n) /\ (k < f)%nat.
Proof.
  induction f; intros n l N F; [lia|]. cbn [nts_count]. cbn zeta.
  pose proof (Z.div_mod n 10 ltac:(lia)). pose proof (Z.mod_pos_bound n 10 ltac:(lia)).
  destruct (Z.eqb_spec (n / 10) 0).
  - exists O. split; [f_equal; lia|]. split; [cbn; lia|]. split; [auto|lia].
  - destruct f as [|f]. { cbn in N. lia. }
    destruct (IHf (n / 10) (l + 1)) as (k & E & A & B & C).
    + rewrite Nat2Z.inj_succ, Z.pow_succ_r in N by lia. split; [apply Z.div_pos; lia|]. apply Z.div_lt_upper_bound; lia.
    + lia.
    + exists (S k). rewrite E. split; [f_equal; lia|]. split; [|split; [right|lia]].
      * rewrite (Nat2Z.inj_succ (S k)), Z.pow_succ_r by lia. lia.
      * rewrite Nat2Z.inj_succ, Z.pow_succ_r by lia. destruct B as [->|B]; [cbn; lia|lia].
Qed.

Lemma putback_app : forall a y b c, putback (a ++ y :: b) (S (length a)) c = Ok (a ++ c :: b, length a).
Proof. intros. unfold putback. rewrite st_app. reflexivity. Qed.

Lemma nts_fill_ok : forall k f a z r n, 0 <= n < 10 ^ Z.of_nat (S k) -> (k = O \/ 10 ^ Z.of_nat k <= n) -> (k < f)%nat ->
  length z = S k ->
  nts_fill f (a ++ z ++ r) (length a + S k) n = Ok (a ++ putdigits (S k) n ++ r, length a).
Proof.
  induction k; intros f a z r n N B F Z.
  - destruct f as [|f]; [lia|]. destruct z as [|y [|]]; try discriminate. cbn [nts_fill app].
    rewrite Nat.add_1_r, putback_app. cbn [bind]. cbn zeta. cbn in N.
    rewrite Z.div_small by lia. cbn [Z.eqb putdigits app]. reflexivity.
  - destruct f as [|f]; [lia|].
    destruct (exists_last (l := z)) as (z' & y & ->). { intros ->. discriminate. }
    rewrite app_length in Z. cbn [length] in Z. assert (Z' : length z' = S k) by lia. cbn [nts_fill].
    replace (a ++ (z' ++ [y]) ++ r) with ((a ++ z') ++ y :: r) by (rewrite <- !app_assoc; reflexivity).
    replace (length a + S (S k))%nat with (S (length (a ++ z'))) by (rewrite app_length; lia).
    rewrite putback_app. cbn [bind]. cbn zeta. destruct B as [B|B]; [discriminate|].
    rewrite Nat2Z.inj_succ in B. rewrite Z.pow_succ_r in B by lia.
    rewrite Nat2Z.inj_succ in N. rewrite Z.pow_succ_r in N by lia. set (P := 10 ^ Z.of_nat (S k)) in *.
    assert (P1 : 10 ^ Z.of_nat k > 0) by (apply Z.lt_gt, Z.pow_pos_nonneg; lia).
    pose proof (Z.div_mod n 10 ltac:(lia)). pose proof (Z.mod_pos_bound n 10 ltac:(lia)).
    destruct (Z.eqb_spec (n / 10) 0); [lia|].
    replace (length (a ++ z')) with (length a + S k)%nat by (rewrite app_length; lia).
    rewrite <- app_assoc. rewrite IHk; auto; try lia.
    change (putdigits (S (S k)) n) with (putdigits (S k) (n / 10) ++ [48 + n mod 10]). rewrite <- app_assoc. reflexivity.
Qed.

Lemma nts_pad_ok : forall k a z r, length z = k -> nts_pad k (a ++ z ++ r) (length a + k) = Ok (a ++ repeat 48 k ++ r, length a).
Proof.
  induction k; intros a z r Z.
  - destruct z; [|discriminate]. cbn [nts_pad app repeat]. rewrite Nat.add_0_r. reflexivity.
  - destruct (exists_last (l := z)) as (z' & y & ->). { intros ->. discriminate. }
    rewrite app_length in Z. cbn [length] in Z. assert (Z' : length z' = k) by lia. cbn [nts_pad].
    replace (a ++ (z' ++ [y]) ++ r) with ((a ++ z') ++ y :: r) by (rewrite <- !app_assoc; reflexivity).
    replace (length a + S k)%nat with (S (length (a ++ z'))) by (rewrite app_length; lia).
    rewrite putback_app. cbn [bind]. replace (length (a ++ z')) with (length a + k)%nat by (rewrite app_length; lia).
    rewrite <- app_assoc. rewrite IHk; auto. do 3 f_equal. cbn [repeat app]. rewrite (app_comm_cons _ _ 48), repeat_cons, <- app_assoc. reflexivity.
Qed.

Lemma split3 : forall (x : list Z) a b c, (a + b + c < length x)%nat ->
  exists xa xb xc y, x = xa ++ xb ++ xc ++ y :: skipn (a + b + c + 1) x /\ length xa = a /\ length xb = b /\ length xc = c.
Proof.
  intros x a b c L. exists (firstn a x), (firstn b (skipn a x)), (firstn c (skipn (a + b) x)).
  destruct (skipn (a + b + c) x) as [|y t] eqn:E.
  { assert (H := skipn_length (a + b + c) x). rewrite E in H. cbn in H. lia. }
  exists y. split; [|rewrite !firstn_length, ?skipn_length; lia].
  assert (T : skipn (a + b + c + 1) x = t). { rewrite <- skipn_skipn, E. reflexivity. } rewrite T, <- E.
  transitivity (firstn a x ++ skipn a x); [symmetry; apply firstn_skipn|]. f_equal.
  transitivity (firstn b (skipn a x) ++ skipn b (skipn a x)); [symmetry; apply firstn_skipn|]. f_equal.
  rewrite skipn_skipn.
  transitivity (firstn c (skipn (a + b) x) ++ skipn c (skipn (a + b) x)); [symmetry; apply firstn_skipn|]. f_equal.
  rewrite skipn_skipn. reflexivity.
Qed.

(** numtostr fills the beginning of its buffer with the text. *)
Lemma numtostr_ok : forall x bl n cnt d, in_s64 n -> Z.abs n < 10 ^ Z.of_nat d -> (0 < d)%nat ->
  (S d < length x)%nat -> 0 < bl <= len x ->
  exists t, widenum n (Z.min cnt (bl - 1)) t /\ (length t < length x)%nat /\
    numtostr x bl n cnt = Ok (t ++ 0 :: skipn (length t + 1) x, 0%nat).
Proof.
  intros x bl n cnt d S D D0 L BL. unfold numtostr. unfold in_s64 in S.
  set (c := if bl - 1 <? cnt then bl - 1 else cnt). assert (C : c = Z.min cnt (bl - 1)). { unfold c. destruct (Z.ltb_spec (bl - 1) cnt); lia. }
  rewrite <- C. clearbody c. cbn zeta.
  set (u := if n <? 0 then u64 (- u64 n) else u64 n).
  assert (U : u = Z.abs n).
  { unfold u, u64. unfold two63 in S. destruct (Z.ltb_spec n 0).
    - assert (E : n mod two64 = n + two64). { symmetry. apply Z.mod_unique with (q := -1); unfold two64 in *; lia. }
      rewrite E. symmetry. apply Z.mod_unique with (q := -1); unfold two64 in *; lia.
    - rewrite Z.mod_small; unfold two64; lia. }
  assert (U2 : 0 <= u < 10 ^ Z.of_nat 20). { rewrite U. unfold two63 in S. cbn. lia. }
  clearbody u. destruct (nts_count_ok 20 u 0) as (k & E & A & B & K); [lia|lia|]. rewrite E. cbn [bind].
  assert (KD : (k < d)%nat).
  { destruct B as [->|B]; [lia|]. destruct (le_lt_dec d k); auto. exfalso.
    assert (10 ^ Z.of_nat d <= 10 ^ Z.of_nat k) by (apply Z.pow_le_mono_r; lia). lia. }
  set (sg := if n <? 0 then 1%nat else 0%nat).
  replace (if n <? 0 then 0 + 1 + Z.of_nat k + 1 else 0 + 1 + Z.of_nat k) with (Z.of_nat (sg + (k + 1))) by (unfold sg; destruct (n <? 0); lia).
  set (l := Z.of_nat (sg + (k + 1))).
  assert (SG : (sg <= 1)%nat) by (unfold sg; destruct (n <? 0); lia).
  set (z := Z.to_nat (c - l)).
  replace (Z.to_nat (l + (if l <? c then c - l else 0))) with (sg + z + (k + 1))%nat by (unfold z, l; destruct (Z.ltb_spec (Z.of_nat (sg + (k + 1))) c); lia).
  destruct (split3 x sg z (k + 1)) as (xa & xb & xc & y & X & La & Lb & Lc). { unfold len in BL. unfold z, l. lia. }
  remember (skipn (sg + z + (k + 1) + 1) x) as r eqn:R.
  exists ((if n <? 0 then [45] else []) ++ repeat 48 z ++ putdigits (k + 1) u).
  assert (TL : length ((if n <? 0 then [45] else []) ++ repeat 48 z ++ putdigits (k + 1) u) = (sg + z + (k + 1))%nat).
  { rewrite !app_length, repeat_length, putdigits_len. unfold sg. destruct (n <? 0); cbn [length]; lia. }
  rewrite TL. rewrite <- R. split; [|split; [unfold len in BL; unfold z, l; lia|]].
  - assert (NM : numeral (putdigits (k + 1) u)).
    { rewrite Nat.add_1_r. destruct B as [->|B].
      + cbn [putdigits app]. cbn in A. rewrite Z.mod_small by lia. destruct (Z.eqb_spec u 0) as [->|NZ]; [left; reflexivity|].
        right. exists (48 + u), []. split; auto. split; [lia|constructor].
      + right. destruct (putdigits_head k u) as (c2 & t & E2 & C2); [lia|]. exists c2, t. split; auto. split; auto.
        pose proof (putdigits_digit (Datatypes.S k) u) as DD. rewrite E2 in DD. apply Forall_cons_iff in DD. tauto. }
    assert (V : decval (putdigits (k + 1) u) = u). { apply putdigits_val. replace (k + 1)%nat with (Datatypes.S k) by lia. lia. }
    assert (LP : len (putdigits (k + 1) u) = Z.of_nat k + 1). { unfold len. rewrite putdigits_len. lia. }
    unfold widenum. unfold sg, l, z in *. destruct (Z.ltb_spec n 0).
    + right. split; auto. eexists. split; [reflexivity|]. eexists _, _. split; [reflexivity|]. split; auto. split; [lia|]. lia.
    + left. split; auto. eexists _, _. split; [reflexivity|]. split; auto. split; [lia|]. lia.
  - rewrite X. replace (sg + z + (k + 1))%nat with (length (xa ++ xb ++ xc)) by (rewrite !app_length; lia).
    replace (xa ++ xb ++ xc ++ y :: r) with ((xa ++ xb ++ xc) ++ y :: r) by (rewrite <- !app_assoc; reflexivity).
    rewrite st_app. cbn [bind].
    replace ((xa ++ xb ++ xc) ++ 0 :: r) with ((xa ++ xb) ++ xc ++ 0 :: r) by (rewrite <- !app_assoc; reflexivity).
    replace (length (xa ++ xb ++ xc)) with (length (xa ++ xb) + Datatypes.S k)%nat by (rewrite !app_length; lia).
    rewrite nts_fill_ok; try lia; auto. cbn [bind].
    rewrite <- app_assoc. rewrite app_length. rewrite Lb. rewrite nts_pad_ok by auto. cbn [bind].
    replace (k + 1)%nat with (Datatypes.S k) by lia.
    unfold sg in La. destruct (n <? 0).
    + destruct xa as [|w [|]]; try discriminate. unfold putback, st. cbn [length Nat.ltb Nat.leb app upd bind]. rewrite <- app_assoc. reflexivity.
    + destruct xa; try discriminate. cbn [app length]. rewrite <- app_assoc. reflexivity.
Qed.

(** ** Emitting text *)
Definition pend (s : lbuf) : list Z := firstn (Z.to_nat (lblen s)) (lb s).
Definition lbok (s : lbuf) : Prop := length (lb s) = 256%nat /\ 0 <= lblen s <= 256.

Lemma clocks_app : forall a b, clocks (a ++ b) = clocks a ++ clocks b.
Proof. induction a as [|[c x] a IH]; intros; cbn [app clocks]; auto. destruct c; cbn [app]; auto. f_equal. auto. Qed.

Lemma smooth_app : forall a b, smooth (a ++ b) <-> smooth a /\ smooth b.
Proof. intros. apply Forall_app. Qed.

Definition eo (s : lbuf) (t : list Z) (tr : trace) (o : outcome lbuf) : Prop :=
  match o with
  | Wrong => False
  | Cut => sub (sent 2 tr) (pend s ++ t) /\ (smooth tr -> is_prefix (sent 2 tr) (pend s ++ t))
  | Fin s' => lbok s' /\ sub (sent 2 tr ++ pend s') (pend s ++ t) /\ (smooth tr -> sent 2 tr ++ pend s' = pend s ++ t)
  end.
Definition eout (s : lbuf) (t : list Z) (tr : trace) (o : outcome lbuf) : Prop := clocks tr = [] /\ eo s t tr o.

Lemma eo_app : forall s t1 tr1 s1 t2 tr2 o, eo s t1 tr1 (Fin s1) -> eo s1 t2 tr2 o -> eo s (t1 ++ t2) (tr1 ++ tr2) o.
Proof.
  intros s t1 tr1 s1 t2 tr2 o (I1 & S1 & P1) X. unfold eo in *. rewrite sent_app. destruct o as [s'| |]; auto.
  + destruct X as (I2 & S2 & P2). split; auto. split.
    * rewrite <- app_assoc, (app_assoc (pend s)). eapply sub_trans; [apply sub_app; [exact S1|apply sub_refl]|].
      rewrite <- app_assoc. apply sub_app; [apply sub_refl|exact S2].
    * intros SM. apply smooth_app in SM as [M1 M2]. rewrite <- app_assoc, (P2 M2), !app_assoc, (P1 M1). reflexivity.
  + destruct X as (S2 & P2). split.
    * rewrite (app_assoc (pend s)). eapply sub_trans; [apply sub_app; [exact S1|apply sub_refl]|].
      rewrite <- app_assoc. apply sub_app; [apply sub_refl|exact S2].
    * intros SM. apply smooth_app in SM as [M1 M2]. destruct (P2 M2) as (r & E). exists r.
      rewrite <- app_assoc, <- E, !app_assoc, (P1 M1). reflexivity.
Qed.
Lemma eo_cut : forall s t1 tr t2, eo s t1 tr Cut -> eo s (t1 ++ t2) tr Cut.
Proof.
  intros s t1 tr t2 (S1 & P1). unfold eo. rewrite app_assoc. split.
  + rewrite <- (app_nil_r (sent 2 tr)). apply sub_app; auto. constructor.
  + intros M. destruct (P1 M) as (r & E). exists (r ++ t2). rewrite E, <- app_assoc. reflexivity.
Qed.
Definition emits (q : lbuf -> prog lbuf) (t : list Z) : Prop :=
  forall s tr o, lbok s -> runs (q s) tr o -> legal tr -> eout s t tr o.

Lemma emits_bind : forall q1 q2 t1 t2, emits q1 t1 -> emits q2 t2 -> emits (fun s => s <~ q1 s ;; q2 s) (t1 ++ t2).
Proof.
  intros q1 q2 t1 t2 H1 H2 s tr o I R L. apply runs_bind in R as [(s1 & tr1 & tr2 & -> & R1 & R2)|[[R1 ->]|[R1 ->]]].
  - apply legal_app in L as [L1 L2]. destruct (H1 _ _ _ I R1 L1) as (C1 & E1).
    destruct (H2 _ _ _ (proj1 E1) R2 L2) as (C2 & E2). split; [rewrite clocks_app, C1, C2; reflexivity|]. eapply eo_app; eauto.
  - destruct (H1 _ _ _ I R1 L) as (_ & []).
  - destruct (H1 _ _ _ I R1 L) as (C1 & E1). split; auto. apply eo_cut. auto.
Qed.

Lemma emits_eq : forall q t t', emits q t -> t = t' -> emits q t'.
Proof. intros; subst; auto. Qed.

Lemma emits_ret : emits (fun s => Ret s) [].
Proof.
  intros s tr o I [-> ->] _. split; auto. unfold eo. cbn [sent app]. rewrite app_nil_r. split; auto. split; auto. apply sub_refl.
Qed.

Lemma flushloop_ok : forall f b k tr o, runs (flushloop f b k) tr o -> legal tr ->
  clocks tr = [] /\ o <> Wrong /\ is_prefix (sent 2 tr) b /\ (smooth tr -> o = Fin tt -> sent 2 tr = b).
Proof.
  induction f; intros b k tr o R L; cbn [flushloop] in R.
  { destruct R as [-> ->]. split; auto. split; [discriminate|]. split; [exists b; reflexivity|discriminate]. }
  destruct (Z.ltb_spec 0 (len b)).
  2:{ destruct R as [-> ->]. split; auto. split; [discriminate|]. split; [exists b; reflexivity|]. intros.
      destruct b; auto. rewrite len_cons in H. pose proof (len_nonneg _ b). lia. }
  destruct R as [[-> ->]|(a & tr' & -> & R)]. { split; auto. split; [discriminate|]. split; [exists b; reflexivity|discriminate]. }
  apply legal_cons in L as [L1 L]. cbn [sys_ok] in L1. cbn [clocks sent]. change (2 =? 2) with true. cbn [pbind] in R. cbv iota.
  assert (STOP : runs (Ret tt) tr' o -> ret a <= 0 -> ~ (ret a = -1 /\ err a = EINTR) ->
    clocks tr' = [] /\ o <> Wrong /\ is_prefix (firstn (Z.to_nat (ret a)) b ++ sent 2 tr') b /\
    (smooth ((Write 2 b, a) :: tr') -> o = Fin tt -> firstn (Z.to_nat (ret a)) b ++ sent 2 tr' = b)).
  { intros [-> ->] N1 N2. split; auto. split; [discriminate|]. replace (Z.to_nat (ret a)) with O by lia.
    split; [exists b; reflexivity|]. intros SM. inv SM. cbn in H2. exfalso. destruct H2; [lia|tauto]. }
  assert (AGAIN : forall k', runs (flushloop f b k') tr' o -> ret a <= 0 ->
    clocks tr' = [] /\ o <> Wrong /\ is_prefix (firstn (Z.to_nat (ret a)) b ++ sent 2 tr') b /\
    (smooth ((Write 2 b, a) :: tr') -> o = Fin tt -> firstn (Z.to_nat (ret a)) b ++ sent 2 tr' = b)).
  { intros k' R' N1. destruct (IHf _ _ _ _ R' L) as (A & B & C & D). split; auto. split; auto.
    replace (Z.to_nat (ret a)) with O by lia. cbn [firstn app]. split; auto. intros SM. inv SM. auto. }
  destruct (Z.ltb_spec (ret a) 0).
  - destruct (Z.eqb_spec (err a) EINTR); [apply (AGAIN k); auto; lia|].
    destruct (Z.eqb_spec (err a) EAGAIN).
    + destruct (Z.ltb_spec (k + 1) 64); [apply (AGAIN (k + 1)); auto; lia|]. apply STOP; auto; try lia; tauto.
    + apply STOP; auto; try lia; tauto.
  - destruct (Z.eqb_spec (ret a) 0); [apply STOP; auto; lia|].
    destruct (IHf _ _ _ _ R L) as (A & B & (r & C) & D). split; auto. split; auto. split.
    + exists r. rewrite <- app_assoc, <- C. symmetry. apply firstn_skipn.
    + intros SM E. inv SM. rewrite (D H4 eq_refl). apply firstn_skipn.
Qed.

Lemma flush_emits : forall f s tr o, lbok s -> runs (flush f s) tr o -> legal tr ->
  eout s [] tr o /\ (forall s', o = Fin s' -> lblen s' = 0).
Proof.
  intros f s tr o I R L. unfold flush in R. fold (pend s) in R.
  apply runs_bind in R as [([] & tr1 & tr2 & -> & R1 & [-> ->])|[[R1 ->]|[R1 ->]]].
  - rewrite app_nil_r in *. destruct (flushloop_ok _ _ _ _ _ R1 L) as (A & B & (r & C) & D). split; [|intros s' E; inv E; reflexivity].
    split; auto. destruct I as [I1 I2]. split; [split; cbn [lb lblen]; auto; lia|]. change (pend (mklb (lb s) 0)) with (@nil Z).
    rewrite !app_nil_r. split; [rewrite C; apply sub_prefix|]. intros. apply D; auto.
  - destruct (flushloop_ok _ _ _ _ _ R1 L) as (_ & B & _). congruence.
  - destruct (flushloop_ok _ _ _ _ _ R1 L) as (A & B & (r & C) & D). split; [|discriminate].
    split; auto. unfold eo. rewrite !app_nil_r. split; [rewrite C; apply sub_prefix|]. intros. exists r. auto.
Qed.

Lemma outch_ok : forall f x, emits (outch f x) [x].
Proof.
  intros f x. unfold outch. apply (emits_eq _ ([] ++ [x])); [|reflexivity].
  intros s tr o I R L. 
  set (q := fun s => if 256 <=? lblen s then flush f s else Ret s) in R.
  apply runs_bind in R as [(s1 & tr1 & tr2 & -> & R1 & R2)|[[R1 ->]|[R1 ->]]].
  - apply legal_app in L as [L1 L2].
    assert (H : eout s [] tr1 (Fin s1) /\ lblen s1 < 256).
    { unfold q in R1. destruct (Z.leb_spec 256 (lblen s)).
      - destruct (flush_emits _ _ _ _ I R1 L1) as (E & F). split; auto. rewrite (F _ eq_refl). lia.
      - destruct R1 as [-> E]. inv E. split; [|lia]. apply emits_ret; auto. split; auto. }
    destruct H as [E B]. destruct E as (C1 & [I1 I2] & S1 & P1). unfold st in R2.
    destruct (Nat.ltb_spec (Z.to_nat (lblen s1)) (length (lb s1))) as [LT|GE]; [|lia].
    cbn [lift pbind] in R2. destruct R2 as [-> ->]. rewrite app_nil_r.
    assert (PE : pend (mklb (upd (lb s1) (Z.to_nat (lblen s1)) x) (lblen s1 + 1)) = pend s1 ++ [x]).
    { unfold pend. cbn [lb lblen]. replace (Z.to_nat (lblen s1 + 1)) with (Z.to_nat (lblen s1) + 1)%nat by lia.
      clear - LT. generalize dependent (Z.to_nat (lblen s1)). generalize (lb s1). induction l as [|y l IH]; intros n LT; cbn [length] in LT; [lia|].
      destruct n; cbn [upd Nat.add firstn app]; auto. f_equal. apply IH. lia. }
    split; auto. split; [split; cbn [lb lblen]; [rewrite upd_length; auto|lia]|]. rewrite PE. rewrite app_nil_r in S1, P1. cbn [app]. rewrite app_assoc.
    split; [|intros M; rewrite (P1 M); reflexivity]. apply sub_app; auto. apply sub_refl.
  - assert (H : eout s [] tr Wrong). { unfold q in R1. destruct (256 <=? lblen s); [apply (flush_emits _ _ _ _ I R1 L)|]. destruct R1; discriminate. }
    destruct H as [_ []].
  - assert (H : eout s [] tr Cut). { unfold q in R1. destruct (256 <=? lblen s); [apply (flush_emits _ _ _ _ I R1 L)|]. destruct R1; discriminate. }
    destruct H as (A & B). split; auto. apply eo_cut. auto.
Qed.

Lemma hexdigit_ok : forall v, 0 <= v < 16 -> hexdigit v = Ok (hexof v).
Proof.
  intros v V. assert (v = 0 \/ v = 1 \/ v = 2 \/ v = 3 \/ v = 4 \/ v = 5 \/ v = 6 \/ v = 7 \/ v = 8 \/ v = 9 \/ v = 10 \/
    v = 11 \/ v = 12 \/ v = 13 \/ v = 14 \/ v = 15) as H by lia.
  repeat (destruct H as [->|H]; [reflexivity|]). subst. reflexivity.
Qed.
Lemma hi4 : forall c, is_byte c -> Z.land (Z.shiftr c 4) 15 = c / 16.
Proof.
  intros c C. unfold is_byte in C. rewrite Z.shiftr_div_pow2 by lia. change 15 with (Z.ones 4). rewrite Z.land_ones by lia.
  change (2 ^ 4) with 16. apply Z.mod_small. split; [apply Z.div_pos; lia|]. apply Z.div_lt_upper_bound; lia.
Qed.
Lemma lo4 : forall c, Z.land (Z.shiftr c 0) 15 = c mod 16.
Proof. intros c. rewrite Z.shiftr_0_r. change 15 with (Z.ones 4). rewrite Z.land_ones by lia. reflexivity. Qed.

Lemma emits_lift : forall A (x : res A) (a : A) q t, x = Ok a -> emits (q a) t -> emits (fun s => v <~ lift x ;; q v s) t.
Proof. intros A x a q t -> H. exact H. Qed.

Lemma shown_nl : forall lf, shown lf 10 = if lf then [10] else bs "\n". Proof. reflexivity. Qed.
Lemma shown_other : forall lf c, c <> 10 -> c <> 13 -> c <> 9 ->
  shown lf c = if (32 <=? c) && (c <=? 126) then [c] else bs "\x" ++ hex2 c.
Proof.
  intros lf c A B C. unfold shown. destruct c as [|p|p]; auto.
  do 4 (destruct p; auto; try contradiction).
Qed.

Lemma outsescape_ok : forall f s rest lf, nonul s -> emits (outsescape f (s ++ 0 :: rest) lf) (shows lf s).
Proof.
  induction s as [|c s IH]; intros rest lf N.
  - exact emits_ret.
  - inv N. cbn [app outsescape shows flat_map]. destruct (Z.eqb_spec c 0); [lia|].
    apply emits_bind; [|apply IH; auto].
    destruct (Z.eqb_spec c 10) as [->|C10].
    { destruct lf; [apply outch_ok|]. apply (emits_bind _ _ [92] [110]); apply outch_ok. }
    destruct (Z.eqb_spec c 13) as [->|C13]. { apply (emits_bind _ _ [92] [114]); apply outch_ok. }
    destruct (Z.eqb_spec c 9) as [->|C9]. { apply (emits_bind _ _ [92] [116]); apply outch_ok. }
    rewrite shown_other by auto.
    assert (D1 : 0 <= c / 16 < 16) by (split; [apply Z.div_pos; lia|apply Z.div_lt_upper_bound; lia]).
    pose proof (Z.mod_pos_bound c 16 ltac:(lia)) as D2.
    destruct ((c <? 32) || (126 <? c)) eqn:E.
    + replace ((32 <=? c) && (c <=? 126)) with false by lia.
      apply (emits_bind _ _ [92] ([120] ++ [hexof (c / 16)] ++ [hexof (c mod 16)])); [apply outch_ok|].
      apply emits_bind; [apply outch_ok|].
      eapply emits_lift with (a := hexof (c / 16)); [rewrite hi4 by (unfold is_byte; lia); apply hexdigit_ok; auto|].
      apply emits_bind; [apply outch_ok|].
      eapply emits_lift with (a := hexof (c mod 16)); [rewrite lo4; apply hexdigit_ok; auto|]. apply outch_ok.
    + replace ((32 <=? c) && (c <=? 126)) with true by lia. apply outch_ok.
Qed.

Lemma shows_plain : forall lf s, Forall (fun c => printable c) s -> shows lf s = s.
Proof.
  induction 1 as [|c s C _ IH]; auto. cbn [shows flat_map]. unfold printable in C.
  rewrite shown_other by lia. replace ((32 <=? c) && (c <=? 126)) with true by lia. unfold shows in IH. rewrite IH. reflexivity.
Qed.
Definition plainb (s : list Z) : bool := forallb (fun c => (32 <=? c) && (c <=? 126)) s.
Lemma plain_dec : forall s, plainb s = true -> Forall (fun c => printable c) s.
Proof.
  intros s H. apply Forall_forall. intros c I. unfold plainb in H. rewrite forallb_forall in H. apply H in I. unfold printable. lia.
Qed.
Lemma plain_nonul : forall s, Forall (fun c => printable c) s -> nonul s.
Proof. intros s H. eapply Forall_impl; [|exact H]. unfold printable. cbn. lia. Qed.

Lemma outs_ok : forall f t, plainb t = true -> emits (outs f t) t.
Proof.
  intros f t P. apply plain_dec in P. unfold outs. eapply emits_eq; [apply outsescape_ok, plain_nonul; auto|]. apply shows_plain. auto.
Qed.
Lemma outs_nl : forall f, emits (outs f [10]) [10].
Proof. intros f. exact (outsescape_ok f [10] [] true ltac:(apply Forall_cons; [lia|constructor])). Qed.

Lemma padded_plain : forall v w t, padded v w t -> Forall (fun c => printable c) t.
Proof.
  intros v w t (z & m & -> & N & _ & _). apply Forall_app. split.
  - apply Forall_forall. intros c I. apply repeat_spec in I. subst. unfold printable. lia.
  - destruct N as [->|(c & m' & -> & C & D)]; [apply plain_dec; reflexivity|].
    apply Forall_cons; [unfold printable; lia|]. eapply Forall_impl; [|exact D]. unfold digit, printable. cbn. lia.
Qed.
Lemma widenum_plain : forall v w t, widenum v w t -> Forall (fun c => printable c) t.
Proof.
  intros v w t [[_ P]|[_ (u & -> & P)]]; [eapply padded_plain; eauto|].
  apply Forall_cons; [unfold printable; lia|]. eapply padded_plain; eauto.
Qed.

Lemma outnum_ok : forall f n w, in_s64 n -> w <= 67 -> exists t, widenum n w t /\ emits (outnum f n w) t.
Proof.
  intros f n w N W. destruct (numtostr_ok (repeat 170 68) STATICBUFSIZE n w 20) as (t & T & _ & E); auto; try lia.
  - unfold in_s64, two63 in N. cbn. lia.
  - rewrite repeat_length. lia.
  - unfold STATICBUFSIZE, len. rewrite repeat_length. lia.
  - unfold STATICBUFSIZE in *. replace (Z.min w (68 - 1)) with w in T by lia. exists t. split; auto.
    unfold outnum. intros s tr o I R L. change STATICBUFSIZE with 68 in R. rewrite E in R. cbn [lift pbind skipn] in R.
    pose proof (widenum_plain _ _ _ T) as P.
    apply (emits_eq _ _ t (outsescape_ok f t (skipn (length t + 1) (repeat 170 68)) true (plain_nonul _ P)) (shows_plain _ _ P) _ _ _ I R L).
Qed.

Lemma outtime_ok : forall f d, length d = 7%nat -> Forall (fun v => 0 <= v < 2 ^ 31 - 1901) d ->
  exists t, timetext d t /\ emits (outtime f d) t.
Proof.
  intros f d LD D. destruct d as [|y [|m [|dd [|h [|mi [|s [|u [|]]]]]]]]; try discriminate.
  repeat (apply Forall_cons_iff in D as [? D]). change (2 ^ 31 - 1901) with 2147481747 in *.
  assert (S : forall v, 0 <= v < 2147483648 -> in_s64 v) by (intros; unfold in_s64, two63; lia).
  destruct (outnum_ok f (y + 1900) 4) as (ty & Ty & Ey); [apply S; lia|lia|].
  destruct (outnum_ok f (m + 1) 2) as (tm & Tm & Em); [apply S; lia|lia|].
  destruct (outnum_ok f dd 2) as (td & Td & Ed); [apply S; lia|lia|].
  destruct (outnum_ok f h 2) as (th & Th & Eh); [apply S; lia|lia|].
  destruct (outnum_ok f mi 2) as (tmi & Tmi & Emi); [apply S; lia|lia|].
  destruct (outnum_ok f s 2) as (ts & Ts & Es); [apply S; lia|lia|].
  destruct (outnum_ok f u 6) as (tu & Tu & Eu); [apply S; lia|lia|].
  exists (ty ++ bs "-" ++ tm ++ bs "-" ++ td ++ bs " " ++ th ++ bs ":" ++ tmi ++ bs ":" ++ ts ++ bs "." ++ tu ++ bs ": ").
  split.
  - exists y, m, dd, h, mi, s, u, ty, tm, td, th, tmi, ts, tu. split; [reflexivity|]. tauto.
  - unfold outtime.
    repeat (apply emits_bind; [first [assumption|apply outs_ok; reflexivity]|]). apply outs_ok. reflexivity.
Qed.

(** ** Records *)
Lemma cstr_emits : forall f p s lf, cstr p s -> emits (outsescape f p lf) (shows lf s).
Proof. intros f p s lf (rest & -> & N). apply outsescape_ok. auto. Qed.

Lemma shows_app : forall lf a b, shows lf (a ++ b) = shows lf a ++ shows lf b.
Proof. intros. apply flat_map_app. Qed.

Lemma outfrags_ok : forall n f fr ms lf, length fr = n -> Forall2 ocstr fr ms -> emits (outfrags n f fr lf) (shows lf (upto ms)).
Proof.
  induction n; intros f fr ms lf L F.
  - destruct fr; [|discriminate]. inv F. exact emits_ret.
  - destruct fr as [|p fr]; [discriminate|]. inv F. cbn [outfrags upto]. cbn in L.
    destruct p as [p|], y as [m|]; try contradiction.
    + rewrite shows_app. apply emits_bind; [apply cstr_emits; auto|]. apply IHn; auto.
    + exact emits_ret.
Qed.

Lemma outpart_ok : forall f p s, ocstr p s -> emits (outpart f p) (part s).
Proof.
  intros f p s C. unfold outpart, part. destruct p as [p|], s as [s|]; try contradiction.
  - apply emits_bind; [apply cstr_emits; auto|]. apply outs_ok. reflexivity.
  - exact emits_ret.
Qed.

Lemma outspace_ok : forall f b, emits (outspace f b) (if b then [] else [32]).
Proof. intros f [|]; [exact emits_ret|]. apply outs_ok. reflexivity. Qed.

Lemma outerr_ok : forall f show p e, cstr p e ->
  emits (outerr f show p) (if show then bs " " ++ bs "(" ++ shows true e ++ bs ")" else []).
Proof.
  intros f [|] p e C; [|exact emits_ret]. unfold outerr.
  apply emits_bind; [apply (outspace_ok f false)|]. apply emits_bind; [apply outs_ok; reflexivity|].
  apply emits_bind; [apply cstr_emits; auto|]. apply outs_ok. reflexivity.
Qed.

Lemma outwhere_ok : forall f p q a b l, cstr p a -> cstr q b -> in_s64 l ->
  exists n, widenum l 0 n /\ emits (outwhere f p q l) (bs "{" ++ shows true a ++ bs ":" ++ shows true b ++ bs ":" ++ n ++ bs "}").
Proof.
  intros f p q a b l A B L. destruct (outnum_ok f l 0) as (n & N & E); [auto|lia|]. exists n. split; auto. unfold outwhere.
  apply emits_bind; [apply outs_ok; reflexivity|]. apply emits_bind; [apply cstr_emits; auto|].
  apply emits_bind; [apply outs_ok; reflexivity|]. apply emits_bind; [apply cstr_emits; auto|].
  apply emits_bind; [apply outs_ok; reflexivity|]. apply emits_bind; [exact E|]. apply outs_ok; reflexivity.
Qed.

Lemma outid_ok : forall f p id sp, ocstr p id ->
  emits (outid f p sp) (match id with Some (c :: i) => (if sp then [] else [32]) ++ bs "[" ++ shows false (c :: i) ++ bs "]" | _ => [] end).
Proof.
  intros f p id sp C. unfold outid. destruct p as [p|], id as [i|]; try contradiction; [|exact emits_ret].
  destruct C as (rest & -> & N). destruct i as [|c i].
  - cbn [app deref]. exact emits_ret.
  - cbn [app deref lift pbind]. inv N. destruct (Z.eqb_spec c 0); [lia|].
    apply emits_bind; [apply outspace_ok|]. apply emits_bind; [apply outs_ok; reflexivity|].
    apply emits_bind; [|apply outs_ok; reflexivity]. apply (outsescape_ok f (c :: i) rest false). apply Forall_cons; auto.
Qed.

Lemma outcolor_ok : forall f col, match col with Some t => plainb t = true | None => True end ->
  emits (outcolor f col) (match col with Some t => 27 :: t | None => [] end).
Proof.
  intros f [t|] P; [|exact emits_ret]. apply (emits_bind _ _ [27] t); [apply outch_ok|]. apply outs_ok. auto.
Qed.

Lemma levelname_ok : forall level fe w col, levelname level fe = (w, col) -> 1 <= level <= 4 ->
  levelword level fe w /\ plainb w = true /\
  match col with Some t => level < 3 /\ tint level fe t /\ plainb t = true | None => 3 <= level end.
Proof.
  intros level fe w col E L. unfold levelname in E. unfold levelword, tint.
  destruct (Z.eqb_spec level 1) as [->|]; [destruct (Z.eqb_spec fe 2); inv E; (split; [tauto|]; split; [reflexivity|]; split; [lia|]; split; [tauto|reflexivity])|].
  destruct (Z.eqb_spec level 2) as [->|].
  { destruct (Z.eqb_spec fe 1); [inv E; (split; [tauto|]; split; [reflexivity|]; split; [lia|]; split; [tauto|reflexivity])|].
    destruct (Z.eqb_spec fe 2); inv E; (split; [tauto|]; split; [reflexivity|]; split; [lia|]; split; [tauto|reflexivity]). }
  destruct (Z.eqb_spec level 3) as [->|]; [inv E; split; [tauto|]; split; [reflexivity|lia]|].
  destruct (Z.eqb_spec level 4) as [->|]; [inv E; split; [tauto|]; split; [reflexivity|lia]|]. lia.
Qed.

Lemma log_rest_ok : forall fuel c level fe lname col f l fce frags e name ip id fs gs ms es,
  1 <= level <= 4 -> levelword level fe lname -> plainb lname = true -> match col with Some t => plainb t = true | None => True end ->
  ocstr (cname c) name -> ocstr (cip c) ip -> ocstr (cid c) id -> ocstr f fs -> ocstr fce gs -> cstr (cestr c e) es ->
  length frags = 9%nat -> Forall2 ocstr frags ms -> in_s64 l ->
  exists body, (forall tm tt, match tm with Some d => timetext d tt | None => tt = [] end ->
       record level fe tm name ip (upto ms) (if err_shown level fe e then Some es else None) (where_shown (clevel c) l fs gs) (id_shown (clevel c) id) (tt ++ body)) /\
    emits (log_rest fuel c level fe true lname col f l fce frags e)
          (body ++ match col with Some _ => 27 :: bs "[0m" | None => [] end ++ [10]).
Proof.
  intros fuel c level fe lname col f l fce frags e name ip id fs gs ms es LV LW PL PC CN CI CID CF CG CE LF FR SL.
  set (se := err_shown level fe e).
  set (E := if se then bs " " ++ bs "(" ++ shows true es ++ bs ")" else []).
  assert (W : exists w, match where_shown (clevel c) l fs gs with
       | Some (a, b, l) => exists n, widenum l 0 n /\ w = bs "{" ++ shows true a ++ bs ":" ++ shows true b ++ bs ":" ++ n ++ bs "}"
       | None => w = [] end /\
     emits (fun s => match (match f, fce with
            | Some f', Some fce' => if true && negb (l =? 0) && negb (clevel c <=? 2) then Some (f', fce') else None
            | _, _ => None end) with
       | Some (f', fce') => s <~ outspace fuel se s ;; outwhere fuel f' fce' l s
       | None => Ret s end) (match where_shown (clevel c) l fs gs with Some _ => (if se then [] else [32]) ++ w | None => [] end)).
  { unfold where_shown. destruct f as [f|], fs as [fs|]; try contradiction; [|exists []; split; [reflexivity|exact emits_ret]].
    destruct fce as [fce|], gs as [gs|]; try contradiction; [|exists []; split; [reflexivity|exact emits_ret]]. cbn [andb].
    destruct (negb (l =? 0) && negb (clevel c <=? 2)); [|exists []; split; [reflexivity|exact emits_ret]].
    destruct (outwhere_ok fuel f fce fs gs l CF CG SL) as (n & N & EM). eexists. split; [exists n; split; [exact N|reflexivity]|].
    apply emits_bind; [apply outspace_ok|exact EM]. }
  destruct W as (w & WW & WE).
  set (isw := match where_shown (clevel c) l fs gs with Some _ => true | None => false end).
  assert (ISW : match (match f, fce with
            | Some f', Some fce' => if true && negb (l =? 0) && negb (clevel c <=? 2) then Some (f', fce') else None
            | _, _ => None end) with Some _ => true | None => false end = isw).
  { unfold isw, where_shown. destruct f as [f|], fs as [fs|]; try contradiction; auto.
    destruct fce as [fce|], gs as [gs|]; try contradiction; auto. cbn [andb]. destruct (negb (l =? 0) && negb (clevel c <=? 2)); auto. }
  set (ids := id_shown (clevel c) id).
  set (I := match ids with [] => [] | _ => (if se || isw then [] else [32]) ++ bs "[" ++ shows false ids ++ bs "]" end).
  assert (IE : emits (outid fuel (if true && negb (clevel c <=? 1) then cid c else None) (se || isw)) I).
  { unfold I, ids, id_shown. cbn [andb]. destruct (negb (clevel c <=? 1)).
    - eapply emits_eq; [apply outid_ok; exact CID|]. destruct id as [[|x i]|]; reflexivity.
    - eapply emits_eq; [apply (outid_ok fuel None None); exact Logic.I|]. destruct id; reflexivity. }
  exists (part name ++ lname ++ bs ": " ++ part ip ++ shows false (upto ms) ++ E ++
     (match where_shown (clevel c) l fs gs with Some _ => (if se then [] else [32]) ++ w | None => [] end) ++ I).
  split.
  - intros tm tt T. exists tt, lname, w. split; auto. split; auto. split; auto. cbn zeta. fold ids. fold se. do 2 f_equal.
    do 4 f_equal. unfold E, I. destruct se; cbn [orb].
    + cbn [app bs map String.list_ascii_of_string]. rewrite <- ?app_assoc. cbn [app]. unfold isw.
      destruct (where_shown (clevel c) l fs gs) as [[[a b] l']|].
      * destruct ids; rewrite <- ?app_assoc; reflexivity.
      * rewrite WW. destruct ids; rewrite <- ?app_assoc; reflexivity.
    + unfold isw. destruct (where_shown (clevel c) l fs gs) as [[[a b] l']|].
      * destruct WW as (n & _ & ->). destruct ids; cbn [app bs map String.list_ascii_of_string]; rewrite <- ?app_assoc; cbn [app]; reflexivity.
      * rewrite WW. destruct ids; reflexivity.
  - unfold log_rest. eapply emits_eq.
    + apply emits_bind; [apply outpart_ok; exact CN|]. apply emits_bind.
      { apply emits_bind; [apply outs_ok; exact PL|]. apply outs_ok. reflexivity. }
      apply emits_bind; [apply outpart_ok; exact CI|]. apply emits_bind; [apply (outfrags_ok 9 fuel frags ms false); auto|].
      cbn zeta. apply emits_bind; [apply outerr_ok; exact CE|]. apply emits_bind; [exact WE|].
      rewrite ISW. apply emits_bind; [exact IE|]. apply emits_bind; [|apply outs_nl].
      apply outcolor_ok. destruct col; exact eq_refl || exact Logic.I.
    + change (true && negb (e =? 0) && negb (fe =? 0) && (level <? 3)) with se. fold E. unfold reset.
      destruct col; rewrite <- ?app_assoc; reflexivity.
Qed.

Definition filtered (c : lconf) (level : Z) (f : option (list Z)) : res bool :=
  if clevel c <? level then Ok true
  else if 4 <=? level then b <- whitelist_match (cwhite c) f ;; Ok (negb b) else Ok false.

Lemma log9_filtered : forall fuel c level fe f l fce frags e s tr o, filtered c level f = Ok true ->
  runs (log_9_ fuel c level fe f l fce frags e s) tr o -> tr = [] /\ o = Fin s.
Proof.
  intros fuel c level fe f l fce frags e s tr o F R. unfold log_9_, filtered in *. destruct (clevel c <? level); auto.
  destruct (4 <=? level); [|discriminate]. destruct (whitelist_match (cwhite c) f) as [[|]| |]; try discriminate. auto.
Qed.

Lemma log9_ok : forall fuel c level fe f l fce frags e name ip id fs gs ms es s tr o,
  1 <= level <= 4 -> filtered c level f = Ok false -> lbok s -> lblen s = 0 ->
  ocstr (cname c) name -> ocstr (cip c) ip -> ocstr (cid c) id -> ocstr f fs -> ocstr fce gs -> cstr (cestr c e) es ->
  length frags = 9%nat -> Forall2 ocstr frags ms -> in_s64 l ->
  runs (log_9_ fuel c level fe f l fce frags e s) tr o -> legal tr -> Forall tm_ok (clocks tr) ->
  exists body out,
    record level fe (clocktime (clocks tr)) name ip (upto ms) (if err_shown level fe e then Some es else None)
      (where_shown (clevel c) l fs gs) (id_shown (clevel c) id) body /\
    line (ccolor c) level fe body out /\ eo s out tr o /\ (forall s', o = Fin s' -> lblen s' = 0) /\
    (clocks tr <> [] -> ctime c = true).
Proof.
  intros fuel c level fe f l fce frags e name ip id fs gs ms es s tr o LV FI IS S0 CN CI CID CF CG CE LF FR SL R L TM.
  assert (R' : runs (let '(lname, lcolor) := levelname level fe in
    let lv := true in let col := if ccolor c then lcolor else None in
    s <~ outcolor fuel col s ;;
    s <~ (if lv && ctime c then a <~ sys1 Clock ;; if ret a =? 0 then Ret s else outtime fuel (data a) s else Ret s) ;;
    s <~ log_rest fuel c level fe lv lname col f l fce frags e s ;; flush fuel s) tr o).
  { unfold log_9_, filtered in *. destruct (clevel c <? level); [discriminate|]. replace (negb (level =? 0)) with true in R by lia.
    destruct (4 <=? level); [|exact R]. destruct (whitelist_match (cwhite c) f) as [[|]| |]; try discriminate. exact R. }
  clear R. destruct (levelname level fe) as [lname lcolor] eqn:LN. cbn zeta in R'.
  destruct (levelname_ok _ _ _ _ LN LV) as (LW & PL & LC). set (col := if ccolor c then lcolor else None) in *.
  assert (PC : match col with Some t => plainb t = true | None => True end).
  { unfold col. destruct (ccolor c); [|exact Logic.I]. destruct lcolor; [tauto|exact Logic.I]. }
  destruct (log_rest_ok fuel c level fe lname col f l fce frags e name ip id fs gs ms es) as (body & REC & REST); auto.
  set (pre := match col with Some t => 27 :: t | None => [] end).
  set (post := match col with Some _ => 27 :: bs "[0m" | None => [] end ++ [10]) in *.
  assert (LINE : forall b, line (ccolor c) level fe b (pre ++ b ++ post)).
  { intros b. unfold line, pre, post, col. destruct (ccolor c); cbn [andb]; [|reflexivity].
    destruct lcolor as [t|].
    - destruct LC as (L3 & TI & _). replace (level <? 3) with true by lia. exists t. split; auto.
    - replace (level <? 3) with false by lia. reflexivity. }
  (* everything after the clock *)
  assert (TAIL : forall s1 tr2 o, lbok s1 -> runs (s <~ log_rest fuel c level fe true lname col f l fce frags e s1;; flush fuel s) tr2 o ->
    legal tr2 -> eout s1 (body ++ post) tr2 o /\ (forall s', o = Fin s' -> lblen s' = 0)).
  { clear - REST. intros s1 tr2 o I1 R L. apply runs_bind in R as [(s2 & t1 & t2 & -> & R1 & R2)|[[R1 ->]|[R1 ->]]].
    - apply legal_app in L as [L1 L2]. destruct (REST _ _ _ I1 R1 L1) as (C1 & E1).
      destruct (flush_emits _ _ _ _ (proj1 E1) R2 L2) as ((C2 & E2) & Z). split; auto. split; [rewrite clocks_app, C1, C2; reflexivity|].
      rewrite <- (app_nil_r (body ++ post)). eapply eo_app; eauto.
    - destruct (REST _ _ _ I1 R1 L) as (_ & []).
    - split; [|discriminate]. apply (REST _ _ _ I1 R1 L). }
  apply runs_bind in R' as [(s1 & tr1 & tr2 & -> & R1 & R2)|[[R1 ->]|[R1 ->]]].
  2:{ destruct (outcolor_ok fuel col PC _ _ _ IS R1 L) as (_ & []). }
  2:{ destruct (outcolor_ok fuel col PC _ _ _ IS R1 L) as (C1 & E1). exists body, (pre ++ body ++ post). rewrite C1. cbn [clocktime].
      split; [apply (REC None []); reflexivity|]. split; [apply LINE|]. split; [apply eo_cut; exact E1|]. split; [discriminate|congruence]. }
  apply legal_app in L as [L1 L2]. destruct (outcolor_ok fuel col PC _ _ _ IS R1 L1) as (C1 & E1). fold pre in E1.
  rewrite clocks_app, C1 in *. cbn [app] in *. destruct (ctime c) eqn:CT; cbn [andb] in R2.
  2:{ cbn [pbind] in R2. destruct (TAIL _ _ _ (proj1 E1) R2 L2) as ((C2 & E2) & Z). rewrite C2. exists body, (pre ++ body ++ post). cbn [clocktime].
      split; [apply (REC None []); reflexivity|]. split; [apply LINE|]. split; [eapply eo_app; eauto|]. split; auto. }
  cbn [sys1 pbind] in R2. destruct R2 as [[-> ->]|(a & tr3 & -> & R2)].
  { exists body, (pre ++ body ++ post). cbn [clocktime clocks]. split; [apply (REC None []); reflexivity|]. split; [apply LINE|].
    split; [|split; [discriminate|auto]]. eapply eo_app; [exact E1|]. cbn [eo sent]. split; [constructor|]. intros _. eexists. reflexivity. }
  apply legal_cons in L2 as [_ L2]. cbn [Clock clocks] in TM |- *. inv TM.
  assert (EC : forall t x, eo s1 t tr3 x -> eo s1 t ((Clock, a) :: tr3) x).
  { clear. intros t x. unfold eo. cbn [sent Clock]. destruct x; auto.
    - intros (A & B & C). split; auto. split; auto. intros M. inv M. auto.
    - intros (A & B). split; auto. intros M. inv M. auto. }
  destruct (Z.eqb_spec (ret a) 0) as [RA|RA].
  - cbn [pbind] in R2. destruct (TAIL _ _ _ (proj1 E1) R2 L2) as ((C2 & E2) & Z). exists body, (pre ++ body ++ post). cbn [clocktime]. rewrite RA. cbn [Z.eqb].
    split; [apply (REC None []); reflexivity|]. split; [apply LINE|]. split; [eapply eo_app; eauto|]. split; auto.
  - destruct H1 as [|[LD D]]; [congruence|]. destruct (outtime_ok fuel (data a) LD D) as (tt & TT & TE).
    cbn [clocktime]. replace (ret a =? 0) with false by lia.
    exists (tt ++ body), (pre ++ (tt ++ body) ++ post). split; [apply (REC (Some (data a)) tt); auto|]. split; [apply LINE|].
    rewrite <- app_assoc.
    apply runs_bind in R2 as [(s2 & t1 & t2 & -> & R2 & R3)|[[R2 ->]|[R2 ->]]].
    + apply legal_app in L2 as [L2 L3]. destruct (TE _ _ _ (proj1 E1) R2 L2) as (C2 & E2).
      destruct (TAIL _ _ _ (proj1 E2) R3 L3) as ((C3 & E3) & Z). split; [|split; auto].
      eapply eo_app; [exact E1|]. apply EC. eapply eo_app; eauto.
    + destruct (TE _ _ _ (proj1 E1) R2 L2) as (_ & []).
    + destruct (TE _ _ _ (proj1 E1) R2 L2) as (C2 & E2). split; [|split; [discriminate|auto]].
      eapply eo_app; [exact E1|]. apply EC. apply eo_cut. exact E2.
Qed.

(** ** Whitelist *)
Lemma memeq_ok : forall n a b, (length n <= length a)%nat ->
  memeq a (n ++ b) (length n) = Ok (if list_eq_dec Z.eq_dec (firstn (length n) a) n then true else false).
Proof.
  induction n as [|x n IH]; intros a b L; cbn [length memeq firstn app]. { reflexivity. }
  destruct a as [|y a]; [cbn in L; lia|]. cbn [deref bind tl]. cbn [length] in L.
  destruct (Z.eqb_spec y x) as [->|N].
  - rewrite IH by lia. f_equal. destruct (list_eq_dec Z.eq_dec (firstn (length n) a) n) as [E|E];
      destruct (list_eq_dec Z.eq_dec (x :: firstn (length n) a) (x :: n)) as [E'|E']; auto; congruence.
  - destruct (list_eq_dec Z.eq_dec (y :: firstn (length n) a) (x :: n)); auto. congruence.
Qed.
Lemma cstrlen_ok : forall s rest, nonul s -> cstrlen (s ++ 0 :: rest) = Ok (len s).
Proof.
  induction s as [|c s IH]; intros rest N; cbn [app cstrlen]; auto. inv N. destruct (Z.eqb_spec c 0); [lia|].
  rewrite IH by auto. cbn [bind]. rewrite len_cons. reflexivity.
Qed.

Lemma white_ok : forall w f rest, nonul f ->
  exists b, white_scan (map (fun n => n ++ [0]) w) (f ++ 0 :: rest) (len f) = Ok b /\
            (b = true <-> exists n u, In n w /\ f = n ++ u).
Proof.
  intros w f rest N. induction w as [|n w IH]; cbn [map white_scan].
  - exists false. split; auto. split; [discriminate|]. intros (n & u & [] & _).
  - destruct IH as (b & E & IH). cbn zeta. rewrite len_app. change (len [0]) with 1.
    destruct (Z.ltb_spec (len f) (len n + 1 - 1)) as [LT|GE].
    + exists b. split; auto. rewrite IH. split.
      * intros (m & u & I & F). exists m, u. split; [right|]; auto.
      * intros (m & u & [->|I] & F); [|eauto]. subst f. rewrite len_app in LT. pose proof (len_nonneg _ u). lia.
    + replace (Z.to_nat (len n + 1 - 1)) with (length n) by (unfold len; lia). rewrite memeq_ok by (rewrite app_length; unfold len in *; lia).
      cbn [bind]. rewrite firstn_app. replace (length n - length f)%nat with O by (unfold len in *; lia). cbn [firstn]. rewrite app_nil_r.
      destruct (list_eq_dec Z.eq_dec (firstn (length n) f) n) as [Q|Q].
      * exists true. split; auto. split; auto. intros _. exists n, (skipn (length n) f). split; [left; auto|].
        rewrite <- Q at 1. symmetry. apply firstn_skipn.
      * exists b. split; auto. rewrite IH. split.
        -- intros (m & u & I & F). exists m, u. split; [right|]; auto.
        -- intros (m & u & [->|I] & F); [|eauto]. exfalso. apply Q. subst f. rewrite firstn_app, Nat.sub_diag, firstn_all. cbn. apply app_nil_r.
Qed.

Lemma filtered_ok : forall c w level f fs, cwhite c = map (fun n => n ++ [0]) w -> ocstr f fs ->
  1 <= level <= 4 ->
  exists b, filtered c level f = Ok b /\ (b = false <-> wanted (clevel c) w level fs).
Proof.
  intros c w level f fs W F LV. unfold filtered, wanted. destruct (Z.ltb_spec (clevel c) level).
  { exists true. split; auto. split; [discriminate|]. intros [A _]. lia. }
  destruct (Z.leb_spec 4 level).
  2:{ exists false. split; auto. split; auto. }
  rewrite W. unfold whitelist_match. destruct w as [|n w]; cbn [map].
  { exists false. split; auto. split; auto. }
  destruct f as [f|], fs as [fs|]; try contradiction.
  - destruct F as (rest & -> & N). rewrite cstrlen_ok by auto. cbn [bind].
    destruct (white_ok (n :: w) fs rest N) as (b & E & IFF). cbn [map] in E. rewrite E. cbn [bind]. exists (negb b). split; auto.
    split.
    + intros B. split; auto. right. right. right. destruct b; [|discriminate]. destruct IFF as [IFF _].
      destruct (IFF eq_refl) as (m & u & I & Q). eauto 6.
    + intros (_ & [A|[A|[A|(m & f' & u & I & Q & Q2)]]]); try lia; try discriminate. inv Q.
      destruct IFF as [_ IFF]. rewrite IFF by eauto. reflexivity.
  - exists false. split; auto. split; auto.
Qed.

(** ** Printability *)
Lemma hexof_plain : forall v, 0 <= v < 16 -> printable (hexof v).
Proof. intros v V. unfold hexof, printable. destruct (Z.ltb_spec v 10); lia. Qed.
Lemma hex2_plain : forall c, is_byte c -> Forall (fun c => printable c) (hex2 c).
Proof.
  intros c C. unfold is_byte in C. unfold hex2. apply Forall_cons; [|apply Forall_cons; [|constructor]]; apply hexof_plain.
  - split; [apply Z.div_pos; lia|apply Z.div_lt_upper_bound; lia].
  - apply Z.mod_pos_bound. lia.
Qed.
Lemma shown_plain : forall lf c, is_byte c -> (lf = true -> c <> 10) -> Forall (fun c => printable c) (shown lf c).
Proof.
  intros lf c C N. destruct (Z.eq_dec c 10) as [->|]. { destruct lf; [exfalso; apply N; reflexivity|]. apply plain_dec. reflexivity. }
  destruct (Z.eq_dec c 13) as [->|]. { apply plain_dec. reflexivity. } destruct (Z.eq_dec c 9) as [->|]. { apply plain_dec. reflexivity. }
  rewrite shown_other by auto. destruct ((32 <=? c) && (c <=? 126)) eqn:E.
  - apply Forall_cons; [unfold printable; lia|constructor].
  - apply Forall_app. split; [apply plain_dec; reflexivity|]. apply hex2_plain. auto.
Qed.
Lemma shows_printable : forall lf s, nonul s -> (lf = true -> ~ In 10 s) -> Forall (fun c => printable c) (shows lf s).
Proof.
  induction s as [|c s IH]; intros N L; [constructor|]. inv N. cbn [shows flat_map]. apply Forall_app. split.
  - apply shown_plain; [unfold is_byte; lia|]. intros E ->. apply (L E). left; auto.
  - apply IH; auto. intros E I. apply (L E). right; auto.
Qed.
Lemma part_plain : forall p, match p with Some s => nonul s | None => True end -> Forall (fun c => printable c) (part p).
Proof.
  intros [s|] N; [|constructor]. unfold part. apply Forall_app. split; [|apply plain_dec; reflexivity]. apply shows_printable; auto. discriminate.
Qed.

Lemma ocstr_nonul : forall p s, ocstr p s -> match s with Some s => nonul s | None => True end.
Proof. intros [p|] [s|] H; try exact Logic.I; try contradiction. destruct H as (rest & _ & N). auto. Qed.
Lemma upto_nonul : forall fr ms, Forall2 ocstr fr ms -> nonul (upto ms).
Proof.
  induction 1 as [|p m fr ms H _ IH]; [constructor|]. cbn [upto]. destruct m as [m|]; [|constructor].
  apply ocstr_nonul in H. apply Forall_app. auto.
Qed.

Lemma timetext_plain : forall d t, timetext d t -> Forall (fun c => printable c) t.
Proof.
  intros d t (y & m & dd & h & mi & s & u & ty & tm & td & th & tmi & ts & tu & _ & A & B & C & D & E & F & G & ->).
  apply widenum_plain in A, B, C, D, E, F, G.
  repeat (apply Forall_app; split; auto); apply plain_dec; reflexivity.
Qed.
Lemma levelword_plain : forall l fe w, levelword l fe w -> Forall (fun c => printable c) w.
Proof. intros l fe w H. apply plain_dec. unfold levelword in H. intuition (subst; reflexivity). Qed.

Definition nolf (s : option (list Z)) : Prop := match s with Some s => nonul s /\ ~ In 10 s | None => True end.
Lemma record_plain : forall level fe tm name ip msg er wh id r,
  record level fe tm name ip msg er wh id r ->
  match name with Some s => nonul s | None => True end -> match ip with Some s => nonul s | None => True end ->
  nonul msg -> nonul id -> nolf er -> match wh with Some (a, b, _) => nolf (Some a) /\ nolf (Some b) | None => True end ->
  Forall (fun c => printable c) r.
Proof.
  intros level fe tm name ip msg er wh id r (tt & lw & w & T & LW & W & ->) N1 N2 N3 N4 N5 N6.
  assert (PT : Forall (fun c => printable c) tt). { destruct tm; [eapply timetext_plain; eauto|subst; constructor]. }
  apply levelword_plain in LW.
  assert (PW : Forall (fun c => printable c) w).
  { destruct wh as [[[a b] l]|]; [|subst; constructor]. destruct W as (n & WN & ->). apply widenum_plain in WN.
    destruct N6 as [[A1 A2] [B1 B2]]. 
    repeat (apply Forall_app; split; auto); try (apply plain_dec; reflexivity); apply shows_printable; auto. }
  assert (PS : Forall (fun c => printable c) (match er with Some e => bs "(" ++ shows true e ++ bs ")" | None => [] end ++ w ++
                match id with [] => [] | _ => bs "[" ++ shows false id ++ bs "]" end)).
  { apply Forall_app; split; [|apply Forall_app; split; auto].
    - destruct er as [e|]; [|constructor]. destruct N5. repeat (apply Forall_app; split); try (apply plain_dec; reflexivity). apply shows_printable; auto.
    - pose proof (shows_printable false id N4 ltac:(discriminate)) as PI. destruct id; [constructor|].
      apply Forall_app; split; [apply plain_dec; reflexivity|]. apply Forall_app; split; [exact PI|apply plain_dec; reflexivity]. }
  repeat (apply Forall_app; split; auto); try (apply part_plain; auto; fail); try (apply plain_dec; reflexivity).
  - apply shows_printable; auto. discriminate.
  - destruct (match er with Some e => bs "(" ++ shows true e ++ bs ")" | None => [] end ++ w ++ _) as [|x q]; [constructor|].
    apply Forall_app; split; [apply plain_dec; reflexivity|auto].
Qed.

Lemma sub_snoc : forall a b, sub a (b ++ [10]) -> exists c, (a = c \/ a = c ++ [10]) /\ sub c b.
Proof.
  intros a b. revert a. induction b as [|x b IH]; intros a S; cbn [app] in S.
  - inv S; [exists []; split; [auto|constructor]| |].
    + inv H1. exists []. split; [auto|constructor].
    + inv H1. exists []. split; [auto|constructor].
  - inv S; [exists []; split; [auto|constructor]| |].
    + destruct (IH _ H1) as (c & [->| ->] & Q).
      * exists (x :: c). split; [auto|constructor; auto].
      * exists (x :: c). split; [right; reflexivity|constructor; auto].
    + destruct (IH _ H1) as (c & E & Q). exists c. split; auto. constructor. auto.
Qed.
Lemma sub_Forall : forall (P : Z -> Prop) a b, sub a b -> Forall P b -> Forall P a.
Proof. induction 1; intros F; [constructor| |]; inv F; [constructor|]; auto. Qed.

(** ** Decoding escaped text *)
Lemma hexof_inj : forall a b, 0 <= a < 16 -> 0 <= b < 16 -> hexof a = hexof b -> a = b.
Proof. intros a b A B. unfold hexof. destruct (Z.ltb_spec a 10), (Z.ltb_spec b 10); lia. Qed.

(** The code of a byte other than backslash: itself, or backslash and a letter (and digits). *)
Inductive code (lf : bool) (b : Z) : list Z -> Prop :=
| code_self : b <> 92 -> code lf b [b]
| code_nl : b = 10 -> code lf b [92; 110]
| code_cr : b = 13 -> code lf b [92; 114]
| code_tab : b = 9 -> code lf b [92; 116]
| code_hex : is_byte b -> code lf b (92 :: 120 :: hex2 b).
Lemma shown_code : forall lf b, is_byte b -> b <> 92 -> code lf b (shown lf b).
Proof.
  intros lf b B N. destruct (Z.eq_dec b 10) as [->|]. { destruct lf; [apply code_self|apply code_nl]; auto. }
  destruct (Z.eq_dec b 13) as [->|]. { apply code_cr. auto. } destruct (Z.eq_dec b 9) as [->|]. { apply code_tab. auto. }
  rewrite shown_other by auto. destruct ((32 <=? b) && (b <=? 126)); [apply code_self|apply code_hex]; auto.
Qed.
Lemma code_prefix : forall lf a b x y u v, code lf a u -> code lf b v -> u ++ x = v ++ y -> a = b /\ x = y.
Proof.
  intros lf a b x y u v A B E. destruct A, B; cbn [app] in E; unfold hex2 in E; try (injection E; intros; subst; tauto); try (injection E; intros; congruence).
  injection E. intros EX E2 E1. cbn [app] in EX. unfold is_byte in *.
  apply hexof_inj in E1; [|split; [apply Z.div_pos; lia|apply Z.div_lt_upper_bound; lia]|split; [apply Z.div_pos; lia|apply Z.div_lt_upper_bound; lia]].
  apply hexof_inj in E2; [|apply Z.mod_pos_bound; lia|apply Z.mod_pos_bound; lia].
  split; auto. pose proof (Z.div_mod a 16 ltac:(lia)). pose proof (Z.div_mod b 16 ltac:(lia)). lia.
Qed.
Lemma shows_inj : forall lf s t, nonul s -> nonul t -> ~ In 92 s -> ~ In 92 t -> shows lf s = shows lf t -> s = t.
Proof.
  assert (NE : forall lf c r, nonul [c] -> ~ In 92 [c] -> shown lf c ++ r <> []).
  { intros lf c r N I E. inv N. apply app_eq_nil in E as [E _].
    pose proof (shown_code lf c ltac:(unfold is_byte; lia) ltac:(intros ->; apply I; left; auto)) as C. rewrite E in C. inv C. }
  induction s as [|a s IH]; intros [|b t] NS NT IS IT E; cbn [shows flat_map] in E; auto.
  - exfalso. inv NT. symmetry in E. revert E. apply NE; [apply Forall_cons; auto; constructor|]. intros [->|[]]. apply IT. left; auto.
  - exfalso. inv NS. revert E. apply NE; [apply Forall_cons; auto; constructor|]. intros [->|[]]. apply IS. left; auto.
  - inv NS. inv NT.
    destruct (code_prefix lf a b (flat_map (shown lf) s) (flat_map (shown lf) t) (shown lf a) (shown lf b)) as [-> Q]; auto.
    + apply shown_code; [unfold is_byte; lia|]. intros ->. apply IS. left; auto.
    + apply shown_code; [unfold is_byte; lia|]. intros ->. apply IT. left; auto.
    + f_equal. apply IH; auto; intros I; [apply IS|apply IT]; right; auto.
Qed.

(** ** Rotating buffers *)
Definition rok (r : rot) : Prop :=
  length (rslots r) = 9%nat /\ (rcount r < 9)%nat /\ Forall (fun b => length b = 68%nat) (rslots r).

Lemma stl_app : forall l a z b, length z = length l -> stl (a ++ z ++ b) (length a) l = Ok (a ++ l ++ b).
Proof.
  induction l as [|c l IH]; intros a z b Z; destruct z as [|y z]; try discriminate; cbn [stl app]; auto.
  rewrite st_app. cbn [bind]. specialize (IH (a ++ [c]) z b). rewrite app_length in IH. cbn [length] in IH. rewrite Nat.add_1_r in IH.
  rewrite <- !app_assoc in IH. cbn [app] in IH. apply IH. cbn in Z. lia.
Qed.
Lemma stl_at : forall l x i, (i + length l <= length x)%nat ->
  stl x i l = Ok (firstn i x ++ l ++ skipn (i + length l) x).
Proof.
  intros l x i L. rewrite <- (firstn_skipn i x) at 1. rewrite <- (firstn_skipn (length l) (skipn i x)) at 1.
  assert (FI : length (firstn i x) = i) by (rewrite firstn_length; lia).
  rewrite skipn_skipn. rewrite <- FI at 4. rewrite stl_app; [|rewrite firstn_length, skipn_length; lia]. reflexivity.
Qed.
Lemma st_at : forall x i c, (i < length x)%nat -> st x i c = Ok (firstn i x ++ c :: skipn (i + 1) x).
Proof.
  intros x i c L. pose proof (stl_at [c] x i) as H. cbn [length stl] in H. specialize (H ltac:(lia)).
  destruct (st x i c); cbn [bind app] in *; auto; discriminate.
Qed.

Lemma firstn_pre : forall (d x : list Z), firstn (length d) x = d -> (length d <= length x)%nat -> x = d ++ skipn (length d) x.
Proof. intros d x E L. rewrite <- E at 1. symmetry. apply firstn_skipn. Qed.

Lemma log_str_loop_ok : forall s d x rest, nonul s -> length x = 68%nat -> firstn (length d) x = d -> (length d <= 64)%nat ->
  exists y, log_str_loop (s ++ 0 :: rest) (length d) x = Ok (short (d ++ s) ++ 0 :: y) /\ length (short (d ++ s) ++ 0 :: y) = 68%nat.
Proof.
  induction s as [|c s IH]; intros d x rest N X D L; cbn [app log_str_loop].
  - cbn [Z.eqb]. rewrite st_at by lia. rewrite D. rewrite app_nil_r. unfold short. destruct (Z.leb_spec (len d) 64) as [_|G]; [|unfold len in G; lia].
    eexists. split; [reflexivity|]. rewrite app_length. cbn [length]. rewrite skipn_length. lia.
  - inv N. destruct (Z.eqb_spec c 0); [lia|]. change (STATICBUFSIZE - 4) with 64. destruct (Z.eqb_spec (Z.of_nat (length d)) 64).
    + rewrite stl_at by (cbn [length]; lia). assert (E64 : length d = 64%nat) by lia. replace (firstn 64 x) with d by (rewrite <- E64; symmetry; exact D).
      unfold short. replace (len (d ++ c :: s) <=? 64) with false. 2:{ rewrite len_app, len_cons. unfold len. lia. }
      rewrite firstn_app. replace (64 - length d)%nat with O by lia. rewrite firstn_all2 by lia. cbn [firstn]. rewrite app_nil_r.
      exists (skipn 68 x). rewrite <- app_assoc. split; [reflexivity|].
      rewrite !app_length. cbn [length bs map String.list_ascii_of_string app]. rewrite skipn_length. lia.
    + rewrite st_at by lia. rewrite D. cbn [bind].
      destruct (IH (d ++ [c]) (d ++ c :: skipn (length d + 1) x) rest) as (y & E & Y); auto.
      * rewrite app_length. cbn [length]. rewrite skipn_length. lia.
      * rewrite app_length. cbn [length]. replace (length d + 1)%nat with (length (d ++ [c])) by (rewrite app_length; reflexivity).
        replace (d ++ c :: skipn (length (d ++ [c])) x) with ((d ++ [c]) ++ skipn (length (d ++ [c])) x) by (rewrite <- app_assoc; reflexivity).
        rewrite firstn_app, Nat.sub_diag, firstn_all. cbn [firstn]. apply app_nil_r.
      * rewrite app_length. cbn [length]. lia.
      * rewrite app_length in E. cbn [length] in E. rewrite Nat.add_1_r in *. rewrite E. rewrite <- (app_assoc d [c] s) in *. cbn [app] in *. eauto.
Qed.

Lemma hexs_len : forall y, length (hexs y) = (2 * length y)%nat.
Proof. induction y; cbn [hexs flat_map length]; auto. rewrite app_length. unfold hexs in IHy. rewrite IHy. cbn [hex2 length]. lia. Qed.

Lemma hexs_snoc : forall d c, hexs (d ++ [c]) = hexs d ++ hex2 c.
Proof. intros. unfold hexs. rewrite flat_map_app. cbn [flat_map]. rewrite app_nil_r. reflexivity. Qed.

Lemma tohex_loop_ok : forall s d x extra, bytes s -> length x = 68%nat -> firstn (length (hexs d)) x = hexs d -> (length d <= 32)%nat ->
  exists y, tohex_loop (length s) x 68 (length d) (d ++ s ++ extra) = Ok (hexshort (d ++ s) ++ 0 :: y) /\ length (hexshort (d ++ s) ++ 0 :: y) = 68%nat.
Proof.
  induction s as [|c s IH]; intros d x extra N X D L; cbn [length tohex_loop].
  - pose proof (hexs_len d) as H. rewrite st_at by lia. rewrite <- H, D. rewrite app_nil_r. unfold hexshort. destruct (Z.leb_spec (len d) 32) as [_|G]; [|unfold len in G; lia].
    eexists. split; [reflexivity|]. rewrite app_length. cbn [length]. rewrite skipn_length. lia.
  - inv N. pose proof (hexs_len d) as H. change ((68 - 4) / 2) with 32. destruct (Z.eqb_spec (Z.of_nat (length d)) 32).
    + rewrite stl_at by (cbn [length]; lia). assert (E32 : length d = 32%nat) by lia. rewrite <- H, D.
      unfold hexshort. replace (len (d ++ c :: s) <=? 32) with false. 2:{ rewrite len_app, len_cons. unfold len. lia. }
      rewrite firstn_app. replace (32 - length d)%nat with O by lia. rewrite firstn_all2 by lia. cbn [firstn]. rewrite app_nil_r.
      eexists. rewrite <- app_assoc. cbn [app]. split; [reflexivity|].
      rewrite !app_length. cbn [length bs map String.list_ascii_of_string app]. rewrite skipn_length. cbn [length]. lia.
    + assert (LD : ld (d ++ (c :: s) ++ extra) (length d) = Ok c) by (cbn [app]; apply ld_app). rewrite LD. cbn [bind].
      rewrite hi4 by auto. unfold is_byte in H1.
      assert (D1 : 0 <= c / 16 < 16) by (split; [apply Z.div_pos; lia|apply Z.div_lt_upper_bound; lia]).
      pose proof (Z.mod_pos_bound c 16 ltac:(lia)) as D2.
      rewrite hexdigit_ok by auto. cbn [bind]. rewrite st_at by lia. cbn [bind]. rewrite lo4, hexdigit_ok by auto. cbn [bind].
      rewrite <- H, D. remember (skipn (length (hexs d) + 1) x) as xs eqn:XE.
      assert (XS : length xs = (68 - (length (hexs d) + 1))%nat) by (rewrite XE, skipn_length, X; reflexivity). clear XE. destruct xs as [|x1 xs']; [cbn [length] in XS; lia|].
      replace (length (hexs d) + 1)%nat with (length (hexs d ++ [hexof (c / 16)])) by (rewrite app_length; reflexivity).
      replace (hexs d ++ hexof (c / 16) :: x1 :: xs') with ((hexs d ++ [hexof (c / 16)]) ++ x1 :: xs') by (rewrite <- app_assoc; reflexivity).
      rewrite st_app. cbn [bind]. rewrite <- app_assoc. cbn [app].
      destruct (IH (d ++ [c]) (hexs (d ++ [c]) ++ xs') extra) as (y & E & Y); auto.
      * rewrite app_length, hexs_len, app_length. cbn [length].
        cbn [length] in XS. lia.
      * rewrite firstn_app, Nat.sub_diag, firstn_all. cbn [firstn]. apply app_nil_r.
      * rewrite app_length. cbn [length]. lia.
      * rewrite app_length in E. cbn [length] in E. rewrite Nat.add_1_r in E. rewrite hexs_snoc in E. rewrite <- !app_assoc in E. cbn [app hex2] in E.
        rewrite <- app_assoc in Y. cbn [app] in Y.
        cbn [app]. exists y. split; [exact E|exact Y].
Qed.

(** ** Formatting operations *)
Definition frun (r : rot) (o : fop) : res (rot * ptr) :=
  match o with
  | FStr s => log_str r s
  | FNum n cnt => log_num0 r n cnt
  | FPort p => log_port r p
  | FHex y n => log_hex r y n
  end.
Lemma null_ok : forall x, length x = 68%nat -> exists y, stl x 0 (bs "(null)" ++ [0]) = Ok (bs "(null)" ++ 0 :: y) /\ length (bs "(null)" ++ 0 :: y) = 68%nat.
Proof.
  intros x X. rewrite stl_at by (cbn; lia). eexists. split; [reflexivity|]. rewrite app_length. cbn [length]. rewrite skipn_length. cbn. lia.
Qed.

Lemma rput_ok : forall r x, rok r -> length x = 68%nat ->
  rok (rput r (rnext r) x) /\ nth (rnext r) (rslots (rput r (rnext r) x)) [] = x /\
  (forall j, j <> rnext r -> nth j (rslots (rput r (rnext r) x)) [] = nth j (rslots r) []).
Proof.
  intros r x (A & B & C) X. assert (N : (rnext r < 9)%nat) by (unfold rnext; apply Nat.mod_upper_bound; lia).
  unfold rput. cbn [rslots]. split; [|split].
  - split; [cbn [rslots]; rewrite upd_length; auto|]. split; [exact N|]. cbn [rslots]. clear - C X. revert C. generalize (rslots r) (rnext r).
    induction l; intros n F; cbn [upd]; auto. inv F. destruct n; apply Forall_cons; auto.
  - clear B C. revert N. rewrite <- A. generalize (rslots r) (rnext r). induction l; intros n L; cbn [length] in L; [lia|].
    destruct n; cbn [upd nth]; auto. apply IHl. lia.
  - intros j J. clear - J. revert J. generalize (rslots r) (rnext r) j. induction l; intros n k J; cbn [upd]; auto.
    destruct n, k; cbn [nth]; auto; congruence.
Qed.

Lemma rslot_ok : forall r, rok r -> exists x, rslot r (rnext r) = Ok x /\ length x = 68%nat.
Proof.
  intros r (A & B & C). assert (N : (rnext r < 9)%nat) by (unfold rnext; apply Nat.mod_upper_bound; lia).
  unfold rslot. destruct (nth_error (rslots r) (rnext r)) as [x|] eqn:E.
  - exists x. split; auto. apply nth_error_In in E. rewrite Forall_forall in C. auto.
  - apply nth_error_None in E. lia.
Qed.

Lemma frun_ok : forall r o, rok r -> fwf o ->
  exists r' p t rest, frun r o = Ok (r', p) /\ fspec o t /\ rok r' /\ fst p = rnext r /\ rcount r' = rnext r /\
    rtext r' p = t ++ 0 :: rest /\ (forall j, j <> rnext r -> nth j (rslots r') [] = nth j (rslots r) []).
Proof.
  intros r o R W. destruct (rslot_ok r R) as (x & RS & X).
  assert (FIN : forall t y off z, length z = 68%nat -> skipn off z = t ++ 0 :: y -> fspec o t ->
     frun r o = Ok (rput r (rnext r) z, (rnext r, off)) ->
     exists r' p t rest, frun r o = Ok (r', p) /\ fspec o t /\ rok r' /\ fst p = rnext r /\ rcount r' = rnext r /\
    rtext r' p = t ++ 0 :: rest /\ (forall j, j <> rnext r -> nth j (rslots r') [] = nth j (rslots r) [])).
  { intros t y off z Z SK SP E. destruct (rput_ok r z R Z) as (A & B & C). exists (rput r (rnext r) z), (rnext r, off), t, y.
    split; auto. split; auto. split; auto. split; auto. split; auto. split; auto.
    unfold rtext. cbn [fst snd]. rewrite B. exact SK. }
  assert (NUM : forall n cnt, in_s64 n -> exists t, widenum n (Z.min cnt 67) t /\ numtostr x STATICBUFSIZE n cnt = Ok (t ++ 0 :: skipn (length t + 1) x, 0%nat) /\ length (t ++ 0 :: skipn (length t + 1) x) = 68%nat).
  { intros n cnt N. destruct (numtostr_ok x STATICBUFSIZE n cnt 20) as (t & T & LT & E); auto; try lia.
    - unfold in_s64, two63 in N. cbn. lia.
    - unfold STATICBUFSIZE, len. lia.
    - exists t. split; auto. split; auto. rewrite app_length. cbn [length]. rewrite skipn_length. lia. }
  destruct o as [[s|]|n cnt|[p|]|[y|] n]; cbn [frun fwf fspec] in *.
  - destruct W as (m & rest & -> & N). destruct (log_str_loop_ok m [] x rest) as (y & E & Y); auto; [cbn; lia|]. cbn [length app] in E, Y.
    eapply (FIN (short m) y 0%nat); [exact Y|reflexivity|exists m, rest; auto|].
    unfold log_str. cbn zeta. rewrite RS. cbn [bind]. rewrite E. reflexivity.
  - destruct (null_ok x X) as (y & E & Y). eapply (FIN (bs "(null)") y 0%nat); [exact Y|reflexivity|reflexivity|].
    unfold log_str. cbn zeta. rewrite RS. cbn [bind]. rewrite E. reflexivity.
  - destruct (NUM n cnt W) as (t & T & E & L). eapply (FIN t _ 0%nat); [exact L|reflexivity|exact T|].
    unfold log_num0. cbn zeta. rewrite RS. cbn [bind]. rewrite E. reflexivity.
  - destruct W as (p0 & p1 & more & -> & B0 & B1). destruct (NUM (256 * p0 + p1) 0) as (t & T & E & L).
    { unfold is_byte in *. unfold in_s64, two63. lia. }
    eapply (FIN t _ 0%nat); [exact L|reflexivity|exists p0, p1, more; auto|].
    unfold log_port. cbn zeta. rewrite RS. cbn [bind ld nth_error]. rewrite Z.shiftl_mul_pow2 by lia. change 8 with (Z.of_nat 8).
    rewrite lor_add by (unfold is_byte in *; cbn; lia). change (2 ^ Z.of_nat 8) with 256. rewrite Z.mul_comm, E. reflexivity.
  - destruct (null_ok x X) as (y & E & Y). eapply (FIN (bs "(null)") y 0%nat); [exact Y|reflexivity|reflexivity|].
    unfold log_port. cbn zeta. rewrite RS. cbn [bind]. rewrite E. reflexivity.
  - destruct W as [B L]. destruct (Z.leb_spec n 0).
    + apply (FIN [] (skipn 1 x) 0%nat (0 :: skipn 1 x)).
      * cbn [length]. rewrite skipn_length. lia.
      * reflexivity.
      * exists []. auto.
      * unfold log_hex. cbn zeta. rewrite RS. cbn [bind]. replace (n <=? 0) with true by lia. rewrite st_at by lia. reflexivity.
    + assert (BF : bytes (firstn (Z.to_nat n) y)). { rewrite <- (firstn_skipn (Z.to_nat n) y) in B. apply Forall_app in B. tauto. }
      destruct (tohex_loop_ok (firstn (Z.to_nat n) y) [] x (skipn (Z.to_nat n) y)) as (z & E & Z); auto; [cbn; lia|].
      cbn [app length] in E, Z. rewrite firstn_skipn in E. rewrite firstn_length in E. replace (Nat.min (Z.to_nat n) (length y)) with (Z.to_nat n) in E by (unfold len in L; lia).
      eapply (FIN (hexshort (firstn (Z.to_nat n) y)) z 0%nat); [exact Z|reflexivity|exists (firstn (Z.to_nat n) y); split; [left; split; [lia|]; split; [unfold len in *; rewrite firstn_length; lia|]; exists (skipn (Z.to_nat n) y); symmetry; apply firstn_skipn|reflexivity]|].
      unfold log_hex. cbn zeta. rewrite RS. cbn [bind]. replace (n <=? 0) with false by lia. unfold tohex, STATICBUFSIZE. change (68 <=? 4) with false. cbv iota. rewrite E. reflexivity.
  - destruct (null_ok x X) as (y & E & Y). eapply (FIN (bs "(null)") y 0%nat); [exact Y|reflexivity|reflexivity|].
    unfold log_hex. cbn zeta. rewrite RS. cbn [bind]. rewrite E. reflexivity.
Qed.

Fixpoint fruns (r : rot) (l : list fop) : res rot :=
  match l with
  | [] => Ok r
  | o :: l' => '(r', _) <- frun r o ;; fruns r' l'
  end.

Lemma rnext_ne : forall i k, (i < 9)%nat -> (1 <= k <= 8)%nat -> ((i + k) mod 9 <> i)%nat.
Proof.
  intros i k I K E. assert ((i + k) mod 9 = (if lt_dec (i + k) 9 then i + k else i + k - 9))%nat.
  { destruct (lt_dec (i + k) 9); [apply Nat.mod_small; auto|]. symmetry. apply (Nat.mod_unique _ _ 1); lia. }
  destruct (lt_dec (i + k) 9); lia.
Qed.
Lemma fruns_keep : forall l r i k, rok r -> Forall fwf l -> (i < 9)%nat -> rcount r = ((i + k) mod 9)%nat -> (k + length l <= 8)%nat ->
  exists r', fruns r l = Ok r' /\ rok r' /\ nth i (rslots r') [] = nth i (rslots r) [].
Proof.
  induction l as [|o l IH]; intros r i k R W I C K; cbn [fruns].
  - exists r. auto.
  - inv W. destruct (frun_ok r o R H1) as (r1 & p & t & rest & E & _ & R1 & _ & C1 & _ & N). rewrite E. cbn [bind]. cbn [length] in K.
    assert (C2 : rcount r1 = ((i + (k + 1)) mod 9)%nat).
    { rewrite C1. unfold rnext. rewrite C, Nat.add_mod_idemp_l by lia. f_equal. lia. }
    destruct (IH r1 i (k + 1)%nat R1 H2 I C2) as (r' & E' & R' & K'); [lia|]. exists r'. split; auto. split; auto. rewrite K'. apply N.
    rewrite <- C1, C2. intros Q. symmetry in Q. revert Q. apply rnext_ne; lia.
Qed.
