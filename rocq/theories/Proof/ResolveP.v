(** Lemmas about randommod.c, randombytes.c and resolvehost.c. *)
From Verif.Model Require Import Base Sys Io Buffer Pem Resolve.
From Verif.Spec Require Import Resolver.
From Verif.Proof Require Import Tac SysP IoP BufferP PemP.

(** * Random numbers *)

Lemma fold_be : forall l a, fold_left (fun a b => 256 * a + b) l a = a * 256 ^ len l + beval l.
Proof.
  unfold beval. induction l as [|b l IH]; intros a; cbn [fold_left].
  - rewrite len_nil, Z.pow_0_r. lia.
  - rewrite (IH (256 * a + b)), (IH (256 * 0 + b)), len_cons, Z.pow_add_r by (pose proof (len_nonneg _ l); lia). lia.
Qed.
Lemma beval_app : forall a b, beval (a ++ b) = beval a * 256 ^ len b + beval b.
Proof. intros a b. unfold beval at 1. rewrite fold_left_app, fold_be. reflexivity. Qed.

Lemma rm_loop_ok : forall n r v, 1 <= n <= 2 ^ 55 -> bytes r -> 0 <= v < n ->
  rm_loop r v n = Ok ((v * 256 ^ len r + beval r) mod n).
Proof.
  intros n. induction r as [|b r IH]; intros v N B V; cbn [rm_loop].
  - rewrite len_nil, Z.pow_0_r. change (beval []) with 0. rewrite Z.mod_small by lia. f_equal. lia.
  - inversion B as [|? ? B0 B1]; subst. unfold is_byte in B0. change (2 ^ 55) with 36028797018963968 in N.
    rewrite s64_ok by (unfold two63; lia). cbn [bind]. rewrite (u64_id (v * 256)) by (unfold two64; lia).
    rewrite u64_id by (unfold two64; lia). rewrite IH; auto; [|apply Z.mod_pos_bound; lia]. f_equal.
    change (b :: r) with ([b] ++ r). rewrite beval_app. change (beval [b]) with (256 * 0 + b). rewrite len_app.
    change (len [b]) with 1. rewrite Z.pow_add_r by (pose proof (len_nonneg _ r); lia). rewrite Z.pow_1_r.
    rewrite <- Z.add_mod_idemp_l, Z.mul_mod_idemp_l, Z.add_mod_idemp_l by lia. f_equal. lia.
Qed.

Lemma map_u8_bytes : forall l, bytes (map u8 l).
Proof. intros l. apply Forall_map. apply Forall_forall. intros x _. unfold u8, is_byte. apply Z.mod_pos_bound. lia. Qed.

Lemma randommod_ok : forall n tr o, n <= 2 ^ 55 -> runs (randommod n) tr o ->
  (n <= 1 /\ tr = [] /\ o = Fin 0) \/
  (1 < n /\ ((tr = [] /\ o = Cut) \/
   exists a r, tr = [(Other (bs "randombytes") [32] [], a)] /\ r = map u8 (firstn 32 (data a ++ repeat 0 32)) /\
     o = Fin (beval r mod n))).
Proof.
  intros n tr o N R. unfold randommod in R. destruct (Z.leb_spec n 1).
  - left. destruct R as [-> ->]. auto.
  - right. split; auto. destruct R as [[-> ->]|(a & t & -> & R)]; [left; auto|right].
    cbn [pbind] in R. rewrite rm_loop_ok in R; [|lia|apply map_u8_bytes|lia]. destruct R as [-> ->].
    eexists _, _. split; [reflexivity|]. split; [reflexivity|]. rewrite Z.mul_0_l, Z.add_0_l. reflexivity.
Qed.
Lemma randommod_range : forall n tr o, 1 <= n <= 2 ^ 55 -> runs (randommod n) tr o ->
  o <> Wrong /\ forall i, o = Fin i -> 0 <= i < n.
Proof.
  intros n tr o N R. apply randommod_ok in R; [|lia]. destruct R as [(N1 & -> & ->)|(N1 & [[-> ->]|(a & r & -> & -> & ->)])].
  - split; [discriminate|]. intros i E. injection E as <-. lia.
  - split; [discriminate|]. discriminate.
  - split; [discriminate|]. intros i E. injection E as <-. apply Z.mod_pos_bound. lia.
Qed.

Lemma randombytes_loop_ok : forall fuel fd x n tr o, legal tr -> runs (randombytes_loop fuel fd x n) tr o ->
  o <> Wrong /\ forall y, o = Fin y -> y = x ++ got fd tr /\ len y = len x + Z.max 0 n.
Proof.
  induction fuel as [|fuel IH]; intros fd x n tr o L R; cbn [randombytes_loop] in R.
  - destruct R as [-> ->]. split; discriminate.
  - destruct (Z.ltb_spec 0 n).
    + set (i := if n <? 1048576 then n else 1048576) in R. assert (I : 0 < i <= n) by (unfold i; destruct (Z.ltb_spec n 1048576); lia).
      destruct R as [[-> ->]|(a & t & -> & R)]; [split; discriminate|]. apply legal_cons in L as [L1 L2]. cbn [pbind] in R.
      unfold sys_ok in L1. cbn [fst snd] in L1.
      destruct (Z.ltb_spec (ret a) 1).
      * destruct R as [[-> ->]|(a' & t' & -> & R)]; [split; discriminate|]. apply legal_cons in L2 as [L2 L3].
        apply IH in R as [R1 R2]; auto. split; auto. intros y E. apply R2 in E as [-> E2].
        cbn [got]. rewrite Z.eqb_refl.
        assert (D : data a = []). { destruct L1 as [[_ L1]|(L11 & L12 & _)]; auto. apply length_zero_iff_nil. unfold len in *. lia. }
        rewrite D. auto.
      * apply IH in R as [R1 R2]; auto. split; auto. intros y E. apply R2 in E as [-> E2].
        cbn [got]. rewrite Z.eqb_refl, app_assoc. split; auto. rewrite E2, len_app. lia.
    + destruct R as [-> ->]. split; [discriminate|]. intros y E. injection E as <-. cbn [got]. rewrite app_nil_r. split; auto. lia.
Qed.

(** * Blocks of 16 bytes *)

Lemma concat_len16 : forall cs, Forall addr cs -> length (concat cs) = (16 * length cs)%nat.
Proof. induction 1 as [|c cs C CS IH]; cbn [concat length]; auto. rewrite app_length, IH. unfold addr in C. lia. Qed.

Lemma split_nth : forall A (l : list A) i x, nth_error l i = Some x -> exists a b, l = a ++ x :: b /\ length a = i.
Proof. intros A l i x H. apply nth_error_split in H. exact H. Qed.

Lemma nth_ex : forall A (l : list A) i, (i < length l)%nat -> exists x, nth_error l i = Some x.
Proof. intros A l i H. destruct (nth_error l i) eqn:E; eauto. apply nth_error_None in E. lia. Qed.

Lemma block_ok : forall cs t i c, Forall addr cs -> nth_error cs i = Some c ->
  block (concat cs ++ t) (16 * Z.of_nat i) = Ok c.
Proof.
  intros cs t i c F N. apply split_nth in N as (a & b & -> & <-). apply Forall_app in F as [F1 F2].
  inversion F2 as [|? ? F3 F4]; subst. unfold block. rewrite concat_app. cbn [concat].
  assert (L : length (concat a) = (16 * length a)%nat) by (apply concat_len16; auto). unfold addr in F3.
  replace (16 * Z.of_nat (length a) <? 0) with false by lia.
  replace (len ((concat a ++ c ++ concat b) ++ t) <? 16 * Z.of_nat (length a) + 16) with false
    by (unfold len; rewrite !app_length; lia).
  cbn [orb]. f_equal. replace (Z.to_nat (16 * Z.of_nat (length a))) with (length (concat a)) by lia.
  rewrite <- app_assoc, skipn_app, skipn_all, Nat.sub_diag. cbn [skipn app]. rewrite <- app_assoc, firstn_app, F3.
  rewrite Nat.sub_diag, firstn_O, app_nil_r. apply firstn_all2. lia.
Qed.

Lemma copyblk_ok : forall cs t i y, Forall addr cs -> (i < length cs)%nat -> addr y ->
  copyin (concat cs ++ t) (16 * Z.of_nat i) y 16 = Ok (concat (upd cs i y) ++ t).
Proof.
  intros cs t i y F N Y. apply nth_ex in N as (c & N). apply split_nth in N as (a & b & -> & <-).
  apply Forall_app in F as [F1 F2]. inversion F2 as [|? ? F3 F4]; subst. rewrite upd_app, !concat_app. cbn [concat].
  assert (L : length (concat a) = (16 * length a)%nat) by (apply concat_len16; auto). unfold addr in F3, Y. unfold copyin.
  change (16 <=? 0) with false. cbn iota. replace (16 * Z.of_nat (length a) <? 0) with false by lia.
  replace (len ((concat a ++ c ++ concat b) ++ t) <? 16 * Z.of_nat (length a) + 16) with false
    by (unfold len; rewrite !app_length; lia).
  replace (len y <? 16) with false by (unfold len; lia). cbn [orb]. f_equal.
  replace (Z.to_nat (16 * Z.of_nat (length a))) with (length (concat a)) by lia.
  replace (Z.to_nat (16 * Z.of_nat (length a) + 16)) with (length (concat a ++ c)) by (rewrite app_length; lia).
  change (Z.to_nat 16) with 16%nat. rewrite (firstn_all2 y) by lia.
  rewrite <- !app_assoc, firstn_app, firstn_all, Nat.sub_diag, firstn_O, app_nil_r. f_equal. f_equal.
  rewrite app_assoc, skipn_app, skipn_all, Nat.sub_diag. reflexivity.
Qed.

Lemma Forall_upd : forall A (P : A -> Prop) l i x, Forall P l -> P x -> Forall P (upd l i x).
Proof. intros A P. induction l as [|h l IH]; intros i x F X; destruct i; cbn [upd]; auto; inversion F; subst; constructor; auto. Qed.

Lemma nth_error_upd_same : forall A (l : list A) i x, (i < length l)%nat -> nth_error (upd l i x) i = Some x.
Proof. intros A. induction l as [|h l IH]; intros [|i] x L; cbn [upd nth_error length] in *; auto; try lia. apply IH. lia. Qed.
Lemma nth_error_upd_other : forall A (l : list A) i j x, i <> j -> nth_error (upd l i x) j = nth_error l j.
Proof. intros A. induction l as [|h l IH]; intros [|i] [|j] x N; cbn [upd nth_error]; auto; try lia. Qed.

Lemma perm_upd : forall A (l : list A) i x y, nth_error l i = Some x -> Permutation (x :: upd l i y) (y :: l).
Proof.
  intros A l i x y N. apply split_nth in N as (a & b & -> & <-). rewrite upd_app.
  etransitivity; [apply perm_skip; symmetry; apply Permutation_middle|]. etransitivity; [apply perm_swap|].
  apply perm_skip. apply Permutation_middle.
Qed.

Lemma swap_ok : forall cs t i j, Forall addr cs -> (i < length cs)%nat -> (j < length cs)%nat ->
  exists cs', swap (concat cs ++ t) (16 * Z.of_nat i) (16 * Z.of_nat j) = Ok (concat cs' ++ t) /\
    Permutation cs cs' /\ nth_error cs' j = nth_error cs i /\ Forall addr cs'.
Proof.
  intros cs t i j F I J. destruct (nth_ex _ _ _ I) as (x & X). destruct (nth_ex _ _ _ J) as (y & Y).
  assert (AX : addr x) by (eapply Forall_forall in F; [exact F|eapply nth_error_In; eauto]).
  assert (AY : addr y) by (eapply Forall_forall in F; [exact F|eapply nth_error_In; eauto]).
  unfold swap. rewrite (block_ok cs t i x), (block_ok cs t j y) by auto. cbn [bind].
  rewrite copyblk_ok by auto. cbn [bind]. rewrite copyblk_ok; [|apply Forall_upd; auto|rewrite upd_length; auto|auto].
  eexists. split; [reflexivity|]. split; [|split; [|repeat apply Forall_upd; auto]].
  - apply (Permutation_cons_inv (a := y)).
    assert (E : nth_error (upd cs i y) j = Some y).
    { destruct (Nat.eq_dec i j) as [->|D]; [apply nth_error_upd_same; auto|rewrite nth_error_upd_other; auto]. }
    symmetry. etransitivity; [apply perm_upd; exact E|]. apply perm_upd. exact X.
  - rewrite X. apply nth_error_upd_same. rewrite upd_length. auto.
Qed.

(** * Ordering *)

Lemma shuffle_ok : forall n cs t tr o, Forall addr cs -> (n <= length cs)%nat -> Z.of_nat n <= 2 ^ 55 ->
  runs (shuffle n (concat cs ++ t)) tr o ->
  o <> Wrong /\ forall s, o = Fin s -> exists cs', s = concat cs' ++ t /\ Permutation cs cs' /\ Forall addr cs'.
Proof.
  induction n as [|n IH]; intros cs t tr o F N M R.
  - destruct R as [-> ->]. split; [discriminate|]. intros s E. injection E as <-. exists cs. auto.
  - destruct n as [|m].
    + destruct R as [-> ->]. split; [discriminate|]. intros s E. injection E as <-. exists cs. auto.
    + remember (S m) as n1. cbn [shuffle] in R. rewrite Heqn1 in R. rewrite <- Heqn1 in R.
      apply runs_bind in R as [(i & t1 & t2 & -> & R1 & R2)|[[R1 ->]|[R1 ->]]].
      * apply randommod_range in R1 as [_ R1]; [|lia]. specialize (R1 i eq_refl).
        apply runs_bind in R2 as [(s1 & t3 & t4 & -> & R2 & R3)|[[R2 ->]|[R2 ->]]].
        -- destruct (swap_ok cs t (Z.to_nat i) n1) as (cs1 & E & P & _ & F1); auto; try lia.
           rewrite Z2Nat.id in E by lia. rewrite E in R2. destruct R2 as [-> R2]. injection R2 as ->.
           assert (LL : length cs1 = length cs) by (symmetry; apply Permutation_length; auto).
           apply IH in R3 as [R3 R4]; auto; try lia. split; auto. intros s E1. apply R4 in E1 as (cs2 & -> & P2 & F2).
           exists cs2. split; auto. split; auto. etransitivity; eauto.
        -- destruct (swap_ok cs t (Z.to_nat i) n1) as (cs1 & E & P & _ & F1); auto; try lia.
           rewrite Z2Nat.id in E by lia. rewrite E in R2. destruct R2 as [_ R2]. discriminate.
        -- split; discriminate.
      * apply randommod_range in R1 as [R1 _]; [|lia]. congruence.
      * split; discriminate.
Qed.

Lemma mapped_v4 : forall c, addr c -> (firstn 12 c = mapped <-> v4 c).
Proof.
  intros c A. split.
  - intros E. exists (skipn 12 c). rewrite <- (firstn_skipn 12 c) at 1. rewrite E. reflexivity.
  - intros (a & ->). reflexivity.
Qed.

Lemma firstv6_ok : forall k a b t e, Forall addr (a ++ b) -> Forall v4 a -> (length b <= k)%nat ->
  0 <= e < 16 ->
  exists cs', firstv6 k (concat (a ++ b) ++ t) (16 * len a) (16 * len (a ++ b) + e) = Ok (concat cs' ++ t) /\
    Permutation (a ++ b) cs' /\ Forall addr cs' /\
    ((exists c, In c b /\ ~ v4 c) -> exists c l, cs' = c :: l /\ ~ v4 c).
Proof.
  induction k as [|k IH]; intros a b t e F V K T.
  - exists (a ++ b). destruct b; [|cbn [length] in K; lia]. cbn [firstv6]. split; auto. split; auto. split; auto. intros (c & [] & _).
  - cbn [firstv6]. destruct b as [|c b].
    + rewrite app_nil_r in *. replace (16 * len a + 16 <=? 16 * len a + e) with false by lia. exists a. split; auto. split; auto. split; auto. intros (c & [] & _).
    + rewrite (proj2 (Z.leb_le _ _)) by (rewrite len_app, len_cons; pose proof (len_nonneg _ b); lia).
      assert (N : nth_error (a ++ c :: b) (length a) = Some c) by (rewrite nth_error_app2, Nat.sub_diag by lia; reflexivity).
      assert (C : addr c) by (eapply Forall_forall in F; [exact F|eapply nth_error_In; eauto]).
      unfold ismapped, len at 1. rewrite (block_ok _ _ _ c) by auto. cbn [bind].
      destruct (list_eq_dec Z.eq_dec (firstn 12 c) mapped) as [E|E]; cbn [negb].
      * apply mapped_v4 in E; auto. destruct (IH (a ++ [c]) b t e) as (cs' & E1 & P & F1 & H); auto.
        -- rewrite <- app_assoc. exact F.
        -- apply Forall_app. auto.
        -- cbn [length] in K. lia.
        -- rewrite <- app_assoc in E1, P. cbn [app] in E1, P. replace (16 * len a + 16) with (16 * len (a ++ [c])) by (rewrite len_app; change (len [c]) with 1; lia).
           exists cs'. split; auto. split; auto. split; auto. intros (d & [->|D] & ND); [contradiction|]. apply H. eauto.
      * assert (E' : ~ v4 c) by (intros G; apply E; apply mapped_v4; auto).
        destruct (swap_ok (a ++ c :: b) t (length a) 0) as (cs' & E1 & P & F2 & F1); auto; try (rewrite app_length; cbn [length]; lia).
        change (16 * Z.of_nat 0) with 0 in E1. unfold len. rewrite E1. exists cs'. split; auto. split; auto. split; auto. intros _.
        rewrite N in F2. destruct cs' as [|d l]; [discriminate|]. injection F2 as ->. eauto.
Qed.

Lemma sortip_ok : forall cs t e tr o, Forall addr cs -> len cs <= 2 ^ 55 -> 0 <= e < 16 ->
  runs (sortip (concat cs ++ t) (16 * len cs + e)) tr o ->
  o <> Wrong /\ forall s, o = Fin s -> exists cs', s = concat cs' ++ t /\ Forall addr cs' /\ ordering cs cs'.
Proof.
  intros cs t e tr o F M T R. unfold sortip in R. pose proof (len_nonneg _ cs) as LC.
  rewrite (proj2 (Z.ltb_ge _ _)) in R by lia. rewrite Z.shiftr_div_pow2 in R by lia. change (2 ^ 4) with 16 in R.
  replace ((16 * len cs + e) / 16) with (len cs) in R by (apply Z.div_unique with e; lia).
  replace (Z.to_nat (len cs)) with (length cs) in R by (unfold len; lia).
  apply runs_bind in R as [(s1 & t1 & t2 & -> & R1 & R2)|[[R1 ->]|[R1 ->]]].
  - apply shuffle_ok in R1 as [_ R1]; auto. destruct (R1 s1 eq_refl) as (cs1 & -> & P1 & F1).
    assert (LL : length cs1 = length cs) by (symmetry; apply Permutation_length; auto).
    destruct (firstv6_ok (S (length cs)) [] cs1 t e) as (cs2 & E & P2 & F2 & H); auto; try lia.
    cbn [app] in E, P2. change (16 * len []) with 0 in E. replace (len cs1) with (len cs) in E by (unfold len; lia).
    rewrite E in R2. destruct R2 as [-> ->]. split; [discriminate|]. intros s E1. injection E1 as <-. exists cs2.
    split; auto. split; auto. split; [etransitivity; eauto|]. intros (c & C1 & C2). apply H. exists c. split; auto.
    eapply Permutation_in; eauto.
  - apply shuffle_ok in R1 as [R1 _]; auto. congruence.
  - split; discriminate.
Qed.

(** * One lookup *)

Lemma copyin_mid : forall p x q y n, length x = length y -> n = len y -> copyin (p ++ x ++ q) (len p) y n = Ok (p ++ y ++ q).
Proof.
  intros p x q y n L ->. unfold copyin. destruct (Z.leb_spec (len y) 0).
  - assert (y = []) by (apply length_zero_iff_nil; unfold len in *; lia). subst y. destruct x; [reflexivity|discriminate].
  - replace (len p <? 0) with false by (unfold len; lia). replace (len (p ++ x ++ q) <? len p + len y) with false by (unfold len; rewrite !app_length; lia).
    replace (len y <? len y) with false by lia. cbn [orb]. f_equal. unfold len.
    rewrite <- Nat2Z.inj_add, !Nat2Z.id, firstn_app, firstn_all, Nat.sub_diag, firstn_O, app_nil_r. f_equal.
    rewrite firstn_all. f_equal. rewrite <- L. rewrite app_assoc. rewrite skipn_app, <- app_length, skipn_all, Nat.sub_diag. reflexivity.
Qed.

Lemma firstn_mid : forall A n (l : list A) x r, (length l < n)%nat -> firstn n (l ++ x :: r) = firstn n ((l ++ [x]) ++ r).
Proof. intros. rewrite <- app_assoc. reflexivity. Qed.

Lemma usable_addr : forall l, Forall addr (usable l).
Proof.
  induction l as [|a l IH]; cbn [usable flat_map]; [constructor|]. apply Forall_app. split; [|exact IH].
  destruct (Nat.eqb_spec (length a) 4); [|destruct (Nat.eqb_spec (length a) 16)]; repeat constructor; unfold addr.
  - rewrite !app_length, repeat_length. cbn [length]. lia.
  - auto.
Qed.

Lemma collect_ok : forall l cs t cap, Forall addr cs -> (length cs <= cap)%nat ->
  Z.to_nat (len (concat cs ++ t) / 16) = cap ->
  exists t', collect l (concat cs ++ t) (16 * len cs) (len (concat cs ++ t)) =
    Ok (concat (firstn cap (cs ++ usable l)) ++ t', 16 * len (firstn cap (cs ++ usable l))) /\
    len (concat (firstn cap (cs ++ usable l)) ++ t') = len (concat cs ++ t).
Proof.
  induction l as [|a l IH]; intros cs t cap F C I; cbn [collect].
  - exists t. cbn [usable flat_map]. rewrite app_nil_r, firstn_all2 by lia. auto.
  - assert (G : forall c, addr c -> usable (a :: l) = c :: usable l ->
      (forall x t1, t = x ++ t1 -> length x = 16%nat ->
         collect (a :: l) (concat cs ++ t) (16 * len cs) (len (concat cs ++ t)) =
         collect l (concat cs ++ c ++ t1) (16 * len cs + 16) (len (concat cs ++ t))) ->
      (len (concat cs ++ t) < 16 * len cs + 16 -> collect (a :: l) (concat cs ++ t) (16 * len cs) (len (concat cs ++ t)) =
         collect l (concat cs ++ t) (16 * len cs) (len (concat cs ++ t))) ->
      exists t', collect (a :: l) (concat cs ++ t) (16 * len cs) (len (concat cs ++ t)) =
        Ok (concat (firstn cap (cs ++ usable (a :: l))) ++ t', 16 * len (firstn cap (cs ++ usable (a :: l)))) /\
        len (concat (firstn cap (cs ++ usable (a :: l))) ++ t') = len (concat cs ++ t)).
    { intros c AC U G1 G2. rewrite U. pose proof (concat_len16 cs F) as L.
      destruct (Z.lt_ge_cases (len (concat cs ++ t)) (16 * len cs + 16)) as [D|D].
      - rewrite G2 by auto. destruct (IH cs t cap F C I) as (t' & E1 & E2). exists t'. rewrite E1.
        assert (CC : cap = length cs).
        { rewrite len_app in *. subst cap. unfold len in *. assert (Q : (Z.of_nat (length (concat cs)) + Z.of_nat (length t)) / 16 = Z.of_nat (length cs)).
          { symmetry. apply Z.div_unique with (Z.of_nat (length t)); lia. } rewrite Q. lia. }
        assert (EE : firstn cap (cs ++ c :: usable l) = firstn cap (cs ++ usable l)) by (rewrite CC, !firstn_app, Nat.sub_diag, !firstn_O; reflexivity).
        rewrite EE. auto.
      - assert (E : t = firstn 16 t ++ skipn 16 t) by (symmetry; apply firstn_skipn).
        assert (LX : length (firstn 16 t) = 16%nat) by (rewrite firstn_length; rewrite len_app in D; unfold len in *; lia).
        rewrite (G1 _ _ E LX). replace (cs ++ c :: usable l) with ((cs ++ [c]) ++ usable l) by (rewrite <- app_assoc; reflexivity).
        assert (LE : len (concat cs ++ t) = len (concat (cs ++ [c]) ++ skipn 16 t)).
        { rewrite E at 1. rewrite concat_app. cbn [concat]. rewrite app_nil_r. unfold len. rewrite !app_length. unfold addr in AC. lia. }
        destruct (IH (cs ++ [c]) (skipn 16 t) cap) as (t' & E1 & E2).
        + apply Forall_app. auto.
        + rewrite app_length. cbn [length]. subst cap. assert (len cs + 1 <= len (concat cs ++ t) / 16) by (apply Z.div_le_lower_bound; lia). unfold len in *. lia.
        + rewrite <- LE. exact I.
        + exists t'. rewrite <- LE in E1, E2. rewrite concat_app in E1. cbn [concat] in E1. rewrite app_nil_r, <- app_assoc in E1.
          replace (16 * len cs + 16) with (16 * len (cs ++ [c])) by (rewrite len_app; change (len [c]) with 1; lia). rewrite E1. auto. }
    assert (LC : 16 * len cs = len (concat cs)) by (unfold len; rewrite (concat_len16 cs F); lia).
    destruct (Nat.eqb_spec (length a) 4) as [A4|A4]; [|destruct (Nat.eqb_spec (length a) 16) as [A6|A6]].
    + apply (G (repeat 0 10 ++ [255; 255] ++ a)).
      * unfold addr. rewrite !app_length, repeat_length. cbn [length]. lia.
      * unfold usable. cbn [flat_map]. rewrite A4. reflexivity.
      * intros x t1 -> LX. cbn [collect]. replace (len a =? 4) with true by (unfold len; lia).
        rewrite (proj2 (Z.leb_le (16 * len cs + 16) _)) by (rewrite !len_app, <- LC; unfold len in *; lia).
        rewrite <- (firstn_skipn 12 x) at 1. rewrite LC, <- app_assoc.
        rewrite (copyin_mid (concat cs) (firstn 12 x) (skipn 12 x ++ t1) mapped 12) by (try reflexivity; rewrite firstn_length, LX; reflexivity).
        cbn [bind]. rewrite (app_assoc (concat cs) mapped). replace (len (concat cs) + 12) with (len (concat cs ++ mapped)) by (rewrite len_app; reflexivity).
        rewrite (copyin_mid (concat cs ++ mapped) (skipn 12 x) t1 a 4) by (try (unfold len; lia); rewrite skipn_length, LX, A4; reflexivity).
        cbn [bind]. rewrite <- !app_assoc. reflexivity.
      * intros D. cbn [collect]. replace (len a =? 4) with true by (unfold len; lia). rewrite (proj2 (Z.leb_gt _ _)) by lia. reflexivity.
    + apply (G a).
      * exact A6.
      * unfold usable. cbn [flat_map]. rewrite A6. reflexivity.
      * intros x t1 -> LX. cbn [collect]. replace (len a =? 4) with false by (unfold len; lia). replace (len a =? 16) with true by (unfold len; lia).
        rewrite (proj2 (Z.leb_le (16 * len cs + 16) _)) by (rewrite !len_app, <- LC; unfold len in *; lia).
        rewrite LC. rewrite (copyin_mid (concat cs) x t1 a 16) by (unfold len; lia). reflexivity.
      * intros D. cbn [collect]. replace (len a =? 4) with false by (unfold len; lia). replace (len a =? 16) with true by (unfold len; lia).
        rewrite (proj2 (Z.leb_gt _ _)) by lia. reflexivity.
    + replace (len a =? 4) with false by (unfold len; lia). replace (len a =? 16) with false by (unfold len; lia).
      replace (usable (a :: l)) with (usable l); [apply IH; auto|]. unfold usable. cbn [flat_map].
      rewrite (proj2 (Nat.eqb_neq _ _) A4), (proj2 (Nat.eqb_neq _ _) A6). reflexivity.
Qed.

Lemma cyclefill_ok : forall k ip n i s, (0 < n)%nat -> length s = n -> (n + i + k <= length ip)%nat ->
  (forall j, (j < n + i)%nat -> nth_error ip j = nth_error s (j mod n)) ->
  exists ip', cyclefill k ip n i = Ok ip' /\ length ip' = length ip /\
    forall j, (j < n + i + k)%nat -> nth_error ip' j = nth_error s (j mod n).
Proof.
  induction k as [|k IH]; intros ip n i s N S L H; cbn [cyclefill].
  - exists ip. split; auto. split; auto. intros j J. apply H. lia.
  - unfold ld. rewrite (H i) by lia. destruct (nth_error s (i mod n)) as [c|] eqn:E.
    2:{ apply nth_error_None in E. pose proof (Nat.mod_upper_bound i n). lia. }
    cbn [bind]. unfold st. rewrite (proj2 (Nat.ltb_lt _ _)) by lia. cbn [bind].
    destruct (IH (upd ip (n + i) c) n (Datatypes.S i) s) as (ip' & -> & L1 & H1); auto.
    + rewrite upd_length. lia.
    + intros j J. destruct (Nat.eq_dec j (n + i)) as [->|D].
      * rewrite nth_error_upd_same by lia. replace ((n + i) mod n)%nat with (i mod n)%nat; auto.
        replace (n + i)%nat with (i + 1 * n)%nat by lia. rewrite Nat.mod_add by lia. reflexivity.
      * rewrite nth_error_upd_other by lia. apply H. lia.
    + exists ip'. rewrite upd_length in L1. split; auto. split; auto. intros j J. apply H1. lia.
Qed.

Definition filled (ip s : list Z) : Prop := forall j, (j < length ip)%nat -> nth_error ip j = nth_error s (j mod length s).


Lemma Forall_firstn : forall A (P : A -> Prop) n l, Forall P l -> Forall P (firstn n l).
Proof. intros A P n l F. rewrite <- (firstn_skipn n l) in F. apply Forall_app in F. tauto. Qed.

Definition rnd (e : sys * ans) : Prop := exists n, fst e = Other (bs "randombytes") [n] [].
Lemma randommod_rnd : forall n tr o, runs (randommod n) tr o -> Forall rnd tr.
Proof.
  intros n tr o R. unfold randommod in R. destruct (n <=? 1); [destruct R as [-> _]; constructor|].
  destruct R as [[-> ->]|(a & t & -> & R)]; [constructor|]. cbn [pbind] in R. apply runs_lift in R as [-> _].
  constructor; [|constructor]. eexists. reflexivity.
Qed.
Lemma shuffle_rnd : forall n s tr o, runs (shuffle n s) tr o -> Forall rnd tr.
Proof.
  induction n as [|n IH]; intros s tr o R; [destruct R as [-> _]; constructor|].
  destruct n as [|m]; [destruct R as [-> _]; constructor|]. remember (S m) as n1. cbn [shuffle] in R. rewrite Heqn1 in R. rewrite <- Heqn1 in R.
  apply runs_bind in R as [(i & t1 & t2 & -> & R1 & R2)|[[R1 ->]|[R1 ->]]]; [|eapply randommod_rnd; eauto..].
  apply Forall_app. split; [eapply randommod_rnd; eauto|].
  apply runs_bind in R2 as [(s1 & t3 & t4 & -> & R2 & R3)|[[R2 ->]|[R2 ->]]]; apply runs_lift in R2 as [-> _]; [|constructor..].
  apply IH in R3. exact R3.
Qed.
Lemma sortip_rnd : forall s n tr o, runs (sortip s n) tr o -> Forall rnd tr.
Proof.
  intros s n tr o R. unfold sortip in R. destruct (n <? 0); [destruct R as [-> _]; constructor|].
  apply runs_bind in R as [(i & t1 & t2 & -> & R1 & R2)|[[R1 ->]|[R1 ->]]]; [|eapply shuffle_rnd; eauto..].
  apply runs_lift in R2 as [-> _]. rewrite app_nil_r. eapply shuffle_rnd; eauto.
Qed.
Lemma resolved_app : forall a b, resolved (a ++ b) = resolved a ++ resolved b.
Proof. intros. apply flat_map_app. Qed.
Lemma dsent_app : forall fd a b, dsent fd (a ++ b) = dsent fd a ++ dsent fd b.
Proof. intros. apply flat_map_app. Qed.
Lemma drecv_app : forall fd a b, drecv fd (a ++ b) = drecv fd a ++ drecv fd b.
Proof. intros. apply flat_map_app. Qed.
Lemma rnd_silent : forall tr, Forall rnd tr -> resolved tr = [] /\ forall fd, dsent fd tr = [] /\ drecv fd tr = [].
Proof.
  induction 1 as [|[c a] tr (n & E) F (IH1 & IH2)]; [repeat split|]. cbn [fst] in E. subst c.
  split; [exact IH1|]. intros fd. split; [exact (proj1 (IH2 fd))|exact (proj2 (IH2 fd))].
Qed.

Lemma collect_none : forall l ip n iplen, usable l = [] -> collect l ip n iplen = Ok (ip, n).
Proof.
  induction l as [|a l IH]; intros ip n iplen U; cbn [collect]; auto. unfold usable in U. cbn [flat_map] in U. fold (usable l) in U.
  unfold len. destruct (Nat.eqb_spec (length a) 4); [discriminate|]. destruct (Nat.eqb_spec (length a) 16); [discriminate|].
  replace (Z.of_nat (length a) =? 4) with false by lia. replace (Z.of_nat (length a) =? 16) with false by lia. auto.
Qed.

Lemma resolvehost_ok : forall ip host tr o, 16 <= len ip -> len ip <= 2 ^ 55 ->
  runs (resolvehost (Some ip) (len ip) (Some host)) tr o ->
  (tr = [] /\ o = Cut) \/
  exists a t, tr = (Other (bs "getaddrinfo") [] host, a) :: t /\ Forall rnd t /\ o <> Wrong /\
    forall n e ip', o = Fin (n, e, ip') -> exists r, lookup gai_list (Z.to_nat (len ip / 16)) a r /\ length ip' = length ip /\
      match r with
      | None => n = -1 /\ ip' = ip
      | Some s => Forall addr s /\ n = 16 * len s /\ 16 * len s <= len ip /\ (s = [] -> ip' = ip) /\ (s <> [] -> filled ip' (concat s))
      end.
Proof.
  intros ip host tr o L M R. unfold resolvehost in R. rewrite (proj2 (Z.ltb_ge _ _)) in R by lia.
  destruct R as [[-> ->]|(a & t & -> & R)]; [left; auto|right]. exists a, t. split; [reflexivity|]. cbn [pbind] in R.
  destruct (Z.eqb_spec (ret a) 0) as [E0|E0]; cbn [negb] in R.
  - set (cap := Z.to_nat (len ip / 16)). assert (CAP : (1 <= cap)%nat).
    { unfold cap. assert (1 <= len ip / 16) by (apply Z.div_le_lower_bound; lia). lia. }
    assert (CAP2 : 16 * Z.of_nat cap <= len ip) by (unfold cap; pose proof (Z.mul_div_le (len ip) 16); pose proof (Z.div_pos (len ip) 16); lia).
    assert (US : forall A (l : list A), firstn cap l = [] -> l = []) by (intros A [|x l]; auto; destruct cap; [lia|discriminate]).
    destruct (firstn cap (usable (gai_list (data a)))) as [|u us] eqn:U.
    + rewrite (collect_none _ _ _ _ (US _ _ U)) in R. change (0 <? 0) with false in R. destruct R as [-> ->].
      split; [constructor|]. split; [discriminate|]. intros n e ip' E. injection E as <- <- <-. exists (Some []).
      split; [right; auto|]. split; auto. split; [constructor|]. split; auto. split; [change (len []) with 0; lia|]. split; auto. intros []; auto.
    + destruct (collect_ok (gai_list (data a)) [] ip cap) as (t' & E & EL); auto; [cbn [length]; lia|].
      cbn [app concat] in E, EL. change (16 * len []) with 0 in E. rewrite E in R. clear E. rewrite U in R, EL. rewrite <- U in R, EL.
      set (us0 := firstn cap (usable (gai_list (data a)))) in *.
      assert (FU : Forall addr us0) by (apply Forall_firstn, usable_addr).
      assert (LU : (length us0 <= cap)%nat) by (unfold us0; rewrite firstn_length; lia).
      assert (LN : (1 <= length us0)%nat) by (rewrite U; cbn [length]; lia).
      change (lift (Ok (concat us0 ++ t', 16 * len us0))) with (Ret (concat us0 ++ t', 16 * len us0)) in R. cbn [pbind] in R.
      rewrite (proj2 (Z.ltb_lt _ _)) in R by (unfold len; lia).
      apply runs_bind in R as [(s1 & t1 & t2 & -> & R1 & R2)|[[R1 ->]|[R1 ->]]].
      * pose proof (sortip_rnd _ _ _ _ R1) as RN. replace (16 * len us0) with (16 * len us0 + 0) in R1 by lia.
        apply sortip_ok in R1 as [_ R1]; auto; try (unfold len in *; lia). destruct (R1 s1 eq_refl) as (cs & -> & FC & OC).
        assert (LCS : length cs = length us0) by (destruct OC as [OC _]; symmetry; apply Permutation_length; auto).
        pose proof (concat_len16 cs FC) as LC. pose proof (concat_len16 us0 FU) as LC2.
        destruct (cyclefill_ok (Z.to_nat (len ip - 16 * len us0)) (concat cs ++ t') (Z.to_nat (16 * len us0)) 0 (concat cs)) as (ip' & E & LI & H).
        -- unfold len. lia.
        -- rewrite LC. unfold len. lia.
        -- rewrite len_app in EL. rewrite app_length. unfold len in *. lia.
        -- intros j J. rewrite Nat.mod_small by lia. apply nth_error_app1. unfold len in *. lia.
        -- rewrite E in R2. destruct R2 as [-> ->]. rewrite app_nil_r. split; auto. split; [discriminate|].
           intros n e ip'' E1. injection E1 as <- <- <-. exists (Some cs). split.
           { destruct cs; [cbn [length] in LCS; lia|]. split; auto. }
           split. { rewrite LI, app_length. rewrite len_app in EL. unfold len in *. lia. }
           split; auto. split; [unfold len; lia|]. split; [unfold len in *; lia|]. split; [intros ->; cbn [length] in LCS; lia|].
           intros _ j J. rewrite H. { f_equal. f_equal. rewrite LC. unfold len. lia. }
           rewrite LI, app_length in J. rewrite len_app in EL. unfold len in *. lia.
      * pose proof (sortip_rnd _ _ _ _ R1) as RN. replace (16 * len us0) with (16 * len us0 + 0) in R1 by lia.
        apply sortip_ok in R1 as [R1 _]; auto; try (unfold len in *; lia). congruence.
      * pose proof (sortip_rnd _ _ _ _ R1) as RN. split; auto. split; discriminate.
  - destruct R as [-> ->]. split; [constructor|]. split; [discriminate|]. intros n e ip' E. injection E as <- <- <-.
    unfold EAI_NONAME, EAI_NODATA, EAI_SYSTEM, EMFILE, lookup, nodata.
    destruct (Z.eqb_spec (ret a) (-2)) as [E2|E2]; destruct (Z.eqb_spec (err a) 24) as [E4|E4]; cbn [andb].
    + change ((-11 =? -2) || (-11 =? -5)) with false. exists None. split; [|auto]. split; auto. intros [[_ ?]|?]; lia.
    + rewrite E2. change ((-2 =? -2) || (-2 =? -5)) with true. exists (Some []). split; [left; left; auto|]. split; auto. split; [constructor|]. split; auto. split; [change (len []) with 0; lia|]. split; auto. intros []; auto.
    + destruct (Z.eqb_spec (ret a) (-5)) as [E5|E5].
      * rewrite E5. change ((-5 =? -2) || true) with true. exists (Some []). split; [left; right; auto|]. split; auto. split; [constructor|]. split; auto. split; [change (len []) with 0; lia|]. split; auto. intros []; auto.
      * replace (ret a =? -2) with false by lia. cbn [orb]. exists None. split; [|auto]. split; auto. intros [[? _]|?]; lia.
    + destruct (Z.eqb_spec (ret a) (-5)) as [E5|E5].
      * rewrite E5. change ((-5 =? -2) || true) with true. exists (Some []). split; [left; right; auto|]. split; auto. split; [constructor|]. split; auto. split; [change (len []) with 0; lia|]. split; auto. intros []; auto.
      * replace (ret a =? -2) with false by lia. cbn [orb]. exists None. split; [|auto]. split; auto. intros [[? _]|?]; lia.
Qed.

(** * The helper *)

Definition asked (q : list Z) (l : list Z * ans) : Prop := firstn 256 (fst l) = firstn 255 q ++ [0].
Definition replied (l : list Z * ans) (rep : list Z) : Prop :=
  exists r, lookup gai_list 8 (snd l) r /\
    match r with
    | None => rep = [255]
    | Some s => Forall addr s /\ (length s <= 8)%nat /\ rep = 16 * len s :: concat s
    end.
Definition served (fd : Z) (tr : trace) : Prop :=
  (exists qs x, drecv fd tr = qs ++ x /\ Forall2 asked qs (resolved tr)) /\
  (exists ls x, resolved tr = ls ++ x /\ Forall2 replied ls (dsent fd tr)).
Lemma served_nil : forall fd tr, resolved tr = [] -> dsent fd tr = [] -> served fd tr.
Proof.
  intros fd tr E1 E2. split; [exists [], (drecv fd tr)|exists [], []]; rewrite ?E1, ?E2; auto.
Qed.
(** an event that is none of receive, lookup, send *)
Lemma served_skip : forall fd e tr, drecv fd [e] = [] -> resolved [e] = [] -> dsent fd [e] = [] -> served fd tr -> served fd (e :: tr).
Proof.
  intros fd e tr E1 E2 E3 S. change (e :: tr) with ([e] ++ tr). unfold served. rewrite drecv_app, resolved_app, dsent_app, E1, E2, E3. exact S.
Qed.

Lemma filled_prefix : forall ip s, s <> [] -> (length s <= length ip)%nat -> filled ip s -> firstn (length s) ip = s.
Proof.
  intros ip s N L F. apply nth_error_ext. intros i. destruct (Nat.lt_ge_cases i (length s)) as [D|D].
  - rewrite nth_error_firstn, (proj2 (Nat.ltb_lt _ _) D), F by lia. rewrite Nat.mod_small by lia. reflexivity.
  - rewrite (proj2 (nth_error_None _ _)) by (rewrite firstn_length; lia). symmetry. apply nth_error_None. lia.
Qed.

Lemma served_mid : forall fd a h g u, 0 < ret a -> asked (data a) (h, g) -> Forall rnd u ->
  served fd ((Recv fd 257, a) :: (Other (bs "getaddrinfo") [] h, g) :: u).
Proof.
  intros fd a h g u P A U. apply rnd_silent in U as [U1 U2]. destruct (U2 fd) as [U3 U4].
  change ((Recv fd 257, a) :: (Other (bs "getaddrinfo") [] h, g) :: u) with ([(Recv fd 257, a); (Other (bs "getaddrinfo") [] h, g)] ++ u).
  unfold served. rewrite drecv_app, resolved_app, dsent_app, U1, U3, U4, !app_nil_r. split.
  - exists [data a], []. split.
    + unfold drecv, Recv. cbn [flat_map fst snd]. change (is_name (bs "recv") (bs "recv")) with true. rewrite Z.eqb_refl, (proj2 (Z.ltb_lt _ _) P). reflexivity.
    + change (Forall2 asked [data a] [(h, g)]). constructor; auto.
  - exists [], [(h, g)]. split; [reflexivity|constructor].
Qed.

Lemma helper_ok : forall fuel fd ppid buf ip tr o, length buf = 257%nat -> length ip = 129%nat ->
  Forall dgram tr -> Forall (fun q => length q = 256%nat) (drecv fd tr) ->
  runs (helper fuel fd ppid buf ip) tr o -> o <> Wrong /\ served fd tr.
Proof.
  induction fuel as [|fuel IH]; intros fd ppid buf ip tr o LB LI D Q R; cbn [helper] in R.
  - destruct R as [-> ->]. split; [discriminate|apply served_nil; reflexivity].
  - destruct R as [[-> ->]|(pp & t & -> & R)]; [split; [discriminate|apply served_nil; reflexivity]|]. cbn [pbind] in R.
    inversion D as [|? ? _ D1]; subst; clear D. change (drecv fd ((Other (bs "getppid") [] [], pp) :: t)) with (drecv fd t) in Q.
    enough (G : o <> Wrong /\ served fd t) by (destruct G as [G1 G2]; split; auto; apply served_skip; auto).
    destruct (ret pp =? ppid); cbn [negb] in R; [|destruct R as [-> ->]; split; [discriminate|apply served_nil; reflexivity]].
    destruct R as [[-> ->]|(p & t1 & -> & R)]; [split; [discriminate|apply served_nil; reflexivity]|]. cbn [pbind] in R.
    inversion D1 as [|? ? _ D2]; subst; clear D1. change (drecv fd ((Poll [(fd, 1)] 1000, p) :: t1)) with (drecv fd t1) in Q.
    enough (G : o <> Wrong /\ served fd t1) by (destruct G as [G1 G2]; split; auto; apply served_skip; auto).
    destruct (match data p with [] => true | [0] => true | _ => false end); [eapply IH; eauto|].
    destruct R as [[-> ->]|(a & t2 & -> & R)]; [split; [discriminate|apply served_nil; reflexivity]|]. cbn [pbind] in R.
    inversion D2 as [|? ? D3 D4]; subst; clear D2. unfold dgram, Recv in D3. cbn [fst snd] in D3. specialize (D3 eq_refl).
    assert (QE : drecv fd ((Recv fd 257, a) :: t2) = (if 0 <? ret a then [data a] else []) ++ drecv fd t2).
    { unfold drecv. cbn [flat_map Recv fst snd]. f_equal. change (is_name (bs "recv") (bs "recv")) with true. rewrite Z.eqb_refl. reflexivity. }
    rewrite QE in Q. apply Forall_app in Q as [Q1 Q2].
    destruct (Z.eqb_spec (ret a) 257) as [E257|E257]; [destruct R as [-> ->]; split; [discriminate|apply served_nil; reflexivity]|].
    destruct (Z.eqb_spec (ret a) (-1)) as [E1|E1].
    { rewrite E1 in QE. change (0 <? -1) with false in QE.
      destruct ((err a =? EINTR) || (err a =? EAGAIN)).
      - apply IH in R as [R1 R2]; auto. split; auto. apply served_skip; auto.
        unfold drecv. cbn [flat_map Recv fst snd]. rewrite E1. change (0 <? -1) with false. rewrite andb_false_r. reflexivity.
      - destruct R as [-> ->]; split; [discriminate|apply served_nil; reflexivity]. }
    destruct D3 as [D3|[D3 D5]]; [lia|].
    destruct (Z.eqb_spec (ret a) 0) as [E0|E0]; [destruct R as [-> ->]; split; [discriminate|apply served_nil; reflexivity]|].
    assert (P : 0 < ret a) by (pose proof (len_nonneg _ (data a)); lia).
    rewrite (proj2 (Z.ltb_lt _ _) P) in Q1, QE. inversion Q1 as [|? ? Q3 _]; subst. unfold len in D3. rewrite Q3 in D3. change (Z.of_nat 256) with 256 in D3.
    rewrite D3 in R.
    set (z := skipn 256 buf). assert (LZ : length z = 1%nat) by (unfold z; rewrite skipn_length, LB; reflexivity).
    assert (CB : copyin buf 0 (data a) 256 = Ok (data a ++ z)).
    { rewrite <- (firstn_skipn 256 buf). fold z. change 0 with (len (@nil Z)). rewrite <- (app_nil_l (firstn 256 buf ++ z)).
      rewrite (copyin_mid [] (firstn 256 buf) z (data a) 256); auto; [rewrite firstn_length, LB, Q3; reflexivity|unfold len; rewrite Q3; reflexivity]. }
    rewrite CB in R. cbn [lift pbind] in R.
    destruct (split_nth _ (data a) 255 (nth 255 (data a) 0)) as (x & y & EX & LX); [apply nth_error_nth'; lia|].
    assert (LY : y = []). { apply length_zero_iff_nil. rewrite EX, app_length in Q3. cbn [length] in Q3. lia. }
    subst y. set (c255 := nth 255 (data a) 0) in *. clearbody c255.
    assert (ST : st (data a ++ z) 255 0 = Ok (x ++ 0 :: z)).
    { rewrite EX, <- app_assoc. cbn [app]. rewrite <- LX. apply st_app. }
    rewrite ST in R. cbn [lift pbind] in R.
    assert (LI1 : len (skipn 1 ip) = 128) by (unfold len; rewrite skipn_length, LI; reflexivity).
    rewrite <- LI1 in R at 1.
    assert (AS : forall g, asked (data a) (x ++ 0 :: z, g)).
      { intros g. unfold asked. cbn [fst]. rewrite EX. replace (x ++ 0 :: z) with ((x ++ [0]) ++ z) by (rewrite <- app_assoc; reflexivity).
        rewrite firstn_app. rewrite app_length, LX. change (256 - (255 + length [0]))%nat with 0%nat. rewrite firstn_O, app_nil_r.
        rewrite firstn_all2 by (rewrite app_length, LX; cbn [length]; lia). rewrite firstn_app, LX, Nat.sub_diag, firstn_O, app_nil_r, firstn_all2 by lia. reflexivity. }
    apply runs_bind in R as [([[n e] ip1] & u1 & u2 & -> & R1 & R2)|[[R1 ->]|[R1 ->]]].
    + apply resolvehost_ok in R1 as [[_ R1]|(g & u3 & -> & U & _ & R1)]; [discriminate| |rewrite LI1; lia|rewrite LI1; lia].
      destruct (R1 n e ip1 eq_refl) as (r & LR & LP & RR). rewrite LI1 in LR. change (Z.to_nat (128 / 16)) with 8%nat in LR.
      pose proof U as UU. apply rnd_silent in U as [U1 U2]. destruct (U2 fd) as [U3 U4].
      set (p01 := if n <? 0 then (255, 0) else (u8 n, n)) in R2.
      destruct p01 as [ip0 n0] eqn:EP.
      assert (REP : replied (x ++ 0 :: z, g) (firstn (Z.to_nat (n0 + 1)) (ip0 :: ip1)) /\ Z.of_nat (length (firstn (Z.to_nat (n0 + 1)) (ip0 :: ip1))) = n0 + 1).
      { unfold replied. cbn [snd]. unfold p01 in EP. destruct r as [s|].
        - destruct RR as (S1 & S2 & S3 & S4 & S5). pose proof (len_nonneg _ s) as LS. rewrite (proj2 (Z.ltb_ge _ _)) in EP by lia. injection EP as <- <-.
          pose proof (concat_len16 s S1) as LC. rewrite LI1 in S3.
          assert (LL : length ip1 = 128%nat) by (rewrite LP; unfold len in LI1; lia).
          replace (Z.to_nat (n + 1)) with (S (length (concat s))) by (rewrite LC; unfold len in S2; lia). cbn [firstn].
          rewrite u8_id by lia.
          assert (FF : firstn (length (concat s)) ip1 = concat s).
          { destruct s as [|s0 s1]; [reflexivity|]. apply filled_prefix.
            - intros E. rewrite E in LC. cbn [length] in LC. lia.
            - unfold len in S3. lia.
            - apply S5. discriminate. }
          rewrite FF. split; [|cbn [length]; unfold len in S2; lia]. exists (Some s). split; auto. split; auto. split; [unfold len in S3; lia|]. rewrite S2. reflexivity.
        - destruct RR as (-> & ->). change (-1 <? 0) with true in EP. injection EP as <- <-. change (Z.to_nat (0 + 1)) with 1%nat. cbn [firstn length]. split; [|reflexivity]. exists None. auto. }
      destruct REP as [REP LREP].
      destruct R2 as [[-> ->]|(w & u4 & -> & R2)].
      * split; [discriminate|]. rewrite app_nil_r. apply served_mid; auto.
      * cbn [pbind] in R2.
        change ((Recv fd 257, a) :: ((Other (bs "getaddrinfo") [] (x ++ 0 :: z), g) :: u3) ++ (Send fd (firstn (Z.to_nat (n0 + 1)) (ip0 :: ip1)), w) :: u4) with
          ([(Recv fd 257, a); (Other (bs "getaddrinfo") [] (x ++ 0 :: z), g)] ++ u3 ++ [(Send fd (firstn (Z.to_nat (n0 + 1)) (ip0 :: ip1)), w)] ++ u4) in *.
        set (rep := firstn (Z.to_nat (n0 + 1)) (ip0 :: ip1)) in *.
        assert (DS : dsent fd [(Send fd rep, w)] = if 0 <=? ret w then [rep] else []).
        { unfold dsent, Send. cbn [flat_map fst snd]. change (is_name (bs "send") (bs "send")) with true. rewrite Z.eqb_refl, app_nil_r. reflexivity. }
        assert (DW : dgram (Send fd rep, w)).
        { change ((Other (bs "getaddrinfo") [] (x ++ 0 :: z), g) :: u3) with ([(Other (bs "getaddrinfo") [] (x ++ 0 :: z), g)] ++ u3) in D4.
          rewrite Forall_forall in D4. apply D4. apply in_or_app. right. left. reflexivity. }
        assert (D6 : Forall dgram u4) by (apply Forall_app in D4 as [_ D4]; inversion D4; auto).
        assert (Q6 : Forall (fun q => length q = 256%nat) (drecv fd u4)).
        { change ((Send fd rep, w) :: u4) with ([(Send fd rep, w)] ++ u4) in Q2. rewrite !drecv_app in Q2. apply Forall_app in Q2 as [_ Q2]. apply Forall_app in Q2 as [_ Q2]. exact Q2. }
        unfold dgram, Send in DW. cbn [fst snd] in DW. specialize (DW eq_refl).
        assert (G : o <> Wrong /\ served fd u4 /\ (ret w = -1 -> u4 = [])).
        { destruct (Z.eqb_spec (ret w) (-1)) as [EW|EW].
          - destruct R2 as [-> ->]. split; [discriminate|]. split; auto. apply served_nil; reflexivity.
          - apply IH in R2; auto. { destruct R2. split; auto. split; auto. intros; contradiction. }
            + rewrite app_length. cbn [length]. lia.
            + cbn [length]. rewrite LP, skipn_length, LI. reflexivity. }
        destruct G as (G1 & [(qs & xs & G2 & G3) (ls & ys & G4 & G5)] & G6). split; auto. unfold served.
        rewrite !drecv_app, !resolved_app, !dsent_app, U1, U3, U4, DS. cbn [app].
        assert (DR : drecv fd [(Recv fd 257, a); (Other (bs "getaddrinfo") [] (x ++ 0 :: z), g)] = [data a]).
        { change [(Recv fd 257, a); (Other (bs "getaddrinfo") [] (x ++ 0 :: z), g)] with ([(Recv fd 257, a)] ++ [(Other (bs "getaddrinfo") [] (x ++ 0 :: z), g)]). rewrite drecv_app. unfold drecv at 1, Recv. cbn [flat_map fst snd].
          change (is_name (bs "recv") (bs "recv")) with true. rewrite Z.eqb_refl, D3. reflexivity. }
        rewrite DR. change (resolved [(Recv fd 257, a); (Other (bs "getaddrinfo") [] (x ++ 0 :: z), g)]) with [(x ++ 0 :: z, g)].
        change (drecv fd [(Send fd rep, w)]) with (@nil (list Z)). change (resolved [(Send fd rep, w)]) with (@nil (list Z * ans)).
        change (dsent fd [(Recv fd 257, a); (Other (bs "getaddrinfo") [] (x ++ 0 :: z), g)]) with (@nil (list Z)). cbn [app].
        split.
        -- exists (data a :: qs), xs. rewrite G2. split; [reflexivity|]. constructor; auto.
        -- destruct DW as [DW|DW].
           ++ rewrite DW. change (0 <=? -1) with false. rewrite (G6 DW). exists [], [(x ++ 0 :: z, g)]. split; [reflexivity|constructor].
           ++ rewrite (proj2 (Z.leb_le _ _)) by (pose proof (len_nonneg _ rep); lia). exists ((x ++ 0 :: z, g) :: ls), ys. rewrite G4. split; [reflexivity|].
              constructor; auto.
    + apply resolvehost_ok in R1 as [[_ R1]|(g & u3 & -> & U & R1 & _)]; [discriminate|congruence|rewrite LI1; lia|rewrite LI1; lia].
    + split; [discriminate|]. apply resolvehost_ok in R1 as [[-> _]|(g & u3 & -> & U & _ & _)]; [| |rewrite LI1; lia|rewrite LI1; lia].
      * apply served_nil; reflexivity.
      * apply served_mid; auto.
Qed.

(** * The client *)

Lemma namelen_ok : forall s r, nonul s -> namelen (s ++ 0 :: r) = Ok (len s).
Proof.
  induction 1 as [|c s C F IH]; [reflexivity|]. cbn [app namelen]. destruct (Z.eqb_spec c 0); [lia|]. rewrite IH. cbn [bind]. rewrite len_cons. reflexivity.
Qed.

Definition padded (name : list Z) : list Z := name ++ repeat 0 (256 - length name).
Definition taken (rep ip : list Z) (iplen : Z) : Z * list Z :=
  match rep with
  | [b] => if u8 b =? 255 then (-1, ip) else (u8 b, ip)
  | _ => let n := Z.min iplen (len rep - 1) in (n, firstn (Z.to_nat n) (tl rep) ++ skipn (Z.to_nat n) ip)
  end.

Lemma do_ok : forall fd ip iplen name rest tr o, nonul name -> iplen <= len ip -> Forall dgram tr -> Forall healthy tr ->
  runs (resolvehost_do fd (Some ip) iplen (Some (name ++ 0 :: rest))) tr o ->
  (accepted (ip, iplen, name) = false /\ tr = [] /\ o = Fin (-1, ip)) \/
  (accepted (ip, iplen, name) = true /\ o <> Wrong /\
   forall x, o = Fin x -> exists rep, dsent fd tr = [padded name] /\ drecv fd tr = [rep] /\ rep <> [] /\ x = taken rep ip iplen).
Proof.
  intros fd ip iplen name rest tr o N L D H R. unfold resolvehost_do in R. unfold accepted.
  destruct (Z.ltb_spec iplen 16) as [I16|I16].
  { left. destruct R as [-> ->]. rewrite (proj2 (Z.leb_gt _ _)) by lia. auto. }
  rewrite (proj2 (Z.leb_le _ _)) by lia. rewrite namelen_ok in R by auto. cbn [lift pbind] in R.
  destruct (Z.ltb_spec 255 (len name)) as [I255|I255].
  { left. destruct R as [-> ->]. rewrite (proj2 (Z.leb_gt _ _)) by lia. auto. }
  rewrite (proj2 (Z.leb_le _ _)) by lia. right. split; [reflexivity|].
  assert (CB : copyin (repeat 0 256) 0 (name ++ 0 :: rest) (len name) = Ok (padded name)).
  { unfold copyin. destruct (Z.leb_spec (len name) 0) as [I0|I0].
    - assert (name = []) by (apply length_zero_iff_nil; unfold len in *; lia). subst name. reflexivity.
    - change (0 <? 0) with false. change (len (repeat 0 256)) with 256. rewrite (proj2 (Z.ltb_ge _ _)) by lia.
      rewrite (proj2 (Z.ltb_ge _ _)) by (rewrite len_app; pose proof (len_nonneg _ (0 :: rest)); lia). cbn [orb]. f_equal.
      change (Z.to_nat 0) with 0%nat. rewrite firstn_O. cbn [app]. unfold padded, len. rewrite Z.add_0_l, !Nat2Z.id.
      rewrite firstn_app, firstn_all, Nat.sub_diag, firstn_O, app_nil_r. f_equal.
      replace 256%nat with (length name + (256 - length name))%nat at 1 by (unfold len in *; lia). rewrite repeat_app, skipn_app, repeat_length, Nat.sub_diag.
      rewrite skipn_all2 by (rewrite repeat_length; lia). reflexivity. }
  rewrite CB in R. cbn [lift pbind] in R.
  assert (LP : length (padded name) = 256%nat) by (unfold padded; rewrite app_length, repeat_length; unfold len in *; lia).
  destruct R as [[-> ->]|(s & t & -> & R)]; [split; discriminate|]. cbn [pbind] in R.
  inversion D as [|? ? D1 D2]; subst; clear D. inversion H as [|? ? H1 H2]; subst; clear H.
  unfold dgram, Send in D1. cbn [fst snd] in D1. specialize (D1 eq_refl). unfold healthy, Send in H1. cbn [fst snd] in H1. specialize (H1 eq_refl).
  unfold len in D1. rewrite LP in D1. change (Z.of_nat 256) with 256 in D1. destruct D1 as [D1|D1]; [lia|]. rewrite D1 in R. change (256 =? 256) with true in R. cbn [negb] in R.
  destruct R as [[-> ->]|(a & t1 & -> & R)]; [split; discriminate|]. cbn [pbind] in R.
  inversion D2 as [|? ? D3 D4]; subst; clear D2. inversion H2 as [|? ? H3 H4]; subst; clear H2.
  unfold dgram, Recv in D3. cbn [fst snd] in D3. specialize (D3 eq_refl). unfold healthy, Recv in H3. cbn [fst snd] in H3. specialize (H3 eq_refl).
  destruct D3 as [D3|[D3 D5]]; [lia|]. rewrite (proj2 (Z.leb_gt _ _)) in R by lia.
  set (z := skipn (length (data a)) (padded name)).
  assert (CB2 : copyin (padded name) 0 (data a) (ret a) = Ok (data a ++ z)).
  { rewrite <- (firstn_skipn (length (data a)) (padded name)). fold z. rewrite D3. apply (copyin_mid [] _ z (data a)); auto.
    rewrite firstn_length, LP. unfold len in *. lia. }
  rewrite CB2 in R. cbn [lift pbind] in R.
  assert (TR : forall t2, dsent fd ((Send fd (padded name), s) :: (Recv fd 256, a) :: t2) = padded name :: dsent fd t2 /\
               drecv fd ((Send fd (padded name), s) :: (Recv fd 256, a) :: t2) = data a :: drecv fd t2).
  { intros t2. unfold dsent, drecv, Send, Recv. cbn [flat_map fst snd]. change (is_name (bs "send") (bs "send")) with true. change (is_name (bs "recv") (bs "recv")) with true.
    rewrite Z.eqb_refl, (proj2 (Z.leb_le _ _) H1), (proj2 (Z.ltb_lt _ _) H3). split; reflexivity. }
  assert (NE : data a <> []) by (intros E; rewrite E in D3; change (len []) with 0 in D3; lia).
  destruct (data a) as [|b0 d] eqn:ED; [congruence|].
  destruct (Z.eqb_spec (ret a) 1) as [E1|E1].
  - assert (d = []) by (apply length_zero_iff_nil; rewrite len_cons in D3; unfold len in D3; lia). subst d.
    change (ld ([b0] ++ z) 0) with (Ok b0) in R. cbn [lift pbind] in R.
    assert (G : t1 = [] /\ o = Fin (if u8 b0 =? 255 then (-1, ip) else (u8 b0, ip))) by (destruct (u8 b0 =? 255); destruct R as [-> ->]; auto).
    destruct G as [-> ->]. split; [discriminate|]. intros x E. injection E as <-. exists [b0]. destruct (TR []) as [-> ->]. auto.
  - set (n := if iplen <? ret a - 1 then iplen else ret a - 1) in R.
    assert (EN : n = Z.min iplen (len (b0 :: d) - 1)) by (unfold n; destruct (Z.ltb_spec iplen (ret a - 1)); lia).
    rewrite len_cons in D3, EN. replace (len d + 1 - 1) with (len d) in EN by lia.
    assert (LD : 0 < len d) by lia. assert (LN : n <= len d) by lia. assert (LN0 : 0 < n) by lia.
    change (skipn 1 ((b0 :: d) ++ z)) with (d ++ z) in R.
    assert (CC : copyin ip 0 (d ++ z) n = Ok (firstn (Z.to_nat n) d ++ skipn (Z.to_nat n) ip)).
    { unfold copyin. rewrite (proj2 (Z.leb_gt _ _)) by lia. change (0 <? 0) with false. rewrite (proj2 (Z.ltb_ge _ _)) by lia.
      rewrite (proj2 (Z.ltb_ge _ _)) by (rewrite len_app; pose proof (len_nonneg _ z); lia). cbn [orb]. f_equal. change (Z.to_nat 0) with 0%nat. rewrite firstn_O. cbn [app].
      rewrite firstn_app. replace (Z.to_nat n - length d)%nat with 0%nat by (unfold len in *; lia). rewrite firstn_O, app_nil_r. reflexivity. }
    rewrite CC in R. destruct R as [-> ->]. split; [discriminate|]. intros x E. injection E as <-. exists (b0 :: d).
    split; [exact (proj1 (TR []))|]. split; [exact (proj2 (TR []))|]. split; [discriminate|]. unfold taken. destruct d; [change (len []) with 0 in LD; lia|].
    cbn [tl]. rewrite len_cons. replace (len (z0 :: d) + 1 - 1) with (len (z0 :: d)) by lia. rewrite <- EN. reflexivity.
Qed.

Definition withnul (q : list Z * Z * list Z) : list Z * Z * list Z := let '(ip, iplen, name) := q in (ip, iplen, name ++ [0]).
Definition goodreq (q : list Z * Z * list Z) : Prop := let '(ip, iplen, name) := q in nonul name /\ iplen <= len ip.
Definition reqname (q : list Z * Z * list Z) : list Z := snd q.
Definition acc (l : list ((list Z * Z * list Z) * (Z * list Z))) := filter (fun x => accepted (fst x)) l.

Lemma lookups_ok : forall fd reqs tr o, Forall goodreq reqs -> Forall dgram tr -> Forall healthy tr ->
  runs (lookups_do fd (map withnul reqs)) tr o ->
  o <> Wrong /\ forall rs, o = Fin rs -> length rs = length reqs /\
    Forall2 (fun q r => accepted q = false -> r = (-1, fst (fst q))) reqs rs /\
    dsent fd tr = map (fun x => padded (snd (fst x))) (acc (combine reqs rs)) /\
    Forall2 (fun x rep => rep <> [] /\ snd x = taken rep (fst (fst (fst x))) (snd (fst (fst x)))) (acc (combine reqs rs)) (drecv fd tr).
Proof.
  intros fd. induction reqs as [|[[ip iplen] name] reqs IH]; intros tr o G D H R; cbn [map withnul lookups_do] in R.
  - destruct R as [-> ->]. split; [discriminate|]. intros rs E. injection E as <-. split; [reflexivity|]. split; [constructor|]. split; [reflexivity|constructor].
  - inversion G as [|? ? G0 G3]; subst; clear G. destruct G0 as [G1 G2].
    apply runs_bind in R as [(x & t1 & t2 & -> & R1 & R2)|[[R1 ->]|[R1 ->]]].
    + apply Forall_app in D as [D1 D2]. apply Forall_app in H as [H1 H2].
      apply runs_bind in R2 as [(xs & t3 & t4 & -> & R2 & R3)|[[R2 ->]|[R2 ->]]].
      * apply Forall_app in D2 as [D2 D3]. apply Forall_app in H2 as [H2 H3]. destruct R3 as [-> ->]. rewrite app_nil_r.
        split; [discriminate|]. intros rs E. injection E as <-.
        apply IH in R2 as [_ R2]; auto. destruct (R2 xs eq_refl) as (L1 & L2 & L3 & L4).
        split; [cbn [length]; lia|]. rewrite dsent_app, drecv_app, L3. unfold acc. cbn [combine filter fst].
        apply do_ok in R1; auto. destruct R1 as [(A & -> & E)|(A & _ & R1)].
        -- injection E as ->. rewrite A. split; [constructor; auto|]. split; [reflexivity|exact L4].
        -- destruct (R1 x eq_refl) as (rep & S1 & S2 & S3 & S4). rewrite A. split; [constructor; auto; intros; congruence|].
           rewrite S1, S2. split; [reflexivity|]. cbn [app]. constructor; auto.
      * apply IH in R2 as [R2 _]; auto. congruence.
      * split; discriminate.
    + apply do_ok in R1; auto. destruct R1 as [(_ & _ & R1)|(_ & R1 & _)]; congruence.
    + split; discriminate.
Qed.

(** * Both together *)

Lemma forall2_app_l : forall A B (P : A -> B -> Prop) a1 a2 b, Forall2 P (a1 ++ a2) b -> exists b1 b2, b = b1 ++ b2 /\ Forall2 P a1 b1 /\ Forall2 P a2 b2.
Proof. intros A B P a1 a2 b F. apply Forall2_app_inv_l in F as (b1 & b2 & F1 & F2 & ->). eauto. Qed.
Lemma forall2_prefix : forall A B (P : A -> B -> Prop) a b, Forall2 P a b -> forall b1 b2, b = b1 ++ b2 -> exists a1 a2, a = a1 ++ a2 /\ Forall2 P a1 b1.
Proof. intros A B P a b F b1 b2 ->. apply Forall2_app_inv_r in F as (a1 & a2 & F1 & F2 & ->). eauto. Qed.
Lemma forall2_len : forall A B (P : A -> B -> Prop) a b, Forall2 P a b -> length a = length b.
Proof. induction 1; cbn [length]; auto. Qed.

Lemma padded_asked : forall name l, nonul name -> (length name <= 255)%nat -> asked (firstn 257 (padded name)) l -> exists t, fst l = name ++ 0 :: t.
Proof.
  intros name l N L A. unfold asked in A.
  assert (LP : length (padded name) = 256%nat) by (unfold padded; rewrite app_length, repeat_length; lia).
  rewrite (firstn_all2 (padded name)) in A by lia. exists (repeat 0 (255 - length name) ++ skipn 256 (fst l)).
  rewrite <- (firstn_skipn 256 (fst l)) at 1. rewrite A. unfold padded. rewrite firstn_app, (firstn_all2 name) by lia.
  replace (256 - length name)%nat with ((255 - length name) + 1)%nat by lia. rewrite repeat_app, firstn_app, repeat_length, Nat.sub_diag, firstn_O, app_nil_r.
  rewrite firstn_all2 by (rewrite repeat_length; lia). rewrite <- !app_assoc. f_equal.
  replace (0 :: repeat 0 (255 - length name) ++ skipn 256 (fst l)) with ((0 :: repeat 0 (255 - length name)) ++ skipn 256 (fst l)) by reflexivity.
  rewrite app_assoc. f_equal. rewrite <- repeat_cons. reflexivity.
Qed.

Lemma replied_own : forall q n ip' ip iplen name rep l, q = ((ip, iplen, name), (n, ip')) -> accepted (ip, iplen, name) = true ->
  replied l rep -> (n, ip') = taken (firstn 256 rep) ip iplen -> (exists t, fst l = name ++ 0 :: t) -> own gai_list q l.
Proof.
  intros q n ip' ip iplen name rep l -> A (r & LR & RR) T NM. unfold own. split; auto. exists r. split; auto.
  unfold accepted in A. apply andb_prop in A as [A _]. apply Z.leb_le in A.
  destruct r as [s|].
  - destruct RR as (S1 & S2 & ->). pose proof (concat_len16 s S1) as LC. rewrite firstn_all2 in T by (cbn [length]; lia).
    unfold taken in T. destruct s as [|s0 s].
    + cbn [concat] in T. change (16 * len []) with 0 in T. change (u8 0) with 0 in T. change (0 =? 255) with false in T. injection T as -> ->.
      cbn [concat]. change (len []) with 0. rewrite Z.min_r by lia. change (Z.to_nat 0) with 0%nat. auto.
    + remember (concat (s0 :: s)) as cs eqn:EC. clear EC. destruct cs as [|c0 cc]; [cbn [length] in LC; lia|].
      cbn [tl] in T. rewrite (len_cons _ (16 * len (s0 :: s))) in T. replace (len (c0 :: cc) + 1 - 1) with (len (c0 :: cc)) in T by lia.
      injection T as -> ->. auto.
  - subst rep. cbn [firstn taken] in T. change (u8 255) with 255 in T. change (255 =? 255) with true in T. injection T as -> ->. auto.
Qed.

Lemma protocol_ok : forall fdc fdh reqs fuel ppid buf ip trc trh o rs,
  Forall goodreq reqs -> length buf = 257%nat -> length ip = 129%nat ->
  Forall dgram trc -> Forall healthy trc -> Forall dgram trh ->
  runs (lookups_do fdc (map withnul reqs)) trc (Fin rs) -> runs (helper fuel fdh ppid buf ip) trh o ->
  delivered 257 (dsent fdc trc) (drecv fdh trh) -> delivered 256 (dsent fdh trh) (drecv fdc trc) ->
  o <> Wrong /\ length rs = length reqs /\
  Forall2 (fun q r => accepted q = false -> r = (-1, fst (fst q))) reqs rs /\
  exists ls x, resolved trh = ls ++ x /\ Forall2 (own gai_list) (acc (combine reqs rs)) ls.
Proof.
  intros fdc fdh reqs fuel ppid buf ip trc trh o rs G LB LI D H DH RC RH (w1 & w2 & W1 & W2) (v1 & v2 & V1 & V2).
  apply lookups_ok in RC as [_ RC]; auto. destruct (RC rs eq_refl) as (L1 & L2 & L3 & L4). clear RC.
  assert (AC : Forall (fun x => nonul (snd (fst x)) /\ accepted (fst x) = true) (acc (combine reqs rs))).
  { apply Forall_forall. intros x X. unfold acc in X. apply filter_In in X as [X1 X2]. split; auto. destruct x as [q r]. apply in_combine_l in X1.
    rewrite Forall_forall in G. apply G in X1. destruct q as [[? ?] ?]. apply X1. }
  set (ac := acc (combine reqs rs)) in *. clearbody ac.
  rewrite L3 in W1.
  assert (Q : Forall (fun q => length q = 256%nat) (drecv fdh trh)).
  { rewrite W2. apply Forall_map. apply Forall_forall. intros x X. assert (X2 : In x (map (fun x => padded (snd (fst x))) ac)) by (rewrite W1; apply in_or_app; auto).
    apply in_map_iff in X2 as ([[[ip0 il0] nm0] r0] & <- & X3). rewrite Forall_forall in AC. apply AC in X3. cbn [fst snd] in *. destruct X3 as [_ X3].
    unfold accepted in X3. apply andb_prop in X3 as [_ X3]. apply Z.leb_le in X3. rewrite firstn_length. unfold padded. rewrite app_length, repeat_length. unfold len in X3. lia. }
  apply helper_ok in RH as [RH1 [(qs & qx & E1 & E2) (ls & lx & E3 & E4)]]; auto. split; auto. split; auto. split; auto.
  rewrite V2 in L4.
  (* replies for the first requests *)
  rewrite V1 in E4. destruct (forall2_prefix _ _ _ _ _ E4 v1 v2 eq_refl) as (ls1 & ls2 & -> & F1).
  rewrite E3 in E2. rewrite <- app_assoc in E3, E2.
  exists ls1, (ls2 ++ lx). split; [exact E3|].
  destruct (forall2_prefix _ _ _ _ _ E2 ls1 (ls2 ++ lx) eq_refl) as (q1 & q2 & -> & F2).
  assert (LV : length ac = length v1) by (apply forall2_len in L4; rewrite map_length in L4; auto).
  assert (LQ : length q1 = length ac) by (apply forall2_len in F1; apply forall2_len in F2; lia).
  assert (Q1E : q1 = map (fun x => firstn 257 (padded (snd (fst x)))) ac).
  { rewrite <- app_assoc in E1. assert (LW : (length ac <= length w1)%nat).
    { rewrite W2 in E1. apply (f_equal (@length _)) in E1. rewrite map_length, app_length in E1. lia. }
    assert (w2 = []). { apply length_zero_iff_nil. apply (f_equal (@length _)) in W1. rewrite map_length, app_length in W1. lia. } subst w2. rewrite app_nil_r in W1. subst w1.
    rewrite W2 in E1. rewrite map_map in E1. apply (f_equal (firstn (length q1))) in E1. rewrite firstn_app, Nat.sub_diag, firstn_O, app_nil_r, firstn_all in E1.
    rewrite <- E1. rewrite firstn_all2; auto. rewrite map_length. lia. }
  subst q1. clear - AC L4 F1 F2. revert v1 ls1 L4 F1 F2. induction ac as [|[[[ip iplen] name] [n ip']] ac IH]; intros v1 ls1 L4 F1 F2.
  - inversion F2; subst. constructor.
  - destruct v1 as [|rep v1]; [inversion L4|]. cbn [map] in L4, F2. inversion L4 as [|? ? ? ? [_ T] L5]; subst; clear L4. inversion F2 as [|? l ? ls2 AS F3]; subst; clear F2. inversion F1 as [|? ? ? ? RP F4]; subst; clear F1.
    inversion AC as [|? ? [NN A] AC2]; subst; clear AC. cbn [fst snd] in *. constructor.
    + eapply replied_own; eauto. apply padded_asked; auto. unfold accepted in A. apply andb_prop in A as [_ A]. apply Z.leb_le in A. unfold len in A. lia.
    + eapply IH; eauto.
Qed.
