(** Shared lemmas and tactics. *)
From Verif.Model Require Import Base.
From Coq Require Export ZifyBool ZifyNat.

#[global] Arguments Z.add : simpl never.
#[global] Arguments Z.sub : simpl never.
#[global] Arguments Z.mul : simpl never.
#[global] Arguments Z.div : simpl never.
#[global] Arguments Z.modulo : simpl never.
#[global] Arguments Z.pow : simpl never.
#[global] Arguments Z.opp : simpl never.
#[global] Arguments Z.of_nat : simpl never.
#[global] Arguments Z.to_nat : simpl never.

Ltac inv H := inversion H; subst; clear H.

Ltac dif :=
  match goal with
  | |- context [if ?b then _ else _] => let E := fresh "E" in destruct b eqn:E
  end.
Ltac difH H :=
  match type of H with
  | context [if ?b then _ else _] => let E := fresh "E" in destruct b eqn:E
  end.

Lemma len_cons : forall A (x : A) l, len (x :: l) = len l + 1.
Proof. intros. unfold len. cbn [length]. lia. Qed.

Lemma len_nil : forall A, @len A [] = 0.
Proof. reflexivity. Qed.

Lemma len_app : forall A (a b : list A), len (a ++ b) = len a + len b.
Proof. intros. unfold len. rewrite app_length. lia. Qed.

Lemma len_nonneg : forall A (l : list A), 0 <= len l.
Proof. intros. unfold len. lia. Qed.

Lemma u64_id : forall x, 0 <= x < two64 -> u64 x = x.
Proof. intros. unfold u64. apply Z.mod_small. assumption. Qed.

Lemma u8_id : forall x, 0 <= x < 256 -> u8 x = x.
Proof. intros. unfold u8. apply Z.mod_small. assumption. Qed.

Lemma u16_id : forall x, 0 <= x < 65536 -> u16 x = x.
Proof. intros. unfold u16. apply Z.mod_small. assumption. Qed.

Lemma s64_ok : forall x, - two63 <= x < two63 -> s64 x = Ok x.
Proof.
  intros. unfold s64, in_s64b.
  replace (- two63 <=? x) with true by (symmetry; apply Z.leb_le; lia).
  replace (x <? two63) with true by (symmetry; apply Z.ltb_lt; lia).
  reflexivity.
Qed.

Lemma ld_app : forall a x b, ld (a ++ x :: b) (length a) = Ok x.
Proof.
  intros. unfold ld. rewrite nth_error_app2 by lia.
  rewrite PeanoNat.Nat.sub_diag. reflexivity.
Qed.

Lemma ld_app1 : forall a b i, (i < length a)%nat -> ld (a ++ b) i = ld a i.
Proof. intros. unfold ld. rewrite nth_error_app1 by assumption. reflexivity. Qed.

Lemma upd_length : forall A (l : list A) i x, length (upd l i x) = length l.
Proof. induction l; destruct i; cbn; intros; auto. Qed.

Lemma upd_app : forall A (a : list A) y b x, upd (a ++ y :: b) (length a) x = a ++ x :: b.
Proof. induction a; cbn; intros; f_equal; auto. Qed.

Lemma st_app : forall a y b x, st (a ++ y :: b) (length a) x = Ok (a ++ x :: b).
Proof.
  intros. unfold st. rewrite app_length. cbn [length].
  destruct (Nat.ltb_spec (length a) (length a + S (length b))); [|lia].
  rewrite upd_app. reflexivity.
Qed.

Lemma lor_add : forall a b k, 0 <= k -> 0 <= b < 2 ^ k -> Z.lor (a * 2 ^ k) b = a * 2 ^ k + b.
Proof.
  intros a b k Hk Hb.
  assert (L : Z.land (a * 2 ^ k) b = 0).
  { apply Z.bits_inj'. intros n Hn. rewrite Z.land_spec, Z.bits_0.
    destruct (Z_lt_dec n k).
    - rewrite Z.mul_pow2_bits_low by lia. reflexivity.
    - destruct (Z.eq_dec b 0). { subst. rewrite Z.bits_0. apply andb_false_r. }
      rewrite (Z.bits_above_log2 b n); [apply andb_false_r|lia|].
      assert (Z.log2 b < k) by (apply Z.log2_lt_pow2; lia). lia. }
  rewrite Z.add_nocarry_lxor by assumption. symmetry. apply Z.lxor_lor. assumption.
Qed.

Lemma skipn_skipn : forall A (l : list A) a b, skipn a (skipn b l) = skipn (b + a) l.
Proof.
  intros A l a b. revert l. induction b as [|b IH]; intros l; [reflexivity|].
  destruct l as [|x l]; [rewrite !skipn_nil; reflexivity|]. cbn [skipn Nat.add]. apply IH.
Qed.
