(** Lemmas about str.c, case.c, fixpath.c, fixname.c. *)
From Verif.Model Require Import Base Str.
From Verif.Spec Require Import Text.
From Verif.Proof Require Import Tac HostportP.

(** ** str.c *)

Lemma str_len_ok : forall s rest, nonul s -> str_len (s ++ 0 :: rest) = Ok (len s).
Proof.
  induction s as [|c s IH]; intros rest N; cbn [app str_len].
  - reflexivity.
  - apply nonul_cons in N as [C N]. destruct (Z.eqb_spec c 0); [lia|]. rewrite IH by auto. cbn [bind].
    rewrite len_cons. reflexivity.
Qed.

Lemma prefix_nil : forall A (l : list A), prefix [] l.
Proof. intros. exists l. reflexivity. Qed.
Lemma prefix_cons : forall (c d : Z) p l, prefix (d :: p) (c :: l) <-> c = d /\ prefix p l.
Proof.
  intros. split.
  - intros [u E]. cbn [app] in E. injection E as -> ->. split; auto. exists u. reflexivity.
  - intros [-> [u ->]]. exists u. reflexivity.
Qed.
Lemma prefix_cons_nil : forall (d : Z) p, ~ prefix (d :: p) [].
Proof. intros d p [u E]. discriminate. Qed.

Lemma str_start_ok : forall s t r r', nonul s -> nonul t ->
  exists v, str_start (s ++ 0 :: r) (t ++ 0 :: r') = Ok v /\ (v = 1 \/ v = 0) /\ (v = 1 <-> prefix t s).
Proof.
  induction s as [|c s IH]; intros t r r' Ns Nt; cbn [app str_start].
  - destruct t as [|d t]; cbn [app deref bind].
    + exists 1. repeat split; auto. intros _. apply prefix_nil.
    + apply nonul_cons in Nt as [D Nt]. change (0 =? 0) with true. cbn iota. destruct (Z.eqb_spec d 0); [lia|].
      exists 0. repeat split; auto; [lia|]. intro X. destruct (prefix_cons_nil _ _ X).
  - apply nonul_cons in Ns as [C Ns]. destruct t as [|d t]; cbn [app deref bind].
    + destruct (Z.eqb_spec c 0); [lia|]. cbn [negb]. exists 1. repeat split; auto. intros _. apply prefix_nil.
    + apply nonul_cons in Nt as [D Nt]. destruct (Z.eqb_spec c 0); [lia|].
      destruct (Z.eqb_spec c d); cbn [negb].
      * subst d. cbn [tl]. destruct (IH t r r' Ns Nt) as (v & -> & V & I). exists v. repeat split; auto.
        -- intros X. apply prefix_cons. split; auto. apply I. exact X.
        -- intros X. apply prefix_cons in X as [_ X]. apply I. exact X.
      * destruct (Z.eqb_spec d 0); [lia|]. exists 0. repeat split; auto; [lia|].
        intro X. apply prefix_cons in X as [X _]. congruence.
Qed.

Lemma str_chr_ok : forall s c rest, nonul s ->
  exists i, str_chr (s ++ 0 :: rest) c = Ok (Z.of_nat i) /\ first_index s (c mod 256) i.
Proof.
  induction s as [|x s IH]; intros c rest N; cbn [app str_chr].
  - exists O. split; auto. right. auto.
  - apply nonul_cons in N as [X N]. destruct (Z.eqb_spec x 0); [lia|]. unfold u8.
    destruct (Z.eqb_spec x (c mod 256)) as [E|E].
    + exists O. split; auto. left. exists [], s. rewrite <- E. auto.
    + destruct (IH c rest N) as (i & -> & [(u & v & -> & U & ->)|[U ->]]); cbn [bind].
      * exists (S (length u)). split; [f_equal; lia|]. left. exists (x :: u), v. repeat split; auto.
        intros [Y|Y]; auto.
      * exists (S (length s)). split; [f_equal; lia|]. right. split; auto. intros [Y|Y]; auto.
Qed.

Lemma rchr_loop_ok : forall s c rest i u, nonul s ->
  exists j w, str_rchr_loop (s ++ 0 :: rest) c i u = Ok (j, w) /\ j = i + len s /\
  ((exists a b, s = a ++ (c mod 256) :: b /\ ~ In (c mod 256) b /\ w = i + len a) \/ (~ In (c mod 256) s /\ w = u)).
Proof.
  induction s as [|x s IH]; intros c rest i u N; cbn [app str_rchr_loop].
  - exists i, u. rewrite len_nil. repeat split; auto; lia.
  - apply nonul_cons in N as [X N]. destruct (Z.eqb_spec x 0); [lia|]. unfold u8 in *.
    destruct (IH c rest (i + 1) (if x =? c mod 256 then i else u) N) as (j & w & -> & J & H).
    exists j, w. rewrite len_cons. split; auto. split; [lia|].
    destruct H as [(a & b & -> & B & W)|[B W]].
    + left. exists (x :: a), b. rewrite len_cons. repeat split; auto. lia.
    + destruct (Z.eqb_spec x (c mod 256)) as [E|E].
      * left. exists [], s. rewrite len_nil. rewrite <- E in *. repeat split; auto. lia.
      * right. split; auto. intros [Y|Y]; auto.
Qed.

Lemma str_rchr_ok : forall s c rest, nonul s ->
  exists i, str_rchr (s ++ 0 :: rest) c = Ok (Z.of_nat i) /\ last_index s (c mod 256) i.
Proof.
  intros s c rest N. unfold str_rchr. destruct (rchr_loop_ok s c rest 0 (-1) N) as (j & w & -> & J & H). cbn [bind].
  destruct H as [(a & b & -> & B & W)|[B W]].
  - exists (length a). pose proof (len_nonneg _ a). destruct (Z.eqb_spec w (-1)); [lia|].
    split; [f_equal; unfold len in *; lia|]. left. exists a, b. auto.
  - subst w. change (-1 =? -1) with true. cbn iota. exists (length s). split; [f_equal; unfold len in *; lia|]. right. auto.
Qed.

Lemma firstdiff_cons : forall c l m d, firstdiff l m d -> firstdiff (c :: l) (c :: m) d.
Proof.
  intros c l m d [[-> ->]|(p & x & y & u & v & -> & -> & N & ->)].
  - left. auto.
  - right. exists (c :: p), x, y, u, v. auto.
Qed.
Lemma firstdiff_here : forall x y u v, x <> y -> firstdiff (x :: u) (y :: v) (x - y).
Proof. intros. right. exists [], x, y, u, v. auto. Qed.

Lemma firstdiff_zero : forall l m d, firstdiff l m d -> (d = 0 <-> l = m).
Proof.
  intros l m d [[-> ->]|(p & x & y & u & v & -> & -> & N & ->)]; [tauto|].
  split; [lia|]. intro E. apply app_inv_head in E. inv E. congruence.
Qed.

Lemma str_diff_ok : forall s t r r', nonul s -> nonul t ->
  exists d, str_diff (s ++ 0 :: r) (t ++ 0 :: r') = Ok d /\ firstdiff (s ++ [0]) (t ++ [0]) d.
Proof.
  induction s as [|c s IH]; intros t r r' Ns Nt; cbn [app str_diff].
  - destruct t as [|d t]; cbn [app deref bind]; change (0 =? 0) with true; cbn iota.
    + exists 0. split; auto. left. auto.
    + eexists. split; [reflexivity|]. apply nonul_cons in Nt as [D _]. apply firstdiff_here. lia.
  - apply nonul_cons in Ns as [C Ns]. destruct t as [|d t]; cbn [app deref bind]; destruct (Z.eqb_spec c 0); try lia.
    + cbn [negb]. eexists. split; [reflexivity|]. apply firstdiff_here. lia.
    + apply nonul_cons in Nt as [D Nt]. destruct (Z.eqb_spec c d); cbn [negb].
      * subst d. cbn [tl]. destruct (IH t r r' Ns Nt) as (x & -> & F). exists x. split; auto. apply firstdiff_cons. exact F.
      * eexists. split; [reflexivity|]. apply firstdiff_here. assumption.
Qed.

(** str_diffn follows its contract except when the first string has exactly
    [n] bytes and the second one continues it. *)
Lemma str_diffn_ok : forall s t r r' n, nonul s -> nonul t ->
  ~ (length s = n /\ exists x u, t = s ++ x :: u) ->
  exists d, str_diffn (s ++ 0 :: r) (t ++ 0 :: r') (Z.of_nat n) = Ok d /\
            firstdiff (firstn n (s ++ [0])) (firstn n (t ++ [0])) d.
Proof.
  induction s as [|c s IH]; intros t r r' n Ns Nt L; cbn [app str_diffn].
  - destruct t as [|d t]; cbn [app deref bind]; change (0 =? 0) with true; cbn iota.
    + exists 0. split; auto. left. auto.
    + destruct n as [|n]; [destruct L; split; eauto; exists d, t; reflexivity|].
      eexists. split; [reflexivity|]. apply nonul_cons in Nt as [D _]. cbn [firstn]. apply firstdiff_here. lia.
  - apply nonul_cons in Ns as [C Ns]. destruct (Z.eqb_spec c 0); [lia|].
    destruct n as [|n].
    { exists 0. split; auto. left. auto. }
    destruct (Z.leb_spec (Z.of_nat (S n)) 0); [lia|]. cbn [firstn].
    destruct t as [|d t]; cbn [app deref bind firstn].
    + destruct (Z.eqb_spec c 0); [lia|]. cbn [negb]. eexists. split; [reflexivity|]. apply firstdiff_here. lia.
    + apply nonul_cons in Nt as [D Nt]. destruct (Z.eqb_spec c d); cbn [negb].
      * subst d. cbn [tl]. replace (Z.of_nat (S n) - 1) with (Z.of_nat n) by lia.
        destruct (IH t r r' n Ns Nt) as (x & -> & F).
        { intros [X (y & u & E)]. apply L. split; [cbn [length]; lia|]. exists y, u. rewrite E. reflexivity. }
        exists x. split; auto. apply firstdiff_cons. exact F.
      * eexists. split; [reflexivity|]. apply firstdiff_here. assumption.
Qed.

Lemma str_diffn_bad : forall s x u r r', nonul s -> 0 < x < 256 ->
  str_diffn (s ++ 0 :: r) ((s ++ x :: u) ++ 0 :: r') (len s) = Ok (- x).
Proof.
  induction s as [|c s IH]; intros x u r r' N X; cbn [app str_diffn].
  - cbn [deref bind]. change (0 =? 0) with true. reflexivity.
  - apply nonul_cons in N as [C N]. destruct (Z.eqb_spec c 0); [lia|]. rewrite len_cons. pose proof (len_nonneg _ s).
    destruct (Z.leb_spec (len s + 1) 0); [lia|]. cbn [deref bind]. rewrite Z.eqb_refl. cbn [negb tl].
    replace (len s + 1 - 1) with (len s) by lia. apply IH; assumption.
Qed.

Lemma str_copy_ok : forall t d rest, nonul t -> (length t < length d)%nat ->
  str_copy d (t ++ 0 :: rest) = Ok (t ++ 0 :: skipn (S (length t)) d, len t).
Proof.
  induction t as [|c t IH]; intros d rest N L; destruct d as [|x d]; cbn [length] in L; try lia; cbn [app str_copy].
  - reflexivity.
  - apply nonul_cons in N as [C N]. destruct (Z.eqb_spec c 0); [lia|]. rewrite IH by (auto; lia). cbn [bind].
    rewrite len_cons. reflexivity.
Qed.

(** ** case.c *)

Lemma case_norm_lower : forall c, is_byte c -> case_norm c = lower c.
Proof.
  intros c B. unfold is_byte in B. unfold case_norm, lower, u8.
  destruct (Z_lt_dec c 65).
  - assert ((c - 65) mod 256 = c - 65 + 256) as ->.
    { replace (c - 65) with (c - 65 + 256 + (-1) * 256) at 1 by lia. rewrite Z_mod_plus_full. apply Z.mod_small. lia. }
    destruct (Z.leb_spec (c - 65 + 256) (90 - 65)); [lia|].
    replace ((65 <=? c) && (c <=? 90)) with false by lia.
    replace (c - 65 + 256 + 65) with (c + 1 * 256) by lia. rewrite Z_mod_plus_full. apply Z.mod_small. lia.
  - rewrite (Z.mod_small (c - 65)) by lia. destruct (Z.leb_spec (c - 65) (90 - 65)).
    + replace ((65 <=? c) && (c <=? 90)) with true by lia. rewrite Z.mod_small by lia. lia.
    + replace ((65 <=? c) && (c <=? 90)) with false by lia. rewrite Z.mod_small by lia. lia.
Qed.

Lemma case_low1_lower : forall c, is_byte c -> case_low1 c = lower c.
Proof.
  intros c B. pose proof (case_norm_lower c B) as E. unfold case_norm in E. unfold case_low1.
  destruct (Z.leb_spec (u8 (c - 65)) (90 - 65)); [exact E|].
  unfold lower. unfold is_byte in B. unfold u8 in H.
  destruct ((65 <=? c) && (c <=? 90)) eqn:R; auto. rewrite Z.mod_small in H by lia. lia.
Qed.

Lemma lower0 : forall c, 0 < c < 256 -> 0 < lower c.
Proof. intros. unfold lower. dif; lia. Qed.

Lemma nonul_byte : forall c, 0 < c < 256 -> is_byte c.
Proof. unfold is_byte. lia. Qed.

Lemma case_diffb_ok : forall a b ra rb, bytes a -> bytes b -> length a = length b ->
  exists d, case_diffb (a ++ ra) (len a) (b ++ rb) = Ok d /\ firstdiff (map lower a) (map lower b) d.
Proof.
  intros a b ra rb Ba Bb L. unfold case_diffb, len. rewrite Nat2Z.id.
  revert b Bb L. induction a as [|c a IH]; intros [|d b] Bb L; cbn [length] in L; try lia; cbn [length case_diffb_loop app deref bind map].
  - exists 0. split; auto. left. auto.
  - apply Forall_cons_iff in Ba as [C Ba]. apply Forall_cons_iff in Bb as [D Bb].
    rewrite !case_norm_lower by assumption. destruct (Z.eqb_spec (lower c) (lower d)) as [E|E]; cbn [negb tl].
    + destruct (IH Ba b Bb) as (x & -> & F); [lia|]. exists x. split; auto. rewrite E. apply firstdiff_cons. exact F.
    + eexists. split; [reflexivity|]. apply firstdiff_here. assumption.
Qed.

Lemma case_diffs_ok : forall a b ra rb, nonul a -> nonul b ->
  exists d, case_diffs (a ++ 0 :: ra) (b ++ 0 :: rb) = Ok d /\ firstdiff (map lower a ++ [0]) (map lower b ++ [0]) d.
Proof.
  induction a as [|c a IH]; intros b ra rb Na Nb; destruct b as [|d b]; cbn [app case_diffs deref bind map].
  - exists 0. split; auto. left. auto.
  - apply nonul_cons in Nb as [D _]. rewrite (case_norm_lower d) by (apply nonul_byte; assumption).
    change (case_norm 0) with 0. pose proof (lower0 d D).
    destruct (Z.eqb_spec 0 (lower d)); [lia|]. cbn [negb]. eexists. split; [reflexivity|]. apply firstdiff_here. lia.
  - apply nonul_cons in Na as [C _]. rewrite (case_norm_lower c) by (apply nonul_byte; assumption).
    change (case_norm 0) with 0. pose proof (lower0 c C).
    destruct (Z.eqb_spec (lower c) 0); [lia|]. cbn [negb]. eexists. split; [reflexivity|]. apply firstdiff_here. lia.
  - apply nonul_cons in Na as [C Na]. apply nonul_cons in Nb as [D Nb].
    rewrite !case_norm_lower by (apply nonul_byte; assumption). pose proof (lower0 c C).
    destruct (Z.eqb_spec (lower c) (lower d)) as [E|E]; cbn [negb tl].
    + destruct (Z.eqb_spec (lower c) 0); [lia|]. destruct (IH b ra rb Na Nb) as (x & -> & F). exists x. split; auto.
      rewrite E. apply firstdiff_cons. exact F.
    + eexists. split; [reflexivity|]. apply firstdiff_here. assumption.
Qed.

Lemma case_startb_ok : forall b a ra rb, bytes a -> nonul b ->
  exists v, case_startb (a ++ ra) (len a) (b ++ 0 :: rb) = Ok v /\ (v = 1 \/ v = 0) /\
    (v = 1 <-> prefix (map lower b) (map lower a)).
Proof.
  induction b as [|d b IH]; intros a ra rb Ba Nb; cbn [app case_startb map].
  - exists 1. repeat split; auto. intros _. apply prefix_nil.
  - apply nonul_cons in Nb as [D Nb]. rewrite (case_norm_lower d) by (apply nonul_byte; assumption).
    pose proof (lower0 d D). destruct (Z.eqb_spec (lower d) 0); [lia|].
    destruct a as [|c a].
    + rewrite len_nil. change (0 =? 0) with true. cbn iota. exists 0. repeat split; auto; [lia|].
      intro X. destruct (prefix_cons_nil _ _ X).
    + apply Forall_cons_iff in Ba as [C Ba]. rewrite len_cons. pose proof (len_nonneg _ a).
      destruct (Z.eqb_spec (len a + 1) 0); [lia|]. cbn [app deref bind tl map]. rewrite case_norm_lower by assumption.
      destruct (Z.eqb_spec (lower c) (lower d)) as [E|E]; cbn [negb].
      * replace (len a + 1 - 1) with (len a) by lia. destruct (IH a ra rb Ba Nb) as (v & -> & V & I).
        exists v. split; auto. split; auto. rewrite prefix_cons. tauto.
      * exists 0. split; auto. split; auto. rewrite prefix_cons. split; [lia|tauto].
Qed.

Lemma case_starts_ok : forall b a ra rb, nonul a -> nonul b ->
  exists v, case_starts (a ++ 0 :: ra) (b ++ 0 :: rb) = Ok v /\ (v = 1 \/ v = 0) /\
    (v = 1 <-> prefix (map lower b) (map lower a)).
Proof.
  induction b as [|d b IH]; intros a ra rb Na Nb; cbn [app case_starts map].
  - destruct a; cbn [app deref bind]; exists 1; (split; [reflexivity|]; split; auto; split; auto; intros _; apply prefix_nil).
  - apply nonul_cons in Nb as [D Nb]. rewrite (case_norm_lower d) by (apply nonul_byte; assumption).
    pose proof (lower0 d D).
    destruct a as [|c a]; cbn [app deref bind map].
    + destruct (Z.eqb_spec (lower d) 0); [lia|]. change (case_norm 0) with 0.
      destruct (Z.eqb_spec 0 (lower d)); [lia|]. cbn [negb].
      exists 0. repeat split; auto; [lia|]. intro X. destruct (prefix_cons_nil _ _ X).
    + apply nonul_cons in Na as [C Na]. destruct (Z.eqb_spec (lower d) 0); [lia|].
      rewrite case_norm_lower by (apply nonul_byte; assumption).
      destruct (Z.eqb_spec (lower c) (lower d)) as [E|E]; cbn [negb tl].
      * destruct (IH a ra rb Na Nb) as (v & -> & V & I).
        exists v. split; auto. split; auto. rewrite prefix_cons. tauto.
      * exists 0. split; auto. split; auto. rewrite prefix_cons. split; [lia|tauto].
Qed.

Lemma case_lowerb_ok : forall a r, bytes a -> case_lowerb (a ++ r) (len a) = Ok (map lower a ++ r).
Proof.
  intros a r B. unfold case_lowerb, len. rewrite Nat2Z.id.
  induction a as [|c a IH]; cbn [length case_lowerb_loop app map]; auto.
  apply Forall_cons_iff in B as [C B]. rewrite IH by assumption. cbn [bind]. rewrite case_low1_lower by assumption. reflexivity.
Qed.

Lemma case_lowers_ok : forall a r, nonul a -> case_lowers (a ++ 0 :: r) = Ok (map lower a ++ 0 :: r).
Proof.
  induction a as [|c a IH]; intros r N; cbn [case_lowers app map]; auto.
  apply nonul_cons in N as [C N]. destruct (Z.eqb_spec c 0); [lia|]. rewrite IH by assumption. cbn [bind].
  rewrite case_low1_lower by (apply nonul_byte; assumption). reflexivity.
Qed.

(** ** fixpath.c *)

(** Same result as a left-to-right scan that remembers whether the last kept byte
    is a slash. *)
Fixpoint fx (p : bool) (s : list Z) : list Z :=
  match s with
  | [] => []
  | c :: t =>
      if p then if c =? 46 then 58 :: fx false t
                else if c =? 47 then fx true t
                else c :: fx false t
      else c :: fx (c =? 47) t
  end.

Lemma squeeze_cons : forall c t, c <> 47 -> squeeze (c :: t) = c :: squeeze t.
Proof.
  intros. cbn [squeeze]. destruct t as [|d t]; auto. destruct (Z.eqb_spec c 47); [contradiction|]. reflexivity.
Qed.
Lemma undot_cons : forall c t, c <> 47 -> undot (c :: t) = c :: undot t.
Proof.
  intros. cbn [undot]. destruct t as [|d t]; auto. destruct (Z.eqb_spec c 47); [contradiction|]. reflexivity.
Qed.

Lemma sanitized_fx : forall t, sanitized t = fx false t /\ sanitized (47 :: t) = 47 :: fx true t.
Proof.
  induction t as [|c t [A B]]; [split; reflexivity|].
  split.
  - cbn [fx]. destruct (Z.eqb_spec c 47) as [->|N]; [exact B|].
    unfold sanitized in *. rewrite squeeze_cons, undot_cons by assumption. f_equal. exact A.
  - cbn [fx]. destruct (Z.eqb_spec c 46) as [->|N46].
    + unfold sanitized in *. change (squeeze (47 :: 46 :: t)) with (47 :: squeeze (46 :: t)).
      rewrite squeeze_cons by lia. change (undot (47 :: 46 :: squeeze t)) with (47 :: 58 :: undot (squeeze t)).
      do 2 f_equal. exact A.
    + destruct (Z.eqb_spec c 47) as [->|N].
      * rewrite <- B. reflexivity.
      * unfold sanitized in *. assert (squeeze (47 :: c :: t) = 47 :: squeeze (c :: t)) as ->.
        { cbn [squeeze]. destruct (Z.eqb_spec c 47); [contradiction|]. rewrite andb_false_r. reflexivity. }
        rewrite squeeze_cons by assumption.
        assert (undot (47 :: c :: squeeze t) = 47 :: undot (c :: squeeze t)) as ->.
        { cbn [undot]. destruct (Z.eqb_spec c 46); [contradiction|]. rewrite andb_false_r. reflexivity. }
        rewrite undot_cons by assumption. do 2 f_equal. exact A.
Qed.

Definition lastslash (out : list Z) : bool := match rev out with [] => false | c :: _ => c =? 47 end.

Lemma lastslash_snoc : forall o c, lastslash (o ++ [c]) = (c =? 47).
Proof. intros. unfold lastslash. rewrite rev_app_distr. reflexivity. Qed.

Lemma fx_len : forall t p, (length (fx p t) <= length t)%nat.
Proof.
  induction t as [|c t IH]; intros p; cbn [fx length]; [lia|].
  destruct p.
  - destruct (c =? 46); [cbn [length]; specialize (IH false); lia|]. destruct (c =? 47).
    + specialize (IH true). lia.
    + cbn [length]. specialize (IH false). lia.
  - cbn [length]. specialize (IH (c =? 47)). lia.
Qed.

Lemma fixpath_loop_ok : forall t out mid rest fuel, nonul t -> (length t < fuel)%nat ->
  exists junk, length junk = (length mid + length t - length (fx (lastslash out) t))%nat /\
  fixpath_loop fuel (out ++ mid ++ t ++ 0 :: rest) (length out + length mid) (length out) =
  Ok (out ++ fx (lastslash out) t ++ junk ++ 0 :: rest, (length out + length (fx (lastslash out) t))%nat).
Proof.
  induction t as [|c t IH]; intros out mid rest fuel N F; destruct fuel as [|fuel]; cbn [length] in F; try lia; cbn [fixpath_loop].
  - rewrite (ld_is _ _ (out ++ mid) 0 rest) by (cbn [app]; rewrite <- ?app_assoc, ?app_length; reflexivity).
    cbn [bind fx length app]. exists mid. split; [lia|]. change (0 =? 0) with true. cbn iota.
    rewrite Nat.add_0_r. reflexivity.
  - rewrite (ld_is _ _ (out ++ mid) c (t ++ 0 :: rest)) by (cbn [app]; rewrite <- ?app_assoc, ?app_length; reflexivity).
    cbn [bind]. apply nonul_cons in N as [C N]. destruct (Z.eqb_spec c 0); [lia|].
    assert (PS : match length out with O => Ok false | S j' => (p <- ld (out ++ mid ++ (c :: t) ++ 0 :: rest) j' ;; Ok (p =? 47)) end
                 = Ok (lastslash out)).
    { destruct out as [|o0 out0] eqn:Eo; [reflexivity|]. rewrite <- Eo.
      destruct (exists_last (l := out)) as (o' & x & E); [subst; discriminate|]. rewrite E.
      rewrite app_length. cbn [length]. rewrite Nat.add_1_r. rewrite lastslash_snoc.
      rewrite (ld_is _ _ o' x (mid ++ (c :: t) ++ 0 :: rest)) by (rewrite <- ?app_assoc; reflexivity). reflexivity. }
    rewrite PS. cbn [bind]. cbn [fx].
    assert (SK : exists junk, length junk = (length mid + S (length t) - length (fx (lastslash out) t))%nat /\
       fixpath_loop fuel (out ++ mid ++ (c :: t) ++ 0 :: rest) (S (length out + length mid)) (length out) =
       Ok (out ++ fx (lastslash out) t ++ junk ++ 0 :: rest, (length out + length (fx (lastslash out) t))%nat)).
    { specialize (IH out (mid ++ [c]) rest fuel N). rewrite app_length, <- app_assoc in IH. cbn [length app] in IH.
      destruct IH as (junk & LJ & E); [lia|]. exists junk. split; [lia|]. rewrite <- E. cbn [app]. f_equal; lia. }
    assert (WR : forall x : Z, exists junk, length junk = (length mid + S (length t) - S (length (fx (x =? 47)%Z t)))%nat /\
       (s' <- st (out ++ mid ++ (c :: t) ++ 0 :: rest) (length out) x ;;
        fixpath_loop fuel s' (S (length out + length mid)) (S (length out))) =
       Ok (out ++ (x :: fx (x =? 47) t) ++ junk ++ 0 :: rest, (length out + S (length (fx (x =? 47)%Z t)))%nat)).
    { intros x. destruct mid as [|m mid].
      - cbn [app length]. rewrite st_app. cbn [bind].
        specialize (IH (out ++ [x]) [] rest fuel N). rewrite app_length, lastslash_snoc in IH. cbn [length app] in IH.
        destruct IH as (junk & LJ & E); [lia|]. exists junk. split; [lia|].
        rewrite <- !app_assoc in E. cbn [app] in E. rewrite !Nat.add_0_r in *. rewrite Nat.add_1_r in E. rewrite E.
        do 2 f_equal. lia.
      - cbn [app length]. rewrite st_app. cbn [bind].
        specialize (IH (out ++ [x]) (mid ++ [c]) rest fuel N). rewrite app_length, lastslash_snoc in IH. cbn [length app] in IH.
        destruct IH as (junk & LJ & E); [lia|]. rewrite app_length in *. cbn [length] in *. exists junk. split; [lia|].
        rewrite <- !app_assoc in E. cbn [app] in E.
        replace (S (length out + S (length mid))) with (length out + 1 + (length mid + 1))%nat by lia.
        replace (S (length out)) with (length out + 1)%nat by lia. rewrite E.
        do 2 f_equal. lia. }
    destruct (lastslash out).
    + cbn [andb]. destruct (Z.eqb_spec c 46) as [->|N46].
      * change (58 =? 47) with false. cbn iota. exact (WR 58).
      * destruct (Z.eqb_spec c 47) as [->|N47].
        -- exact SK.
        -- specialize (WR c). destruct (Z.eqb_spec c 47); [contradiction|]. exact WR.
    + cbn [andb]. exact (WR c).
Qed.

Lemma fixpath_ok : forall s rest, nonul s ->
  exists junk, length junk = (length s - length (sanitized s))%nat /\
    fixpath (s ++ 0 :: rest) = Ok (sanitized s ++ 0 :: junk ++ rest).
Proof.
  intros s rest N. destruct (sanitized_fx s) as [-> _]. unfold fixpath.
  destruct (fixpath_loop_ok s [] [] rest (length (s ++ 0 :: rest)) N) as (junk & LJ & E).
  { rewrite app_length. cbn. lia. }
  cbn [app length] in E. rewrite Nat.add_0_r in E. rewrite E. cbn [bind]. change (lastslash []) with false in *. cbn [length] in LJ.
  cbn [Nat.add]. destruct junk as [|j junk]; cbn [app].
  - exists []. split; [cbn [length] in *; lia|]. rewrite st_app. reflexivity.
  - exists (junk ++ [0]). split; [rewrite app_length; cbn [length] in *; lia|]. rewrite st_app, <- app_assoc. reflexivity.
Qed.

Lemma adjacent_cons : forall a b c s, adjacent a b (c :: s) <-> (c = a /\ hd_error s = Some b) \/ adjacent a b s.
Proof.
  intros. split.
  - intros (u & v & E). destruct u as [|x u]; cbn [app] in E; injection E as -> E.
    + left. rewrite E. auto.
    + right. exists u, v. exact E.
  - intros [[-> H]|(u & v & ->)].
    + destruct s as [|d s]; [discriminate|]. cbn in H. injection H as ->. exists [], s. reflexivity.
    + exists (c :: u), v. reflexivity.
Qed.

Lemma fx_clean : forall t p, ~ adjacent 47 46 (fx p t) /\ ~ adjacent 47 47 (fx p t) /\
  (p = true -> hd_error (fx p t) <> Some 46 /\ hd_error (fx p t) <> Some 47).
Proof.
  induction t as [|c t IH]; intros p; cbn [fx].
  - repeat split; try (intros (u & v & E); destruct u; discriminate); discriminate.
  - destruct p.
    + destruct (Z.eqb_spec c 46).
      * destruct (IH false) as (A & B & _). repeat split; try (rewrite adjacent_cons; intros [[X _]|X]; [lia|tauto]); cbn; congruence.
      * destruct (Z.eqb_spec c 47); [apply IH|]. destruct (IH false) as (A & B & _).
        repeat split; try (rewrite adjacent_cons; intros [[X _]|X]; [lia|tauto]); cbn; congruence.
    + destruct (IH (c =? 47)) as (A & B & C). split; [|split; [|discriminate]]; rewrite adjacent_cons; intros [[-> X]|X]; try tauto.
Qed.

Lemma fx_id : forall s p, ~ adjacent 47 46 s -> ~ adjacent 47 47 s ->
  (p = true -> hd_error s <> Some 46 /\ hd_error s <> Some 47) -> fx p s = s.
Proof.
  induction s as [|c s IH]; intros p A B C; cbn [fx]; auto.
  rewrite adjacent_cons in A, B.
  destruct p.
  - destruct (C eq_refl) as [C1 C2]. cbn in C1, C2. destruct (Z.eqb_spec c 46); [congruence|]. destruct (Z.eqb_spec c 47); [congruence|].
    f_equal. apply IH; auto. discriminate.
  - f_equal. apply IH; auto. intros E. apply Z.eqb_eq in E. subst c. split; intro X; [apply A|apply B]; auto.
Qed.

Lemma sanitized_clean : forall s, ~ adjacent 47 46 (sanitized s) /\ ~ adjacent 47 47 (sanitized s).
Proof. intros s. destruct (sanitized_fx s) as [-> _]. destruct (fx_clean s false) as (A & B & _). auto. Qed.
Lemma sanitized_idem : forall s, sanitized (sanitized s) = sanitized s.
Proof.
  intros s. destruct (sanitized_clean s) as [A B]. destruct (sanitized_fx (sanitized s)) as [-> _].
  apply fx_id; auto. discriminate.
Qed.
Lemma sanitized_len : forall s, (length (sanitized s) <= length s)%nat.
Proof. intros s. destruct (sanitized_fx s) as [-> _]. apply fx_len. Qed.
Lemma sanitized_hd : forall s, hd_error (sanitized s) = hd_error s.
Proof. intros s. destruct (sanitized_fx s) as [-> _]. destruct s; reflexivity. Qed.
Lemma fx_chars : forall t p c, In c (fx p t) -> In c t \/ (c = 58 /\ In 46 t).
Proof.
  induction t as [|x t IH]; intros p c H; cbn [fx] in H; [destruct H|].
  destruct p.
  - destruct (Z.eqb_spec x 46).
    + destruct H as [H|H]; [right; subst; split; auto; left; auto|]. apply IH in H. cbn [In]. tauto.
    + destruct (Z.eqb_spec x 47); [|destruct H as [H|H]; [left; left; auto|]]; apply IH in H; cbn [In]; tauto.
  - destruct H as [H|H]; [left; left; auto|]. apply IH in H. cbn [In]. tauto.
Qed.
Lemma sanitized_chars : forall s c, In c (sanitized s) -> In c s \/ (c = 58 /\ In 46 s).
Proof. intros s c. destruct (sanitized_fx s) as [-> _]. apply fx_chars. Qed.
Lemma sanitized_nonul : forall s, nonul s -> nonul (sanitized s).
Proof.
  intros s N. unfold nonul in *. rewrite Forall_forall in *. intros c H. apply sanitized_chars in H as [H|[-> _]]; auto. lia.
Qed.

(** ** fixname.c *)
Lemma fixname_ok : forall s rest, nonul s ->
  exists junk, length junk = (length s - length (before 64 s))%nat /\
  fixname (s ++ 0 :: rest) = Ok (before 64 s ++ 0 :: junk ++ rest).
Proof.
  intros s rest N. unfold fixname.
  assert (G : forall t pre fuel, nonul t -> (length t < fuel)%nat ->
    exists junk, length junk = (length t - length (before 64 t))%nat /\
    fixname_loop fuel (pre ++ t ++ 0 :: rest) (length pre) = Ok (pre ++ before 64 t ++ 0 :: junk ++ rest)).
  { induction t as [|c t IH]; intros pre fuel Nt F; destruct fuel as [|fuel]; cbn [length] in F; try lia; cbn [fixname_loop before].
    - cbn [app]. rewrite ld_app. cbn [bind]. exists []. split; reflexivity.
    - cbn [app]. rewrite ld_app. cbn [bind]. apply nonul_cons in Nt as [C Nt]. destruct (Z.eqb_spec c 0); [lia|].
      destruct (Z.eqb_spec c 64).
      + rewrite st_app. exists (t ++ [0]). split; [rewrite app_length; cbn; lia|]. cbn [app]. rewrite <- app_assoc. reflexivity.
      + destruct (IH (pre ++ [c]) fuel Nt ltac:(lia)) as (junk & LJ & E). rewrite app_length, <- !app_assoc in E. cbn [app length] in E.
        rewrite Nat.add_1_r in E. exists junk. split; [cbn [length]; lia|]. rewrite E. reflexivity. }
  destruct (G s [] (length (s ++ 0 :: rest)) N) as (junk & LJ & E). { rewrite app_length. cbn. lia. }
  exists junk. split; auto.
Qed.

Lemma before_spec : forall c s, ~ In c (before c s) /\
  (before c s = s \/ exists v, s = before c s ++ c :: v).
Proof.
  intros c s. induction s as [|x s [A B]]; cbn [before].
  - split; auto.
  - destruct (Z.eqb_spec x c) as [->|N].
    + split; auto. right. exists s. reflexivity.
    + split; [intros [X|X]; auto|]. destruct B as [B|[v B]].
      * left. congruence.
      * right. exists v. cbn [app]. congruence.
Qed.
