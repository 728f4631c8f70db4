(** Decimal numeral lemmas; proofs about parsenum, parseport, porttostr. *)
From Verif.Model Require Import Base Parsenum.
From Verif.Spec Require Import Num.
From Verif.Proof Require Import Tac.

Lemma decval_app : forall a b, decval (a ++ b) = decval a * 10 ^ len b + decval b.
Proof.
  induction a; intros; cbn [app decval]. lia.
  rewrite IHa, len_app, Z.pow_add_r by apply len_nonneg. lia.
Qed.

Lemma decval_snoc : forall a c, decval (a ++ [c]) = 10 * decval a + (c - 48).
Proof. intros. rewrite decval_app. cbn [decval]. change (len [c]) with 1. change (len (@nil Z)) with 0. rewrite Z.pow_1_r, Z.pow_0_r. lia. Qed.

Lemma decval_nonneg : forall s, Forall digit s -> 0 <= decval s.
Proof.
  induction 1; cbn [decval]. lia.
  unfold digit in H. pose proof (Z.pow_nonneg 10 (len l)). nia.
Qed.

Lemma decval_bound : forall s, Forall digit s -> decval s < 10 ^ len s.
Proof.
  induction 1; cbn [decval]. reflexivity.
  rewrite len_cons, Z.pow_add_r by (try apply len_nonneg; lia).
  unfold digit in H. change (10^1) with 10. nia.
Qed.

(** The accumulator loop computes Horner's scheme and refuses exactly when the
    value leaves the unsigned 64-bit range. *)
Definition horner (acc : Z) (s : list Z) : Z := acc * 10 ^ len s + decval s.

Lemma horner_cons : forall acc c s, horner acc (c :: s) = horner (10 * acc + (c - 48)) s.
Proof.
  intros. unfold horner. rewrite len_cons, Z.pow_add_r by (try apply len_nonneg; lia).
  cbn [decval]. change (10^1) with 10. lia.
Qed.

Lemma horner_ge : forall s acc, Forall digit s -> 0 <= acc -> acc <= horner acc s.
Proof.
  induction s; intros; unfold horner in *. change (decval []) with 0. change (10 ^ len (@nil Z)) with 1. lia.
  inv H. fold (horner acc (a :: s)). rewrite horner_cons.
  unfold digit in *. specialize (IHs (10 * acc + (a - 48)) H4).
  unfold horner. lia.
Qed.

Lemma max_u64_eq : u64 (-1) = 18446744073709551615.
Proof. reflexivity. Qed.

Lemma pn_digits_good : forall s rest i ret,
  Forall digit s -> 0 <= ret < two64 ->
  pn_digits (s ++ 0 :: rest) i ret =
    Ok (if horner ret s <? two64 then Some (i + len s, horner ret s) else None).
Proof.
  induction s; intros; cbn [app pn_digits].
  - cbn. unfold horner. change (decval []) with 0. change (10 ^ len (@nil Z)) with 1. rewrite len_nil.
    replace (ret * 1 + 0) with ret by lia. rewrite Z.add_0_r.
    destruct (Z.ltb_spec ret two64); [reflexivity|lia].
  - inv H. unfold digit in H3.
    destruct (Z.eqb_spec a 0); [lia|].
    rewrite u64_id with (x := a - 48) by (unfold two64; lia).
    destruct (Z.ltb_spec 9 (a - 48)); [lia|].
    rewrite max_u64_eq.
    rewrite u64_id with (x := _ - _) by (unfold two64; lia).
    rewrite horner_cons.
    destruct (Z.ltb_spec ((18446744073709551615 - (a - 48)) / 10) ret).
    + assert (two64 <= 10 * ret + (a - 48)).
      { unfold two64. pose proof (Z.div_mod (18446744073709551615 - (a - 48)) 10).
        pose proof (Z.mod_pos_bound (18446744073709551615 - (a - 48)) 10). lia. }
      pose proof (horner_ge s (10 * ret + (a - 48)) H4).
      destruct (Z.ltb_spec (horner (10 * ret + (a - 48)) s) two64); [lia|reflexivity].
    + assert (10 * ret + (a - 48) < two64).
      { unfold two64. pose proof (Z.div_mod (18446744073709551615 - (a - 48)) 10).
        pose proof (Z.mod_pos_bound (18446744073709551615 - (a - 48)) 10). lia. }
      rewrite u64_id by lia. rewrite IHs by (auto; lia).
      rewrite len_cons. replace (i + (len s + 1)) with (i + 1 + len s) by lia. reflexivity.
Qed.

Lemma pn_digits_bad : forall s rest i ret,
  nonul s -> ~ Forall digit s -> 0 <= ret < two64 ->
  pn_digits (s ++ 0 :: rest) i ret = Ok None.
Proof.
  induction s; intros; cbn [app pn_digits].
  - exfalso. apply H0. constructor.
  - inv H. destruct (Z.eqb_spec a 0); [lia|].
    destruct (Z_lt_dec a 48).
    { replace (u64 (a - 48)) with (a - 48 + two64).
      2:{ unfold u64. rewrite <- (Z.mod_small (a - 48 + two64) two64) by (unfold two64; lia).
          rewrite <- (Z.mod_add (a - 48) 1 two64) by (unfold two64; lia). f_equal. }
      destruct (Z.ltb_spec 9 (a - 48 + two64)); [reflexivity|unfold two64 in *; lia]. }
    rewrite u64_id with (x := a - 48) by (unfold two64; lia).
    destruct (Z.ltb_spec 9 (a - 48)); [reflexivity|].
    rewrite max_u64_eq. rewrite u64_id with (x := _ - _) by (unfold two64; lia).
    destruct (Z.ltb_spec ((18446744073709551615 - (a - 48)) / 10) ret); [reflexivity|].
    apply IHs; auto.
    + intro F. apply H0. constructor; auto. unfold digit. lia.
    + unfold u64. apply Z.mod_pos_bound. unfold two64. lia.
Qed.

Lemma digit0 : Forall digit (bs "0").
Proof. change (bs "0") with [48]. constructor; [unfold digit; lia|constructor]. Qed.

(** The sign is decided by the first byte; the rest must be a numeral. *)
Definition body (s : list Z) : bool * list Z :=
  match s with
  | c :: s' => if c =? 43 then (false, s') else if c =? 45 then (true, s') else (false, s)
  | [] => (false, [])
  end.

Lemma numeral_dec_cases : forall s, nonul s ->
  (numeral s /\ Forall digit s /\ s <> [] ) \/
  (~ numeral s /\ (s = [] \/ ~ Forall digit s \/ exists c s', s = 48 :: c :: s')).
Proof.
  intros. destruct s as [|c s].
  - right. split; [|auto]. intros [?|(?&?&?&_)]; discriminate.
  - assert (Hd : {Forall digit (c :: s)} + {~ Forall digit (c :: s)}).
    { apply Forall_dec. intros. unfold digit.
      destruct (Z_le_dec 48 x), (Z_le_dec x 57); [left; lia|right; lia..]. }
    destruct Hd as [F|F].
    + inv F. unfold digit in H2. destruct (Z.eq_dec c 48).
      * subst. destruct s as [|c2 s2].
        -- left. split; [left; reflexivity|]. split; [constructor; auto; unfold digit; lia|discriminate].
        -- right. split; [|eauto].
           intros [E|(c'&s'&E&B&_)]. discriminate. inv E. lia.
      * left. split; [|split; [constructor; auto|discriminate]].
        right. exists c, s. repeat split; auto; lia.
    + right. split; [|auto].
      intros [E|(c'&s'&E&B&FF)].
      * rewrite E in F. apply F. apply digit0.
      * inv E. apply F. constructor; auto. unfold digit. lia.
Qed.

Lemma signed_numeral_body : forall s v, nonul s ->
  signed_numeral s v <->
  numeral (snd (body s)) /\ v = (if fst (body s) then - decval (snd (body s)) else decval (snd (body s))).
Proof.
  intros. split.
  - intros S. inv S.
    + assert (body s = (false, s)).
      { destruct H0 as [->|(c&s'&->&B&_)]. reflexivity.
        cbn. destruct (Z.eqb_spec c 43); [lia|]. destruct (Z.eqb_spec c 45); [lia|]. reflexivity. }
      rewrite H1. cbn. auto.
    + cbn. auto.
    + cbn. auto.
  - destruct s as [|c s]; cbn [body fst snd].
    + intros [[?|(?&?&?&_)] _]; discriminate.
    + destruct (Z.eqb_spec c 43); [subst; cbn; intros [? ->]; constructor; auto|].
      destruct (Z.eqb_spec c 45); cbn [fst snd]; intros [? ->]; subst; constructor; auto.
Qed.

Definition in_range (min max v : Z) : Prop := min <= v <= max /\ in_s64 v.

Lemma decval_zero_head : decval (bs "0") = 0. Proof. reflexivity. Qed.

Lemma parsenum_correct : forall s rest min max, nonul s ->
  exists ret num,
    parsenum_ min max (s ++ 0 :: rest) = Ok (ret, num) /\
    ((ret = 1 /\ signed_numeral s num /\ in_range min max num) \/
     (ret = 0 /\ num = 0 /\ forall v, signed_numeral s v -> ~ in_range min max v)).
Proof.
  intros s rest min max Hn. unfold parsenum_.
  destruct s as [|c s].
  { cbn. do 2 eexists. split; [reflexivity|]. right. repeat split.
    intros v S. inv S. destruct H as [?|(?&?&?&_)]; discriminate. }
  cbn [app deref bind]. assert (Hc : 0 < c < 256) by (inv Hn; auto).
  destruct (Z.eqb_spec c 0); [lia|].
  set (p := if c =? 43 then _ else _).
  assert (Hp : p = (fst (body (c :: s)), snd (body (c :: s)) ++ 0 :: rest)).
  { unfold p. cbn [body tl]. destruct (Z.eqb_spec c 43); [reflexivity|].
    destruct (Z.eqb_spec c 45); reflexivity. }
  rewrite Hp. clear p Hp.
  assert (Hb : nonul (snd (body (c :: s)))).
  { cbn [body]. destruct (c =? 43); [inv Hn; auto|]. destruct (c =? 45); [inv Hn; auto|auto]. }
  pose proof (signed_numeral_body (c :: s)) as SB.
  destruct (body (c :: s)) as [sg b]. cbn [fst snd] in *.
  assert (SBv : forall v, signed_numeral (c :: s) v <-> numeral b /\ v = (if sg then - decval b else decval b))
    by (intros; apply SB; auto). clear SB.
  destruct (numeral_dec_cases b Hb) as [(Hnum & Hdig & Hne)|(Hnn & Hcase)].
  - (* a numeral *)
    destruct b as [|d b]; [congruence|]. cbn [app ld nth_error bind].
    assert (Hz : (if d =? 48 then d1 <- ld (d :: b ++ 0 :: rest) 1;; Ok (negb (d1 =? 0)) else Ok false) = Ok false).
    { destruct (Z.eqb_spec d 48); [|reflexivity].
      destruct Hnum as [E|(c'&s'&E&B&_)]; inv E; [|lia]. reflexivity. }
    change (ld (d :: b ++ 0 :: rest) 0) with (Ok d). cbn [bind]. rewrite Hz. cbn [bind].
    change (d :: b ++ 0 :: rest) with ((d :: b) ++ 0 :: rest).
    rewrite pn_digits_good by (auto; unfold two64; lia). cbn [bind].
    unfold horner. rewrite Z.mul_0_l, Z.add_0_l.
    pose proof (decval_nonneg _ Hdig) as Hpos.
    set (D := decval (d :: b)) in *.
    assert (Hlen : 0 + len (d :: b) =? 0 = false).
    { apply Z.eqb_neq. rewrite len_cons. pose proof (len_nonneg _ b). lia. }
    destruct (Z.ltb_spec D two64) as [Hlt|Hge].
    2:{ do 2 eexists. split; [reflexivity|]. right. repeat split.
        intros v S R. apply SBv in S as [_ ->]. unfold in_range, in_s64 in R.
        unfold two64, two63 in *. destruct sg; lia. }
    rewrite Hlen.
    replace (u64 (parsenum_MAX + 1)) with two63 by reflexivity.
    destruct sg.
    + destruct (Z.ltb_spec two63 D).
      { cbn. do 2 eexists. split; [reflexivity|]. right. repeat split.
        intros v S R. apply SBv in S as [_ ->]. unfold in_range, in_s64, two63 in *. lia. }
      assert (Hs : (if D =? two63 then Ok (Some parsenum_MIN)
                else m <- s64 D;; n <- s64 (- m);; Ok (Some n)) = Ok (Some (- D))).
      { destruct (Z.eqb_spec D two63). rewrite e. reflexivity.
        rewrite s64_ok by (unfold two63 in *; lia). cbn [bind].
        rewrite s64_ok by (unfold two63 in *; lia). reflexivity. }
      rewrite Hs. cbn [bind].
      destruct (Z.ltb_spec (- D) min).
      { do 2 eexists. split; [reflexivity|]. right. repeat split.
        intros v S R. apply SBv in S as [_ ->]. unfold in_range in *. lia. }
      destruct (Z.ltb_spec max (- D)).
      { do 2 eexists. split; [reflexivity|]. right. repeat split.
        intros v S R. apply SBv in S as [_ ->]. unfold in_range in *. lia. }
      do 2 eexists. split; [reflexivity|]. left. split; [reflexivity|].
      split. apply SBv. auto. unfold in_range, in_s64, two63 in *. lia.
    + destruct (Z.ltb_spec parsenum_MAX D).
      { cbn. do 2 eexists. split; [reflexivity|]. right. repeat split.
        intros v S R. apply SBv in S as [_ ->].
        unfold in_range, in_s64, parsenum_MAX, two63 in *. lia. }
      rewrite s64_ok by (unfold parsenum_MAX, two63 in *; lia). cbn [bind].
      destruct (Z.ltb_spec D min).
      { do 2 eexists. split; [reflexivity|]. right. repeat split.
        intros v S R. apply SBv in S as [_ ->]. unfold in_range in *. lia. }
      destruct (Z.ltb_spec max D).
      { do 2 eexists. split; [reflexivity|]. right. repeat split.
        intros v S R. apply SBv in S as [_ ->]. unfold in_range in *. lia. }
      do 2 eexists. split; [reflexivity|]. left. split; [reflexivity|].
      split. apply SBv. auto. unfold in_range, in_s64, parsenum_MAX, two63 in *. lia.
  - (* not a numeral: rejected whatever the range *)
    exists 0, 0. split.
    2:{ right. repeat split. intros v S. apply SBv in S as [? _]. contradiction. }
    destruct Hcase as [->|[Hnd|(c2&s2&->)]].
    + cbn. reflexivity.
    + destruct b as [|d b]; [exfalso; apply Hnd; constructor|].
      change (ld ((d :: b) ++ 0 :: rest) 0) with (Ok d). cbn [bind].
      assert (exists z, (if d =? 48 then d1 <- ld ((d :: b) ++ 0 :: rest) 1;; Ok (negb (d1 =? 0)) else Ok false) = Ok z).
      { destruct (d =? 48); [|eauto]. destruct b; cbn; eauto. }
      destruct H as [z ->]. cbn [bind]. destruct z; [reflexivity|].
      rewrite pn_digits_bad by (auto; unfold two64; lia). reflexivity.
    + cbn [app ld nth_error bind]. rewrite Z.eqb_refl.
      change (ld (48 :: c2 :: s2 ++ 0 :: rest) 1) with (Ok c2). cbn [bind].
      change (ld (48 :: c2 :: s2 ++ 0 :: rest) 0) with (Ok 48). cbn [bind].
      replace (c2 =? 0) with false. reflexivity.
      symmetry. apply Z.eqb_neq. inv Hb. inv H2. lia.
Qed.

(** *** Ports *)

Definition port_val (p0 p1 : Z) : Z := 256 * p0 + p1.

Lemma parseport_correct : forall s rest, nonul s ->
  exists r, parseport_ (s ++ 0 :: rest) = Ok r /\
  match r with
  | Some (p0, p1) => is_byte p0 /\ is_byte p1 /\ numeral s /\ decval s = port_val p0 p1
  | None => ~ (numeral s /\ decval s < 65536)
  end.
Proof.
  intros s rest Hn. unfold parseport_.
  destruct s as [|c s].
  { cbn. eexists. split; [reflexivity|]. intros [[?|(?&?&?&_)] _]; discriminate. }
  cbn [app deref bind].
  destruct ((c =? 0) || (c =? 43) || (c =? 45)) eqn:E.
  { eexists. split; [reflexivity|].
    intros [[X|(c'&s'&X&B&_)] _]; inv X; [cbn in E; discriminate|]. lia. }
  destruct (parsenum_correct (c :: s) rest 0 65535 Hn) as (ret & num & P & C).
  change (c :: s ++ 0 :: rest) with ((c :: s) ++ 0 :: rest). rewrite P. cbn [bind].
  destruct C as [(-> & S & R)|(-> & -> & N)].
  - cbn [Z.eqb]. eexists. split; [reflexivity|]. cbn beta iota.
    inv S; [|lia|lia]. unfold in_range in R.
    set (D := decval (c :: s)) in *.
    rewrite Z.shiftr_div_pow2 by lia. change (2 ^ 8) with 256.
    assert (D / 256 < 256) by (apply Z.div_lt_upper_bound; lia).
    assert (0 <= D / 256) by (apply Z.div_pos; lia).
    rewrite u8_id by lia. unfold u8.
    pose proof (Z.mod_pos_bound D 256). unfold is_byte, port_val.
    repeat split; try lia; auto.
  - cbn [Z.eqb]. eexists. split; [reflexivity|]. intros [Nu Lt].
    apply (N (decval (c :: s))). constructor; auto.
    assert (0 <= decval (c :: s)).
    { apply decval_nonneg. destruct Nu as [->|(c'&s'&->&B&F)].
      apply digit0. constructor; auto. unfold digit. lia. }
    unfold in_range, in_s64, two63. lia.
Qed.

(** Digits of a number, least significant first, exactly as both loops see it. *)
Fixpoint digs (fuel : nat) (n : Z) : list Z :=
  match fuel with
  | O => []
  | S f => (48 + n mod 10) :: (if n / 10 =? 0 then [] else digs f (n / 10))
  end.

Lemma digs_fuel : forall f n, 0 <= n < 10 ^ Z.of_nat f -> (0 < f)%nat ->
  Forall digit (digs f n) /\ decval (rev (digs f n)) = n /\
  (n = 0 -> digs f n = [48]) /\
  (0 < n -> exists c t, rev (digs f n) = c :: t /\ 49 <= c <= 57).
Proof.
  induction f; intros n Hn Hf; [lia|]. clear Hf. cbn [digs].
  pose proof (Z.mod_pos_bound n 10 ltac:(lia)) as Hm.
  pose proof (Z.div_mod n 10 ltac:(lia)) as Hd.
  destruct (Z.eqb_spec (n / 10) 0).
  - repeat split.
    + repeat constructor; unfold digit; lia.
    + cbn [rev app decval]. change (len (@nil Z)) with 0. rewrite Z.pow_0_r. lia.
    + intros ->. reflexivity.
    + intros. cbn. do 2 eexists. split; [reflexivity|]. lia.
  - rewrite Nat2Z.inj_succ, Z.pow_succ_r in Hn by lia.
    assert (0 <= n / 10) by (apply Z.div_pos; lia).
    assert (n / 10 < 10 ^ Z.of_nat f) by (apply Z.div_lt_upper_bound; lia).
    assert (0 < f)%nat. { destruct f; [cbn in *; lia|lia]. }
    destruct (IHf (n / 10) ltac:(lia) H1) as (A & B & _ & D).
    repeat split.
    + constructor; auto. unfold digit. lia.
    + cbn [rev]. rewrite decval_snoc, B. lia.
    + intros ->. exfalso. apply n0. reflexivity.
    + intros _. destruct (D ltac:(lia)) as (c & t & E & Bc).
      exists c, (t ++ [48 + n mod 10]). cbn [rev]. rewrite E. split; [reflexivity|lia].
Qed.

Lemma digs_length : forall f n k, 0 <= n < 10 ^ Z.of_nat k -> (0 < k)%nat ->
  (length (digs f n) <= k)%nat.
Proof.
  induction f; intros n k Hn Hk; cbn [digs length]; [lia|].
  destruct (Z.eqb_spec (n / 10) 0); cbn [length]; [lia|].
  destruct k; [lia|]. rewrite Nat2Z.inj_succ, Z.pow_succ_r in Hn by lia.
  assert (0 <= n / 10) by (apply Z.div_pos; lia).
  assert (n / 10 < 10 ^ Z.of_nat k) by (apply Z.div_lt_upper_bound; lia).
  destruct k. { cbn in *. lia. }
  specialize (IHf (n / 10) (S k) ltac:(lia) ltac:(lia)). lia.
Qed.

Lemma digs_enough : forall f n, 0 <= n < 10 ^ Z.of_nat f -> (0 < f)%nat ->
  forall g, (f <= g)%nat -> digs g n = digs f n.
Proof.
  induction f; intros n Hn Hf g Hg; [lia|]. destruct g; [lia|]. cbn [digs]. f_equal.
  destruct (Z.eqb_spec (n / 10) 0); [reflexivity|].
  rewrite Nat2Z.inj_succ, Z.pow_succ_r in Hn by lia.
  assert (0 <= n / 10) by (apply Z.div_pos; lia).
  assert (n / 10 < 10 ^ Z.of_nat f) by (apply Z.div_lt_upper_bound; lia).
  destruct f. { cbn in *. lia. }
  apply IHf; lia.
Qed.

Lemma numeral_rev_digs : forall f n, 0 <= n < 10 ^ Z.of_nat f -> (0 < f)%nat ->
  numeral (rev (digs f n)) /\ decval (rev (digs f n)) = n.
Proof.
  intros. destruct (digs_fuel f n H H0) as (A & B & C & D). split; auto.
  destruct (Z.eq_dec n 0). rewrite C by auto. left. reflexivity.
  destruct (D ltac:(lia)) as (c & t & E & Bc). right. exists c, t. repeat split; auto; try lia.
  assert (Forall digit (rev (digs f n))) by (apply Forall_rev; auto).
  rewrite E in H1. inv H1. auto.
Qed.

Lemma pts_count_ok : forall f n l, 0 <= n < 10 ^ Z.of_nat f -> n < 65536 -> (0 < f)%nat ->
  pts_count f n l = Ok (l + length (digs f n))%nat.
Proof.
  induction f; intros n l Hn Hs Hf; [lia|]. clear Hf. cbn [pts_count digs].
  pose proof (Z.mod_pos_bound n 10 ltac:(lia)) as Hm.
  pose proof (Z.div_mod n 10 ltac:(lia)) as Hd.
  assert (0 <= n / 10) by (apply Z.div_pos; lia).
  rewrite u16_id by lia.
  destruct (Z.eqb_spec (n / 10) 0). { cbn [length]. f_equal. lia. }
  rewrite Nat2Z.inj_succ, Z.pow_succ_r in Hn by lia.
  assert (n / 10 < 10 ^ Z.of_nat f) by (apply Z.div_lt_upper_bound; lia).
  destruct f. { cbn in *. lia. }
  rewrite IHf by lia. cbn [length]. f_equal. lia.
Qed.

Lemma pts_fill_ok : forall f n a b, 0 <= n < 10 ^ Z.of_nat f -> n < 65536 -> (0 < f)%nat ->
  forall c, length c = length (digs f n) ->
  pts_fill f (a ++ c ++ b) (length a + length c) n = Ok (a ++ rev (digs f n) ++ b, length a).
Proof.
  induction f; intros n a b Hn Hs Hf c Hc; [lia|]. clear Hf. cbn [pts_fill digs] in *.
  pose proof (Z.mod_pos_bound n 10 ltac:(lia)) as Hm.
  pose proof (Z.div_mod n 10 ltac:(lia)) as Hd.
  assert (0 <= n / 10) by (apply Z.div_pos; lia).
  rewrite u16_id by lia. rewrite u8_id by lia.
  destruct c as [|x c] using rev_ind. { cbn in Hc. lia. } clear IHc.
  rewrite app_length in *. cbn [length] in *.
  replace (length a + (length c + 1))%nat with (S (length (a ++ c))) by (rewrite app_length; lia).
  replace (a ++ (c ++ [x]) ++ b) with ((a ++ c) ++ x :: b) by (rewrite <- !app_assoc; reflexivity).
  rewrite st_app. cbn [bind].
  destruct (Z.eqb_spec (n / 10) 0).
  - cbn [length] in Hc. destruct c; [|cbn in Hc; lia]. rewrite !app_nil_r. reflexivity.
  - rewrite Nat2Z.inj_succ, Z.pow_succ_r in Hn by lia.
    assert (n / 10 < 10 ^ Z.of_nat f) by (apply Z.div_lt_upper_bound; lia).
    destruct f. { cbn in *. lia. }
    rewrite <- app_assoc, app_length.
    rewrite IHf by (try lia; cbn [length] in Hc; lia).
    cbn [rev]. rewrite <- !app_assoc. reflexivity.
Qed.

Lemma pts_pad_ok : forall k a z l, (length a + length z = PORTTOSTR_LEN)%nat ->
  (length a = l)%nat -> (length z < k)%nat ->
  forall b, pts_pad k (a ++ z ++ b) 0 l = Ok (a ++ repeat 0 (length z) ++ b).
Proof.
  induction k; intros a z l H1 H2 H3 b; [lia|]. cbn [pts_pad].
  destruct z as [|x z].
  - cbn [length] in *. destruct (Nat.ltb_spec l PORTTOSTR_LEN); [lia|]. reflexivity.
  - cbn [length] in *. destruct (Nat.ltb_spec l PORTTOSTR_LEN); [|lia].
    cbn [Nat.add]. rewrite <- H2. cbn [app]. rewrite st_app. cbn [bind].
    replace (a ++ 0 :: z ++ b) with ((a ++ [0]) ++ z ++ b) by (rewrite <- app_assoc; reflexivity).
    rewrite IHk by (rewrite ?app_length; cbn [length]; lia).
    rewrite <- app_assoc. reflexivity.
Qed.

Definition portdigits (p0 p1 : Z) : list Z := rev (digs 5 (port_val p0 p1)).

Lemma lor_port : forall p0 p1, is_byte p0 -> is_byte p1 ->
  Z.lor (u16 (Z.shiftl p0 8)) p1 = port_val p0 p1.
Proof.
  unfold is_byte, port_val. intros. rewrite Z.shiftl_mul_pow2 by lia.
  rewrite u16_id by (change (2^8) with 256; lia). rewrite lor_add by (change (2^8) with 256; lia).
  change (2^8) with 256. lia.
Qed.

Lemma porttostr_correct : forall p0 p1 buf rest, is_byte p0 -> is_byte p1 ->
  length buf = PORTTOSTR_LEN ->
  exists s, numeral s /\ decval s = port_val p0 p1 /\ (length s <= 5)%nat /\
    porttostr (buf ++ rest) p0 p1 = Ok (s ++ repeat 0 (6 - length s) ++ rest, O).
Proof.
  intros p0 p1 buf rest H0 H1 Hb. exists (portdigits p0 p1). unfold portdigits.
  assert (Hv : 0 <= port_val p0 p1 < 65536) by (unfold port_val, is_byte in *; lia).
  assert (H5 : 0 <= port_val p0 p1 < 10 ^ Z.of_nat 5) by (change (10 ^ Z.of_nat 5) with 100000; lia).
  destruct (numeral_rev_digs 5 _ H5 ltac:(lia)) as [A B].
  pose proof (digs_length 5 _ 5 H5 ltac:(lia)) as L.
  split; [exact A|]. split; [exact B|]. split; [rewrite rev_length; exact L|].
  unfold porttostr. rewrite lor_port by assumption.
  assert (H100 : 0 <= port_val p0 p1 < 10 ^ Z.of_nat 100).
  { split; [lia|]. apply Z.lt_trans with (10 ^ Z.of_nat 5); [lia|]. reflexivity. }
  rewrite pts_count_ok by (auto; lia). cbn [bind].
  rewrite (digs_enough 5 _ H5 ltac:(lia) 100%nat ltac:(lia)).
  set (d := digs 5 (port_val p0 p1)) in *.
  replace (buf ++ rest) with ([] ++ firstn (length d) buf ++ skipn (length d) buf ++ rest)
    by (cbn [app]; rewrite app_assoc, firstn_skipn; reflexivity).
  assert (Lf : length (firstn (length d) buf) = length d).
  { rewrite firstn_length. unfold PORTTOSTR_LEN in Hb. lia. }
  replace (0 + length d)%nat with (length (@nil Z) + length (firstn (length d) buf))%nat
    by (rewrite Lf; reflexivity).
  rewrite pts_fill_ok.
  2: assumption. 2: lia. 2: lia.
  2:{ rewrite (digs_enough 5 _ H5 ltac:(lia) 100%nat ltac:(lia)). fold d. exact Lf. }
  rewrite (digs_enough 5 _ H5 ltac:(lia) 100%nat ltac:(lia)). fold d.
  cbn [bind app length]. rewrite Lf. cbn [Nat.add].
  rewrite pts_pad_ok; rewrite ?rev_length, ?skipn_length; unfold PORTTOSTR_LEN in *; try lia.
  cbn [bind]. rewrite Hb. reflexivity.
Qed.

Lemma numeral_nonul : forall s, numeral s -> nonul s.
Proof.
  intros s [->|(c & t & -> & B & F)].
  - repeat constructor; lia.
  - constructor; [lia|]. eapply Forall_impl; [|exact F]. unfold digit. cbn. intros. lia.
Qed.

Lemma port_val_inj : forall a b c d, is_byte a -> is_byte b -> is_byte c -> is_byte d ->
  port_val a b = port_val c d -> a = c /\ b = d.
Proof. unfold port_val, is_byte. intros. lia. Qed.

Lemma port_roundtrip : forall p0 p1 buf rest, is_byte p0 -> is_byte p1 ->
  length buf = PORTTOSTR_LEN ->
  exists out, porttostr (buf ++ rest) p0 p1 = Ok (out, O) /\ parseport_ out = Ok (Some (p0, p1)).
Proof.
  intros p0 p1 buf rest H0 H1 Hb.
  destruct (porttostr_correct p0 p1 buf rest H0 H1 Hb) as (s & N & V & L & E).
  eexists. split; [exact E|].
  replace (6 - length s)%nat with (S (5 - length s)) by lia.
  cbn [repeat app].
  destruct (parseport_correct s (repeat 0 (5 - length s) ++ rest) (numeral_nonul _ N)) as (r & -> & C).
  destruct r as [[a b]|].
  - destruct C as (Ha & Hb' & _ & E2). rewrite V in E2.
    destruct (port_val_inj p0 p1 a b) as [-> ->]; auto.
  - exfalso. apply C. split; auto. rewrite V. unfold port_val, is_byte in *. lia.
Qed.

Lemma signed_numeral_unique : forall s v w, nonul s ->
  signed_numeral s v -> signed_numeral s w -> v = w.
Proof.
  intros s v w H A B. apply signed_numeral_body in A, B; auto.
  destruct A as [_ ->], B as [_ ->]. reflexivity.
Qed.
