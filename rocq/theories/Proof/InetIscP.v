(** The ISC address conversion satisfies the assumed interface. *)
From Verif.Model Require Import Base Inet InetIsc.
From Verif.Spec Require Import Num Ip.
From Verif.Proof Require Import Tac NumP.

(** ** IPv4 *)

Lemma p4_sound : forall s done cur saw a, p4 s done cur saw = Some a ->
  bytes done -> 0 <= cur <= 255 -> (length done <= 3)%nat ->
  addr4 a /\ Forall (fun c => digit c \/ c = 46) s.
Proof.
  induction s as [|c s IH]; intros done cur saw a E B C L; cbn [p4] in E.
  - destruct saw; [|discriminate]. cbn [andb] in E. destruct (Nat.eqb_spec (length done) 3); [|discriminate].
    inv E. split; [|constructor]. split. { rewrite app_length; cbn; lia. }
    apply Forall_app. split; auto. constructor; [unfold is_byte; lia|constructor].
  - destruct ((48 <=? c) && (c <=? 57)) eqn:D.
    + destruct (saw && (cur =? 0)); [discriminate|].
      destruct (Z.ltb_spec 255 (cur * 10 + (c - 48))); [discriminate|].
      apply IH in E as [? ?]; auto; [|lia]. split; auto. constructor; auto. left. unfold digit. lia.
    + destruct ((c =? 46) && saw) eqn:P; [|discriminate].
      destruct (Nat.eqb_spec (length done) 3); [discriminate|].
      apply IH in E as [? ?]; auto; [| |lia|rewrite app_length; cbn; lia].
      * split; auto. constructor; auto. right. lia.
      * apply Forall_app. split; auto. constructor; [unfold is_byte; lia|constructor].
Qed.

Lemma pton4_sound : forall s a, isc_pton4 s = Some a -> addr4 a /\ Forall (fun c => digit c \/ c = 46) s.
Proof. intros s a E. eapply p4_sound; [exact E|constructor|lia|cbn; lia]. Qed.

Lemma dec8_p4 : forall n t done, is_byte n -> p4 (dec8 n ++ t) done 0 false = p4 t done n true.
Proof.
  intros n t done B. unfold is_byte in B. unfold dec8.
  assert (S : forall d s cur saw, 0 <= d <= 9 -> (saw && (cur =? 0)) = false -> cur * 10 + d <= 255 ->
     p4 ((48 + d) :: s) done cur saw = p4 s done (cur * 10 + d) true).
  { intros d s cur saw D E V. cbn [p4].
    replace ((48 <=? 48 + d) && (48 + d <=? 57)) with true by lia. rewrite E.
    replace (48 + d - 48) with d by lia. destruct (Z.ltb_spec 255 (cur * 10 + d)); [lia|reflexivity]. }
  destruct (Z.ltb_spec n 10).
  { cbn [app]. rewrite S; [f_equal; lia|lia|reflexivity|lia]. }
  pose proof (Z.div_mod n 10 ltac:(lia)). pose proof (Z.mod_pos_bound n 10 ltac:(lia)).
  destruct (Z.ltb_spec n 100).
  { cbn [app]. rewrite S; [|lia|reflexivity|lia]. rewrite S; [|lia|lia|lia]. f_equal. lia. }
  cbn [app].
  assert (n / 100 = n / 10 / 10) as -> by (rewrite Z.div_div by lia; reflexivity).
  pose proof (Z.div_mod (n / 10) 10 ltac:(lia)). pose proof (Z.mod_pos_bound (n / 10) 10 ltac:(lia)).
  rewrite S; [|lia|reflexivity|lia]. rewrite S; [|lia|lia|lia]. rewrite S; [|lia|lia|lia]. f_equal. lia.
Qed.

Lemma dec8_numeral : forall n, is_byte n -> numeral (dec8 n) /\ decval (dec8 n) = n /\ (length (dec8 n) <= 3)%nat.
Proof.
  intros n B. unfold is_byte in B. unfold dec8.
  pose proof (Z.div_mod n 10 ltac:(lia)). pose proof (Z.mod_pos_bound n 10 ltac:(lia)).
  destruct (Z.ltb_spec n 10).
  - split.
    + destruct (Z.eq_dec n 0) as [->|]; [left; reflexivity|]. right. exists (48 + n), []. repeat split; auto; lia.
    + split; [|cbn; lia]. cbn [decval]. rewrite len_nil. change (10 ^ 0) with 1. lia.
  - destruct (Z.ltb_spec n 100).
    + split.
      * right. eexists _, _. split; [reflexivity|]. split; [lia|]. constructor; [unfold digit; lia|constructor].
      * split; [|cbn; lia]. cbn [decval]. rewrite !len_cons, len_nil. change (10 ^ 0) with 1. change (10 ^ (0+1)) with 10. lia.
    + assert (n / 100 = n / 10 / 10) as -> by (rewrite Z.div_div by lia; reflexivity).
      pose proof (Z.div_mod (n / 10) 10 ltac:(lia)). pose proof (Z.mod_pos_bound (n / 10) 10 ltac:(lia)).
      split.
      * right. eexists _, _. split; [reflexivity|]. split; [lia|]. repeat (constructor; [unfold digit; lia|]). constructor.
      * split; [|cbn; lia]. cbn [decval]. rewrite !len_cons, len_nil. change (10 ^ 0) with 1. change (10 ^ (0+1)) with 10.
        change (10 ^ (0+1+1)) with 100. lia.
Qed.

Lemma p4_dot : forall t done n, (length done < 3)%nat -> p4 (46 :: t) done n true = p4 t (done ++ [n]) 0 false.
Proof.
  intros. cbn [p4]. change ((48 <=? 46) && (46 <=? 57)) with false. cbn [andb Z.eqb].
  change ((46 =? 46) && true) with true. cbn iota. destruct (Nat.eqb_spec (length done) 3); [lia|reflexivity].
Qed.

Lemma isc4 : forall a, addr4 a -> dotquad a (isc_ntop4 a) /\ isc_pton4 (isc_ntop4 a) = Some a /\
  (length (isc_ntop4 a) <= 15)%nat.
Proof.
  intros a [L B]. destruct a as [|a0 [|a1 [|a2 [|a3 [|]]]]]; try discriminate. unfold bytes in B.
  repeat (apply Forall_cons_iff in B as [? B]).
  destruct (dec8_numeral a0) as (? & ? & ?); auto. destruct (dec8_numeral a1) as (? & ? & ?); auto.
  destruct (dec8_numeral a2) as (? & ? & ?); auto. destruct (dec8_numeral a3) as (? & ? & ?); auto.
  split; [|split].
  - exists (dec8 a0), (dec8 a1), (dec8 a2), (dec8 a3). split; [repeat (apply Forall_cons; [assumption|]); apply Forall_nil|]. split; [|reflexivity].
    cbn [map]. congruence.
  - unfold isc_pton4, isc_ntop4. rewrite dec8_p4, p4_dot by (auto; cbn; lia). rewrite dec8_p4, p4_dot by (auto; cbn; lia).
    rewrite dec8_p4, p4_dot by (auto; cbn; lia). rewrite <- (app_nil_r (dec8 a3)). rewrite dec8_p4 by auto. reflexivity.
  - unfold isc_ntop4. repeat (rewrite app_length || cbn [length]). lia.
Qed.

(** ** IPv6 *)

Definition word (w : Z) : Prop := 0 <= w < 65536.

Lemma hexd_val : forall d, 0 <= d < 16 -> hexval (hexd d) = Some d.
Proof.
  intros. unfold hexd, hexval. destruct (Z.ltb_spec d 10).
  - replace ((48 <=? 48 + d) && (48 + d <=? 57)) with true by lia. f_equal. lia.
  - replace ((48 <=? 87 + d) && (87 + d <=? 57)) with false by lia.
    replace ((97 <=? 87 + d) && (87 + d <=? 102)) with true by lia. f_equal. lia.
Qed.

Lemma hexd_char : forall d, 0 <= d < 16 -> ip6_char (hexd d).
Proof. intros. unfold hexd, ip6_char, digit. destruct (Z.ltb_spec d 10); lia. Qed.

(** Digits of a word, most significant first. *)
Lemma hex16_digits : forall w, word w -> exists ds, hex16 w = map hexd ds /\ ds <> [] /\ (length ds <= 4)%nat /\
  Forall (fun d => 0 <= d < 16) ds /\ fold_left (fun v d => v * 16 + d) ds 0 = w.
Proof.
  intros w W. unfold word in W. unfold hex16.
  destruct (Z.ltb_spec w 16). { exists [w]. cbn. repeat split; auto; try lia; try discriminate. repeat constructor; lia. }
  pose proof (Z.div_mod w 16 ltac:(lia)). pose proof (Z.mod_pos_bound w 16 ltac:(lia)).
  destruct (Z.ltb_spec w 256).
  { exists [w / 16; w mod 16]. cbn. repeat split; auto; try lia; try discriminate. repeat constructor; lia. }
  pose proof (Z.div_mod (w / 16) 16 ltac:(lia)). pose proof (Z.mod_pos_bound (w / 16) 16 ltac:(lia)).
  assert (w / 256 = w / 16 / 16) as -> by (rewrite Z.div_div by lia; reflexivity).
  destruct (Z.ltb_spec w 4096).
  { exists [w / 16 / 16; w / 16 mod 16; w mod 16]. cbn. repeat split; auto; try lia; try discriminate. repeat constructor; lia. }
  pose proof (Z.div_mod (w / 16 / 16) 16 ltac:(lia)). pose proof (Z.mod_pos_bound (w / 16 / 16) 16 ltac:(lia)).
  assert (w / 4096 = w / 16 / 16 / 16) as -> by (rewrite !Z.div_div by lia; reflexivity).
  exists [w / 16 / 16 / 16; w / 16 / 16 mod 16; w / 16 mod 16; w mod 16]. cbn.
  repeat split; auto; try lia; try discriminate. repeat constructor; lia.
Qed.

Lemma p6_digits : forall ds t tok out cp xd val, Forall (fun d => 0 <= d < 16) ds -> (xd + length ds <= 4)%nat ->
  p6 (map hexd ds ++ t) tok out cp xd val =
  p6 t tok out cp (xd + length ds) (fold_left (fun v d => v * 16 + d) ds val).
Proof.
  induction ds as [|d ds IH]; intros t tok out cp xd val F L; cbn [map app length fold_left].
  - rewrite Nat.add_0_r. reflexivity.
  - apply Forall_cons_iff in F as [D F]. cbn [length] in L. cbn [p6]. rewrite hexd_val by assumption.
    destruct (Nat.eqb_spec xd 4); [lia|]. rewrite IH by (auto; lia). f_equal. lia.
Qed.

Lemma p6_hex : forall w t tok out cp, word w -> exists xd, (0 < xd <= 4)%nat /\
  p6 (hex16 w ++ t) tok out cp 0 0 = p6 t tok out cp xd w.
Proof.
  intros w t tok out cp W. destruct (hex16_digits w W) as (ds & E & N & L & F & V).
  exists (length ds). split. { destruct ds; [congruence|cbn in *; lia]. }
  rewrite E, p6_digits by (auto; lia). rewrite V. reflexivity.
Qed.

Lemma hex16_ne : forall w, word w -> hex16 w <> [].
Proof. intros w W. destruct (hex16_digits w W) as (ds & -> & N & _). destruct ds; [congruence|discriminate]. Qed.
Lemma hex16_len : forall w, word w -> (length (hex16 w) <= 4)%nat.
Proof. intros w W. destruct (hex16_digits w W) as (ds & -> & N & L & _). rewrite map_length. assumption. Qed.
Lemma hex16_chars : forall w, word w -> Forall ip6_char (hex16 w).
Proof.
  intros w W. destruct (hex16_digits w W) as (ds & -> & _ & _ & F & _).
  apply Forall_map. eapply Forall_impl; [|exact F]. intros. apply hexd_char. assumption.
Qed.

Lemma hexval58 : hexval 58 = None. Proof. reflexivity. Qed.

Lemma p6_word : forall w w' t tok out cp, word w -> word w' -> (length out + 2 <= 16)%nat ->
  p6 (hex16 w ++ 58 :: hex16 w' ++ t) tok out cp 0 0 =
  p6 (hex16 w' ++ t) (hex16 w' ++ t) (out ++ [w / 256; w mod 256]) cp 0 0.
Proof.
  intros w w' t tok out cp W W' L. destruct (p6_hex w (58 :: hex16 w' ++ t) tok out cp W) as (xd & X & ->).
  cbn [p6]. rewrite hexval58. change (58 =? 58) with true. cbn iota.
  destruct (Nat.eqb_spec xd 0); [lia|].
  destruct (hex16 w' ++ t) eqn:E. { apply app_eq_nil in E as [E _]. destruct (hex16_ne w' W' E). }
  destruct (Nat.ltb_spec 16 (length out + 2)); [lia|reflexivity].
Qed.

Lemma p6_word_dec : forall w n t tok out cp, word w -> (length out + 2 <= 16)%nat ->
  p6 (hex16 w ++ 58 :: dec8 n ++ t) tok out cp 0 0 =
  p6 (dec8 n ++ t) (dec8 n ++ t) (out ++ [w / 256; w mod 256]) cp 0 0.
Proof.
  intros w n t tok out cp W L. destruct (p6_hex w (58 :: dec8 n ++ t) tok out cp W) as (xd & X & ->).
  cbn [p6]. rewrite hexval58. change (58 =? 58) with true. cbn iota.
  destruct (Nat.eqb_spec xd 0); [lia|].
  destruct (dec8 n ++ t) eqn:E. { exfalso. unfold dec8 in E. destruct (n <? 10); [discriminate|]. destruct (n <? 100); discriminate. }
  destruct (Nat.ltb_spec 16 (length out + 2)); [lia|reflexivity].
Qed.

Lemma p6_wordcc : forall w t tok out, word w -> (length out + 2 <= 16)%nat ->
  p6 (hex16 w ++ 58 :: 58 :: t) tok out None 0 0 =
  p6 t t (out ++ [w / 256; w mod 256]) (Some (length out + 2)%nat) 0 0.
Proof.
  intros w t tok out W L. destruct (p6_hex w (58 :: 58 :: t) tok out None W) as (xd & X & ->).
  cbn [p6]. rewrite hexval58. change (58 =? 58) with true. cbn iota.
  destruct (Nat.eqb_spec xd 0); [lia|].
  destruct (Nat.ltb_spec 16 (length out + 2)); [lia|].
  cbn [Nat.eqb]. rewrite app_length. reflexivity.
Qed.

Lemma p6_wordend : forall w tok out cp, word w -> (length out + 2 <= 16)%nat ->
  p6 (hex16 w) tok out cp 0 0 = p6_end (out ++ [w / 256; w mod 256]) cp 0 0.
Proof.
  intros w tok out cp W L. destruct (p6_hex w [] tok out cp W) as (xd & X & E).
  rewrite app_nil_r in E. rewrite E. cbn [p6]. unfold p6_end.
  destruct (Nat.ltb_spec 0 xd); [|lia]. destruct (Nat.ltb_spec 16 (length out + 2)); [lia|]. reflexivity.
Qed.

(** A dotted quad at the end. *)
Lemma dec8_hexd : forall n, is_byte n -> exists ds, dec8 n = map hexd ds /\ (length ds <= 3)%nat /\ ds <> [] /\
  Forall (fun d => 0 <= d < 16) ds.
Proof.
  intros n B. unfold is_byte in B. unfold dec8.
  assert (G : forall d, 0 <= d < 10 -> hexd d = 48 + d) by (intros; unfold hexd; destruct (Z.ltb_spec d 10); lia).
  pose proof (Z.div_mod n 10 ltac:(lia)). pose proof (Z.mod_pos_bound n 10 ltac:(lia)).
  destruct (Z.ltb_spec n 10).
  { exists [n]. cbn. rewrite G by lia. repeat split; auto; try discriminate. repeat constructor; lia. }
  destruct (Z.ltb_spec n 100).
  { exists [n / 10; n mod 10]. cbn. rewrite !G by lia. repeat split; auto; try discriminate. repeat constructor; lia. }
  assert (n / 100 = n / 10 / 10) as -> by (rewrite Z.div_div by lia; reflexivity).
  pose proof (Z.div_mod (n / 10) 10 ltac:(lia)). pose proof (Z.mod_pos_bound (n / 10) 10 ltac:(lia)).
  exists [n / 10 / 10; n / 10 mod 10; n mod 10]. cbn. rewrite !G by lia.
  repeat split; auto; try discriminate. repeat constructor; lia.
Qed.

Lemma p6_quad : forall a out cp, addr4 a -> (length out + 4 <= 16)%nat ->
  p6 (isc_ntop4 a) (isc_ntop4 a) out cp 0 0 = p6_end (out ++ a) cp 0 0.
Proof.
  intros a out cp A L. pose proof (isc4 a A) as (_ & P & _). remember (isc_ntop4 a) as tok eqn:ET.
  rewrite ET at 1. clear ET. destruct A as [La B].
  destruct a as [|a0 [|a1 [|a2 [|a3 [|]]]]]; try discriminate. unfold bytes in B.
  repeat (apply Forall_cons_iff in B as [? B]). unfold isc_ntop4.
  destruct (dec8_hexd a0) as (ds & -> & Ld & Nd & Fd); auto.
  rewrite p6_digits by (auto; lia). cbn [p6]. change (hexval 46) with (@None Z). cbn iota.
  change (46 =? 58) with false. cbn iota. change (46 =? 46) with true. cbn [andb].
  destruct (Nat.leb_spec (length out + 4) 16); [|lia]. rewrite P. reflexivity.
Qed.

(** Zero runs. The default 1 makes the run lie inside the list. *)
Definition zrun (W : list Z) (r : option (nat * nat)) : Prop :=
  match r with
  | None => True
  | Some (b, l) => (0 < l)%nat /\ (b + l <= length W)%nat /\ forall j, (b <= j < b + l)%nat -> nth j W 1 = 0
  end.

Lemma bestrun_ok : forall ws W i best cur, W = firstn i W ++ ws -> i = length (firstn i W) -> zrun W best -> zrun W cur ->
  (forall b l, cur = Some (b, l) -> (b + l)%nat = i) -> zrun W (bestrun ws i best cur).
Proof.
  induction ws as [|w ws IH]; intros W i best cur E I HB HC CE; cbn [bestrun].
  - destruct cur as [[cb cl]|]; auto. destruct best as [[bb bl]|]; auto. dif; auto.
  - assert (NW : nth i W 1 = w).
    { rewrite E, app_nth2 by lia. rewrite I at 1. rewrite Nat.sub_diag. reflexivity. }
    assert (LW : (i < length W)%nat). { rewrite E, app_length. cbn [length]. lia. }
    assert (FS : firstn (S i) W = firstn i W ++ [w]).
    { clear - NW LW. revert i NW LW. induction W; intros [|i] NW LW; cbn [length] in LW; try lia.
      - cbn in *. congruence.
      - cbn [nth] in NW. cbn [firstn app]. f_equal. apply IHW; auto. lia. }
    destruct (Z.eqb_spec w 0) as [->|NZ].
    + apply IH; auto.
      * rewrite FS, <- app_assoc. cbn [app]. exact E.
      * rewrite FS, app_length. cbn. lia.
      * destruct cur as [[cb cl]|].
        -- specialize (CE _ _ eq_refl). destruct HC as (H0 & H1 & H2). repeat split; try lia.
           intros j J. destruct (Nat.eq_dec j i) as [->|]; [exact NW|]. apply H2. lia.
        -- repeat split; try lia. intros j J. assert (j = i) by lia. subst j. exact NW.
      * intros b l X. destruct cur as [[cb cl]|]; inv X; [|lia]. specialize (CE _ _ eq_refl). lia.
    + apply IH; auto.
      * rewrite FS, <- app_assoc. cbn [app]. exact E.
      * rewrite FS, app_length. cbn. lia.
      * destruct cur as [[cb cl]|]; auto. destruct best as [[bb bl]|]; auto. dif; auto.
      * exact Logic.I.
      * discriminate.
Qed.

Lemma wdiv : forall h l, is_byte h -> is_byte l -> (h * 256 + l) / 256 = h /\ (h * 256 + l) mod 256 = l.
Proof.
  unfold is_byte. intros. split.
  - rewrite Z.div_add_l by lia. rewrite Z.div_small by lia. lia.
  - rewrite Z.add_comm, Z_mod_plus_full. apply Z.mod_small. lia.
Qed.

Lemma pton6_word : forall w t, word w -> isc_pton6 (hex16 w ++ t) = p6 (hex16 w ++ t) (hex16 w ++ t) [] None 0 0.
Proof.
  intros w t W. destruct (hex16_digits w W) as (ds & -> & N & _ & F & _). destruct ds as [|d ds]; [congruence|].
  apply Forall_cons_iff in F as [D _]. cbn [map app]. unfold isc_pton6.
  assert (hexd d <> 58). { unfold hexd. destruct (Z.ltb_spec d 10); lia. }
  destruct (hexd d) as [|p|p]; auto.
  do 6 (destruct p as [p|p|]; auto). exfalso. apply H. reflexivity.
Qed.

Lemma pton6_cc : forall t, isc_pton6 (58 :: 58 :: t) = p6 t t [] (Some O) 0 0.
Proof. reflexivity. Qed.

Lemma F_app : forall (P : Z -> Prop) a b, Forall P a -> Forall P b -> Forall P (a ++ b).
Proof. intros. apply Forall_app. auto. Qed.

Lemma quad_chars : forall a, addr4 a -> Forall ip6_char (isc_ntop4 a).
Proof.
  intros a A. destruct (isc4 a A) as (_ & P & _). unfold isc_pton4 in P.
  apply p4_sound in P as [_ F]; try constructor; try lia; [|cbn; lia].
  eapply Forall_impl; [|exact F]. unfold ip6_char. cbn. intros. tauto.
Qed.

Lemma c58 : ip6_char 58. Proof. unfold ip6_char. auto. Qed.


Definition wb (w : Z) : list Z := [w / 256; w mod 256].
Definition text_ok (t r : list Z) : Prop :=
  (length t <= 45)%nat /\ In 58 t /\ Forall ip6_char t /\ isc_pton6 t = Some r.


Lemma p6_word2 : forall w w' tok out cp, word w -> word w' -> (length out + 2 <= 16)%nat ->
  p6 (hex16 w ++ 58 :: hex16 w') tok out cp 0 0 =
  p6 (hex16 w') (hex16 w') (out ++ [w / 256; w mod 256]) cp 0 0.
Proof.
  intros. pose proof (p6_word w w' [] tok out cp) as P. rewrite app_nil_r in P. auto.
Qed.

Lemma p6_word_quad : forall w a tok out cp, word w -> addr4 a -> (length out + 2 <= 16)%nat ->
  p6 (hex16 w ++ 58 :: isc_ntop4 a) tok out cp 0 0 =
  p6 (isc_ntop4 a) (isc_ntop4 a) (out ++ [w / 256; w mod 256]) cp 0 0.
Proof.
  intros w a tok out cp W [L B] LL. destruct a as [|a0 [|a1 [|a2 [|a3 [|]]]]]; try discriminate.
  unfold isc_ntop4. apply p6_word_dec; auto.
Qed.

Ltac t_len := rewrite ?app_nil_r; repeat (rewrite app_length || cbn [length]);
      repeat match goal with H : word ?w |- _ => pose proof (hex16_len w H); clear H end;
      try match goal with A4 : addr4 ?a |- _ => pose proof (proj2 (proj2 (isc4 a A4))) end; lia.
Ltac t_in := repeat (first [left; reflexivity | right | apply in_or_app; right]).
Ltac t_chars := repeat (apply Forall_cons; [apply c58|] || (apply F_app; [apply hex16_chars; assumption|])
     || apply Forall_nil || (apply quad_chars; assumption) || (apply hex16_chars; assumption)).
Ltac t_parse := rewrite ?app_nil_r; first [rewrite pton6_word by assumption | rewrite pton6_cc];
      repeat (first [rewrite p6_word by (assumption || (cbn; lia))
                    |rewrite p6_word2 by (assumption || (cbn; lia))
                    |rewrite p6_wordcc by (assumption || (cbn; lia))
                    |rewrite p6_word_quad by (assumption || (cbn; lia))
                    |rewrite p6_wordend by (assumption || (cbn; lia))
                    |rewrite p6_quad by (assumption || (cbn; lia))]; cbn [app length Nat.add]).
Ltac t_all := split; [t_len|split; [t_in|split; [t_chars|t_parse]]].

Lemma n6_ok : forall w0 w1 w2 w3 w4 w5 w6 w7 a best, Forall word [w0; w1; w2; w3; w4; w5; w6; w7] ->
  words a = [w0; w1; w2; w3; w4; w5; w6; w7] ->
  skipn 12 a = wb w6 ++ wb w7 -> zrun (words a) best -> (forall b l, best = Some (b, l) -> (2 <= l)%nat) ->
  text_ok (n6 (words a) 0 best a) (wb w0 ++ wb w1 ++ wb w2 ++ wb w3 ++ wb w4 ++ wb w5 ++ wb w6 ++ wb w7).
Proof.
  intros w0 w1 w2 w3 w4 w5 w6 w7 a best FW EW SK ZB L2.
  repeat (apply Forall_cons_iff in FW as [? FW]). clear FW.
  assert (A4 : addr4 (skipn 12 a)).
  { rewrite SK. unfold wb. split; [reflexivity|]. cbn [app]. unfold word in *.
    repeat (apply Forall_cons; [unfold is_byte; first [apply Z.mod_pos_bound; lia|split; [apply Z.div_pos; lia|apply Z.div_lt_upper_bound; lia]]|]).
    apply Forall_nil. }
  rewrite EW in *.
  destruct best as [[b l]|].
  - specialize (L2 _ _ eq_refl). destruct ZB as (_ & LB & ZR). cbn [length] in LB.
    do 7 (destruct b as [|b]; [do 9 (destruct l as [|l]; [first [lia|
      try (assert (w0 = 0) by exact (ZR 0%nat ltac:(lia)));
      try (assert (w1 = 0) by exact (ZR 1%nat ltac:(lia)));
      try (assert (w2 = 0) by exact (ZR 2%nat ltac:(lia)));
      try (assert (w3 = 0) by exact (ZR 3%nat ltac:(lia)));
      try (assert (w4 = 0) by exact (ZR 4%nat ltac:(lia)));
      try (assert (w5 = 0) by exact (ZR 5%nat ltac:(lia)));
      try (assert (w6 = 0) by exact (ZR 6%nat ltac:(lia)));
      try (assert (w7 = 0) by exact (ZR 7%nat ltac:(lia)));
      clear ZR; cbn [n6 in_run Nat.eqb Nat.leb Nat.ltb Nat.add andb orb app]; rewrite ?EW; cbn [nth];
      try (destruct (Z.eqb_spec w5 65535));
      rewrite ?SK in *; t_all; subst; unfold wb; reflexivity]|]); lia|]). lia.
  - clear ZB L2. cbn [n6 in_run Nat.eqb andb app]. t_all. unfold wb. reflexivity.
Qed.

Lemma isc6 : forall a, addr6 a ->
  (length (isc_ntop6 a) <= 45)%nat /\ In 58 (isc_ntop6 a) /\ Forall ip6_char (isc_ntop6 a) /\
  isc_pton6 (isc_ntop6 a) = Some a.
Proof.
  intros a [L B].
  do 16 (destruct a as [|? a]; [discriminate|]). destruct a; [|discriminate]. clear L.
  unfold bytes in B. repeat (apply Forall_cons_iff in B as [? B]). clear B.
  unfold isc_ntop6.
  match goal with |- context [words ?l] => set (A := l) end.
  pose proof (bestrun_ok (words A) (words A) 0 None None eq_refl eq_refl Logic.I Logic.I ltac:(discriminate)) as BR.
  set (br := bestrun (words A) 0 None None) in *.
  set (best := match br with Some (b, l) => if (l <? 2)%nat then None else Some (b, l) | None => None end).
  assert (ZB : zrun (words A) best /\ forall b l, best = Some (b, l) -> (2 <= l)%nat).
  { unfold best. destruct br as [[b l]|]; [|split; [exact Logic.I|discriminate]].
    destruct (Nat.ltb_spec l 2); [split; [exact Logic.I|discriminate]|]. split; auto. intros ? ? E. inv E. auto. }
  clearbody best. clear BR br. destruct ZB as [ZB L2].
  assert (WB : forall h l, is_byte h -> is_byte l -> wb (h * 256 + l) = [h; l]).
  { intros h l Hh Hl. unfold wb. destruct (wdiv h l Hh Hl) as [-> ->]. reflexivity. }
  eapply n6_ok in ZB; [|  |reflexivity| |exact L2].
  - unfold text_ok in ZB. rewrite !WB in ZB by assumption. exact ZB.
  - repeat (apply Forall_cons; [unfold word, is_byte in *; lia|]). apply Forall_nil.
  - rewrite !WB by assumption. reflexivity.
Qed.

Lemma hexval_range : forall c d, hexval c = Some d -> 0 <= d < 16.
Proof.
  intros c d. unfold hexval. destruct ((48 <=? c) && (c <=? 57)) eqn:?; [intro E; inv E; lia|].
  destruct ((97 <=? c) && (c <=? 102)) eqn:?; [intro E; inv E; lia|].
  destruct ((65 <=? c) && (c <=? 70)) eqn:?; [intro E; inv E; lia|discriminate].
Qed.

Lemma p6_end_addr : forall out cp xd val a, p6_end out cp xd val = Some a -> bytes out -> (length out <= 16)%nat ->
  0 <= val < 65536 -> (forall k, cp = Some k -> (k <= length out)%nat) -> addr6 a.
Proof.
  intros out cp xd val a E B L V C. unfold p6_end in E.
  destruct (if (0 <? xd)%nat then _ else _) as [out'|] eqn:R; [|discriminate].
  assert (bytes out' /\ (length out' <= 16)%nat /\ (length out <= length out')%nat) as (B' & L' & LL).
  { destruct (0 <? xd)%nat; [|inv R; auto]. destruct (Nat.ltb_spec 16 (length out + 2)); [discriminate|]. inv R.
    rewrite app_length. cbn [length]. split; [|lia]. apply Forall_app. split; auto.
    repeat constructor; unfold is_byte; try (apply Z.mod_pos_bound; lia); try (apply Z.div_pos; lia); apply Z.div_lt_upper_bound; lia. }
  destruct cp as [k|].
  - destruct (Nat.eqb_spec (length out') 16); [discriminate|]. remember (16 - length out')%nat as k2 eqn:K2. inv E. specialize (C k eq_refl). split.
    + rewrite !app_length, repeat_length, firstn_length, skipn_length. lia.
    + apply Forall_app; split; [|apply Forall_app; split].
      * apply Forall_forall. intros x X. unfold bytes in B'. rewrite Forall_forall in B'. apply B'.
        rewrite <- (firstn_skipn k out'). apply in_or_app. auto.
      * apply Forall_forall. intros x X. apply repeat_spec in X. subst. unfold is_byte. lia.
      * apply Forall_forall. intros x X. unfold bytes in B'. rewrite Forall_forall in B'. apply B'.
        rewrite <- (firstn_skipn k out'). apply in_or_app. auto.
  - destruct (Nat.eqb_spec (length out') 16); [|discriminate]. inv E. split; auto.
Qed.

Lemma p6_addr : forall s tok out cp xd val a, p6 s tok out cp xd val = Some a -> bytes out -> (length out <= 16)%nat ->
  (xd <= 4)%nat -> 0 <= val < 16 ^ Z.of_nat xd -> (forall k, cp = Some k -> (k <= length out)%nat) -> addr6 a.
Proof.
  induction s as [|c s IH]; intros tok out cp xd val a E B L X V C; cbn [p6] in E.
  - assert (16 ^ Z.of_nat xd <= 16 ^ 4) by (apply Z.pow_le_mono_r; lia). change (16 ^ 4) with 65536 in *.
    eapply p6_end_addr; eauto. lia.
  - assert (VB : 0 <= val < 65536).
    { assert (16 ^ Z.of_nat xd <= 16 ^ 4) by (apply Z.pow_le_mono_r; lia). change (16 ^ 4) with 65536 in *. lia. }
    assert (PB : bytes (out ++ [val / 256; val mod 256])).
    { apply Forall_app. split; auto.
      repeat constructor; unfold is_byte; try (apply Z.mod_pos_bound; lia); try (apply Z.div_pos; lia); apply Z.div_lt_upper_bound; lia. }
    destruct (hexval c) as [d|] eqn:HV.
    + apply hexval_range in HV. destruct (Nat.eqb_spec xd 4); [discriminate|].
      eapply IH in E; eauto; [lia|]. replace (Z.of_nat (S xd)) with (Z.of_nat xd + 1) by lia.
      rewrite Z.pow_add_r by lia. change (16 ^ 1) with 16. lia.
    + destruct (c =? 58).
      * destruct (xd =? 0)%nat.
        -- destruct cp; [discriminate|]. eapply IH in E; eauto; try (cbn; lia). intros k K. inv K. lia.
        -- destruct s as [|s0 s]; [discriminate|]. destruct (Nat.ltb_spec 16 (length out + 2)); [discriminate|].
           eapply IH in E; eauto; try (cbn; lia).
           ++ rewrite app_length. cbn. lia.
           ++ intros k K. specialize (C k K). rewrite app_length. lia.
      * destruct ((c =? 46) && (length out + 4 <=? 16)%nat) eqn:Q; [|discriminate].
        destruct (isc_pton4 tok) as [q|] eqn:PQ; [|discriminate].
        apply pton4_sound in PQ as [[LQ BQ] _].
        eapply p6_end_addr; [exact E| | | |].
        -- apply Forall_app. auto.
        -- rewrite app_length. lia.
        -- lia.
        -- intros k K. specialize (C k K). rewrite app_length. lia.
Qed.

Lemma hexval_char : forall c d, hexval c = Some d -> ip6_in c.
Proof.
  intros c d H. unfold hexval in H. unfold ip6_in, ip6_char, digit.
  destruct ((48 <=? c) && (c <=? 57)) eqn:E1; [lia|]. destruct ((97 <=? c) && (c <=? 102)) eqn:E2; [lia|].
  destruct ((65 <=? c) && (c <=? 70)) eqn:E3; [lia|discriminate].
Qed.
Lemma p6_chars : forall s tok out cp xd val a, (exists u, tok = u ++ s) -> p6 s tok out cp xd val = Some a -> Forall ip6_in s.
Proof.
  induction s as [|c t IH]; intros tok out cp xd val a T P; [constructor|]. cbn [p6] in P.
  assert (T2 : exists u, tok = u ++ t). { destruct T as (u & ->). exists (u ++ [c]). rewrite <- app_assoc. reflexivity. }
  assert (T3 : exists u, t = u ++ t) by (exists []; reflexivity).
  destruct (hexval c) as [d|] eqn:H.
  - constructor; [eapply hexval_char; eauto|]. destruct (xd =? 4)%nat; [discriminate|]. eapply IH; [exact T2|exact P].
  - destruct (Z.eqb_spec c 58) as [->|N].
    + constructor; [left; apply c58|]. destruct (xd =? 0)%nat.
      * destruct cp; [discriminate|]. eapply IH; [exact T3|exact P].
      * destruct t as [|y t]; [discriminate|]. destruct (16 <? length out + 2)%nat; [discriminate|]. eapply IH; [exact T3|exact P].
    + destruct ((c =? 46) && (length out + 4 <=? 16)%nat); [|discriminate].
      destruct (isc_pton4 tok) as [q|] eqn:Q; [|discriminate]. apply pton4_sound in Q as [_ F]. destruct T as (u & ->).
      apply Forall_app in F as [_ F]. eapply Forall_impl; [|exact F]. intros x [D|D]; left; unfold ip6_char; auto.
Qed.

Lemma p6_colon : forall s tok xd val a, ~ In 58 s -> p6 s tok [] None xd val = Some a -> False.
Proof.
  induction s as [|c t IH]; intros tok xd val a N P; cbn [p6] in P.
  - unfold p6_end in P. destruct (0 <? xd)%nat; cbn in P; discriminate.
  - destruct (hexval c) as [d|].
    + destruct (xd =? 4)%nat; [discriminate|]. eapply IH; [|exact P]. intros I. apply N. right. exact I.
    + destruct (Z.eqb_spec c 58); [apply N; left; auto|]. cbn [length] in P.
      destruct ((c =? 46) && (0 + 4 <=? 16)%nat); [|discriminate]. destruct (isc_pton4 tok) as [q|] eqn:Q; [|discriminate].
      apply pton4_sound in Q as [[L _] _]. unfold p6_end in P. cbn [Nat.ltb Nat.leb app] in P. rewrite L in P. discriminate.
Qed.

Theorem isc_ok : inet_ok isc.
Proof.
  constructor; cbn [isc pton4 pton6 ntop4 ntop6].
  - intros s a E. apply pton4_sound in E as [A _]. exact A.
  - intros s a E. unfold isc_pton6 in E.
    assert (forall t, p6 t t [] None 0 0 = Some a -> addr6 a) as G.
    { intros t P. eapply p6_addr; eauto; try constructor; try (cbn; lia). discriminate. }
    destruct s as [|c s]; [eapply G; eauto|].
    assert (p6 (c :: s) (c :: s) [] None 0 0 = Some a \/ p6 s s [] None 0 0 = Some a) as [P|P]; [|eapply G; eauto|eapply G; eauto].
    destruct c as [|p|p]; auto. do 6 (destruct p as [p|p|]; auto). destruct s as [|c' s]; [discriminate|].
    destruct c' as [|q|q]; try discriminate. do 6 (destruct q as [q|q|]; try discriminate). auto.
  - intros s a E. apply pton4_sound in E as [_ F]. exact F.
  - intros s a E. unfold isc_pton6 in E.
    assert (G : forall t, p6 t t [] None 0 0 = Some a -> Forall ip6_in t) by (intros t; apply p6_chars; exists []; reflexivity).
    destruct s as [|c s]; [constructor|].
    assert (p6 (c :: s) (c :: s) [] None 0 0 = Some a \/ (c = 58 /\ p6 s s [] None 0 0 = Some a)) as [P|[-> P]]; [|auto|constructor; [left; apply c58|auto]].
    destruct c as [|p|p]; auto. do 6 (destruct p as [p|p|]; auto). destruct s as [|c' s]; [discriminate|].
    destruct c' as [|q|q]; try discriminate. do 6 (destruct q as [q|q|]; try discriminate). auto.
  - intros s a E. unfold isc_pton6 in E. destruct (in_dec Z.eq_dec 58 s) as [I|N]; auto. exfalso.
    destruct s as [|c s]; [eapply p6_colon; eauto|].
    assert (p6 (c :: s) (c :: s) [] None 0 0 = Some a \/ c = 58) as [P|P]; [|eapply p6_colon; eauto|apply N; left; auto].
    destruct c as [|p|p]; auto. do 6 (destruct p as [p|p|]; auto).
  - intros a A. destruct (isc4 a A) as (? & ? & _). auto.
  - exact isc6.
Qed.
