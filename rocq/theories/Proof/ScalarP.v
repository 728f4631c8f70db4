(** Lemmas about the scalar multiplication wrappers. *)
From Verif.Model Require Import Base Sys Scalar.
From Verif.Spec Require Import Curve.
From Verif.Proof Require Import Tac SysP CallsP.

Lemma filled_len : forall n x, len (filled n x) = Z.of_nat n.
Proof. intros. unfold filled, len. rewrite map_length, firstn_length, app_length, repeat_length. lia. Qed.
Lemma filled_bytes : forall n x, bytes (filled n x).
Proof. intros. unfold bytes, filled. apply Forall_forall. intros z I. apply in_map_iff in I as (y & <- & _). unfold is_byte, u8. apply Z.mod_pos_bound. lia. Qed.

Lemma byte_all : forall P : Z -> bool, forallb P (map Z.of_nat (seq 0 256)) = true -> forall b, is_byte b -> P b = true.
Proof.
  intros P A b B. rewrite forallb_forall in A. apply A. unfold is_byte in B. apply in_map_iff. exists (Z.to_nat b).
  split; [lia|]. apply in_seq. lia.
Qed.
Lemma clamp_byte : forall b, is_byte b -> 64 <= Z.lor (Z.land b 127) 64 < 128.
Proof.
  intros b B. pose proof (byte_all (fun b => (64 <=? Z.lor (Z.land b 127) 64) && (Z.lor (Z.land b 127) 64 <? 128)) ltac:(vm_compute; reflexivity) b B) as X. cbn beta in X. lia.
Qed.
Lemma clamp_byte2 : forall b, is_byte b -> 128 <= Z.lor b 128 < 256.
Proof.
  intros b B. pose proof (byte_all (fun b => (128 <=? Z.lor b 128) && (Z.lor b 128 <? 256)) ltac:(vm_compute; reflexivity) b B) as X. cbn beta in X. lia.
Qed.
Lemma clamp_idem : forall b, is_byte b -> Z.lor (Z.land (Z.lor (Z.land b 127) 64) 127) 64 = Z.lor (Z.land b 127) 64.
Proof.
  intros b B. pose proof (byte_all (fun b => Z.lor (Z.land (Z.lor (Z.land b 127) 64) 127) 64 =? Z.lor (Z.land b 127) 64) ltac:(vm_compute; reflexivity) b B) as X. cbn beta in X. lia.
Qed.
Lemma clamp_idem2 : forall b, is_byte b -> Z.lor (Z.lor b 128) 128 = Z.lor b 128.
Proof. intros. rewrite <- Z.lor_assoc. reflexivity. Qed.

Lemma clamp64_eq : forall b t, clamp64 (b :: t) = Ok (Z.lor (Z.land b 127) 64 :: t).
Proof. reflexivity. Qed.
Lemma clamp128_eq : forall a b t, clamp128 (a :: b :: t) = Ok (0 :: Z.lor b 128 :: t).
Proof. reflexivity. Qed.

Lemma beval_bound : forall l, bytes l -> 0 <= beval l < 256 ^ len l.
Proof.
  unfold bytes. induction l as [|b l IH]; intros B; cbn [beval]; [vm_compute; split; congruence|].
  apply Forall_cons_iff in B as [Bb B]. specialize (IH B). unfold is_byte in Bb.
  replace (len (b :: l)) with (1 + len l) by (unfold len; cbn [length]; lia). rewrite (Z.pow_add_r 256 1) by (pose proof (len_nonneg _ l); lia). change (256 ^ 1) with 256. nia.
Qed.
(** Facts about numbers with a given leading byte. *)
Lemma beval_lead : forall b l lo hi, bytes l -> lo <= b -> b < hi -> lo * 256 ^ len l <= beval (b :: l) < hi * 256 ^ len l.
Proof. intros b l lo hi B L H. cbn [beval]. pose proof (beval_bound l B). nia. Qed.

Lemma bytes_firstn : forall n l, bytes l -> bytes (firstn n l).
Proof. unfold bytes. induction n as [|n IH]; intros [|b l] B; cbn [firstn]; auto. apply Forall_cons_iff in B as [Bb B]. auto. Qed.

Lemma valid256 : forall b t, bytes (b :: t) -> length t = 65%nat -> valid_scalar 23 (firstn 32 (Z.lor (Z.land b 127) 64 :: t)).
Proof.
  intros b t B L. apply Forall_cons_iff in B as [Bb B]. change (firstn 32 (?x :: t)) with (x :: firstn 31 t).
  assert (LF : len (firstn 31 t) = 31) by (unfold len; rewrite firstn_length; lia). split.
  - do 2 eexists. rewrite len_cons, LF. reflexivity.
  - intros n E. cbn [order] in E. pose proof (beval_lead _ (firstn 31 t) 64 128 (bytes_firstn 31 t B) (proj1 (clamp_byte b Bb)) (proj2 (clamp_byte b Bb))) as X.
    rewrite LF in X. change (64 * 256 ^ 31) with (ltac:(let v := eval vm_compute in (64 * 256 ^ 31) in exact v)) in X.
    change (128 * 256 ^ 31) with (ltac:(let v := eval vm_compute in (128 * 256 ^ 31) in exact v)) in X. injection E as <-. lia.
Qed.
Lemma valid384 : forall b t, bytes (b :: t) -> length t = 65%nat -> valid_scalar 24 (firstn 48 (Z.lor (Z.land b 127) 64 :: t)).
Proof.
  intros b t B L. apply Forall_cons_iff in B as [Bb B]. change (firstn 48 (?x :: t)) with (x :: firstn 47 t).
  assert (LF : len (firstn 47 t) = 47) by (unfold len; rewrite firstn_length; lia). split.
  - do 2 eexists. rewrite len_cons, LF. reflexivity.
  - intros n E. cbn [order] in E. pose proof (beval_lead _ (firstn 47 t) 64 128 (bytes_firstn 47 t B) (proj1 (clamp_byte b Bb)) (proj2 (clamp_byte b Bb))) as X.
    rewrite LF in X. change (64 * 256 ^ 47) with (ltac:(let v := eval vm_compute in (64 * 256 ^ 47) in exact v)) in X.
    change (128 * 256 ^ 47) with (ltac:(let v := eval vm_compute in (128 * 256 ^ 47) in exact v)) in X. injection E as <-. lia.
Qed.
Lemma valid521 : forall b t, bytes (b :: t) -> length t = 64%nat -> valid_scalar 25 (firstn 66 (0 :: Z.lor b 128 :: t)).
Proof.
  intros b t B L. apply Forall_cons_iff in B as [Bb B]. rewrite firstn_all2 by (cbn [length]; lia).
  assert (LF : len t = 64) by (unfold len; lia). split.
  - do 2 eexists. rewrite !len_cons, LF. reflexivity.
  - intros n E. cbn [order] in E. pose proof (beval_lead _ t 128 256 B (proj1 (clamp_byte2 b Bb)) (proj2 (clamp_byte2 b Bb))) as X.
    change (beval (0 :: Z.lor b 128 :: t)) with (beval (Z.lor b 128 :: t)).
    rewrite LF in X. change (128 * 256 ^ 64) with (ltac:(let v := eval vm_compute in (128 * 256 ^ 64) in exact v)) in X.
    change (256 * 256 ^ 64) with (ltac:(let v := eval vm_compute in (256 * 256 ^ 64) in exact v)) in X. injection E as <-. lia.
Qed.
Lemma valid25519 : forall sk : list Z, length sk = 66%nat -> valid_scalar 29 (firstn 32 sk).
Proof. intros sk L. split; [|discriminate]. do 2 eexists. unfold len. rewrite firstn_length. replace (Nat.min 32 (length sk)) with 32%nat by lia. reflexivity. Qed.

(** The scalar actually used for a curve, by content of the random buffer. *)
Definition clamped (curve : Z) (sk : list Z) : list Z :=
  match sk with
  | a :: b :: t => if (curve =? 23) || (curve =? 24) then Z.lor (Z.land a 127) 64 :: b :: t
                   else if curve =? 25 then 0 :: Z.lor b 128 :: t else sk
  | _ => sk
  end.
Lemma clamped_idem : forall curve sk, bytes sk -> clamped curve (clamped curve sk) = clamped curve sk.
Proof.
  intros curve [|a [|b t]] B; auto. apply Forall_cons_iff in B as [Ba B]. apply Forall_cons_iff in B as [Bb B].
  cbn [clamped]. destruct ((curve =? 23) || (curve =? 24)) eqn:E.
  - cbn [clamped]. rewrite E, clamp_idem by auto. reflexivity.
  - destruct (curve =? 25) eqn:E2; cbn [clamped]; rewrite E, E2; auto. rewrite clamp_idem2 by auto. reflexivity.
Qed.
Lemma clamped_len : forall curve sk, length (clamped curve sk) = length sk.
Proof. intros curve [|a [|b t]]; auto. cbn [clamped]. destruct (_ || _); auto. destruct (_ =? _); auto. Qed.

(** What one call does. *)
Lemma base_ok : forall curve sk tr o, length sk = 66%nat -> bytes sk -> runs (tls_crypto_scalarmult_base curve sk) tr o ->
  match sizes curve with
  | None => tr = [] /\ o = Fin (None, sk)
  | Some (n, p, _) =>
      (tr = [] /\ o = Cut) \/
      exists a, tr = [(Other (bs "mulgen") [curve] (firstn (Z.to_nat n) (clamped curve sk)), a)] /\
        valid_scalar curve (firstn (Z.to_nat n) (clamped curve sk)) /\
        o = Fin (if ret a =? p then Some (filled (Z.to_nat p) (data a)) else None, clamped curve sk)
  end.
Proof.
  intros curve sk tr o L B R. destruct sk as [|a [|b t]]; try discriminate L. cbn [length] in L.
  assert (G : forall n want s, length s = 66%nat -> (n <= 66)%nat -> runs (mulgen curve n want s) tr o -> valid_scalar curve (firstn n s) ->
     (tr = [] /\ o = Cut) \/ exists a, tr = [(Other (bs "mulgen") [curve] (firstn n s), a)] /\ valid_scalar curve (firstn n s) /\
       o = Fin (if ret a =? Z.of_nat want then Some (filled want (data a)) else None, s)).
  { intros n want s LS N RR V. unfold mulgen in RR. replace (len s <? Z.of_nat n) with false in RR by (unfold len; lia).
    destruct RR as [[-> ->]|(x & t' & -> & -> & ->)]; [left; auto|right]. eauto. }
  unfold tls_crypto_scalarmult_base, X25519, SECP256R1, SECP384R1, SECP521R1 in R.
  destruct (Z.eqb_spec curve 29) as [->|N1]. { apply G in R; [exact R|cbn; lia|lia|apply valid25519; cbn; lia]. }
  destruct (Z.eqb_spec curve 23) as [->|N2].
  { rewrite clamp64_eq in R. cbn [lift pbind] in R. apply G in R; [exact R|cbn; lia|lia|apply valid256; auto; cbn; lia]. }
  destruct (Z.eqb_spec curve 24) as [->|N3].
  { rewrite clamp64_eq in R. cbn [lift pbind] in R. apply G in R; [exact R|cbn; lia|lia|apply valid384; auto; cbn; lia]. }
  destruct (Z.eqb_spec curve 25) as [->|N4].
  { rewrite clamp128_eq in R. cbn [lift pbind] in R. apply G in R; [exact R|cbn; lia|lia|].
    apply Forall_cons_iff in B as [Ba B]. apply valid521; auto; lia. }
  destruct R as [-> ->].
  replace (sizes curve) with (@None (Z * Z * Z)); auto.
  unfold sizes. destruct curve as [|p|p]; auto. repeat (destruct p as [p|p|]; try reflexivity; try lia).
Qed.
Lemma mul_ok : forall curve p sk tr o n pl x, sizes curve = Some (n, pl, x) -> length sk = 66%nat -> len p = pl ->
  runs (tls_crypto_scalarmult curve p sk) tr o ->
  (tr = [] /\ o = Cut) \/
  exists a, tr = [(Other (bs "mul") (curve :: firstn (Z.to_nat n) (clamped curve sk)) p, a)] /\
    o = Fin (if ret a =? 0 then None else Some (filled (Z.to_nat x) (if curve =? 29 then data a else skipn 1 (filled (Z.to_nat pl) (data a))))).
Proof.
  intros curve p sk tr o n pl x S L P R. destruct sk as [|a [|b t]]; try discriminate L. cbn [length] in L.
  assert (G : forall m k s (K : bool * list Z -> prog (option (list Z))), runs (y <~ mul curve k m p s ;; K y) tr o -> forall h : list Z -> list Z, length s = 66%nat -> (m <= 66)%nat -> Z.of_nat k = len p ->
     (forall ok y, length y = k -> K (ok, y) = Ret (if ok : bool then Some (h y) else None)) ->
     (tr = [] /\ o = Cut) \/ exists a, tr = [(Other (bs "mul") (curve :: firstn m s) p, a)] /\ o = Fin (if ret a =? 0 then None else Some (h (filled k (data a))))).
  { intros m k s K RR h LS M LP HK. unfold mul in RR. replace ((len p <? Z.of_nat k) || (len s <? Z.of_nat m)) with false in RR by (unfold len in *; lia).
    assert (EP : firstn k p = p) by (apply firstn_all2; unfold len in *; lia). assert (ES : skipn k p = []) by (apply skipn_all2; unfold len in *; lia).
    rewrite EP, ES in RR. destruct RR as [[-> ->]|(y & t' & -> & RR)]; [left; auto|right]. cbn [pbind] in RR. rewrite app_nil_r, HK in RR.
    2:{ pose proof (filled_len k (data y)). unfold len in *. lia. }
    destruct RR as [-> ->]. exists y. split; auto. destruct (ret y =? 0); reflexivity. }
  assert (F0 : forall k l, len l = Z.of_nat k -> bytes l -> l = filled k l).
  { intros k l E B. unfold filled. unfold len in E. rewrite firstn_app. replace (k - length l)%nat with 0%nat by lia. cbn [firstn]. rewrite app_nil_r, firstn_all2 by lia.
    clear E. induction l as [|b' l IH]; auto. apply Forall_cons_iff in B as [Bb B]. cbn [map]. f_equal; auto. symmetry. apply Z.mod_small. exact Bb. }
  assert (F1 : forall pl k d, (Datatypes.S k <= pl)%nat -> firstn k (skipn 1 (filled pl d)) = filled k (skipn 1 (filled pl d))).
  { intros pl0 k d M. pose proof (filled_len pl0 d) as FL. pose proof (filled_bytes pl0 d) as FB. set (l := filled pl0 d) in *.
    destruct l as [|l0 l]; [unfold len in FL; cbn in FL; lia|]. cbn [skipn]. apply Forall_cons_iff in FB as [_ FB].
    rewrite (F0 k (firstn k l)) at 1. 2:{ unfold len in *. rewrite firstn_length. cbn [length] in FL. lia. } 2:{ apply bytes_firstn; auto. }
    unfold filled. f_equal. rewrite !firstn_app, firstn_length. cbn [length] in FL. unfold len in FL. cbn [length] in FL.
    replace (k - Nat.min k (length l))%nat with 0%nat by lia. replace (k - length l)%nat with 0%nat by lia. rewrite !firstn_O, !app_nil_r, firstn_firstn. f_equal. lia. }
  unfold tls_crypto_scalarmult, X25519, SECP256R1, SECP384R1, SECP521R1 in R.
  destruct (Z.eqb_spec curve 29) as [->|N1].
  { injection S as <- <- <-. destruct (G 32%nat 32%nat (a :: b :: t) _ R (fun y => firstn 32 y) ltac:(cbn; lia) ltac:(lia) ltac:(lia)) as [?|(y & -> & ->)]; [reflexivity|left; auto|right].
    exists y. split; auto. destruct (ret y =? 0); auto. do 2 f_equal. change (29 =? 29) with true. cbn iota.
    change (Z.to_nat 32) with 32%nat. apply firstn_all2. pose proof (filled_len 32 (data y)). unfold len in *. lia. }
  destruct (Z.eqb_spec curve 23) as [->|N2].
  { injection S as <- <- <-. rewrite clamp64_eq in R. cbn [lift pbind] in R.
    destruct (G 32%nat 65%nat (Z.lor (Z.land a 127) 64 :: b :: t) _ R (fun y => firstn 32 (skipn 1 y)) ltac:(cbn; lia) ltac:(lia) ltac:(lia)) as [?|(y & -> & ->)]; [|left; auto|right].
    - intros ok y LY. cbn beta iota. unfold dropfirst. replace (len y <? Z.of_nat 32 + 1) with false by (unfold len; lia). destruct ok; reflexivity.
    - exists y. split; auto. destruct (ret y =? 0); auto. do 2 f_equal. apply F1. lia. }
  destruct (Z.eqb_spec curve 24) as [->|N3].
  { injection S as <- <- <-. rewrite clamp64_eq in R. cbn [lift pbind] in R.
    destruct (G 48%nat 97%nat (Z.lor (Z.land a 127) 64 :: b :: t) _ R (fun y => firstn 48 (skipn 1 y)) ltac:(cbn; lia) ltac:(lia) ltac:(lia)) as [?|(y & -> & ->)]; [|left; auto|right].
    - intros ok y LY. cbn beta iota. unfold dropfirst. replace (len y <? Z.of_nat 48 + 1) with false by (unfold len; lia). destruct ok; reflexivity.
    - exists y. split; auto. destruct (ret y =? 0); auto. do 2 f_equal. apply F1. lia. }
  destruct (Z.eqb_spec curve 25) as [->|N4].
  { injection S as <- <- <-. rewrite clamp128_eq in R. cbn [lift pbind] in R.
    destruct (G 66%nat 133%nat (0 :: Z.lor b 128 :: t) _ R (fun y => firstn 66 (skipn 1 y)) ltac:(cbn; lia) ltac:(lia) ltac:(lia)) as [?|(y & -> & ->)]; [|left; auto|right].
    - intros ok y LY. cbn beta iota. unfold dropfirst. replace (len y <? Z.of_nat 66 + 1) with false by (unfold len; lia). destruct ok; reflexivity.
    - exists y. split; auto. destruct (ret y =? 0); auto. do 2 f_equal. apply F1. lia. }
  exfalso. revert S N1 N2 N3 N4. clear. unfold sizes. intros S N1 N2 N3 N4. destruct curve as [|p|p]; try discriminate. repeat (destruct p as [p|p|]; try discriminate S; try lia).
Qed.
