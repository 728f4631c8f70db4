(** Lemmas about alloc.c. *)
From Verif.Model Require Import Base Sys Heap.
From Verif.Spec Require Import HeapSpec.
From Verif.Proof Require Import Tac SysP.

Definition arena (space : Z) : Z * Z := (space, STATICSPACE).

Lemma apartb_ok : forall x y, apartb x y = true <-> apart x y.
Proof. intros. unfold apartb, apart. rewrite orb_true_iff, !Z.leb_le. reflexivity. Qed.
Lemma apart_sym : forall x y, apart x y -> apart y x.
Proof. unfold apart. intros. tauto. Qed.

Lemma heap_app : forall ar a b L, heap ar L (a ++ b) = match heap ar L a with Some L1 => heap ar L1 b | None => None end.
Proof. induction a as [|e a IH]; intros b L; cbn [app heap]; auto. destruct (heap1 ar L e); auto. Qed.

Lemma aligned_ok : forall n, 0 <= n <= two63 - 32 -> aligned_len n = backing n /\ 32 <= backing n /\ n <= backing n <= two63 /\ backing n mod 32 = 0 /\ backing n mod 8 = 0.
Proof.
  intros n N. unfold two63 in *. unfold aligned_len, backing, ALIGNMENT.
  pose proof (Z.mul_div_le (Z.max n 1 + 31) 32 ltac:(lia)) as A. pose proof (Z.mul_succ_div_gt (Z.max n 1 + 31) 32 ltac:(lia)) as B.
  assert (P : 0 < (Z.max n 1 + 31) / 32) by (apply Z.div_str_pos; lia).
  assert (M : (32 * ((Z.max n 1 + 31) / 32)) mod 32 = 0) by (rewrite Z.mul_comm; apply Z.mod_mul; lia).
  assert (M8 : (32 * ((Z.max n 1 + 31) / 32)) mod 8 = 0) by (replace (32 * ((Z.max n 1 + 31) / 32)) with ((4 * ((Z.max n 1 + 31) / 32)) * 8) by lia; apply Z.mod_mul; lia).
  split; [|repeat split; auto; lia].
  destruct (Z.leb_spec n 0) as [L|L].
  - replace n with 0 by lia. reflexivity.
  - rewrite Z.max_l by lia. rewrite Z.max_l in A, B, P by lia. rewrite (u64_id n) by (unfold two64; lia). rewrite (u64_id (n + 32)) by (unfold two64; lia).
    replace (n + 32 - 1) with (n + 31) by lia. rewrite (u64_id (n + 31)) by (unfold two64; lia). rewrite u64_id by (unfold two64; lia). lia.
Qed.

Lemma cleanup_in : forall m p n q, n mod 8 = 0 -> p <= q < p + n -> cleanup m p n q = 0.
Proof.
  intros m p n q M Q. unfold cleanup. pose proof (Z.div_mod n 8 ltac:(lia)). replace (p <=? q) with true by lia. replace (q <? p + 8 * (n / 8)) with true by lia. reflexivity.
Qed.
Lemma cleanup_out : forall m p n q, n mod 8 = 0 -> q < p \/ p + n <= q -> cleanup m p n q = m q.
Proof.
  intros m p n q M Q. unfold cleanup. pose proof (Z.div_mod n 8 ltac:(lia)).
  destruct (Z.leb_spec p q); destruct (Z.ltb_spec q (p + 8 * (n / 8))); cbn [andb]; auto; lia.
Qed.
Lemma setmem_out : forall m p d q, q < p \/ p + len d <= q -> setmem m p d q = m q.
Proof. intros m p d q Q. unfold setmem. destruct (Z.leb_spec p q); destruct (Z.ltb_spec q (p + len d)); cbn [andb]; auto; lia. Qed.
Lemma getmem_zero : forall m p n, 0 <= n -> (forall q, p <= q < p + n -> m q = 0) -> getmem m p n = repeat 0 (Z.to_nat n).
Proof.
  intros m p n N H. unfold getmem. assert (G : forall k s, (s + k <= Z.to_nat n)%nat -> map (fun i => m (p + Z.of_nat i)) (seq s k) = repeat 0 k).
  { induction k as [|k IH]; intros s S; cbn [seq map repeat]; auto. rewrite H by lia. f_equal. apply IH. lia. }
  apply G. lia.
Qed.

(** ** What the tracking list stands for *)

Definition blk (x : Z * Z * Z) : list (Z * Z) := let '(nd, p, n) := x in [(nd, 24); (p, backing n)].
Definition blocks (l : list (Z * Z * Z)) : list (Z * Z) := flat_map blk l.
Fixpoint total (l : list (Z * Z * Z)) : Z := match l with [] => 0 | (_, _, n) :: l' => n + total l' end.
Definition sized (l : list (Z * Z * Z)) : Prop := Forall (fun '(_, _, n) => 0 <= n <= two63 - 32) l.
(** blocks that may be in use at the same time *)
Inductive sound (ar : Z * Z) : list (Z * Z) -> Prop :=
| sound_nil : sound ar []
| sound_cons : forall x L, 0 < fst x -> fst x mod 16 = 0 -> 0 < snd x -> apart x ar -> Forall (apart x) L -> sound ar L -> sound ar (x :: L).

Lemma sound_app : forall ar a b, sound ar (a ++ b) -> sound ar a /\ sound ar b /\ Forall (fun x => Forall (apart x) b) a.
Proof.
  induction a as [|x a IH]; intros b S; cbn [app] in S; [split; [constructor|auto]|].
  inversion S as [|? ? X1 X2 X3 X4 X5 X6]; subst. apply Forall_app in X5 as [X5 X7]. apply IH in X6 as (A & B & C). split; [constructor; auto|]. split; auto.
Qed.
Lemma sound_in : forall ar L x, sound ar L -> In x L -> 0 < fst x /\ fst x mod 16 = 0 /\ 0 < snd x /\ apart x ar.
Proof. induction 1; intros []; subst; auto. Qed.
Lemma sound_neq : forall ar L x p, sound ar (x :: L) -> In p L -> fst x <> fst p.
Proof.
  intros ar L x p S I. inversion S as [|? ? X1 X2 X3 X4 X5 X6]; subst. rewrite Forall_forall in X5. specialize (X5 p I). apply sound_in with (x := p) in X6; auto.
  unfold apart in X5. lia.
Qed.
Lemma filter_all : forall ar x L, sound ar (x :: L) -> filter (fun b => negb (fst b =? fst x)) L = L.
Proof.
  intros ar x L S. assert (H : forall p, In p L -> fst x <> fst p) by (intros; eapply sound_neq; eauto). clear S.
  induction L as [|y L IH]; auto. cbn [filter]. pose proof (H y (or_introl eq_refl)). replace (fst y =? fst x) with false by lia. cbn [negb]. f_equal. apply IH. intros; apply H; right; auto.
Qed.
(** freeing a block removes exactly this block *)
Lemma filter_one : forall ar a x b, sound ar (a ++ x :: b) -> filter (fun y => negb (fst y =? fst x)) (a ++ x :: b) = a ++ b.
Proof.
  induction a as [|y a IH]; intros x b S; cbn [app filter].
  - rewrite Z.eqb_refl. cbn [negb]. apply (filter_all ar). exact S.
  - cbn [app] in S. assert (N : fst y <> fst x) by (eapply sound_neq; [exact S|apply in_or_app; right; left; auto]).
    replace (fst y =? fst x) with false by lia. cbn [negb]. f_equal. inversion S as [|? ? X1 X2 X3 X4 X5 X6]; subst. apply IH. auto.
Qed.
Lemma sound_remove : forall ar a x b, sound ar (a ++ x :: b) -> sound ar (a ++ b).
Proof.
  induction a as [|y a IH]; intros x b S; cbn [app] in *; inversion S as [|? ? X1 X2 X3 X4 X5 X6]; subst; auto.
  constructor; auto; [|eapply IH; eauto]. apply Forall_app in X5 as [X5 X7]. inversion X7; subst. apply Forall_app. auto.
Qed.

Lemma remove_split : forall l p x r, alloc_remove l p = Some (x, r) -> exists a nd n b, x = (nd, p, n) /\ l = a ++ (nd, p, n) :: b /\ r = a ++ b.
Proof.
  induction l as [|[[nd q] n] l IH]; intros p x r E; cbn [alloc_remove] in E; [discriminate|].
  destruct (Z.eqb_spec q p) as [->|D].
  - injection E as <- <-. exists [], nd, n, l. auto.
  - destruct (alloc_remove l p) as [[y s]|] eqn:E1; [|discriminate]. injection E as <- <-.
    apply IH in E1 as (a & nd1 & n1 & b & -> & -> & ->). exists ((nd, q, n) :: a), nd1, n1, b. auto.
Qed.
Lemma remove_in : forall l nd p n, In (nd, p, n) l -> exists x r, alloc_remove l p = Some (x, r).
Proof.
  induction l as [|[[nd q] n] l IH]; intros nd1 p n1 I; [destruct I|]. cbn [alloc_remove]. destruct (Z.eqb_spec q p); eauto.
  destruct I as [I|I]; [congruence|]. apply IH in I as (x & r & ->). eauto.
Qed.

(** every free is of a block in use, and wiped if it is not a tracking node *)
Fixpoint frees_ok (ar : Z * Z) (L : list (Z * Z)) (tr : trace) : Prop :=
  match tr with
  | [] => True
  | e :: t =>
    (forall p d, fst e = Other (bs "free") [p] d -> exists n, In (p, n) L /\ (n = 24 \/ d = repeat 0 (Z.to_nat n))) /\
    match heap1 ar L e with Some L1 => frees_ok ar L1 t | None => True end
  end.
Lemma frees_app : forall ar a b L, frees_ok ar L a -> (forall L1, heap ar L a = Some L1 -> frees_ok ar L1 b) -> frees_ok ar L (a ++ b).
Proof.
  induction a as [|e a IH]; intros b L F H; cbn [app].
  - apply H. reflexivity.
  - cbn [frees_ok] in *. destruct F as [F1 F2]. split; auto. destruct (heap1 ar L e) as [L1|] eqn:E; auto. apply IH; auto. intros L2 E2. apply H. cbn [heap]. rewrite E. auto.
Qed.
Lemma frees_split : forall ar t1 L p d a t2, frees_ok ar L (t1 ++ (Other (bs "free") [p] d, a) :: t2) -> forall L1, heap ar L t1 = Some L1 ->
  exists n, In (p, n) L1 /\ (n = 24 \/ d = repeat 0 (Z.to_nat n)).
Proof.
  induction t1 as [|e t1 IH]; intros L p d a t2 F L1 H; cbn [app frees_ok heap] in *.
  - injection H as <-. destruct F as [F _]. apply F. reflexivity.
  - destruct F as [_ F]. destruct (heap1 ar L e) as [L2|]; [|discriminate]. eapply IH; eauto.
Qed.

Lemma heap1_malloc : forall ar L n d a, heap1 ar L (Other (bs "malloc") [n] d, a) =
  if ret a =? 0 then Some L
  else if (0 <? ret a) && (ret a + n <? two64) && (ret a mod 16 =? 0) && apartb (ret a, n) ar && forallb (apartb (ret a, n)) L
       then Some ((ret a, n) :: L) else None.
Proof. reflexivity. Qed.
Lemma heap1_free : forall ar L p d a, heap1 ar L (Other (bs "free") [p] d, a) = Some (filter (fun b => negb (fst b =? p)) L).
Proof. reflexivity. Qed.
Lemma malloc_ok : forall ar L n d a L1, sound ar L -> 0 < n -> ret a <> 0 -> heap1 ar L (Other (bs "malloc") [n] d, a) = Some L1 ->
  L1 = (ret a, n) :: L /\ sound ar L1.
Proof.
  intros ar L n d a L1 S N R H. rewrite heap1_malloc in H. destruct (Z.eqb_spec (ret a) 0); [lia|].
  destruct ((0 <? ret a) && (ret a + n <? two64) && (ret a mod 16 =? 0) && apartb (ret a, n) ar && forallb (apartb (ret a, n)) L) eqn:E; [|discriminate].
  injection H as <-. split; auto. apply andb_prop in E as [E E5]. apply andb_prop in E as [E E4]. apply andb_prop in E as [E E3]. apply andb_prop in E as [E1 E2].
  constructor; cbn [fst snd]; auto; try lia. { apply apartb_ok; auto. }
  apply Forall_forall. intros x X. rewrite forallb_forall in E5. apply apartb_ok. auto.
Qed.

(** ** The invariant *)

Record inv (space : Z) (L : list (Z * Z)) (s : astate) (live dead : list (Z * Z)) : Prop := {
  i_avail : 0 <= avail s <= STATICSPACE;
  i_mod : avail s mod 32 = 0;
  i_zero : forall q, space <= q < space + avail s -> amem s q = 0;
  i_blocks : L = blocks (ahead s);
  i_sound : sound (arena space) L;
  i_sized : sized (ahead s);
  i_total : allocated s = total (ahead s);
  i_alloc : 0 <= allocated s < two63;
  i_limit : -1 <= alimit s < two63;
  i_live : Forall (fun '(p, n) => 0 <= n <= two63 - 32 /\
      ((space + avail s <= p /\ p + backing n <= space + STATICSPACE) \/ exists nd, In (nd, p, n) (ahead s))) live;
  i_same : map (fun '(_, p, n) => (p, n)) (ahead s) = filter (fun x => negb (is_static space (fst x))) live;
  i_apart : ForallOrdPairs (fun x y => apart (fst x, backing (snd x)) (fst y, backing (snd y))) live;
  i_dead : Forall (fun '(p, n) => is_static space p = true -> space + avail s <= p) dead
}.

Lemma total_app : forall a b, total (a ++ b) = total a + total b.
Proof. induction a as [|[[? ?] n] a IH]; intros b; cbn [app total]; [lia|rewrite IH; lia]. Qed.
Lemma blocks_app : forall a b, blocks (a ++ b) = blocks a ++ blocks b.
Proof. intros. apply flat_map_app. Qed.
Lemma total_nonneg : forall l, sized l -> 0 <= total l.
Proof. induction 1 as [|[[? ?] n] l H F IH]; cbn [total]; lia. Qed.
Lemma blocks_in : forall l nd p n, In (nd, p, n) l -> In (p, backing n) (blocks l) /\ In (nd, 24) (blocks l).
Proof. intros l nd p n I. split; apply in_flat_map; exists (nd, p, n); (split; [auto|cbn [blk In]; auto]). Qed.

Definition okop (o : aop) : Prop := match o with OpAlloc n => in_s64 n | OpLimit v => in_s64 v | _ => True end.

(** alloc *)
Definition got_block (space n : Z) (s s' : astate) (p : Z) (L' : list (Z * Z)) : Prop :=
  0 <= n <= two63 - 32 /\ (forall q, p <= q < p + backing n -> amem s' q = 0) /\
  ( (p = space + avail s' /\ (avail s' = avail s - backing n /\ backing n <= avail s) /\ allocated s' = allocated s /\ ahead s' = ahead s)
  \/ (avail s < backing n /\ avail s' = avail s /\ (exists nd, ahead s' = (nd, p, n) :: ahead s) /\ allocated s' = allocated s + n /\ allocated s' <= alimit s') ).

Lemma limit_get_ok : forall s tr o, -1 <= alimit s < two63 -> runs (alloc_limit_get s) tr o ->
  o <> Wrong /\ (forall ar L, heap ar L tr = Some L /\ frees_ok ar L tr) /\
  forall v s1, o = Fin (v, s1) -> 0 <= v < two63 /\ v = alimit s1 /\ amem s1 = amem s /\ avail s1 = avail s /\ allocated s1 = allocated s /\ ahead s1 = ahead s /\
    (alimit s <> -1 -> s1 = s).
Proof.
  intros s tr o I R. unfold alloc_limit_get in R. destruct (Z.eqb_spec (alimit s) (-1)) as [E|E]; cbn [negb] in R.
  - assert (LW : forall a v, 0 <= v < two63 -> 0 <= lower a v < two63).
    { intros a v V. unfold lower. destruct (ret a =? -1); auto. destruct (Z.ltb_spec 0 (tos64 (u64 (hd 0 (data a))))); destruct (Z.ltb_spec (tos64 (u64 (hd 0 (data a)))) v); cbn [andb]; lia. }
    destruct R as [[-> ->]|(a & t & -> & R)]; [split; [discriminate|]; split; [split; [reflexivity|exact Logic.I]|discriminate]|]. cbn [pbind] in R.
    destruct R as [[-> ->]|(b & t1 & -> & R)].
    { split; [discriminate|]. split; [|discriminate]. intros ar L. split; [reflexivity|]. split; [intros p d Q; discriminate|exact Logic.I]. }
    destruct R as [-> ->]. split; [discriminate|]. split.
    { intros ar L. split; [reflexivity|]. split; [intros p d Q; discriminate|]. split; [intros p d Q; discriminate|exact Logic.I]. }
    intros v s1 Q. injection Q as <- <-. cbn [alimit amem avail allocated ahead]. split; [apply LW, LW; unfold two63; lia|]. repeat split; auto. intros; contradiction.
  - destruct R as [-> ->]. split; [discriminate|]. split; [split; [reflexivity|exact Logic.I]|]. intros v s1 Q. injection Q as <- <-. repeat split; auto; lia.
Qed.

Definition kept (ar : Z * Z) (L : list (Z * Z)) (s s' : astate) : Prop :=
  forall x q, x = ar \/ In x L -> fst x <= q < fst x + snd x -> amem s' q = amem s q.
Lemma kept_refl : forall ar L s s', amem s' = amem s -> kept ar L s s'.
Proof. intros ar L s s' E x q _ _. rewrite E. reflexivity. Qed.

(** errno of a failing request *)
Definition errof (n : Z) : Z := if n <? 0 then EINVAL else ENOMEM.

Lemma alloc_ok : forall space L s live dead n tr o L', 0 < space -> inv space L s live dead -> in_s64 n ->
  heap (arena space) L tr = Some L' -> runs (alloc space s n) tr o ->
  o <> Wrong /\ frees_ok (arena space) L tr /\
  forall p e s', o = Fin (p, e, s') ->
    (p = 0 -> e = errof n /\ L' = L /\ avail s' = avail s /\ allocated s' = allocated s /\ ahead s' = ahead s /\
       kept (arena space) L s s' /\ -1 <= alimit s' < two63) /\
    (p <> 0 -> e = 0 /\ got_block space n s s' p L' /\ L' = blocks (ahead s') /\ sound (arena space) L' /\
       kept (arena space) L s s' /\ -1 <= alimit s' < two63).
Proof.
  intros space L s live dead n tr o L' SP I N H R. destruct I as [IA IM IZ IB IS ISZ IT IAL IL ILV ISM IAP ID]. unfold in_s64 in N.
  assert (NE : n < 0 -> EINVAL = errof n) by (unfold errof; intros Q; replace (n <? 0) with true by lia; auto).
  assert (NM : 0 <= n -> ENOMEM = errof n) by (unfold errof; intros Q; replace (n <? 0) with false by lia; auto).
  unfold alloc in R. destruct (Z.ltb_spec n 0) as [N0|N0].
  { destruct R as [-> ->]. split; [discriminate|]. split; [exact Logic.I|]. intros p e s' E. injection E as <- <- <-. cbn [heap] in H. injection H as <-.
    split; [intros _; repeat split; auto using kept_refl; try lia|intros []; auto]. }
  unfold ALIGNMENT in R. replace (two63 - 1 - (32 - 1)) with (two63 - 32) in R by lia.
  destruct (Z.ltb_spec (two63 - 32) n) as [N1|N1].
  { destruct R as [-> ->]. split; [discriminate|]. split; [exact Logic.I|]. intros p e s' E. injection E as <- <- <-. cbn [heap] in H. injection H as <-.
    split; [intros _; repeat split; auto using kept_refl; try lia|intros []; auto]. }
  destruct (aligned_ok n) as (AE & A1 & A2 & A3 & A4); [lia|]. rewrite AE in R. clear AE.
  destruct (Z.leb_spec (backing n) (avail s)) as [AV|AV].
  { destruct R as [-> ->]. split; [discriminate|]. split; [exact Logic.I|]. intros p e s' E. injection E as <- <- <-. cbn [heap] in H. injection H as <-.
    cbn [amem avail allocated ahead alimit]. split; [lia|]. intros _. split; auto. split; [|repeat split; auto using kept_refl; lia].
    split; [lia|]. cbn [amem avail allocated ahead alimit]. split; [intros q Q; apply IZ; lia|]. left. auto. }
  apply runs_bind in R as [([v s1] & t1 & t2 & -> & R1 & R)|[[R1 ->]|[R1 ->]]].
  2:{ apply limit_get_ok in R1 as (R1 & _); auto. congruence. }
  2:{ apply limit_get_ok in R1 as (_ & R1 & _); auto. split; [discriminate|]. split; [apply R1|discriminate]. }
  apply limit_get_ok in R1 as (_ & R1 & R2); auto. destruct (R2 v s1 eq_refl) as (V & -> & S1 & S2 & S3 & S4 & _). clear R2.
  rewrite heap_app in H. destruct (R1 (arena space) L) as [E1 E2]. rewrite E1 in H.
  enough (G : o <> Wrong /\ frees_ok (arena space) L t2 /\
  forall p e s', o = Fin (p, e, s') ->
    (p = 0 -> e = errof n /\ L' = L /\ avail s' = avail s /\ allocated s' = allocated s /\ ahead s' = ahead s /\
       kept (arena space) L s s' /\ -1 <= alimit s' < two63) /\
    (p <> 0 -> e = 0 /\ got_block space n s s' p L' /\ L' = blocks (ahead s') /\ sound (arena space) L' /\
       kept (arena space) L s s' /\ -1 <= alimit s' < two63)).
  { destruct G as (G1 & G2 & G3). split; [exact G1|]. split; [|exact G3]. apply frees_app; auto. intros L1 Q. rewrite E1 in Q. injection Q as <-. auto. }
  clear R1 E1 E2 t1. rewrite s64_ok in R by (rewrite S3; lia). cbn [lift pbind] in R. rewrite S3 in R.
  destruct (Z.ltb_spec (alimit s1) (allocated s)) as [Q1|Q1]; cbn [orb] in R.
  { destruct R as [-> ->]. split; [discriminate|]. split; [exact Logic.I|]. intros p e s' E. injection E as <- <- <-. cbn [heap] in H. injection H as <-.
    rewrite ?S1, ?S2, ?S3, ?S4. split; [intros _; repeat split; auto using kept_refl; try lia|intros []; auto]. }
  destruct (Z.ltb_spec (alimit s1 - allocated s) n) as [Q2|Q2].
  { destruct R as [-> ->]. split; [discriminate|]. split; [exact Logic.I|]. intros p e s' E. injection E as <- <- <-. cbn [heap] in H. injection H as <-.
    rewrite ?S1, ?S2, ?S3, ?S4. split; [intros _; repeat split; auto using kept_refl; try lia|intros []; auto]. }
  destruct R as [[-> ->]|(a & t & -> & R)]; [split; [discriminate|]; split; [exact Logic.I|discriminate]|]. cbn [pbind] in R.
  cbn [heap] in H. destruct (heap1 (arena space) L (Other (bs "malloc") [backing n] [], a)) as [L1|] eqn:HM; [|discriminate].
  assert (F0 : forall t, frees_ok (arena space) L1 t -> frees_ok (arena space) L ((Other (bs "malloc") [backing n] [], a) :: t)).
  { intros t0 F. cbn [frees_ok fst]. rewrite HM. split; auto. intros p d Q. discriminate. }
  destruct (Z.eqb_spec (ret a) 0) as [Z0|Z0].
  { destruct R as [-> ->]. split; [discriminate|]. split; [apply F0; exact Logic.I|]. intros p e s' E. injection E as <- <- <-. cbn [heap] in H. injection H as <-.
    rewrite heap1_malloc, Z0 in HM. change (0 =? 0) with true in HM. injection HM as <-.
    rewrite ?S1, ?S2, ?S3, ?S4. split; [intros _; repeat split; auto using kept_refl; try lia|intros []; auto]. }
  apply malloc_ok in HM as (-> & SD); auto; [|lia].
  set (x := ret a) in *. set (m0 := setmem (amem s1) x (firstn (Z.to_nat (backing n)) (data a ++ repeat 0 (Z.to_nat (backing n))))) in *.
  assert (LM : len (firstn (Z.to_nat (backing n)) (data a ++ repeat 0 (Z.to_nat (backing n)))) = backing n).
  { unfold len. rewrite firstn_length, app_length, repeat_length. lia. }
  assert (XA : forall y q, y = arena space \/ In y L -> fst y <= q < fst y + snd y -> q < x \/ x + backing n <= q).
  { intros y q Y Q. inversion SD as [|? ? X1 X2 X3 X4 X5 X6]; subst. assert (X : apart (x, backing n) y) by (destruct Y as [->|Y]; [auto|rewrite Forall_forall in X5; auto]).
    unfold apart in X. cbn [fst snd] in X. lia. }
  assert (M0 : forall y q, y = arena space \/ In y L -> fst y <= q < fst y + snd y -> m0 q = amem s q).
  { intros y q Y Q. unfold m0. specialize (XA y q Y Q). rewrite setmem_out, S1 by lia. reflexivity. }
  assert (M1 : forall y q, y = arena space \/ In y L -> fst y <= q < fst y + snd y -> cleanup m0 x (backing n) q = amem s q).
  { intros y q Y Q. specialize (XA y q Y Q). rewrite cleanup_out by (auto; lia). eauto. }
  unfold alloc_add in R. cbn [amem avail allocated ahead alimit] in R.
  destruct R as [[-> ->]|(b & t1 & -> & R)]; [split; [discriminate|]; split; [apply F0; exact Logic.I|discriminate]|]. cbn [pbind] in R.
  cbn [heap] in H. destruct (heap1 (arena space) ((x, backing n) :: L) (Other (bs "malloc") [24] [], b)) as [L2|] eqn:HM; [|discriminate].
  assert (F1 : forall t, frees_ok (arena space) L2 t -> frees_ok (arena space) ((x, backing n) :: L) ((Other (bs "malloc") [24] [], b) :: t)).
  { intros t0 F. cbn [frees_ok fst]. rewrite HM. split; auto. intros p d Q. discriminate. }
  destruct (Z.eqb_spec (ret b) 0) as [B0|B0]; cbn [negb pbind] in R.
  - rewrite heap1_malloc, B0 in HM. change (0 =? 0) with true in HM. injection HM as <-. cbn [amem avail allocated ahead alimit] in R.
    destruct R as [[-> ->]|(c & t2 & -> & R)]; [split; [discriminate|]; split; [apply F0, F1; exact Logic.I|discriminate]|].
    destruct R as [-> ->]. split; [discriminate|]. cbn [heap] in H. rewrite heap1_free in H. cbn [filter fst] in H. rewrite Z.eqb_refl in H. cbn [negb] in H.
    pose proof (filter_all _ _ _ SD) as FA. cbn [fst] in FA. rewrite FA in H. injection H as <-. split.
    + apply F0, F1. split; [|exact Logic.I]. intros p d Q. cbn [fst] in Q. injection Q as <- <-. exists (backing n). split; [left; auto|]. right. apply getmem_zero; [lia|].
      intros q Q. apply cleanup_in; auto.
    + intros p e s' E. injection E as <- <- <-. split; [|intros []; auto]. intros _. cbn [amem avail allocated ahead alimit]. rewrite ?S2, ?S3, ?S4.
      split; [auto|]. split; auto. split; auto. split; auto. split; auto. split; [|lia]. intros y q Y Q. cbn [amem]. pose proof (XA y q Y Q). rewrite cleanup_out by (auto; lia). eauto.
  - apply malloc_ok in HM as (-> & SD2); auto; [|lia]. cbn [pbind] in R. cbn [amem avail allocated ahead alimit] in R.
    rewrite s64_ok in R by lia. cbn [lift pbind] in R. destruct R as [-> ->]. cbn [heap] in H. injection H as <-. split; [discriminate|]. split; [apply F0, F1; exact Logic.I|].
    intros p e s' E. injection E as <- <- <-. split; [contradiction|]. intros _. cbn [amem avail allocated ahead alimit]. split; auto. split.
    + split; [lia|]. cbn [amem avail allocated ahead alimit]. split; [intros q Q; apply cleanup_in; auto|]. right. split; auto. split; auto. split; [exists (ret b); rewrite S4; auto|]. split; auto. lia.
    + split; [rewrite S4; cbn [blocks flat_map blk app]; rewrite IB; reflexivity|]. split; auto. split; auto. lia.
Qed.

(** ** The other operations *)

Lemma static_ok : forall space p, is_static space p = true <-> space <= p < space + STATICSPACE.
Proof. intros. unfold is_static. rewrite andb_true_iff, Z.leb_le, Z.ltb_lt. reflexivity. Qed.

Lemma fop_split : forall {A} (R : A -> A -> Prop) a x b, ForallOrdPairs R (a ++ x :: b) ->
  ForallOrdPairs R (a ++ b) /\ Forall (fun y => R y x) a /\ Forall (R x) b.
Proof.
  induction a as [|y a IH]; intros x b F; cbn [app] in *; inversion F as [|? ? F1 F2]; subst; auto.
  apply IH in F2 as (G1 & G2 & G3). apply Forall_app in F1 as [F1 F3]. inversion F3; subst. split; [|split; auto].
  constructor; auto. apply Forall_app. auto.
Qed.
Lemma nth_split2 : forall {A} i (l : list A) x, nth_error l i = Some x -> exists a b, l = a ++ x :: b /\ dropnth i l = a ++ b.
Proof.
  induction i as [|i IH]; intros [|y l] x E; cbn [nth_error] in E; try discriminate.
  - injection E as ->. exists [], l. auto.
  - apply IH in E as (a & b & -> & E). exists (y :: a), b. split; auto. unfold dropnth in *. cbn [firstn skipn app]. f_equal. exact E.
Qed.
Lemma split_uniq : forall (a a' : list (Z * Z)) x y b b', a ++ x :: b = a' ++ y :: b' -> fst x = fst y ->
  ~ In (fst x) (map fst a) -> ~ In (fst x) (map fst a') -> a = a' /\ x = y /\ b = b'.
Proof.
  induction a as [|z a IH]; intros [|z' a'] x y b b' E F N N'; cbn [app map In] in *.
  - injection E as -> ->. auto.
  - injection E as -> ->. exfalso. apply N'. left. auto.
  - injection E as -> E. exfalso. apply N. left. auto.
  - injection E as -> E. apply IH in E as (-> & -> & ->); auto.
Qed.
Lemma remove_notin : forall l p x r, alloc_remove l p = Some (x, r) -> exists a nd n b, x = (nd, p, n) /\ l = a ++ (nd, p, n) :: b /\ r = a ++ b /\
  ~ In p (map fst (map (fun '(_, p, n) => (p, n)) a)).
Proof.
  induction l as [|[[nd q] n] l IH]; intros p x r E; cbn [alloc_remove] in E; [discriminate|].
  destruct (Z.eqb_spec q p) as [->|D].
  - injection E as <- <-. exists [], nd, n, l. auto.
  - destruct (alloc_remove l p) as [[y s]|] eqn:E1; [|discriminate]. injection E as <- <-.
    apply IH in E1 as (a & nd1 & n1 & b & -> & -> & -> & N). exists ((nd, q, n) :: a), nd1, n1, b. repeat split; auto.
    cbn [map In fst]. intros [Q|Q]; auto.
Qed.

Lemma free_event : forall ar p d n a L1 L2 t, sound ar (L1 ++ (p, n) :: L2) -> (n = 24 \/ d = repeat 0 (Z.to_nat n)) ->
  frees_ok ar (L1 ++ L2) t -> frees_ok ar (L1 ++ (p, n) :: L2) ((Other (bs "free") [p] d, a) :: t).
Proof.
  intros ar p d n a L1 L2 t S D F. cbn [frees_ok fst]. split.
  - intros p0 d0 E. injection E as <- <-. exists n. split; auto. apply in_or_app. right. left. auto.
  - rewrite heap1_free. pose proof (filter_one ar L1 (p, n) L2 S) as E. cbn [fst] in E. rewrite E. auto.
Qed.
Lemma heap_free : forall ar p d n a L1 L2 t, sound ar (L1 ++ (p, n) :: L2) -> heap ar (L1 ++ (p, n) :: L2) ((Other (bs "free") [p] d, a) :: t) = heap ar (L1 ++ L2) t.
Proof. intros ar p d n a L1 L2 t S. cbn [heap]. rewrite heap1_free. pose proof (filter_one ar L1 (p, n) L2 S) as E. cbn [fst] in E. rewrite E. auto. Qed.

Lemma sized_app : forall a b, sized (a ++ b) <-> sized a /\ sized b.
Proof. intros. apply Forall_app. Qed.

Lemma free_ok : forall space L s live dead i p n tr o L', 0 < space -> inv space L s live dead -> nth_error live i = Some (p, n) ->
  heap (arena space) L tr = Some L' -> runs (alloc_free space s p) tr o ->
  o <> Wrong /\ frees_ok (arena space) L tr /\
  forall s', o = Fin s' -> inv space L' s' (dropnth i live) ((p, n) :: dead) /\
    (is_static space p = true -> tr = [] /\ s' = s) /\
    (is_static space p = false -> exists nd d a b, tr = [(Other (bs "free") [p] d, a); (Other (bs "free") [nd] [], b)] /\ d = repeat 0 (Z.to_nat (backing n))) /\
    (forall q, q < p \/ p + backing n <= q -> amem s' q = amem s q) /\ alimit s' = alimit s.
Proof.
  intros space L s live dead i p n tr o L' SP I NT H R. destruct I as [IA IM IZ IB IS ISZ IT IAL IL ILV ISM IAP ID].
  destruct (nth_split2 _ _ _ NT) as (la & lb & -> & DR). rewrite DR. clear NT DR.
  pose proof (fop_split _ _ _ _ IAP) as (AP1 & AP2 & AP3). pose proof ILV as ILV0. apply Forall_app in ILV as [LV1 LV2]. inversion LV2 as [|? ? LP LV3]; subst. clear LV2.
  destruct LP as [LN LP]. destruct (aligned_ok n LN) as (AE & A1 & A2 & A3 & A4).
  unfold alloc_free in R.
  destruct (is_static space p) eqn:ST.
  - assert (R' : tr = [] /\ o = Fin s). { destruct (p =? 0); destruct R; auto. } destruct R' as [-> ->]. clear R. cbn [heap] in H. injection H as <-.
    split; [discriminate|]. split; [exact Logic.I|]. intros s' E. injection E as <-. split; [|repeat split; auto; discriminate].
    assert (PA : space + avail s <= p).
    { destruct LP as [LP|[nd LP]]; [lia|]. apply blocks_in in LP as [LP _]. eapply sound_in in LP; eauto. apply static_ok in ST. destruct LP as (_ & _ & LP1 & LP2). unfold apart, arena in LP2. cbn [fst snd] in *. lia. }
    constructor; auto.
    + apply Forall_app. auto.
    + rewrite filter_app in *. cbn [filter fst] in ISM. rewrite ST in ISM. exact ISM.
  - assert (P0 : exists nd, In (nd, p, n) (ahead s)).
    { destruct LP as [LP|LP]; auto. exfalso. assert (is_static space p = true); [|congruence]. apply static_ok. lia. }
    destruct P0 as [nd0 P0].
    assert (PP : 0 < p) by (apply blocks_in in P0 as [P0 _]; eapply sound_in in P0; eauto; cbn [fst] in P0; lia).
    destruct (Z.eqb_spec p 0); [lia|]. destruct (remove_in _ _ _ _ P0) as (x & r & RM). rewrite RM in R.
    apply remove_notin in RM as (a & nd & n' & b & -> & EH & -> & NI). rewrite EH in *.
    rewrite filter_app in ISM. cbn [filter fst] in ISM. rewrite ST in ISM. cbn [negb] in ISM. rewrite map_app in ISM. cbn [map] in ISM.
    apply split_uniq in ISM as (SM1 & SM2 & SM3); auto.
    2:{ cbn [fst]. intros Q. apply in_map_iff in Q as ([p1 n1] & Q1 & Q2). cbn [fst] in Q1. subst p1. apply filter_In in Q2 as [Q2 _].
        rewrite Forall_forall in AP2, LV1. specialize (AP2 _ Q2). specialize (LV1 _ Q2). cbn beta iota in LV1. destruct LV1 as [LN1 _]. destruct (aligned_ok n1 LN1) as (_ & B1 & _).
        unfold apart in AP2. cbn [fst snd] in AP2. lia. }
    injection SM2 as ->.
    assert (AE0 : aligned_len n = backing n) by auto. rewrite AE0 in R.
    rewrite total_app in IT. cbn [total] in IT. rewrite sized_app in ISZ. destruct ISZ as [SZ1 SZ2]. inversion SZ2 as [|? ? SZ3 SZ4]; subst.
    pose proof (total_nonneg _ SZ1). pose proof (total_nonneg _ SZ4). rewrite s64_ok in R by lia. cbn [lift pbind] in R.
    rewrite blocks_app in H, IS |- *. change (blocks ((nd, p, n) :: b)) with ((nd, 24) :: (p, backing n) :: blocks b) in *.
    set (D := getmem (cleanup (amem s) p (backing n)) p (backing n)) in *.
    assert (DZ : D = repeat 0 (Z.to_nat (backing n))). { apply getmem_zero; [lia|]. intros q Q. apply cleanup_in; auto. }
    assert (IS1 : sound (arena space) ((blocks a ++ [(nd, 24)]) ++ (p, backing n) :: blocks b)). { rewrite <- app_assoc. exact IS. }
    pose proof (sound_remove _ _ _ _ IS1) as IS2. rewrite <- app_assoc in IS2. cbn [app] in IS2.
    assert (F1 : forall c t, frees_ok (arena space) (blocks a ++ (nd, 24) :: blocks b) t ->
       frees_ok (arena space) (blocks a ++ (nd, 24) :: (p, backing n) :: blocks b) ((Other (bs "free") [p] D, c) :: t)).
    { intros c t F. pose proof (free_event (arena space) p D (backing n) c (blocks a ++ [(nd, 24)]) (blocks b) t IS1 (or_intror DZ)) as G.
      rewrite <- !app_assoc in G. apply G. exact F. }
    destruct R as [[-> ->]|(c & t & -> & R)]; [split; [discriminate|]; split; [exact Logic.I|discriminate]|]. cbn [pbind] in R.
    destruct R as [[-> ->]|(c' & t' & -> & R)]; [split; [discriminate|]; split; [apply F1; exact Logic.I|discriminate]|]. cbn [pbind] in R.
    destruct R as [-> ->].
    pose proof (heap_free (arena space) p D (backing n) c (blocks a ++ [(nd, 24)]) (blocks b) [(Other (bs "free") [nd] [], c')] IS1) as HF.
    rewrite <- !app_assoc in HF. cbn [app] in HF. apply (eq_trans (eq_sym HF)) in H. rewrite heap_free in H by exact IS2. cbn [heap] in H. injection H as <-.
    split; [discriminate|]. split; [apply F1, free_event; auto; exact Logic.I|].
    intros s' E. injection E as <-. cbn [amem alimit].
    assert (AR : apart (p, backing n) (arena space)). { eapply sound_in in IS1; [|apply in_or_app; right; left; reflexivity]. apply IS1. }
    unfold apart, arena in AR. cbn [fst snd] in AR.
    split; [|split; [discriminate|split; [intros _; exists nd, D, c, c'; auto|split; auto; intros q Q; apply cleanup_out; auto]]].
    constructor; cbn [amem avail allocated ahead alimit]; auto.
    + intros q Q. rewrite cleanup_out by (auto; lia). auto.
    + rewrite blocks_app. reflexivity.
    + eapply sound_remove. exact IS2.
    + apply sized_app. auto.
    + rewrite total_app. lia.
    + lia.
    + assert (W : forall y, In y (la ++ lb) -> fst y <> p).
      { intros [p1 n1] Y. cbn [fst]. intros ->. assert (Y2 : apart (p, backing n1) (p, backing n)).
        { apply in_app_iff in Y as [Y|Y]; [rewrite Forall_forall in AP2; apply (AP2 _ Y)|rewrite Forall_forall in AP3; apply apart_sym, (AP3 _ Y)]. }
        assert (Y3 : 0 <= n1 <= two63 - 32). { apply in_app_iff in Y as [Y|Y]; [rewrite Forall_forall in LV1; apply (LV1 _ Y)|rewrite Forall_forall in LV3; apply (LV3 _ Y)]. }
        destruct (aligned_ok n1 Y3) as (_ & B1 & _). unfold apart in Y2. cbn [fst snd] in Y2. lia. }
      assert (V : Forall (fun '(p0, n0) => 0 <= n0 <= two63 - 32 /\ (space + avail s <= p0 /\ p0 + backing n0 <= space + STATICSPACE \/ (exists nd1, In (nd1, p0, n0) (a ++ (nd, p, n) :: b)))) (la ++ lb)) by (apply Forall_app; auto).
      apply Forall_forall. intros [p1 n1] Y. rewrite Forall_forall in V. specialize (V _ Y). specialize (W _ Y). cbn beta iota in V. cbn [fst] in W. destruct V as [V1 [V2|[nd1 V2]]]; split; auto.
      right. exists nd1. apply in_app_iff in V2. apply in_app_iff. destruct V2 as [V2|[V2|V2]]; auto. injection V2 as _ -> _. congruence.
    + rewrite map_app, filter_app. congruence.
    + constructor; auto. intros Q. congruence.
Qed.

Lemma freelist_ok : forall ar l s tr o L', sound ar (blocks l) -> sized l ->
  heap ar (blocks l) tr = Some L' -> runs (freelist l s) tr o ->
  o <> Wrong /\ frees_ok ar (blocks l) tr /\ forall m, o = Fin m -> L' = [].
Proof.
  intros ar. induction l as [|[[nd p] n] l IH]; intros m tr o L' S Z H R; cbn [freelist] in R.
  - destruct R as [-> ->]. split; [discriminate|]. split; [exact Logic.I|]. intros _ _. cbn in H. congruence.
  - inversion Z as [|? ? Z1 Z2]; subst. destruct (aligned_ok n Z1) as (AE & A1 & A2 & A3 & A4). rewrite AE in R.
    change (blocks ((nd, p, n) :: l)) with ([(nd, 24)] ++ (p, backing n) :: blocks l) in *.
    set (D := getmem (cleanup m p (backing n)) p (backing n)) in *.
    assert (DZ : D = repeat 0 (Z.to_nat (backing n))). { apply getmem_zero; [lia|]. intros q Q. apply cleanup_in; auto. }
    pose proof (sound_remove _ _ _ _ S) as S2. pose proof (sound_remove _ [] _ _ S2) as S3. cbn [app] in S3.
    destruct R as [[-> ->]|(c & t & -> & R)]; [split; [discriminate|]; split; [exact Logic.I|discriminate]|]. cbn [pbind] in R.
    rewrite heap_free in H by exact S.
    destruct R as [[-> ->]|(c' & t' & -> & R)]; [split; [discriminate|]; split; [apply free_event; auto; exact Logic.I|discriminate]|]. cbn [pbind] in R.
    pose proof (heap_free ar nd [] 24 c' [] (blocks l) t' S2) as HF. cbn [app] in HF. cbn [app] in H. apply (eq_trans (eq_sym HF)) in H.
    destruct (IH _ _ _ _ S3 Z2 H R) as (G1 & G2 & G3). split; auto. split; auto. apply free_event; auto.
    apply (free_event ar nd [] 24 c' [] (blocks l)); auto.
Qed.

Lemma freeall_ok : forall space L s live dead tr o L', 0 < space -> inv space L s live dead ->
  heap (arena space) L tr = Some L' -> runs (alloc_freeall space s) tr o ->
  o <> Wrong /\ frees_ok (arena space) L tr /\
  forall s', o = Fin s' -> inv space L' s' [] [] /\ L' = [] /\ allocated s' = 0 /\ avail s' = STATICSPACE /\ alimit s' = alimit s /\
    forall q, space <= q < space + STATICSPACE -> amem s' q = 0.
Proof.
  intros space L s live dead tr o L' SP I H R. destruct I as [IA IM IZ IB IS ISZ IT IAL IL ILV ISM IAP ID]. subst L.
  unfold alloc_freeall in R. apply runs_bind in R as [(m & t1 & t2 & -> & R1 & R)|[[R1 ->]|[R1 ->]]].
  2:{ apply (freelist_ok (arena space) _ _ _ _ _ IS ISZ H) in R1 as (R1 & _). congruence. }
  2:{ apply (freelist_ok (arena space) _ _ _ _ _ IS ISZ H) in R1 as (_ & R1 & _). split; [discriminate|]. split; [auto|discriminate]. }
  destruct R as [-> ->]. rewrite app_nil_r in H |- *. apply (freelist_ok (arena space) _ _ _ _ _ IS ISZ H) in R1 as (_ & R1 & R2). rewrite (R2 m eq_refl) in *.
  split; [discriminate|]. split; auto. intros s' E. injection E as <-.
  assert (M : forall q, space <= q < space + STATICSPACE -> cleanup m space STATICSPACE q = 0). { intros q Q. apply cleanup_in; auto. }
  split; [|repeat split; auto]. constructor; cbn [amem avail allocated ahead alimit]; auto; try (unfold STATICSPACE, two63; lia); try constructor.
Qed.

Lemma inv_mem : forall space L s live dead m, inv space L s live dead -> (forall q, space <= q < space + avail s -> m q = 0) ->
  inv space L (mka m (avail s) (allocated s) (ahead s) (alimit s)) live dead.
Proof. intros space L s live dead m I M. destruct I. constructor; cbn [amem avail allocated ahead alimit]; auto. Qed.

Lemma live_in : forall space L s live dead p n, inv space L s live dead -> In (p, n) live ->
  0 <= n <= two63 - 32 /\ ((space + avail s <= p /\ p + backing n <= space + STATICSPACE) \/ In (p, backing n) L).
Proof.
  intros space L s live dead p n I P. destruct I. rewrite Forall_forall in i_live0. specialize (i_live0 _ P). cbn beta iota in i_live0.
  destruct i_live0 as [N [A|[nd B]]]; split; auto. right. rewrite i_blocks0. apply blocks_in in B. apply B.
Qed.

(** a new block: no overlap with what is in use *)
Lemma fresh_ok : forall space L s live dead n s' p L', 0 < space -> inv space L s live dead -> got_block space n s s' p L' -> L' = blocks (ahead s') ->
  sound (arena space) L' -> Forall (fun x => apart (p, backing n) (fst x, backing (snd x))) live /\
  Forall (fun x => is_static space p = true -> is_static space (fst x) = true -> p + backing n <= fst x) dead.
Proof.
  intros space L s live dead n s' p L' SP I (N & _ & G) EL S. pose proof I as I0. destruct I0 as [IA IM IZ IB IS ISZ IT IAL IL ILV ISM IAP ID].
  destruct (aligned_ok n N) as (AE & A1 & A2 & A3 & A4). split.
  - apply Forall_forall. intros [p1 n1] P1. destruct (live_in _ _ _ _ _ _ _ I P1) as [N1 Q]. destruct (aligned_ok n1 N1) as (_ & B1 & _). cbn [fst snd].
    destruct G as [(-> & GA & _ & GH)|(_ & GA & (nd & GH) & _)].
    + destruct Q as [Q|Q]; [unfold apart; cbn [fst snd]; lia|]. rewrite IB, <- GH, <- EL in Q. eapply sound_in in Q; eauto. destruct Q as (_ & _ & _ & Q). unfold apart, arena in *. cbn [fst snd] in *. lia.
    + rewrite EL, GH in S. change (blocks ((nd, p, n) :: ahead s)) with ((nd, 24) :: (p, backing n) :: blocks (ahead s)) in S.
      inversion S as [|? ? _ _ _ _ _ S2]; subst. inversion S2 as [|? ? S3 S4 S5 S6 S7 S8]; subst.
      destruct Q as [Q|Q]; [unfold apart, arena in *; cbn [fst snd] in *; lia|]. rewrite Forall_forall in S7. apply S7. auto.
  - apply Forall_forall. intros [p1 n1] P1 T1 T2. cbn [fst] in *. rewrite Forall_forall in ID. specialize (ID _ P1 T2).
    destruct G as [(-> & GA & _ & GH)|(_ & GA & (nd & GH) & _)]; [lia|].
    rewrite EL, GH in S. change (blocks ((nd, p, n) :: ahead s)) with ((nd, 24) :: (p, backing n) :: blocks (ahead s)) in S.
    inversion S as [|? ? _ _ _ _ _ S2]; subst. inversion S2 as [|? ? S3 S4 S5 S6 S7 S8]; subst. apply static_ok in T1. unfold apart, arena in *; cbn [fst snd] in *; lia.
Qed.

Lemma use1_ok : forall space L s live dead op tr o L', 0 < space -> inv space L s live dead -> okop op ->
  heap (arena space) L tr = Some L' -> runs (use1 space op (s, live, dead)) tr o ->
  o <> Wrong /\ frees_ok (arena space) L tr /\ forall s' live' dead', o = Fin (s', live', dead') -> inv space L' s' live' dead'.
Proof.
  intros space L s live dead op tr o L' SP I OK H R. destruct op as [n|i off d|i| |v]; cbn [use1 okop] in *.
  - apply runs_bind in R as [([[p e] s1] & t1 & t2 & -> & R1 & R)|[[R1 ->]|[R1 ->]]].
    2:{ eapply alloc_ok in R1 as (R1 & _); eauto. congruence. }
    2:{ eapply alloc_ok in R1 as (_ & R1 & _); eauto. split; [discriminate|]. split; [auto|discriminate]. }
    destruct R as [-> ->]. rewrite app_nil_r in *. eapply alloc_ok in R1 as (_ & F & R1); eauto. destruct (R1 _ _ _ eq_refl) as [RA RB]. clear R1.
    split; [discriminate|]. split; auto. intros s' live' dead' E. injection E as <- <- <-.
    destruct (Z.eqb_spec p 0) as [P0|P0].
    + destruct (RA P0) as (_ & -> & E1 & E2 & E3 & K & KL). clear RA RB. destruct I as [IA IM IZ IB IS ISZ IT IAL IL ILV ISM IAP ID].
      constructor; rewrite ?E1, ?E2, ?E3; auto. intros q Q. rewrite (K (arena space) q); auto. unfold arena. cbn [fst snd]. lia.
    + destruct (RB P0) as (_ & G & EL & S & K & KL). clear RA RB. pose proof (fresh_ok _ _ _ _ _ _ _ _ _ SP I G EL S) as [FA _].
      pose proof I as I0. destruct I as [IA IM IZ IB IS ISZ IT IAL IL ILV ISM IAP ID]. destruct G as (N & GZ & G). destruct (aligned_ok n N) as (AE & A1 & A2 & A3 & A4).
      destruct G as [(-> & GA & GT & GH)|(_ & GA & (nd & GH) & GT & GL)].
      * constructor; rewrite ?GT, ?GH; auto; try lia.
        -- intros q Q. rewrite (K (arena space) q); auto; [apply IZ; lia|unfold arena; cbn [fst snd]; lia].
        -- rewrite EL, GH. auto.
        -- constructor; [split; auto; left; lia|]. eapply Forall_impl; [|exact ILV]. cbn beta. intros [p1 n1] [Q1 [Q2|Q2]]; split; auto. left. lia.
        -- cbn [filter fst]. assert (ST : is_static space (space + avail s1) = true) by (apply static_ok; lia). rewrite ST. auto.
        -- constructor; auto.
        -- eapply Forall_impl; [|exact ID]. cbn beta. intros [p1 n1] Q1 Q2. specialize (Q1 Q2). lia.
      * assert (PA : apart (p, backing n) (arena space)).
        { eapply sound_in in S; [|rewrite EL, GH; right; left; reflexivity]. apply S. }
        unfold apart, arena in PA. cbn [fst snd] in PA.
        constructor; rewrite ?GH, ?GA; auto; try lia.
        -- intros q Q. rewrite (K (arena space) q); auto; unfold arena; cbn [fst snd]; lia.
        -- rewrite EL, GH. auto.
        -- constructor; auto.
        -- cbn [total]. lia.
        -- constructor; [split; auto; right; exists nd; left; auto|]. eapply Forall_impl; [|exact ILV]. cbn beta. intros [p1 n1] [Q1 [Q2|[nd1 Q2]]]; split; auto. right. exists nd1. right. auto.
        -- cbn [filter fst map]. assert (ST : is_static space p = false). { destruct (is_static space p) eqn:Q; auto. apply static_ok in Q. lia. } rewrite ST. cbn [negb]. congruence.
        -- constructor; auto.
  - assert (R' : tr = [] /\ exists u, o = Fin u /\ (u = (s, live, dead) \/ exists p n, nth_error live i = Some (p, n) /\ 0 <= off /\ off + len d <= n /\
       u = (mka (setmem (amem s) (p + off) d) (avail s) (allocated s) (ahead s) (alimit s), live, dead))).
    { destruct (nth_error live i) as [[p n]|]; [|destruct R; subst; eauto]. destruct (Z.leb_spec 0 off); destruct (Z.leb_spec (off + len d) n); cbn [andb] in R; destruct R; subst; split; auto; eexists; split; eauto 10. }
    destruct R' as (-> & u & -> & U). cbn [heap] in H. injection H as <-. split; [discriminate|]. split; [exact Logic.I|]. intros s' live' dead' E. injection E as ->.
    destruct U as [U|(p & n & NT & O1 & O2 & U)]; injection U as -> -> ->; auto. apply inv_mem; auto. intros q Q. apply nth_error_In in NT.
    destruct (live_in _ _ _ _ _ _ _ I NT) as [N Z]. destruct (aligned_ok n N) as (AE & A1 & A2 & A3 & A4). destruct I as [IA IM IZ IB IS ISZ IT IAL IL ILV ISM IAP ID].
    rewrite setmem_out; auto. destruct Z as [Z|Z]; [lia|]. eapply sound_in in Z; eauto. destruct Z as (_ & _ & _ & Z). unfold apart, arena in Z. cbn [fst snd] in Z. lia.
  - destruct (nth_error live i) as [[p n]|] eqn:NT.
    2:{ destruct R as [-> ->]. cbn [heap] in H. injection H as <-. split; [discriminate|]. split; [exact Logic.I|]. intros s' live' dead' E. injection E as <- <- <-. auto. }
    apply runs_bind in R as [(s1 & t1 & t2 & -> & R1 & R)|[[R1 ->]|[R1 ->]]].
    2:{ eapply free_ok in R1 as (R1 & _); eauto. congruence. }
    2:{ eapply free_ok in R1 as (_ & R1 & _); eauto. split; [discriminate|]. split; [auto|discriminate]. }
    destruct R as [-> ->]. rewrite app_nil_r in *. eapply free_ok in R1 as (_ & F & R1); eauto. split; [discriminate|]. split; auto.
    intros s' live' dead' E. injection E as <- <- <-. apply R1. auto.
  - apply runs_bind in R as [(s1 & t1 & t2 & -> & R1 & R)|[[R1 ->]|[R1 ->]]].
    2:{ eapply freeall_ok in R1 as (R1 & _); eauto. congruence. }
    2:{ eapply freeall_ok in R1 as (_ & R1 & _); eauto. split; [discriminate|]. split; [auto|discriminate]. }
    destruct R as [-> ->]. rewrite app_nil_r in *. eapply freeall_ok in R1 as (_ & F & R1); eauto. split; [discriminate|]. split; auto.
    intros s' live' dead' E. injection E as <- <- <-. apply R1. auto.
  - destruct R as [-> ->]. cbn [heap] in H. injection H as <-. split; [discriminate|]. split; [exact Logic.I|]. intros s' live' dead' E. injection E as <- <- <-.
    unfold alloc_limit. destruct (Z.ltb_spec v 0); auto. unfold in_s64 in OK. destruct I. constructor; cbn [amem avail allocated ahead alimit]; auto; lia.
Qed.

Lemma init_ok : forall space mem0, inv space [] (alloc_init mem0 space) [] [].
Proof.
  intros space mem0. constructor; cbn [alloc_init amem avail allocated ahead alimit]; try constructor; try (unfold STATICSPACE, two63; lia).
  intros q Q. replace (space <=? q) with true by lia. replace (q <? space + STATICSPACE) with true by lia. reflexivity.
Qed.

Lemma use_ok : forall space h L s live dead tr o L', 0 < space -> inv space L s live dead -> Forall okop h ->
  heap (arena space) L tr = Some L' -> runs (use space h (s, live, dead)) tr o ->
  o <> Wrong /\ frees_ok (arena space) L tr /\ forall s' live' dead', o = Fin (s', live', dead') -> inv space L' s' live' dead'.
Proof.
  intros space. induction h as [|op h IH]; intros L s live dead tr o L' SP I OK H R; cbn [use] in R.
  - destruct R as [-> ->]. cbn [heap] in H. injection H as <-. split; [discriminate|]. split; [exact Logic.I|]. intros s' live' dead' E. injection E as <- <- <-. auto.
  - inversion OK as [|? ? O1 O2]; subst. apply runs_bind in R as [([[s1 live1] dead1] & t1 & t2 & -> & R1 & R)|[[R1 ->]|[R1 ->]]].
    2:{ eapply use1_ok in R1 as (R1 & _); eauto. congruence. }
    2:{ eapply use1_ok in R1 as (_ & R1 & _); eauto. split; [discriminate|]. split; [auto|discriminate]. }
    rewrite heap_app in H. destruct (heap (arena space) L t1) as [L1|] eqn:H1; [|discriminate].
    destruct (use1_ok _ _ _ _ _ _ _ _ _ SP I O1 H1 R1) as (_ & F & G). specialize (G _ _ _ eq_refl).
    destruct (IH _ _ _ _ _ _ _ SP G O2 H R) as (G1 & G2 & G3). split; auto. split; auto. apply frees_app; auto. intros L2 Q. rewrite H1 in Q. injection Q as <-. auto.
Qed.

(** ** The limit *)

Definition rl (e : event) : Prop := exists k, fst e = Other (bs "getrlimit") [k] [].
Definition capped (v : Z) (tr : trace) : Prop :=
  forall k a, In (Other (bs "getrlimit") [k] [], a) tr -> ret a <> -1 -> 0 < hd 0 (data a) < two63 -> v <= hd 0 (data a).

Lemma lower_le : forall a v, lower a v <= v.
Proof.
  intros a v. unfold lower. destruct (ret a =? -1); [lia|]. destruct (0 <? tos64 (u64 (hd 0 (data a)))); cbn [andb]; [|lia].
  destruct (Z.ltb_spec (tos64 (u64 (hd 0 (data a)))) v); lia.
Qed.
Lemma lower_cap : forall a v, ret a <> -1 -> 0 < hd 0 (data a) < two63 -> lower a v <= hd 0 (data a).
Proof.
  intros a v R C. unfold lower. destruct (Z.eqb_spec (ret a) (-1)); [lia|]. unfold two63 in *. rewrite u64_id by (unfold two64; lia). unfold tos64, two63.
  destruct (Z.leb_spec 9223372036854775808 (hd 0 (data a))); [lia|]. replace (0 <? hd 0 (data a)) with true by lia. cbn [andb]. destruct (Z.ltb_spec (hd 0 (data a)) v); lia.
Qed.

(** what an operation does to the limit *)
Definition limfact (s s' : astate) (tr : trace) : Prop :=
  (alimit s <> -1 -> alimit s' = alimit s /\ forall e, In e tr -> ~ rl e) /\
  (alimit s = -1 -> (alimit s' = -1 /\ (forall e, In e tr -> ~ rl e)) \/ (0 <= alimit s' /\ capped (alimit s') tr)).
Lemma limfact_same : forall s s' tr, alimit s' = alimit s -> (forall e, In e tr -> ~ rl e) -> limfact s s' tr.
Proof. intros s s' tr E N. split; intros Q; [auto|]. left. split; auto. congruence. Qed.

Lemma getlim : forall s tr v s1, -1 <= alimit s -> runs (alloc_limit_get s) tr (Fin (v, s1)) -> v = alimit s1 /\ limfact s s1 tr /\ alimit s1 <> -1.
Proof.
  intros s tr v s1 L R. unfold alloc_limit_get in R. destruct (Z.eqb_spec (alimit s) (-1)) as [E|E]; cbn [negb] in R.
  - apply runs_bind in R as [(a & t1 & t2 & -> & R1 & R)|[[R1 Q]|[R1 Q]]]; [|discriminate|discriminate].
    apply runs_bind in R as [(b & t3 & t4 & -> & R2 & R)|[[R2 Q]|[R2 Q]]]; [|discriminate|discriminate].
    apply runs_sys1 in R1 as [[_ Q]|(a' & -> & Q)]; [discriminate|]. injection Q as ->. apply runs_sys1 in R2 as [[_ Q]|(b' & -> & Q)]; [discriminate|]. injection Q as ->.
    destruct R as [-> Q]. injection Q as -> ->. cbn [alimit app].
    assert (G : 0 <= lower b' (lower a' (two63 - 1))).
    { assert (LW : forall a v, 0 <= v -> 0 <= lower a v). { intros a v V. unfold lower. destruct (ret a =? -1); auto. destruct (Z.ltb_spec 0 (tos64 (u64 (hd 0 (data a))))); destruct (Z.ltb_spec (tos64 (u64 (hd 0 (data a)))) v); cbn [andb]; lia. }
      apply LW, LW. unfold two63. lia. }
    split; auto. split; [|lia]. split; [intros; contradiction|]. intros _. right. split; auto.
    intros k c [Q|[Q|[]]] R C; injection Q as <- <-.
    + pose proof (lower_le b' (lower a' (two63 - 1))). pose proof (lower_cap a' (two63 - 1) R C). cbn [alimit]. lia.
    + cbn [alimit]. apply lower_cap; auto.
  - destruct R as [-> Q]. injection Q as -> ->. split; auto. split; auto. apply limfact_same; auto.
Qed.

Lemma limfact_trans : forall s s1 s2 t1 t2, alimit s1 <> -1 -> limfact s s1 t1 -> limfact s1 s2 t2 -> limfact s s2 (t1 ++ t2).
Proof.
  intros s s1 s2 t1 t2 N [A B] [C _]. destruct (C N) as [C1 C2]. split; intros Q.
  - destruct (A Q) as [A1 A2]. split; [congruence|]. intros e I. apply in_app_iff in I as [I|I]; auto.
  - right. destruct (B Q) as [[B1 _]|[B1 B2]]; [contradiction|]. rewrite C1. split; auto. intros k a I R D. apply in_app_iff in I as [I|I]; [eauto|].
    exfalso. apply (C2 _ I). exists k. reflexivity.
Qed.

Lemma alloc_lim : forall space s n tr p e s', -1 <= alimit s -> runs (alloc space s n) tr (Fin (p, e, s')) -> limfact s s' tr.
Proof.
  intros space s n tr p e s' L R. unfold alloc in R.
  destruct (n <? 0); [destruct R as [-> Q]; injection Q as _ _ ->; apply limfact_same; auto|].
  destruct (two63 - 1 - (ALIGNMENT - 1) <? n); [destruct R as [-> Q]; injection Q as _ _ ->; apply limfact_same; auto|].
  destruct (aligned_len n <=? avail s); [destruct R as [-> Q]; injection Q as _ _ ->; apply limfact_same; auto|].
  apply runs_bind in R as [([v s1] & t1 & t2 & -> & R1 & R)|[[R1 Q]|[R1 Q]]]; [|discriminate|discriminate].
  apply getlim in R1 as (-> & LF & NM); auto. eapply limfact_trans; eauto. clear LF.
  apply runs_bind in R as [(rest & t3 & t4 & -> & R1 & R)|[[R1 Q]|[R1 Q]]]; [|discriminate|discriminate].
  assert (t3 = []) as -> by (destruct (s64 (alimit s1 - allocated s1)); destruct R1; congruence). clear R1. cbn [app].
  destruct ((alimit s1 <? allocated s1) || (rest <? n)); [destruct R as [-> Q]; injection Q as _ _ ->; apply limfact_same; auto|].
  apply runs_bind in R as [(a & t5 & t6 & -> & R1 & R)|[[R1 Q]|[R1 Q]]]; [|discriminate|discriminate].
  apply runs_sys1 in R1 as [[_ Q]|(a' & -> & Q)]; [discriminate|]. injection Q as ->.
  assert (NR : forall nm x d b e0, rl e0 -> nm = bs "malloc" \/ nm = bs "free" -> e0 <> (Other nm x d, b)).
  { intros nm x d b e0 [k K] [->| ->] Q; subst e0; cbn [fst] in K; discriminate. }
  assert (N1 : forall nm x d b, nm = bs "malloc" \/ nm = bs "free" -> ~ rl (Other nm x d, b)). { intros nm x d b Q1 Q2. eapply NR; eauto. }
  destruct (ret a' =? 0). { destruct R as [-> Q]. injection Q as _ _ ->. apply limfact_same; auto. intros e0 [<-|[]]. apply N1. auto. }
  unfold alloc_add in R. cbn [pbind sys1] in R. destruct R as [[-> Q]|(b & t & -> & R)]; [discriminate|].
  destruct (ret b =? 0); cbn [negb pbind] in R.
  - destruct R as [[-> Q]|(c & t' & -> & R)]; [discriminate|]. destruct R as [-> Q]. injection Q as _ _ ->. apply limfact_same; auto.
    intros e0 [<-|[<-|[<-|[]]]]; apply N1; auto.
  - apply runs_bind in R as [(u & t7 & t8 & -> & R1 & R)|[[R1 Q]|[R1 Q]]]; [|discriminate|discriminate]. destruct R as [-> Q]. injection Q as _ _ ->.
    cbn [allocated] in R1. assert (t7 = []) as -> by (destruct (s64 (allocated s1 + n)); destruct R1; congruence).
    apply limfact_same; auto. intros e0 [<-|[<-|[]]]; apply N1; auto.
Qed.

Fixpoint limit_of (h : list aop) : option Z :=
  match h with
  | [] => None
  | o :: h' =>
    match limit_of h' with
    | Some v => Some v
    | None => match o with OpLimit v => if v <? 0 then None else Some v | _ => None end
    end
  end.

(** the limit after a history *)
Definition limst (s : astate) (cfg : option Z) (tr : trace) : Prop :=
  match cfg with
  | Some v => alimit s = v
  | None => (alimit s = -1 /\ forall e, In e tr -> ~ rl e) \/ (0 <= alimit s /\ capped (alimit s) tr)
  end.
Lemma free_norl : forall p d a, ~ rl (Other (bs "free") [p] d, a).
Proof. intros p d a [k K]. discriminate. Qed.
Lemma freelist_tr : forall l m tr o, runs (freelist l m) tr o -> forall e, In e tr -> ~ rl e.
Proof.
  induction l as [|[[nd p] n] l IH]; intros m tr o R e I; cbn [freelist] in R.
  - destruct R as [-> _]. destruct I.
  - cbn [pbind sys1] in R. destruct R as [[-> _]|(a & t & -> & R)]; [destruct I|]. destruct R as [[-> _]|(b & t' & -> & R)].
    + destruct I as [<-|[]]. apply free_norl.
    + destruct I as [<-|[<-|I]]; try apply free_norl. eapply IH; eauto.
Qed.
Lemma free_tr : forall space s p tr s', runs (alloc_free space s p) tr (Fin s') -> alimit s' = alimit s /\ forall e, In e tr -> ~ rl e.
Proof.
  intros space s p tr s' R. unfold alloc_free in R. destruct (p =? 0); [destruct R as [-> Q]; injection Q as ->; auto|].
  destruct (is_static space p); [destruct R as [-> Q]; injection Q as ->; auto|].
  destruct (alloc_remove (ahead s) p) as [[[[nd ?] n] l]|]; [|destruct R as [-> Q]; injection Q as ->; auto].
  apply runs_bind in R as [(t & t1 & t2 & -> & R1 & R)|[[R1 Q]|[R1 Q]]]; [|discriminate|discriminate].
  assert (t1 = []) as -> by (destruct (s64 (allocated s - n)); destruct R1; congruence). cbn [pbind sys1] in R.
  destruct R as [[-> Q]|(a & t' & -> & R)]; [discriminate|]. destruct R as [[-> Q]|(b & t'' & -> & R)]; [discriminate|]. destruct R as [-> Q]. injection Q as ->.
  split; auto. intros e [<-|[<-|[]]]; apply free_norl.
Qed.

Lemma use_lim : forall space h s live dead tr s' live' dead' cfg t0, -1 <= alimit s -> (forall v, cfg = Some v -> 0 <= v) -> limst s cfg t0 ->
  runs (use space h (s, live, dead)) tr (Fin (s', live', dead')) ->
  limst s' (match limit_of h with Some v => Some v | None => cfg end) (t0 ++ tr).
Proof.
  intros space. induction h as [|op h IH]; intros s live dead tr s' live' dead' cfg t0 L CF LS R; cbn [use limit_of] in *.
  - destruct R as [-> Q]. injection Q as -> -> ->. rewrite app_nil_r. auto.
  - apply runs_bind in R as [([[s1 live1] dead1] & t1 & t2 & -> & R1 & R)|[[R1 Q]|[R1 Q]]]; [|discriminate|discriminate].
    rewrite app_assoc.
    assert (G : forall c1, (forall v, c1 = Some v -> 0 <= v) -> -1 <= alimit s1 -> limst s1 c1 (t0 ++ t1) -> limst s' (match limit_of h with Some v => Some v | None => c1 end) ((t0 ++ t1) ++ t2)).
    { intros c1 C1 L1 S1. eapply IH; eauto. }
    clear IH R.
    assert (K : limfact s s1 t1 -> limst s1 cfg (t0 ++ t1) /\ -1 <= alimit s1).
    { intros [A B]. destruct cfg as [v|]; cbn [limst] in *.
      - specialize (CF v eq_refl). destruct A as [A _]; [lia|]. split; lia.
      - destruct LS as [[L1 L2]|[L1 L2]].
        + destruct (B L1) as [[B1 B2]|[B1 B2]]; (split; [|lia]).
          * left. split; auto. intros e I. apply in_app_iff in I as [I|I]; auto.
          * right. split; auto. intros k a I R D. apply in_app_iff in I as [I|I]; [exfalso; apply (L2 _ I); exists k; reflexivity|]. eapply B2; eauto.
        + destruct A as [A A2]; [lia|]. split; [|lia]. right. rewrite A. split; auto. intros k a I R D. apply in_app_iff in I as [I|I]; [eapply L2; eauto|]. exfalso; apply (A2 _ I); exists k; reflexivity. }
    assert (K2 : limfact s s1 t1 -> limst s' (match match limit_of h with Some v => Some v | None => None end with Some v => Some v | None => cfg end) ((t0 ++ t1) ++ t2)).
    { intros LF. destruct (K LF) as [K1 K3]. specialize (G cfg CF K3 K1). destruct (limit_of h); auto. }
    destruct op as [n|i off d|i| |v]; cbn [use1] in R1.
    + apply K2. apply runs_bind in R1 as [([[p e] s2] & t3 & t4 & -> & R1 & R)|[[R1 Q]|[R1 Q]]]; [|discriminate|discriminate].
      destruct R as [-> Q]. injection Q as -> _ _. rewrite app_nil_r. eapply alloc_lim; eauto.
    + apply K2. destruct (nth_error live i) as [[p n]|]; [|destruct R1 as [-> Q]; injection Q as -> _ _; apply limfact_same; auto].
      destruct ((0 <=? off) && (off + len d <=? n)); destruct R1 as [-> Q]; injection Q as -> _ _; apply limfact_same; auto.
    + apply K2. destruct (nth_error live i) as [[p n]|]; [|destruct R1 as [-> Q]; injection Q as -> _ _; apply limfact_same; auto].
      apply runs_bind in R1 as [(s2 & t3 & t4 & -> & R1 & R)|[[R1 Q]|[R1 Q]]]; [|discriminate|discriminate].
      destruct R as [-> Q]. injection Q as -> _ _. rewrite app_nil_r. apply free_tr in R1 as [E1 E2]. apply limfact_same; auto.
    + apply K2. unfold alloc_freeall in R1. apply runs_bind in R1 as [(s2 & t3 & t4 & -> & R1 & R)|[[R1 Q]|[R1 Q]]]; [|discriminate|discriminate].
      destruct R as [-> Q]. injection Q as -> _ _. apply runs_bind in R1 as [(m & t5 & t6 & -> & R1 & R)|[[R1 Q]|[R1 Q]]]; [|discriminate|discriminate].
      destruct R as [-> Q]. injection Q as ->. rewrite !app_nil_r. apply limfact_same; auto. intros e I. eapply freelist_tr; eauto.
    + destruct R1 as [-> Q]. injection Q as -> _ _. unfold alloc_limit in *. destruct (Z.ltb_spec v 0).
      * apply K2; apply limfact_same; auto.
      * specialize (G (Some v)). cbn [limst alimit] in G. assert (G' : limst s' match limit_of h with Some v0 => Some v0 | None => Some v end ((t0 ++ []) ++ t2)).
        { apply G; auto; [intros w Q; injection Q as <-; lia|lia]. } destruct (limit_of h); auto.
Qed.
