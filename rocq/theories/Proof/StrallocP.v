(** Lemmas about growable strings. *)
From Verif.Model Require Import Base Sys Io Str Buffer Stralloc.
From Verif.Spec Require Import Num Grow Stream.
From Verif.Proof Require Import Tac NumP SysP IoP StrP BufferP.

(** ** Decimal text *)
Lemma putdigits_len : forall k u, length (putdigits k u) = k.
Proof. induction k; intros u; cbn [putdigits]; auto. rewrite app_length, IHk. cbn. lia. Qed.

Lemma putdigits_digit : forall k u, Forall digit (putdigits k u).
Proof.
  induction k; intros u; cbn [putdigits]; [constructor|]. apply Forall_app. split; auto.
  apply Forall_cons; [|apply Forall_nil]. unfold digit. pose proof (Z.mod_pos_bound u 10 ltac:(lia)). lia.
Qed.

Lemma putdigits_val : forall k u, 0 <= u < 10 ^ Z.of_nat k -> decval (putdigits k u) = u.
Proof.
  induction k; intros u U; cbn [putdigits].
  - cbn in *. lia.
  - rewrite decval_snoc, IHk.
    + pose proof (Z.div_mod u 10 ltac:(lia)). lia.
    + rewrite Nat2Z.inj_succ, Z.pow_succ_r in U by lia. split; [apply Z.div_pos; lia|]. apply Z.div_lt_upper_bound; lia.
Qed.

Lemma putdigits_zero : forall z, putdigits z 0 = repeat 48 z.
Proof.
  induction z; cbn [putdigits]; auto. change (0 / 10) with 0. change (48 + 0 mod 10) with 48. rewrite IHz.
  rewrite <- repeat_cons. reflexivity.
Qed.

Lemma putdigits_pad : forall k z u, 0 <= u < 10 ^ Z.of_nat k -> putdigits (z + k) u = repeat 48 z ++ putdigits k u.
Proof.
  induction k; intros z u U.
  - rewrite Nat.add_0_r. cbn in U. replace u with 0 by lia. cbn [putdigits]. rewrite app_nil_r. apply putdigits_zero.
  - rewrite Nat.add_succ_r. cbn [putdigits]. rewrite IHk, app_assoc; auto.
    rewrite Nat2Z.inj_succ, Z.pow_succ_r in U by lia. split; [apply Z.div_pos; lia|]. apply Z.div_lt_upper_bound; lia.
Qed.

Lemma putdigits_head : forall k u, 10 ^ Z.of_nat k <= u < 10 ^ Z.of_nat (S k) ->
  exists c t, putdigits (S k) u = c :: t /\ 49 <= c <= 57.
Proof.
  induction k; intros u U.
  - cbn [putdigits app]. cbn in U. exists (48 + u mod 10), []. split; auto. rewrite Z.mod_small by lia. lia.
  - destruct (IHk (u / 10)) as (c & t & E & C).
    { rewrite (Nat2Z.inj_succ (S k)), (Nat2Z.inj_succ k), !Z.pow_succ_r in * by lia. split.
      - apply Z.div_le_lower_bound; lia.
      - apply Z.div_lt_upper_bound; lia. }
    change (putdigits (S (S k)) u) with (putdigits (S k) (u / 10) ++ [48 + u mod 10]). rewrite E. cbn [app]. eauto.
Qed.

Lemma ndigits_ok : forall f q n, 0 <= q < 10 ^ Z.of_nat f -> (0 < f)%nat ->
  exists k, ndigits f q n = n + Z.of_nat k /\ q < 10 ^ Z.of_nat (S k) /\ (k = O \/ 10 ^ Z.of_nat k <= q) /\ (k < f)%nat.
Proof.
  induction f; intros q n Q F; [lia|]. cbn [ndigits]. destruct (Z.ltb_spec 9 q).
  - destruct f as [|f]. { cbn in Q. lia. }
    destruct (IHf (q / 10) (n + 1)) as (k & E & A & B & C).
    + rewrite Nat2Z.inj_succ, Z.pow_succ_r in Q by lia. split; [apply Z.div_pos; lia|]. apply Z.div_lt_upper_bound; lia.
    + lia.
    + exists (S k). split; [lia|]. pose proof (Z.div_mod q 10 ltac:(lia)). pose proof (Z.mod_pos_bound q 10 ltac:(lia)).
      split; [|split; [right|lia]].
      * rewrite (Nat2Z.inj_succ (S k)), Z.pow_succ_r by lia. lia.
      * rewrite Nat2Z.inj_succ, Z.pow_succ_r by lia. destruct B as [->|B]; [cbn; lia|lia].
  - exists O. split; [lia|]. split; [cbn; lia|]. split; [auto|lia].
Qed.

Lemma numtext : forall u n, 0 <= u < two64 ->
  let l := ndigits 20 u 1 in
  let l := if l <? n then n else l in
  padded u n (putdigits (Z.to_nat l) u) /\ 1 <= l /\ (l <= 20 \/ l <= n).
Proof.
  intros u n U. destruct (ndigits_ok 20 u 1) as (k & E & A & B & C); [unfold two64 in U; cbn; lia|lia|].
  cbn zeta. rewrite E. set (l := if 1 + Z.of_nat k <? n then n else 1 + Z.of_nat k).
  assert (L : l = Z.max n (1 + Z.of_nat k)). { unfold l. destruct (Z.ltb_spec (1 + Z.of_nat k) n); lia. }
  split; [|lia]. exists (Z.to_nat l - S k)%nat, (putdigits (S k) u).
  split; [rewrite <- putdigits_pad by lia; f_equal; lia|]. split.
  - destruct B as [->|B].
    + cbn [putdigits app]. cbn in A. rewrite Z.mod_small by lia. destruct (Z.eqb_spec u 0) as [->|NZ]; [left; reflexivity|].
      right. exists (48 + u), []. split; auto. split; [lia|constructor].
    + right. destruct (putdigits_head k u) as (c & t & E2 & C2); [lia|]. exists c, t. split; auto. split; auto.
      pose proof (putdigits_digit (S k) u) as D. rewrite E2 in D. apply Forall_cons_iff in D. tauto.
  - split; [apply putdigits_val; lia|]. unfold len. rewrite putdigits_len. lia.
Qed.

(** ** Invariant *)
Definition content (r : stralloc) : list Z :=
  match sm r with Some m => firstn (Z.to_nat (slen r)) m | None => [] end.
Definition sinv (r : stralloc) : Prop :=
  0 <= slen r <= salloc r /\
  match sm r with Some m => len m = salloc r /\ 32 <= salloc r | None => slen r = 0 /\ salloc r = 0 end.

Lemma content_len : forall r, sinv r -> len (content r) = slen r.
Proof.
  intros r [A B]. unfold content. destruct (sm r) as [m|].
  - unfold len in *. rewrite firstn_length. lia.
  - rewrite len_nil. lia.
Qed.

Lemma grow_ok : forall f want na, 0 <= na -> want <= 2 ^ 61 -> 32 * 2 ^ (64 - Z.of_nat f) <= na + 32 -> (f <= 64)%nat -> (3 <= f)%nat ->
  exists r, grow f want na = Ok r /\ want <= r /\ na <= r /\ (na < want -> 32 <= r < 2 ^ 62 + 32) /\ (r < want -> False).
Proof.
  induction f; intros want na N W B F G; [lia|]. cbn [grow]. destruct (Z.ltb_spec na want) as [L|L].
  - assert (in_s64b (2 * na + 32) = true) as -> by (unfold in_s64b, two63; cbn in W; lia).
    assert (FF : (3 <= f)%nat).
    { destruct (Nat.leb_spec 3 f); auto. exfalso. assert (f = 2%nat) as -> by lia. cbn in B, W. lia. }
    destruct (IHf want (2 * na + 32)) as (r & E & R1 & R2 & R3 & R4); try lia.
    + replace (64 - Z.of_nat f) with (Z.succ (64 - Z.of_nat (S f))) by lia. rewrite Z.pow_succ_r by lia. lia.
    + exists r. split; auto. split; auto. split; [lia|]. split; [|lia]. intros _.
      destruct (Z.ltb_spec (2 * na + 32) want); [apply R3; auto|].
      destruct f; cbn [grow] in E; [discriminate|]. destruct (Z.ltb_spec (2 * na + 32) want); [lia|]. inv E. lia.
  - exists na. split; auto. repeat split; lia.
Qed.

(** The last event is an allocation that failed. *)
Definition nomem (tr : trace) : Prop := exists t n a, tr = t ++ [(Alloc n, a)] /\ ret a = 0.

Lemma ready_ok : forall r n tr o, runs (stralloc_readyplus r n) tr o -> sinv r -> 0 < n -> slen r + n < 2 ^ 61 ->
  match o with
  | Wrong => False
  | Cut => True
  | Fin (Good, r') => sinv r' /\ content r' = content r /\ slen r' = slen r /\ slen r + n < salloc r' /\ exists m, sm r' = Some m
  | Fin (Fail e, r') => r' = r /\ nomem tr
  end.
Proof.
  intros r n tr o R [S1 S2] N B. unfold stralloc_readyplus in R.
  destruct (Z.ltb_spec n 0); [lia|]. destruct (Z.eqb_spec n 0); [lia|].
  assert (in_s64b (slen r + n) && in_s64b (slen r + n + 1) = true) as E by (unfold in_s64b, two63; cbn in B; lia).
  rewrite E in R. cbn [negb] in R. destruct (Z.ltb_spec (salloc r) (slen r + n + 1)) as [L|L].
  - destruct (grow_ok 64 (slen r + n + 1) (salloc r)) as (na & G & G1 & G2 & G3 & _); try lia.
    rewrite G in R. cbn [lift pbind] in R. specialize (G3 L).
    destruct R as [[-> ->]|(a & tr' & -> & R)]; auto.
    destruct (Z.eqb_spec (ret a) 0).
    + destruct R as [-> ->]. split; auto. exists [], na, a. auto.
    + set (fresh := repeat 0 (Z.to_nat na)) in *. assert (LF : len fresh = na) by (unfold fresh, len; rewrite repeat_length; lia).
      destruct (sm r) as [m|] eqn:EM.
      * destruct (copyin_ok fresh 0 m (slen r)) as (d & Ed & D1 & D2 & _); try lia. rewrite Ed in R. cbn [lift pbind] in R. destruct R as [-> ->].
        unfold sinv, content. cbn [sm slen salloc]. rewrite EM. split; [lia|]. split; [|split; [auto|split; [lia|eauto]]].
        rewrite Z.add_0_l in D2. exact D2.
      * destruct R as [-> ->]. unfold sinv, content. cbn [sm slen salloc]. rewrite EM. split; [lia|].
        split; [|split; [auto|split; [lia|eauto]]]. destruct S2 as [-> _]. reflexivity.
  - destruct R as [-> ->]. split; [split; auto|]. split; auto. split; auto. split; [lia|].
    destruct (sm r); [eauto|lia].
Qed.

Lemma store_ok : forall r x n tr o, runs (stralloc_store r x n) tr o -> sinv r -> 0 <= n <= len x -> slen r + n < salloc r ->
  (exists m, sm r = Some m) ->
  match o with
  | Fin (Good, r') => tr = [] /\ sinv r' /\ content r' = content r ++ firstn (Z.to_nat n) x /\ slen r' = slen r + n
  | _ => False
  end.
Proof.
  intros r x n tr o R [S1 S2] N B (m & EM). unfold stralloc_store in R. rewrite EM in *.
  destruct (copyin_ok m (slen r) x n) as (d & Ed & D1 & D2 & _); try lia. rewrite Ed in R. cbn [lift pbind] in R. destruct R as [-> ->].
  split; auto. unfold sinv, content. cbn [sm slen salloc]. rewrite EM. split; [lia|]. split; auto.
Qed.

Definition sok (r : stralloc) (arg : list Z) (tr : trace) (o : outcome (rc * stralloc)) : Prop :=
  match o with
  | Wrong => False
  | Cut => True
  | Fin (Good, r') => sinv r' /\ content r' = content r ++ arg
  | Fin (Fail e, r') => r' = r /\ nomem tr
  end.

Lemma catb_ok : forall r m extra tr o, runs (stralloc_catb r (Some (m ++ extra)) (len m)) tr o -> sinv r ->
  slen r + len m < 2 ^ 61 -> sok r m tr o.
Proof.
  intros r m extra tr o R S B. unfold stralloc_catb in R. pose proof (len_nonneg _ m). pose proof (len_nonneg _ extra).
  destruct (Z.ltb_spec (len m) 0); [lia|]. destruct (Z.eqb_spec (len m) 0).
  - destruct R as [-> ->]. assert (m = []) as ->. { destruct m; auto. rewrite len_cons in *. pose proof (len_nonneg _ m). lia. }
    cbn [sok]. rewrite app_nil_r. auto.
  - apply runs_bind in R as [([c r1] & t1 & t2 & -> & R1 & R2)|[[R1 ->]|[R1 ->]]].
    + pose proof (ready_ok _ _ _ _ R1 S ltac:(lia) B) as H2. destruct c as [|e].
      * destruct H2 as (S1 & C1 & L1 & A1 & M1). rewrite <- L1 in A1. pose proof (store_ok _ _ _ _ _ R2 S1 ltac:(rewrite len_app; lia) A1 M1) as H3.
        destruct o as [[[|e] r2]| |]; try tauto. destruct H3 as (-> & S2 & C2 & _). cbn [sok]. split; auto. rewrite C2, C1. f_equal.
        unfold len. rewrite Nat2Z.id. apply firstn_app_exact.
      * destruct R2 as [-> ->]. rewrite app_nil_r. exact H2.
    + exact (ready_ok _ _ _ _ R1 S ltac:(lia) B).
    + exact Logic.I.
Qed.

Lemma cats_ok : forall r m tr o, runs (stralloc_cats r (Some (m ++ [0]))) tr o -> nonul m -> sinv r ->
  slen r + len m < 2 ^ 61 -> sok r m tr o.
Proof.
  intros r m tr o R NU S B. unfold stralloc_cats in R. rewrite str_len_ok in R by assumption. cbn [lift pbind] in R.
  apply (catb_ok r m [0]); auto.
Qed.

Lemma catunum0_ok : forall r u n tr o, runs (stralloc_catunum0 r u n) tr o -> sinv r -> 0 <= u < two64 ->
  slen r + 20 + Z.max 0 n < 2 ^ 61 ->
  exists t, padded u n t /\ sok r t tr o.
Proof.
  intros r u n tr o R S U B. unfold stralloc_catunum0 in R. destruct (numtext u n U) as (P & L1 & L2). cbn zeta in *.
  set (l := if ndigits 20 u 1 <? n then n else ndigits 20 u 1) in *.
  exists (putdigits (Z.to_nat l) u). split; [exact P|].
  assert (LL : slen r + l < 2 ^ 61) by lia.
  apply runs_bind in R as [([c r1] & t1 & t2 & -> & R1 & R2)|[[R1 ->]|[R1 ->]]].
  - pose proof (ready_ok _ _ _ _ R1 S ltac:(lia) LL) as H2. destruct c as [|e].
    + destruct H2 as (S1 & C1 & E1 & A1 & M1). rewrite <- E1 in A1.
      assert (LP : len (putdigits (Z.to_nat l) u) = l). { unfold len. rewrite putdigits_len. lia. }
      pose proof (store_ok _ _ _ _ _ R2 S1 ltac:(lia) A1 M1) as H3.
      destruct o as [[[|e] r2]| |]; try tauto. destruct H3 as (-> & S2 & C2 & _). cbn [sok]. split; auto. rewrite C2, C1. f_equal.
      apply firstn_all2. rewrite putdigits_len. lia.
    + destruct R2 as [-> ->]. rewrite app_nil_r. exact H2.
  - exact (ready_ok _ _ _ _ R1 S ltac:(lia) LL).
  - exact Logic.I.
Qed.

(** Signed numbers: a failed call may have added the minus sign. *)
Lemma catnum0_ok : forall r l n tr o, runs (stralloc_catnum0 r l n) tr o -> sinv r -> in_s64 l ->
  slen r + 21 + Z.max 0 n < 2 ^ 61 ->
  match o with
  | Wrong => False
  | Cut => True
  | Fin (Good, r') => sinv r' /\ exists t, number l n t /\ content r' = content r ++ t
  | Fin (Fail e, r') => sinv r' /\ nomem tr /\ (content r' = content r \/ (l < 0 /\ content r' = content r ++ [45]))
  end.
Proof.
  intros r l n tr o R S I B. unfold stralloc_catnum0 in R. unfold in_s64 in I. destruct (Z.ltb_spec l 0) as [L|L].
  - apply runs_bind in R as [([c r1] & t1 & t2 & -> & R1 & R2)|[[R1 ->]|[R1 ->]]].
    + unfold stralloc_append in R1. change (Some [45]) with (Some ([45] ++ [])) in R1. change 1 with (len [45]) in R1.
      pose proof (catb_ok _ _ _ _ _ R1 S) as H. specialize (H ltac:(change (len [45]) with 1; lia)). destruct c as [|e].
      * destruct H as [S1 C1].
        assert (U : u64 (- u64 l) = - l).
        { unfold u64. replace (- (l mod two64)) with (0 - l mod two64) by lia.
          rewrite Zminus_mod_idemp_r. replace (0 - l) with (- l) by lia. apply Z.mod_small. unfold two63, two64 in *. lia. }
        rewrite U in R2. pose proof (content_len _ S1) as CL. rewrite C1, len_app, content_len in CL by assumption.
        change (len [45]) with 1 in CL.
        destruct (catunum0_ok _ _ _ _ _ R2 S1) as (t & P & H); [unfold two63, two64 in *; lia|lia|].
        destruct o as [[[|e] r2]| |]; cbn [sok] in H; auto.
        -- destruct H as [S2 C2]. split; auto. exists (45 :: t). split; [right; split; [lia|eauto]|].
           rewrite C2, C1, <- app_assoc. reflexivity.
        -- destruct H as (-> & (t' & k & a & -> & A)). split; auto. split; [|right; auto]. exists (t1 ++ t'), k, a. rewrite app_assoc. auto.
      * destruct R2 as [-> ->]. destruct H as [-> H]. rewrite app_nil_r. split; auto.
    + unfold stralloc_append in R1. change (Some [45]) with (Some ([45] ++ [])) in R1. change 1 with (len [45]) in R1.
      apply (catb_ok _ _ _ _ _ R1 S). change (len [45]) with 1. lia.
    + exact Logic.I.
  - rewrite u64_id in R by (unfold two63, two64 in *; lia).
    destruct (catunum0_ok _ _ _ _ _ R S) as (t & P & H); [unfold two63, two64 in *; lia|lia|].
    destruct o as [[[|e] r2]| |]; cbn [sok] in H; auto.
    + destruct H as [S2 C2]. split; auto. exists t. split; [left; auto|auto].
    + destruct H as (-> & H). auto.
Qed.

(** ** Histories *)

(** One operation of the model.  Source byte strings may be followed by other memory; a
    source buffer is any well-formed buffer with the given content. *)
Definition src (y : option (list Z)) : stralloc :=
  match y with Some x => mksa (Some (x ++ repeat 0 32)) (len x) (len x + 32) | None => sa_empty end.
Definition sop_run (r : stralloc) (o : sop) : prog (rc * stralloc) :=
  match o with
  | Scatb x => stralloc_catb r (Some x) (len x)
  | Scats x => stralloc_cats r (Some (x ++ [0]))
  | Scat y => stralloc_cat r (src y)
  | Sappend c => stralloc_append r (Some [c])
  | Szero => stralloc_0 r
  | Scopyb x => stralloc_copyb r (Some x) (len x)
  | Scopys x => stralloc_copys r (Some (x ++ [0]))
  | Scopy y => stralloc_copy r (src y)
  | Scatnum v w => stralloc_catnum0 r v w
  | Scopynum v => stralloc_copynum r v
  | Sfree => Ret (Good, stralloc_free r)
  end.
Definition sop_wf (o : sop) : Prop :=
  match o with
  | Scats x | Scopys x => nonul x
  | Scatnum v _ | Scopynum v => in_s64 v
  | _ => True
  end.
Definition sop_null (o : sop) : Prop := match o with Scat None | Scopy None => True | _ => False end.
Definition isgood (c : rc) : bool := match c with Good => true | Fail _ => false end.

Lemma clear_inv : forall r, sinv r -> sinv (sa_clear r) /\ content (sa_clear r) = [].
Proof.
  intros r [A B]. unfold sinv, content, sa_clear. cbn [sm slen salloc]. split.
  - split; [lia|]. destruct (sm r); auto. lia.
  - destruct (sm r); reflexivity.
Qed.

Lemma sop_size_nonneg : forall o, 0 <= sop_size o.
Proof. destruct o as [| |[]| | | | |[]| | |]; cbn [sop_size]; try lia; apply len_nonneg. Qed.

Lemma number_len : forall v w t, in_s64 v -> number v w t -> len t <= 21 + Z.max 0 w.
Proof.
  intros v w t I H.
  assert (P : forall u t, 0 <= u < two64 -> padded u w t -> len t <= 20 + Z.max 0 w).
  { intros u t0 U (z & m & -> & N & D & E). rewrite len_app.
    assert (len m <= 20).
    { destruct N as [->|(c & s & -> & C & F)]; [change (len (bs "0")) with 1; lia|]. destruct (Z.leb_spec (len (c :: s)) 20); auto.
      cbn [decval] in D. pose proof (decval_nonneg _ F). rewrite len_cons in *.
      pose proof (Z.pow_le_mono_r 10 20 (len s) ltac:(lia) ltac:(lia)). unfold two64 in U. change (10 ^ 20) with 100000000000000000000 in *. nia. }
    unfold len at 1. rewrite repeat_length. lia. }
  unfold in_s64, two63 in I. destruct H as [(V & H)|(V & u & -> & H)].
  - apply P in H; unfold two64; lia.
  - apply P in H; [rewrite len_cons|unfold two64]; lia.
Qed.

Lemma sop_ok : forall r x tr o, runs (sop_run r x) tr o -> sinv r -> sop_wf x -> slen r + sop_size x < 2 ^ 61 ->
  match o with
  | Wrong => False
  | Cut => True
  | Fin (c, r') => sinv r' /\ sop_sem x (isgood c) (content r) (content r') /\ slen r' <= slen r + sop_size x /\
      (isgood c = false -> nomem tr \/ sop_null x)
  end.
Proof.
  intros r x tr o R S W B.
  assert (CL : forall r', sinv r' -> slen r' = len (content r')) by (intros; symmetry; apply content_len; auto).
  assert (A : forall arg, sok r arg tr o -> sop_size x = len arg -> (sop_sem x true (content r) (content r ++ arg)) ->
     (sop_sem x false (content r) (content r)) ->
     match o with
     | Wrong => False | Cut => True
     | Fin (c, r') => sinv r' /\ sop_sem x (isgood c) (content r) (content r') /\ slen r' <= slen r + sop_size x /\
        (isgood c = false -> nomem tr \/ sop_null x) end).
  { intros arg H E T F. destruct o as [[[|e] r']| |]; auto; cbn [sok isgood] in *.
    - destruct H as [H1 H2]. rewrite H2. split; auto. split; auto. split; [|discriminate]. rewrite (CL _ H1), H2, len_app, content_len by auto. lia.
    - destruct H as (-> & H). pose proof (sop_size_nonneg x). split; auto. split; auto. split; [lia|auto]. }
  assert (A2 : forall arg, sok (sa_clear r) arg tr o -> sop_size x = len arg -> (sop_sem x true (content r) arg) ->
     (sop_sem x false (content r) []) ->
     match o with
     | Wrong => False | Cut => True
     | Fin (c, r') => sinv r' /\ sop_sem x (isgood c) (content r) (content r') /\ slen r' <= slen r + sop_size x /\
        (isgood c = false -> nomem tr \/ sop_null x) end).
  { intros arg H E T F. destruct (clear_inv r S) as [S0 C0]. destruct o as [[[|e] r']| |]; auto; cbn [sok isgood] in *.
    - destruct H as [H1 H2]. rewrite C0 in H2. cbn [app] in H2. rewrite H2. split; auto. split; auto. split; [|discriminate].
      rewrite (CL _ H1), H2. destruct S as [S _]. lia.
    - destruct H as (-> & H). rewrite C0. pose proof (sop_size_nonneg x). split; auto. split; auto. split; [|auto]. destruct S as [S _]. cbn [slen sa_clear]. lia. }
  destruct (clear_inv r S) as [S0 C0]. pose proof S as [SB _].
  destruct x as [x|x|[x|]|c| |x|x|[x|]|v w|v|]; cbn [sop_run sop_size sop_wf] in *.
  - apply (A x); auto; [|reflexivity..]. apply (catb_ok r x []); auto. rewrite app_nil_r. exact R.
  - apply (A x); auto; [|reflexivity..]. apply (cats_ok r x); auto.
  - apply (A x); auto; [|reflexivity..]. apply (catb_ok r x (repeat 0 32)); auto.
  - destruct R as [-> ->]. cbn. repeat (split; auto). lia.
  - apply (A [c]); auto; [|reflexivity..]. apply (catb_ok r [c] []); auto.
  - apply (A [0]); auto; [|reflexivity..]. apply (catb_ok r [0] []); auto.
  - apply (A2 x); auto; [|reflexivity..]. apply (catb_ok _ x []); auto; [rewrite app_nil_r; exact R|cbn [slen sa_clear]; lia].
  - apply (A2 x); auto; [|reflexivity..]. apply (cats_ok _ x); auto. cbn [slen sa_clear]. lia.
  - apply (A2 x); auto; [|reflexivity..]. apply (catb_ok _ x (repeat 0 32)); auto. cbn [slen sa_clear]. lia.
  - destruct R as [-> ->]. cbn [isgood sop_sem sop_null]. rewrite C0. split; auto. split; auto. split; [cbn [slen sa_clear]; lia|auto].
  - pose proof (catnum0_ok _ _ _ _ _ R S W ltac:(lia)) as H. destruct o as [[[|e] r']| |]; auto; cbn [isgood sop_sem].
    + destruct H as (H1 & t & H2 & H3). split; auto. split; [eauto|]. split; [|discriminate].
      rewrite (CL _ H1), H3, len_app, content_len by auto. pose proof (number_len _ _ _ W H2). lia.
    + destruct H as (H1 & H2 & H3). split; auto. split; auto. split; [|auto]. rewrite (CL _ H1).
      destruct H3 as [->|[_ ->]]; [|rewrite len_app; change (len [45]) with 1]; rewrite content_len by auto; lia.
  - pose proof (catnum0_ok _ _ _ _ _ R S0 W) as H. specialize (H ltac:(cbn [slen sa_clear]; lia)). rewrite C0 in H.
    destruct o as [[[|e] r']| |]; auto; cbn [isgood sop_sem].
    + destruct H as (H1 & t & H2 & H3). cbn [app] in H3. split; auto. rewrite H3. split; [exact H2|]. split; [|discriminate].
      rewrite (CL _ H1), H3. pose proof (number_len _ _ _ W H2). lia.
    + destruct H as (H1 & H2 & H3). split; auto. split; [exact H3|]. split; [|auto]. rewrite (CL _ H1).
      destruct H3 as [->|[_ ->]]; unfold len; cbn [length app]; lia.
  - destruct R as [-> ->]. cbn [isgood sop_sem]. split; [split; cbn; lia|]. split; [reflexivity|]. split; [cbn; lia|discriminate].
Qed.

(** A history: every operation is tried, whatever the earlier ones reported. *)
Fixpoint sops (r : stralloc) (l : list sop) : prog (list bool * stralloc) :=
  match l with
  | [] => Ret ([], r)
  | x :: t => '(c, r1) <~ sop_run r x ;; '(bs, r2) <~ sops r1 t ;; Ret (isgood c :: bs, r2)
  end.
Inductive sems : list sop -> list bool -> list Z -> list Z -> Prop :=
| sems_nil c : sems [] [] c c
| sems_cons x l b bs c0 c1 c2 : sop_sem x b c0 c1 -> sems l bs c1 c2 -> sems (x :: l) (b :: bs) c0 c2.
Definition total (l : list sop) : Z := fold_right (fun x s => sop_size x + s) 0 l.

Lemma sops_ok : forall l r tr o, runs (sops r l) tr o -> sinv r -> Forall sop_wf l -> slen r + total l < 2 ^ 61 ->
  match o with
  | Wrong => False
  | Cut => True
  | Fin (bs, r') => sinv r' /\ sems l bs (content r) (content r')
  end.
Proof.
  induction l as [|x l IH]; intros r tr o R S W B; cbn [sops] in R.
  - destruct R as [-> ->]. split; auto. constructor.
  - apply Forall_cons_iff in W as [Wx W]. cbn [total fold_right] in B. change (fold_right _ 0 l) with (total l) in B.
    assert (T : 0 <= total l).
    { clear. induction l as [|y l IH]; cbn [total fold_right]; [lia|]. pose proof (sop_size_nonneg y). change (fold_right _ 0 l) with (total l). lia. }
    assert (BX : slen r + sop_size x < 2 ^ 61) by lia.
    apply runs_bind in R as [([c r1] & t1 & t2 & -> & R1 & R2)|[[R1 ->]|[R1 ->]]].
    + destruct (sop_ok _ _ _ _ R1 S Wx BX) as (S1 & M & L1 & _).
      apply runs_bind in R2 as [([bs r2] & u1 & u2 & -> & T1 & T2)|[[T1 ->]|[T1 ->]]].
      * destruct T2 as [-> ->]. destruct (IH _ _ _ T1 S1 W ltac:(lia)) as [S2 M2]. split; auto. econstructor; eauto.
      * exact (IH _ _ _ T1 S1 W ltac:(lia)).
      * auto.
    + exact (sop_ok _ _ _ _ R1 S Wx BX).
    + auto.
Qed.
