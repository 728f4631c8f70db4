(** Lemmas about the certificate choice. *)
From Verif.Model Require Import Base Sys Io Str Buffer Stralloc Parsename Config Choose.
From Verif.Spec Require Import Stream Text Name Settings Choice.
From Verif.Proof Require Import Tac SysP IoP StrP BufferP StrallocP NameP ConfigP CallsP.

(** ** hash_choose *)
Lemma bit_test : forall m x, 0 <= x -> (Z.land (Z.shiftr m x) 1 =? 0) = negb (Z.testbit m x).
Proof.
  intros m x X. change 1 with (Z.ones 1). rewrite Z.land_ones by lia. change (2 ^ 1) with 2.
  rewrite <- Z.bit0_mod, Z.shiftr_spec by lia. rewrite Z.add_0_l. destruct (Z.testbit m x); reflexivity.
Qed.
Lemma hash_choose_ok : forall m, best_hash m (hash_choose m).
Proof.
  intros m. unfold hash_choose, hash_scan, best_hash, usable_hashes. rewrite !bit_test by lia.
  destruct (Z.testbit m 6) eqn:E6; cbn [negb]; [right; repeat split; [cbn; auto|auto|cbn; lia]|].
  destruct (Z.testbit m 5) eqn:E5; cbn [negb]; [right; repeat split; [cbn; auto|auto|]|].
  { intros g [<-|[<-|[<-|[<-|[]]]]] H; (lia || congruence). }
  destruct (Z.testbit m 4) eqn:E4; cbn [negb]; [right; repeat split; [cbn; auto|auto|]|].
  { intros g [<-|[<-|[<-|[<-|[]]]]] H; (lia || congruence). }
  destruct (Z.testbit m 2) eqn:E2; cbn [negb]; [right; repeat split; [cbn; auto|auto|]|].
  { intros g [<-|[<-|[<-|[<-|[]]]]] H; (lia || congruence). }
  left. split; auto. intros g [<-|[<-|[<-|[<-|[]]]]]; auto.
Qed.

(** ** copyfn *)
Lemma cats_text : forall r p tr o, runs (stralloc_cats r (Some p)) tr o -> is_cstr p -> sinv r ->
  slen r + len (text p) < 2 ^ 61 -> sok r (text p) tr o.
Proof.
  intros r p tr o R C S B. destruct C as (s & rest & -> & N). rewrite text_ok in * by assumption. unfold stralloc_cats in R.
  rewrite str_len_ok in R by assumption. cbn [lift pbind] in R. apply (catb_ok r s (0 :: rest)); auto.
Qed.
Lemma stralloc0_ok : forall r tr o, runs (stralloc_0 r) tr o -> sinv r -> slen r + 1 < 2 ^ 61 -> sok r [0] tr o.
Proof. intros r tr o R S B. unfold stralloc_0, stralloc_append in R. apply (catb_ok r [0] []); auto. Qed.

Lemma nomem_in : forall tr, nomem tr -> exists n a, In (Alloc n, a) tr /\ ret a = 0.
Proof. intros tr (t & n & a & -> & H). exists n, a. split; auto. apply in_or_app. right. left. reflexivity. Qed.

Definition joined (a b : list Z) : list Z := match b with [] => a | _ => a ++ [47] ++ b end.

Lemma leaf_ok : forall sa b tr o, runs (copyfn_leaf sa b) tr o -> is_cstr b -> sinv sa -> slen sa + len (text b) < 2 ^ 60 ->
  match o with
  | Wrong => False
  | Cut => True
  | Fin (Good, r') => sinv r' /\ content r' = joined (content sa) (text b)
  | Fin (Fail e, r') => exists n a, In (Alloc n, a) tr /\ ret a = 0
  end.
Proof.
  intros sa b tr o R C S B. destruct (cstr_text b C) as (N & rest & E). unfold copyfn_leaf in R. pose proof (len_nonneg _ (text b)) as LB.
  rewrite E in R at 1. rewrite str_len_ok in R by assumption. cbn [lift pbind] in R. change (2 ^ 60) with 1152921504606846976 in *.
  destruct (Z.ltb_spec 0 (len (text b))).
  - apply runs_bind in R as [([c r1] & t1 & t2 & -> & R1 & R2)|[[R1 ->]|[R1 ->]]].
    + pose proof (cats_ok _ (bs "/") _ _ R1) as H1. cbn [sok] in H1. change (2 ^ 61) with 2305843009213693952 in *.
      specialize (H1 ltac:(repeat constructor; lia) S ltac:(change (len (bs "/")) with 1; lia)).
      destruct c as [|e].
      * destruct H1 as [S1 C1]. pose proof (content_len _ S1) as L1. rewrite C1, len_app, content_len in L1 by assumption. change (len (bs "/")) with 1 in L1.
        pose proof (cats_text _ _ _ _ R2 C S1) as H2. change (2 ^ 61) with 2305843009213693952 in *. specialize (H2 ltac:(lia)).
        destruct o as [[[|e] r2]| |]; cbn [sok] in H2; auto.
        -- destruct H2 as [S2 C2]. split; auto. rewrite C2, C1, <- app_assoc. unfold joined. destruct (text b); [change (len (@nil Z)) with 0 in *; lia|]. reflexivity.
        -- destruct H2 as [-> H2]. apply nomem_in in H2 as (n & a & I & Z). exists n, a. split; auto. apply in_or_app; auto.
      * destruct R2 as [-> ->]. rewrite app_nil_r. destruct H1 as [-> H1]. apply nomem_in. auto.
    + pose proof (cats_ok _ (bs "/") _ _ R1) as H1. apply H1; auto; [repeat constructor; lia|].
      change (2 ^ 61) with 2305843009213693952 in *. change (len (bs "/")) with 1. lia.
    + exact Logic.I.
  - destruct R as [-> ->]. split; auto. unfold joined. destruct (text b); auto. rewrite len_cons in *. pose proof (len_nonneg _ l). lia.
Qed.

Lemma copyfn_calls : forall buf a b, calls allocs (copyfn buf a b).
Proof.
  intros. unfold copyfn, copyfn_leaf. repeat calls1; try apply cats_calls; try apply catb_calls.
Qed.

Lemma nonul_joined : forall a b, nonul a -> nonul b -> nonul (joined a b).
Proof.
  intros a b A B. unfold joined. destruct b as [|x b]; auto. apply Forall_app. split; auto. constructor; [lia|auto].
Qed.

Lemma copyfn_ok : forall buf a b tr o, runs (copyfn buf a b) tr o -> is_cstr a -> is_cstr b ->
  len (text a) + len (text b) < 2 ^ 60 ->
  match o with
  | Wrong => False
  | Cut => True
  | Fin (true, buf') => len buf' = len buf /\ exists rest, buf' = sanitized (joined (text a) (text b)) ++ 0 :: rest
  | Fin (false, buf') => buf' = buf /\
      ((exists n a, In (Alloc n, a) tr /\ ret a = 0) \/ len buf < len (joined (text a) (text b)) + 1)
  end.
Proof.
  intros buf a b tr o R CA CB B. unfold copyfn in R.
  pose proof (len_nonneg _ (text a)) as LA. pose proof (len_nonneg _ (text b)) as LB. change (2 ^ 60) with 1152921504606846976 in B.
  assert (S0 : sinv (sa_clear sa_empty) /\ content (sa_clear sa_empty) = []) by (apply clear_inv; unfold sinv; cbn; lia).
  destruct S0 as [S0 C0].
  assert (B0 : slen (sa_clear sa_empty) + len (text a) < 2 ^ 61) by (cbn [sa_clear slen]; change (2 ^ 61) with 2305843009213693952; lia).
  apply runs_bind in R as [([c r1] & t1 & t2 & -> & R1 & R2)|[[R1 ->]|[R1 ->]]].
  2:{ apply (cats_text _ _ _ _ R1 CA S0 B0). }
  2:{ exact Logic.I. }
  pose proof (cats_text _ _ _ _ R1 CA S0 B0) as H1. destruct c as [|e].
  2:{ destruct R2 as [-> ->]. split; auto. left. cbn [sok] in H1. destruct H1 as [_ H1]. apply nomem_in in H1 as (n & x & I & Z). exists n, x. split; auto. apply in_or_app; auto. }
  cbn [sok] in H1. destruct H1 as [S1 C1]. rewrite C0 in C1. cbn [app] in C1.
  pose proof (content_len _ S1) as L1. rewrite C1 in L1.
  assert (B1 : slen r1 + len (text b) < 2 ^ 60) by (rewrite <- L1; exact B).
  apply runs_bind in R2 as [([c r2] & t3 & t4 & -> & R3 & R4)|[[R3 ->]|[R3 ->]]].
  2:{ apply (leaf_ok _ _ _ _ R3 CB S1 B1). }
  2:{ exact Logic.I. }
  pose proof (leaf_ok _ _ _ _ R3 CB S1 B1) as H2. destruct c as [|e].
  2:{ destruct R4 as [-> ->]. split; auto. left. destruct H2 as (n & x & I & Z). exists n, x. split; auto. rewrite app_nil_r. apply in_or_app; auto. }
  destruct H2 as [S2 C2]. rewrite C1 in C2. pose proof (content_len _ S2) as L2. rewrite C2 in L2.
  assert (LJ : len (joined (text a) (text b)) <= len (text a) + 1 + len (text b)).
  { unfold joined. destruct (text b); [lia|]. rewrite !len_app. change (len [47]) with 1. lia. }
  assert (B2 : slen r2 + 1 < 2 ^ 61) by (change (2 ^ 61) with 2305843009213693952; lia).
  apply runs_bind in R4 as [([c r3] & t5 & t6 & -> & R5 & R6)|[[R5 ->]|[R5 ->]]].
  2:{ apply (stralloc0_ok _ _ _ R5 S2 B2). }
  2:{ exact Logic.I. }
  pose proof (stralloc0_ok _ _ _ R5 S2 B2) as H3. destruct c as [|e].
  2:{ destruct R6 as [-> ->]. split; auto. left. cbn [sok] in H3. destruct H3 as [_ H3]. apply nomem_in in H3 as (n & x & I & Z). exists n, x.
      split; auto. rewrite app_nil_r. apply in_or_app. right. apply in_or_app; auto. }
  cbn [sok] in H3. destruct H3 as [S3 C3]. rewrite C2 in C3. pose proof (content_len _ S3) as L3. rewrite C3, len_app in L3. change (len [0]) with 1 in L3.
  destruct (cstr_text a CA) as (NA & _). destruct (cstr_text b CB) as (NB & _).
  set (p := joined (text a) (text b)) in *. assert (NP : nonul p) by (apply nonul_joined; auto).
  destruct (sm r3) as [m|] eqn:EM.
  2:{ unfold content in C3. rewrite EM in C3. destruct p; discriminate. }
  assert (EMM : exists rest, m = p ++ 0 :: rest).
  { exists (skipn (Z.to_nat (slen r3)) m). unfold content in C3. rewrite EM in C3. rewrite <- (firstn_skipn (Z.to_nat (slen r3)) m) at 1.
    rewrite C3, <- app_assoc. reflexivity. }
  destruct EMM as [rest ->]. destruct (fixpath_ok p rest NP) as (junk & LK & EF). rewrite EF in R6. cbn [lift pbind] in R6.
  pose proof (len_nonneg _ p) as LP.
  destruct (Z.leb_spec (slen r3) (len buf)).
  - destruct S3 as [S3 S3']. rewrite EM in S3'. destruct S3' as [S3' _].
    assert (LF : len (sanitized p ++ 0 :: junk ++ rest) = len (p ++ 0 :: rest)).
    { pose proof (sanitized_len p). unfold len. rewrite !app_length. cbn [length]. rewrite app_length. lia. }
    destruct (copyin_ok buf 0 (sanitized p ++ 0 :: junk ++ rest) (slen r3)) as (d & Ed & D1 & D2 & _); try lia.
    rewrite Ed in R6. cbn [lift pbind] in R6. destruct R6 as [-> ->]. split; auto.
    rewrite Z.add_0_l in D2. change (Z.to_nat 0) with O in D2. rewrite firstn_O in D2. cbn [app] in D2.
    exists (junk ++ skipn (Z.to_nat (slen r3)) d). rewrite <- (firstn_skipn (Z.to_nat (slen r3)) d) at 1. rewrite D2.
    replace (firstn (Z.to_nat (slen r3)) (sanitized p ++ 0 :: junk ++ rest)) with (sanitized p ++ 0 :: junk).
    { rewrite <- app_assoc. reflexivity. }
    replace (sanitized p ++ 0 :: junk ++ rest) with ((sanitized p ++ 0 :: junk) ++ rest) by (rewrite <- app_assoc; reflexivity).
    replace (Z.to_nat (slen r3)) with (length (sanitized p ++ 0 :: junk)); [symmetry; apply firstn_app_exact|].
    pose proof (sanitized_len p). rewrite app_length. cbn [length]. rewrite LK. unfold len in L3. lia.
  - destruct R6 as [-> ->]. split; auto. right. lia.
Qed.

(** ** tls_pipe_getcert *)
Lemma toint_mod : forall v, (toint v - v) mod 2 ^ 32 = 0.
Proof.
  intros v. unfold toint, u32. change (2 ^ 32) with 4294967296. pose proof (Z.div_mod v 4294967296 ltac:(lia)) as D.
  destruct (v mod 4294967296 <? 2147483648).
  - replace (v mod 4294967296 - v) with ((- (v / 4294967296)) * 4294967296) by lia. apply Z_mod_mult.
  - replace (v mod 4294967296 - 4294967296 - v) with ((- (v / 4294967296) - 1) * 4294967296) by lia. apply Z_mod_mult.
Qed.

Lemma readalloc_fail : forall f fd tr e, runs (pipe_readalloc f fd) tr (Fin (inl e)) -> legal tr ->
  e = 32 \/ (exists x, In x tr /\ err (snd x) = e) \/ exists v, 0 < v < 2 ^ 63 /\ got fd tr = errframe v /\ e = toint v.
Proof.
  intros f fd tr e R L. pose proof (pipe_readalloc_ok _ _ _ _ R L) as H. cbn in H. unfold pipe_readalloc in R.
  apply runs_bind in R as [([c num] & t1 & t2 & -> & R1 & R2)|[[R1 E]|[R1 E]]]; try discriminate.
  assert (RP : forall t, reported e t -> e = 32 \/ (exists x, In x t /\ err (snd x) = e) \/
      exists v, 0 < v < 2 ^ 63 /\ got fd t = errframe v /\ e = toint v) by (intros t [?|?]; auto).
  destruct c as [|e']; [|destruct R2 as [-> R2]; injection R2 as ->; apply RP, reported_l; eapply readall_err; eauto].
  apply legal_app in L as [L1 L2]. destruct (readhdr_ok _ _ _ _ R1 L1) as [O1 H1]. destruct H1 as (-> & N8 & NB & Q1).
  rewrite unpack_le in R2 by assumption. cbn [lift pbind] in R2. set (l := tosigned _) in R2.
  destruct (l <? 0).
  - right. right. destruct (s64 (- l)) as [v| |] eqn:EV; cbn [lift pbind] in R2; try (destruct R2; discriminate).
    destruct R2 as [-> R2]. injection R2 as ->. destruct H as [H|(_ & v' & V)]; [|exists v'; intuition].
    exfalso. destruct H as (t & ev & EQ & HH & _). rewrite app_nil_r in EQ. rewrite EQ in Q1. apply quiet_app in Q1 as [_ Q1].
    apply quiet_cons in Q1. tauto.
  - apply RP. apply reported_r. destruct R2 as [[_ R2]|(a & t & -> & R2)]; [discriminate|].
    destruct (ret a =? 0).
    + destruct R2 as [-> R2]. injection R2 as ->. right. eexists. split; [left; reflexivity|reflexivity].
    + apply (reported_r e [_]). apply runs_bind in R2 as [([c y] & u1 & u2 & -> & S1 & S2)|[[S1 E]|[S1 E]]]; try discriminate.
      destruct c as [|e']; destruct S2 as [-> S2]; [discriminate|]. injection S2 as ->. apply reported_l. eapply readall_err; eauto.
Qed.

Lemma getcert_ok : forall fuel to from p rest tr o,
  runs (tls_pipe_getcert fuel to from (p ++ 0 :: rest)) tr o -> legal tr -> nonul p -> len p < 2 ^ 62 ->
  match o with
  | Wrong => exists t1 t2, tr = t1 ++ t2 /\ sent to t1 = frame (p ++ [0]) /\ got from t1 = [] /\ got from t2 = le 8 (2 ^ 63)
  | Cut => True
  | Fin (inl e) => fails to from p tr e
  | Fin (inr (kt, ch)) => loads to from p tr kt ch
  end.
Proof.
  intros fuel to from p rest tr o R L N B. unfold tls_pipe_getcert in R. rewrite str_len_ok in R by assumption. cbn [lift pbind] in R.
  replace (p ++ 0 :: rest) with ((p ++ [0]) ++ rest) in R by (rewrite <- app_assoc; reflexivity).
  assert (LP : len p + 1 = len (p ++ [0])) by (rewrite len_app; reflexivity). rewrite LP in R.
  assert (B1 : len (p ++ [0]) < two63) by (rewrite <- LP; unfold two63; change (2 ^ 62) with 4611686018427387904 in B; lia).
  pose proof (len_nonneg _ (p ++ [0])) as LN.
  apply runs_bind in R as [(c & t1 & t2 & -> & R1 & R2)|[[R1 ->]|[R1 ->]]].
  - apply legal_app in L as [L1 L2]. destruct (pipe_write_ok _ _ _ _ _ _ R1 L1 B1) as [_ H1].
    pose proof (got_none from _ _ (pipe_write_calls _ _ _ _ _ _ R1) (writes_noread to from)) as G1.
    destruct c as [|e].
    + destruct H1 as [H1 Q1].
      apply runs_bind in R2 as [(x & t3 & t4 & -> & R3 & R4)|[[R3 ->]|[R3 ->]]].
      * apply legal_app in L2 as [L3 L4].
        assert (G3 : sent to t3 = []).
        { apply (sent_none to _ _ (pipe_readalloc_calls _ _ _ _ R3)). intros b [H|H]; [apply reads_nowrite in H|apply allocs_nowrite in H]; auto. }
        destruct x as [e|pem].
        -- destruct R4 as [-> ->]. unfold fails. rewrite !sent_app, !got_app, G3, H1, G1. cbn [sent got]. rewrite !app_nil_r, app_nil_l.
           split; [exists []; rewrite app_nil_r; reflexivity|].
           destruct (readalloc_fail _ _ _ _ R3 L3) as [H|[(x & I & H)|(v & V & G & E)]]; auto.
           ++ right. left. exists x. split; auto. apply in_or_app. auto.
           ++ right. right. exists v. split; auto. split; auto. subst e. apply toint_mod.
        -- pose proof (pipe_readalloc_ok _ _ _ _ R3 L3) as H3. cbn in H3. destruct H3 as (G & _ & _).
           destruct R4 as [[-> ->]|(a & t5 & -> & R5)]; [exact Logic.I|].
           destruct (Z.eqb_spec (ret a) 0).
           ++ destruct R5 as [-> ->]. unfold fails. rewrite !sent_app, G3, H1. cbn [sent pubcrt]. rewrite !app_nil_r.
              split; [exists []; rewrite app_nil_r; reflexivity|]. right. left. exists (pubcrt pem, a). split; auto.
              apply in_or_app. right. apply in_or_app. right. left. reflexivity.
           ++ destruct R5 as [-> ->]. exists (t1 ++ t3), pem, a. rewrite !sent_app, !got_app, G3, H1, G1, G. cbn [sent got pubcrt].
              rewrite !app_nil_r, <- app_assoc. auto 8.
      * exists t1, t2. split; auto. split; auto. split; auto. exact (pipe_readalloc_ok _ _ _ _ R3 L2).
      * exact Logic.I.
    + destruct R2 as [-> ->]. rewrite app_nil_r. destruct H1 as [H1 _]. split; auto.
      destruct (pipe_write_err _ _ _ _ _ _ R1 LN) as [H|H]; auto.
  - destruct (pipe_write_ok _ _ _ _ _ _ R1 L B1) as [_ []].
  - exact Logic.I.
Qed.

(** ** Suites *)
Lemma pick_ok : forall st hs ver kt ch,
  match pick_suite st hs ver kt ch with
  | Some x => c_chain x = ch /\ answers st ver hs kt (c_suite x) (c_algo x)
  | None => forall s, In s st -> ~ suits kt s
  end.
Proof.
  induction st as [|[s k] st IH]; intros hs ver kt ch; cbn [pick_suite]; [intros s []|].
  rewrite !Z.shiftr_div_pow2 by lia. change (2 ^ 12) with 4096. change (2 ^ 8) with 256.
  destruct ((k / 4096 =? 2) && (kt =? 2)) eqn:E2; [|destruct ((k / 4096 =? 1) && (kt =? 1)) eqn:E1].
  - apply andb_true_iff in E2 as [A B]. apply Z.eqb_eq in A, B. subst kt. split; auto. exists [], (s, k), st. cbn [c_suite c_chain c_algo fst].
    repeat split; auto; [right; auto|]. unfold signature. destruct (Z.ltb_spec ver 771); [right; left; auto|]. right. right. split; auto.
    eexists. split; [reflexivity|]. apply hash_choose_ok.
  - apply andb_true_iff in E1 as [A B]. apply Z.eqb_eq in A, B. subst kt. split; auto. exists [], (s, k), st. cbn [c_suite c_chain c_algo fst].
    repeat split; auto; [left; auto|]. unfold signature. destruct (Z.ltb_spec ver 771); [left; auto|]. right. right. split; auto.
    eexists. split; [reflexivity|]. apply hash_choose_ok.
  - assert (NS : ~ suits kt (s, k)).
    { intros [[-> X]|[-> X]]; cbn [snd] in X; rewrite X in *; cbn in E1, E2; discriminate. }
    specialize (IH hs ver kt ch). destruct (pick_suite st hs ver kt ch) as [x|].
    + destruct IH as (-> & s1 & y & s2 & -> & F & H). split; auto. exists ((s, k) :: s1), y, s2. split; auto.
    + intros y [<-|I]; auto.
Qed.

(** ** One entry *)
Definition overflows (to from : Z) (tr : trace) : Prop :=
  exists t1 t2, tr = t1 ++ t2 /\ got from t1 = [] /\ got from t2 = le 8 (2 ^ 63).

Definition step_ok (to from : Z) (name : list Z) (islast : bool) (e : list Z * Z) (tr : trace) (o : outcome loaded) : Prop :=
  match o with
  | Wrong => overflows to from tr
  | Cut => True
  | Fin (Next c) => len (certfn c) = 1024 /\ forall offers, unusable to from name offers e tr
  | Fin Giveup => fatal to from name (islast = true) e tr
  | Fin (Have c) => len (certfn c) = 1024 /\ exists f, stands_for name e f /\ loads to from f tr (key_type c) (chain c)
  end.

Lemma is_cstr_nul : is_cstr [0].
Proof. exists [], []. split; auto. constructor. Qed.

Lemma shift_fails : forall to from f t1 t2 e, sent to t1 = [] -> got from t1 = [] -> fails to from f t2 e -> fails to from f (t1 ++ t2) e.
Proof.
  intros to from f t1 t2 e S G [A B]. unfold fails. rewrite sent_app, got_app, S, G. cbn [app]. split; auto.
  destruct B as [B|[(x & I & X)|B]]; auto. right. left. exists x. split; auto. apply in_or_app. auto.
Qed.
Lemma shift_loads : forall to from f t1 t2 kt ch, sent to t1 = [] -> got from t1 = [] -> loads to from f t2 kt ch -> loads to from f (t1 ++ t2) kt ch.
Proof.
  intros to from f t1 t2 kt ch S G (t & pem & a & -> & H). exists (t1 ++ t), pem, a. split; [apply app_assoc|].
  rewrite sent_app, got_app, S, G. exact H.
Qed.

Lemma copy_part : forall to from fn0 name b t1 ok fn,
  runs (copyfn fn0 name b) t1 (Fin (ok, fn)) -> is_cstr name -> is_cstr b -> len fn0 = 1024 ->
  len (text name) + len (text b) < 2 ^ 60 ->
  len fn = 1024 /\ sent to t1 = [] /\ got from t1 = [] /\
  if ok then exists rest, let f := sanitized (joined (text name) (text b)) in fn = f ++ 0 :: rest /\ nonul f /\ len f < 2 ^ 62
  else (exists n a, In (Alloc n, a) t1 /\ ret a = 0) \/ 1024 < len (joined (text name) (text b)) + 1.
Proof.
  intros to from fn0 name b t1 ok fn R1 CN CB LC B. pose proof (copyfn_ok _ _ _ _ _ R1 CN CB B) as H1.
  pose proof (sent_none to _ _ (copyfn_calls _ _ _ _ _ R1) (allocs_nowrite to)) as S1.
  pose proof (got_none from _ _ (copyfn_calls _ _ _ _ _ R1) (allocs_noread from)) as G1. cbn in H1.
  destruct ok.
  - destruct H1 as (LF & rest & ->). rewrite LC in LF. split; auto. split; auto. split; auto. exists rest. split; auto.
    destruct (cstr_text _ CN) as (NN & _). destruct (cstr_text _ CB) as (NB & _). split.
    + pose proof (nonul_joined _ _ NN NB) as NJ. apply Forall_forall. intros x I. apply sanitized_chars in I.
      unfold nonul in NJ. rewrite Forall_forall in NJ. destruct I as [I|[-> _]]; [auto|lia].
    + rewrite len_app in LF. change (2 ^ 62) with 4611686018427387904. pose proof (len_nonneg _ (0 :: rest)). lia.
  - destruct H1 as (-> & H1). rewrite LC in H1. auto.
Qed.

Lemma shift_over : forall to from t1 t2, got from t1 = [] ->
  (exists u1 u2, t2 = u1 ++ u2 /\ got from u1 = [] /\ got from u2 = le 8 (2 ^ 63)) -> overflows to from (t1 ++ t2).
Proof.
  intros to from t1 t2 G (u1 & u2 & -> & G1 & G2); exists (t1 ++ u1), u2; rewrite got_app, G, G1, app_assoc; auto.
Qed.

Lemma try_file_ok : forall fuel to from s last name c tr o,
  runs (try_file fuel to from name c) tr o -> legal tr -> is_cstr name -> len (certfn c) = 1024 -> len (text name) < 2 ^ 59 ->
  step_ok to from s last (name, 32768) tr o.
Proof.
  intros fuel to from s last name c tr o R L CN LC B. unfold try_file in R.
  assert (B1 : len (text name) + len (text [0]) < 2 ^ 60) by (change (text [0]) with (@nil Z); change (len (@nil Z)) with 0; change (2 ^ 60) with 1152921504606846976; change (2 ^ 59) with 576460752303423488 in B; lia).
  apply runs_bind in R as [([ok fn] & t1 & t2 & -> & R1 & R2)|[[R1 ->]|[R1 ->]]].
  2:{ destruct (copyfn_ok _ _ _ _ _ R1 CN is_cstr_nul B1). }
  2:{ exact Logic.I. }
  apply legal_app in L as [L1 L2]. destruct (copy_part to from _ _ _ _ _ _ R1 CN is_cstr_nul LC B1) as (LF & S1 & G1 & H1).
  destruct ok; cbn [negb] in R2.
  - destruct H1 as (rest & -> & NF & BF). cbn [text joined] in *. change (text [0]) with (@nil Z) in *. cbn [joined] in *.
    assert (SF : stands_for s (name, 32768) (sanitized (text name))) by constructor.
    apply runs_bind in R2 as [(r & t3 & t4 & -> & R3 & R4)|[[R3 ->]|[R3 ->]]].
    + apply legal_app in L2 as [L3 _]. pose proof (getcert_ok _ _ _ _ _ _ _ R3 L3 NF BF) as H. cbn in H. destruct r as [e|[kt ch]]; destruct R4 as [-> ->]; cbn [step_ok]; rewrite app_nil_r.
      * eapply Ffile; [exact SF|]. apply shift_fails; eauto.
      * cbn [certfn key_type chain]. split; auto. eexists. split; [exact SF|]. apply shift_loads; auto.
    + destruct (getcert_ok _ _ _ _ _ _ _ R3 L2 NF BF) as (u1 & u2 & -> & _ & G & G2). apply shift_over; eauto.
    + exact Logic.I.
  - destruct R2 as [-> ->]. cbn [step_ok certfn]. split; auto. intros offers. rewrite app_nil_r. apply Unopath; auto.
Qed.

Lemma try_dir_ok : forall fuel to from h last name c tr o,
  runs (try_dir fuel to from h name last c) tr o -> legal tr -> is_cstr name -> len (certfn c) = 1024 ->
  (forall p, sni h = Some p -> is_cstr p) -> len (text name) < 2 ^ 59 -> len (otext (sni h)) < 2 ^ 59 ->
  step_ok to from (otext (sni h)) last (name, 16384) tr o.
Proof.
  intros fuel to from h last name c tr o R L CN LC CS B BS. unfold try_dir in R. destruct (sni h) as [p|] eqn:EH; cbn [otext] in *.
  2:{ destruct R as [-> ->]. cbn [step_ok]. split; auto. intros. apply Unoname. reflexivity. }
  specialize (CS p eq_refl). destruct CS as (s & rest & -> & N). rewrite text_ok in * by assumption.
  rewrite str_len_ok in R by assumption. cbn [lift pbind] in R. destruct (Z.eqb_spec (len s) 0) as [E|E].
  { destruct R as [-> ->]. cbn [step_ok]. split; auto. intros. apply Unoname. destruct s; auto. rewrite len_cons in E. pose proof (len_nonneg _ s). lia. }
  destruct (parsename_correct s rest (repeat 0 256) N eq_refl) as (r & ER & HR). rewrite ER in R. cbn [lift pbind] in R.
  destruct r as [out|].
  2:{ destruct R as [-> ->]. cbn [step_ok]. split; auto. intros. apply Ubadname. exact HR. }
  destruct HR as (ls & VN & _). assert (SN : s <> []) by (intros ->; apply E; reflexivity).
  assert (CP : is_cstr (s ++ 0 :: rest)) by (exists s, rest; auto).
  assert (B1 : len (text name) + len (text (s ++ 0 :: rest)) < 2 ^ 60).
  { rewrite text_ok by assumption. change (2 ^ 60) with 1152921504606846976; change (2 ^ 59) with 576460752303423488 in *. lia. }
  apply runs_bind in R as [([ok fn] & t1 & t2 & -> & R1 & R2)|[[R1 ->]|[R1 ->]]].
  2:{ destruct (copyfn_ok _ _ _ _ _ R1 CN CP B1). }
  2:{ exact Logic.I. }
  apply legal_app in L as [L1 L2]. destruct (copy_part to from _ _ _ _ _ _ R1 CN CP LC B1) as (LF & S1 & G1 & H1).
  rewrite text_ok in H1 by assumption.
  assert (EJ : joined (text name) s = text name ++ [47] ++ s) by (unfold joined; destruct s; congruence). rewrite EJ in H1.
  destruct ok; cbn [negb] in R2.
  - destruct H1 as (rst & -> & NF & BF).
    assert (SF : stands_for s (name, 16384) (sanitized (text name ++ [47] ++ s))) by (econstructor; eauto).
    apply runs_bind in R2 as [(r & t3 & t4 & -> & R3 & R4)|[[R3 ->]|[R3 ->]]].
    + apply legal_app in L2 as [L3 _]. pose proof (getcert_ok _ _ _ _ _ _ _ R3 L3 NF BF) as H. cbn iota in H.
      destruct r as [e|[kt ch]].
      * apply (shift_fails _ _ _ _ _ _ S1 G1) in H. destruct (negb (e =? ENOENT) || last) eqn:EE; destruct R4 as [-> ->]; cbn [step_ok]; rewrite app_nil_r.
        -- eapply Fdir; [exact SF|exact H|]. apply orb_true_iff in EE as [EE|EE]; auto. left. intros ->. discriminate.
        -- cbn [certfn]. split; auto. intros. eapply Umissing; [exact SF|]. apply orb_false_iff in EE as [EE _]. destruct (Z.eqb_spec e ENOENT) as [->|]; [exact H|discriminate].
      * destruct R4 as [-> ->]. cbn [step_ok certfn key_type chain]. rewrite app_nil_r. split; auto. eexists. split; [exact SF|]. apply shift_loads; auto.
    + destruct (getcert_ok _ _ _ _ _ _ _ R3 L2 NF BF) as (u1 & u2 & -> & _ & G & G2). apply shift_over; eauto.
    + exact Logic.I.
  - destruct R2 as [-> ->]. cbn [step_ok certfn]. split; auto. intros offers. rewrite app_nil_r. apply Unopath; auto.
    unfold path_bytes. cbn [snd fst]. change (16384 =? 16384) with true. cbn iota.
    rewrite !len_app in H1. change (len [47]) with 1 in H1. destruct H1; [auto|right; lia].
Qed.

(** ** The whole search *)
Definition entry_ok (e : list Z * Z) : Prop :=
  is_cstr (fst e) /\ (snd e = 16384 \/ snd e = 32768) /\ len (text (fst e)) < 2 ^ 59.

Lemma choose_ok : forall fuel to from h es c tr o,
  runs (tls_choose fuel to from h es c) tr o -> legal tr ->
  Forall entry_ok es -> (forall p, sni h = Some p -> is_cstr p) -> len (otext (sni h)) < 2 ^ 59 -> len (certfn c) = 1024 ->
  let name := otext (sni h) in
  match o with
  | Wrong => exists t1 t2, tr = t1 ++ t2 /\ overflows to from t2
  | Cut => True
  | Fin (Some x) => exists pre e post trs t f kt,
      es = pre ++ e :: post /\ tr = concat trs ++ t /\ Forall2 (unusable to from name (offered h)) pre trs /\
      stands_for name e f /\ loads to from f t kt (c_chain x) /\
      answers (offered h) (version h) (hashes h) kt (c_suite x) (c_algo x)
  | Fin None =>
      (exists trs, tr = concat trs /\ Forall2 (unusable to from name (offered h)) es trs) \/
      (exists pre e post trs t, es = pre ++ e :: post /\ tr = concat trs ++ t /\
         Forall2 (unusable to from name (offered h)) pre trs /\ fatal to from name (post = []) e t)
  end.
Proof.
  intros fuel to from h es. induction es as [|[name ty] es IH]; intros c tr o R L F CS BS LC s0; cbn [tls_choose] in R.
  - destruct R as [-> ->]. left. exists []. auto.
  - apply Forall_cons_iff in F as [(CN & TY & BN) F]. cbn [fst snd] in *.
    set (last := match es with [] => true | _ => false end) in R.
    assert (STEP : forall t o', legal t -> runs (if ty =? S_IFDIR then try_dir fuel to from h name last c
               else if ty =? S_IFREG then try_file fuel to from name c else Ret (Have c)) t o' ->
             step_ok to from s0 last (name, ty) t o').
    { intros t o' Lt Rt. unfold S_IFDIR, S_IFREG in Rt. destruct TY as [-> | ->].
      - change (16384 =? 16384) with true in Rt. eapply try_dir_ok; eauto.
      - change (32768 =? 16384) with false in Rt. change (32768 =? 32768) with true in Rt. eapply try_file_ok; eauto. }
    assert (CONT : forall c' t1 t2, len (certfn c') = 1024 -> unusable to from s0 (offered h) (name, ty) t1 -> legal t2 ->
      runs (tls_choose fuel to from h es c') t2 o ->
      match o with
      | Wrong => exists a b, t1 ++ t2 = a ++ b /\ overflows to from b
      | Cut => True
      | Fin (Some x) => exists pre e post trs t f kt,
          (name, ty) :: es = pre ++ e :: post /\ t1 ++ t2 = concat trs ++ t /\ Forall2 (unusable to from s0 (offered h)) pre trs /\
          stands_for s0 e f /\ loads to from f t kt (c_chain x) /\
          answers (offered h) (version h) (hashes h) kt (c_suite x) (c_algo x)
      | Fin None =>
          (exists trs, t1 ++ t2 = concat trs /\ Forall2 (unusable to from s0 (offered h)) ((name, ty) :: es) trs) \/
          (exists pre e post trs t, (name, ty) :: es = pre ++ e :: post /\ t1 ++ t2 = concat trs ++ t /\
             Forall2 (unusable to from s0 (offered h)) pre trs /\ fatal to from s0 (post = []) e t)
      end).
    { intros c' t1 t2 LC' U L2 R2. specialize (IH _ _ _ R2 L2 F CS BS LC'). cbn zeta in IH. fold s0 in IH. destruct o as [[x|]| |].
      - destruct IH as (pre & e & post & trs & t & f & kt & -> & -> & FF & H). exists ((name, ty) :: pre), e, post, (t1 :: trs), t, f, kt.
        split; auto. split; [cbn [concat]; rewrite app_assoc; reflexivity|]. split; auto.
      - destruct IH as [(trs & -> & FF)|(pre & e & post & trs & t & -> & -> & FF & H)].
        + left. exists (t1 :: trs). auto.
        + right. exists ((name, ty) :: pre), e, post, (t1 :: trs), t. split; auto. split; [cbn [concat]; rewrite app_assoc; reflexivity|]. auto.
      - destruct IH as (a & b & -> & H). exists (t1 ++ a), b. rewrite app_assoc. auto.
      - exact Logic.I. }
    apply runs_bind in R as [(r & t1 & t2 & -> & R1 & R2)|[[R1 ->]|[R1 ->]]].
    2:{ exists [], tr. split; auto. exact (STEP _ _ L R1). }
    2:{ exact Logic.I. }
    apply legal_app in L as [L1 L2]. specialize (STEP _ _ L1 R1). destruct r as [c'| |c']; cbn [step_ok] in STEP.
    + destruct STEP as [LC' U]. exact (CONT c' t1 t2 LC' (U _) L2 R2).
    + destruct R2 as [-> ->]. right. exists [], (name, ty), es, [], t1. rewrite app_nil_r. split; auto. split; auto. split; auto.
      assert (LE : last = true -> es = []) by (unfold last; destruct es; congruence).
      inv STEP; [eapply Ffile; eauto|eapply Fdir; eauto]. intuition.
    + destruct STEP as (LC' & f & SF & LD). pose proof (pick_ok (offered h) (hashes h) (version h) (key_type c') (chain c')) as P.
      destruct (pick_suite (offered h) (hashes h) (version h) (key_type c') (chain c')) as [x|].
      * destruct R2 as [-> ->]. destruct P as [PE P]. rewrite <- PE in LD. exists [], (name, ty), es, [], t1, f, (key_type c'). rewrite app_nil_r. auto 8.
      * apply (CONT c' t1 t2 LC'); auto. eapply Unosuite; eauto.
Qed.

(** ** What is sent to the key process, at any point of a run *)
Lemma asks_none : forall to name es tr, sent to tr = [] -> asks to name es tr.
Proof. intros. exists []. auto. Qed.
Lemma asks_app : forall to name es a b, asks to name es a -> asks to name es b -> asks to name es (a ++ b).
Proof. intros to name es a b (p & E & F) (q & E2 & F2). exists (p ++ q). rewrite sent_app, E, E2, concat_app. split; auto. apply Forall_app. auto. Qed.
Lemma asks_incl : forall to name es es' a, asks to name es a -> incl es es' -> asks to name es' a.
Proof.
  intros to name es es' a (p & E & F) I. exists p. split; auto. eapply Forall_impl; [|exact F]. intros x (e & f & H & K). exists e, f. auto.
Qed.

Lemma getcert_sent : forall fuel to from p rest tr o,
  runs (tls_pipe_getcert fuel to from (p ++ 0 :: rest)) tr o -> legal tr -> nonul p -> len p < 2 ^ 62 ->
  is_prefix (sent to tr) (frame (p ++ [0])).
Proof.
  intros fuel to from p rest tr o R L N B. unfold tls_pipe_getcert in R. rewrite str_len_ok in R by assumption. cbn [lift pbind] in R.
  replace (p ++ 0 :: rest) with ((p ++ [0]) ++ rest) in R by (rewrite <- app_assoc; reflexivity).
  assert (LP : len p + 1 = len (p ++ [0])) by (rewrite len_app; reflexivity). rewrite LP in R.
  assert (B1 : len (p ++ [0]) < two63) by (rewrite <- LP; unfold two63; change (2 ^ 62) with 4611686018427387904 in B; lia).
  assert (PP : is_prefix (frame (p ++ [0])) (frame (p ++ [0]))) by (exists []; rewrite app_nil_r; reflexivity).
  apply runs_bind in R as [(c & t1 & t2 & -> & R1 & R2)|[[R1 ->]|[R1 ->]]].
  - apply legal_app in L as [L1 L2]. destruct (pipe_write_ok _ _ _ _ _ _ R1 L1 B1) as [_ H1]. rewrite sent_app. destruct c as [|e].
    + assert (S2 : sent to t2 = []).
      { refine (sent_none to t2 (fun c => (reads from c \/ allocs c) \/ exists d, c = pubcrt d) _ _).
        - apply (use_calls _ (fun c => (reads from c \/ allocs c) \/ exists d, c = pubcrt d) _ _ _ R2). repeat calls1; [|right; eexists; reflexivity]. eapply calls_weak; [apply pipe_readalloc_calls|]. auto.
        - intros b [[X|X]|[d X]]; [eapply reads_nowrite; eauto|eapply allocs_nowrite; eauto|discriminate]. }
      rewrite S2, app_nil_r. destruct H1 as [-> _]. exact PP.
    + destruct R2 as [-> ->]. cbn [sent]. rewrite app_nil_r. tauto.
  - destruct (pipe_write_ok _ _ _ _ _ _ R1 L B1) as [_ []].
  - destruct (pipe_write_ok _ _ _ _ _ _ R1 L B1) as [_ H]. tauto.
Qed.

Lemma copyfn_sent : forall to buf a b tr o, runs (copyfn buf a b) tr o -> sent to tr = [].
Proof. intros to buf a b tr o R. exact (sent_none to _ _ (copyfn_calls _ _ _ _ _ R) (allocs_nowrite to)). Qed.

Lemma try_file_asks : forall fuel to from s name c tr o,
  runs (try_file fuel to from name c) tr o -> legal tr -> is_cstr name -> len (certfn c) = 1024 -> len (text name) < 2 ^ 59 ->
  asks to s [(name, 32768)] tr.
Proof.
  intros fuel to from s name c tr o R L CN LC B. unfold try_file in R.
  assert (B1 : len (text name) + len (text [0]) < 2 ^ 60) by (change (text [0]) with (@nil Z); change (len (@nil Z)) with 0; change (2 ^ 60) with 1152921504606846976; change (2 ^ 59) with 576460752303423488 in B; lia).
  apply runs_bind in R as [([ok fn] & t1 & t2 & -> & R1 & R2)|[[R1 ->]|[R1 ->]]]; [|apply asks_none; eapply copyfn_sent; eauto..].
  apply legal_app in L as [L1 L2]. destruct (copy_part to from _ _ _ _ _ _ R1 CN is_cstr_nul LC B1) as (LF & S1 & G1 & H1).
  apply asks_app; [apply asks_none; auto|]. destruct ok; cbn [negb] in R2; [|destruct R2 as [-> _]; apply asks_none; auto].
  destruct H1 as (rest & -> & NF & BF). change (text [0]) with (@nil Z) in *. cbn [joined] in *.
  assert (K : forall t o', runs (tls_pipe_getcert fuel to from (sanitized (text name) ++ 0 :: rest)) t o' -> legal t -> asks to s [(name, 32768)] t).
  { intros t o' Rt Lt. pose proof (getcert_sent _ _ _ _ _ _ _ Rt Lt NF BF) as P. exists [sent to t]. cbn [concat]. rewrite app_nil_r. split; auto.
    constructor; auto. exists (name, 32768), (sanitized (text name)). split; [left; auto|]. split; [constructor|auto]. }
  apply runs_bind in R2 as [(r & t3 & t4 & -> & R3 & R4)|[[R3 ->]|[R3 ->]]]; [|eapply K; eauto..].
  apply legal_app in L2 as [L3 L4]. apply asks_app; [eapply K; eauto|]. destruct r as [e|[kt ch]]; destruct R4 as [-> _]; apply asks_none; auto.
Qed.

Lemma try_dir_asks : forall fuel to from h last name c tr o,
  runs (try_dir fuel to from h name last c) tr o -> legal tr -> is_cstr name -> len (certfn c) = 1024 ->
  (forall p, sni h = Some p -> is_cstr p) -> len (text name) < 2 ^ 59 -> len (otext (sni h)) < 2 ^ 59 ->
  asks to (otext (sni h)) [(name, 16384)] tr.
Proof.
  intros fuel to from h last name c tr o R L CN LC CS B BS. unfold try_dir in R. destruct (sni h) as [p|] eqn:EH; cbn [otext] in *.
  2:{ destruct R as [-> ->]. apply asks_none; auto. }
  specialize (CS p eq_refl). destruct CS as (s & rest & -> & N). rewrite text_ok in * by assumption.
  rewrite str_len_ok in R by assumption. cbn [lift pbind] in R. destruct (Z.eqb_spec (len s) 0) as [E|E].
  { destruct R as [-> ->]. apply asks_none; auto. }
  destruct (parsename_correct s rest (repeat 0 256) N eq_refl) as (r & ER & HR). rewrite ER in R. cbn [lift pbind] in R.
  destruct r as [out|].
  2:{ destruct R as [-> ->]. apply asks_none; auto. }
  destruct HR as (ls & VN & _). assert (SN : s <> []) by (intros ->; apply E; reflexivity).
  assert (CP : is_cstr (s ++ 0 :: rest)) by (exists s, rest; auto).
  assert (B1 : len (text name) + len (text (s ++ 0 :: rest)) < 2 ^ 60).
  { rewrite text_ok by assumption. change (2 ^ 60) with 1152921504606846976; change (2 ^ 59) with 576460752303423488 in *. lia. }
  apply runs_bind in R as [([ok fn] & t1 & t2 & -> & R1 & R2)|[[R1 ->]|[R1 ->]]]; [|apply asks_none; eapply copyfn_sent; eauto..].
  apply legal_app in L as [L1 L2]. destruct (copy_part to from _ _ _ _ _ _ R1 CN CP LC B1) as (LF & S1 & G1 & H1).
  rewrite text_ok in H1 by assumption.
  assert (EJ : joined (text name) s = text name ++ [47] ++ s) by (unfold joined; destruct s; congruence). rewrite EJ in H1.
  apply asks_app; [apply asks_none; auto|]. destruct ok; cbn [negb] in R2; [|destruct R2 as [-> _]; apply asks_none; auto].
  destruct H1 as (rst & -> & NF & BF).
  assert (K : forall t o', runs (tls_pipe_getcert fuel to from (sanitized (text name ++ [47] ++ s) ++ 0 :: rst)) t o' -> legal t -> asks to s [(name, 16384)] t).
  { intros t o' Rt Lt. pose proof (getcert_sent _ _ _ _ _ _ _ Rt Lt NF BF) as P. exists [sent to t]. cbn [concat]. rewrite app_nil_r. split; auto.
    constructor; auto. exists (name, 16384). eexists. split; [left; auto|]. split; [econstructor; eauto|auto]. }
  apply runs_bind in R2 as [(r & t3 & t4 & -> & R3 & R4)|[[R3 ->]|[R3 ->]]]; [|eapply K; eauto..].
  apply legal_app in L2 as [L3 L4]. apply asks_app; [eapply K; eauto|]. destruct r as [e|[kt ch]].
  - destruct (negb (e =? ENOENT) || last) in R4; destruct R4 as [-> _]; apply asks_none; auto.
  - destruct R4 as [-> _]; apply asks_none; auto.
Qed.

Lemma choose_asks : forall fuel to from h es c tr o,
  runs (tls_choose fuel to from h es c) tr o -> legal tr ->
  Forall entry_ok es -> (forall p, sni h = Some p -> is_cstr p) -> len (otext (sni h)) < 2 ^ 59 -> len (certfn c) = 1024 ->
  asks to (otext (sni h)) es tr.
Proof.
  intros fuel to from h es. induction es as [|[name ty] es IH]; intros c tr o R L F CS BS LC; cbn [tls_choose] in R.
  - destruct R as [-> ->]. apply asks_none; auto.
  - apply Forall_cons_iff in F as [(CN & TY & BN) F]. cbn [fst snd] in *.
    set (last := match es with [] => true | _ => false end) in R.
    assert (STEP : forall t o', legal t -> runs (if ty =? S_IFDIR then try_dir fuel to from h name last c
               else if ty =? S_IFREG then try_file fuel to from name c else Ret (Have c)) t o' ->
             asks to (otext (sni h)) [(name, ty)] t /\ step_ok to from (otext (sni h)) last (name, ty) t o').
    { intros t o' Lt Rt. unfold S_IFDIR, S_IFREG in Rt. destruct TY as [-> | ->].
      - change (16384 =? 16384) with true in Rt. split; [eapply try_dir_asks; eauto|eapply try_dir_ok; eauto].
      - change (32768 =? 16384) with false in Rt. change (32768 =? 32768) with true in Rt. split; [eapply try_file_asks; eauto|eapply try_file_ok; eauto]. }
    assert (I1 : incl [(name, ty)] ((name, ty) :: es)) by (intros x [<-|[]]; left; auto).
    assert (I2 : incl es ((name, ty) :: es)) by (intros x; right; auto).
    apply runs_bind in R as [(r & t1 & t2 & -> & R1 & R2)|[[R1 ->]|[R1 ->]]]; [|eapply asks_incl; [eapply STEP; eauto|auto]..].
    apply legal_app in L as [L1 L2]. destruct (STEP _ _ L1 R1) as [A1 ST]. apply asks_app; [eapply asks_incl; eauto|].
    destruct r as [c'| |c']; cbn [step_ok] in ST.
    + eapply asks_incl; [|exact I2]. destruct ST. eapply IH; eauto.
    + destruct R2 as [-> _]. apply asks_none; auto.
    + destruct (pick_suite (offered h) (hashes h) (version h) (key_type c') (chain c')) as [x|].
      * destruct R2 as [-> _]. apply asks_none; auto.
      * eapply asks_incl; [|exact I2]. destruct ST. eapply IH; eauto.
Qed.

(** ** The path is a direct child of the directory *)
Lemma fx_app : forall a b p, fx p (a ++ b) = fx p a ++ fx (match a with [] => p | _ => last a 0 =? 47 end) b.
Proof.
  induction a as [|c a IH]; intros b p; [reflexivity|]. cbn [app fx].
  assert (E : forall q, (match a with [] => q | _ => last a 0 =? 47 end) = (match a with [] => q | _ => last (c :: a) 0 =? 47 end)) by (destruct a; reflexivity).
  destruct p.
  - destruct (Z.eqb_spec c 46); [|destruct (Z.eqb_spec c 47)].
    + rewrite IH, E. cbn [app]. f_equal. destruct a; [subst c; reflexivity|reflexivity].
    + rewrite IH, E. destruct a; [subst c; reflexivity|reflexivity].
    + rewrite IH, E. cbn [app]. f_equal. destruct a; [|reflexivity]. cbn [last]. apply Z.eqb_neq in n0. rewrite n0. reflexivity.
  - rewrite IH, E. cbn [app]. f_equal. destruct a; reflexivity.
Qed.
Lemma fx_noslash : forall s, ~ In 47 s -> fx false s = s.
Proof.
  induction s as [|c s IH]; intros N; [reflexivity|]. cbn [fx In] in *. destruct (Z.eqb_spec c 47); [tauto|]. f_equal. apply IH. tauto.
Qed.
Lemma lab_chars : forall ls, Forall label_ok ls -> ~ In 47 (dotted ls) /\ ~ In 0 (dotted ls).
Proof.
  induction 1 as [|l ls (NE & _ & LC & _) F [IH1 IH2]]; cbn [dotted]; [auto|].
  assert (A : ~ In 47 l /\ ~ In 0 l). { rewrite Forall_forall in LC. split; intros I; apply LC in I; unfold lab_char in I; lia. }
  destruct ls; [exact A|]. split; intros I; apply in_app_or in I as [I|[I|I]]; tauto || lia.
Qed.
Lemma valid_chars : forall s ls, valid_name s ls -> ~ In 47 s /\ ~ In 0 s.
Proof.
  intros s ls (P & F & _). destruct (lab_chars ls F) as [A B]. unfold presents in P. destruct ls as [|l ls].
  - destruct P as [-> | ->]; cbn; intuition lia.
  - destruct P as [-> | ->]; auto. split; intros I; apply in_app_or in I as [I|[I|[]]]; tauto || lia.
Qed.
Lemma valid_head : forall s ls, valid_name s ls -> s <> [] -> s = [46] \/ hd 0 s <> 46.
Proof.
  intros s ls (P & F & _) N. unfold presents in P. destruct ls as [|l ls]; [tauto|]. right. apply Forall_cons_iff in F as [(NE & _ & LC & _) _].
  destruct l as [|c l]; [tauto|]. apply Forall_cons_iff in LC as [LC _].
  assert (H : hd 0 s = c). { destruct ls; destruct P as [-> | ->]; reflexivity. }
  rewrite H. unfold lab_char in LC. lia.
Qed.

Lemma child_path : forall d s ls, valid_name s ls -> s <> [] ->
  sanitized (d ++ [47] ++ s) = sanitized (d ++ [47]) ++ (if same s [46] then [58] else s).
Proof.
  intros d s ls V N. destruct (sanitized_fx (d ++ [47] ++ s)) as [-> _]. destruct (sanitized_fx (d ++ [47])) as [-> _].
  rewrite app_assoc, fx_app. f_equal. rewrite last_last. destruct (d ++ [47]) eqn:E; [destruct d; discriminate|]. change (47 =? 47) with true.
  destruct (valid_chars s ls V) as [A _]. destruct (valid_head s ls V N) as [->|H].
  - destruct (same_spec [46] [46]); [reflexivity|congruence].
  - destruct (same_spec s [46]) as [->|_]; [cbn in H; lia|]. destruct s as [|c s]; [congruence|]. cbn [hd In] in *. cbn [fx].
    destruct (Z.eqb_spec c 46); [congruence|]. destruct (Z.eqb_spec c 47); [tauto|]. f_equal. apply fx_noslash. tauto.
Qed.
Lemma dir_slash : forall d, exists D, sanitized (d ++ [47]) = D ++ [47] /\ (sanitized d = D \/ sanitized d = D ++ [47]).
Proof.
  intros d. destruct (sanitized_fx d) as [-> _]. destruct (sanitized_fx (d ++ [47])) as [-> _]. rewrite fx_app.
  destruct d as [|c d].
  - exists []. auto.
  - destruct (Z.eqb_spec (last (c :: d) 0) 47) as [E|E].
    + rewrite app_nil_r. destruct (exists_last (l := c :: d)) as (u & x & EU); [discriminate|]. rewrite EU, last_last in *. subst x.
      rewrite fx_app. destruct u as [|y u].
      * exists []. auto.
      * destruct (last (y :: u) 0 =? 47) eqn:EL; [|exists (fx false (y :: u)); cbn [fx]; auto].
        clear EU. (* the kept text already ends with a slash *)
        assert (K : forall v p, v <> [] -> last v 0 = 47 -> p = false \/ fx p v <> [] -> exists D, fx p v = D ++ [47]).
        { induction v as [|z v IHv]; intros p NV LV HP; [congruence|]. destruct v as [|w v].
          - cbn [last] in LV. subst z. destruct p; [destruct HP as [HP|HP]; [discriminate|cbn in HP; congruence]|exists []; reflexivity].
          - assert (NW : w :: v <> []) by discriminate. change (last (z :: w :: v) 0) with (last (w :: v) 0) in LV. 
            remember (w :: v) as vv. cbn [fx]. destruct p.
            + destruct (z =? 46); [|destruct (z =? 47) eqn:EZ].
              * destruct (IHv false NW LV) as [D ->]; auto. exists (58 :: D). reflexivity.
              * apply IHv; auto. destruct HP as [HP|HP]; [discriminate|]. right. cbn [fx] in HP. apply Z.eqb_eq in EZ. subst z. exact HP.
              * destruct (IHv false NW LV) as [D ->]; auto. exists (z :: D). reflexivity.
            + destruct (z =? 47) eqn:EZ.
              * apply Z.eqb_eq in EZ. subst z. destruct (fx true vv) as [|q r] eqn:EF; [exists []; reflexivity|].
                destruct (IHv true NW LV) as [D ED]; [right; congruence|]. rewrite <- EF, ED. exists (47 :: D). reflexivity.
              * destruct (IHv false NW LV) as [D ->]; auto. exists (z :: D). reflexivity. }
        apply Z.eqb_eq in EL. destruct (K (y :: u) false) as [D ED]; auto; [discriminate|]. exists D. cbn [fx] in *. rewrite app_nil_r. auto.
    + exists (fx false (c :: d)). cbn [fx]. auto.
Qed.
