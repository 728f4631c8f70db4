(** Lemmas about parsehostport.c. *)
From Verif.Model Require Import Base Parsenum Inet Parsehostport.
From Verif.Spec Require Import Num Ip Hostport.
From Verif.Proof Require Import Tac NumP.

Lemma first_split : forall (P : Z -> bool) t,
  (forall c, In c t -> P c = false) \/
  (exists u x v, t = u ++ x :: v /\ P x = true /\ forall c, In c u -> P c = false).
Proof.
  intros P t. induction t as [|c t IH]. { left. intros ? []. }
  destruct (P c) eqn:E.
  - right. exists [], c, t. repeat split; auto. intros ? [].
  - destruct IH as [H|(u & x & v & -> & Hx & Hu)].
    + left. intros d [->|Hd]; auto.
    + right. exists (c :: u), x, v. repeat split; auto. intros d [->|Hd]; auto.
Qed.

Lemma cstr_ok : forall s rest, nonul s -> cstr (s ++ 0 :: rest) = Ok s.
Proof.
  induction s as [|c s IH]; intros rest H; cbn [app cstr]; auto.
  apply Forall_cons_iff in H as [Hc H]. destruct (Z.eqb_spec c 0); [lia|].
  rewrite IH by assumption. reflexivity.
Qed.

Lemma nonul_app : forall a b, nonul (a ++ b) <-> nonul a /\ nonul b.
Proof. intros. unfold nonul. apply Forall_app. Qed.
Lemma nonul_cons : forall c b, nonul (c :: b) <-> 0 < c < 256 /\ nonul b.
Proof. intros. unfold nonul. apply Forall_cons_iff. Qed.

Lemma ld_at : forall a x b i, i = length a -> ld (a ++ x :: b) i = Ok x.
Proof. intros. subst. apply ld_app. Qed.

Lemma bracket_ok : forall t pre x r fuel, nonul t -> ~ In 91 t -> ~ In 93 t ->
  (x = 0 \/ x = 91 \/ x = 93) -> (length t < fuel)%nat ->
  php_bracket fuel (pre ++ t ++ x :: r) (length pre) =
  if x =? 91 then Ok None else Ok (Some (length pre + length t)%nat).
Proof.
  induction t as [|c t IH]; intros pre x r fuel N A B X F; destruct fuel as [|f]; cbn [length] in F; try lia;
    cbn [php_bracket app].
  - rewrite ld_app. cbn [bind length]. rewrite Nat.add_0_r.
    destruct X as [->|[->| ->]]; reflexivity.
  - rewrite ld_app. cbn [bind]. apply nonul_cons in N as [Hc N].
    cbn [In] in A, B.
    destruct (Z.eqb_spec c 0); [lia|]. destruct (Z.eqb_spec c 91); [tauto|]. destruct (Z.eqb_spec c 93); [tauto|].
    specialize (IH (pre ++ [c]) x r f). rewrite app_length, <- app_assoc in IH. cbn [app length] in IH.
    rewrite Nat.add_1_r in IH. rewrite IH by (auto; lia). cbn [length].
    rewrite Nat.add_succ_r. reflexivity.
Qed.

Lemma brport_ok : forall t pre x r fuel, nonul t -> ~ In 93 t ->
  (x = 0 \/ x = 93) -> (length t < fuel)%nat ->
  php_brport fuel (pre ++ t ++ x :: r) (length pre) =
  if x =? 93 then Ok None else Ok (Some (length pre + length t)%nat).
Proof.
  induction t as [|c t IH]; intros pre x r fuel N B X F; destruct fuel as [|f]; cbn [length] in F; try lia;
    cbn [php_brport app].
  - rewrite ld_app. cbn [bind length]. rewrite Nat.add_0_r.
    destruct X as [->| ->]; reflexivity.
  - rewrite ld_app. cbn [bind]. apply nonul_cons in N as [Hc N].
    cbn [In] in B.
    destruct (Z.eqb_spec c 0); [lia|]. destruct (Z.eqb_spec c 93); [tauto|].
    specialize (IH (pre ++ [c]) x r f). rewrite app_length, <- app_assoc in IH. cbn [app length] in IH.
    rewrite Nat.add_1_r in IH. rewrite IH by (auto; lia). cbn [length].
    rewrite Nat.add_succ_r. reflexivity.
Qed.

(** Scan of a stretch without colon and closing bracket. *)
Lemma scan_step : forall t pre r fuel cc lc, nonul t -> ~ In 93 t -> ~ In 58 t -> (length t <= fuel)%nat ->
  php_scan fuel (pre ++ t ++ r) (length pre) cc lc =
  php_scan (fuel - length t) ((pre ++ t) ++ r) (length (pre ++ t)) cc lc.
Proof.
  induction t as [|c t IH]; intros pre r fuel cc lc N B C F; cbn [length] in F.
  - rewrite app_nil_r. cbn [app length]. rewrite Nat.sub_0_r. reflexivity.
  - destruct fuel as [|f]; [lia|]. cbn [php_scan app]. rewrite ld_app. cbn [bind].
    apply nonul_cons in N as [Hc N]. cbn [In] in B, C.
    destruct (Z.eqb_spec c 0); [lia|]. destruct (Z.eqb_spec c 93); [tauto|]. destruct (Z.eqb_spec c 58); [tauto|].
    specialize (IH (pre ++ [c]) r f cc lc). rewrite app_length, <- !app_assoc in IH. cbn [app length] in IH.
    rewrite Nat.add_1_r in IH. rewrite IH by (auto; lia). cbn [length Nat.sub].
    rewrite <- app_assoc. cbn [app]. reflexivity.
Qed.

Lemma scan_end : forall pre r fuel cc lc, (0 < fuel)%nat ->
  php_scan fuel (pre ++ 0 :: r) (length pre) cc lc = Ok (Some (length pre, cc, lc)).
Proof. intros. destruct fuel; [lia|]. cbn [php_scan]. rewrite ld_app. reflexivity. Qed.

Lemma scan_colon : forall pre r fuel cc lc, (0 < fuel)%nat ->
  php_scan fuel (pre ++ 58 :: r) (length pre) cc lc =
  php_scan (fuel - 1) ((pre ++ [58]) ++ r) (length (pre ++ [58])) (S cc) (length pre).
Proof.
  intros. destruct fuel; [lia|]. cbn [php_scan]. rewrite ld_app. cbn [bind Z.eqb Nat.sub].
  rewrite <- app_assoc, app_length, Nat.sub_0_r, Nat.add_1_r. reflexivity.
Qed.

(** Whole scan, from any state: rejects iff a closing bracket occurs, counts colons. *)
Lemma scan_reject : forall t pre r fuel cc lc, nonul t -> In 93 t -> (length t < fuel)%nat ->
  php_scan fuel (pre ++ t ++ 0 :: r) (length pre) cc lc = Ok None.
Proof.
  induction t as [|c t IH]; intros pre r fuel cc lc N B F; [destruct B|].
  destruct fuel as [|f]; cbn [length] in F; [lia|]. cbn [php_scan app]. rewrite ld_app. cbn [bind].
  apply nonul_cons in N as [Hc N].
  destruct (Z.eqb_spec c 0); [lia|]. destruct (Z.eqb_spec c 93); [reflexivity|].
  destruct B as [B|B]; [congruence|].
  pose proof (IH (pre ++ [c]) r f) as IH'. rewrite app_length, <- app_assoc in IH'. cbn [app length] in IH'.
  rewrite Nat.add_1_r in IH'.
  destruct (Z.eqb_spec c 58); apply IH'; auto; lia.
Qed.

Fixpoint colons (t : list Z) : nat :=
  match t with [] => O | c :: t' => if c =? 58 then S (colons t') else colons t' end.

Lemma scan_count : forall t pre r fuel cc lc, nonul t -> ~ In 93 t -> (length t < fuel)%nat ->
  exists lc', php_scan fuel (pre ++ t ++ 0 :: r) (length pre) cc lc =
              Ok (Some ((length pre + length t)%nat, (cc + colons t)%nat, lc')).
Proof.
  induction t as [|c t IH]; intros pre r fuel cc lc N B F; destruct fuel as [|f]; cbn [length] in F; try lia.
  - exists lc. cbn [app php_scan length colons]. rewrite ld_app. cbn [bind]. rewrite !Nat.add_0_r. reflexivity.
  - cbn [php_scan app]. rewrite ld_app. cbn [bind].
    apply nonul_cons in N as [Hc N]. cbn [In] in B.
    destruct (Z.eqb_spec c 0); [lia|]. destruct (Z.eqb_spec c 93); [tauto|].
    pose proof (IH (pre ++ [c]) r f) as IH'. rewrite app_length, <- app_assoc in IH'. cbn [app length] in IH'.
    rewrite Nat.add_1_r in IH'. cbn [colons length].
    destruct (Z.eqb_spec c 58); [destruct (IH' (S cc) (length pre)) as [l' ->]|destruct (IH' cc lc) as [l' ->]];
      auto; try lia; exists l'; do 3 f_equal; f_equal; lia.
Qed.

(** What a slice record says about the input content [s]. *)
Definition slice_ok (s : list Z) (sl : slices) (h p : list Z) (six : bool) : Prop :=
  (exists a b, s = a ++ h ++ b /\ length a = s_host sl) /\ length h = s_hostlen sl /\
  (exists a b, s = a ++ p ++ b /\ length a = s_port sl) /\ length p = s_portlen sl /\
  (s_brack sl || (1 <? s_cc sl)%nat) = six.

Lemma mid_unique : forall (a b a' b' m m' : list Z), a ++ m ++ b = a' ++ m' ++ b' ->
  length a = length a' -> length m = length m' -> m = m'.
Proof.
  intros a b a' b' m m' E L1 L2.
  assert (forall (x y u v : list Z), x ++ u = y ++ v -> length x = length y -> x = y /\ u = v) as G.
  { induction x; intros [|? y] u v E' L; cbn in *; try discriminate; auto.
    inv E'. inv L. destruct (IHx y u v) as [-> ->]; auto. }
  destruct (G _ _ _ _ E L1) as [_ E2]. destruct (G _ _ _ _ E2 L2). auto.
Qed.

Lemma slice_det : forall s sl h p six h' p' six', slice_ok s sl h p six -> slice_ok s sl h' p' six' ->
  h = h' /\ p = p' /\ six = six'.
Proof.
  intros s sl h p six h' p' six' ((a & b & E1 & L1) & L2 & (c & d & E2 & L3) & L4 & S1)
    ((a' & b' & E1' & L1') & L2' & (c' & d' & E2' & L3') & L4' & S2).
  repeat split; try congruence.
  - rewrite E1 in E1'. eapply mid_unique; eauto; congruence.
  - rewrite E2 in E2'. eapply mid_unique; eauto; congruence.
Qed.


Ltac lens := repeat (rewrite app_length || cbn [length app]); try lia.
Ltac leq := cbn [app]; rewrite <- ?app_assoc; cbn [app]; rewrite <- ?app_assoc; cbn [app]; reflexivity.

Lemma ld_is : forall inp i a x b, inp = a ++ x :: b -> i = length a -> ld inp i = Ok x.
Proof. intros. subst. apply ld_app. Qed.

Lemma bracket_is : forall inp t x r fuel, inp = 91 :: t ++ x :: r -> nonul t -> ~ In 91 t -> ~ In 93 t ->
  (x = 0 \/ x = 91 \/ x = 93) -> (length t < fuel)%nat ->
  php_bracket fuel inp 1 = if x =? 91 then Ok None else Ok (Some (1 + length t)%nat).
Proof. intros. subst. exact (bracket_ok t [91] x r fuel H0 H1 H2 H3 H4). Qed.

Lemma brport_is : forall inp i pre t x r fuel, inp = pre ++ t ++ x :: r -> i = length pre -> nonul t -> ~ In 93 t ->
  (x = 0 \/ x = 93) -> (length t < fuel)%nat ->
  php_brport fuel inp i = if x =? 93 then Ok None else Ok (Some (i + length t)%nat).
Proof. intros. subst. apply brport_ok; auto. Qed.

Lemma scan0 : forall inp t r fuel, inp = t ++ 0 :: r -> nonul t -> ~ In 93 t -> (length t < fuel)%nat ->
  exists lc', php_scan fuel inp 0 0 0 = Ok (Some (length t, colons t, lc')).
Proof. intros. subst. apply (scan_count t [] r fuel 0 0); auto. Qed.

Lemma colons_app : forall a b, colons (a ++ b) = (colons a + colons b)%nat.
Proof. induction a; intros; cbn [app colons]; auto. rewrite IHa. dif; lia. Qed.

Lemma colons0 : forall t, ~ In 58 t -> colons t = O.
Proof. induction t; intros H; cbn [colons]; auto. cbn [In] in H. destruct (Z.eqb_spec a 58); [tauto|]. auto. Qed.

Lemma scan_one : forall h p r fuel, nonul h -> nonul p -> ~ In 93 h -> ~ In 58 h -> ~ In 93 p -> ~ In 58 p ->
  (length (h ++ 58%Z :: p) < fuel)%nat ->
  php_scan fuel ((h ++ 58 :: p) ++ 0 :: r) 0 0 0 = Ok (Some (length (h ++ 58 :: p), 1%nat, length h)).
Proof.
  intros h p r fuel Nh Np A B C D F. rewrite app_length in *. cbn [length] in *.
  replace ((h ++ 58 :: p) ++ 0 :: r) with ([] ++ h ++ 58 :: p ++ 0 :: r) by leq.
  change 0%nat with (length (@nil Z)) at 1. rewrite scan_step by (auto; lia). cbn [app].
  rewrite scan_colon by lia.
  rewrite scan_step by (auto; lia). rewrite scan_end by lia. do 3 f_equal. f_equal. lens.
Qed.

Lemma split_complete : forall s h p six rest, hp_form s h p six -> nonul s ->
  exists sl, php_split (s ++ 0 :: rest) = Ok (Some sl) /\ slice_ok s sl h p six.
Proof.
  intros s h p six rest F N. unfold php_split. remember (s ++ 0 :: rest) as inp eqn:EI.
  destruct F as [h Hn A B|h p Hn A B Pn Bp|h Hn A B C|h p Hn A B C Pn Bp Cp|a b c A B].
  - (* [h] *)
    apply nonul_cons in N as [_ N]. apply nonul_app in N as [N _].
    assert (L0 : (0 < length h)%nat) by (destruct h; [congruence|cbn; lia]).
    rewrite (ld_is inp 0 [] 91 (h ++ 93 :: 0 :: rest)) by (subst; leq).
    cbn [bind]. change (91 =? 0) with false. change (91 =? 91) with true. cbn [bind].
    rewrite (bracket_is inp h 93 (0 :: rest)) by (subst; auto; try leq; lens).
    cbn [bind]. change (93 =? 91) with false. cbn [bind].
    rewrite (ld_is inp _ (91 :: h) 93 (0 :: rest)) by (subst; try leq; lens).
    cbn [bind]. change (93 =? 0) with false. cbn [bind].
    destruct (Nat.eqb_spec (1 + length h) 1); [lia|].
    rewrite (ld_is inp _ (91 :: h ++ [93]) 0 rest) by (subst; try leq; lens).
    cbn [bind]. change (0 =? 0) with true. cbn [bind].
    eexists. split; [reflexivity|]. unfold slice_ok. cbn [s_host s_hostlen s_port s_portlen s_brack s_cc orb].
    repeat split; [exists [91], [93]; auto|lia|].
    exists (91 :: h ++ [93]), []. rewrite !app_nil_r. split; auto. lens.
  - (* [h]:p *)
    apply nonul_cons in N as [_ N]. apply nonul_app in N as [N Np]. apply nonul_app in Np as [_ Np].
    assert (L0 : (0 < length h)%nat) by (destruct h; [congruence|cbn; lia]).
    destruct p as [|p0 p]; [congruence|].
    rewrite (ld_is inp 0 [] 91 (h ++ [93; 58] ++ (p0 :: p) ++ 0 :: rest)) by (subst; leq).
    cbn [bind]. change (91 =? 0) with false. change (91 =? 91) with true. cbn [bind].
    rewrite (bracket_is inp h 93 (58 :: (p0 :: p) ++ 0 :: rest)) by (subst; auto; try leq; lens).
    cbn [bind]. change (93 =? 91) with false. cbn [bind].
    rewrite (ld_is inp _ (91 :: h) 93 (58 :: (p0 :: p) ++ 0 :: rest)) by (subst; try leq; lens).
    cbn [bind]. change (93 =? 0) with false. cbn [bind].
    destruct (Nat.eqb_spec (1 + length h) 1); [lia|].
    rewrite (ld_is inp _ (91 :: h ++ [93]) 58 ((p0 :: p) ++ 0 :: rest)) by (subst; try leq; lens).
    cbn [bind]. change (58 =? 0) with false. change (negb (58 =? 58)) with false. cbn [bind].
    rewrite (ld_is inp _ (91 :: h ++ [93; 58]) p0 (p ++ 0 :: rest)) by (subst; try leq; lens).
    cbn [bind]. pose proof Np as Np'. apply nonul_cons in Np' as [Hp0 _]. destruct (Z.eqb_spec p0 0); [lia|].
    rewrite (brport_is inp _ (91 :: h ++ [93; 58]) (p0 :: p) 0 rest) by (subst; auto; try leq; lens).
    cbn [bind]. change (0 =? 93) with false. cbn [bind].
    eexists. split; [reflexivity|]. unfold slice_ok. cbn [s_host s_hostlen s_port s_portlen s_brack s_cc orb].
    repeat split; [exists [91], ([93; 58] ++ p0 :: p); auto|lia| |lens].
    exists (91 :: h ++ [93; 58]), []. rewrite app_nil_r. split; [leq|]. lens.
  - (* h *)
    destruct h as [|h0 h]; [congruence|]. cbn [hd] in A.
    pose proof N as N'. apply nonul_cons in N' as [Hh0 _].
    rewrite (ld_is inp 0 [] h0 (h ++ 0 :: rest)) by (subst; leq). cbn [bind].
    destruct (Z.eqb_spec h0 0); [lia|]. destruct (Z.eqb_spec h0 91); [lia|].
    destruct (scan0 inp (h0 :: h) rest (length inp)) as [lc ->]; auto. { subst. lens. }
    cbn [bind]. rewrite (colons0 (h0 :: h)) by assumption. cbn [Nat.eqb].
    eexists. split; [reflexivity|]. unfold slice_ok. cbn [s_host s_hostlen s_port s_portlen s_brack s_cc orb].
    repeat split.
    + exists [], []. rewrite app_nil_r. auto.
    + exists (h0 :: h), []. rewrite app_nil_r. auto.
  - (* h:p *)
    pose proof N as N'. apply nonul_app in N' as [Nh Np]. apply nonul_cons in Np as [_ Np].
    destruct h as [|h0 h]; [congruence|]. destruct p as [|p0 p]; [congruence|]. cbn [hd] in A.
    pose proof Nh as N'. apply nonul_cons in N' as [Hh0 _]. pose proof Np as N'. apply nonul_cons in N' as [Hp0 _].
    rewrite (ld_is inp 0 [] h0 (h ++ 58 :: (p0 :: p) ++ 0 :: rest)) by (subst; leq). cbn [bind].
    destruct (Z.eqb_spec h0 0); [lia|]. destruct (Z.eqb_spec h0 91); [lia|].
    assert (E : php_scan (length inp) inp 0 0 0 = Ok (Some (length ((h0 :: h) ++ 58 :: p0 :: p), 1%nat, length (h0 :: h)))).
    { subst inp. apply scan_one; auto. lens. }
    rewrite E. cbn [bind]. change (1 =? 0)%nat with false. change (1 =? 1)%nat with true. cbn [bind].
    destruct (Nat.eqb_spec (length (h0 :: h)) 0) as [Z0|Z0]; [cbn in Z0; lia|].
    rewrite (ld_is inp _ ((h0 :: h) ++ [58]) p0 (p ++ 0 :: rest)) by (subst; try leq; lens). cbn [bind].
    destruct (Z.eqb_spec p0 0); [lia|].
    eexists. split; [reflexivity|]. unfold slice_ok. cbn [s_host s_hostlen s_port s_portlen s_brack s_cc orb].
    repeat split; [exists [], (58 :: p0 :: p); auto| |lens].
    exists ((h0 :: h) ++ [58]), []. rewrite app_nil_r. split; [leq|]. lens.
  - (* a:b:c *)
    remember (a ++ 58 :: b ++ 58 :: c) as h eqn:Eh.
    assert (CC : (2 <= colons h)%nat).
    { subst h. rewrite colons_app. cbn [colons]. change (58 =? 58) with true. cbn [bind].
      rewrite colons_app. cbn [colons]. change (58 =? 58) with true. cbn [bind]. lia. }
    destruct h as [|h0 h]; [destruct a; discriminate|]. clear Eh. cbn [hd] in A.
    pose proof N as N'. apply nonul_cons in N' as [Hh0 _].
    rewrite (ld_is inp 0 [] h0 (h ++ 0 :: rest)) by (subst; leq). cbn [bind].
    destruct (Z.eqb_spec h0 0); [lia|]. destruct (Z.eqb_spec h0 91); [lia|].
    destruct (scan0 inp (h0 :: h) rest (length inp)) as [lc ->]; auto. { subst. lens. }
    cbn [bind]. destruct (Nat.eqb_spec (colons (h0 :: h)) 0); [lia|]. destruct (Nat.eqb_spec (colons (h0 :: h)) 1); [lia|].
    eexists. split; [reflexivity|]. unfold slice_ok. cbn [s_host s_hostlen s_port s_portlen s_brack s_cc orb].
    repeat split.
    + exists [], []. rewrite app_nil_r. auto.
    + exists (h0 :: h), []. rewrite app_nil_r. auto.
    + destruct (Nat.ltb_spec 1 (colons (h0 :: h))); [reflexivity|lia].
Qed.

Lemma in_dec_Z : forall (c : Z) l, In c l \/ ~ In c l.
Proof. intros. destruct (in_dec Z.eq_dec c l); auto. Qed.

Lemma in_split_first : forall c (t : list Z), In c t -> exists u v, t = u ++ c :: v /\ ~ In c u.
Proof.
  intros c t H. destruct (first_split (Z.eqb c) t) as [A|(u & x & v & E & X & U)].
  - specialize (A c H). rewrite Z.eqb_refl in A. discriminate.
  - apply Z.eqb_eq in X. subst x. exists u, v. split; auto. intro I. apply U in I. rewrite Z.eqb_refl in I. discriminate.
Qed.

Lemma split_sound : forall s rest, nonul s ->
  (exists h p six, hp_form s h p six) \/ php_split (s ++ 0 :: rest) = Ok None.
Proof.
  intros s rest N. unfold php_split. remember (s ++ 0 :: rest) as inp eqn:EI.
  destruct s as [|s0 s].
  { right. subst. reflexivity. }
  rewrite (ld_is inp 0 [] s0 (s ++ 0 :: rest)) by (subst; leq). cbn [bind].
  pose proof N as N'. apply nonul_cons in N' as [Hs0 Ns].
  destruct (Z.eqb_spec s0 0); [lia|]. destruct (Z.eqb_spec s0 91).
  - subst s0. destruct (first_split (fun c => (c =? 91) || (c =? 93)) s) as [A|(u & x & v & E & X & U)].
    + right. rewrite (bracket_is inp s 0 rest).
      * cbn [bind]. change (0 =? 91) with false. cbn [bind].
        rewrite (ld_is inp _ (91 :: s) 0 rest) by (subst; try leq; lens). reflexivity.
      * subst; leq.
      * assumption.
      * intro I. apply A in I. discriminate.
      * intro I. apply A in I. discriminate.
      * auto.
      * subst. lens.
    + assert (U1 : ~ In 91 u) by (intro I; apply U in I; discriminate).
      assert (U2 : ~ In 93 u) by (intro I; apply U in I; discriminate).
      subst s. apply nonul_app in Ns as [Nu Nv]. apply nonul_cons in Nv as [_ Nv].
      rewrite (bracket_is inp u x (v ++ 0 :: rest)); [|subst; leq|auto|auto|auto|lia|subst; lens].
      destruct (Z.eqb_spec x 91) as [->|X91]; [right; reflexivity|].
      assert (x = 93) by lia. subst x. clear X X91. cbn [bind].
      rewrite (ld_is inp _ (91 :: u) 93 (v ++ 0 :: rest)) by (subst; try leq; lens).
      cbn [bind]. change (93 =? 0) with false. cbn [bind].
      destruct u as [|u0 u]; [right; reflexivity|].
      destruct (Nat.eqb_spec (1 + length (u0 :: u)) 1) as [Z0|_]; [cbn in Z0; lia|].
      destruct v as [|v0 v].
      { left. exists (u0 :: u), [], true. apply hp_br; auto. discriminate. }
      rewrite (ld_is inp _ (91 :: (u0 :: u) ++ [93]) v0 (v ++ 0 :: rest)) by (subst; try leq; lens).
      pose proof Nv as N'. apply nonul_cons in N' as [Hv0 Nv'].
      cbn [bind]. destruct (Z.eqb_spec v0 0); [lia|].
      destruct (Z.eqb_spec v0 58); cbn [negb]; [|right; reflexivity]. subst v0.
      destruct v as [|v1 v].
      { right. rewrite (ld_is inp _ (91 :: (u0 :: u) ++ [93; 58]) 0 rest) by (subst; try leq; lens). reflexivity. }
      pose proof Nv' as N'. apply nonul_cons in N' as [Hv1 _].
      rewrite (ld_is inp _ (91 :: (u0 :: u) ++ [93; 58]) v1 (v ++ 0 :: rest)) by (subst; try leq; lens).
      cbn [bind]. destruct (Z.eqb_spec v1 0); [lia|].
      destruct (in_dec_Z 93 (v1 :: v)) as [I|I].
      * right. destruct (in_split_first _ _ I) as (w & z & Ew & Iw).
        pose proof Nv' as N'. rewrite Ew in N'. apply nonul_app in N' as [Nw _].
        assert (EI' : inp = (91 :: (u0 :: u) ++ [93; 58]) ++ w ++ 93 :: z ++ 0 :: rest).
        { rewrite EI. replace ((91 :: (u0 :: u) ++ 93 :: 58 :: v1 :: v) ++ 0 :: rest)
            with ((91 :: (u0 :: u) ++ [93; 58]) ++ (v1 :: v) ++ 0 :: rest) by leq.
          rewrite Ew. leq. }
        rewrite (brport_is inp _ (91 :: (u0 :: u) ++ [93; 58]) w 93 (z ++ 0 :: rest)); auto; try lens.
        rewrite EI'. lens.
      * left. exists (u0 :: u), (v1 :: v), true. apply hp_br_port; auto; discriminate.
  - destruct (in_dec_Z 93 (s0 :: s)) as [I|I].
    { right. subst inp. rewrite (scan_reject (s0 :: s) [] rest); auto. rewrite app_length; cbn; lia. }
    destruct (in_dec_Z 58 (s0 :: s)) as [J|J].
    2:{ left. exists (s0 :: s), [], false. apply hp_plain; auto. discriminate. }
    destruct (in_split_first _ _ J) as (h & v & E & Ih).
    destruct (in_dec_Z 58 v) as [K|K].
    { left. destruct (in_split_first _ _ K) as (b & c & -> & _).
      exists (s0 :: s), [], true. assert (hd 0 (s0 :: s) <> 91) by (cbn; lia). rewrite E in *. apply hp_multi; auto. }
    rewrite E in *. destruct h as [|h0 h].
    { right. cbn [app] in *. subst inp. apply nonul_cons in N as [_ Nv].
      rewrite (scan_one [] v rest); auto. { constructor. } { intro. apply I. right. auto. }
      lens. }
    destruct v as [|v0 v].
    { right. apply nonul_app in N as [Nh _]. subst inp.
      rewrite (scan_one (h0 :: h) [] rest); auto; [|constructor|intro X; apply I; apply in_or_app; auto|lens].
      cbn [bind]. change (1 =? 0)%nat with false. change (1 =? 1)%nat with true. cbn [bind].
      change (length (h0 :: h) =? 0)%nat with false. cbn [bind].
      rewrite (ld_is _ _ ((h0 :: h) ++ [58]) 0 rest) by (try leq; lens). reflexivity. }
    left. exists (h0 :: h), (v0 :: v), false. cbn [app] in E. inv E.
    apply hp_plain_port; auto; try discriminate.
    + intro X. apply I. apply in_or_app. auto.
    + intro X. apply I. apply in_or_app. right. right. auto.
Qed.

Lemma hp_form_det : forall s h p six h' p' six', nonul s -> hp_form s h p six -> hp_form s h' p' six' ->
  h = h' /\ p = p' /\ six = six'.
Proof.
  intros s h p six h' p' six' N F F'.
  destruct (split_complete s h p six [] F N) as (sl & E & S1).
  destruct (split_complete s h' p' six' [] F' N) as (sl' & E' & S2).
  rewrite E in E'. inv E'. eapply slice_det; eauto.
Qed.

Lemma copy_ok : forall m a u b d2 d3, length d2 = length m ->
  php_copy (length m) (a ++ u ++ m ++ b) (length a) (u ++ d2 ++ d3) (length u) = Ok (u ++ m ++ d3).
Proof.
  induction m as [|x m IH]; intros a u b d2 d3 L; destruct d2 as [|y d2]; cbn [length] in L; try lia; cbn [length php_copy].
  - reflexivity.
  - rewrite (ld_is _ _ (a ++ u) x (m ++ b)) by (try leq; lens). cbn [bind app].
    rewrite st_app. cbn [bind].
    specialize (IH a (u ++ [x]) b d2 d3). rewrite app_length, <- !app_assoc in IH. cbn [app length] in IH.
    rewrite Nat.add_1_r in IH. apply IH. lia.
Qed.

(** copying a slice to the start of a zeroed buffer *)
Lemma copy_slice : forall m a b n, (length m <= n)%nat ->
  php_copy (length m) (a ++ m ++ b) (length a) (repeat 0 n) 0 = Ok (m ++ repeat 0 (n - length m)).
Proof.
  intros. pose proof (copy_ok m a [] b (repeat 0 (length m)) (repeat 0 (n - length m))) as C.
  cbn [app length] in C. rewrite <- repeat_app in C. replace (length m + (n - length m))%nat with n in C by lia.
  apply C. apply repeat_length.
Qed.

Lemma copy_whole : forall m d, length d = length m -> php_copy (length m) m 0 d 0 = Ok m.
Proof.
  intros. pose proof (copy_ok m [] [] [] d [] H) as C. cbn [app length] in C. rewrite !app_nil_r in C. exact C.
Qed.

Lemma st_zero : forall m n, (length m < n)%nat ->
  st (m ++ repeat 0 (n - length m)) (length m) 0 = Ok (m ++ repeat 0 (n - length m)).
Proof. intros. destruct (n - length m)%nat eqn:E; [lia|]. cbn [repeat]. rewrite st_app. reflexivity. Qed.

Lemma numeral_big : forall p, numeral p -> decval p < 65536 -> (length p < 6)%nat.
Proof.
  intros p [->|(c & s & -> & C & D)] L. { cbn. lia. }
  cbn [decval] in L. pose proof (decval_nonneg s D).
  destruct (le_lt_dec 5 (length s)) as [G|G]; [|cbn; lia]. exfalso.
  assert (10 ^ 5 <= 10 ^ len s). { apply Z.pow_le_mono_r; unfold len; lia. }
  change (10 ^ 5) with 100000 in *. nia.
Qed.

Definition isSome {A} (o : option A) : bool := match o with Some _ => true | None => false end.

Lemma stored_len : forall n s, (length s <= n)%nat -> length (stored n s) = n.
Proof. intros. unfold stored. rewrite app_length, repeat_length. lia. Qed.

Lemma slice_sub : forall s a h b, s = a ++ h ++ b -> nonul s -> nonul h.
Proof. intros. subst. apply nonul_app in H0 as [_ H0]. apply nonul_app in H0 as [H0 _]. exact H0. Qed.

Lemma stored_cstr : forall n s, nonul s -> (length s < n)%nat -> cstr (stored n s) = Ok s.
Proof.
  intros. unfold stored. destruct (n - length s)%nat eqn:E; [lia|]. cbn [repeat]. apply cstr_ok. assumption.
Qed.

Lemma parsehostport_correct : forall I outhost outport s rest, nonul s -> length outhost = HOSTBYTES ->
  (forall p, outport = Some p -> length p = PORTBYTES) ->
  exists ret h' p', parsehostport I outhost outport (s ++ 0 :: rest) = Ok (ret, h', p') /\
  ((ret = 1 /\ exists host port, hp_ok I (isSome outport) s host port /\
      h' = stored HOSTBYTES host /\ p' = option_map (fun _ => stored PORTBYTES port) outport) \/
   (ret = 0 /\ h' = 0 :: tl outhost /\ p' = option_map (fun p => 0 :: tl p) outport /\
      forall host port, ~ hp_ok I (isSome outport) s host port)).
Proof.
  intros I outhost outport s rest N LH LP. unfold parsehostport.
  set (err := bind (st outhost 0 0) _).
  assert (ER : (forall host port, ~ hp_ok I (isSome outport) s host port) -> exists ret h' p', err = Ok (ret, h', p') /\
  ((ret = 1 /\ exists host port, hp_ok I (isSome outport) s host port /\
      h' = stored HOSTBYTES host /\ p' = option_map (fun _ => stored PORTBYTES port) outport) \/
   (ret = 0 /\ h' = 0 :: tl outhost /\ p' = option_map (fun p => 0 :: tl p) outport /\
      forall host port, ~ hp_ok I (isSome outport) s host port))).
  { intros NO. unfold err. destruct outhost as [|o0 outhost]; [discriminate|].
    cbn [st length Nat.ltb Nat.leb upd bind].
    destruct outport as [p|].
    - specialize (LP p eq_refl). destruct p as [|p0 p]; [discriminate|].
      cbn [st length Nat.ltb Nat.leb upd bind]. do 3 eexists. split; [reflexivity|]. right. auto.
    - do 3 eexists. split; [reflexivity|]. right. auto. }
  clearbody err.
  destruct (split_sound s rest N) as [(h & p & six & F)|SN].
  2:{ rewrite SN. cbn [bind]. apply ER. intros host port (six & F & _).
      destruct (split_complete _ _ _ _ rest F N) as (sl & E & _). congruence. }
  destruct (split_complete _ _ _ _ rest F N) as (sl & E & S). rewrite E. cbn [bind].
  assert (U : forall host port, hp_ok I (isSome outport) s host port -> host = h /\ port = p /\ hp_ok I (isSome outport) s h p).
  { intros host port H. pose proof H as (six' & F' & _). destruct (hp_form_det _ _ _ _ _ _ _ N F F') as (-> & -> & ->). auto. }
  destruct S as ((a & b & Es & La) & Lh & (c & d & Ep & Lc) & Lp & Six).
  pose proof (slice_sub _ _ _ _ Es N) as Nh. pose proof (slice_sub _ _ _ _ Ep N) as Np.
  set (portlen := match outport with None => O | Some _ => s_portlen sl end).
  destruct (Nat.leb_spec HOSTBYTES (s_hostlen sl)) as [HB|HB].
  { apply ER. intros host port H. apply U in H as (_ & _ & six' & F' & L' & _). unfold HOSTBYTES in HB. lia. }
  destruct (Nat.leb_spec PORTBYTES portlen) as [PB|PB].
  { apply ER. intros host port H. apply U in H as (_ & _ & six' & F' & L' & _ & P').
    destruct outport; cbn in portlen; subst portlen; [|unfold PORTBYTES in PB; lia].
    destruct (P' eq_refl) as [->|[Nu Dv]]. { cbn in Lp. unfold PORTBYTES in PB. lia. }
    pose proof (numeral_big _ Nu Dv). unfold PORTBYTES in PB. lia. }
  assert (CH : php_copy (s_hostlen sl) (s ++ 0 :: rest) (s_host sl) (repeat 0 HOSTBYTES) 0 = Ok (stored HOSTBYTES h)).
  { rewrite <- Lh, <- La. rewrite Es, <- !app_assoc. apply copy_slice. lia. }
  rewrite CH. cbn [bind].
  assert (SH : st (stored HOSTBYTES h) (s_hostlen sl) 0 = Ok (stored HOSTBYTES h)).
  { rewrite <- Lh. apply st_zero. lia. }
  rewrite SH. cbn [bind].
  assert (I6 : (if s_brack sl || (1 <? s_cc sl)%nat then
                  (a <- parseip6_ I (stored HOSTBYTES h) ;; Ok (match a with Some _ => true | None => false end))
                else Ok true) = Ok (if six then isSome (pton6 I h) else true)).
  { rewrite Six. destruct six; auto. unfold parseip6_. rewrite stored_cstr by (auto; lia). reflexivity. }
  rewrite I6. cbn [bind].
  destruct (if six then isSome (pton6 I h) else true) eqn:B6; cbn [negb].
  2:{ apply ER. intros host port H. apply U in H as (_ & _ & six' & F' & _ & S' & _).
      destruct (hp_form_det _ _ _ _ _ _ _ N F F') as (_ & _ & <-).
      destruct six; [|discriminate]. specialize (S' eq_refl). destruct (pton6 I h); [discriminate|congruence]. }
  set (pp := match outport with None => [] | Some _ => p end).
  assert (CP : php_copy portlen (s ++ 0 :: rest) (s_port sl) (repeat 0 PORTBYTES) 0 = Ok (stored PORTBYTES pp)).
  { unfold portlen, pp. destruct outport; [|reflexivity].
    rewrite <- Lp, <- Lc. rewrite Ep, <- !app_assoc. apply copy_slice. subst portlen. cbn in PB. lia. }
  rewrite CP. cbn [bind].
  assert (LPP : length pp = portlen) by (unfold pp, portlen; destruct outport; auto).
  assert (SP : st (stored PORTBYTES pp) portlen 0 = Ok (stored PORTBYTES pp)).
  { rewrite <- LPP. apply st_zero. lia. }
  rewrite SP. cbn [bind].
  assert (NPP : nonul pp) by (unfold pp; destruct outport; auto; constructor).
  assert (PO : exists ok, (if (portlen =? 0)%nat then Ok true else
                (a <- parseport_ (stored PORTBYTES pp) ;; Ok (match a with Some _ => true | None => false end))) = Ok ok /\
               (ok = true <-> (isSome outport = true -> p = [] \/ (numeral p /\ decval p < 65536)))).
  { destruct (Nat.eqb_spec portlen 0) as [Z0|Z0].
    - exists true. split; auto. split; auto. intros _ IS. left. destruct outport; [|discriminate].
      unfold pp in LPP. destruct p; auto. cbn in LPP. lia.
    - assert (isSome outport = true /\ pp = p) as [IS PE].
      { unfold pp, portlen in *. destruct outport; auto. lia. }
      destruct (parseport_correct pp (repeat 0 (PORTBYTES - length pp - 1)) NPP) as (r & Er & Hr).
      assert (stored PORTBYTES pp = pp ++ 0 :: repeat 0 (PORTBYTES - length pp - 1)) as ES.
      { unfold stored. destruct (PORTBYTES - length pp)%nat eqn:EE; [lia|]. cbn [repeat]. do 3 f_equal. lia. }
      rewrite ES, Er. cbn [bind]. eexists. split; [reflexivity|].
      rewrite PE in *. destruct r as [[p0 p1]|].
      + split; auto. intros _ _. right. destruct Hr as (Hb0 & Hb1 & Hn & Hd). split; auto.
        unfold is_byte, port_val in *. lia.
      + split; [discriminate|]. intros X. exfalso. destruct (X IS) as [->|Y]; [cbn in LPP; lia|]. auto. }
  destruct PO as (ok & EP & Hok). rewrite EP. cbn [bind].
  destruct ok; cbn [negb].
  2:{ apply ER. intros host port H. apply U in H as (_ & _ & six' & F' & _ & _ & P').
      apply Hok in P'. discriminate. }
  assert (OH : php_copy HOSTBYTES (stored HOSTBYTES h) 0 outhost 0 = Ok (stored HOSTBYTES h)).
  { assert (LS : length (stored HOSTBYTES h) = HOSTBYTES) by (apply stored_len; lia).
    rewrite <- LS at 1. apply copy_whole. congruence. }
  rewrite OH. cbn [bind].
  assert (HK : hp_ok I (isSome outport) s h p).
  { exists six. split; auto. split; [unfold HOSTBYTES in HB; lia|]. split.
    - intros ->. destruct (pton6 I h); [discriminate|discriminate].
    - apply Hok. reflexivity. }
  destruct outport as [op|].
  - assert (OP : php_copy PORTBYTES (stored PORTBYTES pp) 0 op 0 = Ok (stored PORTBYTES pp)).
    { assert (LS : length (stored PORTBYTES pp) = PORTBYTES) by (apply stored_len; lia).
      rewrite <- LS at 1. apply copy_whole. rewrite (LP op eq_refl). auto. }
    rewrite OP. cbn [bind]. do 3 eexists. split; [reflexivity|]. left. split; auto. exists h, p. auto.
  - do 3 eexists. split; [reflexivity|]. left. split; auto. exists h, p. auto.
Qed.
