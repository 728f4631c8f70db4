(** Lemmas about the configuration. *)
From Verif.Model Require Import Base Str Config.
From Verif.Spec Require Import Text Settings.
From Verif.Proof Require Import Tac StrP.

(** a C string *)
Definition is_cstr (p : list Z) : Prop := exists s r, p = s ++ 0 :: r /\ nonul s.
Lemma text_ok : forall s r, nonul s -> text (s ++ 0 :: r) = s.
Proof. induction 1 as [|c s C N IH]; cbn [app text]; [reflexivity|]. destruct (Z.eqb_spec c 0); [lia|]. f_equal. auto. Qed.
Lemma cstr_text : forall p, is_cstr p -> nonul (text p) /\ exists r, p = text p ++ 0 :: r.
Proof. intros p (s & r & -> & N). rewrite text_ok by auto. eauto. Qed.

Lemma same_spec : forall a b, reflect (a = b) (same a b).
Proof. intros a b. unfold same. destruct (list_eq_dec Z.eq_dec a b); constructor; auto. Qed.
Lemma same_refl : forall a, same a a = true.
Proof. intros a. destruct (same_spec a a); auto. Qed.

Lemma table_ok : forall A (t : list (list Z * A)) p, is_cstr p -> Forall (fun e => nonul (fst e)) t -> table_find t p = Ok (lookup t (text p)).
Proof.
  intros A t p C F. destruct (cstr_text p C) as (N & r & E). rewrite E at 1. induction t as [|[n v] t IH]; cbn [table_find lookup]; [reflexivity|].
  inversion F as [|? ? F1 F2]; subst. cbn [fst] in F1. destruct (str_diff_ok (text p) n r [] N F1) as (d & -> & D). cbn [bind].
  apply firstdiff_zero in D. destruct (Z.eqb_spec d 0) as [D0|D0]; cbn [negb]; destruct (same_spec (text p) n) as [S|S]; auto.
  - exfalso. apply S. apply D in D0. apply app_inv_tail in D0. auto.
  - exfalso. apply D0. apply D. rewrite S. auto.
Qed.
Lemma ciphers_nonul : Forall (fun e : list Z * (Z * Z) => nonul (fst e)) tls_ciphers.
Proof. repeat constructor. Qed.
Lemma ecdhes_nonul : Forall (fun e : list Z * Z => nonul (fst e)) tls_ecdhes.
Proof. repeat constructor. Qed.
Lemma versions_nonul : Forall (fun e : list Z * Z => nonul (fst e)) tls_versions.
Proof. repeat constructor. Qed.
Lemma groups_ok : forall n, lookup tls_ecdhes n = lookup group_names n.
Proof.
  intros n. unfold tls_ecdhes, group_names. cbn [lookup].
  destruct (same_spec n (bs "x25519")) as [->|_]; [reflexivity|].
  destruct (same n (bs "secp256r1")); [reflexivity|]. destruct (same n (bs "secp384r1")); [reflexivity|]. destruct (same n (bs "secp521r1")); reflexivity.
Qed.
Lemma suites_ok : tls_ciphers = suite_names.
Proof. reflexivity. Qed.
Lemma names_ok : tls_versions = version_names.
Proof. reflexivity. Qed.

Lemma lookup_in : forall A (t : list (list Z * A)) n v, lookup t n = Some v -> In (n, v) t.
Proof.
  intros A. induction t as [|[m w] t IH]; intros n v L; cbn [lookup] in L; [discriminate|]. destruct (same_spec n m) as [->|_]; [injection L as ->; left; auto|right; auto].
Qed.

(** ** firsts *)
Lemma firsts_in : forall l x, In x (firsts l) <-> In x l.
Proof.
  induction l as [|a l IH]; intros x; cbn [firsts In]; [tauto|]. rewrite filter_In, IH. destruct (same_spec a x); cbn [negb]; intuition congruence.
Qed.
Lemma firsts_nodup : forall l, NoDup (firsts l).
Proof.
  induction l as [|a l IH]; cbn [firsts]; constructor.
  - rewrite filter_In. rewrite same_refl. intros [_ Q]. discriminate.
  - apply NoDup_filter. auto.
Qed.
Lemma firsts_snoc : forall l x, firsts (l ++ [x]) = if existsb (same x) l then firsts l else firsts l ++ [x].
Proof.
  induction l as [|a l IH]; intros x; cbn [app firsts existsb filter]; [reflexivity|]. rewrite IH.
  destruct (same_spec x a) as [->|N]; cbn [orb].
  - destruct (existsb (same a) l); [reflexivity|]. rewrite filter_app. cbn [filter]. rewrite same_refl. cbn [negb]. rewrite app_nil_r. reflexivity.
  - destruct (existsb (same x) l); [reflexivity|]. rewrite filter_app. cbn [filter]. destruct (same_spec a x); [congruence|]. reflexivity.
Qed.

(** ** Ciphers *)
Definition known (n : list Z) : Prop := lookup suite_names n <> None.
Definition zz : list Z -> bool := fun n => match lookup suite_names n with Some (a, b) => true | None => false end.

Lemma already_ok : forall l ec rsa, Forall (fun s => s <> 0) l -> already l ec rsa = if existsb (fun s => (s =? ec) || (s =? rsa)) l then (0, 0) else (ec, rsa).
Proof.
  intros l ec rsa F. revert ec rsa. induction F as [|s l S F IH]; intros ec rsa; cbn [already existsb]; [reflexivity|].
  destruct ((s =? ec) || (s =? rsa)) eqn:E; cbn [orb]; [|apply IH]. rewrite IH. destruct (existsb _ l); reflexivity.
Qed.

Lemma suites_nonzero : forall n, Forall (fun s => s <> 0) (suites n).
Proof.
  intros n. unfold suites. destruct (lookup suite_names n) as [[ec rsa]|] eqn:L; [|constructor]. apply lookup_in in L.
  repeat (destruct L as [L|L]; [injection L as _ <- <-; repeat constructor; discriminate|]). destruct L.
Qed.
Lemma suites_distinct : forall n m ec rsa s, lookup suite_names n = Some (ec, rsa) -> In s (suites m) -> s = ec \/ s = rsa -> n = m.
Proof.
  intros n m ec rsa s L I E. unfold suites in I. destruct (lookup suite_names m) as [[e2 r2]|] eqn:L2; [|destruct I].
  apply lookup_in in L. apply lookup_in in L2.
  repeat (destruct L as [L|L]; [injection L as <- <- <-; repeat (destruct L2 as [L2|L2]; [injection L2 as <- <- <-; cbn [In] in I; first [reflexivity|exfalso; destruct I as [<-|[<-|[]]]; destruct E; discriminate]|]); destruct L2|]). destruct L.
Qed.
Lemma suites_have : forall n l ec rsa, lookup suite_names n = Some (ec, rsa) ->
  existsb (fun s => (s =? ec) || (s =? rsa)) (flat_map suites l) = existsb (same n) l.
Proof.
  intros n l ec rsa L. apply Bool.eq_iff_eq_true. rewrite !existsb_exists. split.
  - intros (s & I & E). apply in_flat_map in I as (m & I & S). exists m. split; auto. apply orb_prop in E. rewrite !Z.eqb_eq in E.
    rewrite (suites_distinct n m ec rsa s L S E). apply same_refl.
  - intros (m & I & E). destruct (same_spec n m) as [<-|]; [|discriminate]. exists ec. split; [|rewrite Z.eqb_refl; reflexivity].
    apply in_flat_map. exists n. split; auto. unfold suites. rewrite L. left. auto.
Qed.
Lemma known_length : forall l, Forall known l -> (length (firsts l) <= 7)%nat.
Proof.
  intros l F. change 7%nat with (length (map fst suite_names)). apply NoDup_incl_length; [apply firsts_nodup|]. intros x I. apply (firsts_in l x) in I.
  rewrite Forall_forall in F. specialize (F x I). unfold known in F. destruct (lookup suite_names x) as [v|] eqn:L; [|congruence]. apply lookup_in in L. apply (in_map fst) in L. auto.
Qed.
Lemma suites_length : forall l, (length (flat_map suites l) <= 2 * length l)%nat.
Proof. induction l as [|n l IH]; cbn [flat_map length]; [lia|]. rewrite app_length. unfold suites at 1. destruct (lookup suite_names n) as [[? ?]|]; cbn [length]; lia. Qed.

Definition cfg_ciphers (names : list (list Z)) (c : config) : Prop :=
  cipher_default c = match names with [] => true | _ => false end /\ ciphers c = wanted_suites names /\ Forall known names.

Lemma wanted_cons : forall names, names <> [] -> wanted_suites names = flat_map suites (firsts names).
Proof. intros [|n l] N; [congruence|reflexivity]. Qed.

Lemma cipher_step : forall names c p, cfg_ciphers names c -> is_cstr p ->
  exists ok c', tls_cipher_add c p = Ok (ok, c') /\
    (ok = true <-> known (text p)) /\
    (ok = true -> cfg_ciphers (names ++ [text p]) c' /\ c' = set_ciphers c false (ciphers c')).
Proof.
  intros names c p (D & C & K) P. unfold tls_cipher_add.
  assert (E : exists l, (if cipher_default c then set_ciphers c false [] else c) = set_ciphers c false l /\ l = flat_map suites (firsts names)).
  { rewrite D. destruct names as [|n names]; [exists []; auto|]. exists (ciphers c). split; [destruct c; cbn in *; subst; reflexivity|]. rewrite C. reflexivity. }
  destruct E as (l & -> & ->). rewrite (table_ok _ _ _ P ciphers_nonul). cbn [bind]. rewrite suites_ok. unfold known.
  destruct (lookup suite_names (text p)) as [[ec rsa]|] eqn:L.
  2: { exists false. eexists. split; [reflexivity|]. split; [|discriminate]. split; [discriminate|congruence]. }
  assert (NZ : Forall (fun s => s <> 0) (suites (text p))) by apply suites_nonzero. unfold suites in NZ. rewrite L in NZ. inversion NZ as [|? ? N1 NZ2]; subst. inversion NZ2 as [|? ? N2 _]; subst.
  assert (B : negb (ec =? 0) && negb (rsa =? 0) = true). { destruct (Z.eqb_spec ec 0); [congruence|]. destruct (Z.eqb_spec rsa 0); [congruence|]. reflexivity. }
  rewrite B. cbn [ciphers set_ciphers]. rewrite already_ok.
  2: { apply Forall_forall. intros s I. apply in_flat_map in I as (m & _ & I). pose proof (suites_nonzero m) as Q. rewrite Forall_forall in Q. auto. }
  rewrite (suites_have _ _ _ _ L). assert (EX : existsb (same (text p)) (firsts names) = existsb (same (text p)) names).
  { apply Bool.eq_iff_eq_true. rewrite !existsb_exists. split; intros (m & I & S); exists m; (split; [apply firsts_in|]); auto. }
  rewrite EX. assert (NE : names ++ [text p] <> []) by (destruct names; discriminate).
  assert (KN : Forall known (names ++ [text p])). { apply Forall_app. split; auto. constructor; [|constructor]. unfold known. rewrite L. discriminate. }
  assert (MT : match names ++ [text p] with [] => true | _ :: _ => false end = false) by (destruct names; reflexivity).
  pose proof (firsts_snoc names (text p)) as FS. destruct (existsb (same (text p)) names) eqn:EB.
  - change (negb (0 =? 0) && negb (0 =? 0)) with false. cbn iota. exists true. eexists. split; [reflexivity|]. split; [split; [discriminate|reflexivity]|]. intros _.
    split; [|reflexivity]. split; [exact (eq_sym MT)|]. split; auto. cbn [ciphers set_ciphers]. rewrite wanted_cons by auto. rewrite FS. reflexivity.
  - rewrite B. pose proof (known_length _ KN) as KL. rewrite FS in KL. rewrite app_length in KL. cbn [length] in KL. pose proof (suites_length (firsts names)) as SL.
    destruct (Nat.ltb_spec 16 (length (flat_map suites (firsts names)) + 2)); [lia|]. unfold push. destruct (Nat.ltb_spec (length (flat_map suites (firsts names))) 16); [|lia]. cbn [bind].
    rewrite app_length. cbn [length]. destruct (Nat.ltb_spec (length (flat_map suites (firsts names)) + 1) 16); [|lia]. cbn [bind].
    exists true. eexists. split; [reflexivity|]. split; [split; [discriminate|reflexivity]|]. intros _. split; [|reflexivity]. split; [exact (eq_sym MT)|]. split; auto.
    cbn [ciphers set_ciphers]. rewrite wanted_cons by auto. rewrite FS, flat_map_app. cbn [flat_map]. unfold suites at 3. rewrite L. rewrite <- app_assoc. reflexivity.
Qed.

(** ** Curves *)
Definition cfg_curves (names : list (list Z)) (c : config) : Prop :=
  ecdhe_default c = match names with [] => true | _ => false end /\ 0 <= curves c /\
  (forall g, 0 <= g -> (Z.testbit (curves c) g = true <-> wanted_groups names g)) /\ Forall (fun n => lookup group_names n <> None) names.

Lemma group_range : forall n g, lookup group_names n = Some g -> 23 <= g <= 29.
Proof. intros n g L. apply lookup_in in L. repeat (destruct L as [L|L]; [injection L as _ <-; lia|]). destruct L. Qed.
Lemma u32_bit : forall g, 0 <= g < 32 -> u32 (Z.shiftl 1 g) = 2 ^ g.
Proof. intros g G. rewrite Z.shiftl_1_l. unfold u32. apply Z.mod_small. split; [apply Z.pow_nonneg; lia|]. change 4294967296 with (2 ^ 32). apply Z.pow_lt_mono_r; lia. Qed.

Lemma curve_step : forall names c p, cfg_curves names c -> is_cstr p ->
  exists ok c', tls_ecdhe_add c p = Ok (ok, c') /\
    (ok = true <-> lookup group_names (text p) <> None) /\
    (ok = true -> cfg_curves (names ++ [text p]) c' /\ c' = set_curves c false (curves c')).
Proof.
  intros names c p (D & POS & C & K) P. unfold tls_ecdhe_add.
  assert (E : exists m, (if ecdhe_default c then set_curves c false 0 else c) = set_curves c false m /\ 0 <= m /\
     forall g, 0 <= g -> (Z.testbit m g = true <-> exists n, In n names /\ lookup group_names n = Some g)).
  { rewrite D. destruct names as [|n names].
    - exists 0. split; auto. split; [lia|]. intros g G. rewrite Z.testbit_0_l. split; [discriminate|]. intros (n & [] & _).
    - exists (curves c). split; [destruct c; cbn in *; subst; reflexivity|]. split; auto. }
  destruct E as (m & -> & PM & M). rewrite (table_ok _ _ _ P ecdhes_nonul). cbn [bind]. rewrite groups_ok.
  destruct (lookup group_names (text p)) as [v|] eqn:L.
  2: { exists false. eexists. split; [reflexivity|]. split; [|discriminate]. split; [discriminate|congruence]. }
  exists true. eexists. split; [reflexivity|]. split; [split; [discriminate|reflexivity]|]. intros _. split; [|reflexivity].
  pose proof (group_range _ _ L). split; [destruct names; reflexivity|]. cbn [curves set_curves]. split; [apply Z.lor_nonneg; split; auto; apply Z.mod_pos_bound; lia|]. split.
  - intros g G. rewrite Z.lor_spec, u32_bit by lia. rewrite Z.pow2_bits_eqb by lia. rewrite orb_true_iff, (M g G), Z.eqb_eq.
    assert (W : wanted_groups (names ++ [text p]) g <-> exists n, In n (names ++ [text p]) /\ lookup group_names n = Some g) by (destruct names; apply iff_refl). rewrite W. split.
    + intros [(n & I & Q)| <-]; [exists n|exists (text p)]; (split; [apply in_or_app|]; auto). right. left. auto.
    + intros (n & I & Q). apply in_app_iff in I as [I|[<-|[]]]; [left; eauto|right; congruence].
  - apply Forall_app. split; auto. constructor; [|constructor]. congruence.
Qed.

(** ** Versions *)
Lemma wanted_version_snoc : forall names n, wanted_version (names ++ [n]) = lookup version_names n.
Proof. intros names n. unfold wanted_version. rewrite rev_app_distr. reflexivity. Qed.

(** ** All options *)
Definition arg (o : setting) : list Z :=
  match o with Cipher x | Curve x | Vmin x | Vmax x | Anchor x _ | Certdir x _ | Certfile x _ => x end.
Definition cipher_names (l : list setting) : list (list Z) := flat_map (fun o => match o with Cipher x => [text x] | _ => [] end) l.
Definition curve_names (l : list setting) : list (list Z) := flat_map (fun o => match o with Curve x => [text x] | _ => [] end) l.
Definition vmin_names (l : list setting) : list (list Z) := flat_map (fun o => match o with Vmin x => [text x] | _ => [] end) l.
Definition vmax_names (l : list setting) : list (list Z) := flat_map (fun o => match o with Vmax x => [text x] | _ => [] end) l.
Definition anchors (l : list setting) : list (list Z) := flat_map (fun o => match o with Anchor x _ => [x] | _ => [] end) l.
Definition certs (l : list setting) : list (list Z * Z) := flat_map (fun o => match o with Certdir x _ => [(x, S_IFDIR)] | Certfile x _ => [(x, S_IFREG)] | _ => [] end) l.
(** the stat answers fit *)
Definition stat_ok (o : setting) : Prop :=
  match o with
  | Anchor _ m | Certfile _ m => exists v, m = Some v /\ Z.land v S_IFMT = S_IFREG
  | Certdir _ m => exists v, m = Some v /\ Z.land v S_IFMT = S_IFDIR
  | _ => True
  end.

Record holds (l : list setting) (c : config) : Prop := {
  h_ciphers : cfg_ciphers (cipher_names l) c;
  h_curves : cfg_curves (curve_names l) c;
  h_vmin : wanted_version (vmin_names l) = Some (version_min c);
  h_vmin_all : Forall (fun n => lookup version_names n <> None) (vmin_names l);
  h_vmax : wanted_version (vmax_names l) = Some (version_max c);
  h_vmax_all : Forall (fun n => lookup version_names n <> None) (vmax_names l);
  h_anchor : anchors l = match anchorfn c with Some x => [x] | None => [] end;
  h_certs : certs l = certfiles c;
  h_certs_len : (length (certfiles c) <= 4)%nat;
  h_stat : Forall stat_ok l;
  h_ptr : Forall is_cstr (anchors l) }.

Lemma start_holds : exists c, tls_cipher_defaults static_config = Ok c /\ holds [] c.
Proof.
  eexists. split; [reflexivity|]. constructor; cbn; try solve [constructor|reflexivity].
  - split; [reflexivity|]. split; [reflexivity|constructor].
  - split; [reflexivity|]. cbn [curves static_config set_ciphers]. change (Z.lor (Z.shiftl 1 29) (Z.shiftl 1 23)) with (Z.lor (2 ^ 29) (2 ^ 23)).
    split; [discriminate|]. split; [|constructor]. intros g G. rewrite Z.lor_spec, !Z.pow2_bits_eqb by lia. rewrite orb_true_iff, !Z.eqb_eq. cbn. intuition.
  - lia.
Qed.

Definition refused (done : list setting) (o : setting) : Prop :=
  ~ stat_ok o \/
  match o with
  | Cipher x => lookup suite_names (text x) = None
  | Curve x => lookup group_names (text x) = None
  | Vmin x | Vmax x => lookup version_names (text x) = None
  | Anchor _ _ => anchors done <> []
  | Certdir _ _ | Certfile _ _ => (4 <= length (certs done))%nat
  end.

Lemma step_holds : forall done c o, holds done c -> is_cstr (arg o) ->
  exists r, apply_setting c o = Ok r /\
    match r with
    | None => refused done o
    | Some c' => holds (done ++ [o]) c' /\ ~ refused done o
    end.
Proof.
  intros done c o H A. destruct H as [HC HE HV1 HV2 HM1 HM2 HA HF HL HS HP].
  assert (SN : forall B (f : setting -> list B), flat_map f (done ++ [o]) = flat_map f done ++ f o) by (intros; rewrite flat_map_app; cbn [flat_map]; rewrite app_nil_r; reflexivity).
  destruct o as [x|x|x|x|x m|x m|x m]; cbn [apply_setting arg] in *.
  - destruct (cipher_step _ _ _ HC A) as (ok & c' & E & K & Q). rewrite E. cbn [need bind]. eexists. split; [reflexivity|]. destruct ok.
    + destruct (Q eq_refl) as [Q1 Q2]. split.
      * rewrite Q2 in *. constructor; unfold cipher_names, curve_names, vmin_names, vmax_names, anchors, certs in *; rewrite ?SN, ?app_nil_r; auto. apply Forall_app; split; auto. constructor; cbn; auto.
      * intros [R|R]; [apply R; exact I|]. apply K in R; auto.
    + right. destruct (lookup suite_names (text x)) eqn:L; auto. exfalso. assert (false = true) by (apply K; unfold known; congruence). discriminate.
  - destruct (curve_step _ _ _ HE A) as (ok & c' & E & K & Q). rewrite E. cbn [need bind]. eexists. split; [reflexivity|]. destruct ok.
    + destruct (Q eq_refl) as [Q1 Q2]. split.
      * rewrite Q2 in *. constructor; unfold cipher_names, curve_names, vmin_names, vmax_names, anchors, certs in *; rewrite ?SN, ?app_nil_r; auto. apply Forall_app; split; auto. constructor; cbn; auto.
      * intros [R|R]; [apply R; exact I|]. apply K in R; auto.
    + right. destruct (lookup group_names (text x)) eqn:L; auto. exfalso. assert (false = true) by (apply K; congruence). discriminate.
  - unfold tls_version_setmin. rewrite (table_ok _ _ _ A versions_nonul). cbn [bind]. rewrite names_ok. destruct (lookup version_names (text x)) as [v|] eqn:L; cbn [need bind]; (eexists; split; [reflexivity|]).
    + split; [|intros [R|R]; [apply R; exact I|congruence]].
      constructor; unfold cipher_names, curve_names, vmin_names, vmax_names, anchors, certs in *; rewrite ?SN, ?app_nil_r; auto.
      * rewrite wanted_version_snoc. auto.
      * apply Forall_app. split; auto. constructor; auto. congruence.
      * apply Forall_app. split; auto. constructor; cbn; auto.
    + right. auto.
  - unfold tls_version_setmax. rewrite (table_ok _ _ _ A versions_nonul). cbn [bind]. rewrite names_ok. destruct (lookup version_names (text x)) as [v|] eqn:L; cbn [need bind]; (eexists; split; [reflexivity|]).
    + split; [|intros [R|R]; [apply R; exact I|congruence]].
      constructor; unfold cipher_names, curve_names, vmin_names, vmax_names, anchors, certs in *; rewrite ?SN, ?app_nil_r; auto.
      * rewrite wanted_version_snoc. auto.
      * apply Forall_app. split; auto. constructor; auto. congruence.
      * apply Forall_app. split; auto. constructor; cbn; auto.
    + right. auto.
  - destruct m as [v|]; cbn [statted].
    2: { eexists. split; [reflexivity|]. left. intros (v & E & _). discriminate. }
    destruct (Z.eqb_spec (Z.land v S_IFMT) S_IFREG) as [E|E]; cbn [negb].
    2: { eexists. split; [reflexivity|]. left. intros (w & W & F). injection W as <-. auto. }
    unfold tls_anchor_add. destruct (anchorfn c) as [y|] eqn:AN; cbn [need bind]; (eexists; split; [reflexivity|]).
    + right. cbn. unfold anchors in *. rewrite HA. discriminate.
    + split; [|intros [R|R]; [apply R; exists v; auto|apply R; auto]].
      constructor; unfold cipher_names, curve_names, vmin_names, vmax_names, anchors, certs in *; rewrite ?SN, ?app_nil_r; auto.
      * rewrite HA. reflexivity.
      * apply Forall_app. split; auto. constructor; cbn; eauto.
      * apply Forall_app. split; auto.
  - destruct m as [v|]; cbn [statted].
    2: { eexists. split; [reflexivity|]. left. intros (v & E & _). discriminate. }
    destruct (Z.eqb_spec (Z.land v S_IFMT) S_IFDIR) as [E|E]; cbn [negb].
    2: { eexists. split; [reflexivity|]. left. intros (w & W & F). injection W as <-. auto. }
    unfold tls_certfile_add_dir. destruct (Nat.leb_spec 4 (length (certfiles c))) as [G|G].
    + cbn [need bind]. eexists. split; [reflexivity|]. right. cbn. unfold certs in *. rewrite HF. auto.
    + unfold push. destruct (Nat.ltb_spec (length (certfiles c)) 4); [|lia]. cbn [need bind]. eexists. split; [reflexivity|]. split.
      * constructor; unfold cipher_names, curve_names, vmin_names, vmax_names, anchors, certs in *; rewrite ?SN, ?app_nil_r; auto.
        -- rewrite HF. reflexivity.
        -- cbn [certfiles set_certs]. rewrite app_length. cbn [length]. lia.
        -- apply Forall_app. split; auto. constructor; cbn; eauto.
      * intros [R|R]; [apply R; exists v; auto|]. cbn in R. unfold certs in *. rewrite HF in R. lia.
  - destruct m as [v|]; cbn [statted].
    2: { eexists. split; [reflexivity|]. left. intros (v & E & _). discriminate. }
    destruct (Z.eqb_spec (Z.land v S_IFMT) S_IFREG) as [E|E]; cbn [negb].
    2: { eexists. split; [reflexivity|]. left. intros (w & W & F). injection W as <-. auto. }
    unfold tls_certfile_add_file. destruct (Nat.leb_spec 4 (length (certfiles c))) as [G|G].
    + cbn [need bind]. eexists. split; [reflexivity|]. right. cbn. unfold certs in *. rewrite HF. auto.
    + unfold push. destruct (Nat.ltb_spec (length (certfiles c)) 4); [|lia]. cbn [need bind]. eexists. split; [reflexivity|]. split.
      * constructor; unfold cipher_names, curve_names, vmin_names, vmax_names, anchors, certs in *; rewrite ?SN, ?app_nil_r; auto.
        -- rewrite HF. reflexivity.
        -- cbn [certfiles set_certs]. rewrite app_length. cbn [length]. lia.
        -- apply Forall_app. split; auto. constructor; cbn; eauto.
      * intros [R|R]; [apply R; exists v; auto|]. cbn in R. unfold certs in *. rewrite HF in R. lia.
Qed.

Lemma apply_ok : forall l done c, holds done c -> Forall (fun o => is_cstr (arg o)) l ->
  (exists c', apply_settings c l = Ok (Some c') /\ holds (done ++ l) c' /\ forall l1 o l2, l = l1 ++ o :: l2 -> ~ refused (done ++ l1) o) \/
  (apply_settings c l = Ok None /\ exists l1 o l2, l = l1 ++ o :: l2 /\ refused (done ++ l1) o).
Proof.
  induction l as [|o l IH]; intros done c H F; cbn [apply_settings].
  - left. exists c. split; auto. rewrite app_nil_r. split; auto. intros [|? ?] ? ? E; discriminate.
  - inversion F as [|? ? F1 F2]; subst. destruct (step_holds done c o H F1) as (r & -> & R). cbn [bind]. destruct r as [c1|].
    + destruct R as [R N]. destruct (IH _ _ R F2) as [(c' & E & Q & NR)|(E & l1 & o1 & l2 & -> & Q)].
      * left. exists c'. split; auto. rewrite <- app_assoc in Q. split; auto. intros [|x l1] o1 l2 EQ; cbn [app] in EQ; injection EQ as -> EQ.
        -- rewrite app_nil_r. auto.
        -- subst l. specialize (NR _ _ _ eq_refl). rewrite <- app_assoc in NR. auto.
      * right. split; auto. exists (o :: l1), o1, l2. split; auto. rewrite <- app_assoc in Q. auto.
    + right. split; auto. exists [], o, l. split; auto. rewrite app_nil_r. auto.
Qed.
Lemma configure_ok : forall l, Forall (fun o => is_cstr (arg o)) l ->
  (exists c, configure l = Ok (Some c) /\ holds l c /\ forall l1 o l2, l = l1 ++ o :: l2 -> ~ refused l1 o) \/
  (configure l = Ok None /\ exists l1 o l2, l = l1 ++ o :: l2 /\ refused l1 o).
Proof.
  intros l F. unfold configure. destruct start_holds as (c & -> & H). cbn [bind]. apply (apply_ok l [] c H F).
Qed.
