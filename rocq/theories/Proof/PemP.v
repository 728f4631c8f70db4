(** Lemmas about PEM splitting. *)
From Verif.Model Require Import Base Sys Io Buffer Pem.
From Verif.Spec Require Import Stream PemFile.
From Verif.Proof Require Import Tac SysP IoP BufferP.

Definition noeol (x : Z) : Prop := x <> 10 /\ x <> 13.

Lemma skipn_cons_next : forall (l : list Z) i x r, skipn i l = x :: r -> ld l i = Ok x /\ skipn (S i) l = r.
Proof.
  induction l as [|y l IH]; intros [|i] x r E; cbn in E; try discriminate.
  - inv E. auto.
  - apply IH in E. exact E.
Qed.

Lemma lp_ok : forall w k buf i out outlen outmax c rest,
  skipn i buf = w ++ c :: rest -> Forall noeol w -> (c = 10 \/ c = 13) -> (length w < k)%nat ->
  (outmax <= length out)%nat -> (outlen <= outmax)%nat ->
  exists out', length out' = length out /\
    if (outlen + length w <=? outmax)%nat
    then lineparser k buf i out outlen outmax = Ok ((i + length w + 1)%nat, out', (outlen + length w)%nat) /\
         firstn (outlen + length w) out' = firstn outlen out ++ w
    else lineparser k buf i out outlen outmax = Ok ((i + k)%nat, out', O).
Proof.
  induction w as [|x w IH]; intros k buf i out outlen outmax c rest E F C K M N.
  - destruct k as [|k]; [cbn in K; lia|]. cbn [app] in E. apply skipn_cons_next in E as [E1 E2]. cbn [lineparser]. rewrite E1. cbn [bind].
    exists out. split; auto. cbn [length]. rewrite !Nat.add_0_r. destruct (Nat.leb_spec outlen outmax); [|lia].
    rewrite app_nil_r. split; auto. replace (i + 1)%nat with (S i) by lia.
    destruct (Z.eqb_spec c 13); auto. destruct (Z.eqb_spec c 10); auto. lia.
  - destruct k as [|k]; [cbn in K; lia|]. cbn [app] in E. apply skipn_cons_next in E as [E1 E2]. cbn [lineparser]. rewrite E1. cbn [bind].
    apply Forall_cons_iff in F as [[X1 X2] F]. destruct (Z.eqb_spec x 13); [lia|]. destruct (Z.eqb_spec x 10); [lia|].
    cbn [length] in *. destruct (Nat.leb_spec outmax outlen) as [G|G].
    + exists out. split; auto. destruct (Nat.leb_spec (outlen + S (length w)) outmax); [lia|]. reflexivity.
    + assert (ST : st out outlen x = Ok (upd out outlen x)). { unfold st. destruct (Nat.ltb_spec outlen (length out)); [auto|lia]. }
      rewrite ST. cbn [bind].
      destruct (IH k buf (S i) (upd out outlen x) (S outlen) outmax c rest E2 F C ltac:(lia)) as (out' & L & H); [rewrite upd_length; lia|lia|].
      rewrite upd_length in L. exists out'. split; auto. replace (outlen + S (length w))%nat with (S outlen + length w)%nat by lia.
      destruct (Nat.leb_spec (S outlen + length w) outmax).
      * destruct H as [H1 H2]. rewrite H1. replace (S i + length w + 1)%nat with (i + S (length w) + 1)%nat by lia. split; auto.
        rewrite H2. change (x :: w) with ([x] ++ w). rewrite app_assoc. f_equal.
        apply nth_error_ext. intros j. rewrite nth_error_firstn.
        destruct (Nat.ltb_spec j (S outlen)).
        -- rewrite nth_error_upd. destruct (Nat.eqb_spec j outlen) as [->|NE].
           ++ rewrite nth_error_app2; rewrite firstn_length; [|lia]. replace (outlen - Nat.min outlen (length out))%nat with O by lia.
              destruct (nth_error out outlen) eqn:EN; auto. apply nth_error_None in EN. lia.
           ++ rewrite nth_error_app1 by (rewrite firstn_length; lia). rewrite nth_error_firstn. destruct (Nat.ltb_spec j outlen); [auto|lia].
        -- symmetry. apply nth_error_None. rewrite app_length, firstn_length. cbn [length]. lia.
      * rewrite H. f_equal. f_equal. f_equal. lia.
Qed.

(** The automaton of the loop. *)
Definition beginsb (l : list Z) : bool :=
  (if list_eq_dec Z.eq_dec l (bs "-----BEGIN CERTIFICATE-----") then true else false) ||
  (if list_eq_dec Z.eq_dec l (bs "-----BEGIN X509 CERTIFICATE-----") then true else false).
Definition endsb (l : list Z) : bool :=
  (if list_eq_dec Z.eq_dec l (bs "-----END CERTIFICATE-----") then true else false) ||
  (if list_eq_dec Z.eq_dec l (bs "-----END X509 CERTIFICATE-----") then true else false).
Lemma beginsb_spec : forall l, beginsb l = true <-> begins l.
Proof. intros l. unfold beginsb, begins. destruct (list_eq_dec _ _ _), (list_eq_dec _ _ _); cbn; intuition congruence. Qed.
Lemma endsb_spec : forall l, endsb l = true <-> ends l.
Proof. intros l. unfold endsb, ends. destruct (list_eq_dec _ _ _), (list_eq_dec _ _ _); cbn; intuition congruence. Qed.

Fixpoint auto_pub (f : bool) (ls : list (list Z)) : list (list Z) :=
  match ls with
  | [] => []
  | l :: t => let f1 := f || beginsb l in let f2 := f1 && negb (endsb l) in
              if f1 then l :: auto_pub f2 t else auto_pub f2 t
  end.
Fixpoint auto_sec (f : bool) (ls : list (list Z)) : list (list Z) :=
  match ls with
  | [] => []
  | l :: t => let f1 := f || beginsb l in let f2 := f1 && negb (endsb l) in
              if f1 then auto_sec f2 t else l :: auto_sec f2 t
  end.

Lemma begins_not_ends : forall l, begins l -> endsb l = false.
Proof. intros l [->| ->]; vm_compute; reflexivity. Qed.

Lemma auto_body : forall body e ls, Forall (fun l => ~ ends l) body -> ends e ->
  auto_pub true (body ++ e :: ls) = body ++ e :: auto_pub false ls /\ auto_sec true (body ++ e :: ls) = auto_sec false ls.
Proof.
  induction body as [|l body IH]; intros e ls F E; cbn [app auto_pub auto_sec orb andb].
  - apply endsb_spec in E. rewrite E. auto.
  - apply Forall_cons_iff in F as [L F]. rewrite <- endsb_spec in L. destruct (endsb l); [congruence|]. cbn [negb].
    destruct (IH e ls F E) as [-> ->]. auto.
Qed.
Lemma auto_open : forall body, Forall (fun l => ~ ends l) body -> auto_pub true body = body /\ auto_sec true body = [].
Proof.
  induction body as [|l body IH]; intros F; cbn [auto_pub auto_sec orb andb]; auto.
  apply Forall_cons_iff in F as [L F]. rewrite <- endsb_spec in L. destruct (endsb l); [congruence|]. cbn [negb].
  destruct (IH F) as [-> ->]. auto.
Qed.

Lemma split_auto : forall ls P S, split ls P S -> auto_pub false ls = P /\ auto_sec false ls = S.
Proof.
  intros ls P S H. induction H as [|l ls P S NB H [IH1 IH2]|b body e ls P S B F E H [IH1 IH2]|b body B F]; cbn [auto_pub auto_sec orb].
  - auto.
  - rewrite <- beginsb_spec in NB. destruct (beginsb l); [congruence|]. cbn [andb]. rewrite IH1, IH2. auto.
  - pose proof (begins_not_ends _ B) as NE. apply beginsb_spec in B. rewrite B, NE. cbn [negb andb].
    destruct (auto_body body e ls F E) as [-> ->]. rewrite IH1, IH2. auto.
  - pose proof (begins_not_ends _ B) as NE. apply beginsb_spec in B. rewrite B, NE. cbn [negb andb].
    destruct (auto_open body F) as [-> ->]. auto.
Qed.

Lemma split_ex : forall n ls, (length ls <= n)%nat -> exists P S, split ls P S.
Proof.
  induction n as [|n IH]; intros [|l ls] N; cbn in N; try lia; try (exists [], []; constructor).
  destruct (beginsb l) eqn:B.
  - assert (D : Forall (fun l => ~ ends l) ls \/ exists body e t, ls = body ++ e :: t /\ Forall (fun l => ~ ends l) body /\ ends e).
    { clear. induction ls as [|x ls IH]; [left; constructor|]. destruct (endsb x) eqn:E.
      - right. exists [], x, ls. apply endsb_spec in E. auto.
      - assert (~ ends x) by (rewrite <- endsb_spec; congruence).
        destruct IH as [F|(body & e & t & -> & F & E2)]; [left; constructor; auto|right; exists (x :: body), e, t; auto]. }
    apply beginsb_spec in B. destruct D as [F|(body & e & t & -> & F & E)].
    + exists (l :: ls), []. constructor; auto.
    + rewrite app_length in N. cbn in N. destruct (IH t ltac:(lia)) as (P & S & H). exists (l :: body ++ e :: P), S. constructor; auto.
  - destruct (IH ls ltac:(lia)) as (P & S & H). exists P, (l :: S). constructor; auto. rewrite <- beginsb_spec. congruence.
Qed.

Lemma lines_ex : forall f, exists ls, lines (f ++ [10]) ls.
Proof.
  intros f. assert (G : forall n f, (length f <= n)%nat -> exists ls, lines (f ++ [10]) ls).
  2:{ apply (G (length f) f). lia. }
  clear f. induction n as [|n IH]; intros f N.
  - destruct f; [|cbn in N; lia]. exists [[]]. apply (l_cons [] 10 [] []); [constructor|auto|constructor].
  - assert (D : Forall noeol f \/ exists w c r, f = w ++ c :: r /\ Forall noeol w /\ (c = 10 \/ c = 13)).
    { clear. induction f as [|x f IH]; [left; constructor|].
      destruct (Z.eq_dec x 10) as [->|]; [right; exists [], 10, f; auto|]. destruct (Z.eq_dec x 13) as [->|]; [right; exists [], 13, f; auto|].
      assert (noeol x) by (split; auto). destruct IH as [F|(w & c & r & -> & F & C)]; [left; constructor; auto|right; exists (x :: w), c, r; auto]. }
    destruct D as [F|(w & c & r & -> & F & C)].
    + exists [f]. apply (l_cons f 10 [] []); auto. constructor.
    + rewrite app_length in N. cbn in N. destruct (IH r ltac:(lia)) as (ls & L). exists (w :: ls). rewrite <- app_assoc. cbn [app]. constructor; auto.
Qed.

Lemma lines_unique : forall f l1 l2, lines f l1 -> lines f l2 -> l1 = l2.
Proof.
  intros f l1 l2 H. revert l2. induction H as [|w c r ls F C H IH]; intros l2 H2.
  - inversion H2 as [|w2 c2 r2 ls2 F2 C2 T2 E2]; auto. destruct w2; discriminate.
  - inversion H2 as [|w2 c2 r2 ls2 F2 C2 T2 E2]; [destruct w; discriminate|].
    assert (w2 = w /\ r2 = r) as [-> ->].
    { clear - F F2 C C2 E2. revert w2 F2 E2. induction w as [|x w IH]; intros [|y w2] F2 E2; cbn [app] in E2; inv E2; auto.
      - apply Forall_cons_iff in F2 as [[] _]. lia.
      - apply Forall_cons_iff in F as [[] _]. lia.
      - apply Forall_cons_iff in F as [_ F]. apply Forall_cons_iff in F2 as [_ F2]. destruct (IH F w2 F2 H1) as [-> ->]. auto. }
    f_equal. auto.
Qed.

Lemma isline_spec : forall line w lit, firstn (length w) line = w ->
  isline line (S (length w)) lit = if list_eq_dec Z.eq_dec w lit then true else false.
Proof.
  intros line w lit H. unfold isline. change (S (length w) =? S (length lit))%nat with (length w =? length lit)%nat.
  destruct (Nat.eqb_spec (length w) (length lit)) as [E|E]; cbn [andb].
  - rewrite <- E, H. reflexivity.
  - destruct (list_eq_dec Z.eq_dec w lit) as [->|]; auto.
Qed.

Lemma firstn_le_eq : forall (a b : list Z) i j, firstn j a = firstn j b -> (i <= j)%nat -> firstn i a = firstn i b.
Proof. intros a b i j E L. rewrite <- (Nat.min_l i j L). rewrite <- !firstn_firstn. congruence. Qed.
Lemma skipn_le_eq : forall (a b : list Z) i j, skipn i a = skipn i b -> (i <= j)%nat -> skipn j a = skipn j b.
Proof. intros a b i j E L. replace j with (i + (j - i))%nat by lia. rewrite <- !skipn_skipn. congruence. Qed.

Lemma text_app : forall a b, text (a ++ b) = text a ++ text b.
Proof. intros. unfold text. rewrite map_app, concat_app. reflexivity. Qed.

Lemma pemloop_ok : forall r ls, lines r ls -> forall fuel n pos flag line s p sl pl S0 P0,
  skipn pos s = r -> length s = n -> length p = n -> length line = 65%nat -> (n - pos < fuel)%nat -> (pos <= n)%nat ->
  (sl <= pos)%nat -> (pl <= pos)%nat -> firstn sl s = S0 -> firstn pl p = P0 -> length S0 = sl -> length P0 = pl ->
  exists s' p' sl' pl', pemloop fuel n pos flag line s p sl pl = Ok (s', p', sl', pl') /\ length s' = n /\ length p' = n /\
    (sl' <= n)%nat /\ (pl' <= n)%nat /\
    firstn sl' s' = S0 ++ text (auto_sec flag (kept ls)) /\ firstn pl' p' = P0 ++ text (auto_pub flag (kept ls)).
Proof.
  intros r ls H. induction H as [|w c r ls F C H IH]; intros fuel n pos flag line s p sl pl S0 P0 SK LS LP LL FU PN SP PP ES EP LES LEP;
    (destruct fuel as [|fuel]; [lia|]); cbn [pemloop].
  - assert (pos = n). { apply (f_equal (@length Z)) in SK. rewrite skipn_length in SK. cbn in SK. lia. }
    destruct (Nat.ltb_spec pos n); [lia|]. exists s, p, sl, pl. cbn [kept auto_sec auto_pub]. change (text []) with (@nil Z). rewrite !app_nil_r.
    repeat (split; auto); lia.
  - assert (LR : (n - pos = length w + S (length r))%nat).
    { apply (f_equal (@length Z)) in SK. rewrite skipn_length, app_length in SK. cbn [length] in SK. lia. }
    destruct (Nat.ltb_spec pos n); [|lia].
    destruct (lp_ok w (n - pos) s pos line 0 64 c r SK F C ltac:(lia) ltac:(lia) ltac:(lia)) as (line' & L' & HL).
    cbn [Nat.add] in HL. cbn [kept]. destruct (Nat.leb_spec (length w) 64) as [W|W].
    2:{ rewrite HL. cbn [bind]. cbn [Nat.eqb]. replace (pos + (n - pos))%nat with n by lia.
        destruct (Nat.ltb_spec 64 (length w)); [|lia]. cbn [auto_sec auto_pub]. change (text []) with (@nil Z). rewrite !app_nil_r.
        exists s, p, sl, pl. destruct fuel as [|fuel]; [lia|]. cbn [pemloop]. rewrite Nat.ltb_irrefl. repeat (split; auto); lia. }
    destruct HL as [HL HF]. rewrite HL. cbn [bind]. rewrite firstn_O in HF. cbn [app] in HF.
    destruct (Nat.ltb_spec 64 (length w)); [lia|].
    assert (SK2 : skipn (pos + length w + 1) s = r).
    { replace (pos + length w + 1)%nat with (pos + (length w + 1))%nat by lia. rewrite <- skipn_skipn, SK.
      rewrite skipn_app. replace (length w + 1 - length w)%nat with 1%nat by lia. rewrite skipn_all2 by lia. reflexivity. }
    destruct (Nat.eqb_spec (length w) 0) as [W0|W0].
    { destruct w as [|]; [|cbn in W0; lia]. eapply IH; eauto; try lia. }
    destruct w as [|w0 w]; [cbn in W0; lia|]. set (W1 := w0 :: w) in *.
    assert (ST : st line' (length W1) 10 = Ok (upd line' (length W1) 10)). { unfold st. destruct (Nat.ltb_spec (length W1) (length line')); [auto|lia]. }
    rewrite ST. cbn [bind].
    assert (HL10 : firstn (S (length W1)) (upd line' (length W1) 10) = W1 ++ [10]).
    { assert (EL : line' = firstn (length W1) line' ++ skipn (length W1) line') by (rewrite firstn_skipn; auto).
      rewrite HF in EL. destruct (skipn (length W1) line') as [|y t] eqn:ET. { rewrite app_nil_r in EL. apply (f_equal (@length Z)) in EL. lia. }
      rewrite EL, upd_app. replace (W1 ++ 10 :: t) with ((W1 ++ [10]) ++ t) by (rewrite <- app_assoc; reflexivity).
      replace (S (length W1)) with (length (W1 ++ [10])) by (rewrite app_length; cbn [length]; lia). rewrite firstn_app, Nat.sub_diag, firstn_all, firstn_O, app_nil_r. reflexivity. }
    set (line2 := upd line' (length W1) 10) in *.
    assert (HW : firstn (length W1) line2 = W1).
    { rewrite (firstn_le_eq line2 (W1 ++ [10]) (length W1) (S (length W1))); [|rewrite HL10, firstn_all2; auto; rewrite app_length; cbn [length]; lia|lia].
      rewrite firstn_app, Nat.sub_diag, firstn_all, firstn_O, app_nil_r. reflexivity. }
    rewrite !isline_spec by exact HW.
    replace (flag || (if list_eq_dec Z.eq_dec W1 (bs "-----BEGIN CERTIFICATE-----") then true else false)
              || (if list_eq_dec Z.eq_dec W1 (bs "-----BEGIN X509 CERTIFICATE-----") then true else false)) with (flag || beginsb W1) by (unfold beginsb; rewrite orb_assoc; auto).
    set (f1 := flag || beginsb W1).
    replace (f1 && negb (if list_eq_dec Z.eq_dec W1 (bs "-----END CERTIFICATE-----") then true else false)
       && negb (if list_eq_dec Z.eq_dec W1 (bs "-----END X509 CERTIFICATE-----") then true else false)) with (f1 && negb (endsb W1))
      by (unfold endsb; rewrite negb_orb, andb_assoc; auto).
    cbn [auto_sec auto_pub]. fold f1. assert (LL2 : length line2 = 65%nat) by (unfold line2; rewrite upd_length; lia).
    assert (TX : forall x, text (W1 :: x) = (W1 ++ [10]) ++ text x) by reflexivity.
    destruct f1.
    + destruct (copyin_ok p (Z.of_nat pl) line2 (Z.of_nat (S (length W1)))) as (d & Ed & D1 & D2 & _ & _); try (unfold len; lia).
      rewrite Ed. cbn [bind].
      assert (LD : length d = n) by (unfold len in D1; lia).
      replace (Z.to_nat (Z.of_nat pl + Z.of_nat (S (length W1)))) with (pl + S (length W1))%nat in D2 by lia. rewrite !Nat2Z.id in D2. rewrite EP, HL10 in D2.
      destruct (IH fuel n (pos + length W1 + 1)%nat (true && negb (endsb W1)) line2 s d sl (pl + S (length W1))%nat S0 (P0 ++ (W1 ++ [10])))
        as (s' & p' & sl' & pl' & E & A1 & A2 & A3 & A4 & A5 & A6); auto; try lia.
      { rewrite !app_length. cbn [length]. lia. }
      exists s', p', sl', pl'. split; auto. repeat (split; auto). rewrite A6, TX, <- app_assoc. reflexivity.
    + destruct (copyin_ok s (Z.of_nat sl) line2 (Z.of_nat (S (length W1)))) as (d & Ed & D1 & D2 & _ & D4); try (unfold len; lia).
      rewrite Ed. cbn [bind].
      assert (LD : length d = n) by (unfold len in D1; lia).
      replace (Z.to_nat (Z.of_nat sl + Z.of_nat (S (length W1)))) with (sl + S (length W1))%nat in * by lia. rewrite !Nat2Z.id in D2. rewrite ES, HL10 in D2.
      destruct (IH fuel n (pos + length W1 + 1)%nat (false && negb (endsb W1)) line2 d p (sl + S (length W1))%nat pl (S0 ++ (W1 ++ [10])) P0)
        as (s' & p' & sl' & pl' & E & A1 & A2 & A3 & A4 & A5 & A6); auto; try lia.
      { rewrite <- SK2. apply (skipn_le_eq _ _ (sl + S (length W1))); auto. lia. }
      { rewrite !app_length. cbn [length]. lia. }
      exists s', p', sl', pl'. split; auto. repeat (split; auto). rewrite A5, TX, <- app_assoc. reflexivity.
Qed.

Lemma randombytes_ok : forall n tr o, runs (randombytes n) tr o ->
  (tr = [] /\ o = Cut) \/ exists a r, tr = [(Other (bs "randombytes") [Z.of_nat n] [], a)] /\ o = Fin r /\ length r = n.
Proof.
  intros n tr o [[-> ->]|(a & t & -> & -> & ->)]; [left; auto|right]. eexists _, _. split; [reflexivity|]. split; [reflexivity|].
  rewrite map_length, firstn_length, app_length, repeat_length. lia.
Qed.
Lemma randombytes_got : forall n tr o fd, runs (randombytes n) tr o -> got fd tr = [].
Proof. intros n tr o fd R. apply randombytes_ok in R as [[-> ->]|(a & r & -> & _)]; reflexivity. Qed.

Lemma copyin_tail : forall d t r, firstn (length t) d = t -> length d = (length t + length r)%nat ->
  copyin d (Z.of_nat (length t)) r (len r) = Ok (t ++ r).
Proof.
  intros d t r E L. destruct (copyin_ok d (Z.of_nat (length t)) r (len r)) as (d' & -> & D1 & D2 & D3 & D4); try (unfold len; lia). f_equal.
  unfold len in *. replace (Z.to_nat (Z.of_nat (length t) + Z.of_nat (length r))) with (length d) in D2 by lia. rewrite !Nat2Z.id in D2.
  rewrite E, firstn_all in D2. rewrite firstn_all2 in D2 by lia. exact D2.
Qed.

Lemma pemparse_ok : forall line0 f p ls P S al tr o, length line0 = 65%nat -> length p = Datatypes.S (length f) -> al = len f + 1 ->
  lines (f ++ [10]) ls -> split (kept ls) P S ->
  runs (pemparse line0 (mkpem al 0 (Some p) al (Some (f ++ [10])))) tr o ->
  (forall fd, got fd tr = []) /\
  match o with
  | Wrong => False
  | Cut => True
  | Fin c => exists r1 r2, c = mkpem al (len (text P)) (Some (text P ++ r2)) (len (text S)) (Some (text S ++ r1)) /\
      len (text P) + len r2 = al /\ len (text S) + len r1 = al
  end.
Proof.
  intros line0 f p ls P S al tr o L0 LP AL HL HS R. unfold pemparse in R. cbn [sec pub seclen palloc] in R.
  assert (NA : Z.to_nat al = length (f ++ [10])) by (rewrite app_length; cbn; unfold len in AL; lia). rewrite NA in R.
  destruct (pemloop_ok _ _ HL (Datatypes.S (length (f ++ [10]))) (length (f ++ [10])) 0 false line0 (f ++ [10]) p 0 0 [] [])
    as (s' & p' & sl & pl & E & A1 & A2 & A3 & A4 & A5 & A6); auto; try lia. { rewrite app_length. cbn. lia. }
  rewrite E in R. cbn [lift pbind] in R. destruct (split_auto _ _ _ HS) as [X1 X2]. rewrite X1 in A6. rewrite X2 in A5. cbn [app] in A5, A6.
  assert (SL : sl = length (text S)) by (rewrite <- A5, firstn_length; lia). assert (PL : pl = length (text P)) by (rewrite <- A6, firstn_length; lia).
  assert (AL2 : al = Z.of_nat (length (f ++ [10]))) by (unfold len in AL; lia).
  apply runs_bind in R as [(x0 & t0 & t1 & -> & R0 & R1)|[[R0 ->]|[R0 ->]]].
  2:{ apply randombytes_ok in R0 as [[_ X]|(? & ? & _ & X & _)]; discriminate. }
  2:{ split; auto. intros fd. eapply randombytes_got; eauto. }
  apply runs_bind in R1 as [(r1 & t2 & t3 & -> & R2 & R3)|[[R2 ->]|[R2 ->]]].
  2:{ apply randombytes_ok in R2 as [[_ X]|(? & ? & _ & X & _)]; discriminate. }
  2:{ split; auto. intros fd. rewrite got_app, (randombytes_got _ _ _ fd R0), (randombytes_got _ _ _ fd R2). auto. }
  pose proof (randombytes_ok _ _ _ R2) as [[_ X]|(? & r1' & _ & X & LR1)]; [discriminate|]. inv X.
  rewrite copyin_tail in R3; [|auto|lia]. cbn [lift pbind] in R3.
  apply runs_bind in R3 as [(r2 & t4 & t5 & -> & R4 & R5)|[[R4 ->]|[R4 ->]]].
  2:{ apply randombytes_ok in R4 as [[_ X]|(? & ? & _ & X & _)]; discriminate. }
  2:{ split; auto. intros fd. rewrite !got_app, (randombytes_got _ _ _ fd R0), (randombytes_got _ _ _ fd R2), (randombytes_got _ _ _ fd R4). auto. }
  pose proof (randombytes_ok _ _ _ R4) as [[_ X]|(? & r2' & _ & X & LR2)]; [discriminate|]. inv X.
  rewrite copyin_tail in R5; [|auto|lia]. cbn [lift pbind] in R5. destruct R5 as [-> ->].
  split. { intros fd. rewrite !got_app, (randombytes_got _ _ _ fd R0), (randombytes_got _ _ _ fd R2), (randombytes_got _ _ _ fd R4). auto. }
  exists r1', r2'. split; [reflexivity|]. unfold len in *. lia.
Qed.

(** ** Encryption *)
Section C.
Variable stream : list Z -> list Z -> nat -> Z.
Lemma xorfrom_length : forall key n x i, length (xorfrom stream key n i x) = length x.
Proof. induction x as [|b x IH]; intros i; cbn [xorfrom length]; auto. Qed.
Lemma xorfrom_twice : forall key n x i, xorfrom stream key n i (xorfrom stream key n i x) = x.
Proof. induction x as [|b x IH]; intros i; cbn [xorfrom]; auto. rewrite IH, Z.lxor_assoc, Z.lxor_nilpotent, Z.lxor_0_r. reflexivity. Qed.

Definition fstat_ok (tr : trace) : Prop :=
  Forall (fun e => forall fd, fst e = Other (bs "fstat") [fd] [] -> ret (snd e) <> -1 ->
    exists r sz, data (snd e) = [r; sz] /\ 0 <= sz) tr.

Lemma free_ok : forall c tr o, runs (tls_pem_free c) tr o -> (forall fd, got fd tr = []) /\ (o = Cut \/ o = Fin pem_zero).
Proof.
  intros c tr o R. unfold tls_pem_free in R.
  assert (G : forall (b : bool) x tr o, runs (if b then sys1 (Other (bs "alloc_free") [] x) else Ret (mkans 0 0 [])) tr o ->
     (forall fd, got fd tr = []) /\ o <> Wrong).
  { intros [] x t oo RR; [apply runs_sys1 in RR as [[-> ->]|(a & -> & ->)]|destruct RR as [-> ->]]; split; auto; discriminate. }
  apply runs_bind in R as [(x & t1 & t2 & -> & R1 & R2)|[[R1 ->]|[R1 ->]]].
  - apply runs_bind in R2 as [(y & t3 & t4 & -> & R3 & R4)|[[R3 ->]|[R3 ->]]].
    + destruct R4 as [-> ->]. destruct (G (match sec c with Some _ => true | None => false end) (bs "sec") t1 (Fin x)) as [G1 _]. { destruct (sec c); auto. }
      destruct (G (match pub c with Some _ => true | None => false end) (bs "pub") t3 (Fin y)) as [G2 _]. { destruct (pub c); auto. }
      split; auto. intros fd. rewrite !got_app, G1, G2. auto.
    + destruct (G (match pub c with Some _ => true | None => false end) (bs "pub") t2 Wrong) as [_ G2]. { destruct (pub c); auto. } congruence.
    + destruct (G (match sec c with Some _ => true | None => false end) (bs "sec") t1 (Fin x)) as [G1 _]. { destruct (sec c); auto. }
      destruct (G (match pub c with Some _ => true | None => false end) (bs "pub") t2 Cut) as [G2 _]. { destruct (pub c); auto. }
      split; auto. intros fd. rewrite !got_app, G1, G2. auto.
  - destruct (G (match sec c with Some _ => true | None => false end) (bs "sec") tr Wrong) as [_ G2]. { destruct (sec c); auto. } congruence.
  - destruct (G (match sec c with Some _ => true | None => false end) (bs "sec") tr Cut) as [G1 _]. { destruct (sec c); auto. } split; auto.
Qed.

Lemma cleanup_ok : forall fd ok nonce c tr o, runs (pem_cleanup fd ok nonce c) tr o ->
  (forall fd, got fd tr = []) /\ (o = Cut \/ o = Fin (if ok then (1, nonce, c) else (0, nonce, pem_zero))) /\
  (fd <> -1 -> o <> Cut -> exists a t, tr = (Close fd, a) :: t).
Proof.
  intros fd ok nonce c tr o R. unfold pem_cleanup in R.
  apply runs_bind in R as [(x & t1 & t2 & -> & R1 & R2)|[[R1 ->]|[R1 ->]]].
  - assert (G : (forall fd, got fd t1 = []) /\ (fd <> -1 -> exists a, t1 = [(Close fd, a)])).
    { destruct (Z.eqb_spec fd (-1)) as [->|N]; cbn [negb] in R1; [destruct R1 as [-> _]; split; auto; lia|].
      apply runs_sys1 in R1 as [[-> E]|(a & -> & _)]; [discriminate|]. split; eauto. }
    destruct G as [G1 G2]. destruct ok.
    + destruct R2 as [-> ->]. rewrite app_nil_r. split; auto. split; auto. intros N _. destruct (G2 N) as (a & ->). eauto.
    + apply runs_bind in R2 as [(y & t3 & t4 & -> & R3 & R4)|[[R3 ->]|[R3 ->]]].
      * apply free_ok in R3 as [G3 [X|X]]; [discriminate|]. inv X. destruct R4 as [-> ->]. split; [intros; rewrite !got_app, G1, G3; auto|].
        split; auto. intros N _. destruct (G2 N) as (a & ->). cbn. eauto.
      * apply free_ok in R3 as [_ [X|X]]; discriminate.
      * apply free_ok in R3 as [G3 _]. split; [intros; rewrite !got_app, G1, G3; auto|]. split; auto. congruence.
  - destruct (negb (fd =? -1)); [apply runs_sys1 in R1 as [[_ X]|(? & _ & X)]; discriminate|destruct R1; discriminate].
  - split; [|split; auto; congruence]. destruct (negb (fd =? -1)); [apply runs_sys1 in R1 as [[-> X]|(? & _ & X)]; [auto|discriminate]|destruct R1; discriminate].
Qed.

Definition loaded (key n f : list Z) (c : tls_pem) : Prop :=
  exists ls P S r1 r2, lines (f ++ [10]) ls /\ split (kept ls) P S /\
    len (text P) + len r2 = len f + 1 /\ len (text S) + len r1 = len f + 1 /\
    c = mkpem (len f + 1) (len (text P)) (Some (text P ++ r2)) (len (text S)) (Some (xorfrom stream key n 0 (text S) ++ r1)).

Lemma load_ok : forall fuel line0 fn key nonce c tr o, length line0 = 65%nat -> legal tr -> fstat_ok tr ->
  runs (tls_pem_load stream fuel line0 fn key nonce c) tr o ->
  match o with
  | Wrong => False
  | Cut => True
  | Fin (r, nonce', c') =>
      (r = 0 /\ nonce' = nonce /\ c' = pem_zero) \/
      (r = 1 /\ exists n fd, (exists a, In (Other (bs "open_read") [] fn, a) tr /\ ret a = fd /\ fd <> -1) /\ (exists s b, In (Other (bs "fstat") [fd] [], s) tr /\ ret s <> -1 /\ data s = [b; len (got fd tr)]) /\ nonce' = Some n /\ (nonce = None -> length n = 12%nat) /\ (forall m, nonce = Some m -> n = m) /\ loaded key n (got fd tr) c')
  end.
Proof.
  intros fuel line0 fn key nonce c tr o L0 LG FS R. unfold tls_pem_load in R.
  apply runs_bind in R as [(x0 & t0 & u0 & -> & R0 & R)|[[R0 ->]|[R0 ->]]].
  2:{ apply free_ok in R0 as [_ [X|X]]; discriminate. }
  2:{ exact Logic.I. }
  apply free_ok in R0 as [G0 _].
  assert (CL : forall fd nn cc t, runs (pem_cleanup fd false nonce cc) t o -> forall nn2 : unit, nn = nn2 ->
    match o with Wrong => False | Cut => True | Fin (r, nonce', c') => (r = 0 /\ nonce' = nonce /\ c' = pem_zero) \/
      (r = 1 /\ exists n fd, (exists a, In (Other (bs "open_read") [] fn, a) (t0 ++ u0) /\ ret a = fd /\ fd <> -1) /\ (exists s b, In (Other (bs "fstat") [fd] [], s) (t0 ++ u0) /\ ret s <> -1 /\ data s = [b; len (got fd (t0 ++ u0))]) /\ nonce' = Some n /\ (nonce = None -> length n = 12%nat) /\ (forall m, nonce = Some m -> n = m) /\ loaded key n (got fd (t0 ++ u0)) c') end).
  { intros fd nn cc t RR nn2 _. apply cleanup_ok in RR as (_ & [->| ->] & _); cbn; auto. }
  apply runs_bind in R as [(oa & t1 & u1 & -> & R1 & R)|[[R1 ->]|[R1 ->]]].
  2:{ apply runs_sys1 in R1 as [[_ X]|(? & _ & X)]; discriminate. }
  2:{ exact Logic.I. }
  apply runs_sys1 in R1 as [[_ X]|(a1 & -> & X)]; [discriminate|]. inv X. set (fd := ret a1) in *.
  destruct (Z.eqb_spec fd (-1)) as [E|NF]; [eapply CL with (nn := tt); eauto|].
  apply runs_bind in R as [(sa & t2 & u2 & -> & R2 & R)|[[R2 ->]|[R2 ->]]].
  2:{ apply runs_sys1 in R2 as [[_ X]|(? & _ & X)]; discriminate. }
  2:{ exact Logic.I. }
  apply runs_sys1 in R2 as [[_ X]|(a2 & -> & X)]; [discriminate|]. inv X.
  destruct (Z.eqb_spec (ret a2) (-1)) as [E|NS]; [eapply CL with (nn := tt); eauto|].
  assert (FA : exists r sz, data a2 = [r; sz] /\ 0 <= sz).
  { unfold fstat_ok in FS. rewrite Forall_forall in FS. apply (FS (Other (bs "fstat") [fd] [], a2)) with (fd := fd); auto.
    rewrite !in_app_iff. right. right. left. left. reflexivity. }
  destruct FA as (rg & sz & ED & SZ). rewrite ED in R. cbn [ld nth_error lift pbind] in R.
  destruct (Z.eqb_spec rg 0) as [E|NR]; [eapply CL with (nn := tt); eauto|].
  assert (PA : forall n t oo, runs (pem_alloc n) t oo -> (forall f, got f t = []) /\ (oo = Cut \/ oo = Fin None \/ oo = Fin (Some (zeros n)))).
  { intros n t oo RR. unfold pem_alloc in RR. apply runs_bind in RR as [(aa & t3 & t4 & -> & R3 & R4)|[[R3 ->]|[R3 ->]]].
    - apply runs_sys1 in R3 as [[_ X]|(a & -> & X)]; [discriminate|]. inv X. destruct R4 as [-> ->]. split; auto. destruct (ret a =? 0); auto.
    - apply runs_sys1 in R3 as [[_ X]|(? & _ & X)]; discriminate.
    - apply runs_sys1 in R3 as [[-> X]|(? & _ & X)]; [auto|discriminate]. }
  apply runs_bind in R as [(m1 & t3 & u3 & -> & R3 & R)|[[R3 ->]|[R3 ->]]].
  2:{ apply PA in R3 as [_ [X|[X|X]]]; discriminate. }
  2:{ exact Logic.I. }
  apply PA in R3 as [G3 [X|[X|X]]]; [discriminate|inv X; eapply CL with (nn := tt); eauto|]. inv X.
  apply runs_bind in R as [(m2 & t4 & u4 & -> & R4 & R)|[[R4 ->]|[R4 ->]]].
  2:{ apply PA in R4 as [_ [X|[X|X]]]; discriminate. }
  2:{ exact Logic.I. }
  apply PA in R4 as [G4 [X|[X|X]]]; [discriminate|inv X; eapply CL with (nn := tt); eauto|]. inv X.
  assert (LZ : length (zeros (sz + 1)) = Datatypes.S (Z.to_nat sz)) by (unfold zeros; rewrite repeat_length; lia).
  repeat (apply legal_app in LG as [? LG]).
  apply runs_bind in R as [([rr s2] & t5 & u5 & -> & R5 & R)|[[R5 ->]|[R5 ->]]].
  2:{ destruct (readall_ok _ _ _ _ _ _ R5 LG) as [_ []]. unfold len. lia. }
  2:{ exact Logic.I. }
  apply legal_app in LG as [LG5 LG6].
  destruct (readall_ok _ _ _ _ _ _ R5 LG5) as [_ HR]; [unfold len; lia|].
  destruct rr as [|e]; [|eapply CL with (nn := tt); eauto].
  destruct HR as (LGOT & -> & _). rewrite Z.max_r in LGOT by lia.
  assert (SK : exists y, skipn (Z.to_nat sz) (zeros (sz + 1)) = [y]).
  { destruct (skipn (Z.to_nat sz) (zeros (sz + 1))) as [|y [|y2 t]] eqn:E; [| |]; apply (f_equal (@length Z)) in E; rewrite skipn_length, LZ in E; cbn [length] in E; try lia. eauto. }
  destruct SK as (y & SK). rewrite SK in R. set (f := got fd t5) in *.
  replace (Z.to_nat sz) with (length f) in R by (unfold len in LGOT; lia). rewrite st_app in R. cbn [lift pbind] in R.
  destruct (lines_ex f) as (ls & HL). destruct (split_ex _ (kept ls) (le_n _)) as (P & S & HS).
  replace sz with (len f) in R by auto.
  assert (LZ2 : length (zeros (len f + 1)) = Datatypes.S (length f)) by (unfold zeros; rewrite repeat_length; unfold len; lia).
  pose proof (fun t oo => pemparse_ok line0 f (zeros (len f + 1)) ls P S (len f + 1) t oo L0 LZ2 eq_refl HL HS) as PP.
  apply runs_bind in R as [(cc & t6 & u6 & -> & R6 & R)|[[R6 ->]|[R6 ->]]].
  2:{ exact (proj2 (PP _ _ R6)). }
  2:{ exact Logic.I. }
  destruct (PP _ _ R6) as [G6 (r1 & r2 & -> & LR2 & LR1)].
  apply runs_bind in R as [([n c2] & t7 & u7 & -> & R7 & R)|[[R7 ->]|[R7 ->]]].
  3:{ exact Logic.I. }
  2:{ unfold tls_pem_encrypt in R7. apply runs_bind in R7 as [(n & t7 & t8 & -> & R7 & R8)|[[R7 _]|[R7 X]]]; [| |discriminate].
      - cbn [sec seclen] in R8. rewrite len_app in R8. replace ((len (text S) + len r1 <? len (text S)) || (len (text S) <? 0)) with false in R8 by (unfold len; lia).
        destruct R8; discriminate.
      - destruct nonce; [destruct R7; discriminate|]. apply randombytes_ok in R7 as [[_ X]|(? & ? & _ & X & _)]; discriminate. }
  assert (EN : (forall fd, got fd t7 = []) /\ (nonce = None -> length n = 12%nat) /\ (forall m, nonce = Some m -> n = m) /\
     c2 = mkpem (len f + 1) (len (text P)) (Some (text P ++ r2)) (len (text S)) (Some (xorfrom stream key n 0 (text S) ++ r1))).
  { unfold tls_pem_encrypt in R7. apply runs_bind in R7 as [(n' & t8 & t9 & -> & R7 & R8)|[[R7 X]|[R7 X]]]; try discriminate.
    cbn [sec seclen palloc publen pub] in R8. rewrite len_app in R8. replace ((len (text S) + len r1 <? len (text S)) || (len (text S) <? 0)) with false in R8 by (unfold len; lia).
    destruct R8 as [-> X]. inv X. rewrite app_nil_r. split; [|split; [|split]].
    - intros fd'. destruct nonce; [destruct R7 as [-> _]; auto|eapply randombytes_got; eauto].
    - intros ->. apply randombytes_ok in R7 as [[_ X]|(? & ? & _ & X & ?)]; [discriminate|]. inv X. auto.
    - intros m ->. destruct R7 as [_ X]. inv X. auto.
    - f_equal. f_equal. replace (Z.to_nat (len (text S))) with (length (text S)) by (unfold len; lia).
      rewrite firstn_app, Nat.sub_diag, firstn_all, firstn_O, app_nil_r. rewrite skipn_app, Nat.sub_diag, skipn_all. reflexivity. }
  destruct EN as (G7 & N1 & N2 & ->).
  apply cleanup_ok in R as (G8 & [->| ->] & _); [exact Logic.I|]. right. split; auto. exists n, fd. split.
  { exists a1. split; [|auto]. rewrite !in_app_iff. right. left. left. reflexivity. }
  match goal with |- context [loaded _ _ (got fd ?T)] => assert (GF : got fd T = f) end.
  { rewrite !got_app, G0, G3, G4, G6, G7, G8. cbn [got app]. rewrite app_nil_r. reflexivity. }
  rewrite GF. split.
  { exists a2, rg. split; [|split; [exact NS|]]. - rewrite !in_app_iff. right. right. left. left. reflexivity. - rewrite ED, LGOT. reflexivity. }
  split; auto. split; auto. split; auto.
  exists ls, P, S, r1, r2. auto.
Qed.
End C.
