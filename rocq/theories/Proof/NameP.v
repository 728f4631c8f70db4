From Verif.Model Require Import Base Parsename.
From Verif.Spec Require Import Name.
From Verif.Proof Require Import Tac.

Definition lchar (c : Z) : Prop := c <> 0 /\ c <> 46.
Definition isend (t : list Z) : Prop := exists c r, t = c :: r /\ (c = 0 \/ c = 46).

Definition labcb (c : Z) : bool :=
  ((97 <=? c) && (c <=? 122)) || ((65 <=? c) && (c <=? 90)) ||
  ((48 <=? c) && (c <=? 57)) || (c =? 45) || (c =? 95).

Lemma labcb_spec : forall c, labcb c = true <-> lab_char c.
Proof. intros. unfold labcb, lab_char. lia. Qed.

Definition label_okb (l : list Z) : bool :=
  negb (Nat.eqb (length l) 0) && (length l <=? 63)%nat && forallb labcb l &&
  negb (hd 0 l =? 45) && negb (last l 0 =? 45).

Lemma label_okb_spec : forall l, label_okb l = true <-> label_ok l.
Proof.
  intros. unfold label_okb, label_ok.
  rewrite !andb_true_iff, !negb_true_iff, Nat.eqb_neq, Nat.leb_le, !Z.eqb_neq, forallb_forall, Forall_forall.
  setoid_rewrite labcb_spec. destruct l; cbn [length]; intuition congruence.
Qed.

Lemma lablen_ok : forall l t, Forall lchar l -> isend t ->
  pname_lablen (l ++ t) = Ok (length l).
Proof.
  induction l; intros t Hl (c & r & -> & Hc); cbn [app pname_lablen].
  - destruct Hc as [->| ->]; reflexivity.
  - inv Hl. destruct H1. destruct (Z.eqb_spec a 0); [lia|]. destruct (Z.eqb_spec a 46); [lia|].
    rewrite IHl; auto. exists c, r. auto.
Qed.

Lemma labok_ok : forall l t, pname_labok (length l) (l ++ t) = Ok (forallb labcb l).
Proof.
  induction l; intros; cbn [length app pname_labok deref bind tl forallb]; [reflexivity|].
  fold (labcb a). destruct (labcb a); cbn [andb]; auto.
Qed.

Lemma copy_ok : forall l t w k, (length w + length l + k = 256)%nat ->
  pname_copy (length l) (l ++ t) (w ++ repeat 0 (length l + k)) (length w) =
  Ok (if (length w + length l <=? 255)%nat
      then Some (t, (w ++ l) ++ repeat 0 k, (length w + length l)%nat)
      else if Nat.eqb (length l) 0 then Some (t, w ++ repeat 0 k, length w) else None).
Proof.
  induction l; intros t w k Hk; cbn [length app pname_copy].
  - cbn [Nat.add]. rewrite app_nil_r, Nat.add_0_r. cbn [Nat.eqb].
    destruct (length w <=? 255)%nat; reflexivity.
  - cbn [length] in Hk. destruct (Nat.leb_spec 255 (length w)).
    + destruct (Nat.leb_spec (length w + S (length l)) 255); [lia|]. reflexivity.
    + cbn [deref bind tl Nat.add repeat]. rewrite st_app. cbn [bind].
      replace (w ++ a :: repeat 0 (length l + k)) with ((w ++ [a]) ++ repeat 0 (length l + k))
        by (rewrite <- app_assoc; reflexivity).
      replace (S (length w)) with (length (w ++ [a])) by (rewrite app_length; cbn; lia).
      rewrite IHl by (rewrite app_length; cbn [length]; lia).
      rewrite app_length. cbn [length].
      replace (length w + 1 + length l)%nat with (length w + S (length l))%nat by lia.
      cbn [Nat.eqb].
      destruct (Nat.leb_spec (length w + S (length l)) 255).
      * rewrite <- !app_assoc. reflexivity.
      * destruct (Nat.eqb_spec (length l) 0); [lia|]. reflexivity.
Qed.

(** One label. *)
Lemma main_label : forall l t f w k, l <> [] -> Forall lchar l -> isend t ->
  (length w + S (length l) + k = 256)%nat ->
  pname_main (S f) (l ++ t) (w ++ repeat 0 (S (length l) + k)) (length w) =
  if label_okb l && (length w + S (length l) <=? 255)%nat
  then pname_main f t ((w ++ len l :: l) ++ repeat 0 k) (length w + S (length l))
  else Ok None.
Proof.
  intros l t f w k Hne Hl Ht Hk.
  cbn [pname_main]. destruct l as [|c l]; [congruence|].
  cbn [app deref bind]. inv Hl. destruct H1 as [C0 C46].
  destruct (Z.eqb_spec c 0); [lia|]. destruct (Z.eqb_spec c 46); [lia|].
  change (c :: l ++ t) with ((c :: l) ++ t).
  rewrite lablen_ok; [|constructor; [split; auto|auto]|auto]. cbn [bind].
  unfold label_okb. cbn [hd]. replace (Nat.eqb (length (c :: l)) 0) with false by reflexivity.
  cbn [negb andb].
  destruct (Nat.ltb_spec 63 (length (c :: l))); destruct (Nat.leb_spec (length (c :: l)) 63); try lia.
  { reflexivity. }
  rewrite labok_ok. cbn [bind andb].
  destruct (forallb labcb (c :: l)) eqn:EF; cbn [negb andb]; [|reflexivity].
  destruct (c =? 45); cbn [negb andb]; [reflexivity|].
  assert (EL : ld ((c :: l) ++ t) (length l) = Ok (last (c :: l) 0)).
  { destruct (@exists_last _ (c :: l) ltac:(discriminate)) as (x & y & E). rewrite E.
    assert (length l = length x).
    { apply (f_equal (@length Z)) in E. rewrite app_length in E. cbn in E. lia. }
    rewrite H1, <- app_assoc. cbn [app]. rewrite ld_app, last_last. reflexivity. }
  cbn [length]. rewrite EL. cbn [bind].
  destruct (last (c :: l) 0 =? 45); cbn [negb andb]; [reflexivity|].
  cbn [length] in *.
  destruct (Nat.leb_spec 255 (length w)).
  { destruct (Nat.leb_spec (length w + S (S (length l))) 255); [lia|]. reflexivity. }
  cbn [Nat.add repeat]. rewrite st_app. cbn [bind].
  rewrite u8_id by lia.
  replace (w ++ Z.of_nat (S (length l)) :: 0 :: repeat 0 (length l + k)) with
    ((w ++ [Z.of_nat (S (length l))]) ++ repeat 0 (length (c :: l) + k))
    by (rewrite <- app_assoc; reflexivity).
  replace (S (length w)) with (length (w ++ [Z.of_nat (S (length l))])) by (rewrite app_length; cbn; lia).
  change (S (length l)) with (length (c :: l)) at 1.
  rewrite copy_ok by (rewrite app_length; cbn [length]; lia). cbn [bind].
  rewrite app_length. cbn [length Nat.eqb].
  replace (length w + 1 + S (length l))%nat with (length w + S (S (length l)))%nat by lia.
  destruct (Nat.leb_spec (length w + S (S (length l))) 255); [|reflexivity].
  rewrite <- !app_assoc. cbn [app]. unfold len. cbn [length]. reflexivity.
Qed.

Fixpoint wlen (ls : list (list Z)) : nat :=
  match ls with [] => O | l :: ls' => (S (length l) + wlen ls')%nat end.
Fixpoint wirebody (ls : list (list Z)) : list Z :=
  match ls with [] => [] | l :: ls' => (len l :: l) ++ wirebody ls' end.

Lemma wire_body : forall ls, wire ls = wirebody ls ++ [0].
Proof. induction ls; cbn; [reflexivity|]. rewrite IHls, app_assoc. reflexivity. Qed.
Lemma wirebody_len : forall ls, length (wirebody ls) = wlen ls.
Proof. induction ls; cbn; [reflexivity|]. rewrite app_length, IHls. reflexivity. Qed.
Lemma wire_len : forall ls, length (wire ls) = S (wlen ls).
Proof. intros. rewrite wire_body, app_length, wirebody_len. cbn. lia. Qed.

Definition lab (l : list Z) : Prop := l <> [] /\ Forall lchar l.

Lemma main_ok : forall ls tr rest w f,
  Forall lab ls -> (tr = [] \/ tr = [46]) ->
  (length w <= 255)%nat -> (length (dotted ls ++ tr) < f)%nat ->
  pname_main f (dotted ls ++ tr ++ 0 :: rest) (w ++ repeat 0 (256 - length w)) (length w) =
  if forallb label_okb ls && (length w + wlen ls <=? 255)%nat
  then Ok (Some ((w ++ wirebody ls) ++ repeat 0 (256 - length w - wlen ls), (length w + wlen ls)%nat))
  else Ok None.
Proof.
  induction ls as [|l ls IH]; intros tr rest w f Hls Htr Hw Hf.
  - cbn [dotted app forallb andb wlen wirebody]. rewrite Nat.add_0_r, Nat.sub_0_r, app_nil_r.
    destruct (Nat.leb_spec (length w) 255); [|lia].
    cbn [dotted app] in Hf.
    destruct Htr as [->| ->]; cbn [length] in Hf.
    + destruct f; [lia|]. reflexivity.
    + destruct f; [lia|]. destruct f; [lia|]. reflexivity.
  - inv Hls. destruct H1 as [Hne Hlc]. rename H2 into Hls.
    cbn [wlen wirebody forallb].
    (* what follows the label *)
    assert (exists t, dotted (l :: ls) ++ tr ++ 0 :: rest = l ++ t /\ isend t /\
       forall g out pos, (length (dotted (l :: ls) ++ tr) < S g)%nat ->
         exists g', pname_main g t out pos = pname_main g' (dotted ls ++ tr ++ 0 :: rest) out pos /\
                    (length (dotted ls ++ tr) < g')%nat) as (t & E & Ht & Hnext).
    { destruct ls as [|l2 ls].
      - exists (tr ++ 0 :: rest). cbn [dotted]. split; [reflexivity|]. split.
        + destruct Htr as [->| ->]; cbn; do 2 eexists; eauto.
        + intros g out pos Hg. exists g. split; [reflexivity|].
          cbn [app]. rewrite app_length in Hg. destruct l; [congruence|]. cbn [length] in Hg. lia.
      - exists (46 :: dotted (l2 :: ls) ++ tr ++ 0 :: rest). split.
        { change (dotted (l :: l2 :: ls)) with (l ++ 46 :: dotted (l2 :: ls)).
          rewrite <- !app_assoc. reflexivity. }
        split. { do 2 eexists; eauto. }
        intros g out pos Hg. change (dotted (l :: l2 :: ls)) with (l ++ 46 :: dotted (l2 :: ls)) in Hg.
        rewrite <- app_assoc in Hg. rewrite app_length in Hg. cbn [app length] in Hg.
        destruct g; [lia|]. exists g. split; [reflexivity|].
        destruct l; [congruence|]. cbn [length] in Hg. lia. }
    rewrite E.
    destruct f; [lia|].
    destruct (Nat.leb_spec (length w + S (length l)) 256).
    2:{ (* cannot fit *)
      destruct (Nat.leb_spec (length w + (S (length l) + wlen ls)) 255); [lia|].
      rewrite andb_false_r.
      (* use the generic label lemma on a longer buffer is impossible; unfold directly *)
      clear - Hne Hlc Ht H Hw.
      cbn [pname_main]. destruct l as [|c l]; [congruence|].
      cbn [app deref bind]. assert (Hl' := Hlc). inv Hlc. destruct H2 as [C0 C46].
      destruct (Z.eqb_spec c 0); [lia|]. destruct (Z.eqb_spec c 46); [lia|].
      change (c :: l ++ t) with ((c :: l) ++ t).
      rewrite lablen_ok by auto. cbn [bind].
      destruct (Nat.ltb_spec 63 (length (c :: l))); [reflexivity|].
      rewrite labok_ok. cbn [bind].
      destruct (forallb labcb (c :: l)); cbn [negb]; [|reflexivity].
      destruct (c =? 45); [reflexivity|].
      assert (EL : exists e, ld ((c :: l) ++ t) (length l) = Ok e).
      { unfold ld. rewrite nth_error_app1 by (cbn; lia).
        destruct (nth_error (c :: l) (length l)) eqn:EN; [eauto|].
        apply nth_error_None in EN. cbn in EN. lia. }
      destruct EL as [e EL]. cbn [length]. rewrite EL. cbn [bind].
      destruct (e =? 45); [reflexivity|].
      destruct (Nat.leb_spec 255 (length w)); [reflexivity|].
      cbn [length] in *.
      destruct (256 - length w)%nat as [|m] eqn:Em; [lia|]. cbn [repeat]. rewrite st_app. cbn [bind].
      rewrite u8_id by lia.
      replace (w ++ Z.of_nat (S (length l)) :: repeat 0 m) with
        ((w ++ [Z.of_nat (S (length l))]) ++ repeat 0 m) by (rewrite <- app_assoc; reflexivity).
      replace (S (length w)) with (length (w ++ [Z.of_nat (S (length l))])) by (rewrite app_length; cbn; lia).
      change (S (length l)) with (length (c :: l)) at 1.
      assert (HC : forall q w0 m0, (length w0 + m0 = 256)%nat -> (m0 < length q)%nat ->
        forall tt, pname_copy (length q) (q ++ tt) (w0 ++ repeat 0 m0) (length w0) = Ok None).
      { clear. induction q; intros w0 m0 Hm Hq tt; cbn [length] in Hq; [lia|].
        cbn [length pname_copy]. destruct (Nat.leb_spec 255 (length w0)); [reflexivity|].
        cbn [app deref bind tl]. destruct m0; [lia|]. cbn [repeat]. rewrite st_app. cbn [bind].
        replace (w0 ++ a :: repeat 0 m0) with ((w0 ++ [a]) ++ repeat 0 m0)
          by (rewrite <- app_assoc; reflexivity).
        replace (S (length w0)) with (length (w0 ++ [a])) by (rewrite app_length; cbn; lia).
        apply IHq; rewrite ?app_length; cbn [length]; lia. }
      rewrite HC by (rewrite ?app_length; cbn [length]; lia). reflexivity. }
    replace (256 - length w)%nat with (S (length l) + (256 - length w - S (length l)))%nat by lia.
    rewrite main_label by (auto; lia).
    destruct (label_okb l) eqn:EL; cbn [andb]; [|reflexivity].
    destruct (Nat.leb_spec (length w + S (length l)) 255).
    2:{ destruct (Nat.leb_spec (length w + (S (length l) + wlen ls)) 255); [lia|].
        rewrite andb_false_r. reflexivity. }
    destruct (Hnext f ((w ++ len l :: l) ++ repeat 0 (256 - length w - S (length l)))
                (length w + S (length l))%nat Hf) as (g' & -> & Hg').
    assert (LW : length (w ++ len l :: l) = (length w + S (length l))%nat)
      by (rewrite app_length; reflexivity).
    rewrite <- LW.
    replace (256 - length w - S (length l))%nat with (256 - length (w ++ len l :: l))%nat by lia.
    rewrite IH by (auto; lia). rewrite LW.
    replace (length w + S (length l) + wlen ls)%nat with (length w + (S (length l) + wlen ls))%nat by lia.
    destruct (forallb label_okb ls && (length w + (S (length l) + wlen ls) <=? 255)%nat); [|reflexivity].
    do 3 f_equal. rewrite <- !app_assoc. cbn [app].
    do 5 f_equal. lia.
Qed.

(** Decomposition of an arbitrary string. *)
Lemma dots_ok : forall s rest, nonul s ->
  exists b, pname_dots (s ++ 0 :: rest) = Ok b /\
  (b = true <-> exists x y, s = x ++ 46 :: 46 :: y).
Proof.
  induction s as [|c s IH]; intros rest Hn.
  - exists false. split; [reflexivity|]. split; [discriminate|].
    intros (x & y & E). destruct x; discriminate.
  - inv Hn. cbn [app pname_dots]. destruct (Z.eqb_spec c 0); [lia|].
    destruct (IH rest H2) as (b & Eb & Sb).
    destruct (Z.eqb_spec c 46).
    + subst. destruct s as [|d s].
      * cbn. exists false. split; [reflexivity|]. split; [discriminate|].
        intros (x & y & E). destruct x as [|? [|? ?]]; discriminate.
      * cbn [app deref bind]. destruct (Z.eqb_spec d 46).
        -- subst. exists true. split; [reflexivity|]. split; [|reflexivity].
           intros _. exists [], s. reflexivity.
        -- exists b. split; [exact Eb|]. rewrite Sb. split.
           ++ intros (x & y & E). exists (46 :: x), y. rewrite E. reflexivity.
           ++ intros (x & y & E). destruct x as [|? x]; inv E; [congruence|]. eauto.
    + exists b. split; [exact Eb|]. rewrite Sb. split.
      * intros (x & y & ->). exists (c :: x), y. reflexivity.
      * intros (x & y & E). destruct x as [|? x]; inv E; [congruence|]. eauto.
Qed.

Lemma first_dot : forall s, nonul s ->
  (Forall lchar s) \/ exists l t, s = l ++ 46 :: t /\ Forall lchar l.
Proof.
  induction 1; [left; constructor|].
  destruct (Z.eq_dec x 46).
  - right. exists [], l. subst. split; [reflexivity|constructor].
  - destruct IHForall as [F|(a & t & -> & F)].
    + left. constructor; auto. split; [lia|auto].
    + right. exists (x :: a), t. split; [reflexivity|]. constructor; auto. split; [lia|auto].
Qed.

Lemma decompose : forall n s, (length s <= n)%nat -> nonul s ->
  (forall x y, s <> x ++ 46 :: 46 :: y) -> (s = [] \/ hd 0 s <> 46) ->
  exists ls tr, s = dotted ls ++ tr /\ Forall lab ls /\ (tr = [] \/ (tr = [46] /\ ls <> [])).
Proof.
  induction n; intros s Hl Hn Hd Hh.
  - destruct s; [|cbn in Hl; lia]. exists [], []. repeat split; auto.
  - destruct s as [|c s]; [exists [], []; repeat split; auto|].
    destruct Hh as [?|Hh]; [discriminate|]. cbn in Hh.
    destruct (first_dot (c :: s) Hn) as [F|(l & t & E & F)].
    + exists [c :: s], []. cbn [dotted]. rewrite app_nil_r. repeat split; auto.
      constructor; [|constructor]. split; [discriminate|auto].
    + assert (l <> []). { intros ->. inv E. congruence. }
      rewrite E in *. clear E c s Hh.
      destruct (IHn t) as (ls & tr & Et & Fl & Ht).
      * rewrite app_length in Hl. cbn in Hl. lia.
      * unfold nonul in *. rewrite Forall_app in Hn. destruct Hn as [_ Hn]. inv Hn. auto.
      * intros x y E. apply (Hd (l ++ 46 :: x) y). rewrite E, <- app_assoc. reflexivity.
      * destruct t as [|d t]; [auto|]. right. cbn. intros ->. apply (Hd l t). reflexivity.
      * destruct ls as [|l2 ls].
        -- cbn in Et. exists [l], [46]. cbn [dotted].
           destruct Ht as [->|[_ ?]]; [|congruence]. subst t.
           repeat split; auto. constructor; [split; auto|constructor].
           right. split; auto. discriminate.
        -- exists (l :: l2 :: ls), tr. split.
           { rewrite Et. change (dotted (l :: l2 :: ls)) with (l ++ 46 :: dotted (l2 :: ls)).
             rewrite <- app_assoc. reflexivity. }
           split. { constructor; [split; auto|auto]. }
           destruct Ht as [?|[? _]]; [auto|right; split; auto; discriminate].
Qed.

Ltac nolab := exfalso; match goal with H : lchar 46 |- _ => destruct H; congruence end.

(** Uniqueness: a presentation determines its labels. *)
Lemma lab_split : forall l1 t1 l2 t2, Forall lchar l1 -> Forall lchar l2 ->
  (t1 = [] \/ exists r, t1 = 46 :: r) -> (t2 = [] \/ exists r, t2 = 46 :: r) ->
  l1 ++ t1 = l2 ++ t2 -> l1 = l2 /\ t1 = t2.
Proof.
  induction l1; intros t1 l2 t2 F1 F2 H1 H2 E; cbn [app] in E.
  - destruct l2 as [|x l2]; [auto|].
    destruct H1 as [->|(r & ->)]; [discriminate|]. inv F2. inv E. nolab.
  - inv F1. destruct l2 as [|x l2].
    + destruct H2 as [->|(r & ->)]; [discriminate|]. inv E. nolab.
    + inv F2. inv E. destruct (IHl1 t1 l2 t2) as [-> ->]; auto.
Qed.

Lemma dotted_tail : forall l ls, exists r, dotted (l :: ls) = l ++ r /\
  (r = [] \/ exists r', r = 46 :: r') /\ (ls = [] -> r = []) /\ (ls <> [] -> r = 46 :: dotted ls).
Proof.
  intros. destruct ls as [|l2 ls].
  - exists []. cbn. rewrite app_nil_r. repeat split; auto. congruence.
  - exists (46 :: dotted (l2 :: ls)). repeat split; eauto. discriminate.
Qed.

Lemma presents_unique : forall ls1 ls2 t1 t2, Forall lab ls1 -> Forall lab ls2 ->
  (t1 = [] \/ (t1 = [46] /\ ls1 <> [])) -> (t2 = [] \/ (t2 = [46] /\ ls2 <> [])) ->
  dotted ls1 ++ t1 = dotted ls2 ++ t2 -> ls1 = ls2.
Proof.
  induction ls1 as [|l1 ls1 IH]; intros ls2 t1 t2 F1 F2 H1 H2 E.
  - destruct ls2 as [|l2 ls2]; [auto|]. exfalso.
    destruct H1 as [->|[_ ?]]; [|congruence]. change (dotted [] ++ []) with (@nil Z) in E. apply Forall_cons_iff in F2 as [[? ?] ?].
    destruct (dotted_tail l2 ls2) as (r & Er & _). rewrite Er in E.
    destruct l2; [congruence|]. discriminate.
  - destruct ls2 as [|l2 ls2].
    { exfalso. destruct H2 as [->|[_ ?]]; [|congruence]. change (dotted [] ++ []) with (@nil Z) in E. apply Forall_cons_iff in F1 as [[? ?] ?].
      destruct (dotted_tail l1 ls1) as (r & Er & _). rewrite Er in E.
      destruct l1; [congruence|]. discriminate. }
    apply Forall_cons_iff in F1 as [[N1 C1] F1]. apply Forall_cons_iff in F2 as [[N2 C2] F2].
    destruct (dotted_tail l1 ls1) as (r1 & E1 & R1 & Z1 & D1).
    destruct (dotted_tail l2 ls2) as (r2 & E2 & R2 & Z2 & D2).
    rewrite E1, E2, <- !app_assoc in E.
    assert (X : forall r t, (r = [] \/ exists r', r = 46 :: r') -> (t = [] \/ (t = [46] /\ l1 :: ls1 <> []) \/ (t = [46] /\ l2 :: ls2 <> [])) ->
       r ++ t = [] \/ exists q, r ++ t = 46 :: q).
    { intros r t [->|(r' & ->)] Ht; cbn; eauto. destruct Ht as [->|[[-> _]|[-> _]]]; eauto. }
    destruct (lab_split l1 (r1 ++ t1) l2 (r2 ++ t2) C1 C2) as [-> Et]; auto.
    { apply X; auto. destruct H1; auto. } { apply X; auto. destruct H2; auto. }
    f_equal.
    destruct ls1 as [|a1 ls1], ls2 as [|a2 ls2]; auto.
    + exfalso. rewrite Z1, D2 in Et by (auto; discriminate). cbn [app] in Et.
      assert (dotted (a2 :: ls2) ++ t2 <> []).
      { apply Forall_cons_iff in F2 as [[? ?] ?]. destruct (dotted_tail a2 ls2) as (r & -> & _). destruct a2; [congruence|]. discriminate. }
      destruct H1 as [->|[-> _]]; cbn [app] in Et; [discriminate|apply (f_equal (@tl Z)) in Et; cbn [tl] in Et; congruence].
    + exfalso. rewrite Z2, D1 in Et by (auto; discriminate). cbn [app] in Et.
      assert (dotted (a1 :: ls1) ++ t1 <> []).
      { apply Forall_cons_iff in F1 as [[? ?] ?]. destruct (dotted_tail a1 ls1) as (r & -> & _). destruct a1; [congruence|]. discriminate. }
      destruct H2 as [->|[-> _]]; cbn [app] in Et; [discriminate|apply (f_equal (@tl Z)) in Et; cbn [tl] in Et; congruence].
    + rewrite D1, D2 in Et by discriminate. cbn [app] in Et. apply (f_equal (@tl Z)) in Et. cbn [tl] in Et.
      apply (IH (a2 :: ls2) t1 t2); auto.
      * destruct H1 as [?|[? _]]; auto. right. split; auto. discriminate.
      * destruct H2 as [?|[? _]]; auto. right. split; auto. discriminate.
Qed.

Lemma label_ok_lab : forall l, label_ok l -> lab l.
Proof.
  intros l (A & _ & B & _). split; auto. eapply Forall_impl; [|exact B].
  unfold lab_char, lchar. cbn. intros. lia.
Qed.

Lemma presents_parts : forall s ls, presents s ls -> Forall lab ls ->
  s = [46] /\ ls = [] \/ exists tr, s = dotted ls ++ tr /\ (tr = [] \/ (tr = [46] /\ ls <> [])).
Proof.
  intros s ls P F. destruct ls as [|l ls]; cbn [presents] in P.
  - destruct P as [->| ->]; [right; exists []; auto|auto].
  - right. destruct P as [->| ->]; [exists []; rewrite app_nil_r; auto|exists [46]].
    split; auto. right. split; auto. discriminate.
Qed.

Lemma no_dd_presents : forall ls tr x y, Forall lab ls -> (tr = [] \/ (tr = [46] /\ ls <> [])) ->
  dotted ls ++ tr <> x ++ 46 :: 46 :: y.
Proof.
  induction ls as [|l ls IH]; intros tr x y F Ht E.
  - destruct Ht as [->|[_ ?]]; [|congruence]. destruct x; discriminate.
  - apply Forall_cons_iff in F as [[N C] F].
    destruct (dotted_tail l ls) as (r & Er & R & Zr & Dr). rewrite Er, <- app_assoc in E.
    (* the first dot of x ++ .. lies after l *)
    assert (S : exists x', r ++ tr = x' ++ 46 :: 46 :: y /\ (x = l ++ x')).
    { clear - C E. revert x E. induction C; intros x0 E; cbn [app] in *.
      - exists x0. auto.
      - destruct x0 as [|d x0]; cbn [app] in E; inv E. { nolab. }
        destruct (IHC x0 H2) as (x' & E' & ->). eauto. }
    destruct S as (x' & E' & ->).
    destruct ls as [|l2 ls].
    + rewrite Zr in E' by auto. cbn [app] in E'.
      destruct Ht as [->|[-> _]]; destruct x' as [|? [|? x']]; discriminate.
    + rewrite Dr in E' by discriminate. cbn [app] in E'.
      destruct x' as [|d x']; cbn [app] in E'; apply (f_equal (@tl Z)) in E'; cbn [tl] in E'; rename E' into H0.
      * apply Forall_cons_iff in F as [[N2 C2] F]. destruct (dotted_tail l2 ls) as (r2 & Er2 & _).
        rewrite Er2, <- app_assoc in H0. destruct l2; [congruence|]. inv C2. inv H0. nolab.
      * apply (IH tr x' y); auto. destruct Ht as [?|[? _]]; auto. right. split; auto. discriminate.
Qed.

Lemma zero_ok : forall k w b, length b = k ->
  forall r, pname_zero k (length w) (w ++ b ++ r) = Ok (w ++ repeat 0 k ++ r).
Proof.
  induction k; intros w b Hb r; cbn [pname_zero repeat].
  - destruct b; [reflexivity|discriminate].
  - destruct b as [|x b]; [discriminate|]. cbn [app]. rewrite st_app. cbn [bind].
    replace (w ++ 0 :: b ++ r) with ((w ++ [0]) ++ b ++ r) by (rewrite <- app_assoc; reflexivity).
    replace (S (length w)) with (length (w ++ [0])) by (rewrite app_length; cbn; lia).
    rewrite IHk by (cbn in Hb; lia). rewrite <- app_assoc. reflexivity.
Qed.

Lemma parsename_correct : forall s rest out, nonul s -> length out = 256%nat ->
  exists r, parsename_ out (s ++ 0 :: rest) = Ok r /\
  match r with
  | Some out' => exists ls, valid_name s ls /\ out' = wire ls ++ repeat 0 (256 - length (wire ls))
  | None => forall ls, ~ valid_name s ls
  end.
Proof.
  intros s rest out Hn Ho. unfold parsename_.
  (* the two early rejections *)
  assert (ED : exists c0, deref (s ++ 0 :: rest) = Ok c0 /\ c0 = hd 0 s).
  { destruct s; cbn; eauto. }
  destruct ED as (c0 & -> & Hc0). cbn [bind].
  assert (EL : exists b, (if c0 =? 46 then c1 <- ld (s ++ 0 :: rest) 1;; Ok (negb (c1 =? 0)) else Ok false) = Ok b
     /\ (b = true <-> exists d t, s = 46 :: d :: t)).
  { destruct s as [|c s]; cbn in Hc0; subst c0.
    - exists false. cbn. split; [reflexivity|]. split; [discriminate|]. intros (?&?&?). discriminate.
    - destruct (Z.eqb_spec c 46).
      + subst. destruct s as [|d s]; cbn.
        * exists false. split; [reflexivity|]. split; [discriminate|]. intros (?&?&?). discriminate.
        * inv Hn. inv H2. destruct (Z.eqb_spec d 0); [lia|]. exists true. split; [reflexivity|]. split; eauto.
      + exists false. split; [reflexivity|]. split; [discriminate|]. intros (?&?&E). inv E. congruence. }
  destruct EL as (b & -> & Hb). cbn [bind].
  assert (LEAD : forall d t ls, s = 46 :: d :: t -> ~ valid_name s ls).
  { intros d t ls -> (P & L & _).
    assert (FL : Forall lab ls) by (eapply Forall_impl; [apply label_ok_lab|exact L]).
    destruct (presents_parts _ _ P FL) as [[E _]|(tr & E & Ht)]; [discriminate|].
    destruct ls as [|l ls].
    - destruct Ht as [->|[_ ?]]; [discriminate|congruence].
    - apply Forall_cons_iff in FL as [[N C] FL]. destruct (dotted_tail l ls) as (r & Er & _).
      rewrite Er, <- app_assoc in E. destruct l; [congruence|]. inv E. inv C. nolab. }
  destruct b.
  { eexists. split; [reflexivity|]. intros ls. destruct (proj1 Hb eq_refl) as (d & t & E). eapply LEAD; eauto. }
  destruct (dots_ok s rest Hn) as (dd & -> & Hdd). cbn [bind].
  destruct dd.
  { eexists. split; [reflexivity|]. intros ls (P & L & _).
    destruct (proj1 Hdd eq_refl) as (x & y & E).
    assert (FL : Forall lab ls) by (eapply Forall_impl; [apply label_ok_lab|exact L]).
    destruct (presents_parts _ _ P FL) as [[E' _]|(tr & E' & Ht)].
    - rewrite E' in E. destruct x as [|? [|? ?]]; discriminate.
    - rewrite E' in E. eapply no_dd_presents; eauto. }
  assert (Hz : pname_zero 256 0 out = Ok (repeat 0 256)).
  { pose proof (zero_ok 256 [] out Ho []) as Z. cbn [app length] in Z. rewrite !app_nil_r in Z. exact Z. }
  rewrite Hz. cbn [bind].
  assert (NL : ~ exists d t, s = 46 :: d :: t) by (intro X; apply Hb in X; discriminate).
  assert (ND : forall x y, s <> x ++ 46 :: 46 :: y).
  { intros x y E. assert (false = true) by (apply Hdd; eauto). discriminate. }
  (* decompose *)
  assert (DEC : exists ls tr, s = dotted ls ++ tr /\ Forall lab ls /\ (tr = [] \/ tr = [46]) /\
     (forall ls', presents s ls' -> Forall lab ls' -> ls' = ls) /\ presents s ls).
  { destruct (list_eq_dec Z.eq_dec s [46]) as [->|Ns].
    - exists [], [46]. cbn. repeat split; auto. intros ls' P F.
      destruct (presents_parts _ _ P F) as [[_ ->]|(tr & E & Ht)]; auto.
      destruct ls' as [|l ls']; auto. apply Forall_cons_iff in F as [[N C] F].
      destruct (dotted_tail l ls') as (r & Er & _). rewrite Er, <- app_assoc in E.
      destruct l; [congruence|]. inv E. inv C. nolab.
    - destruct (decompose (length s) s) as (ls & tr & E & F & Ht); auto.
      + destruct s as [|c s]; auto. right. cbn. intros ->.
        destruct s as [|d s]; [congruence|]. apply NL. eauto.
      + exists ls, tr. split; [exact E|]. split; [exact F|].
        split. { destruct Ht as [?|[? _]]; auto. }
        split.
        * intros ls' P F'. destruct (presents_parts _ _ P F') as [[? _]|(tr' & E' & Ht')]; [congruence|].
          rewrite E in E'. symmetry. eapply presents_unique; eauto.
        * unfold presents. destruct ls as [|l ls].
          -- destruct Ht as [->|[_ ?]]; [|congruence]. left. rewrite E. reflexivity.
          -- destruct Ht as [->|[-> _]]; rewrite E, ?app_nil_r; auto. }
  destruct DEC as (ls & tr & Es & Fl & Htr & UNIQ & PR).
  pose proof (main_ok ls tr rest [] (length (s ++ 0 :: rest)) Fl Htr) as M.
  cbn [length app] in M. rewrite Nat.sub_0_r in M.
  rewrite (app_assoc (dotted ls) tr), <- Es in M.
  rewrite M; [|lia|rewrite app_length; cbn [length]; lia]. clear M.
  cbn [Nat.add].
  destruct (forallb label_okb ls) eqn:EF; cbn [andb].
  2:{ cbn [bind]. eexists. split; [reflexivity|]. intros ls' (P & L & _).
      assert (ls' = ls).
      { apply UNIQ; auto. eapply Forall_impl; [apply label_ok_lab|exact L]. }
      subst ls'. assert (forallb label_okb ls = true).
      { apply forallb_forall. intros. apply label_okb_spec. rewrite Forall_forall in L. auto. }
      congruence. }
  assert (LOK : Forall label_ok ls).
  { apply Forall_forall. intros. apply label_okb_spec. rewrite forallb_forall in EF. auto. }
  destruct (Nat.leb_spec (wlen ls) 255).
  2:{ cbn [bind]. eexists. split; [reflexivity|]. intros ls' (P & L & W).
      assert (ls' = ls) by (apply UNIQ; auto; eapply Forall_impl; [apply label_ok_lab|exact L]).
      subst ls'. rewrite wire_len in W. lia. }
  cbn [bind]. destruct (Nat.leb_spec 255 (wlen ls)).
  { eexists. split; [reflexivity|]. intros ls' (P & L & W).
    assert (ls' = ls) by (apply UNIQ; auto; eapply Forall_impl; [apply label_ok_lab|exact L]).
    subst ls'. rewrite wire_len in W. lia. }
  destruct (256 - wlen ls)%nat as [|k] eqn:Ek; [lia|]. cbn [repeat].
  replace (wlen ls) with (length (wirebody ls)) by apply wirebody_len. rewrite st_app. cbn [bind].
  eexists. split; [reflexivity|]. exists ls. split.
  - split; [exact PR|]. split; [exact LOK|]. rewrite wire_len. lia.
  - rewrite wire_len, wire_body, <- app_assoc. cbn [app]. do 3 f_equal. lia.
Qed.

Lemma wire_inj : forall a b, Forall label_ok a -> Forall label_ok b -> wire a = wire b -> a = b.
Proof.
  induction a as [|x a IH]; intros b Ha Hb E; destruct b as [|y b]; auto.
  - apply Forall_cons_iff in Hb as [[N _] _]. cbn [wire] in E. inv E. destruct y; [congruence|].
    rewrite len_cons in H0. pose proof (len_nonneg _ y). lia.
  - apply Forall_cons_iff in Ha as [[N _] _]. cbn [wire] in E. inv E. destruct x; [congruence|].
    rewrite len_cons in H0. pose proof (len_nonneg _ x). lia.
  - apply Forall_cons_iff in Ha as [_ Ha]. apply Forall_cons_iff in Hb as [_ Hb].
    cbn [wire] in E. injection E as L E. unfold len in L. apply Nat2Z.inj in L.
    assert (x = y /\ wire a = wire b) as [-> E'].
    { clear - L E. revert y L E. induction x; intros [|z y] L E; cbn in L; try lia; auto.
      cbn [app] in E. injection E as -> E. destruct (IHx y) as [-> ?]; auto. }
    f_equal. apply IH; auto.
Qed.
