(** The option loop of tlswrapper-tcp and tlswrapper-smtp. *)
From Verif.Model Require Import Base Str Parsenum Getopt.
From Verif.Spec Require Import Text Num Settings Cmdline Words.
From Verif.Proof Require Import Tac StrP NumP ConfigP OptionsP.

Section Getopt.
Variable O : Type.
Variable plain : Z -> O -> option O.
Variable takes : Z -> bool.
Variable set_option : Z -> list Z -> O -> res (option O).
Variables F A : list Z.
Variable ok : item -> Prop.
Variable means : list item -> O -> Prop.
Hypothesis plain_ok : forall c o, match plain c o with
  | Some o' => In c F /\ forall l, means l o -> means (l ++ [Flag c]) o'
  | None => ~ In c F end.
Hypothesis ok_flag : forall c, ok (Flag c).
Hypothesis in_args : forall c, In c A <-> takes c = true.
Hypothesis plain_takes : forall c, In c F -> takes c = false.
Hypothesis set_ok : forall c a x l o, In c A -> is_ptr a x -> means l o ->
  exists r, set_option c x o = Ok r /\ match r with Some o' => ok (Opt c a) /\ means (l ++ [Opt c a]) o' | None => ~ ok (Opt c a) end.
Notation cluster := (cluster O plain takes set_option).
Notation options := (options O plain takes set_option).
Notation wgroup := (wgroup F A).
Notation wline := (wline F A).

Lemma wgroup_fun : forall t ws l ws', wgroup t ws l ws' -> forall l2 ws2, wgroup t ws l2 ws2 -> l2 = l /\ ws2 = ws'.
Proof.
  assert (X : forall c, In c F -> ~ In c A) by (intros c I1 I2; apply in_args in I2; rewrite plain_takes in I2 by auto; discriminate).
  induction 1 as [ws|c t ws l ws' I G IH|c t ws I NE|c w ws I]; intros l2 ws2 H; inversion H; subst; try (exfalso; eapply X; eauto; fail); auto; try contradiction.
  match goal with H : wgroup t _ _ _ |- _ => destruct (IH _ _ H) as [-> ->] end. auto.
Qed.
Lemma wline_fun : forall ws l prg, wline ws l prg -> forall l2 prg2, wline ws l2 prg2 -> l2 = l /\ prg2 = prg.
Proof.
  induction 1 as [|w ws H|ws|ws|t ws l ws' l' ws'' N1 N2 G L IH]; intros l2 prg2 L2; inversion L2; subst; try (cbn [hd] in *; congruence); auto;
    try (exfalso; apply H; reflexivity); try (exfalso; match goal with H : _ <> _ |- _ => apply H; reflexivity end).
  match goal with X : wgroup t ws _ _ |- _ => destruct (wgroup_fun _ _ _ _ G _ _ X) as [-> ->] end.
  match goal with X : wline ws' _ _ |- _ => destruct (IH _ _ X) as [-> ->] end. auto.
Qed.

Definition group_ends (t : list Z) (ws : list (list Z)) (l : list item) (r : letters O) : Prop :=
  match r with
  | Next _ o => exists l', wgroup t ws l' ws /\ Forall ok l' /\ means (l ++ l') o
  | Ate _ o => exists l' w ws', ws = w :: ws' /\ wgroup t ws l' ws' /\ Forall ok l' /\ means (l ++ l') o
  | Usage _ => forall l' ws', wgroup t ws l' ws' -> ~ Forall ok l'
  end.
Lemma cluster_ok : forall t r ws ps l o, nonul t -> Forall2 is_ptr ws ps -> means l o ->
  exists x, cluster (t ++ 0 :: r) (hd_error ps) o = Ok x /\ group_ends t ws l x.
Proof.
  induction t as [|c t IH]; intros r ws ps l o N FF M; cbn [app Getopt.cluster].
  - cbn [Z.eqb]. eexists. split; [reflexivity|]. exists []. rewrite app_nil_r. split; [constructor|]. split; [constructor|auto].
  - apply Forall_inv in N as NC. apply Forall_inv_tail in N. destruct (Z.eqb_spec c 0); [lia|].
    pose proof (plain_ok c o) as P. destruct (plain c o) as [o1|].
    + destruct P as [P1 P2]. destruct (IH r ws ps (l ++ [Flag c]) o1 N FF (P2 l M)) as (x & E & H). exists x. split; [exact E|]. clear E IH.
      destruct x as [|o2|o2]; cbn [group_ends] in *.
      * intros l' ws' G AL. inversion G; subst.
        -- apply Forall_inv_tail in AL. eapply H; eauto.
        -- match goal with H : In c A |- _ => apply in_args in H; rewrite plain_takes in H by auto; discriminate end.
        -- match goal with H : In c A |- _ => apply in_args in H; rewrite plain_takes in H by auto; discriminate end.
      * destruct H as (l' & G & AL & B). exists (Flag c :: l'). split; [constructor; auto|]. rewrite <- app_assoc in B. auto.
      * destruct H as (l' & w & ws' & -> & G & AL & B). exists (Flag c :: l'), w, ws'. split; auto. split; [constructor; auto|]. rewrite <- app_assoc in B. auto.
    + destruct (takes c) eqn:T.
      2: { eexists. split; [reflexivity|]. intros l' ws' G. inversion G; subst; [contradiction| |]; (match goal with H : In c A |- _ => apply in_args in H; congruence end). }
      apply in_args in T.
      assert (D : deref (t ++ 0 :: r) = Ok (hd 0 t)) by (destruct t; reflexivity). rewrite D. cbn [bind].
      destruct t as [|c1 t]; cbn [hd].
      * cbn [Z.eqb negb app]. destruct ps as [|p ps]; cbn [hd_error].
        -- eexists. split; [reflexivity|]. inversion FF; subst. intros l' ws' G. inversion G; subst; contradiction.
        -- inversion FF as [|w ? ws' ? W F']; subst. destruct (set_ok _ _ _ _ _ T W M) as (x & E & H). rewrite E. cbn [bind]. eexists. split; [reflexivity|].
           destruct x as [o'|].
           ++ destruct H as [H1 H2]. exists [Opt c w], w, ws'. split; auto. split; [constructor; auto|]. auto.
           ++ intros l' ws2 G. inversion G; subst; try contradiction. intros AL. apply Forall_inv in AL. auto.
      * pose proof (Forall_inv N) as NC1. cbn beta in NC1. destruct (Z.eqb_spec c1 0); [lia|]. cbn [negb].
        assert (W : is_ptr (c1 :: t) ((c1 :: t) ++ 0 :: r)) by (split; eauto).
        destruct (set_ok _ _ _ _ _ T W M) as (x & E & H). cbn [app] in E |- *. rewrite E. cbn [bind]. eexists. split; [reflexivity|].
        destruct x as [o'|].
        -- destruct H as [H1 H2]. exists [Opt c (c1 :: t)]. split; [constructor; auto; discriminate|]. auto.
        -- intros l' ws2 G. inversion G; subst; try contradiction. intros AL. apply Forall_inv in AL. auto.
Qed.

Definition line_ends (ws : list (list Z)) (l : list item) (r : option (list (list Z) * O)) : Prop :=
  match r with
  | Some (ps, o) => exists l' prg, wline ws l' prg /\ Forall2 is_ptr prg ps /\ Forall ok l' /\ means (l ++ l') o
  | None => forall l' prg, wline ws l' prg -> ~ Forall ok l'
  end.
Lemma options_ok : forall n ws ps l o, (length ps <= n)%nat -> Forall2 is_ptr ws ps -> means l o ->
  exists r, options ps o = Ok r /\ line_ends ws l r.
Proof.
  induction n as [|n IH]; intros ws ps l o LN FF M.
  { destruct ps; [|cbn [length] in LN; lia]. inversion FF; subst. eexists. split; [reflexivity|]. exists [], []. rewrite app_nil_r. repeat (split; [constructor|]). auto. }
  destruct ps as [|p ps]; [inversion FF; subst; eexists; split; [reflexivity|]; exists [], []; rewrite app_nil_r; repeat (split; [constructor|]); auto|].
  inversion FF as [|w ? ws' ? W F']; subst. destruct W as (N & r & ->). cbn [Getopt.options]. cbn [length] in LN.
  assert (D : deref (w ++ 0 :: r) = Ok (hd 0 w)) by (destruct w; reflexivity). rewrite D. cbn [bind].
  destruct (Z.eqb_spec (hd 0 w) 45) as [H45|H45]; cbn [negb].
  2: { eexists. split; [reflexivity|]. exists [], (w :: ws'). rewrite app_nil_r. split; [constructor; auto|]. split; [constructor; auto; split; eauto|]. split; [constructor|auto]. }
  destruct w as [|c t]; [discriminate|]. cbn [hd] in H45. subst c. pose proof (Forall_inv_tail N) as NT.
  assert (DD : dashes ((45 :: t) ++ 0 :: r) = Ok (match t with [] => true | [c] => c =? 45 | _ => false end)).
  { unfold dashes. destruct t as [|c1 t]; cbn [app ld nth_error bind]; [reflexivity|].
    pose proof (Forall_inv NT) as NC1. cbn beta in NC1. destruct (Z.eqb_spec c1 0); [lia|]. destruct (Z.eqb_spec c1 45) as [->|N1].
    - destruct t as [|c2 t]; cbn [app]; [reflexivity|]. pose proof (Forall_inv (Forall_inv_tail NT)) as NC2. cbn beta in NC2. replace (ld (45 :: 45 :: c2 :: t ++ 0 :: r) 2) with (Ok c2) by reflexivity. cbn [bind]. f_equal. apply Z.eqb_neq. lia.
    - destruct t; [|reflexivity]. destruct (Z.eqb_spec c1 45); auto. }
  rewrite DD. cbn [bind]. clear DD D.
  assert (DC : (t = [] \/ t = bs "-") \/ (t <> [] /\ t <> bs "-")).
  { destruct t as [|c1 [|c2 t]]; auto; [|right; split; discriminate]. destruct (Z.eq_dec c1 45) as [->|X]; [left; right; reflexivity|right; split; [discriminate|]].
    intros E. injection E as E. auto. }
  destruct DC as [[-> | ->]|[T0 T1]].
  { eexists. split; [reflexivity|]. exists [], ws'. rewrite app_nil_r. split; [apply wline_dash|]. split; auto. }
  { eexists. split; [reflexivity|]. exists [], ws'. rewrite app_nil_r. split; [apply wline_dashes|]. split; auto. }
  assert (B : (match t with [] => true | [c] => c =? 45 | _ => false end) = false).
  { destruct t as [|c1 [|c2 t]]; auto; [congruence|]. apply Z.eqb_neq. intros ->. apply T1. reflexivity. }
  rewrite B. cbn [app tl].
  assert (INV : forall l' prg, wline ((45 :: t) :: ws') l' prg -> exists l1 l2 ws1, l' = l1 ++ l2 /\ wgroup t ws' l1 ws1 /\ wline ws1 l2 prg).
  { intros l' prg L. inversion L; subst; try (cbn [hd] in *; congruence); try (exfalso; apply T1; reflexivity). eauto 7. }
  destruct (cluster_ok t r ws' ps l o NT F' M) as (x & E & H). rewrite E. cbn [bind].
  destruct x as [|o1|o1]; cbn [group_ends] in H.
  - eexists. split; [reflexivity|]. intros l' prg L AL. apply INV in L as (l1 & l2 & ws1 & -> & G & _). apply Forall_app in AL as [AL _]. eapply H; eauto.
  - destruct H as (l1 & G & AL & M1). destruct (IH ws' ps (l ++ l1) o1) as (y & E2 & H2); auto; [lia|]. exists y. split; [exact E2|].
    destruct y as [[q o2]|]; cbn [line_ends] in *.
    + destruct H2 as (l2 & prg & L2 & P2 & A2 & M2). exists (l1 ++ l2), prg. split; [econstructor; eauto|]. split; auto. rewrite <- app_assoc in M2. split; auto. apply Forall_app; auto.
    + intros l' prg L ALL. apply INV in L as (l1' & l2' & ws1 & -> & G' & L'). destruct (wgroup_fun _ _ _ _ G _ _ G') as [-> ->]. apply Forall_app in ALL as [_ ALL]. eapply H2; eauto.
  - destruct H as (l1 & w & ws1 & -> & G & AL & M1). inversion F' as [|? p ? ps' W F2]; subst. cbn [length] in LN.
    destruct (IH ws1 ps' (l ++ l1) o1) as (y & E2 & H2); auto; [lia|]. exists y. split; [exact E2|].
    destruct y as [[q o2]|]; cbn [line_ends] in *.
    + destruct H2 as (l2 & prg & L2 & P2 & A2 & M2). exists (l1 ++ l2), prg. split; [econstructor; eauto|]. split; auto. rewrite <- app_assoc in M2. split; auto. apply Forall_app; auto.
    + intros l' prg L ALL. apply INV in L as (l1' & l2' & ws2 & -> & G' & L'). destruct (wgroup_fun _ _ _ _ G _ _ G') as [-> ->]. apply Forall_app in ALL as [_ ALL]. eapply H2; eauto.
Qed.
End Getopt.

Lemma streq_is : forall s w p, nonul s -> is_ptr w p -> Getopt.streq s p = Ok (same s w).
Proof. exact streq_ok. Qed.
Lemma pp_ok : forall a x, is_ptr a x -> pp_version x = Ok (if same (bs "0") a then Some false else if same (bs "1") a then Some true else None).
Proof.
  intros a x P. unfold pp_version. rewrite (streq_is (bs "0") a x ltac:(repeat constructor) P), (streq_is (bs "1") a x ltac:(repeat constructor) P). cbn [bind].
  destruct (same (bs "0") a); auto. destruct (same (bs "1") a); reflexivity.
Qed.
Lemma seconds_ok : forall a d p, str_is a d p -> exists r, seconds_parse p = Ok r /\
  match r with Some v => seconds a d v | None => forall v, ~ seconds a d v end.
Proof. exact timeout_ok. Qed.
Lemma port_ok : forall w p, is_ptr w p -> exists r, parseport_ p = Ok r /\
  match r with Some (p0, p1) => exists n, is_port w n /\ [p0; p1] = [n / 256; n mod 256] | None => forall n, ~ is_port w n end.
Proof.
  intros w p (N & r & ->). destruct (parseport_correct w r N) as (x & E & H). exists x. split; [exact E|].
  destruct x as [[p0 p1]|].
  - destruct H as (B0 & B1 & NU & D). unfold is_byte, port_val in *. exists (decval w). split; [split; [auto|split; auto; lia]|].
    rewrite D. f_equal; [|f_equal]; [apply Z.div_unique with p1; lia|apply Z.mod_unique with p0; lia].
  - intros n (NU & -> & B). apply H. split; auto. lia.
Qed.
Lemma port_fun : forall s p q, is_port s p -> is_port s q -> p = q.
Proof. intros s p q (_ & -> & _) (_ & -> & _). reflexivity. Qed.
Lemma loud_snoc : forall l i, loudness (l ++ [i]) = match i with Flag c => if c =? 113 then 0 else if c =? 81 then 1 else if c =? 118 then loudness l + 1 else loudness l | Opt _ _ => loudness l end.
Proof. intros. unfold loudness. rewrite fold_left_app. reflexivity. Qed.
