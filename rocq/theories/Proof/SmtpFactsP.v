(** Facts about the acts of an SMTP session. *)
From Verif.Model Require Import Base Sys Smtp.
From Verif.Spec Require Import Text Stream.
From Verif.Proof Require Import Tac SysP CallsP IoP SmtpIoP SmtpStP SmtpP SmtpReplyP SmtpSessP SmtpViewP.
From Verif.Spec Require Import SmtpSpec SmtpView.

Lemma follows_split : forall g P l1 l2 P', follows g P (l1 ++ l2) P' -> exists P1, follows g P l1 P1 /\ follows g P1 l2 P'.
Proof.
  intros g P l1. revert P. induction l1 as [|a l1 IH]; intros P l2 P' F; [exists P; split; [constructor|auto]|]. cbn [app] in F. inversion F; subst.
  destruct (IH _ _ _ H4) as (P1 & A & B). exists P1. split; auto. econstructor; eauto.
Qed.
Lemma follows_cons : forall g P a l P', follows g P (a :: l) P' -> exists P1, step g P a P1 /\ follows g P1 l P'.
Proof. intros g P a l P' F. inversion F; subst. eauto. Qed.
Lemma follows_die : forall g l P, follows g Die l P -> l = [] /\ P = Die.
Proof. intros g l P F. inversion F; subst; auto. inversion H. Qed.
Lemma follows_finish : forall g l P, follows g Finish l P -> l = [] /\ P = Finish.
Proof. intros g l P F. inversion F; subst; auto. inversion H. Qed.
(** The state in which a line is read. *)
Lemma line_pos : forall g P l1 x l2 P', follows g P (l1 ++ ALine x :: l2) P' ->
  exists e, (follows g P l1 (Loop e) /\ follows g (command g e x) l2 P') \/ (follows g P l1 (Body e) /\ follows g (body g e x) l2 P').
Proof.
  intros g P l1 x l2 P' F. apply follows_split in F as (P1 & A & B). apply follows_cons in B as (P2 & B & C). inversion B; subst; eauto.
Qed.

(** ** Envelope limits *)
Definition fits (r : list (list Z)) (e : env) : Prop := within r /\ count e = len r /\ total e = volume r.
Inductive carries : list (list Z) -> plan -> Prop :=
| c_loop : forall r e, fits r e -> carries r (Loop e)
| c_body : forall r e, fits r e -> carries r (Body e)
| c_give : forall r b p, b <> [] -> carries r p -> carries r (Give b p)
| c_flush : forall r p, within r -> carries [] p -> carries r (Give [] p)
| c_tell : forall r b p, carries r p -> carries r (Tell b p)
| c_reply : forall r k, within r -> (forall h d t, carries r (k h d t)) -> carries r (Reply k)
| c_probe : forall r k, within r -> (forall b, carries r (k b)) -> carries r (Probe k)
| c_ask : forall r q k, within r -> (forall b, carries r (k b)) -> carries r (Ask q k)
| c_await : forall r k, within r -> (forall b, carries r (k b)) -> carries r (Await k)
| c_raise : forall r p, carries r p -> carries r (Raise p)
| c_drain : forall r p, carries r p -> carries r (Drain p)
| c_ack : forall r p, within r -> carries [] p -> carries r (Ack p)
| c_die : forall r, within r -> carries r Die
| c_finish : forall r, within r -> carries r Finish.
Lemma carries_within : forall r P, carries r P -> within r.
Proof. intros r P H. induction H; auto; match goal with H : fits _ _ |- _ => apply H end. Qed.
Lemma norm_ne : forall x, norm x <> [].
Proof. intros x. unfold norm. destruct (chop 13 _); discriminate. Qed.
Lemma within0 : within [].
Proof. unfold within. rewrite len_nil. cbn. repeat split; try lia. constructor. Qed.
Lemma fits0 : forall a b, fits [] (mkenv a b 0 0).
Proof. intros. split; [apply within0|]. auto. Qed.
Lemma volume_app : forall a b, volume (a ++ b) = volume a + volume b.
Proof. induction a as [|x a IH]; intros b; [reflexivity|]. cbn [app volume]. rewrite IH. lia. Qed.

Lemma rcptenv_fits : forall r e x e', fits r e -> kindof (norm x) = Krcpt -> rcptenv e (norm x) = Some e' -> fits (noted r x) e'.
Proof.
  intros r e x e' ((A & B & C) & D & E) K R. unfold noted, rcptenv in *. rewrite K. destruct (beginsb _ _); [|injection R as <-; repeat split; auto].
  destruct ((_ || _) || _) eqn:Q; [discriminate|]. injection R as <-. apply orb_false_iff in Q as [Q Q3]. apply orb_false_iff in Q as [Q1 Q2].
  set (a := addr 8 (norm x)) in *. unfold fits, within. cbn [count total]. rewrite len_app, volume_app. cbn [volume]. change (len [a]) with 1. rewrite D in *. rewrite E in *.
  repeat split; try lia. apply Forall_app. split; auto. constructor; [lia|constructor].
Qed.

(** The first step of a command. *)
Lemma command_step : forall g r e x a p, fits r e -> step g (command g e x) a p -> carries (noted r x) p /\ (forall b, a <> AQueue b) /\ (forall y, a <> ALine y).
Proof.
  intros g r e x a p F S.
  assert (KEEP : forall b k, (forall h, carries (noted r x) (k h)) -> within (noted r x) -> carries (noted r x) (Reply (fun h d t => Tell (b h d t) (k h)))).
  { intros b k H W. apply c_reply; auto. intros. apply c_tell. auto. }
  pose proof (fits0) as F0. pose proof (proj1 F) as WR.
  unfold command in S. destruct (kindof (norm x)) eqn:K; cbn [noted] in *.
  - assert (N : noted r x = r) by (unfold noted; rewrite K; auto). rewrite N in *. unfold pass in S. inversion S; subst. split; [|split; discriminate]. apply KEEP; auto. intros; apply c_finish; auto.
  - assert (N : noted r x = r) by (unfold noted; rewrite K; auto). rewrite N in *. unfold pass in S. inversion S; subst. split; [|split; discriminate]. apply KEEP; auto. intros h. destruct (code h =? 354); constructor; auto.
  - assert (N : noted r x = []) by (unfold noted; rewrite K; auto). rewrite N in *. unfold mail, pass in S. destruct (beginsb _ _); [destruct (_ <? _); [inversion S|]|]; inversion S; subst; (split; [|split; discriminate]); (apply KEEP; [|apply within0]); intros; constructor; apply F0.
  - unfold rcptto in S. destruct (rcptenv e (norm x)) as [e'|] eqn:R; [|inversion S]. pose proof (rcptenv_fits _ _ _ _ F K R) as F'. pose proof (proj1 F') as W'.
    set (fw := pass g (norm x) (fun _ => Loop e')) in *.
    assert (FWS : step g fw a p -> carries (noted r x) p /\ (forall b, a <> AQueue b) /\ (forall y, a <> ALine y)).
    { unfold fw, pass. intros Q. inversion Q; subst. split; [|split; discriminate]. apply KEEP; auto. intros; constructor; auto. }
    assert (FW : carries (noted r x) fw).
    { unfold fw, pass. apply c_give; [apply norm_ne|]. apply KEEP; auto. intros; constructor; auto. }
    destruct (policy g); auto. destruct (sender e'); auto. destruct (rcpt e'); auto.
    assert (AW : forall q : option (list Z), carries (noted r x) match q with None => fw | Some r0 => match verdict r0 with None => fw | Some m => Tell (message g m) (Loop e') end end).
    { intros [q|]; auto. destruct (verdict q); auto. apply c_tell. constructor. auto. }
    inversion S; subst; (split; [|split; discriminate]); [apply c_await; auto|apply (AW None)].
  - assert (N : noted r x = r) by (unfold noted; rewrite K; auto). rewrite N in *. inversion S; subst. split; [|split; discriminate]. apply c_probe; auto. intros b. apply c_reply; auto. intros h d t.
    destruct (b && _); [destruct (_ <? _); [apply c_die; auto|]|]; apply c_tell; constructor; auto.
  - assert (N : noted r x = r) by (unfold noted; rewrite K; auto). rewrite N in *. inversion S; subst. split; [|split; discriminate]. destruct r0.
    + apply c_tell, c_raise, c_drain, c_ack; auto. apply c_give; [discriminate|]. apply c_reply; [apply within0|]. intros. constructor. apply F0.
    + apply c_tell. constructor. auto.
  - assert (N : noted r x = r) by (unfold noted; rewrite K; auto). rewrite N in *. inversion S; subst. split; [|split; discriminate]. apply KEEP; auto. intros; constructor; auto.
Qed.
Lemma body_step : forall g r e x a p, fits r e -> step g (body g e x) a p -> carries r p /\ exists b, a = AQueue b.
Proof.
  intros g r e x a p F S. unfold body in S. inversion S; subst. split; [|eauto]. destruct (dotted x); [|constructor; auto].
  apply c_flush; [apply F|]. apply c_reply; [apply within0|]. intros. apply c_tell. constructor. apply fits0.
Qed.

Lemma tally_within : forall g l P P' r, follows g P l P' -> carries r P -> within (tally r None l).
Proof.
  intros g l. remember (length l) as n eqn:E. assert (LE : (length l <= n)%nat) by lia. clear E. revert l LE. induction n as [n IH] using lt_wf_ind.
  intros [|a l] LE P P' r F C; [eapply carries_within; eauto|]. cbn [length] in LE. apply follows_cons in F as (P1 & S & F).
  assert (NX : forall r', tally r None (a :: l) = tally r' None l -> carries r' P1 -> within (tally r None (a :: l))).
  { intros r' -> C'. eapply (IH (length l)); eauto; lia. }
  destruct S; try (apply (NX r); [reflexivity|inversion C; subst; auto; fail]).
  - inversion C; subst. cbn [tally]. destruct l as [|b l]; [eapply carries_within; eauto|]. apply follows_cons in F as (P2 & S2 & F).
    destruct (command_step _ _ _ _ _ _ H3 S2) as (C2 & Q1 & Q2).
    assert (tally r (Some x) (b :: l) = tally (noted r x) None l) as -> by (destruct b; cbn [tally]; try reflexivity; [exfalso; eapply Q2; reflexivity|destruct b; reflexivity|exfalso; eapply Q1; reflexivity]).
    cbn [length] in LE. eapply (IH (length l)); eauto; lia.
  - inversion C; subst. cbn [tally]. destruct l as [|b l]; [eapply carries_within; eauto|]. apply follows_cons in F as (P2 & S2 & F).
    destruct (body_step _ _ _ _ _ _ H3 S2) as (C2 & q & ->). cbn [tally length] in *. eapply (IH (length l)); eauto; lia.
  - apply (NX r); [reflexivity|]. constructor. eapply carries_within; eauto.
  - apply (NX r); [reflexivity|]. constructor. eapply carries_within; eauto.
  - apply (NX r); [reflexivity|]. constructor. eapply carries_within; eauto.
  - inversion C; subst.
    + apply (NX r); [destruct b; [congruence|reflexivity]|auto].
    + apply (NX []); [reflexivity|auto].
  - apply (NX r); [reflexivity|]. inversion C; subst. constructor; auto.
  - apply (NX []); [reflexivity|]. inversion C; subst. auto.
  - apply (NX []); [reflexivity|]. inversion C; subst. constructor. apply within0.
Qed.
Lemma carries_start : forall g, carries [] (start g).
Proof. intros g. unfold start. apply c_reply; [apply within0|]. intros. apply c_tell. constructor. apply fits0. Qed.

Lemma step_det : forall g P a P1 P2, step g P a P1 -> step g P a P2 -> P1 = P2.
Proof. intros g P a P1 P2 A B. destruct A; inversion B; subst; auto; congruence. Qed.
Lemma follows_det : forall g P l P1 P2, follows g P l P1 -> follows g P l P2 -> P1 = P2.
Proof.
  intros g P l P1 P2 A. revert P2. induction A as [p|p a p1 l p2 S F IH]; intros Q B; inversion B; subst; auto. apply IH. rewrite (step_det _ _ _ _ _ S H2). auto.
Qed.
Lemma command_loop : forall g e x e', command g e x <> Loop e'.
Proof.
  intros g e x e'. unfold command, pass, mail, rcptto. destruct (kindof (norm x)); try discriminate.
  - destruct (beginsb _ _); [destruct (_ <? _)|]; discriminate.
  - destruct (rcptenv e (norm x)) as [e1|]; [|discriminate]. destruct (policy g); [destruct (sender e1); [destruct (rcpt e1)|]|]; discriminate.
Qed.
Lemma tally_fits : forall g l P P' r e, follows g P l P' -> carries r P -> P' = Loop e -> fits (tally r None l) e.
Proof.
  intros g l. remember (length l) as n eqn:E. assert (LE : (length l <= n)%nat) by lia. clear E. revert l LE. induction n as [n IH] using lt_wf_ind.
  intros [|a l] LE P P' r e0 F C PE; [inversion F; subst; inversion C; subst; auto|]. cbn [length] in LE. apply follows_cons in F as (P1 & S & F).
  assert (NX : forall r', tally r None (a :: l) = tally r' None l -> carries r' P1 -> fits (tally r None (a :: l)) e0).
  { intros r' -> C'. eapply (IH (length l)); eauto; lia. }
  destruct S; try (apply (NX r); [reflexivity|inversion C; subst; auto; fail]).
  - inversion C; subst. cbn [tally]. destruct l as [|b l]; [inversion F; exfalso; eapply command_loop; eauto|]. apply follows_cons in F as (P2 & S2 & F).
    destruct (command_step _ _ _ _ _ _ H3 S2) as (C2 & Q1 & Q2).
    assert (tally r (Some x) (b :: l) = tally (noted r x) None l) as -> by (destruct b; cbn [tally]; try reflexivity; [exfalso; eapply Q2; reflexivity|destruct b; reflexivity|exfalso; eapply Q1; reflexivity]).
    cbn [length] in LE. eapply (IH (length l)); eauto; lia.
  - inversion C; subst. cbn [tally]. destruct l as [|b l]; [inversion F|]. apply follows_cons in F as (P2 & S2 & F).
    destruct (body_step _ _ _ _ _ _ H3 S2) as (C2 & q & ->). cbn [tally length] in *. eapply (IH (length l)); eauto; lia.
  - apply follows_die in F as [_ ->]. discriminate.
  - apply follows_die in F as [_ ->]. discriminate.
  - apply follows_die in F as [_ ->]. discriminate.
  - inversion C; subst.
    + apply (NX r); [destruct b; [congruence|reflexivity]|auto].
    + apply (NX []); [reflexivity|auto].
  - apply (NX r); [reflexivity|]. inversion C; subst. constructor; auto.
  - apply (NX []); [reflexivity|]. inversion C; subst. auto.
  - apply follows_die in F as [_ ->]. discriminate.
Qed.

Lemma awaits_line : forall g l1 x l2 P, awaits g l1 -> follows g (start g) (l1 ++ ALine x :: l2) P ->
  exists e, follows g (start g) l1 (Loop e) /\ follows g (command g e x) l2 P.
Proof.
  intros g l1 x l2 P (e & A) F. destruct (line_pos _ _ _ _ _ _ F) as (e1 & [[B C]|[B C]]); pose proof (follows_det _ _ _ _ _ A B) as Q; [|discriminate]. injection Q as <-. eauto.
Qed.

Lemma exceeded : forall g l1 x l2 P, awaits g l1 -> follows g (start g) (l1 ++ ALine x :: l2) P -> exceeds (tally [] None l1) x -> l2 = [] /\ P = Die.
Proof.
  intros g l1 x l2 P A F X. destruct (awaits_line _ _ _ _ _ A F) as (e & L & C). pose proof (tally_fits _ _ _ _ _ _ L (carries_start g) eq_refl) as ((F1 & F2 & F3) & F4 & F5).
  unfold command in C. destruct X as [(K & B & X)|(K & B & X)]; rewrite K in C.
  - unfold mail in C. rewrite B in C. destruct (Z.ltb_spec 2048 (len (addr 10 (norm x)))); [|lia]. eapply follows_die; eauto.
  - unfold rcptto, rcptenv in C. rewrite B in C. destruct ((2048 <? len (addr 8 (norm x))) || (256 <=? count e) || (65536 <? total e + len (addr 8 (norm x)) + 1)) eqn:Q; [eapply follows_die; eauto|].
    exfalso. apply X. apply orb_false_iff in Q as [Q Q3]. apply orb_false_iff in Q as [Q1 Q2]. rewrite F4, F5 in *. unfold within. rewrite len_app, volume_app. cbn [volume].
    match goal with |- context [len [?a]] => change (len [a]) with 1 end. repeat split; try lia. apply Forall_app. split; auto. constructor; [lia|constructor].
Qed.

(** ** Greylisting *)
Lemma pact_follows : forall g P, exists P', follows g P (pact P) P'.
Proof. intros g P. destruct P; cbn [pact]; try (eexists; constructor; fail); eexists; apply follows1; constructor. Qed.
Lemma rcpt_forwarded : forall g l1 x m b l2 P, follows g (start g) (l1 ++ ALine x :: m ++ AGive b :: l2) P -> awaits g l1 -> kindof (norm x) = Krcpt ->
  Forall (fun a => match a with ALine _ | AGive _ => False | _ => True end) m ->
  exists e e', follows g (start g) l1 (Loop e) /\ rcptenv e (norm x) = Some e' /\ b = norm x /\
    ((m = [] /\ (policy g = None \/ sender e' = None \/ rcpt e' = None)) \/
     exists f t, sender e' = Some f /\ rcpt e' = Some t /\ allowed g f t m).
Proof.
  intros g l1 x m b l2 P F A K M. destruct (awaits_line _ _ _ _ _ A F) as (e & L & C). unfold command in C. rewrite K in C. unfold rcptto in C.
  destruct (rcptenv e (norm x)) as [e'|] eqn:R; [|apply follows_die in C as [C _]; destruct m; discriminate]. exists e, e'. split; auto. split; auto.
  set (fw := pass g (norm x) (fun _ => Loop e')) in *.
  assert (FW : forall m, Forall (fun a => match a with ALine _ | AGive _ => False | _ => True end) m -> follows g fw (m ++ AGive b :: l2) P -> m = [] /\ b = norm x).
  { intros [|a m'] M' C'; cbn [app] in C'; apply follows_cons in C' as (P1 & S & C'); unfold fw, pass in S; inversion S; subst; auto. apply Forall_cons_iff in M' as [[] _]. }
  destruct (policy g); [|destruct (FW m M C); split; auto; left; auto]. destruct (sender e') as [f|]; [|destruct (FW m M C); split; auto; left; auto]. destruct (rcpt e') as [t|]; [|destruct (FW m M C); split; auto; left; auto].
  destruct m as [|a m]; cbn [app] in C; apply follows_cons in C as (P1 & S & C); [inversion S|]. apply Forall_cons_iff in M as [Ma M].
  inversion S; subst.
  - destruct m as [|a m]; cbn [app] in C; apply follows_cons in C as (P1 & S1 & C); [inversion S1|]. apply Forall_cons_iff in M as [Ma' M].
    inversion S1; subst.
    + destruct (verdict (y ++ [10])) eqn:V.
      * destruct m as [|a m]; cbn [app] in C; apply follows_cons in C as (P2 & S2 & C); inversion S2; subst.
        destruct m as [|a m]; cbn [app] in C; apply follows_cons in C as (P3 & S3 & C); inversion S3; subst; [apply Forall_cons_iff in M as [_ M]; apply Forall_cons_iff in M as [[] _]|].
        apply follows_die in C as [C _]. destruct m; discriminate.
      * destruct (FW m M C) as [-> ->]. split; auto. right. exists f, t. split; auto. split; auto. left. eauto.
    + destruct (FW m M C) as [-> ->]. split; auto. right. exists f, t. split; auto. split; auto. right. left. eauto.
    + destruct (FW m M C) as [-> ->]. split; auto. right. exists f, t. split; auto. split; auto. right. right. auto.
  - destruct (FW m M C) as [-> ->]. split; auto. right. exists f, t. split; auto. split; auto. right. right. auto.
Qed.
Lemma rcpt_denied : forall g l1 x q r z l2 P, follows g (start g) (l1 ++ ALine x :: AAsk q :: AAnswer r :: l2) P -> verdict r = Some z ->
  l2 = [] \/ exists l3, l2 = ATell (message g z) :: l3 /\ match l3 with [] | ALine _ :: _ | AFlood _ :: _ => True | _ => False end.
Proof.
  intros g l1 x q r z l2 P F V. destruct (line_pos _ _ _ _ _ _ F) as (e & [[_ C]|[_ C]]); apply follows_cons in C as (P1 & S & C).
  - unfold command, pass, mail, rcptto in S. destruct (kindof (norm x)); try (inversion S; fail).
    + destruct (beginsb _ _); [destruct (_ <? _)|]; inversion S.
    + destruct (rcptenv e (norm x)) as [e'|]; [|inversion S]. destruct (policy g); [destruct (sender e'); [destruct (rcpt e')|]|]; inversion S; subst.
      apply follows_cons in C as (P2 & S2 & C). inversion S2; subst. rewrite V in C. destruct l2 as [|a l2]; [auto|]. right. apply follows_cons in C as (P3 & S3 & C). inversion S3; subst.
      exists l2. split; auto. destruct l2 as [|a l2]; auto. apply follows_cons in C as (P4 & S4 & C). inversion S4; subst; auto.
  - unfold body in S. inversion S.
Qed.
Lemma strict_acts : forall g P l P', follows g P l P' -> strict g = true -> Forall (fun a => match a with ANoAsk _ | ANoAnswer => False | _ => True end) l.
Proof. intros g P l P' F S. induction F as [p|p a p1 l p2 H F IH]; constructor; auto. inversion H; subst; auto; congruence. Qed.

(** ** STARTTLS *)
Definition afterdrain : plan := Ack (Give (bs "RSET" ++ [13; 10]) (Reply (fun _ _ _ => Loop env0))).
Inductive drp : plan -> Prop :=
| r_loop : forall e, drp (Loop e)
| r_body : forall e, drp (Body e)
| r_give : forall b p, drp p -> drp (Give b p)
| r_queue : forall b p, drp p -> drp (Queue b p)
| r_tell : forall b p, drp p -> drp (Tell b p)
| r_reply : forall k, (forall h d t, drp (k h d t)) -> drp (Reply k)
| r_probe : forall k, (forall r, drp (k r)) -> drp (Probe k)
| r_ask : forall q k, (forall r, drp (k r)) -> drp (Ask q k)
| r_await : forall k, (forall r, drp (k r)) -> drp (Await k)
| r_raise : forall p, drp p -> drp (Raise p)
| r_drain : drp (Drain afterdrain)
| r_ack : forall p, drp p -> drp (Ack p)
| r_die : drp Die
| r_finish : drp Finish.
Lemma drp_pass : forall g y k, (forall h, drp (k h)) -> drp (pass g y k).
Proof. intros. unfold pass. apply r_give, r_reply. intros. apply r_tell. auto. Qed.
Lemma drp_command : forall g e x, drp (command g e x).
Proof.
  intros g e x. unfold command. destruct (kindof (norm x)).
  - apply drp_pass. constructor.
  - apply drp_pass. intros h. destruct (code h =? 354); constructor.
  - unfold mail. destruct (beginsb _ _); [destruct (_ <? _); [constructor|]|]; apply drp_pass; constructor.
  - unfold rcptto. destruct (rcptenv e (norm x)) as [e'|]; [|constructor].
    assert (FW : drp (pass g (norm x) (fun _ => Loop e'))) by (apply drp_pass; constructor).
    destruct (policy g); auto. destruct (sender e'); auto. destruct (rcpt e'); auto. constructor. intros [r|]; auto. destruct (verdict r); auto. constructor. constructor.
  - constructor. constructor. intros r. constructor. intros h d t. destruct (r && _); [destruct (_ <? _); [constructor|]|]; constructor; constructor.
  - constructor. intros [|].
    + apply r_tell, r_raise, r_drain.
    + constructor. constructor.
  - constructor. constructor. intros. constructor. constructor.
Qed.
Lemma drp_body : forall g e x, drp (body g e x).
Proof. intros g e x. unfold body. apply r_queue. destruct (dotted x); [|constructor]. apply r_give, r_reply. intros. apply r_tell. constructor. Qed.
Lemma drp_step : forall g P a P', step g P a P' -> drp P -> drp P'.
Proof.
  intros g P a P' S D. destruct S; inversion D; subst; auto; try (constructor; auto; fail); try apply drp_command; try apply drp_body.
  unfold afterdrain. apply r_ack, r_give, r_reply. constructor.
Qed.
Lemma drp_follows : forall g P l P', follows g P l P' -> drp P -> drp P'.
Proof. intros g P l P' F. induction F; auto. intros D. apply IHF. eapply drp_step; eauto. Qed.
Lemma drp_start : forall g, drp (start g).
Proof. intros g. unfold start. apply r_reply. intros. apply r_tell. constructor. Qed.

Lemma after_drain : forall g l1 l2 P, follows g (start g) (l1 ++ ADrain :: l2) P ->
  l2 = [] \/ (exists y, y <> 0 /\ l2 = [AAck y] /\ P = Die) \/ l2 = [AAck 0] \/ l2 = [AAck 0; AGive (bs "RSET" ++ [13; 10])] \/
  (exists x, l2 = [AAck 0; AGive (bs "RSET" ++ [13; 10]); ARFlood x] /\ P = Die) \/
  (exists h d t l3, l2 = AAck 0 :: AGive (bs "RSET" ++ [13; 10]) :: AReply h d t :: l3 /\ follows g (Loop env0) l3 P).
Proof.
  intros g l1 l2 P F. apply follows_split in F as (P1 & A & B). pose proof (drp_follows _ _ _ _ A (drp_start g)) as D. apply follows_cons in B as (P2 & S & B). inversion S; subst. inversion D; subst. unfold afterdrain in B.
  destruct l2 as [|a l2]; [auto|]. apply follows_cons in B as (P3 & S3 & B). inversion S3; subst.
  2:{ apply follows_die in B as [-> ->]. right. left. exists x. auto. }
  destruct l2 as [|a l2]; [auto|]. apply follows_cons in B as (P4 & S4 & B). inversion S4; subst.
  destruct l2 as [|a l2]; [auto 6|]. apply follows_cons in B as (P5 & S5 & B). inversion S5; subst.
  - right. right. right. right. right. exists h, d, t, l2. auto.
  - apply follows_die in B as [-> ->]. right. right. right. right. left. eauto.
Qed.
(** What leads to STARTTLS. *)
Lemma starttls_acts : forall g l1 x l2 P, follows g (start g) (l1 ++ ALine x :: l2) P -> awaits g l1 -> kindof (norm x) = Kstarttls ->
  let yes := [AProbe true; ATell (message g (bs "220 ready to start TLS (#2.0.0)")); ARaise; ADrain] in
  (exists n, l2 = firstn n yes) \/ (exists l3, l2 = yes ++ l3) \/ l2 = [AProbe false] \/
  exists l3, l2 = AProbe false :: ATell (message g (bs "502 unimplemented (#5.5.1)")) :: l3.
Proof.
  intros g l1 x l2 P F A K yes. destruct (awaits_line _ _ _ _ _ A F) as (e & L & C). unfold command in C. rewrite K in C.
  destruct l2 as [|a l2]; [left; exists 0%nat; reflexivity|]. apply follows_cons in C as (P1 & S & C). inversion S; subst. destruct r.
  - destruct l2 as [|a l2]; [left; exists 1%nat; reflexivity|]. apply follows_cons in C as (P2 & S2 & C). inversion S2; subst.
    destruct l2 as [|a l2]; [left; exists 2%nat; reflexivity|]. apply follows_cons in C as (P3 & S3 & C). inversion S3; subst.
    destruct l2 as [|a l2]; [left; exists 3%nat; reflexivity|]. apply follows_cons in C as (P4 & S4 & C). inversion S4; subst. right. left. exists l2. reflexivity.
  - destruct l2 as [|a l2]; [auto|]. apply follows_cons in C as (P2 & S2 & C). inversion S2; subst. eauto.
Qed.

(** ** Messages *)
Lemma dotted_iff : forall x, ~ In 10 x -> dotted x = true <-> x = [46] \/ x = [46; 13].
Proof.
  intros x N. unfold dotted. set (m := map (fun b => if b =? 0 then 10 else b) x). split.
  - intros H. assert (E : chop 13 m = [46]) by (destruct (chop 13 m) as [|b [|]]; try discriminate; apply Z.eqb_eq in H; congruence).
    assert (U : forall y, m = y -> ~ In 10 y -> x = y).
    { clear E H. unfold m. revert N. clear m. induction x as [|a x IH]; intros N [|b y] E NY; cbn [map] in E; try discriminate; auto. injection E as E1 E2.
      f_equal; [destruct (Z.eqb_spec a 0); [exfalso; apply NY; left; congruence|auto]|]. apply IH; auto; intros Q; [apply N|apply NY]; right; auto. }
    destruct (chop_cases 13 m) as [C|C]; rewrite E in C; [left|right]; apply U; auto; cbn [In app]; lia.
  - unfold m. intros [->| ->]; reflexivity.
Qed.
Lemma body_acts : forall g e l P, follows g (Body e) l P ->
  exists xs r, l = conveyed xs ++ r /\ Forall (fun x => dotted x = false) xs /\
    (r = [] \/ (exists x, r = [ALine x]) \/ (exists x, r = [AFlood x] /\ P = Die) \/
     exists x r', dotted x = true /\ r = ALine x :: AQueue (norm x) :: r' /\
       (r' = [] \/ r' = [AGive []] \/ (exists y, r' = [AGive []; ARFlood y] /\ P = Die) \/ (exists h d t, r' = [AGive []; AReply h d t]) \/
        exists h d t r2, r' = AGive [] :: AReply h d t :: ATell (shown (tag g (h ++ d :: t))) :: r2 /\ follows g (Loop env0) r2 P)).
Proof.
  intros g e l. remember (length l) as n eqn:E. assert (LE : (length l <= n)%nat) by lia. clear E. revert l LE. induction n as [n IH] using lt_wf_ind.
  intros [|a l] LE P F; [exists [], []; auto|]. cbn [length] in LE. apply follows_cons in F as (P1 & S & F). inversion S; subst.
  2:{ apply follows_die in F as [-> ->]. exists [], [AFlood x]. split; auto. split; auto. right. right. left. eauto. }
  unfold body in F. destruct l as [|b l]; [exists [], [ALine x]; split; auto; split; auto; right; left; eauto|]. apply follows_cons in F as (P2 & S2 & F). inversion S2; subst. cbn [length] in LE.
  destruct (dotted x) eqn:DX.
  - exists [], (ALine x :: AQueue (norm x) :: l). split; auto. split; auto. right. right. right. exists x, l. split; auto. split; auto.
    destruct l as [|b l]; [auto|]. apply follows_cons in F as (P3 & S3 & F). inversion S3; subst.
    destruct l as [|b l]; [auto|]. apply follows_cons in F as (P4 & S4 & F). inversion S4; subst.
    + destruct l as [|b l]; [right; right; right; left; eauto|]. apply follows_cons in F as (P5 & S5 & F). inversion S5; subst. right. right. right. right. exists h, d, t, l. auto.
    + apply follows_die in F as [-> ->]. right. right. left. eauto.
  - destruct (IH (length l) ltac:(lia) l ltac:(lia) P F) as (xs & r & -> & X1 & X2). exists (x :: xs), r. split; auto.
Qed.
Lemma data_acts : forall g l1 y b h d t m l2 P, follows g (start g) (l1 ++ ALine y :: AGive b :: AReply h d t :: ATell m :: l2) P -> awaits g l1 ->
  kindof (norm y) = Kdata -> b = norm y /\ m = shown (tag g (h ++ d :: t)) /\ exists e, (code h = 354 -> follows g (Body e) l2 P) /\ (code h <> 354 -> follows g (Loop e) l2 P).
Proof.
  intros g l1 y b h d t m l2 P F A K. destruct (awaits_line _ _ _ _ _ A F) as (e & L & C). unfold command in C. rewrite K in C. unfold pass in C.
  apply follows_cons in C as (P1 & S1 & C). inversion S1; subst. apply follows_cons in C as (P2 & S2 & C). inversion S2; subst. apply follows_cons in C as (P3 & S3 & C). inversion S3; subst.
  split; auto. split; auto. exists e. destruct (Z.eqb_spec (code h) 354); split; auto; congruence.
Qed.
