(** Safety of programs relative to an assumption about the answers. *)
From Verif.Model Require Import Base Sys Io Fdio Relay.
From Verif.Spec Require Import Flow.
From Verif.Proof Require Import Tac SysP CallsP.

(** From history [h], as long as the answers meet [A]: every call is in order, and [Q] at the end. *)
Definition holds (OK : trace -> event -> Prop) (h tr : trace) : Prop := forall t1 e t2, tr = t1 ++ e :: t2 -> OK (h ++ t1) e.
Definition sp {R} (A OK : trace -> event -> Prop) (h : trace) (p : prog R) (Q : trace -> R -> Prop) : Prop :=
  forall tr o, runs p tr o -> holds A h tr -> holds OK h tr /\ (forall r, o = Fin r -> Q (h ++ tr) r).

Lemma holds_nil : forall OK h, holds OK h [].
Proof. intros OK h t1 e t2 E. destruct t1; discriminate. Qed.
Lemma holds_cons : forall (OK : trace -> event -> Prop) h e t, holds OK h (e :: t) <-> OK h e /\ holds OK (h ++ [e]) t.
Proof.
  intros OK h e t. split.
  - intros H. split; [specialize (H [] e t eq_refl); rewrite app_nil_r in H; auto|]. intros t1 x t2 ->. specialize (H (e :: t1) x t2 eq_refl). rewrite <- app_assoc. exact H.
  - intros [H1 H2] t1 x t2 E. destruct t1 as [|y t1]; cbn [app] in E; injection E as <- ->; [rewrite app_nil_r; auto|]. specialize (H2 t1 x t2 eq_refl). rewrite <- app_assoc in H2. exact H2.
Qed.
Lemma holds_app : forall OK h a b, holds OK h (a ++ b) <-> holds OK h a /\ holds OK (h ++ a) b.
Proof.
  intros OK h a. revert h. induction a as [|e a IH]; intros h b; cbn [app].
  - rewrite app_nil_r. split; [intros H; split; auto; apply holds_nil|tauto].
  - rewrite !holds_cons, IH, <- app_assoc. cbn [app]. tauto.
Qed.
Lemma holds_always : forall OK tr, holds OK [] tr <-> always OK tr.
Proof. intros. reflexivity. Qed.

Lemma sp_ret : forall R A OK h (r : R) (Q : trace -> R -> Prop), Q h r -> sp A OK h (Ret r) Q.
Proof. intros R A OK h r Q H tr o [-> ->] _. split; [apply holds_nil|]. intros x E. injection E as <-. rewrite app_nil_r. auto. Qed.
Lemma sp_halt : forall R A OK h (Q : trace -> R -> Prop), sp A OK h Halt Q.
Proof. intros R A OK h Q tr o [-> ->] _. split; [apply holds_nil|]. discriminate. Qed.
Lemma sp_bad : forall R A OK h (Q : trace -> R -> Prop), sp A OK h Bad Q.
Proof. intros R A OK h Q tr o [-> ->] _. split; [apply holds_nil|]. discriminate. Qed.
Lemma sp_do : forall R (A OK : trace -> event -> Prop) h c (k : ans -> prog R) Q,
  (forall a, A h (c, a) -> OK h (c, a) /\ sp A OK (h ++ [(c, a)]) (k a) Q) -> sp A OK h (Do c k) Q.
Proof.
  intros R A OK h c k Q H tr o RU L. destruct RU as [[-> ->]|(a & t & -> & RU)]; [split; [apply holds_nil|discriminate]|].
  apply holds_cons in L as [L1 L2]. destruct (H a L1) as [O B]. destruct (B t o RU L2) as (O2 & F). split; [apply holds_cons; auto|].
  intros r E. specialize (F r E). rewrite <- app_assoc in F. exact F.
Qed.
Lemma sp_bind : forall S R A OK h (p : prog S) (f : S -> prog R) (M : trace -> S -> Prop) Q,
  sp A OK h p M -> (forall t a, M t a -> sp A OK t (f a) Q) -> sp A OK h (pbind p f) Q.
Proof.
  intros S R A OK h p f M Q P F tr o RU L. apply runs_bind in RU as [(a & t1 & t2 & -> & R1 & R2)|[[R1 ->]|[R1 ->]]].
  - apply holds_app in L as [L1 L2]. destruct (P _ _ R1 L1) as (O1 & Q1). destruct (F _ _ (Q1 a eq_refl) _ _ R2 L2) as (O2 & Q2).
    split; [apply holds_app; auto|]. intros r E. specialize (Q2 r E). rewrite <- app_assoc in Q2. auto.
  - destruct (P _ _ R1 L) as (O & _). split; auto. discriminate.
  - destruct (P _ _ R1 L) as (O & _). split; auto. discriminate.
Qed.
Lemma sp_conseq : forall R A OK h (p : prog R) (Q Q' : trace -> R -> Prop), sp A OK h p Q -> (forall t r, Q t r -> Q' t r) -> sp A OK h p Q'.
Proof. intros R A OK h p Q Q' P H tr o RU L. destruct (P _ _ RU L) as (O & F). split; auto. Qed.
Lemma sp_lift : forall R A OK h (x : res R) (Q : trace -> R -> Prop), (forall r, x = Ok r -> Q h r) -> sp A OK h (lift x) Q.
Proof. intros R A OK h [r| |] Q H; [apply sp_ret; auto|apply sp_bad|apply sp_halt]. Qed.
Lemma sp_sys1 : forall (A OK : trace -> event -> Prop) h c Q, (forall a, A h (c, a) -> OK h (c, a) /\ Q (h ++ [(c, a)]) a) -> sp A OK h (sys1 c) Q.
Proof. intros A OK h c Q H. apply sp_do. intros a L. destruct (H a L). split; auto. apply sp_ret. auto. Qed.

(** What a program returns. *)
Definition gives {R} (P : R -> Prop) (p : prog R) : Prop := forall tr r, runs p tr (Fin r) -> P r.
Lemma gives_ret : forall R (P : R -> Prop) r, P r -> gives P (Ret r).
Proof. intros R P r H tr x [_ E]. injection E as ->. auto. Qed.
Lemma gives_bad : forall R (P : R -> Prop), gives P Bad.
Proof. intros R P tr x [_ E]. discriminate. Qed.
Lemma gives_halt : forall R (P : R -> Prop), gives P Halt.
Proof. intros R P tr x [_ E]. discriminate. Qed.
Lemma gives_do : forall R (P : R -> Prop) c k, (forall a, gives P (k a)) -> gives P (Do c k).
Proof. intros R P c k H tr x [[_ E]|(a & t & -> & RU)]; [discriminate|]. exact (H _ _ _ RU). Qed.
Lemma gives_bind : forall S R (P : R -> Prop) (p : prog S) (f : S -> prog R), (forall a, gives P (f a)) -> gives P (pbind p f).
Proof. intros S R P p f H tr x RU. apply runs_bind in RU as [(a & t1 & t2 & -> & R1 & R2)|[[_ E]|[_ E]]]; [|discriminate|discriminate]. exact (H _ _ _ R2). Qed.
Lemma gives_iter : forall S R (P : R -> Prop) (body : S -> prog (nxt S R)),
  (forall s, gives (fun x => match x with Again _ => True | Stop r => P r end) (body s)) -> forall fuel s, gives P (iter fuel body s).
Proof.
  intros S R P body H. induction fuel as [|fuel IH]; intros s; cbn [iter]; [apply gives_halt|].
  intros tr x RU. apply runs_bind in RU as [(a & t1 & t2 & -> & R1 & R2)|[[_ E]|[_ E]]]; [|discriminate|discriminate].
  apply H in R1. destruct a as [s1|r]; [exact (IH _ _ _ R2)|]. destruct R2 as [_ E]. injection E as ->. exact R1.
Qed.
Ltac gives1 :=
  match goal with
  | |- gives _ (Ret _) => apply gives_ret
  | |- gives _ Bad => apply gives_bad
  | |- gives _ Halt => apply gives_halt
  | |- gives _ (Do _ _) => apply gives_do; intro
  | |- gives _ (pbind _ _) => apply gives_bind; intro
  | |- gives _ (if ?b then _ else _) => destruct b
  | |- gives _ (match ?x with _ => _ end) => destruct x
  end.

(** A part that makes only certain calls preserves what those calls preserve. *)
Lemma sp_part : forall R (A OK : trace -> event -> Prop) (P : sys -> Prop) (V : R -> Prop) (J : trace -> Prop) h (p : prog R),
  calls P p -> gives V p -> J h -> (forall t e, J t -> P (fst e) -> A t e -> OK t e /\ J (t ++ [e])) ->
  sp A OK h p (fun t r => J t /\ V r).
Proof.
  intros R A OK P V J h p C G JH ST tr o RU L. pose proof (C _ _ RU) as F.
  assert (X : holds OK h tr /\ J (h ++ tr)).
  { clear RU. revert h JH L. induction F as [|e tr HP F IH]; intros h JH L; [split; [apply holds_nil|rewrite app_nil_r; auto]|].
    apply holds_cons in L as [L1 L2]. destruct (ST h e JH HP L1) as [O1 J1]. destruct (IH _ J1 L2) as [O2 J2].
    split; [apply holds_cons; auto|]. rewrite <- app_assoc in J2. exact J2. }
  destruct X as [X1 X2]. split; auto. intros r E. subst o. split; auto. exact (G _ _ RU).
Qed.
Lemma sp_quiet : forall R (A OK : trace -> event -> Prop) (P : sys -> Prop) (J : trace -> Prop) h (p : prog R),
  calls P p -> J h -> (forall t e, J t -> P (fst e) -> A t e -> OK t e /\ J (t ++ [e])) -> sp A OK h p (fun t _ => J t).
Proof.
  intros R A OK P J h p C JH ST. eapply sp_conseq; [apply (sp_part R A OK P (fun _ => True) J h p C); auto|]; [intros tr r _; auto|cbn beta; tauto].
Qed.
Lemma calls_any : forall R (p : prog R), calls (fun _ => True) p.
Proof. intros R p tr o _. induction tr; constructor; auto. Qed.
