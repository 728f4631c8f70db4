(** The TLS phase leaves nothing behind: the program gets all of the plaintext before the end of
    its input, the peer gets all of the records before the end of the connection. *)
From Verif.Model Require Import Base Sys Io Fdio Str Relay Session Tlsphase.
From Verif.Spec Require Import Stream Text Flow Starttls Tlsrelay Tlsdone.
From Verif.Proof Require Import Tac SysP PlayP WpP TcpP CurP TlsphaseP TlsdoneP.
From Verif.Props Require Import PropTlsphase.

Section Phase.
Variables timeout finish pi po ci co self : Z.
Variables usercert reported0 : bool.
Variables b1 b2 : rbuf.
Variable fuel : nat.
Hypothesis SETUP : tls_setup pi po ci co self.
Variable tr : trace.
Variable o : outcome (Z * tsess).
Hypothesis RUN : runs (tls_phase timeout finish self usercert fuel (mkts (mksess pi po (closed_as ci) (closed_as co) (-1) (-1) b1 b2) false reported0)) tr o.
Hypothesis LEGAL : legal tr.
Let all : o <> Wrong /\ always (tok pi po ci co self usercert reported0) tr /\ (forall r, o = Fin r -> tstop pi po ci co self usercert reported0 b1 b2 tr (fst r) (snd r)).
Proof. apply (wp_run _ _ _ _ (wp_tls_phase timeout finish pi po ci co self usercert reported0 b1 b2 SETUP fuel) _ _ RUN LEGAL). Qed.
Let state_ok := tls_phase_fresh _ _ _ _ _ _ _ _ RUN.

Section Engine.
Variables P R : trace -> list Z.
Variable failed : trace -> Prop.
Hypothesis MAKES : always (engine_makes P R failed) tr.
Let made : forall t e u, tr = t ++ e :: u -> always (engine_makes P R failed) t.
Proof. intros t e u E x1 y x2 Y. apply (MAKES x1 y (x2 ++ e :: u)). rewrite E, Y, <- app_assoc. reflexivity. Qed.
(** A descriptor that is closed from the start is not closed again. *)
Theorem C95_input : 0 <= ci -> always (input_end P failed ci self usercert reported0) tr.
Proof.
  intros CI t e u E X. destruct all as (_ & A & _). destruct (A t e u E) as (US & CL & _ & _ & _ & _ & _ & _ & S). destruct state_ok as (FR & _ & _). specialize (FR t e u E).
  assert (H : usable t (Close ci, snd e) /\ tls_reason pi po ci co self ci t /\ settled pi po ci co self usercert reported0 t /\ fresh t).
  { unfold tls_close, usable, tls_fresh in *. destruct X as [(how & X)|X]; rewrite X in *; cbn [fst] in *; (split; [exact US|]; split; [exact CL|]; split; [apply S; exact I|exact FR]). }
  destruct H as (UU & RE & SE & FF). unfold usable in UU. cbn [fst] in UU. assert (G : ~ gone ci t) by (intros [G|G]; [lia|contradiction]).
  assert (V : ~ Recvapp t -> given P ci usercert reported0 t \/ failed t) by (intros V; eapply given_all; [eapply made; exact E|exact FF|exact SE|exact G|exact V]).
  pose proof (m_ci_pi _ _ _ _ _ SETUP). pose proof (m_ci_po _ _ _ _ _ SETUP). pose proof (m_ci_co _ _ _ _ _ SETUP).
  destruct RE as [[Y _]|[[Y _]|[[_ RE]|[Y _]]]]; try contradiction. destruct RE as [RE|[RE|[[_ RE]|[(_ & RE & _)|[RE|RE]]]]]; auto 10; destruct (V RE); auto 10.
Qed.
Theorem C95_output : always (output_end R failed po co) tr.
Proof.
  intros t e u E X. destruct all as (_ & A & _). destruct (A t e u E) as (US & CL & _ & _ & _ & _ & _ & _ & S). destruct state_ok as (FR & _ & _). specialize (FR t e u E).
  assert (H : tls_reason pi po ci co self po t /\ settled pi po ci co self usercert reported0 t /\ fresh t).
  { unfold tls_close, tls_fresh in *. destruct X as [(how & X)|X]; rewrite X in *; cbn [fst] in *; (split; [exact CL|]; split; [apply S; exact I|exact FR]). }
  destruct H as (RE & SE & FF).
  pose proof (m_po_pi _ _ _ _ _ SETUP). pose proof (m_po_ci _ _ _ _ _ SETUP). pose proof (m_po_co _ _ _ _ _ SETUP).
  destruct RE as [[Y _]|[[_ RE]|[[Y _]|[Y _]]]]; try contradiction. destruct RE as [RE|[RE|(G & _ & RE)]]; auto.
  assert (V : sent po t = R t \/ failed t) by (eapply sent_all; [eapply made; exact E|exact FF|exact SE|exact RE]).
  destruct V as [V|V]; auto. left. split; auto. split; auto. destruct SE as (sh & rep & SE). exact (f_co _ _ _ _ _ _ _ _ _ _ SE).
Qed.
Theorem C95_end : forall s, o = Fin (0, s) -> all_end P R failed pi po ci co usercert reported0 tr.
Proof.
  intros s E. destruct all as (_ & _ & F). destruct (F _ E) as (_ & S & _). specialize (S eq_refl). destruct state_ok as (_ & _ & FR). specialize (FR _ E).
  split; [destruct S as (sh & rep & S); exact (f_pi _ _ _ _ _ _ _ _ _ _ S)|]. split; [destruct S as (sh & rep & S); exact (f_co _ _ _ _ _ _ _ _ _ _ S)|].
  split; [intros N; eapply sent_all; eauto|intros N G; eapply given_all; eauto].
Qed.
End Engine.
(** With any engine: a look at its state precedes every decision, and what the program has
    written is sent at once. *)
Theorem C95_fresh : always tls_fresh tr /\ always tls_flushed tr /\ (forall r, o = Fin r -> fresh tr).
Proof. exact state_ok. Qed.
End Phase.
Print Assumptions C95_input. Print Assumptions C95_output. Print Assumptions C95_end. Print Assumptions C95_fresh.

(** ** The session of PropTlsphase *)
(** Its engine: the first record of the peer is answered, the second one is the mail; the answer
    of the program makes a record, and so does the end. *)
Definition closing (t : trace) : bool := existsb (fun e => namedb (bs "tls_engine_close") (fst e)) t.
Definition exP (t : trace) : list Z := if len (handed (bs "tls_engine_recvrec_ack") t) <? 9 then [] else bs "mail".
Definition exR (t : trace) : list Z :=
  if len (handed (bs "tls_engine_recvrec_ack") t) <? 5 then [] else
  if len (handed (bs "tls_engine_sendapp_ack") t) <? 6 then bs "HELLO" else
  if closing t then bs "HELLOANSWERBYE" else bs "HELLOANSWER".
Definition never (t : trace) : Prop := False.
(** A checker *)
Definition makes_b (P R : trace -> list Z) (t : trace) (e : event) : bool :=
  let (c, a) := e in
  engine_b (P t) (R t) t e &&
  (negb (namedb CS c) || Z.testbit (ret a) 4 || (len (P t) <=? acked (bs "tls_engine_recvapp_ack") t)) &&
  (negb (namedb CS c) || Z.testbit (ret a) 1 || (len (R t) <=? acked (bs "tls_engine_sendrec_ack") t)) &&
  startsb (P t) (P (t ++ [e])) && startsb (R t) (R (t ++ [e])) &&
  (worksb c || (same (P (t ++ [e])) (P t) && same (R (t ++ [e])) (R t))).
Lemma makes_b_ok : forall P R t e, makes_b P R t e = true -> engine_makes P R never t e.
Proof.
  intros P R t [c a] H. unfold makes_b in H. rewrite !andb_true_iff in H. destruct H as [[[[[H1 H2] H3] H4] H5] H6]. apply engine_b_ok in H1. destruct H1 as (E1 & E2 & E3).
  split; [exact E1|]. split; [exact E2|]. split; [exact E3|]. split; [|split; [|split; [|split; [|split]]]].
  - intros C B. apply namedb_called in C. rewrite C, B in H2. cbn [negb orb] in H2. left. lia.
  - intros C B. apply namedb_called in C. rewrite C, B in H3. cbn [negb orb] in H3. left. lia.
  - apply startsb_ok. exact H4.
  - apply startsb_ok. exact H5.
  - intros [].
  - intros W. rewrite <- worksb_ok in W. destruct (worksb c); [destruct W; reflexivity|]. cbn [orb] in H6. apply andb_prop in H6 as [H6 H7]. split; apply same_true; auto.
Qed.
Definition done_ok (tr : trace) (o : outcome (Z * tsess)) : bool :=
  match o with Fin (r, s) => r =? 0 | _ => false end && always_b (makes_b exP exR) [] tr &&
  same (sent 4 tr) (frame (bs "joe" ++ [0]) ++ bs "mail") && same (sent 1 tr) (bs "HELLOANSWERBYE") && same (exP tr) (bs "mail") && same (exR tr) (bs "HELLOANSWERBYE") &&
  existsb (fun e => match fst e with Close f => f =? 4 | _ => false end) tr && existsb (fun e => match fst e with Close f => f =? 1 | _ => false end) tr.
Example C95_ex : exists tr s, runs (tls_phase 60 10 7 true (Z.to_nat 40) begin) tr (Fin (0, s)) /\ legal tr /\ always (engine_makes exP exR never) tr /\
  sent 4 tr = frame (bs "joe" ++ [0]) ++ exP tr /\ exP tr = bs "mail" /\ sent 1 tr = exR tr /\ exR tr = bs "HELLOANSWERBYE" /\ closed 4 tr /\ closed 1 tr.
Proof.
  destruct (follow_show _ script (tls_phase 60 10 7 true (Z.to_nat 40) begin) done_ok) as (tr & o & R & L & Q); [vm_compute; reflexivity|].
  unfold done_ok in Q. rewrite !andb_true_iff in Q. destruct Q as [[[[[[[Q1 Q2] Q3] Q4] Q5] Q6] Q7] Q8]. destruct o as [[r s]| |]; try discriminate. assert (r = 0) by lia. subst r. apply same_true in Q3, Q4, Q5, Q6.
  assert (C : forall f, existsb (fun e => match fst e with Close g => g =? f | _ => false end) tr = true -> closed f tr).
  { intros f H. apply existsb_exists in H as ([c a] & I & H). cbn [fst] in H. destruct c; try discriminate. exists a. replace f with fd by lia. exact I. }
  exists tr, s. split; auto. split; auto. split; [intros t1 e t2 E; apply (always_b_ok _ _ (makes_b_ok _ _) tr [] Q2 t1 e t2 E)|]. rewrite Q5, Q6. auto 10.
Qed.

(** ** What the end of input does not mean *)
Definition openb (t : trace) : bool := forallb (fun e => negb (namedb CS (fst e)) || negb (Z.testbit (ret (snd e)) 0)) t.
Definition unclosed (t : trace) : Prop := forall c a, In (c, a) t -> called CS c -> Z.testbit (ret a) 0 = false.
Lemma openb_ok : forall t, openb t = true -> unclosed t.
Proof.
  intros t H c a I C. unfold openb in H. rewrite forallb_forall in H. specialize (H _ I). cbn [fst snd] in H. apply namedb_called in C. rewrite C in H. destruct (Z.testbit (ret a) 0); [discriminate|reflexivity].
Qed.
Definition endb (f : Z) (t : trace) : bool := existsb (fun e => match fst e with Close g => g =? f | _ => false end) t.
Lemma endb_ok : forall f t, endb f t = true -> closed f t.
Proof. intros f t H. apply existsb_exists in H as ([c a] & I & H). cbn [fst] in H. destruct c; try discriminate. exists a. replace f with fd by lia. exact I. Qed.
(** It does not mean that the peer has ended its stream: the TCP connection was closed, by whomever, the TLS
    connection was not.  The program sees the end of a mail that has been cut. *)
Definition cut : list ans :=
  [st 12; give (bs "joe@example.org"); ok 8; ok 4; ok 0; ready [0]; st 100; rd (bs "hellodata"); ok 0; ok 0;
   st 28; ready [-5]; give (bs "mail"); ok 4; ok 0; st 12; ready [0]; st 100; rd []; ok 0; ok 0;
   st 12; ok 0; ok 0; ready [7]; rd [66]].
Definition cutR (t : trace) : list Z := [].
Definition cut_ok (tr : trace) (o : outcome (Z * tsess)) : bool :=
  match o with Fin (r, s) => r =? 0 | _ => false end && always_b (makes_b exP cutR) [] tr && same (sent 4 tr) (frame (bs "joe" ++ [0]) ++ bs "mail") && endb 4 tr && openb tr &&
  negb (existsb (fun x => (x =? 65) || (x =? 67)) (got 7 tr)).
Theorem C95_truncation_refuted : exists tr s, runs (tls_phase 60 10 7 true (Z.to_nat 40) begin) tr (Fin (0, s)) /\ legal tr /\ always (engine_makes exP cutR never) tr /\
  sent 4 tr = frame (bs "joe" ++ [0]) ++ bs "mail" /\ closed 4 tr /\ ~ told 7 65 tr /\ ~ told 7 67 tr /\ unclosed tr.
Proof.
  destruct (follow_show _ cut (tls_phase 60 10 7 true (Z.to_nat 40) begin) cut_ok) as (tr & o & R & L & Q); [vm_compute; reflexivity|].
  unfold cut_ok in Q. rewrite !andb_true_iff in Q. destruct Q as [[[[[Q1 Q2] Q3] Q4] Q5] Q6]. destruct o as [[r s]| |]; try discriminate. assert (r = 0) by lia. subst r. apply same_true in Q3. apply negb_true_iff in Q6.
  assert (T : forall x, (x =? 65) || (x =? 67) = true -> ~ told 7 x tr). { intros x X I. assert (existsb (fun x => (x =? 65) || (x =? 67)) (got 7 tr) = true) by (apply existsb_exists; exists x; auto). congruence. }
  exists tr, s. split; auto. split; auto. split; [intros t1 e t2 E; apply (always_b_ok _ _ (makes_b_ok _ _) tr [] Q2 t1 e t2 E)|]. split; auto. split; [apply endb_ok; auto|]. split; [apply T; reflexivity|]. split; [apply T; reflexivity|apply openb_ok; auto].
Qed.
(** Nor does it mean that the peer has nothing more to say: once the program has closed its
    output, a peer that is silent for a moment is taken for one that has ended.  The peer goes on, and what it
    sends is read and not passed on. *)
Definition hasty : list ans :=
  [st 12; give (bs "joe@example.org"); ok 8; ok 4; ok 0; ready [3]; st 100; rd []; ok 0; ok 0;
   st 12; mkans 0 0 []; ok 0; ok 0; ok 0; ok 0; st 6; ready [0]; st 100; rd (bs "hellodata"); ok 0; ok 0;
   st 18; ok 0; ok 0; st 18; ready [7]; rd [66]].
Definition hastyR (t : trace) : list Z := if closing t then bs "BYE" else [].
Definition hasty_ok (tr : trace) (o : outcome (Z * tsess)) : bool :=
  match o with Fin (r, s) => r =? 0 | _ => false end && always_b (makes_b exP hastyR) [] tr && same (sent 4 tr) (frame (bs "joe" ++ [0])) && same (exP tr) (bs "mail") && endb 4 tr &&
  negb (existsb (fun x => (x =? 65) || (x =? 67)) (got 7 tr)) && same (got 0 tr) (bs "hellodata") && negb (endb 0 tr).
Theorem C95_silence_refuted : exists tr s, runs (tls_phase 60 10 7 true (Z.to_nat 40) begin) tr (Fin (0, s)) /\ legal tr /\ always (engine_makes exP hastyR never) tr /\
  sent 4 tr = frame (bs "joe" ++ [0]) /\ exP tr = bs "mail" /\ closed 4 tr /\ got 0 tr = bs "hellodata" /\ ~ closed 0 tr /\ ~ told 7 65 tr /\ ~ told 7 67 tr.
Proof.
  destruct (follow_show _ hasty (tls_phase 60 10 7 true (Z.to_nat 40) begin) hasty_ok) as (tr & o & R & L & Q); [vm_compute; reflexivity|].
  unfold hasty_ok in Q. rewrite !andb_true_iff in Q. destruct Q as [[[[[[[Q1 Q2] Q3] Q4] Q5] Q6] Q7] Q8]. destruct o as [[r s]| |]; try discriminate. assert (r = 0) by lia. subst r. apply same_true in Q3, Q4, Q7. apply negb_true_iff in Q6, Q8.
  assert (T : forall x, (x =? 65) || (x =? 67) = true -> ~ told 7 x tr). { intros x X I. assert (existsb (fun x => (x =? 65) || (x =? 67)) (got 7 tr) = true) by (apply existsb_exists; exists x; auto). congruence. }
  exists tr, s. split; auto. split; auto. split; [intros t1 e t2 E; apply (always_b_ok _ _ (makes_b_ok _ _) tr [] Q2 t1 e t2 E)|]. split; auto. split; auto. split; [apply endb_ok; auto|]. split; auto.
  split; [|split; apply T; reflexivity]. intros (a & I). assert (endb 0 tr = true) by (apply existsb_exists; exists (Close 0, a); auto). congruence.
Qed.
Print Assumptions C95_truncation_refuted. Print Assumptions C95_silence_refuted.
