(** The TLS phase: streams, closing, waiting, end. *)
From Verif.Model Require Import Base Sys Io Fdio Str Relay Session Tlsphase.
From Verif.Spec Require Import Stream Text Flow Starttls Tlsrelay.
From Verif.Proof Require Import Tac SysP PlayP WpP TcpP CurP TlsphaseP.

Section Phase.
Variables timeout finish pi po ci co self : Z.
Variables usercert reported0 : bool.
(** The buffers of the cleartext phase; this phase leaves them alone. *)
Variables b1 b2 : rbuf.
Variable fuel : nat.
Hypothesis SETUP : tls_setup pi po ci co self.
Variable tr : trace.
Variable o : outcome (Z * tsess).
Definition closed_as (f : Z) : Z := if f <? 0 then -1 else f.
Hypothesis RUN : runs (tls_phase timeout finish self usercert fuel (mkts (mksess pi po (closed_as ci) (closed_as co) (-1) (-1) b1 b2) false reported0)) tr o.
Hypothesis LEGAL : legal tr.
Let all : o <> Wrong /\ always (tok pi po ci co self usercert reported0) tr /\ (forall r, o = Fin r -> tstop pi po ci co self usercert reported0 b1 b2 tr (fst r) (snd r)).
Proof. apply (wp_run _ _ _ _ (wp_tls_phase timeout finish pi po ci co self usercert reported0 b1 b2 SETUP fuel) _ _ RUN LEGAL). Qed.
Lemma always_weaker : forall (P Q : trace -> event -> Prop) t, (forall t e, P t e -> Q t e) -> always P t -> always Q t.
Proof. intros P Q t I A t1 e t2 E. apply I. eapply A. exact E. Qed.

(** With an engine that keeps to its interface, the child is given the account record and then
    the plaintext, and the peer is given the records, in order and without gaps; without a name in the client
    certificate the child is given nothing if the name is to come from it. *)
Theorem C60_streams : forall P R, always (engine_ok P R) tr -> streams po ci usercert reported0 P R tr.
Proof.
  intros P R C. destruct all as (_ & A & _). destruct tr as [|e t _] using rev_ind; [split; [exists (record usercert reported0 [] ++ P); reflexivity|split; [exists R; reflexivity|intros X; destruct X; reflexivity]]|].
  destruct (A t e [] eq_refl) as (_ & _ & _ & _ & _ & _ & _ & H & _). auto.
Qed.
(** With any engine: it is handed what was read, nothing else and in order, and told of no byte
    that was not written. *)
Theorem C60_handing : o <> Wrong /\ handing pi po co tr /\ always (tls_moves pi po ci co reported0) tr.
Proof.
  destruct all as (W & A & _). split; auto. split; [|eapply always_weaker; [|exact A]; unfold tok; tauto].
  destruct tr as [|e t _] using rev_ind; [split; [exists []; reflexivity|]; split; [exists []; reflexivity|unfold len; cbn; lia]|].
  destruct (A t e [] eq_refl) as (_ & _ & _ & _ & _ & _ & H & _). auto.
Qed.
Theorem C61_notify : always (tls_notified ci co) tr.
Proof. destruct all as (_ & A & _). eapply always_weaker; [|exact A]. unfold tok. tauto. Qed.
Theorem C61_close : always usable tr /\ always (tls_close pi po ci co self) tr.
Proof. destruct all as (_ & A & _). split; (eapply always_weaker; [|exact A]); unfold tok; tauto. Qed.
Theorem C61_flow : always (tls_select pi po ci co self) tr /\ always (tls_serve pi po ci co self) tr.
Proof. destruct all as (_ & A & _). split; (eapply always_weaker; [|exact A]); unfold tok; tauto. Qed.
(** The end: exit code 111 or return. *)
Theorem C61_end : forall r s, o = Fin (r, s) ->
  (r = 111 /\ tls_died usercert reported0 tr) \/ (r = 0 /\ tls_over pi po ci co self tr).
Proof. intros r s E. destruct all as (_ & _ & F). destruct (F _ E) as (_ & _ & H). exact H. Qed.
(** Whatever signals arrive, the output of the child is waited for whenever the engine takes
    application data, as long as its end has not been seen and the timer has not expired. *)
Theorem C62_tls_output : always (fun t e => forall n rd wr, fst e = Select n rd wr None ->
  ~ gone co [] -> ~ eof co t -> ~ noroom (bs "tls_engine_sendapp_buf") t -> ~ told self 65 t -> Sendapp t -> ~ gone po t -> In co rd) tr.
Proof.
  intros t1 e t2 E n rd wr C NN NE NR NT SA NP. destruct all as (_ & A & _). pose proof (A t1 e t2 E) as (_ & _ & _ & _ & SE & _). unfold tls_select in SE. rewrite C in SE.
  destruct SE as [(X & _)|(_ & _ & _ & _ & _ & SE & _)]; [discriminate|]. apply SE. split; auto. split; auto.
  intros [G|(a & I)]; [apply NN; left; auto|]. apply in_split in I as (u1 & u2 & I).
  assert (E2 : tr = u1 ++ (Close co, a) :: (u2 ++ e :: t2)) by (rewrite E, I, <- app_assoc; reflexivity).
  pose proof (A _ _ _ E2) as (_ & CL & _). unfold tls_close in CL. cbn [fst] in CL.
  assert (R : eof co u1 \/ noroom (bs "tls_engine_sendapp_buf") u1 \/ told self 65 u1).
  { unfold tls_reason in CL. pose proof (m_co_pi _ _ _ _ _ SETUP). pose proof (m_co_po _ _ _ _ _ SETUP). pose proof (m_co_ci _ _ _ _ _ SETUP). tauto. }
  destruct R as [R|[R|R]].
  - apply NE. rewrite I. apply eof_app. auto.
  - apply NR. destruct R as (x & J & K). exists x. split; auto. rewrite I. apply in_or_app. auto.
  - apply NT. unfold told in *. rewrite I, got_app. apply in_or_app. auto.
Qed.
End Phase.
Print Assumptions C60_streams. Print Assumptions C60_handing. Print Assumptions C61_notify. Print Assumptions C61_close. Print Assumptions C61_flow. Print Assumptions C61_end.
Print Assumptions C62_tls_output.

(** ** A session *)
Definition buf0 : rbuf := mkrbuf [] 0.
Definition begin : tsess := mkts (mksess 0 1 4 3 (-1) (-1) buf0 buf0) false false.
Definition st (n : Z) : ans := mkans n 0 [].
Definition give (d : list Z) : ans := mkans 1 0 d.
(** Handshake: a record in, a record out in two pieces; then the account record, plaintext for
    the child, plaintext from the child, its end, the closing record. *)
Definition script : list ans :=
  [st 4; ready [0]; st 100; rd (bs "hello"); ok 0 (* ack *); ok 0 (* alarm *);
   st 6; ready [-2]; give (bs "HELLO"); ok 2; ok 0; st 2; ready [-2]; give (bs "LLO"); ok 3; ok 0;
   st 12; give (bs "joe@example.org"); ok 8; ok 4 (* account record *); ok 0; ready [0]; st 100; rd (bs "data"); ok 0; ok 0;
   st 28; ready [-5]; give (bs "mail"); ok 3; ok 0; st 28; ready [-5]; give (bs "l"); ok 1; ok 0;
   st 12; ready [3]; st 100; rd (bs "answer"); ok 0; ok 0; ok 0;
   st 14; ready [-2]; give (bs "ANSWER"); ok 6; ok 0;
   st 12; ready [3]; st 100; rd []; ok 0; ok 0;
   st 12; mkans 0 0 []; ok 0; ok 0; ok 0; ok 0; st 2; ready [-2]; give (bs "BYE"); ok 3; ok 0;
   st 1; ok 0; ok 0].
(** A checker for the interface of the engine *)
Fixpoint startsb (p l : list Z) : bool := match p, l with [] , _ => true | x :: p, y :: l => (x =? y) && startsb p l | _, [] => false end.
Lemma startsb_ok : forall p l, startsb p l = true -> exists u, l = p ++ u.
Proof. induction p as [|x p IH]; intros [|y l] H; cbn [startsb] in H; try discriminate; [exists []; auto|exists (y :: l); auto|]. apply andb_prop in H as [H1 H2]. destruct (IH l H2) as (u & ->). exists u. assert (x = y) by lia. subst. reflexivity. Qed.
Definition engine_b (P R : list Z) (t : trace) (e : event) : bool :=
  let (c, a) := e in
  (negb (namedb (bs "tls_engine_recvapp_buf") c) || startsb (data a) (skipn (Z.to_nat (acked (bs "tls_engine_recvapp_ack") t)) P)) &&
  (negb (namedb (bs "tls_engine_sendrec_buf") c) || startsb (data a) (skipn (Z.to_nat (acked (bs "tls_engine_sendrec_ack") t)) R)) &&
  (negb (namedb (bs "tls_engine_current_state") c) || negb (Z.testbit (ret a) 4) || Z.testbit (ret a) 3 ||
   existsb (fun e => namedb (bs "tls_engine_current_state") (fst e) && Z.testbit (ret (snd e)) 3) t).
Lemma engine_b_ok : forall P R t e, engine_b P R t e = true -> engine_ok P R t e.
Proof.
  intros P R t [c a] H. unfold engine_b in H. rewrite !andb_true_iff, !orb_true_iff, !negb_true_iff in H. destruct H as [[H1 H2] H3]. split; [|split].
  - intros C. apply namedb_called in C. destruct H1 as [H1|H1]; [congruence|apply startsb_ok; auto].
  - intros C. apply namedb_called in C. destruct H2 as [H2|H2]; [congruence|apply startsb_ok; auto].
  - intros C B. apply namedb_called in C. destruct H3 as [[[H3|H3]|H3]|H3]; try congruence; auto. right. apply existsb_exists in H3 as ([c' a'] & I & H3). apply andb_prop in H3 as [H3 H4]. exists c', a'. split; auto. split; auto. apply namedb_called. auto.
Qed.
Fixpoint always_b (f : trace -> event -> bool) (h t : trace) : bool := match t with [] => true | e :: t => f h e && always_b f (h ++ [e]) t end.
Lemma always_b_ok : forall f (OK : trace -> event -> Prop), (forall t e, f t e = true -> OK t e) -> forall t h, always_b f h t = true -> forall t1 e t2, t = t1 ++ e :: t2 -> OK (h ++ t1) e.
Proof.
  intros f OK I. induction t as [|x t IH]; intros h H t1 e t2 E; [destruct t1; discriminate|]. cbn [always_b] in H. apply andb_prop in H as [H1 H2].
  destruct t1 as [|y t1]; cbn [app] in E; injection E as -> ->; [rewrite app_nil_r; auto|]. specialize (IH _ H2 t1 e t2 eq_refl). rewrite <- app_assoc in IH. exact IH.
Qed.
Definition stream_ok (tr : trace) (o : outcome (Z * tsess)) : bool :=
  match o with Fin (r, s) => r =? 0 | _ => false end &&
  same (sent 1 tr) (bs "HELLOANSWERBYE") && same (sent 4 tr) (frame (bs "joe" ++ [0]) ++ bs "mail") && same (handed (bs "tls_engine_sendapp_ack") tr) (bs "answer") && same (handed (bs "tls_engine_recvrec_ack") tr) (bs "hellodata") &&
  always_b (engine_b (bs "mail") (bs "HELLOANSWERBYE")) [] tr.
Example ex_setup : tls_setup 0 1 4 3 7.
Proof. split; [repeat constructor; cbn; lia|]. lia. Qed.
Example ex_session : exists tr s, runs (tls_phase 60 10 7 true (Z.to_nat 40) begin) tr (Fin (0, s)) /\ legal tr /\
  sent 1 tr = bs "HELLOANSWERBYE" /\ sent 4 tr = frame (bs "joe" ++ [0]) ++ bs "mail" /\ handed (bs "tls_engine_sendapp_ack") tr = bs "answer" /\ handed (bs "tls_engine_recvrec_ack") tr = bs "hellodata" /\
  always (engine_ok (bs "mail") (bs "HELLOANSWERBYE")) tr.
Proof.
  destruct (follow_show _ script (tls_phase 60 10 7 true (Z.to_nat 40) begin) stream_ok) as (tr & o & R & L & Q); [vm_compute; reflexivity|].
  unfold stream_ok in Q. rewrite !andb_true_iff in Q. destruct Q as [[[[[Q1 Q2] Q3] Q4] Q5] Q6]. destruct o as [[r s]| |]; try discriminate. assert (r = 0) by lia. subst r.
  exists tr, s. split; auto. split; auto. split; [apply same_true; auto|]. split; [apply same_true; auto|]. split; [apply same_true; auto|]. split; [apply same_true; auto|].
  intros t1 e t2 E. apply (always_b_ok _ _ (engine_b_ok _ _) tr [] Q6 t1 e t2 E).
Qed.
(** Delayed encryption, the child has closed its output before: nothing is reported to it, its
    input is closed as soon as the peer is silent, and the shutdown starts. *)
Definition begin2 : tsess := mkts (mksess 0 1 4 (-1) (-1) (-1) buf0 buf0) false true.
Definition script2 : list ans := [st 4; mkans 0 0 []; ok 0; ok 0; ok 0; ok 0; st 6; ready [7]; rd [65]].
Definition over_ok (tr : trace) (o : outcome (Z * tsess)) : bool := match o with Fin (r, s) => (r =? 0) && same (sent 4 tr) [] && (childin (fds s) =? -1) | _ => false end.
Example ex_over : tls_setup 0 1 4 (-2) 7 /\ exists tr s, runs (tls_phase 60 10 7 true (Z.to_nat 40) begin2) tr (Fin (0, s)) /\ legal tr /\ sent 4 tr = [] /\ childin (fds s) = -1.
Proof.
  split; [split; [repeat constructor; cbn; lia|lia]|].
  destruct (follow_show _ script2 (tls_phase 60 10 7 true (Z.to_nat 40) begin2) over_ok) as (tr & o & R & L & Q); [vm_compute; reflexivity|].
  unfold over_ok in Q. destruct o as [[r s]| |]; try discriminate. rewrite !andb_true_iff in Q. destruct Q as [[Q1 Q2] Q3]. assert (r = 0) by lia. subst r. exists tr, s. split; auto. split; auto. split; [apply same_true; auto|lia].
Qed.

(** ** The order of account record and plaintext rests on the engine *)
(** The interface without its last clause: plaintext may be available before the state has ever
    allowed application data to be sent. *)
Definition engine_weak (P R : list Z) (t : trace) (e : event) : Prop :=
  let (c, a) := e in
  (called (bs "tls_engine_recvapp_buf") c -> exists u, skipn (Z.to_nat (acked (bs "tls_engine_recvapp_ack") t)) P = data a ++ u) /\
  (called (bs "tls_engine_sendrec_buf") c -> exists u, skipn (Z.to_nat (acked (bs "tls_engine_sendrec_ack") t)) R = data a ++ u).
Definition weak_b (P R : list Z) (t : trace) (e : event) : bool :=
  let (c, a) := e in
  (negb (namedb (bs "tls_engine_recvapp_buf") c) || startsb (data a) (skipn (Z.to_nat (acked (bs "tls_engine_recvapp_ack") t)) P)) &&
  (negb (namedb (bs "tls_engine_sendrec_buf") c) || startsb (data a) (skipn (Z.to_nat (acked (bs "tls_engine_sendrec_ack") t)) R)).
Lemma weak_b_ok : forall P R t e, weak_b P R t e = true -> engine_weak P R t e.
Proof.
  intros P R t [c a] H. unfold weak_b in H. rewrite !andb_true_iff, !orb_true_iff, !negb_true_iff in H. destruct H as [H1 H2]. split.
  - intros C. apply namedb_called in C. destruct H1 as [H1|H1]; [congruence|apply startsb_ok; auto].
  - intros C. apply namedb_called in C. destruct H2 as [H2|H2]; [congruence|apply startsb_ok; auto].
Qed.
(** The peer has finished its part of the handshake, the last record of the server does not go
    out yet: the first plaintext takes the place of the account record, and the peer has chosen
    the account. *)
Definition script3 : list ans := [st 16; ready [-5]; give (frame (bs "root" ++ [0])); ok 13; ok 0; st 1].
Definition early_ok (tr : trace) (o : outcome (Z * tsess)) : bool :=
  match o with Fin (r, s) => r =? 0 | _ => false end && same (sent 4 tr) (frame (bs "root" ++ [0])) && always_b (weak_b (frame (bs "root" ++ [0])) []) [] tr &&
  negb (existsb (fun e => namedb (bs "clientcrt") (fst e)) tr).
Theorem C60_streams_refuted : exists tr s P R, runs (tls_phase 60 10 7 true (Z.to_nat 40) begin) tr (Fin (0, s)) /\ legal tr /\ always (engine_weak P R) tr /\
  ~ streams 1 4 true false P R tr /\ sent 4 tr = frame (bs "root" ++ [0]).
Proof.
  destruct (follow_show _ script3 (tls_phase 60 10 7 true (Z.to_nat 40) begin) early_ok) as (tr & o & R & L & Q); [vm_compute; reflexivity|].
  unfold early_ok in Q. rewrite !andb_true_iff in Q. destruct Q as [[[Q1 Q2] Q3] Q4]. destruct o as [[r s]| |]; try discriminate. assert (r = 0) by lia. subst r. apply same_true in Q2.
  exists tr, s, (frame (bs "root" ++ [0])), []. split; auto. split; auto. split; [intros t1 e t2 E; apply (always_b_ok _ _ (weak_b_ok _ _) tr [] Q3 t1 e t2 E)|]. split; auto.
  intros [(u & S) _]. rewrite Q2 in S. unfold record, account in S. match type of S with context [find ?f tr] => destruct (find f tr) as [e|] eqn:FI end.
  - apply find_some in FI as [F1 F2]. apply negb_true_iff in Q4. assert (existsb (fun e => namedb (bs "clientcrt") (fst e)) tr = true) by (apply existsb_exists; exists e; auto). congruence.
  - discriminate S.
Qed.
Print Assumptions C60_streams_refuted.
