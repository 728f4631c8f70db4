(** C49-C55: the SMTP front end. *)
From Verif.Model Require Import Base Sys Buffer Stralloc Smtp.
From Verif.Spec Require Import Text Stream SmtpView.
From Verif.Proof Require Import Tac SysP SmtpIoP SmtpStP SmtpP SmtpSessP SmtpViewP SmtpFactsP PlayP.
From Verif.Spec Require Import SmtpSpec.

Section Claims.
Variable fuel : nat.
Variable c : cfg.
Variable g : setting.
Hypothesis SU : setup c g.

(** The exit status of an outcome. *)
Definition status (o : outcome Z) : option Z := match o with Fin x => Some x | _ => None end.
Lemma conf : forall tr o, runs (smtp fuel c) tr o -> fine tr -> o <> Wrong /\ conforms g tr (status o).
Proof. intros tr o R F. destruct (smtp_conforms fuel c g SU tr o R F) as (W & A & B). split; auto. destruct o; cbn [status]; auto. congruence. Qed.

(** Every run is a sequence of acts that follows the plan of the specification: what each
    client line leads to is given by [command] according to its verb, what a line of a
    message leads to by [body]. *)
Theorem C51_session : forall tr o, runs (smtp fuel c) tr o -> fine tr ->
  o <> Wrong /\ conforms g tr (status o).
Proof. exact conf. Qed.

Hypothesis D : distinct g.

Lemma acc : forall tr o, runs (smtp fuel c) tr o -> fine tr ->
  exists l P, account g tr l P /\ relays None (l ++ pact P) /\ bytes (got 0 tr) /\ (status o = Some 111 \/ status o = None \/ P = Finish).
Proof.
  intros tr o R F. destruct (conf tr o R F) as (_ & C). destruct (conforms_account g D _ _ C) as (l & P & A & X). exists l, P. split; auto. split.
  - destruct A as (A & _). eapply follows_relays; eauto. apply okp_start.
  - split; auto. destruct F as [F _]. clear - F. induction tr as [|[k a] tr IH]; [constructor|]. apply legal_cons in F as [F1 F2]. destruct k; cbn [got]; auto.
    destruct (fd =? 0); auto. apply Forall_app. split; [|exact (IH F2)]. cbn [sys_ok] in F1. destruct F1 as [(_ & ->)|(_ & _ & H)]; [constructor|auto].
Qed.

(** Each piece given to the program is a client line in its normal form, or RSET, or empty;
    the normal form ends in CR LF, at most one CR is dropped, no zero byte is left. *)
Theorem C49_lines : forall tr o, runs (smtp fuel c) tr o -> fine tr ->
  exists l P, account g tr l P /\ relays None (l ++ pact P) /\ ~ In 0 (sent (toprog g) tr) /\
    (forall b, In (AGive b) (l ++ pact P) \/ In (AQueue b) (l ++ pact P) -> b <> [] -> b <> bs "RSET" ++ [13; 10] ->
       exists x y, In (ALine x) l /\ len x <= 4096 /\ ~ In 10 x /\
         b = y ++ [13; 10] /\ (map (fun z => if z =? 0 then 10 else z) x = y \/ map (fun z => if z =? 0 then 10 else z) x = y ++ [13] )) /\
    (forall x, In (AFlood x) l -> islong x /\ P = Die /\ (exists l', l = l' ++ [AFlood x]) /\ (status o = Some 111 \/ status o = None)).
Proof.
  intros tr o R F. destruct (acc tr o R F) as (l & P & A & RL & B & X). exists l, P. split; auto. split; auto.
  destruct A as (FO & (r & TK) & PR & TE).
  assert (EA : forall b, In (AGive b) (l ++ pact P) \/ In (AQueue b) (l ++ pact P) -> b = [] \/ b = bs "RSET" ++ [13; 10] \/ exists x, b = norm x /\ In (ALine x) l).
  { intros b I. destruct (relays_each _ _ RL b I) as [E|[E|(x & E & [J|J])]]; auto; [|discriminate]. right. right. exists x. split; auto.
    apply in_app_or in J as [J|J]; auto. destruct P; cbn [pact In] in J; intuition discriminate. }
  split; [|split].
  - intros Z0. destruct PR as (q & PR). assert (I : In 0 (forwarded (l ++ pact P))) by (rewrite PR; apply in_or_app; auto). clear PR Z0.
    unfold forwarded in I. apply in_flat_map in I as (a & Ia & I0). destruct a; cbn [toprogram In] in I0; try contradiction.
    + destruct (EA b (or_introl Ia)) as [->|[->|(x & -> & J)]]; [destruct I0|cbn in I0; lia|]. eapply norm_nozero; [|exact I0]. eapply takes_bytes; eauto.
    + destruct (EA b (or_intror Ia)) as [->|[->|(x & -> & J)]]; [destruct I0|cbn in I0; lia|]. eapply norm_nozero; [|exact I0]. eapply takes_bytes; eauto.
  - intros b I N1 N2. destruct (EA b I) as [E|[E|(x & -> & J)]]; try contradiction. exists x, (chop 13 (map (fun z => if z =? 0 then 10 else z) x)).
    split; auto. apply in_split in J as (l1 & l2 & E). rewrite E in FO. apply follows_split in FO as (P1 & _ & FO). apply follows_cons in FO as (P2 & S & _).
    assert (len x <= 4096 /\ ~ In 10 x) as [H1 H2] by (inversion S; subst; auto). split; auto. split; auto. split; [reflexivity|]. destruct (chop_cases 13 (map (fun z => if z =? 0 then 10 else z) x)) as [Q|Q]; auto.
  - intros x I. destruct (flood_last _ _ _ _ _ FO I) as (-> & L & Q). split; auto. split; auto. split; auto. destruct X as [X|[X|X]]; auto. discriminate.
Qed.

(** A line without zero bytes is given to the program as one line. *)
Theorem C50_single_line : forall tr o, runs (smtp fuel c) tr o -> fine tr ->
  exists l P, account g tr l P /\ relays None (l ++ pact P) /\
    forall x, In (ALine x) l -> ~ In 0 x -> exists y, norm x = y ++ [13; 10] /\ ~ In 10 y.
Proof.
  intros tr o R F. destruct (acc tr o R F) as (l & P & A & RL & B & X). exists l, P. split; auto. split; auto. intros x I N0. destruct A as (FO & _).
  apply in_split in I as (l1 & l2 & ->). apply follows_split in FO as (P1 & _ & FO). apply follows_cons in FO as (P2 & S & _).
  assert (N : ~ In 10 x) by (inversion S; subst; auto). exists (chop 13 (map (fun z => if z =? 0 then 10 else z) x)). split; [reflexivity|].
  assert (map (fun z => if z =? 0 then 10 else z) x = x) as ->.
  { clear - N0. induction x as [|a x IH]; auto. cbn [map]. destruct (Z.eqb_spec a 0); [exfalso; apply N0; left; auto|]. f_equal. apply IH. intros Q. apply N0. right. auto. }
  intros Q. apply N. destruct (chop_cases 13 x) as [E|E]; [rewrite <- E; exact Q|rewrite E; apply in_or_app; auto].
Qed.

(** Limits.  [tally] lists the recipients recorded since the envelope was last cleared. *)
Theorem C52_limits : forall tr o, runs (smtp fuel c) tr o -> fine tr ->
  exists l P, account g tr l P /\ (status o = Some 111 \/ status o = None \/ P = Finish) /\
    (forall l1 l2, l = l1 ++ l2 -> within (tally [] None l1)) /\
    (forall l1 x l2, l = l1 ++ ALine x :: l2 -> awaits g l1 -> exceeds (tally [] None l1) x -> l2 = [] /\ P = Die) /\
    (forall l1 x l2, l = l1 ++ ALine x :: AGive (norm x) :: l2 -> awaits g l1 -> kindof (norm x) = Kmail ->
       beginsb (bs "mail from:") (norm x) = true -> len (addr 10 (norm x)) <= 2048).
Proof.
  intros tr o R F. destruct (acc tr o R F) as (l & P & A & RL & B & X). exists l, P. split; auto. split; auto. destruct A as (FO & _).
  split; [|split].
  - intros l1 l2 ->. apply follows_split in FO as (P1 & FO & _). eapply tally_within; eauto. apply carries_start.
  - intros l1 x l2 -> AW EX. eapply exceeded; eauto.
  - intros l1 x l2 -> AW K BE. destruct (Z.le_gt_cases (len (addr 10 (norm x))) 2048) as [|GT]; auto. exfalso.
    destruct (exceeded _ _ _ _ _ AW FO ltac:(left; auto)) as [E _]. discriminate.
Qed.

(** Greylisting. *)
Theorem C53_policy : forall tr o, runs (smtp fuel c) tr o -> fine tr ->
  exists l P, account g tr l P /\ (status o = Some 111 \/ status o = None \/ P = Finish) /\
    (* a RCPT line reaches the program only after the policy server was asked about the
       recorded sender and recipient, and did not object *)
    (forall l1 x m b l2, l ++ pact P = l1 ++ ALine x :: m ++ AGive b :: l2 -> awaits g l1 -> kindof (norm x) = Krcpt ->
       Forall (fun a => match a with ALine _ | AGive _ => False | _ => True end) m ->
       exists e e', follows g (start g) l1 (Loop e) /\ rcptenv e (norm x) = Some e' /\ b = norm x /\
         ((m = [] /\ (policy g = None \/ sender e' = None \/ rcpt e' = None)) \/
          exists f t, sender e' = Some f /\ rcpt e' = Some t /\ allowed g f t m)) /\
    (* an objection is shown to the client, the line is dropped *)
    (forall l1 x q r z l2, l = l1 ++ ALine x :: AAsk q :: AAnswer r :: l2 -> verdict r = Some z ->
       l2 = [] \/ exists l3, l2 = ATell (message g z) :: l3 /\ match l3 with [] | ALine _ :: _ | AFlood _ :: _ => True | _ => False end) /\
    (* failing closed: the session does not go on without a complete question and an answer *)
    (strict g = true -> Forall (fun a => match a with ANoAsk _ | ANoAnswer => False | _ => True end) l).
Proof.
  intros tr o R F. destruct (acc tr o R F) as (l & P & A & RL & B & X). exists l, P. split; auto. split; auto. destruct A as (FO & _). split; [|split].
  - intros l1 x m b l2 E AW K M. destruct (pact_follows g P) as (P2 & F2). pose proof (follows_app _ _ _ _ _ _ FO F2) as F3. rewrite E in F3. eapply rcpt_forwarded; eauto.
  - intros l1 x q r z l2 -> V. eapply rcpt_denied; eauto.
  - intros S. eapply strict_acts; eauto.
Qed.

(** STARTTLS.  After the drain the client bytes used are those read after it, nothing being
    left over; the last read of the drain found nothing; the envelope is empty. *)
Theorem C54_discard : forall tr o, runs (smtp fuel c) tr o -> fine tr ->
  exists t1 t2 l v P, core tr = t1 ++ t2 /\ story g view0 t1 l v /\ follows g (start g) l P /\
    forall l1 l2, l = l1 ++ ADrain :: l2 ->
      exists ta td tb, t1 = ta ++ td ++ tb /\
        (exists td' n a e, td = td' ++ [(Read 0 n, a); e] /\ (ret a = 0 \/ (ret a = -1 /\ err a = EAGAIN))) /\
        (exists r, takes l1 (got 0 ta) r) /\ (exists r, takes l2 (got 0 tb) r) /\
        (l2 = [] \/ (exists y, y <> 0 /\ l2 = [AAck y] /\ P = Die) \/ l2 = [AAck 0] \/ l2 = [AAck 0; AGive (bs "RSET" ++ [13; 10])] \/
         (exists x, l2 = [AAck 0; AGive (bs "RSET" ++ [13; 10]); ARFlood x] /\ P = Die) \/
         (exists h d t l3, l2 = AAck 0 :: AGive (bs "RSET" ++ [13; 10]) :: AReply h d t :: l3 /\ follows g (Loop env0) l3 P)).
Proof.
  intros tr o R F. destruct (conf tr o R F) as (_ & (t1 & t2 & l & v & P & C & S & FO & _)). exists t1, t2, l, v, P. split; auto. split; auto. split; auto.
  intros l1 l2 ->.
  assert (SP : forall v t l1 l2 v', story g v t (l1 ++ l2) v' -> exists ta tb w, t = ta ++ tb /\ story g v ta l1 w /\ story g w tb l2 v').
  { clear. intros v t l1. revert v t. induction l1 as [|a l1 IH]; intros v t l2 v' H; [exists [], t, v; split; auto; split; auto; constructor|]. cbn [app] in H. inversion H; subst.
    destruct (IH _ _ _ _ H6) as (ta & tb & w & -> & A & B). exists (t1 ++ ta), tb, w. rewrite app_assoc. split; auto. split; auto. econstructor; eauto. }
  destruct (SP _ _ _ _ _ S) as (ta & tx & w & -> & S1 & S2). inversion S2 as [|v0 a td w1 l0 tb v2 DO S3]; subst. exists ta, td, tb. split; auto.
  pose proof (story_client g D _ _ _ _ S1) as K1. pose proof (story_client g D _ _ _ _ S3) as K2. cbn [does] in DO. destruct DO as ((e1 & w2 & e2 & n & a & -> & _ & _ & RE & _) & CU & _). rewrite CU in K2.
  split; [exists (e1 :: w2), n, a, e2; split; auto|]. split; [eexists; exact K1|]. split; [eexists; exact K2|]. eapply after_drain; eauto.
Qed.
(** The way to the drain. *)
Theorem C54_request : forall tr o, runs (smtp fuel c) tr o -> fine tr ->
  exists l P, account g tr l P /\
    forall l1 x l2, l = l1 ++ ALine x :: l2 -> awaits g l1 -> kindof (norm x) = Kstarttls ->
      let yes := [AProbe true; ATell (message g (bs "220 ready to start TLS (#2.0.0)")); ARaise; ADrain] in
      (exists n, l2 = firstn n yes) \/ (exists l3, l2 = yes ++ l3) \/ l2 = [AProbe false] \/
      exists l3, l2 = AProbe false :: ATell (message g (bs "502 unimplemented (#5.5.1)")) :: l3.
Proof.
  intros tr o R F. destruct (acc tr o R F) as (l & P & A & _). exists l, P. split; auto. destruct A as (FO & _). intros l1 x l2 -> AW K. eapply starttls_acts; eauto.
Qed.

(** Message data. *)
Theorem C55_message : forall tr o, runs (smtp fuel c) tr o -> fine tr ->
  exists l P, account g tr l P /\
    forall l1 y b h d t m l2, l = l1 ++ ALine y :: AGive b :: AReply h d t :: ATell m :: l2 -> awaits g l1 -> kindof (norm y) = Kdata -> code h = 354 ->
      exists xs r, l2 = conveyed xs ++ r /\ Forall (fun x => x <> [46] /\ x <> [46; 13]) xs /\
        (r = [] \/ (exists x, r = [ALine x]) \/ (exists x, r = [AFlood x] /\ P = Die) \/
         exists x r', (x = [46] \/ x = [46; 13]) /\ r = ALine x :: AQueue (norm x) :: r' /\
           (r' = [] \/ r' = [AGive []] \/ (exists z, r' = [AGive []; ARFlood z] /\ P = Die) \/ (exists h d t, r' = [AGive []; AReply h d t]) \/
            exists h d t r2, r' = AGive [] :: AReply h d t :: ATell (shown (tag g (h ++ d :: t))) :: r2 /\ follows g (Loop env0) r2 P)).
Proof.
  intros tr o R F. destruct (acc tr o R F) as (l & P & A & RL & _). exists l, P. split; auto. destruct A as (FO & _). intros l1 y b h d t m l2 -> AW K C.
  destruct (data_acts _ _ _ _ _ _ _ _ _ _ FO AW K) as (-> & -> & e & H1 & _). specialize (H1 C). destruct (body_acts _ _ _ _ H1) as (xs & r & -> & NX & CASES).
  assert (NLF : forall x, In (ALine x) (conveyed xs ++ r) -> ~ In 10 x).
  { intros x I. apply in_split in I as (q1 & q2 & E). rewrite E in H1. apply follows_split in H1 as (Q & _ & H1). apply follows_cons in H1 as (Q2 & S & _). inversion S; subst; auto. }
  exists xs, r. split; auto. split.
  - apply Forall_forall. intros x I. assert (~ In 10 x) by (apply NLF; apply in_or_app; left; unfold conveyed; apply in_flat_map; exists x; split; auto; left; auto).
    rewrite Forall_forall in NX. specialize (NX x I). pose proof (dotted_iff x H) as [_ DI]. split; intros ->; rewrite DI in NX by auto; discriminate.
  - destruct CASES as [E|[E|[E|(x & r' & DX & -> & E)]]]; auto. right. right. right. exists x, r'. split; auto. apply dotted_iff; auto. apply NLF. apply in_or_app. right. left. reflexivity.
Qed.
End Claims.
Print Assumptions C51_session. Print Assumptions C49_lines. Print Assumptions C50_single_line. Print Assumptions C52_limits.
Print Assumptions C53_policy. Print Assumptions C54_discard. Print Assumptions C54_request. Print Assumptions C55_message.

(** ** Verbs *)
Lemma beginsb_iff : forall p x, beginsb p x = true <-> begins p x.
Proof.
  induction p as [|a p IH]; intros [|b x]; unfold beginsb, begins; cbn [map].
  - split; auto. intros _. exists []. reflexivity.
  - split; auto. intros _. exists (lower b :: map lower x). reflexivity.
  - split; [discriminate|]. intros (r & E). discriminate.
  - specialize (IH x). unfold beginsb, begins in IH. cbn [length combine forallb Nat.leb]. split.
    + intros H. apply andb_prop in H as [H1 H2]. apply andb_prop in H2 as [H2 H3]. apply Z.eqb_eq in H2. destruct IH as [IH _]. rewrite H1, H3 in IH. destruct (IH eq_refl) as (r & ->). exists r. rewrite H2. reflexivity.
    + intros (r & E). cbn [app] in E. injection E as E1 E2. destruct IH as [_ IH]. rewrite E1, Z.eqb_refl. cbn [andb]. apply IH. exists r. auto.
Qed.
(** What decides about a line: its verb, ignoring case, is the beginning of a known verb.
    An empty verb counts as QUIT; otherwise at most one known verb qualifies. *)
Theorem C51_verbs : forall y,
  (kindof y = Kquit <-> begins (verb y) (bs "quit")) /\
  (kindof y = Kdata <-> verb y <> [] /\ begins (verb y) (bs "data")) /\
  (kindof y = Kmail <-> verb y <> [] /\ begins (verb y) (bs "mail")) /\
  (kindof y = Krcpt <-> verb y <> [] /\ begins (verb y) (bs "rcpt")) /\
  (kindof y = Kehlo <-> verb y <> [] /\ begins (verb y) (bs "ehlo")) /\
  (kindof y = Kstarttls <-> verb y <> [] /\ begins (verb y) (bs "starttls")).
Proof.
  intros y. unfold kindof. rewrite <- !beginsb_iff. destruct (verb y) as [|a w]; [cbn; intuition discriminate|].
  destruct (beginsb (a :: w) (bs "quit")) eqn:Q1, (beginsb (a :: w) (bs "data")) eqn:Q2, (beginsb (a :: w) (bs "mail")) eqn:Q3,
    (beginsb (a :: w) (bs "rcpt")) eqn:Q4, (beginsb (a :: w) (bs "ehlo")) eqn:Q5, (beginsb (a :: w) (bs "starttls")) eqn:Q6; try (intuition discriminate);
  exfalso; rewrite !beginsb_iff in *;
  repeat match goal with H : begins _ _ |- _ => destruct H as (? & H); cbn [map app] in H; injection H as ? ? end; 
  repeat match goal with H : ?n = lower a |- _ => revert H end; cbn; intros; congruence.
Qed.
Print Assumptions C51_verbs.
Example ex_verb1 : kindof (norm (bs "rcpt to:<a@b>" ++ [13])) = Krcpt. Proof. reflexivity. Qed.
Example ex_verb2 : kindof (norm (bs "NOOP" ++ [13])) = Kother. Proof. reflexivity. Qed.

(** ** Concrete sessions *)
Definition crlf (x : list Z) : list Z := x ++ [13; 10].
(** Policy server on descriptor 7 (or none), program on 9 and 8. *)
Definition c1 (p : Z) (f : bool) : cfg := mkcfg 60 None (bs "192.0.2.1" ++ [0]) p f true 77 9 8.
Definition g1 (p : option Z) (f : bool) : setting := mkset None (bs "192.0.2.1") p f true 77 9 8 60.
Lemma setup1 : forall f, setup (c1 7 f) (g1 (Some 7) f).
Proof.
  intros f. unfold setup, fdok. cbn [crw patience logid c1 g1 id ipstr ip policy greyfd failclosed strict starttls offers child pid fromfd fromprog tofd toprog].
  repeat split; try lia; try (vm_compute; discriminate).
  - exists []. reflexivity.
  - repeat constructor.
Qed.
Example ex_setup : setup (c1 7 true) (g1 (Some 7) true) /\ distinct (g1 (Some 7) true).
Proof. split; [apply setup1|]. unfold distinct, gfd. cbn. intuition lia. Qed.

Definition budget : nat := Z.to_nat 5000.
Definition steps : nat := Z.to_nat 2000.
Definition hello : list (list Z) := [crlf (bs "220 hi")].
Definition show (client prog pol : list (list Z)) (f : bool) (Q : trace -> outcome Z -> bool) : bool :=
  let '(tr, o) := play steps [(0, client); (9, prog); (7, pol); (6, [[0]])] (smtp budget (c1 7 f)) in forallb sys_okb tr && forallb clock_okb tr && Q tr o.
Lemma shown_run : forall client prog pol f Q, show client prog pol f Q = true -> exists tr o, runs (smtp budget (c1 7 f)) tr o /\ fine tr /\ Q tr o = true.
Proof. intros client pr pol f Q H. exact (play_show Z steps _ (smtp budget (c1 7 f)) Q H). Qed.
(** The bytes given by the client, to program, client and policy server, and the status. *)
Definition saw (b0 b8 b1 b7 : list Z) (x : Z) (tr : trace) (o : outcome Z) : bool :=
  same (got 0 tr) b0 && same (sent 8 tr) b8 && same (sent 1 tr) b1 && same (sent 7 tr) b7 && exits x o.
Definition seen (f : bool) (b0 b8 b1 b7 : list Z) (x : Z) : Prop :=
  exists tr, runs (smtp budget (c1 7 f)) tr (Fin x) /\ fine tr /\ got 0 tr = b0 /\ sent 8 tr = b8 /\ sent 1 tr = b1 /\ sent 7 tr = b7.
Lemma seen_by : forall client prog pol f b0 b8 b1 b7 x, show client prog pol f (saw b0 b8 b1 b7 x) = true -> seen f b0 b8 b1 b7 x.
Proof.
  intros client prog pol f b0 b8 b1 b7 x H. destruct (shown_run _ _ _ _ _ H) as (tr & o & R & F & Q). unfold saw in Q.
  apply andb_prop in Q as [Q X]. apply andb_prop in Q as [Q Q4]. apply andb_prop in Q as [Q Q3]. apply andb_prop in Q as [Q1 Q2].
  apply exits_true in X. subst o. exists tr. split; auto. split; auto. split; [apply same_true; auto|]. split; [apply same_true; auto|]. split; apply same_true; auto.
Qed.
Ltac seen_now cl pr po := apply (seen_by cl pr po); vm_compute; reflexivity.

(** An ordinary session: EHLO, MAIL, RCPT (allowed), DATA, a message, QUIT. *)
Example ex_session :
  let cl := [crlf (bs "EHLO a"); crlf (bs "MAIL FROM:<s@a>"); crlf (bs "RCPT TO:<t@b>"); crlf (bs "DATA"); crlf (bs "hello") ++ crlf (bs "."); crlf (bs "QUIT")] in
  seen true (concat cl) (concat cl)
    (crlf (bs "220 hi") ++ crlf (bs "250-hi") ++ crlf (bs "250 STARTTLS") ++ crlf (bs "250 ok") ++ crlf (bs "250 ok") ++ crlf (bs "354 go") ++ crlf (bs "250 queued") ++ crlf (bs "221 bye"))
    (bs "request=smtpd_access_policy" ++ [10] ++ bs "client_address=192.0.2.1" ++ [10] ++ bs "sender=<s@a>" ++ [10] ++ bs "recipient=<t@b>" ++ [10; 10]) 0.
Proof.
  intros cl. seen_now cl (hello ++ [crlf (bs "250 hi"); crlf (bs "250 ok"); crlf (bs "250 ok"); crlf (bs "354 go"); crlf (bs "250 queued"); crlf (bs "221 bye")]) [bs "action=dunno" ++ [10; 10]].
Qed.
(** A deferred recipient, then the end of the connection. *)
Example ex_defer :
  seen true (crlf (bs "MAIL FROM:<s@a>") ++ crlf (bs "RCPT TO:<t@b>")) (crlf (bs "MAIL FROM:<s@a>"))
    (crlf (bs "220 hi") ++ crlf (bs "250 ok") ++ crlf (bs "450 greylisted (#4.3.0)"))
    (bs "request=smtpd_access_policy" ++ [10] ++ bs "client_address=192.0.2.1" ++ [10] ++ bs "sender=<s@a>" ++ [10] ++ bs "recipient=<t@b>" ++ [10; 10]) 111.
Proof. seen_now [crlf (bs "MAIL FROM:<s@a>"); crlf (bs "RCPT TO:<t@b>")] (hello ++ [crlf (bs "250 ok")]) [bs "action=defer_if_permit" ++ [10; 10]]. Qed.
(** STARTTLS with commands pipelined behind it: they are dropped, RSET is sent, the commands
    arriving later are obeyed. *)
Example ex_starttls :
  seen true (crlf (bs "STARTTLS") ++ crlf (bs "MAIL FROM:<x@x>") ++ crlf (bs "NOOP") ++ crlf (bs "QUIT")) (crlf (bs "RSET") ++ crlf (bs "QUIT"))
    (crlf (bs "220 hi") ++ crlf (bs "220 ready to start TLS (#2.0.0)") ++ crlf (bs "221 bye")) [] 0.
Proof.
  seen_now [crlf (bs "STARTTLS") ++ crlf (bs "MAIL FROM:<x@x>"); crlf (bs "NOOP"); []; crlf (bs "QUIT")] (hello ++ [crlf (bs "250 reset"); crlf (bs "221 bye")]) (@nil (list Z)).
Qed.

(** ** Claims that do not hold *)

(** "Each forwarded command is a single line": a zero byte becomes LF. *)
Theorem C50_single_line_refuted : exists x, ~ In 10 x /\ seen true (crlf x) (crlf (bs "NOOP" ++ [10] ++ bs "RCPT TO:<t@b>")) (crlf (bs "220 hi") ++ crlf (bs "250 ok")) [] 111.
Proof.
  exists (bs "NOOP" ++ [0] ++ bs "RCPT TO:<t@b>"). split; [cbn; lia|]. seen_now [crlf (bs "NOOP" ++ [0] ++ bs "RCPT TO:<t@b>")] (hello ++ [crlf (bs "250 ok")]) (@nil (list Z)).
Qed.
(** "Only known verbs are intercepted": an empty line ends the session like QUIT (the
    process exits with the status of the program; end of input would give 111). *)
Theorem C51_exact_verb_refuted : exists x, x <> bs "quit" /\ seen true (crlf x) (crlf x) (crlf (bs "220 hi") ++ crlf (bs "500 what")) [] 0.
Proof. exists []. split; [discriminate|]. seen_now [crlf []] (hello ++ [crlf (bs "500 what")]) (@nil (list Z)). Qed.
(** "Exceeding a limit yields an error reply": the process exits without a reply. *)
Theorem C52_error_reply_refuted : exists a, len a = 2049 /\ ~ In 32 a /\ seen true (crlf (bs "MAIL FROM:" ++ a)) [] (crlf (bs "220 hi")) [] 111.
Proof.
  exists (repeat 97 (Z.to_nat 2049)). split; [reflexivity|]. split; [intros I; apply repeat_spec in I; discriminate|].
  seen_now [crlf (bs "MAIL FROM:" ++ repeat 97 (Z.to_nat 2049))] hello (@nil (list Z)).
Qed.
(** "RSET clears the recorded envelope": the sender is still there for the policy server. *)
Theorem C52_rset_refuted : seen true (crlf (bs "MAIL FROM:<s@a>") ++ crlf (bs "RSET") ++ crlf (bs "RCPT TO:<t@b>")) (crlf (bs "MAIL FROM:<s@a>") ++ crlf (bs "RSET"))
    (crlf (bs "220 hi") ++ crlf (bs "250 ok") ++ crlf (bs "250 ok") ++ crlf (bs "450 greylisted (#4.3.0)"))
    (bs "request=smtpd_access_policy" ++ [10] ++ bs "client_address=192.0.2.1" ++ [10] ++ bs "sender=<s@a>" ++ [10] ++ bs "recipient=<t@b>" ++ [10; 10]) 111.
Proof. seen_now [crlf (bs "MAIL FROM:<s@a>"); crlf (bs "RSET"); crlf (bs "RCPT TO:<t@b>")] (hello ++ [crlf (bs "250 ok"); crlf (bs "250 ok")]) [bs "action=defer" ++ [10; 10]]. Qed.
(** "With greylisting every recipient is decided by the policy server": with two spaces the
    policy server (which would refuse) is not asked, although the mode is fail-closed. *)
Theorem C53_every_recipient_refuted : exists x, kindof (norm x) = Krcpt /\
  seen true (crlf (bs "MAIL FROM:<s@a>") ++ crlf x) (crlf (bs "MAIL FROM:<s@a>") ++ crlf x) (crlf (bs "220 hi") ++ crlf (bs "250 ok") ++ crlf (bs "250 ok")) [] 111.
Proof. exists (bs "RCPT  TO:<t@b>"). split; [reflexivity|]. seen_now [crlf (bs "MAIL FROM:<s@a>"); crlf (bs "RCPT  TO:<t@b>")] (hello ++ [crlf (bs "250 ok"); crlf (bs "250 ok")]) [bs "action=reject" ++ [10; 10]]. Qed.
(** "Failing closed": an answer of 4097 bytes without LF lets the recipient through. *)
Theorem C53_fail_closed_refuted : exists tr, runs (smtp budget (c1 7 true)) tr (Fin 111) /\ fine tr /\
  sent 8 tr = crlf (bs "MAIL FROM:<s@a>") ++ crlf (bs "RCPT TO:<t@b>") /\ prefix (bs "action=reject") (got 7 tr) /\ ~ In 10 (got 7 tr).
Proof.
  destruct (shown_run [crlf (bs "MAIL FROM:<s@a>"); crlf (bs "RCPT TO:<t@b>")] (hello ++ [crlf (bs "250 ok"); crlf (bs "250 ok")]) [bs "action=reject" ++ repeat 97 (Z.to_nat 4200)] true
    (fun tr o => exits 111 o && same (sent 8 tr) (crlf (bs "MAIL FROM:<s@a>") ++ crlf (bs "RCPT TO:<t@b>")) && same (firstn 13 (got 7 tr)) (bs "action=reject") && negb (existsb (Z.eqb 10) (got 7 tr)))) as (tr & o & R & F & Q).
  { vm_compute. reflexivity. }
  apply andb_prop in Q as [Q Q4]. apply andb_prop in Q as [Q Q3]. apply andb_prop in Q as [Q1 Q2]. apply exits_true in Q1. subst o. exists tr. split; auto. split; auto. split; [apply same_true; auto|]. split.
  - exists (skipn 13 (got 7 tr)). rewrite <- (same_true _ _ Q3). symmetry. apply firstn_skipn.
  - intros I. apply negb_true_iff in Q4. assert (existsb (Z.eqb 10) (got 7 tr) = true) by (apply existsb_exists; exists 10; split; auto). congruence.
Qed.
(** "Message data is unmodified up to line ends": one line of the message becomes two, the
    second one a lone dot, while the session is still inside the message (the next line is
    forwarded as message data and no reply is awaited). *)
Theorem C55_unmodified_refuted : exists x, ~ In 10 x /\ x <> [46] /\ x <> [46; 13] /\
  seen true (crlf (bs "DATA") ++ crlf x ++ crlf (bs "MAIL FROM:<s@a>") ++ crlf (bs "."))
    (crlf (bs "DATA") ++ (bs "a" ++ [10] ++ crlf (bs ".")) ++ crlf (bs "MAIL FROM:<s@a>") ++ crlf (bs "."))
    (crlf (bs "220 hi") ++ crlf (bs "354 go") ++ crlf (bs "250 queued")) [] 111.
Proof.
  exists (bs "a" ++ [0] ++ bs "."). split; [cbn; lia|]. split; [discriminate|]. split; [discriminate|].
  seen_now [crlf (bs "DATA"); crlf (bs "a" ++ [0] ++ bs ".") ++ crlf (bs "MAIL FROM:<s@a>") ++ crlf (bs ".")] (hello ++ [crlf (bs "354 go"); crlf (bs "250 queued")]) (@nil (list Z)).
Qed.
Print Assumptions C50_single_line_refuted. Print Assumptions C51_exact_verb_refuted. Print Assumptions C52_error_reply_refuted. Print Assumptions C52_rset_refuted.
Print Assumptions C53_every_recipient_refuted. Print Assumptions C53_fail_closed_refuted. Print Assumptions C55_unmodified_refuted.
