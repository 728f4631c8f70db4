(** C103: which client tlswrapper-smtp names to the policy server, when tlswrapper executes it. *)
From Coq Require Import Permutation.
From Verif.Model Require Import Base Sys Io Str Buffer Inet InetIsc Config Parsenum Fdio Relay Session Tlsphase Jail Pem Keyjail Proxy Conninfo Options Conn Resolve Main Getopt Lookup Tcpmain Smtpmain.
From Verif.Spec Require Import Text Num Ip Stream Settings Cmdline Words Proxy Flow Restrict Process Fdtable Endpoints Tlsrelay Program Resolver Descriptors Forward Server Attempt SmtpSpec SmtpView Mailer.
From Verif.Proof Require Import Tac SysP CallsP StrP IoP ConfigP OptionsP PlayP PerformP SafeP ForwardP SmtpIoP SmtpStP SmtpP SmtpViewP.
From Verif.Props Require Import PropJail PropOptions PropCommands PropConninfo PropTcpmain PropForward PropSmtp PropSmtpmain PropMailer PropChain PropTlsphase PropMain PropDesc PropProgram PropChainMain PropThrough PropAnswer.

(** The question of a client with the address text [a] about a sender and a recipient. *)
Definition question (a f t : list Z) : list Z :=
  bs "request=smtpd_access_policy" ++ [10] ++ bs "client_address=" ++ a ++ [10] ++ bs "sender=" ++ f ++ [10] ++ bs "recipient=" ++ t ++ [10; 10].
Definition oneline (x : list Z) : Prop := ~ In 10 x.
(** [b] consists of questions; the last may be unfinished, others only if [open].  If [plain], sender and recipient have no
    line ends, so that the only line about the client's address is the one with [a]. *)
Definition questions (plain : Prop) (open : bool) (a b : list Z) : Prop :=
  exists qs r, b = concat qs ++ r /\ (exists f t, (plain -> oneline f /\ oneline t) /\ is_prefix r (question a f t)) /\
    Forall (fun q => exists f t, (plain -> oneline f /\ oneline t) /\ (q = question a f t \/ (open = true /\ is_prefix q (question a f t)))) qs.

Lemma mem_out : forall x L, mem x L = false -> ~ In x L.
Proof. intros x L M IN. assert (mem x L = true) by (apply existsb_exists; exists x; split; [exact IN|apply Z.eqb_refl]). congruence. Qed.
Lemma opens_nodup : forall L fd L', NoDup L -> opens L fd = Some L' -> NoDup L'.
Proof.
  intros L fd L' N E. unfold opens in E. destruct (fd =? -1); [injection E as <-; exact N|]. destruct (0 <=? fd); [|discriminate]. cbn [andb] in E. destruct (mem fd L) eqn:M; [discriminate|]. injection E as <-.
  constructor; [apply mem_out; exact M|exact N].
Qed.
Lemma opens2_nodup : forall L a L', NoDup L -> opens2 L a = Some L' -> NoDup L'.
Proof.
  intros L a L' N E. unfold opens2 in E. destruct (ret a =? -1); [injection E as <-; exact N|]. cbv zeta in E.
  destruct ((0 <=? nth 0 (data a) 0) && negb (mem (nth 0 (data a) 0) L) && (0 <=? nth 1 (data a) 0) && negb (mem (nth 1 (data a) 0) (nth 0 (data a) 0 :: L))) eqn:M; [|discriminate]. injection E as <-.
  rewrite !andb_true_iff, !negb_true_iff in M. destruct M as [[[_ M1] _] M2]. constructor; [apply mem_out; exact M2|constructor; [apply mem_out; exact M1|exact N]].
Qed.
Lemma fdrun_nodup : forall tr L L', NoDup L -> fdrun L tr = Some L' -> NoDup L'.
Proof.
  induction tr as [|e tr IH]; intros L L' N E; cbn [fdrun] in E; [injection E as <-; exact N|]. destruct (fd1 L e) as [L1|] eqn:F; [|discriminate]. apply (IH L1); [|exact E].
  unfold fd1 in F. destruct (fst e); try (injection F as <-; exact N).
  - injection F as <-. apply NoDup_filter. exact N.
  - destruct (named name (bs "socket") || named name (bs "dup")); [eapply opens_nodup; eauto|]. destruct (named name (bs "pipe") || named name (bs "socketpair")); [eapply opens2_nodup; eauto|]. injection F as <-. exact N.
Qed.

(** ** The stream of a session to the policy server *)
Section Stream.
Import Verif.Spec.SmtpSpec Verif.Spec.SmtpView Verif.Proof.SmtpViewP.
Variable g : setting.
Variable plain : Prop.
Notation ask := (question (ip g)).
(** no line end in the envelope *)
Definition clean (e : env) : Prop := plain -> (forall f, sender e = Some f -> oneline f) /\ (forall t, rcpt e = Some t -> oneline t).
Lemma clean0 : clean env0.
Proof. intros _. split; intros f E; discriminate. Qed.
Lemma in_chop : forall c b x, In b (chop c x) -> In b x.
Proof. intros c b x IN. destruct (chop_cases c x) as [E|E]; [rewrite E in IN; exact IN|rewrite E; apply in_or_app; auto]. Qed.
Lemma in_until : forall f b x, In b (until f x) -> In b x.
Proof. intros f b x IN. destruct (until_app f x) as (r & E). rewrite E. apply in_or_app. auto. Qed.
Lemma addr_clean : forall n x, ~ In 10 x -> ~ In 0 x -> oneline (addr n (norm x)).
Proof.
  intros n x NL NZ IN. unfold addr in IN. apply in_until, in_chop in IN. unfold norm in IN. set (z := chop 13 (map (fun b => if b =? 0 then 10 else b) x)) in IN.
  assert (N : ~ In 10 (z ++ [13])).
  { intros X. apply in_app_or in X as [X|[X|[]]]; [|discriminate]. apply in_chop, in_map_iff in X as (b & E & X). destruct (Z.eqb_spec b 0); [subst b; auto|subst b; auto]. }
  replace (z ++ [13; 10]) with ((z ++ [13]) ++ [10]) in IN by (rewrite <- app_assoc; reflexivity). rewrite skipn_app in IN.
  assert (Y : forall y, In y (skipn n (z ++ [13])) -> In y (z ++ [13])) by (intros y Y; rewrite <- (firstn_skipn n (z ++ [13])); apply in_or_app; auto).
  destruct (n - length (z ++ [13%Z]))%nat as [|k].
  - cbn [skipn] in IN. rewrite chop_snoc in IN. cbn in IN. auto.
  - replace (skipn (S k) [10]) with (@nil Z) in IN by (cbn [skipn]; destruct k; reflexivity). rewrite app_nil_r in IN. apply in_chop in IN. auto.
Qed.
(** the plan asks nothing else *)
Inductive asks : plan -> Prop :=
| a_loop : forall e, clean e -> asks (Loop e)
| a_body : forall e, clean e -> asks (Body e)
| a_give : forall b p, asks p -> asks (Give b p)
| a_queue : forall b p, asks p -> asks (Queue b p)
| a_tell : forall b p, asks p -> asks (Tell b p)
| a_reply : forall k, (forall h d t, asks (k h d t)) -> asks (Reply k)
| a_probe : forall k, (forall r, asks (k r)) -> asks (Probe k)
| a_ask : forall f t k, (plain -> oneline f /\ oneline t) -> (forall r, asks (k r)) -> asks (Ask (ask f t) k)
| a_await : forall k, (forall r, asks (k r)) -> asks (Await k)
| a_raise : forall p, asks p -> asks (Raise p)
| a_drain : forall p, asks p -> asks (Drain p)
| a_ack : forall p, asks p -> asks (Ack p)
| a_die : asks Die
| a_finish : asks Finish.
Lemma asks_pass : forall y k, (forall h, asks (k h)) -> asks (pass g y k).
Proof. intros. unfold pass. apply a_give, a_reply. intros. apply a_tell. auto. Qed.
Lemma asks_command : forall e x, clean e -> ~ In 10 x -> (plain -> ~ In 0 x) -> asks (command g e x).
Proof.
  intros e x CE NL NZ. pose proof clean0 as C0. unfold command. destruct (kindof (norm x)).
  - apply asks_pass. constructor.
  - apply asks_pass. intros h. destruct (SmtpSpec.code h =? 354); constructor; exact CE.
  - unfold mail. destruct (beginsb _ _); [destruct (_ <? _); [constructor|]|]; apply asks_pass; constructor; [|exact C0].
    intros P. split; [|discriminate]. intros f E. injection E as <-. apply addr_clean; auto.
  - unfold rcptto. assert (RC : forall e', rcptenv e (norm x) = Some e' -> clean e').
    { intros e' E. unfold rcptenv in E. destruct (beginsb _ _); [|injection E as <-; exact CE]. destruct (_ || _ || _); [discriminate|]. injection E as <-. intros P. destruct (CE P) as [C1 _]. split; [exact C1|].
      intros t E. injection E as <-. apply addr_clean; auto. }
    destruct (rcptenv e (norm x)) as [e'|]; [|constructor]. specialize (RC e' eq_refl).
    assert (FW : asks (pass g (norm x) (fun _ => Loop e'))) by (apply asks_pass; constructor; exact RC).
    destruct (policy g); auto. destruct (sender e') as [f|] eqn:E1; auto. destruct (rcpt e') as [t|] eqn:E2; auto.
    apply a_ask; [intros P; destruct (RC P) as [R1 R2]; auto|]. intros [r|]; auto. destruct (verdict r); auto. constructor. constructor. exact RC.
  - constructor. constructor. intros r. constructor. intros h d t. destruct (r && _); [destruct (_ <? _); [constructor|]|]; constructor; constructor; exact CE.
  - constructor. intros [|].
    + apply a_tell, a_raise, a_drain, a_ack, a_give, a_reply. constructor. exact C0.
    + constructor. constructor. exact CE.
  - constructor. constructor. intros. constructor. constructor. exact CE.
Qed.
Lemma asks_body : forall e x, clean e -> asks (body g e x).
Proof. intros e x CE. unfold body. apply a_queue. destruct (dotted x); [|constructor; exact CE]. apply a_give, a_reply. intros. apply a_tell. constructor. exact clean0. Qed.
Lemma asks_start : asks (start g).
Proof. unfold start. apply a_reply. intros. apply a_tell. constructor. exact clean0. Qed.

Lemma takes_line : forall l b r x c, takes l b r -> In (ALine x) l -> In c x -> In c b.
Proof.
  intros l b r x c T. induction T as [b|y l b r T IH|y l b r T IH|y l b r T IH|a l b r N1 N2 N3 T IH]; intros IN IC; [destruct IN|..].
  - destruct IN as [E|IN]; apply in_or_app; [injection E as ->; auto|right; right; auto].
  - destruct IN as [E|IN]; [discriminate|]. apply in_or_app. auto.
  - destruct IN as [E|IN]; [discriminate|]. apply in_or_app. auto.
  - destruct IN as [E|IN]; [destruct (N1 _ E)|auto].
Qed.
Hypothesis D : distinct g.
Variable fd : Z.
Hypothesis FD : policy g = Some fd.
Hypothesis F5 : offers g = true -> fd <> 5.
(** an act adds nothing, a question, or without -c a part of one *)
Definition piece (b : list Z) : Prop := exists f t, (plain -> oneline f /\ oneline t) /\ (b = ask f t \/ (strict g = false /\ is_prefix b (ask f t))).
Definition nozero (a : act) : Prop := forall x, a = ALine x -> plain -> ~ In 0 x.
Lemma asks_step : forall P a P' v t v', step g P a P' -> does g a v t v' -> asks P -> raised g a -> nozero a -> asks P' /\ (sent fd t = [] \/ piece (sent fd t)).
Proof.
  intros P a P' v t v' S H A RA NZ. assert (G : gfd g = fd) by (unfold gfd; rewrite FD; reflexivity).
  destruct (dist g D) as (D1 & D2 & D3 & D4 & D5 & D6). rewrite G in D3, D5, D6. split.
  - destruct S; inversion A; subst; auto; try (constructor; auto; fail); try (apply asks_command; auto); try (apply asks_body; auto).
  - destruct S; cbn [does] in H; rewrite ?G in H.
    1-6: left; eapply rd_sent; apply H.
    + left. eapply wr_sent; [apply H|auto].
    + left. eapply wr_sent; [apply H|auto].
    + left. eapply wr_sent; [apply H|auto].
    + left. destruct H as (_ & [(-> & _)|[(_ & b & -> & _)|(_ & b & b' & -> & _)]]); reflexivity.
    + right. inversion A; subst. destruct H as (_ & -> & _). eexists. eexists. split; [eassumption|]. left. reflexivity.
    + right. inversion A; subst. destruct H as (_ & H & _). eexists. eexists. split; [eassumption|]. right. split; [assumption|exact H].
    + left. eapply rd_sent; apply H.
    + left. eapply rd_sent; apply H.
    + left. eapply rd_sent; apply H.
    + left. destruct H as ((w & b & -> & H & _) & _). rewrite sent_app, (wr_sent 5) by (auto; apply F5, RA; reflexivity). reflexivity.
    + left. destruct H as ((e1 & w & e2 & n & b & -> & H & _ & _ & (b1 & ->) & (b2 & ->)) & _). cbn [sent]. rewrite sent_app, (rd_sent 0) by auto. reflexivity.
    + left. destruct H as ((w & H & _ & H2) & _). cbn in H2. destruct H2 as (b & ->). rewrite sent_app, (rd_sent 6) by auto. reflexivity.
    + left. destruct H as ((w & H & _ & H2) & _). destruct (x =? 0); [destruct H2 as (b & ->); rewrite sent_app|subst t]; rewrite (rd_sent 6) by auto; reflexivity.
Qed.
Lemma asks_story : forall v t l v', story g v t l v' -> forall P P', follows g P l P' -> asks P -> Forall (raised g) l -> Forall nozero l ->
  asks P' /\ exists qs, sent fd t = concat qs /\ Forall piece qs.
Proof.
  intros v t l v' S. induction S as [v|v a t1 v1 l t2 v2 H S IH]; intros P P' F A RA NZ; inversion F; subst; [split; [assumption|exists []; split; [reflexivity|constructor]]|].
  inversion RA as [|? ? R1 R2]; subst. inversion NZ as [|? ? N1 N2]; subst. match goal with X : step _ _ _ _ |- _ => destruct (asks_step _ _ _ _ _ _ X H A R1 N1) as [A1 X1] end.
  match goal with X : follows _ _ l _ |- _ => destruct (IH _ _ X A1 R2 N2) as (A2 & qs & E & Q) end. split; [exact A2|]. rewrite sent_app, E. destruct X1 as [->|X1].
  - exists qs. auto.
  - exists (sent fd t1 :: qs). split; [reflexivity|constructor; auto].
Qed.
Lemma asks_partial : forall P v t, asks P -> (forall p, P = Raise p -> offers g = true) -> partial g P v t -> exists f u, (plain -> oneline f /\ oneline u) /\ is_prefix (sent fd t) (ask f u).
Proof.
  intros P v t A RA H. assert (G : gfd g = fd) by (unfold gfd; rewrite FD; reflexivity).
  destruct (dist g D) as (D1 & D2 & D3 & D4 & D5 & D6). rewrite G in D3, D5, D6.
  assert (OT : sent fd t = [] -> exists f u, (plain -> oneline f /\ oneline u) /\ is_prefix (sent fd t) (ask f u)) by (intros ->; exists [], []; split; [unfold oneline; cbn; auto|apply prefix_nil]).
  destruct P; cbn [partial] in H; rewrite ?G in H; try (apply OT; eapply rd_sent; apply H).
  - apply OT. eapply wr_sent; [apply H|auto].
  - apply OT. eapply wr_sent; [apply H|auto].
  - apply OT. eapply wr_sent; [apply H|auto].
  - apply OT. apply svc_sent. eapply Forall_impl; [|exact H]. intros e (b & ->) x y; discriminate.
  - inversion A; subst. eexists. eexists. split; [eassumption|apply H].
  - apply OT. eapply wr_sent; [apply H|]. apply F5. eapply RA. reflexivity.
  - apply OT. apply svc_sent. eapply Forall_impl; [|exact H]. intros e [(n & b & ->)|[(b & ->)|(b & ->)]] x y; discriminate.
  - subst t. apply OT. reflexivity.
  - apply OT. apply svc_sent. eapply Forall_impl; [|exact H]. intros e [->|[->|(b & ->)]] x y; discriminate.
Qed.
Lemma asked_only : forall tr x, conforms g tr x -> (plain -> ~ In 0 (got 0 tr)) -> questions plain (negb (strict g)) (ip g) (sent fd tr).
Proof.
  intros tr x (t1 & t2 & l & v & P & C & S & F & H) NZ. destruct (tlsp_story g _ _ _ _ S _ _ F (tlsp_start g)) as [TP RA].
  assert (RP : forall p, P = Raise p -> offers g = true) by (intros p ->; inversion TP; assumption).
  assert (NL : Forall nozero l).
  { apply Forall_forall. intros a IN y -> Q Z0. apply (NZ Q). rewrite <- (got_core 0 tr), C, got_app. apply in_or_app. left.
    pose proof (story_client g D _ _ _ _ S) as TK. cbn [view0 cu app] in TK. eapply takes_line; eauto. }
  destruct (asks_story _ _ _ _ S _ _ F asks_start RA NL) as (A & qs & E & Q).
  assert (X : exists f u, (plain -> oneline f /\ oneline u) /\ is_prefix (sent fd t2) (ask f u)).
  { assert (N : sent fd t2 = [] -> exists f u, (plain -> oneline f /\ oneline u) /\ is_prefix (sent fd t2) (ask f u)) by (intros ->; exists [], []; split; [unfold oneline; cbn; auto|apply prefix_nil]).
    destruct x as [x|]; [|eapply asks_partial; eauto]. destruct H as [(-> & -> & ->)|[(-> & H)|(-> & _ & H)]]; [apply N; reflexivity|apply N; eapply finished_sent; eauto|eapply asks_partial; eauto]. }
  exists qs, (sent fd t2). rewrite <- (sent_core fd tr), C, sent_app, E. split; [reflexivity|]. split; [exact X|].
  eapply Forall_impl; [|exact Q]. intros q (f & u & OL & [->|[N PR]]); exists f, u; (split; [exact OL|]); [left; reflexivity|right; rewrite N; auto].
Qed.
End Stream.

Section Asked.
Variable I : inet.
Hypothesis OK : inet_ok I.

(** The original process of a tlswrapper-smtp, with the helper's replies. *)
Definition mails (env : environment) (nojail : bool) (words : list (list Z)) (tr : trace) : Prop :=
  exists fuel buf0 ip0 junk logid idtext name argv L L' out,
    length junk = 6%nat /\ Endpoints.strings env /\
    match logid, idtext with None, None => True | Some m, Some i => cstring m i /\ nonul i /\ len i <= 2 ^ 32 | _, _ => False end /\
    Forall2 points words argv /\ good L /\ In 0 L /\ In 1 L /\
    runs (main_smtp I fuel buf0 ip0 junk env nojail logid (name :: argv)) tr out /\ fdrun L tr = Some L' /\ PropForward.kernel tr /\ Forall honest tr /\ original tr /\ fstats L tr.
(** [tr] is the session [g], as the command line says, and the policy server was asked about a client with the address text [a] only;
    if the client sends no zero byte, no question has another line about its address. *)
Definition names (env : environment) (nojail : bool) (words : list (list Z)) (tr : trace) (g : setting) (t0 u : trace) (a : list Z) : Prop :=
  exists l prg timeout crw grey, smtp_line I words l prg timeout crw grey /\ tr = t0 ++ u /\
    opened I env gai_list nojail timeout crw grey t0 g /\ strict g = last_flag 99 67 false l /\
    forall fd, policy g = Some fd -> questions (~ In 0 (got 0 tr)) (negb (last_flag 99 67 false l)) a (sent fd tr).

(** Whatever goes to the policy server are questions about the client that tlswrapper-smtp itself found out. *)
Theorem C103_asked : forall env nojail words tr, mails env nojail words tr ->
  Forall (fun e => wordless (fst e)) tr \/
  exists g t0 u i, names env nojail words tr g t0 u (iptostr I (remoteip i)) /\ observed I env false t0 i.
Proof.
  intros env nojail words tr (fuel & buf0 & ip0 & junk & logid & idtext & name & argv & L & L' & out & JU & EN & ID & FW & GL & I0 & I1 & R & E & K & H & O & ST).
  destruct (C86_session I OK fuel buf0 ip0 junk JU env EN nojail logid idtext ID name words argv L L' tr out FW GL I0 I1 R E K H O ST) as [_ [(Q & _)|X]]; [left; exact Q|right].
  destruct X as (l & prg & timeout & crw & grey & t0 & u & g & L1 & SL & -> & OP & SG & _ & _ & DI & _ & E0 & PE & CF & _).
  destruct (op_peer _ _ _ _ _ _ _ _ _ OP) as (i & OB & IP). exists g, t0, u, i. split; [|exact OB]. exists l, prg, timeout, crw, grey. split; [exact SL|]. split; [reflexivity|]. split; [exact OP|]. split; [exact SG|].
  intros fd PF. rewrite sent_app, (svc_sent fd t0), <- SG, <- IP.
  2: { eapply Forall_impl; [|exact (op_quiet _ _ _ _ _ _ _ _ _ OP)]. intros e W x y EQ. cbv beta in W. rewrite EQ in W. exact W. }
  eapply (asked_only g _ DI fd PF); [|exact CF|].
  2: { intros N. rewrite got_app, (proj1 (op_unread _ _ _ _ _ _ _ _ _ OP)) in N. exact N. }
  intros OF ->.
  assert (I5 : In 5 L).
  { destruct (op_trace _ _ _ _ _ _ _ _ _ OP) as (a & tp & p1 & p2 & f & c1 & c2 & s1 & s2 & rest & al & r1 & w2 & ET & EA & PR & _). rewrite OF in PR.
    destruct PR as (b & [(_ & X & _)|(RB & b' & -> & _)]); [discriminate|]. apply (ST a 5 b ((Other (bs "fstat") [6] [], b') :: (p1 ++ p2 ++ [(Other (bs "fork") [] [], f)] ++ [c1; c2] ++ s1 ++ s2 ++ rest ++ [al]) ++ u) L); [|exact RB|].
    - rewrite ET. rewrite <- !app_assoc. cbn [app]. reflexivity.
    - destruct a as [|[q1 x1] [|[q2 x2] [|[q3 x3] [|]]]]; try discriminate. injection EA as -> -> ->. reflexivity. }
  pose proof (Permutation_NoDup PE (fdrun_nodup _ _ _ (proj1 GL) E0)) as ND. unfold wired in ND. rewrite PF in ND. inversion ND as [|? ? _ N1]; subst. inversion N1 as [|? ? _ N2]; subst. inversion N2 as [|? ? N3 _]; subst. apply N3. exact I5.
Qed.

(** ** C104, tlswrapper-smtp as a whole *)
(** Nothing was read from the policy server before the session. *)
Theorem C104_program : forall env nojail words tr, mails env nojail words tr ->
  Forall (fun e => wordless (fst e)) tr \/
  exists l prg timeout crw grey t0 u g, smtp_line I words l prg timeout crw grey /\ tr = t0 ++ u /\ opened I env gai_list nojail timeout crw grey t0 g /\
    forall fd, policy g = Some fd -> got fd t0 = [] /\ decided g fd u.
Proof.
  intros env nojail words tr (fuel & buf0 & ip0 & junk & logid & idtext & name & argv & L & L' & out & JU & EN & ID & FW & GL & I0 & I1 & R & E & K & H & O & ST).
  destruct (C86_session I OK fuel buf0 ip0 junk JU env EN nojail logid idtext ID name words argv L L' tr out FW GL I0 I1 R E K H O ST) as [_ [(Q & _)|X]]; [left; exact Q|right].
  destruct X as (l & prg & timeout & crw & grey & t0 & u & g & L1 & SL & -> & OP & SG & _ & _ & DI & _ & E0 & PE & CF & _).
  exists l, prg, timeout, crw, grey, t0, u, g. split; [exact SL|]. split; [reflexivity|]. split; [exact OP|]. intros fd PF. split; [apply (op_unread _ _ _ _ _ _ _ _ _ OP); exact PF|]. eapply conforms_decided; eauto.
Qed.

(** tlswrapper executes tlswrapper-smtp: this client is the one tlswrapper found out. *)
Theorem C103_behind : forall env words trw trc v env' nojail words' tr, serves I env words trw trc v -> stores trc -> inherits trc env' ->
  mails env' nojail words' tr ->
  exists o prg th hh t i, Cmdline.accepted words o prg th hh t /\ observed I env (proxied o) trw i /\
    (Forall (fun e => wordless (fst e)) tr \/ exists g t0 u, names env' nojail words' tr g t0 u (iptostr I (remoteip i))).
Proof.
  intros env words trw trc v env' nojail words' tr SE SV IH MA. destruct (C102_inherits I OK _ _ _ _ _ SE SV) as (o & prg & th & hh & t & i & A & _ & OB & ES). specialize (ES _ IH).
  exists o, prg, th, hh, t, i. split; [exact A|]. split; [exact OB|]. destruct (C103_asked _ _ _ _ MA) as [Q|(g & t0 & u & j & N & OJ)]; [left; exact Q|right]. exists g, t0, u.
  assert (j = i); [|subst j; exact N]. unfold observed in OJ. destruct OJ as [E|(NE & _)]; [eapply env_says_one; eauto|destruct (NE _ ES)].
Qed.

(** The mail server is told the same: its process sets no variable. *)
Definition keeps (tr : trace) (env env' : environment) : Prop := forall n, (forall e v, In e tr -> ~ sets_var n v e) -> getenv env' n = getenv env n.
Lemma served_unset : forall user prg tr, served user prg tr -> Forall unset tr.
Proof.
  assert (X : forall q a, (forall n v, q <> Other (bs "setenv") [] (n ++ 61 :: v)) -> unset (q, a)) by (intros q a H n v E; exact (H n v E)).
  assert (M : forall t l, map fst t = l -> Forall (fun q => forall n v, q <> Other (bs "setenv") [] (n ++ 61 :: v)) l -> Forall unset t).
  { intros t l <- F. apply Forall_forall. intros [q a] IN. apply X. rewrite Forall_forall in F. apply F. apply (in_map fst) in IN. exact IN. }
  assert (SW : forall fd b t, Server.switched fd b t -> Forall unset t) by (intros fd b t (a & [(_ & ->)|(_ & v & c & -> & _)]); repeat constructor; apply X; discriminate).
  assert (PI : forall r w t, piped r w t -> Forall unset t).
  { intros r w t (a & b & c & m1 & m2 & -> & _ & _ & _ & S1 & S2). constructor; [apply X; discriminate|]. apply Forall_app. split; (constructor; [apply X; discriminate|]); eauto. }
  assert (IN : forall u fd n t, installed u fd n t -> Forall unset t).
  { intros u fd n t (a & b & d & m & -> & _ & S). do 3 (constructor; [apply X; discriminate|]). eauto. }
  intros user prg tr H. destruct (sv_trace _ _ _ H) as (t0 & tp & tls & p1 & p2 & f & al & s0 & s1 & c5 & d & sigs & x & r1 & w1 & r2 & w2 & -> & E0 & PR & P1 & P2 & _ & EA & S0 & S1 & E5 & DD & SG & _).
  apply Forall_app. split; [eapply M; [exact E0|repeat constructor; discriminate]|].
  apply Forall_app. split; [destruct PR as (a & [(_ & _ & ->)|(_ & b & -> & _)]); repeat constructor; apply X; discriminate|].
  apply Forall_app. split; [eauto|]. apply Forall_app. split; [eauto|]. constructor; [apply X; discriminate|]. constructor; [destruct al; cbn [fst] in EA; subst; apply X; discriminate|].
  apply Forall_app. split; [eauto|]. apply Forall_app. split; [eauto|]. constructor; [destruct c5; cbn [fst] in E5; subst; apply X; discriminate|].
  apply Forall_app. split; [destruct user; [eapply lowered_unset; eauto|subst d; constructor]|].
  apply Forall_app. split; [eapply M; [exact SG|repeat constructor; discriminate]|]. constructor; [apply X; discriminate|constructor].
Qed.
Theorem C103_server : forall env words trw trc v env' fuel buf0 ip0 junk nojail logid name words' argv trs v' env'', serves I env words trw trc v -> stores trc -> inherits trc env' ->
  length junk = 6%nat -> Forall2 points words' argv -> runs (main_smtp I fuel buf0 ip0 junk env' nojail logid (name :: argv)) trs (Fin (Exec v')) -> pids trs -> keeps trs env' env'' ->
  exists o prg th hh t i, Cmdline.accepted words o prg th hh t /\ observed I env (proxied o) trw i /\ env_says I env'' i.
Proof.
  intros env words trw trc v env' fuel buf0 ip0 junk nojail logid name words' argv trs v' env'' SE SV IH JU FW R PI KE. destruct (C102_inherits I OK _ _ _ _ _ SE SV) as (o & prg & th & hh & t & i & A & _ & OB & ES). specialize (ES _ IH).
  exists o, prg, th, hh, t, i. split; [exact A|]. split; [exact OB|]. destruct (C83_server I fuel buf0 ip0 junk env' nojail logid name words' argv trs v' JU FW R PI) as (l & pr & ti & crw & grey & _ & _ & SD).
  pose proof (served_unset _ _ _ SD) as UN. rewrite Forall_forall in UN. assert (EQ : forall n, getenv env'' n = getenv env' n) by (intros n; apply KE; intros e w IN; apply UN; exact IN).
  destruct ES as (a & b & c & d & G1 & T1 & G2 & T2 & G3 & T3 & G4 & T4). exists a, b, c, d. rewrite !EQ. auto 10.
Qed.
End Asked.
Print Assumptions C103_asked.
Print Assumptions C104_program.
Print Assumptions C103_behind.
Print Assumptions C103_server.

(** ** Example: tlswrapper -p 1 with the client 192.0.2.1 executes tlswrapper-smtp, which asks about it *)
Definition smtptenv : prog ending :=
  main_smtp isc (Z.to_nat 400) (repeat 0 (Z.to_nat 257)) (repeat 0 (Z.to_nat 129)) (repeat 0 6) tenv false None (vec (bs "tlswrapper-smtp" :: smtpwords)).
Definition line (x : list Z) : list Z := x ++ [13; 10].
Definition asknet (x : list Z) : world := [(0, [line x; line (bs "RCPT TO:<t@b>"); line (bs "QUIT")]); (7, [line (bs "220 hi"); line (bs "250 ok"); line (bs "250 ok"); line (bs "221 bye")]); (22, [bs "action=dunno" ++ [10; 10]])].
Definition asked_b (q : list Z) (tr : trace) (o : outcome ending) : bool :=
  fair mailfds tr && forallb honestb tr && fstatsb mailfds tr && same (sent 22 tr) q && match o with Fin (Exit c) => c =? 0 | _ => false end.
Lemma asked_run : forall x q, (let '(tr, o) := perform skernel (Z.to_nat 1500) (startos T5 [500; 501] [reply1] (asknet x)) smtptenv in forallb sys_okb tr && asked_b q tr o) = true ->
  exists tr, mails isc tenv false smtpwords tr /\ sent 22 tr = q.
Proof.
  intros x q H. destruct (perform_show _ _ skernel (Z.to_nat 1500) (startos T5 [500; 501] [reply1] (asknet x)) smtptenv (asked_b q)) as (tr & o & R & LE & Q); [exact H|].
  unfold asked_b in Q. rewrite !andb_true_iff in Q. destruct Q as [[[[Q1 Q2] Q3] Q4] _]. destruct (fair_ok _ _ LE Q1) as (K & O & L' & E). apply same_true in Q4. exists tr. split; [|exact Q4].
  exists (Z.to_nat 400), (repeat 0 (Z.to_nat 257)), (repeat 0 (Z.to_nat 129)), (repeat 0 6), None, None, (hd [] (vec [bs "tlswrapper-smtp"])), (vec smtpwords), mailfds, L', o.
  split; [reflexivity|]. split; [repeat constructor; discriminate|]. split; [exact Logic.I|]. split; [exact smtpwords_ok|]. split; [exact mailfds_good|]. split; [cbn; auto|]. split; [cbn; auto|]. split; [exact R|]. split; [exact E|]. split; [exact K|].
  split; [apply Forall_forall; intros e X; apply honestb_ok; rewrite forallb_forall in Q2; auto|]. split; [exact O|]. apply fstatsb_ok. exact Q3.
Qed.
Example ex_asked : exists trw trc v tr, serves isc [] pwords trw trc v /\ stores trc /\ inherits trc tenv /\ got 0 trw = proxyline /\
  mails isc tenv false smtpwords tr /\ sent 22 tr = question (bs "192.0.2.1") (bs "<s@a>") (bs "<t@b>").
Proof.
  destruct ex_first as (trw & trc & v & SE & SO & IH & G & _). destruct (asked_run (bs "MAIL FROM:<s@a>") (question (bs "192.0.2.1") (bs "<s@a>") (bs "<t@b>"))) as (tr & M & S); [vm_compute; reflexivity|].
  exists trw, trc, v, tr. auto 10.
Qed.

(** the process that becomes the mail server *)
Example ex_told : exists trw trc v trs v', serves isc [] pwords trw trc v /\ stores trc /\ inherits trc tenv /\ got 0 trw = proxyline /\
  Forall2 points smtpwords (vec smtpwords) /\ runs smtptenv trs (Fin (Exec v')) /\ pids trs /\ keeps trs tenv tenv.
Proof.
  destruct ex_first as (trw & trc & v & SE & SO & IH & G & _).
  destruct (perform_show _ _ skernel (Z.to_nat 400) (startos T5 [0] [] []) smtptenv (run_server T5)) as (trs & o & R & _ & E); [vm_compute; reflexivity|].
  unfold run_server in E. destruct o as [[c|v']| |]; try discriminate. apply andb_prop in E as [E _]. apply andb_prop in E as [E _].
  exists trw, trc, v, trs, v'. split; [exact SE|]. split; [exact SO|]. split; [exact IH|]. split; [exact G|]. split; [exact smtpwords_ok|]. split; [exact R|]. split; [apply pidsb_ok; exact E|]. intros n _. reflexivity.
Qed.

(** "The policy server is told of no other client": a zero byte in the sender becomes the end of a line of the question, so
    the client can add a line that gives another address. *)
Theorem C103_alone_refuted : exists trw trc v tr fd a b, serves isc [] pwords trw trc v /\ stores trc /\ inherits trc tenv /\ got 0 trw = proxyline /\
  mails isc tenv false smtpwords tr /\ sent fd tr = a ++ [10] ++ bs "client_address=198.51.100.1" ++ [10] ++ b /\
  (exists f t, sent fd tr = question (bs "192.0.2.1") f t).
Proof.
  destruct ex_first as (trw & trc & v & SE & SO & IH & G & _).
  destruct (asked_run (bs "MAIL FROM:<s@a>" ++ [0] ++ bs "client_address=198.51.100.1") (question (bs "192.0.2.1") (bs "<s@a>" ++ [10] ++ bs "client_address=198.51.100.1") (bs "<t@b>"))) as (tr & M & S); [vm_compute; reflexivity|].
  exists trw, trc, v, tr, 22, (bs "request=smtpd_access_policy" ++ [10] ++ bs "client_address=192.0.2.1" ++ [10] ++ bs "sender=<s@a>"), (bs "recipient=<t@b>" ++ [10; 10]).
  split; [exact SE|]. split; [exact SO|]. split; [exact IH|]. split; [exact G|]. split; [exact M|]. split; [rewrite S; reflexivity|]. exists (bs "<s@a>" ++ [10] ++ bs "client_address=198.51.100.1"), (bs "<t@b>"). exact S.
Qed.
Print Assumptions C103_alone_refuted.
