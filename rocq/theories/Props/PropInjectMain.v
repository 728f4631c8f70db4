(** C98 for the whole wrapper, from the jail to its end. *)
From Verif.Model Require Import Base Sys Io Str Inet InetIsc Config Fdio Relay Session Tlsphase Jail Keyjail Proxy Conninfo Options Profile Main.
From Verif.Spec Require Import Stream Flow Starttls Tlsrelay Inject.
From Verif.Proof Require Import Tac SysP CallsP PlayP PerformP ConfigP OptionsP SafeP MainCallsP MainP ChildP DescP ToldP WpP CurP ClearP.
From Verif.Props Require Import PropClear PropTlsphase PropSmtp PropInject.

(** ** No call of the engine in clear *)
Ltac mute1 := repeat (calls1 || (progress cbv zeta)); try (split; discriminate); try exact Logic.I.
Lemma writeall_engine : forall f fd x n, calls noengine (writeall f fd x n).
Proof. induction f; intros; cbn [writeall]; mute1; auto. Qed.
Lemma shut_r_engine : forall v, calls noengine (shut_r v).
Proof. intros v. eapply calls_weak; [apply (shut_r_silent 0)|]. apply silent_engine. Qed.
Lemma shut_w_engine : forall v, calls noengine (shut_w v).
Proof. intros v. eapply calls_weak; [apply (shut_w_silent 0)|]. apply silent_engine. Qed.
Lemma cleartext_engine : forall t f self fuel s, calls noengine (cleartext t f self fuel s).
Proof.
  intros. unfold cleartext. apply iter_calls. clear s. intros s.
  unfold clear_body, clear_eof, clear_topeer, clear_fromchild, clear_control, clear_tochild, clear_frompeer, clear_signal, selfpipe_event, watch, jail_poll, fd_read, fd_write, alarm.
  mute1; auto using writeall_engine, shut_r_engine, shut_w_engine.
Qed.

(** ** A closed descriptor of the program is not written to in the encrypted phase *)
Section Shut.
Variable f0 : Z.
Hypothesis F0 : 0 <= f0 /\ f0 <> 1.
Definition other (c : sys) : Prop := match c with Write g _ => g <> f0 | _ => True end.
Definition carry {R} (V : R -> Prop) (q : prog R) : Prop := forall t o, runs q t o -> Forall (fun e => other (fst e)) t /\ forall x, o = Fin x -> V x.
Lemma carry_ret : forall R (V : R -> Prop) x, V x -> carry V (Ret x).
Proof. intros R V x H t o [-> ->]. split; [constructor|]. intros y E. injection E as <-. exact H. Qed.
Lemma carry_bind : forall S R (V : S -> Prop) (W : R -> Prop) q f, carry V q -> (forall x, V x -> carry W (f x)) -> carry W (pbind q f).
Proof.
  intros S R V W q f Q F t o H. apply runs_bind in H as [(a & t1 & t2 & -> & R1 & R2)|[[R1 ->]|[R1 ->]]].
  - destruct (Q _ _ R1) as [A B]. destruct (F a (B _ eq_refl) _ _ R2) as [C D]. split; [apply Forall_app; auto|exact D].
  - split; [apply (Q _ _ R1)|discriminate].
  - split; [apply (Q _ _ R1)|discriminate].
Qed.
Lemma carry_calls : forall R (V : R -> Prop) q, calls other q -> gives V q -> carry V q.
Proof. intros R V q C G t o H. split; [exact (C _ _ H)|]. intros x ->. exact (G _ _ H). Qed.
Lemma carry_any : forall R (q : prog R), calls other q -> carry (fun _ => True) q.
Proof. intros R q C. apply carry_calls; [exact C|]. intros t x _. exact Logic.I. Qed.
Lemma carry_bad : forall R (V : R -> Prop), carry V (@Bad R).
Proof. intros R V t o [-> ->]. split; [constructor|discriminate]. Qed.
Lemma carry_iter : forall S R (V : S -> Prop) (body : S -> prog (nxt S R)), (forall s, V s -> carry (fun x => match x with Again s => V s | Stop _ => True end) (body s)) ->
  forall n s, V s -> calls other (iter n body s).
Proof.
  intros S R V body H n. induction n as [|n IH]; intros s X t o RU; cbn [iter] in RU; [destruct RU as [-> _]; constructor|].
  apply runs_bind in RU as [(a & t1 & t2 & -> & R1 & R2)|[[R1 ->]|[R1 ->]]]; [|apply (H _ X _ _ R1)..].
  destruct (H _ X _ _ R1) as [A B]. apply Forall_app. split; [exact A|]. specialize (B _ eq_refl). destruct a as [s1|r]; [exact (IH _ B _ _ R2)|]. destruct R2 as [-> _]. constructor.
Qed.
Lemma other_silent : forall R (q : prog R), calls (silent f0) q -> calls other q.
Proof. intros R q C. eapply calls_weak; [exact C|]. intros [] H; try exact Logic.I. exact H. Qed.
(** descriptor to the program closed, descriptor to the peer open or closed *)
Definition away (s : sess) : Prop := childin s = -1 /\ (peerout s = 1 \/ peerout s = -1).
Lemma carry_shut_w : forall v, carry (eq (-1)) (shut_w v).
Proof. intros v. apply carry_calls; [apply other_silent, shut_w_silent|apply shut_w_gives]. Qed.
Lemma carry_shut_r : forall v, carry (eq (-1)) (shut_r v).
Proof. intros v. apply carry_calls; [apply other_silent, shut_r_silent|apply shut_r_gives]. Qed.
Lemma away_write : forall s v, away s -> v = childin s \/ v = peerout s -> v <> f0.
Proof. intros s v [A B] H. lia. Qed.
Ltac free := apply carry_any; unfold current_state, engine, engine_ack, flush, alarm, pending_now, fetch, fd_read, offer, fd_write, watch, jail_poll; repeat (calls1 || (progress cbv zeta)); try exact Logic.I.
Lemma pending_other : forall fuel fd, calls other (pending_now fuel fd).
Proof. intros. unfold pending_now. repeat calls1. induction fuel as [|fuel IH]; cbn [pending_loop]; unfold jail_poll; repeat (calls1 || (progress cbv zeta)); auto; exact Logic.I. Qed.
Lemma offer_other : forall fd x, fd <> f0 -> calls other (offer fd x).
Proof. intros fd x N. unfold offer, fd_write. repeat (calls1 || (progress cbv zeta)); exact N. Qed.
Ltac keep := cbn [fds with_fds set_childin set_childout set_childctl set_childack set_peerout set_peerin childin peerout shaken told_user]; unfold away in *; cbn [childin peerout] in *; tauto.
Lemma body_away : forall t fi self u n s, away (fds s) -> carry (fun x => match x with Again s => away (fds s) | Stop _ => True end) (tls_body t fi self u n s).
Proof.
  intros t fi self u n s A. unfold tls_body.
  eapply carry_bind; [free|]. intros st _.
  eapply (carry_bind _ _ away). { unfold tls_eof1. destruct (_ && _); [|apply carry_ret; exact A]. eapply carry_bind; [apply carry_shut_w|]. intros v <-. apply carry_ret. keep. }
  clear A. intros f A. eapply (carry_bind _ _ away).
  { unfold tls_eof2. destruct (_ && _); [|apply carry_ret; exact A]. eapply carry_bind; [apply carry_any, pending_other|]. intros [|] _; [apply carry_ret; exact A|]. eapply carry_bind; [apply carry_shut_w|]. intros v <-. apply carry_ret. keep. }
  clear f A. intros f A. eapply (carry_bind _ _ away).
  { unfold tls_eof3. destruct (_ && _); [|apply carry_ret; exact A]. eapply carry_bind; [apply carry_shut_w|]. intros v <-. apply carry_ret. keep. }
  clear f A. intros f A. eapply carry_bind; [unfold tls_notify; free|]. clear st. intros st _.
  eapply (carry_bind _ _ (fun x => match x with Some s => fds s = f | None => True end)).
  { unfold report_handshake. cbn [fds with_fds shaken told_user]. destruct (shaken s); [apply carry_ret; reflexivity|]. destruct (negb _); [apply carry_ret; reflexivity|].
    destruct (told_user s); [eapply carry_bind; [free|]; intros _ _; apply carry_ret; reflexivity|].
    eapply (carry_bind _ _ (fun _ => True)). { destruct u; free. }
    intros [b|] _; [|apply carry_ret; exact Logic.I]. eapply (carry_bind _ _ (fun _ => True)).
    { apply carry_any. unfold report_user. apply calls_bind; [apply calls_lift|]. intros k. apply calls_bind; [|intros [|]; repeat calls1]. apply other_silent, pipe_write_silent. apply (away_write f); auto. }
    intros [|] _; [apply carry_ret; exact Logic.I|]. eapply carry_bind; [free|]. intros _ _. apply carry_ret. reflexivity. }
  intros [s1|] E; [|apply carry_ret; exact Logic.I]. subst f. clear s.
  destruct (_ && _); [apply carry_ret; exact Logic.I|]. destruct (_ && _); [apply carry_ret; exact Logic.I|]. destruct (_ && _); [apply carry_ret; exact Logic.I|].
  eapply carry_bind; [free|]. intros h _. destruct h as [|h1 [|h2 [|h3 [|h4 [|h5 [|]]]]]]; try apply carry_bad.
  destruct h3.
  { unfold tls_tochild. eapply carry_bind; [free|]. intros a _. eapply carry_bind; [apply carry_any, offer_other; apply (away_write (fds s1)); auto|]. intros [r e] _.
    destruct (again r e); [apply carry_ret; exact A|]. destruct (_ <=? _); [eapply carry_bind; [apply carry_shut_w|]; intros v <-; apply carry_ret; exact Logic.I|].
    eapply carry_bind; [free|]. intros _ _. apply carry_ret. exact A. }
  destruct h1.
  { unfold tls_topeer. eapply carry_bind; [free|]. intros a _. eapply carry_bind; [apply carry_any, offer_other; apply (away_write (fds s1)); auto|]. intros [r e] _.
    destruct (again r e); [apply carry_ret; exact A|]. destruct (_ <=? _); [eapply carry_bind; [apply carry_shut_w|]; intros v <-; apply carry_ret; exact Logic.I|].
    eapply carry_bind; [free|]. intros _ _. apply carry_ret. exact A. }
  destruct h2.
  { unfold tls_frompeer. eapply carry_bind; [free|]. intros a _. eapply carry_bind; [free|]. intros [[r e] d] _.
    destruct (again r e); [apply carry_ret; exact A|]. destruct (_ <=? _); [eapply carry_bind; [apply carry_shut_r|]; intros v <-; apply carry_ret; keep|].
    eapply carry_bind; [free|]. intros _ _. eapply carry_bind; [free|]. intros _ _. apply carry_ret. exact A. }
  destruct h4.
  { unfold tls_fromchild. eapply carry_bind; [free|]. intros a _. eapply carry_bind; [free|]. intros [[r e] d] _.
    destruct (again r e); [apply carry_ret; exact A|]. destruct (_ <=? _); [eapply carry_bind; [apply carry_shut_r|]; intros v <-; apply carry_ret; keep|].
    do 3 (eapply carry_bind; [free|]; intros _ _). apply carry_ret. exact A. }
  destruct h5; [|apply carry_ret; exact A].
  unfold tls_signal, selfpipe_event. eapply (carry_bind _ _ (fun x => away (snd x))).
  { eapply carry_bind; [free|]. intros [[r e] d] _. destruct (again r e); [apply carry_ret; exact A|]. destruct (_ <=? _); [apply carry_ret; exact A|]. cbv zeta.
    destruct (_ =? _); [eapply carry_bind; [apply carry_shut_w|]; intros v <-; eapply carry_bind; [free|]; intros _ _; apply carry_ret; keep|].
    destruct (_ && _); [|apply carry_ret; exact A].
    eapply carry_bind; [apply carry_shut_w|]; intros v <-. eapply carry_bind; [apply carry_shut_r|]; intros v <-. eapply carry_bind; [apply carry_shut_r|]; intros v <-.
    eapply carry_bind; [apply carry_shut_w|]; intros v <-. eapply carry_bind; [free|]; intros _ _. apply carry_ret. keep. }
  intros [[|] f] B; apply carry_ret; [exact Logic.I|exact B].
Qed.
Lemma phase_away : forall t fi self u n s tr o, away (fds s) -> runs (tls_phase t fi self u n s) tr o -> sent f0 tr = [].
Proof.
  intros t fi self u n s tr o A R. pose proof (carry_iter _ _ (fun s => away (fds s)) (tls_body t fi self u n) (body_away t fi self u n) n s A tr o R) as F.
  clear R. induction F as [|[c a] tr S F IH]; [reflexivity|]. destruct c; cbn [sent]; auto. cbn [fst other] in S. destruct (Z.eqb_spec fd f0); [contradiction|exact IH].
Qed.
End Shut.

Section Whole.
Variable I : inet.
Variable fuel : nat.
Variable env : environment.
Variable nojail : bool.
Variable cmd : command.
Variable p : pipes.
Variables child key fk tk self : Z.
(** option -n *)
Hypothesis DELAY : delayed (settings cmd) = true.
Hypothesis SETUP : clear_setup 0 1 (toc_w p) (fromc_r p) (fromctl_r p) (toctl_w p) self.
Hypothesis TK : tk <> toctl_w p.
Notation uc := (match certuser (settings cmd) with Some _ => true | None => false end).
Notation ci := (toc_w p).
Notation ckw := (toctl_w p).
Notation s0 := (mksess 0 1 ci (fromc_r p) (fromctl_r p) ckw empty empty).

(** ** Before, in clear, encrypted, after *)
Definition calmly (t : trace) : Prop := sent ci t = [] /\ Forall (fun e => noengine (fst e)) t.
Definition secure (oc : outcome (Z * sess)) (wt : trace) : Prop :=
  calmly wt \/ exists u1 u2 u3 r s ot, wt = u1 ++ u2 ++ u3 /\ calmly u1 /\ calmly u3 /\ oc = Fin (r, s) /\ r <> 0 /\
    runs (tls_phase (timeout cmd) 1 self uc fuel (mkts s false true)) u2 ot.
Definition shape (w : trace) : Prop := exists w0 wc wt, w = w0 ++ wc ++ wt /\ Forall (fun e => silent ckw (fst e)) w0 /\
  ((wc = [] /\ wt = []) \/ exists oc, runs (cleartext (timeout cmd) 1 self fuel s0) wc oc /\ secure oc wt).
Definition shaped (q : prog ending) : Prop := forall w o, runs q w o -> shape w.

Lemma shape_silent : forall w, Forall (fun e => silent ckw (fst e)) w -> shape w.
Proof. intros w F. exists w, [], []. rewrite !app_nil_r. auto. Qed.
Lemma shaped_silent : forall q, calls (silent ckw) q -> shaped q.
Proof. intros q C w o R. apply shape_silent. exact (C _ _ R). Qed.
Lemma shaped_skip : forall B (q : prog B) f, calls (silent ckw) q -> (forall a, shaped (f a)) -> shaped (pbind q f).
Proof.
  intros B q f C K w o R. apply runs_bind in R as [(a & t1 & t2 & -> & R1 & R2)|[[R1 ->]|[R1 ->]]]; [|apply shape_silent; exact (C _ _ R1)..].
  destruct (K a _ _ R2) as (w0 & wc & wt & -> & F & H). exists (t1 ++ w0), wc, wt. split; [rewrite <- app_assoc; reflexivity|]. split; [|exact H]. apply Forall_app. split; [exact (C _ _ R1)|exact F].
Qed.
Lemma shaped_exit : forall n, shaped (Ret (Exit n)).
Proof. intros n. apply shaped_silent. mute1. Qed.
Lemma shaped_need : forall fd x n k, fd <> ckw -> shaped k -> shaped (need (pipe_write fuel fd x n) k).
Proof. intros fd x n k N K. unfold need. apply shaped_skip; [apply pipe_write_silent; exact N|]. intros [|e]; [exact K|apply shaped_exit]. Qed.
Lemma ci_ck : ci <> ckw.
Proof. destruct SETUP as [ND _]. inversion ND as [|? ? _ N1]; subst. inversion N1 as [|? ? _ N2]; subst. inversion N2 as [|? ? NI _]; subst. intros E. apply NI. rewrite E. cbn. tauto. Qed.

Lemma calmly_of : forall R (q : prog R) t o, calls (silent ci) q -> runs q t o -> calmly t.
Proof. intros R q t o C H. pose proof (C _ _ H) as F. split; [apply silent_sent; exact F|eapply silents_engine; exact F]. Qed.
Lemma calmly_app : forall a b, calmly a -> calmly b -> calmly (a ++ b).
Proof. intros a b [A1 A2] [B1 B2]. split; [rewrite sent_app, A1, B1; reflexivity|apply Forall_app; auto]. Qed.
Lemma calmly_nil : calmly []. Proof. split; [reflexivity|constructor]. Qed.

Lemma relay_shaped : forall n, shaped (relay fuel cmd n self s0 (finish fuel child key fk tk)).
Proof.
  intros n. unfold relay. cbv zeta. rewrite DELAY. do 2 (apply shaped_skip; [apply blocking_silent|]; intros _).
  apply shaped_skip. { unfold report_user. apply calls_bind; [apply calls_lift|]. intros x. apply calls_bind; [apply pipe_write_silent; exact ci_ck|]. intros [|e]; mute1. }
  intros [|]; [apply shaped_exit|]. unfold sigaction. apply shaped_skip; [mute1|]. intros a. destruct (_ =? _); [apply shaped_exit|].
  apply shaped_skip; [unfold alarm; mute1|]. intros _ w o R.
  assert (X : forall oc wc wt, runs (cleartext (timeout cmd) 1 self fuel s0) wc oc -> secure oc wt -> shape (wc ++ wt)).
  { intros oc wc wt R1 R2. exists [], wc, wt. split; [reflexivity|]. split; [constructor|]. right. eauto. }
  apply runs_bind in R as [([r s] & wc & wt & -> & R1 & R2)|[[R1 ->]|[R1 ->]]]; [|rewrite <- (app_nil_r w); eapply X; [exact R1|left; exact calmly_nil]..].
  apply (X _ _ _ R1). destruct (Z.eqb_spec r 0) as [->|NZ]; [left; eapply calmly_of; [|exact R2]; apply finish_silent|].
  apply runs_bind in R2 as [([] & u & t & -> & A1 & R2)|[[A1 ->]|[A1 ->]]]; [|left; eapply calmly_of; [|exact A1]; apply alarm_silent..].
  apply calmly_of in A1; [|apply alarm_silent].
  apply runs_bind in R2 as [([] & u' & t' & -> & A2 & R2)|[[A2 ->]|[A2 ->]]]; [|left; apply calmly_app; [exact A1|]; eapply calmly_of; [|exact A2]; apply init_silent..].
  apply calmly_of in A2; [|apply init_silent].
  apply runs_bind in R2 as [([q ts] & u2 & u3 & -> & R3 & R4)|[[R3 ->]|[R3 ->]]].
  - right. exists (u ++ u'), u2, u3, r, s, (Fin (q, ts)). split; [rewrite <- app_assoc; reflexivity|]. split; [apply calmly_app; assumption|]. split; [|auto].
    assert (C : calls (silent ci) (if q =? 0 then finish fuel child key fk tk (fds ts) else Ret (Exit q))) by (destruct (q =? 0); [apply finish_silent|mute1]). eapply calmly_of; [exact C|exact R4].
  - right. exists (u ++ u'), t', [], r, s, Wrong. rewrite app_nil_r, <- app_assoc. split; [reflexivity|]. split; [apply calmly_app; assumption|]. split; [exact calmly_nil|auto].
  - right. exists (u ++ u'), t', [], r, s, Cut. rewrite app_nil_r, <- app_assoc. split; [reflexivity|]. split; [apply calmly_app; assumption|]. split; [exact calmly_nil|auto].
Qed.
Lemma jailed_shaped : shaped (jailed_main I fuel env nojail cmd p child key fk tk self).
Proof.
  unfold jailed_main. cbv zeta. do 2 (apply shaped_skip; [apply calls_lift|]; intros ?).
  apply shaped_skip; [destruct nojail; [mute1|apply jail_silent]|]. intros r. destruct (_ =? _); [apply shaped_exit|].
  assert (K : forall n, shaped (peer_info I fuel env (ppin (settings cmd)) (fun i => tell fuel (childin s0) i (relay fuel cmd n self s0 (finish fuel child key fk tk))))).
  { intros n. assert (T : forall i, shaped (tell fuel (childin s0) i (relay fuel cmd n self s0 (finish fuel child key fk tk)))).
    { intros i. unfold tell. cbn [childin]. do 4 (apply shaped_need; [exact ci_ck|]). apply relay_shaped. }
    unfold peer_info. destruct (ppin _).
    - apply shaped_skip; [apply proxy_silent|]. intros [q e]. destruct (_ =? _); [apply shaped_exit|apply T].
    - apply shaped_skip; [apply connection_silent|]. intros i. apply T. }
  unfold anchor. destruct (anchorfn _) as [fn|]; [|apply K].
  do 2 (apply shaped_skip; [apply calls_lift|]; intros ?). apply shaped_need; [exact TK|].
  apply shaped_skip; [apply readalloc_silent|]. intros [e|pem]; [apply shaped_exit|]. apply shaped_skip; [mute1|]. intros b. destruct (_ =? _); [apply shaped_exit|apply K].
Qed.

(** ** In the encrypted phase *)
Lemma phase_plain : forall P R wc r s u2 ot, legal wc -> legal u2 -> runs (cleartext (timeout cmd) 1 self fuel s0) wc (Fin (r, s)) -> r <> 0 ->
  runs (tls_phase (timeout cmd) 1 self uc fuel (mkts s false true)) u2 ot -> always (engine_ok P R) u2 -> is_prefix (sent ci u2) P.
Proof.
  intros P R wc r s u2 ot L1 L2 R1 NZ R2 A.
  assert (M8 : len (repeat 0 (Z.to_nat 8192)) = 8192) by (unfold len; rewrite repeat_length; reflexivity). unfold empty in R1.
  pose proof (wp_run _ _ _ _ (wp_cleartext (timeout cmd) 1 0 1 ci (fromc_r p) (fromctl_r p) ckw self SETUP fuel _ _ 0 0 M8 M8) _ _ R1 L1) as (_ & _ & F).
  destruct (F _ eq_refl) as (b1 & b2 & S & [(_ & T & _)|(X & _)]); [|contradiction]. cbn [snd] in S. subst s. clear F R1.
  destruct T as (_ & _ & _ & N1 & N2 & N3 & N4). apply closedb_iff in N3, N4. unfold here in R2. rewrite (cur_is 0), (cur_is 1) in R2 by assumption. unfold cur in R2. rewrite N3, N4 in R2.
  destruct SETUP as [ND RG]. repeat match goal with H : Forall _ (_ :: _) |- _ => apply Forall_cons_iff in H as [? H] end. repeat match goal with H : NoDup (_ :: _) |- _ => apply NoDup_cons_iff in H as [? H] end. cbn [In] in *.
  set (ci' := if closedb ci wc then -2 else ci). set (co' := if closedb (fromc_r p) wc then -3 else fromc_r p).
  assert (E1 : (if closedb ci wc then -1 else ci) = closed_as ci'). { unfold closed_as, ci'. destruct (closedb ci wc); [reflexivity|]. destruct (Z.ltb_spec ci 0); [lia|reflexivity]. }
  assert (E2 : (if closedb (fromc_r p) wc then -1 else fromc_r p) = closed_as co'). { unfold closed_as, co'. destruct (closedb (fromc_r p) wc); [reflexivity|]. destruct (Z.ltb_spec (fromc_r p) 0); [lia|reflexivity]. }
  assert (TS : tls_setup 0 1 ci' co' self).
  { unfold ci', co'. split; [|split; [lia|split; [lia|split; [lia|]]]].
    - destruct (closedb ci wc), (closedb (fromc_r p) wc); repeat (apply NoDup_cons; [cbn [In]; intuition lia|]); apply NoDup_nil.
    - destruct (closedb ci wc), (closedb (fromc_r p) wc); intuition lia. }
  pose proof R2 as R2'. rewrite E1, E2 in R2. destruct (C60_streams _ _ _ _ _ _ _ _ _ _ _ _ TS _ _ R2 L2 P R A) as (Q & _ & _). cbn [record app] in Q.
  (* a closed descriptor is not written to *)
  destruct (closedb ci wc) eqn:CB; [|exact Q].
  assert (FZ : 0 <= ci /\ ci <> 1) by (split; [lia|intros X; apply H7; left; exact X]).
  assert (Y : sent ci u2 = []) by (refine (phase_away ci FZ _ _ _ _ _ _ _ _ _ R2'); split; [reflexivity|left; reflexivity]). rewrite Y. exists P. reflexivity.
Qed.

Theorem C98_whole : forall j ki ka o P R, runs (jailed_main I fuel env nojail cmd p child key fk tk self) (part Wrap j) o -> legal (part Wrap j) ->
  pipe Wrap (toc_w p) Prog ki j -> pipe Wrap (toctl_w p) Prog ka j -> always (engine_ok P R) (part Wrap j) ->
  forall j1 n a j2, j = j1 ++ (Prog, (Read ki n, a)) :: j2 -> got ka (part Prog j1) <> [] -> 0 < n -> ret a = 0 \/ (ret a = -1 /\ err a = EAGAIN) ->
  exists x y, P = x ++ got ki (part Prog j2) ++ y.
Proof.
  intros j ki ka o P R RUN L PI PK EN j1 n a j2 E N PN RE. destruct (jailed_shaped _ _ RUN) as (w0 & wc & wt & W & F0 & H).
  pose proof (silent_sent _ _ F0) as Z0. destruct H as [[-> ->]|(oc & RC & SE)].
  { exfalso. destruct PK as [PK _]. destruct (PK _ _ E) as (u & U). rewrite !app_nil_r in W.
    assert (S1 : sent ckw (part Wrap j1) = []). { rewrite E, part_app in W. rewrite <- W, sent_app in Z0. apply app_eq_nil in Z0 as [Z0 _]. exact Z0. }
    rewrite S1 in U. symmetry in U. apply app_eq_nil in U as [U _]. contradiction. }
  rewrite W in L. apply legal_app in L as [L0 L]. apply legal_app in L as [L1 L2].
  assert (M8 : len (repeat 0 (Z.to_nat 8192)) = 8192) by (unfold len; rewrite repeat_length; reflexivity).
  destruct (C98_drained (timeout cmd) 1 0 1 ci (fromc_r p) (fromctl_r p) ckw self 0 0 _ _ fuel SETUP (conj M8 M8) w0 wc wt oc RC L1 j W ki PI ka PK Z0 _ _ _ _ E N PN RE) as (x & y & u & WT & S).
  destruct SE as [[C _]|(u1 & u2 & u3 & r & s & ot & WU & [C1 C2] & [C3 _] & -> & NZ & RT)].
  - rewrite WT, sent_app in C. apply app_eq_nil in C as [_ C]. rewrite C in S. symmetry in S. apply app_eq_nil in S as [-> _]. exists [], P. reflexivity.
  - assert (A : always (engine_ok P R) u2).
    { rewrite W, WU in EN. apply engine_silent in EN; [|eapply silents_engine; exact F0]. apply engine_silent in EN; [|exact (cleartext_engine _ _ _ _ _ _ _ RC)].
      apply engine_silent in EN; [|exact C2]. eapply always_app1. exact EN. }
    rewrite WU in L2. apply legal_app in L2 as [_ L2]. apply legal_app in L2 as [L2 _].
    destruct (phase_plain P R wc r s u2 ot L1 L2 RC NZ RT A) as (v & V).
    assert (SS : sent ci u2 = sent ci x ++ got ki (part Prog j2) ++ u). { rewrite <- S, <- sent_app, <- WT, WU, !sent_app, C1, C3, app_nil_r. reflexivity. }
    exists (sent ci x), (u ++ v). rewrite V, SS, <- !app_assoc. reflexivity.
Qed.
End Whole.
Print Assumptions C98_whole.

(** ** Example *)
(** Reads, waiting and the engine's offers follow the script; everything else succeeds. *)
Definition scripted (l : list ans) (c : sys) : ans * list ans :=
  let take := match l with a :: l => (a, l) | [] => (mkans (-1) 5 [], []) end in
  match c with
  | Read _ _ | Select _ _ _ _ => take
  | Write _ b => (mkans (len b) 0 [], l)
  | Other n _ _ =>
    if same n (bs "getsockname") then (mkans (-1) 0 [], l)
    else if same n (bs "tls_engine_current_state") || same n (bs "tls_engine_recvapp_buf") then take else (mkans 0 0 [], l)
  | _ => (mkans 0 0 [], l)
  end.
Definition delayed_cmd : command := mkcommand (set_delayed (start_opts static_config) true) 60 30 [].
Definition wires : pipes := mkpipes 10 4 3 11 5 12 13 6.
Definition whole_script : list ans :=
  [PlayP.ready [3]; PlayP.rd (crlf (bs "220 hi")); PlayP.ready [-2]; PlayP.ready [0]; PlayP.rd (crlf (bs "STARTTLS")); PlayP.ready [-5];
   PlayP.ready [3]; PlayP.rd (crlf (bs "220 ready to start TLS (#2.0.0)")); PlayP.ready [0]; PlayP.rd injected; PlayP.ready [-5]; PlayP.ready [-2]; PlayP.ready [5]; PlayP.rd [0];
   PlayP.ok 24; PlayP.ready [-5]; mkans 0 0 (crlf (bs "QUIT"))].
Definition whole : prog ending := jailed_main isc (Z.to_nat 60) [] true delayed_cmd wires 500 501 8 9 7.
Definition whole_run : trace * outcome ending := perform scripted 75 whole_script whole.
(** The program: it reads what it is told, then it is as careful as above. *)
Definition told : list Z := firstn 77 (sent 4 (fst whole_run)).
Definition cautious : trace := (Read 0 100, PlayP.rd told) :: careful.
Definition whole_order : list bool := repeat true 17 ++ repeat false 2 ++ repeat true 10 ++ repeat false 3 ++ repeat true 17 ++ repeat false 3 ++ repeat true 31 ++ [false].
Definition history : joint := weave whole_order (fst whole_run) cautious.
Example ex_whole : delayed (settings delayed_cmd) = true /\ clear_setup 0 1 (toc_w wires) (fromc_r wires) (fromctl_r wires) (toctl_w wires) 7 /\ 9 <> toctl_w wires /\
  runs whole (part Wrap history) (snd whole_run) /\ legal (part Wrap history) /\ all_pipes history /\ always (engine_ok (crlf (bs "QUIT")) []) (part Wrap history) /\
  exists j1 j2, history = j1 ++ (Prog, (Read 0 100, PlayP.later)) :: j2 /\ got 6 (part Prog j1) = [0] /\
    got 0 (part Prog j1) = told ++ crlf (bs "STARTTLS") ++ injected /\ got 0 (part Prog j2) = crlf (bs "QUIT").
Proof.
  destruct (weave_part whole_order (fst whole_run) cautious) as [W P]. fold history in W, P. rewrite W.
  split; [reflexivity|]. split; [apply PropClear.ex_starttls|]. split; [discriminate|]. split; [apply perform_runs|]. split; [apply legal_dec; vm_compute; reflexivity|]. split.
  { assert (H : all_pipes_b history = true) by (vm_compute; reflexivity). unfold all_pipes_b in H. apply andb_prop in H as [H H4]. apply andb_prop in H as [H H3]. apply andb_prop in H as [H1 H2].
    split; [apply pipe_b_ok; exact H1|]. split; [apply pipe_b_ok; exact H2|]. split; apply pipe_b_ok; assumption. }
  split. { intros t1 e t2 E. assert (Q : always_b (engine_b (crlf (bs "QUIT")) []) [] (fst whole_run) = true) by (vm_compute; reflexivity). exact (always_b_ok _ _ (engine_b_ok _ _) _ [] Q t1 e t2 E). }
  destruct (part_split Prog history (firstn 7 cautious) (Read 0 100, PlayP.later) (skipn 8 cautious)) as (j1 & j2 & E & A & B); [exact P|]. exists j1, j2. rewrite A, B. split; [exact E|].
  split; [reflexivity|]. split; [vm_compute; reflexivity|reflexivity].
Qed.
