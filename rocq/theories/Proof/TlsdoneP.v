(** The TLS phase passes on everything. *)
From Verif.Model Require Import Base Sys Io Fdio Str Relay Session Tlsphase.
From Verif.Spec Require Import Stream Text Flow Starttls Tlsrelay Tlsdone.
From Verif.Proof Require Import Tac SysP FdioP IoP StrP CallsP WpP TcpP CurP TlsphaseP SafeP.

Notation CS := (bs "tls_engine_current_state").
(** ** The state in use is the present one *)
Definition worksb (c : sys) : bool := existsb (fun m => namedb m c) working.
Lemma worksb_ok : forall c, worksb c = true <-> works c.
Proof.
  intros c. unfold worksb. rewrite existsb_exists. split; intros (m & I & H); exists m; (split; [exact I|]); apply namedb_called; exact H.
Qed.
Definition idlec (c : sys) : Prop := worksb c = false /\ namedb CS c = false.
Definition must (c : sys) : Prop := called (bs "tls_engine_sendapp_ack") c \/ called (bs "tls_engine_close") c.
Definition unfl (t : trace) : Prop := exists a, after t must a.
Definition fok (t : trace) (e : event) : Prop := tls_fresh t e /\ tls_flushed t e.
Definition J (t : trace) : Prop := fresh t /\ ~ unfl t.
Definition N (t : trace) : Prop := ~ unfl t.
Definition anye (t : trace) (e : event) : Prop := True.
Lemma after_snoc : forall t c a P x, after (t ++ [(c, a)]) P x -> P c.
Proof. intros t c a P x (t0 & y & E & H). apply app_inj_tail in E as [_ E]. injection E as <- _. exact H. Qed.
Lemma must_works : forall c, must c -> worksb c = true.
Proof. intros c [H|H]; apply worksb_ok; eexists; (split; [|exact H]); cbn; tauto. Qed.
Lemma flushed_N : forall t e, ~ unfl t -> tls_flushed t e.
Proof. intros t e H a A. destruct H. exists a. exact A. Qed.
Lemma J_idle : forall t e, J t -> idlec (fst e) -> anye t e -> fok t e /\ J (t ++ [e]).
Proof.
  intros t [c a] [F U] [W S] _. cbn [fst] in *. split; [split; [|apply flushed_N; auto]; destruct c; exact I || exact F|]. split.
  - destruct F as (t0 & x & u & -> & H). exists t0, x, (u ++ [(c, a)]). split; [rewrite <- app_assoc; reflexivity|].
    intros e X. apply in_app_or in X as [X|[X|[]]]; auto. subst e. cbn [fst]. rewrite <- worksb_ok, <- namedb_called, W, S. split; discriminate.
  - intros (x & A). apply after_snoc in A. apply must_works in A. congruence.
Qed.
Lemma N_query : forall R t k (Q : trace -> R -> Prop), N t -> (forall t' a, J t' -> sp anye fok t' (k a) Q) -> sp anye fok t (Do (Other CS [] []) k) Q.
Proof.
  intros R t k Q H K. apply sp_do. intros a _. split; [split; [exact I|apply flushed_N; auto]|]. apply K. split.
  - exists t, a, []. split; [reflexivity|intros e []].
  - intros (x & A). apply after_snoc in A. apply must_works in A. discriminate A.
Qed.
(** A working call *)
Lemma N_work : forall R t c k (Q : trace -> R -> Prop), N t -> match c with Other _ _ _ => True | _ => False end -> namedb (bs "tls_engine_sendapp_ack") c = false -> namedb (bs "tls_engine_close") c = false ->
  (forall t' a, N t' -> sp anye fok t' (k a) Q) -> sp anye fok t (Do c k) Q.
Proof.
  intros R t c k Q H O B1 B2 K. apply sp_do. intros a _. split; [split; [destruct c; tauto || exact I|apply flushed_N; auto]|]. apply K.
  intros (x & A). apply after_snoc in A. destruct A as [A|A]; apply namedb_called in A; congruence.
Qed.
Lemma N_must : forall R t c k (Q : trace -> R -> Prop), N t -> match c with Other _ _ _ => True | _ => False end ->
  (forall t' a, N t' -> sp anye fok t' (k a) Q) -> sp anye fok t (Do c (fun _ => Do (Other (bs "tls_engine_flush") [0] []) k)) Q.
Proof.
  intros R t c k Q H O K. apply sp_do. intros a _. split; [split; [destruct c; tauto || exact I|apply flushed_N; auto]|].
  apply sp_do. intros b _. split; [split; [exact I|intros x _; reflexivity]|]. apply K. intros (x & A). apply after_snoc in A. destruct A as [A|A]; apply namedb_called in A; discriminate A.
Qed.
Lemma J_N : forall t, J t -> N t. Proof. intros t [_ H]. exact H. Qed.
(** Parts without work *)
Lemma idle_part : forall R t (p : prog R), J t -> calls idlec p -> sp anye fok t p (fun t' _ => J t').
Proof. intros R t p H C. eapply sp_quiet; [exact C|exact H|apply J_idle]. Qed.
Ltac here := split; reflexivity.
Ltac steps := repeat (calls1 || (progress cbv zeta)); try here.
Lemma writeall_i : forall f fd x n, calls idlec (writeall f fd x n).
Proof. intros. eapply calls_weak; [apply writeall_calls|]. intros c [(b & ->)| ->]; here. Qed.
Lemma pipe_write_i : forall f fd x n, calls idlec (pipe_write f fd x n).
Proof. intros. eapply calls_weak; [apply pipe_write_calls|]. intros c [(b & ->)| ->]; here. Qed.
Lemma shut_r_i : forall v, calls idlec (shut_r v).
Proof. intros. unfold shut_r, fd_close_read, fd_close_, tryshutdown, tryclose. steps. Qed.
Lemma shut_w_i : forall v, calls idlec (shut_w v).
Proof. intros. unfold shut_w, fd_close_write, fd_close_, tryshutdown, tryclose. steps. Qed.
Lemma fd_read_i : forall f r n, calls idlec (fd_read f r n).
Proof. intros. unfold fd_read. steps. Qed.
Lemma fd_write_i : forall f x n, calls idlec (fd_write f x n).
Proof. intros. unfold fd_write. steps. Qed.
Lemma jail_poll_i : forall x ms, calls idlec (jail_poll x ms).
Proof. intros. unfold jail_poll. steps. Qed.
Lemma watch_i : forall ws, calls idlec (watch ws).
Proof. intros. unfold watch. steps. apply jail_poll_i. Qed.
Lemma alarm_i : forall t, calls idlec (alarm t).
Proof. intros. unfold alarm. steps. Qed.
Create HintDb idlec.
#[local] Hint Resolve writeall_i pipe_write_i shut_r_i shut_w_i fd_read_i fd_write_i jail_poll_i watch_i alarm_i : idlec.
Lemma selfpipe_i : forall f self s, calls idlec (selfpipe_event f self s).
Proof. intros. unfold selfpipe_event. steps; auto with idlec. Qed.
Lemma pending_i : forall fuel fd, calls idlec (pending_now fuel fd).
Proof. intros. unfold pending_now. steps. induction fuel as [|fuel IH]; cbn [pending_loop]; steps; auto with idlec. Qed.
Lemma report_user_i : forall fuel fd s, calls idlec (report_user fuel fd s).
Proof. intros. unfold report_user. steps; auto with idlec. Qed.
#[local] Hint Resolve selfpipe_i pending_i report_user_i : idlec.
Lemma eof1_i : forall st s, calls idlec (tls_eof1 st s).
Proof. intros. unfold tls_eof1. steps; auto with idlec. Qed.
Lemma eof2_i : forall fuel st s, calls idlec (tls_eof2 fuel st s).
Proof. intros. unfold tls_eof2. steps; auto with idlec. Qed.
Lemma eof3_i : forall st s, calls idlec (tls_eof3 st s).
Proof. intros. unfold tls_eof3. steps; auto with idlec. Qed.
Lemma report_i : forall timeout uc fuel st s, calls idlec (report_handshake timeout uc fuel st s).
Proof. intros. unfold report_handshake, engine. steps; auto with idlec. Qed.
Lemma offer_i : forall fd x, calls idlec (offer fd x).
Proof. intros. unfold offer. steps; auto with idlec. Qed.
Lemma fetch_i : forall fd n, calls idlec (fetch fd n).
Proof. intros. unfold fetch. steps; auto with idlec. Qed.
(** [Again]: no flush is due; [Stop]: the state is the present one, too. *)
Definition nextv (t : trace) (x : tverdict) : Prop := match x with Again _ => N t | Stop _ => J t end.
Ltac idle H := eapply sp_bind; [apply idle_part; [exact H|]|cbn beta; clear H; intros].
Lemma sp_notify : forall t st s, J t -> sp anye fok t (tls_notify st s) (fun t' _ => J t').
Proof.
  intros t st s H. unfold tls_notify. destruct (_ && _ && _); [|apply sp_ret; exact H]. unfold engine, flush, sys1, current_state. cbn [pbind]. apply N_must; [apply J_N; exact H|exact I|].
  intros t1 a H1. cbn [pbind]. unfold engine, sys1. cbn [pbind]. apply N_query; auto. intros t2 b H2. apply sp_ret. exact H2.
Qed.
Lemma sp_engine : forall R t m (k : ans -> prog R) Q, J t -> idlec (Other m [] []) -> (forall t' a, J t' -> sp anye fok t' (k a) Q) -> sp anye fok t (pbind (engine m) k) Q.
Proof. intros R t m k Q H I K. unfold engine, sys1. cbn [pbind]. apply sp_do. intros a _. destruct (J_idle t (Other m [] [], a) H I Logic.I) as [O1 H1]. split; auto. Qed.
Lemma sp_tochild : forall t s, J t -> sp anye fok t (tls_tochild s) nextv.
Proof.
  intros t s H. unfold tls_tochild. apply sp_engine; [exact H|here|]. clear H. intros t1 a H. eapply sp_bind; [apply idle_part; [exact H|apply offer_i]|]. cbn beta. clear H. intros t2 [r e] H.
  destruct (again r e); [apply sp_ret; apply J_N; exact H|]. destruct (r <=? 0).
  - eapply sp_bind; [apply idle_part; [exact H|apply shut_w_i]|]. cbn beta. intros t3 v H3. apply sp_ret. exact H3.
  - unfold engine_ack, sys1. cbn [pbind]. apply N_work; [apply J_N; exact H|exact I|reflexivity|reflexivity|]. intros t3 b H3. apply sp_ret. exact H3.
Qed.
Lemma sp_topeer : forall t s, J t -> sp anye fok t (tls_topeer s) nextv.
Proof.
  intros t s H. unfold tls_topeer. apply sp_engine; [exact H|here|]. clear H. intros t1 a H. eapply sp_bind; [apply idle_part; [exact H|apply offer_i]|]. cbn beta. clear H. intros t2 [r e] H.
  destruct (again r e); [apply sp_ret; apply J_N; exact H|]. destruct (r <=? 0).
  - eapply sp_bind; [apply idle_part; [exact H|apply shut_w_i]|]. cbn beta. intros t3 v H3. apply sp_ret. exact H3.
  - unfold engine_ack, sys1. cbn [pbind]. apply N_work; [apply J_N; exact H|exact I|reflexivity|reflexivity|]. intros t3 b H3. apply sp_ret. exact H3.
Qed.
Lemma sp_frompeer : forall timeout t s, J t -> sp anye fok t (tls_frompeer timeout s) nextv.
Proof.
  intros timeout t s H. unfold tls_frompeer. apply sp_engine; [exact H|here|]. clear H. intros t1 a H. eapply sp_bind; [apply idle_part; [exact H|apply fetch_i]|]. cbn beta. clear H. intros t2 [[r e] d] H.
  destruct (again r e); [apply sp_ret; apply J_N; exact H|]. destruct (r <=? 0).
  - eapply sp_bind; [apply idle_part; [exact H|apply shut_r_i]|]. cbn beta. intros t3 v H3. apply sp_ret. apply J_N. exact H3.
  - unfold engine_ack, alarm, sys1. cbn [pbind]. apply N_work; [apply J_N; exact H|exact I|reflexivity|reflexivity|]. intros t3 b H3. cbn [pbind].
    apply N_work; [exact H3|exact I|reflexivity|reflexivity|]. intros t4 b' H4. apply sp_ret. exact H4.
Qed.
Lemma sp_fromchild : forall timeout t s, J t -> sp anye fok t (tls_fromchild timeout s) nextv.
Proof.
  intros timeout t s H. unfold tls_fromchild. apply sp_engine; [exact H|here|]. clear H. intros t1 a H. eapply sp_bind; [apply idle_part; [exact H|apply fetch_i]|]. cbn beta. clear H. intros t2 [[r e] d] H.
  destruct (again r e); [apply sp_ret; apply J_N; exact H|]. destruct (r <=? 0).
  - eapply sp_bind; [apply idle_part; [exact H|apply shut_r_i]|]. cbn beta. intros t3 v H3. apply sp_ret. apply J_N. exact H3.
  - unfold engine_ack, flush, alarm, sys1. cbn [pbind]. apply N_must; [apply J_N; exact H|exact I|]. intros t3 b H3. cbn [pbind].
    apply N_work; [exact H3|exact I|reflexivity|reflexivity|]. intros t4 b' H4. apply sp_ret. exact H4.
Qed.
Lemma sp_signal : forall finish self t s, J t -> sp anye fok t (tls_signal finish self s) nextv.
Proof.
  intros finish self t s H. unfold tls_signal. eapply sp_bind; [apply idle_part; [exact H|apply selfpipe_i]|]. cbn beta. intros t1 [[|] f] H1; apply sp_ret; [exact H1|apply J_N; exact H1].
Qed.
Lemma sp_body : forall timeout finish self uc fuel t s, N t -> sp anye fok t (tls_body timeout finish self uc fuel s) nextv.
Proof.
  intros timeout finish self uc fuel t s H. unfold tls_body, current_state at 1, engine, sys1. cbn [pbind]. apply N_query; [exact H|]. clear H. intros t1 a H. cbn [pbind].
  eapply sp_bind; [apply idle_part; [exact H|apply eof1_i]|]. cbn beta. clear H. intros t2 f1 H.
  eapply sp_bind; [apply idle_part; [exact H|apply eof2_i]|]. cbn beta. clear H. intros t3 f2 H.
  eapply sp_bind; [apply idle_part; [exact H|apply eof3_i]|]. cbn beta. clear H. intros t4 f H.
  eapply sp_bind; [apply sp_notify; exact H|]. cbn beta. clear H. intros t5 st H.
  eapply sp_bind; [apply idle_part; [exact H|apply report_i]|]. cbn beta. clear H. intros t6 [s'|] H; [|apply sp_ret; exact H].
  destruct (_ && _); [apply sp_ret; exact H|]. destruct (_ && _); [apply sp_ret; exact H|]. destruct (_ && _ && _ && _); [apply sp_ret; exact H|].
  eapply sp_bind; [apply idle_part; [exact H|apply watch_i]|]. cbn beta. clear H. intros t7 h H.
  destruct h as [|w1 [|w2 [|w3 [|w4 [|w5 [|]]]]]]; try apply sp_bad.
  destruct w3; [apply sp_tochild; exact H|]. destruct w1; [apply sp_topeer; exact H|]. destruct w2; [apply sp_frompeer; exact H|]. destruct w4; [apply sp_fromchild; exact H|].
  destruct w5; [apply sp_signal; exact H|]. apply sp_ret. apply J_N. exact H.
Qed.
Lemma sp_phase : forall timeout finish self uc fuel f t s, N t -> sp anye fok t (iter f (tls_body timeout finish self uc fuel) s) (fun t' _ => J t').
Proof.
  intros timeout finish self uc fuel. induction f as [|f IH]; intros t s H; cbn [iter]; [apply sp_halt|].
  eapply sp_bind; [apply sp_body; exact H|]. cbn beta. intros t1 [s'|r] H1; [apply IH; exact H1|apply sp_ret; exact H1].
Qed.
Lemma tls_phase_fresh : forall timeout finish self uc fuel s tr o, runs (tls_phase timeout finish self uc fuel s) tr o ->
  always tls_fresh tr /\ always tls_flushed tr /\ (forall r, o = Fin r -> fresh tr).
Proof.
  intros timeout finish self uc fuel s tr o R. assert (H0 : N []). { intros (a & t0 & x & E & _). destruct t0; discriminate. }
  destruct (sp_phase timeout finish self uc fuel fuel [] s H0 tr o R) as [H1 H2]; [intros t1 e t2 _; exact I|].
  split; [|split].
  - intros t1 e t2 E. apply (H1 t1 e t2 E).
  - intros t1 e t2 E. apply (H1 t1 e t2 E).
  - intros r E. apply (H2 r E).
Qed.

(** ** What the engine has made has been passed on *)
Notation RA := (bs "tls_engine_recvapp_ack").
Notation SR := (bs "tls_engine_sendrec_ack").
Section Made.
Variables P R : trace -> list Z.
Variable failed : trace -> Prop.
Notation makes := (engine_makes P R failed).
Lemma prefix_trans : forall a b c : list Z, is_prefix a b -> is_prefix b c -> is_prefix a c.
Proof. intros a b c (u & ->) (v & ->). exists (u ++ v). symmetry. apply app_assoc. Qed.
Lemma made_prefix : forall t2 t1, always makes (t1 ++ t2) -> is_prefix (P t1) (P (t1 ++ t2)) /\ is_prefix (R t1) (R (t1 ++ t2)) /\ (failed t1 -> failed (t1 ++ t2)).
Proof.
  induction t2 as [|e t2 IH] using rev_ind; intros t1 H; [rewrite app_nil_r; split; [apply prefix_refl|split; [apply prefix_refl|auto]]|].
  rewrite app_assoc in H. apply always_last in H as [H M]. destruct (IH _ H) as (A & B & C). destruct e as [c a]. destruct M as (_ & _ & _ & _ & _ & M1 & M2 & M3 & _). rewrite app_assoc.
  split; [eapply prefix_trans; eauto|]. split; [eapply prefix_trans; eauto|auto].
Qed.
Lemma skip_more : forall k (a b : list Z) d u, is_prefix a b -> skipn k a = d ++ u -> d <> [] -> exists v, skipn k b = d ++ v.
Proof.
  intros k a b d u (w & ->) S D. exists (u ++ w). rewrite skipn_app, S, <- app_assoc. f_equal. f_equal. replace (k - length a)%nat with 0%nat; [reflexivity|].
  destruct (Nat.le_gt_cases k (length a)) as [L|L]; [lia|]. rewrite skipn_all2 in S by lia. destruct d; [congruence|discriminate].
Qed.
Lemma made_ok : forall t, always makes t -> always (engine_ok (P t) (R t)) t.
Proof.
  intros t H t1 [c a] t2 E. pose proof (H t1 (c, a) t2 E) as (M1 & M2 & M3 & _). assert (X : is_prefix (P t1) (P t) /\ is_prefix (R t1) (R t)).
  { rewrite E in H |- *. destruct (made_prefix _ _ H) as (A & B & _). auto. }
  destruct X as [XP XR]. split; [|split; [|exact M3]].
  - intros C. destruct (M1 C) as (u & S). destruct (data a) as [|z d] eqn:D; [eexists; reflexivity|]. eapply skip_more; [exact XP|exact S|discriminate].
  - intros C. destruct (M2 C) as (u & S). destruct (data a) as [|z d] eqn:D; [eexists; reflexivity|]. eapply skip_more; [exact XR|exact S|discriminate].
Qed.
(** Nothing is made between the last look at the state and now. *)
Lemma made_fresh : forall t, always makes t -> fresh t ->
  (Z.testbit (state t) 4 = false -> len (P t) <= acked RA t \/ failed t) /\ (Z.testbit (state t) 1 = false -> len (R t) <= acked SR t \/ failed t).
Proof.
  intros t H (t0 & a & u & E & U). revert t E H. induction u as [|[c x] u IH] using rev_ind; intros t E H.
  - rewrite E in *. apply always_last in H as [H M]. destruct M as (_ & _ & _ & M1 & M2 & _ & _ & M3 & M4).
    destruct M4 as [M4 M5]; [intros W; apply worksb_ok in W; discriminate W|]. rewrite state_snoc. change (namedb _ _) with true. cbn match. rewrite !acked_keep by reflexivity. unfold event in *. rewrite M4, M5.
    assert (C : called CS (Other CS [] [])) by (exists [], []; reflexivity). split; intros B; [destruct (M1 C B)|destruct (M2 C B)]; auto.
  - assert (U' : forall e, In e u -> ~ works (fst e) /\ ~ called CS (fst e)) by (intros e X; apply U; apply in_or_app; auto).
    set (t' := t0 ++ (Other CS [] [], a) :: u). assert (E' : t = t' ++ [(c, x)]) by (rewrite E; unfold t'; rewrite <- app_assoc; reflexivity). clear E. rewrite E' in *. apply always_last in H as [H M].
    destruct (IH U' t' eq_refl H) as [A B]. destruct M as (_ & _ & _ & _ & _ & _ & _ & M3 & M4). destruct (U (c, x)) as [W S]; [apply in_or_app; right; left; reflexivity|]. cbn [fst] in *. destruct (M4 W) as [M5 M6]. unfold event in *. rewrite M5, M6.
    rewrite <- namedb_called in S. rewrite <- worksb_ok in W. assert (N1 : forall m, In m working -> namedb m c = false). { intros m I. destruct (namedb m c) eqn:Z; auto. destruct W. apply existsb_exists. exists m. auto. }
    rewrite state_keep by (destruct (namedb CS c); congruence). rewrite !acked_keep by (apply N1; cbn; tauto).
    split; intros Z; [destruct (A Z)|destruct (B Z)]; auto.
Qed.
End Made.

Section Phase.
Variables pi po ci co self : Z.
Variables usercert reported0 : bool.
Variables P R : trace -> list Z.
Variable failed : trace -> Prop.
Notation makes := (engine_makes P R failed).
Notation settled_ := (settled pi po ci co self usercert reported0).
Lemma prefix_full : forall q l : list Z, is_prefix q l -> len l <= len q -> q = l.
Proof. intros q l (u & ->) L. rewrite len_app in L. destruct u as [|z u]; [symmetry; apply app_nil_r|]. rewrite len_cons in L. pose proof (len_nonneg _ u). lia. Qed.
Lemma given_all : forall t, always makes t -> fresh t -> settled_ t -> ~ gone ci t -> ~ Recvapp t -> given P ci usercert reported0 t \/ failed t.
Proof.
  intros t M F (sh & rep & S) G B. destruct (made_fresh _ _ _ _ M F) as [D _]. destruct D as [D|D]; [destruct (Z.testbit (state t) 4) eqn:Z; [destruct B; exact Z|reflexivity]| |auto]. left.
  pose proof (made_ok _ _ _ _ M) as E. destruct rep.
  - destruct (f_P1 _ _ _ _ _ _ _ _ _ _ S _ _ E eq_refl) as (q & Q1 & Q2 & [[Q3 _]|[Q3 _]]); [|contradiction]. left. rewrite Q3. f_equal. apply prefix_full; auto. lia.
  - destruct (f_P0 _ _ _ _ _ _ _ _ _ _ S _ _ E eq_refl) as [Q1 Q2]. right. split; auto. rewrite Q2 in D. destruct (P t) as [|z l]; auto. rewrite len_cons in D. pose proof (len_nonneg _ l). lia.
Qed.
Lemma sent_all : forall t, always makes t -> fresh t -> settled_ t -> ~ Sendrec t -> sent po t = R t \/ failed t.
Proof.
  intros t M F (sh & rep & S) B. destruct (made_fresh _ _ _ _ M F) as [_ D]. destruct D as [D|D]; [destruct (Z.testbit (state t) 1) eqn:Z; [destruct B; exact Z|reflexivity]| |auto]. left.
  pose proof (made_ok _ _ _ _ M) as E. apply prefix_full; [exact (f_R _ _ _ _ _ _ _ _ _ _ S _ _ E)|]. rewrite <- (f_po _ _ _ _ _ _ _ _ _ _ S). exact D.
Qed.
End Phase.
