(** The TLS phase. *)
From Verif.Model Require Import Base Sys Io Fdio Str Relay Session Tlsphase.
From Verif.Spec Require Import Stream Text Waiting Flow Starttls Tlsrelay.
From Verif.Proof Require Import Tac SysP FdioP IoP StrP CallsP WpP TcpP CurP.

(** ** Flags *)
Lemma has_bit : forall st k, 0 <= k -> has st (2 ^ k) = Z.testbit st k.
Proof.
  intros st k K. unfold has. destruct (Z.testbit st k) eqn:B.
  - apply negb_true_iff. apply Z.eqb_neq. intros E. apply (f_equal (fun x => Z.testbit x k)) in E. rewrite Z.land_spec, B, Z.pow2_bits_true, Z.bits_0 in E by auto. discriminate.
  - apply negb_false_iff. apply Z.eqb_eq. apply Z.bits_inj. intros n. rewrite Z.land_spec, Z.bits_0. destruct (Z.eq_dec n k) as [->|N]; [rewrite B; reflexivity|]. rewrite Z.pow2_bits_false by auto. apply andb_false_r.
Qed.
Lemma has_closed : forall st, has st CLOSED = Z.testbit st 0. Proof. intros. apply (has_bit st 0). lia. Qed.
Lemma has_sendrec : forall st, has st SENDREC = Z.testbit st 1. Proof. intros. apply (has_bit st 1). lia. Qed.
Lemma has_recvrec : forall st, has st RECVREC = Z.testbit st 2. Proof. intros. apply (has_bit st 2). lia. Qed.
Lemma has_sendapp : forall st, has st SENDAPP = Z.testbit st 3. Proof. intros. apply (has_bit st 3). lia. Qed.
Lemma has_recvapp : forall st, has st RECVAPP = Z.testbit st 4. Proof. intros. apply (has_bit st 4). lia. Qed.

(** ** Functions of the history *)
Lemma namedb_called : forall n c, namedb n c = true <-> called n c.
Proof.
  intros n c. unfold namedb, called. destruct c as [| | | | | | | |m x d]; try (split; [discriminate|intros (x & y & E); discriminate]).
  destruct (list_eq_dec Z.eq_dec m n) as [->|N]; split; intros H; try discriminate; eauto. destruct H as (x' & y & E). injection E as -> _ _. contradiction.
Qed.
Lemma state_snoc : forall t c a, state (t ++ [(c, a)]) = if namedb (bs "tls_engine_current_state") c then ret a else state t.
Proof. intros. unfold state. rewrite fold_left_app. reflexivity. Qed.
Lemma handed_snoc : forall n t c a, handed n (t ++ [(c, a)]) = handed n t ++ match c with Other _ _ d => if namedb n c then d else [] | _ => [] end.
Proof. intros. unfold handed. rewrite map_app, concat_app. cbn [map concat fst]. rewrite app_nil_r. reflexivity. Qed.
Lemma acked_snoc : forall n t c a, acked n (t ++ [(c, a)]) = match c with Other _ (k :: _) _ => if namedb n c then acked n t + k else acked n t | _ => acked n t end.
Proof. intros. unfold acked. rewrite fold_left_app. reflexivity. Qed.
Lemma state_keep : forall t c a, namedb (bs "tls_engine_current_state") c = false -> state (t ++ [(c, a)]) = state t.
Proof. intros t c a H. rewrite state_snoc, H. reflexivity. Qed.
Lemma handed_keep : forall n t c a, namedb n c = false -> handed n (t ++ [(c, a)]) = handed n t.
Proof. intros n t c a H. rewrite handed_snoc, H. destruct c; apply app_nil_r. Qed.
Lemma acked_keep : forall n t c a, namedb n c = false -> acked n (t ++ [(c, a)]) = acked n t.
Proof. intros n t c a H. rewrite acked_snoc, H. destruct c as [| | | | | | | |m [|k x] d]; reflexivity. Qed.
Lemma always_last : forall OK t e, always OK (t ++ [e]) -> always OK t /\ OK t e.
Proof. intros OK t e H. split; [eapply always_split; eauto|]. eapply H. reflexivity. Qed.
Lemma seenapp_mono : forall t u, seenapp t -> seenapp (t ++ u).
Proof. intros t u (c & a & I & B). exists c, a. split; auto. apply in_or_app. auto. Qed.
Lemma seenapp_snoc : forall t c a, seenapp (t ++ [(c, a)]) -> seenapp t \/ (namedb (bs "tls_engine_current_state") c = true /\ Z.testbit (ret a) 3 = true).
Proof. intros t c a (x & b & I & N & B). apply in_app_or in I as [I|[I|[]]]; [left; exists x, b; auto|]. injection I as -> ->. right. split; auto. apply namedb_called. auto. Qed.
Lemma state_app : forall t, Z.testbit (state t) 3 = true -> seenapp t.
Proof.
  induction t as [|[c a] t IH] using rev_ind; [discriminate|]. rewrite state_snoc. destruct (namedb _ c) eqn:N; intros B; [|apply seenapp_mono; auto].
  exists c, a. split; [apply in_or_app; right; left; auto|]. split; auto. apply namedb_called. auto.
Qed.
Lemma find_app : forall A (f : A -> bool) l m, find f (l ++ m) = match find f l with Some x => Some x | None => find f m end.
Proof. intros A f l m. induction l as [|x l IH]; cbn [app find]; auto. destruct (f x); auto. Qed.
Lemma prefix_refl : forall l, is_prefix l l.
Proof. intros l. exists []. symmetry. apply app_nil_r. Qed.
Lemma prefix_len : forall p l, is_prefix p l -> len p <= len l.
Proof. intros p l (u & ->). rewrite len_app. pose proof (len_nonneg _ u). lia. Qed.
(** The next piece of a stream. *)
Lemma prefix_next : forall q P n d u r k, is_prefix q P -> len q = n -> skipn (Z.to_nat n) P = d ++ u -> is_prefix (q ++ firstn r (firstn k d)) P.
Proof.
  intros q P n d u r k (v & ->) <- S. assert (E : Z.to_nat (len q) = length q) by (unfold len; lia). rewrite E, skipn_app, skipn_all, Nat.sub_diag in S. cbn [skipn app] in S. subst v.
  exists (skipn r (firstn k d) ++ skipn k d ++ u). rewrite <- app_assoc. f_equal. rewrite app_assoc, firstn_skipn, app_assoc, firstn_skipn. reflexivity.
Qed.

Section Tls.
Variables timeout finish pi po ci co self : Z.
Variables usercert reported0 : bool.
Variables b1 b2 : rbuf.
Hypothesis SETUP : tls_setup pi po ci co self.

Ltac nd_solve :=
  let H := fresh in
  destruct SETUP as [H _];
  repeat match type of H with NoDup (_ :: _) => let A := fresh in inversion_clear H as [|? ? A H'] ; rename H' into H; cbn [In] in A end;
  intros E; rewrite E in *; tauto.
Lemma m_pi_po : pi <> po. Proof. nd_solve. Qed.
Lemma m_pi_ci : pi <> ci. Proof. nd_solve. Qed.
Lemma m_pi_co : pi <> co. Proof. nd_solve. Qed.
Lemma m_pi_self : pi <> self. Proof. nd_solve. Qed.
Lemma m_po_pi : po <> pi. Proof. nd_solve. Qed.
Lemma m_po_ci : po <> ci. Proof. nd_solve. Qed.
Lemma m_po_co : po <> co. Proof. nd_solve. Qed.
Lemma m_po_self : po <> self. Proof. nd_solve. Qed.
Lemma m_ci_pi : ci <> pi. Proof. nd_solve. Qed.
Lemma m_ci_po : ci <> po. Proof. nd_solve. Qed.
Lemma m_ci_co : ci <> co. Proof. nd_solve. Qed.
Lemma m_ci_self : ci <> self. Proof. nd_solve. Qed.
Lemma m_co_pi : co <> pi. Proof. nd_solve. Qed.
Lemma m_co_po : co <> po. Proof. nd_solve. Qed.
Lemma m_co_ci : co <> ci. Proof. nd_solve. Qed.
Lemma m_co_self : co <> self. Proof. nd_solve. Qed.
Lemma m_self_pi : self <> pi. Proof. nd_solve. Qed.
Lemma m_self_po : self <> po. Proof. nd_solve. Qed.
Lemma m_self_ci : self <> ci. Proof. nd_solve. Qed.
Lemma m_self_co : self <> co. Proof. nd_solve. Qed.
Hint Resolve m_pi_po m_pi_ci m_pi_co m_pi_self m_po_pi m_po_ci m_po_co m_po_self m_ci_pi m_ci_po m_ci_co m_ci_self m_co_pi m_co_po m_co_ci m_co_self m_self_pi m_self_po m_self_ci m_self_co : tfds.
Lemma z_pi : 0 <= pi < 1024. Proof. apply SETUP. Qed.
Lemma z_po : 0 <= po < 1024. Proof. apply SETUP. Qed.
Lemma z_self : 0 <= self < 1024. Proof. apply SETUP. Qed.
Lemma z_ci : ci < -1 \/ 0 <= ci < 1024. Proof. apply SETUP. Qed.
Lemma z_co : co < -1 \/ 0 <= co < 1024. Proof. apply SETUP. Qed.
Ltac fds := eauto with tfds.

(** The value of the variable of descriptor [f]. *)
Definition val (f : Z) (t : trace) : Z := if f <? 0 then -1 else cur f t.
Definition valid (f : Z) : Prop := f < -1 \/ 0 <= f < 1024.
Lemma v_pi : valid pi. Proof. right. apply z_pi. Qed.
Lemma v_po : valid po. Proof. right. apply z_po. Qed.
Lemma v_ci : valid ci. Proof. apply z_ci. Qed.
Lemma v_co : valid co. Proof. apply z_co. Qed.
Hint Resolve v_pi v_po v_ci v_co : tfds.
Lemma val_open : forall f t, open (val f t) = true <-> ~ gone f t.
Proof.
  intros f t. unfold val, gone. destruct (Z.ltb_spec f 0) as [L|L]; [unfold open; cbn; split; [discriminate|tauto]|]. rewrite cur_open by auto. split; [intros N [H|H]; [lia|auto]|auto].
Qed.
Lemma val_shut : forall f t, open (val f t) = false <-> gone f t.
Proof.
  intros f t. unfold val, gone. destruct (Z.ltb_spec f 0) as [L|L]; [unfold open; cbn; split; auto|]. rewrite cur_shut by auto. split; [auto|intros [H|H]; [lia|auto]].
Qed.
Lemma val_is : forall f t, ~ gone f t -> val f t = f.
Proof. intros f t N. unfold gone in N. unfold val. replace (f <? 0) with false by (destruct (Z.ltb_spec f 0); tauto). apply cur_is. tauto. Qed.
Lemma val_gone : forall f t, gone f t -> val f t = -1.
Proof. intros f t [L|C]; unfold val; [replace (f <? 0) with true by lia; auto|]. destruct (f <? 0); auto. apply cur_gone. auto. Qed.
Lemma val_snoc : forall f t c a, c <> Close f -> val f (t ++ [(c, a)]) = val f t.
Proof. intros f t c a N. unfold val. rewrite cur_snoc by auto. reflexivity. Qed.
Lemma gone_snoc : forall f t c a, c <> Close f -> (gone f (t ++ [(c, a)]) <-> gone f t).
Proof. intros f t c a N. unfold gone. rewrite closed_snoc by auto. tauto. Qed.
Lemma gone_mono : forall f t u, gone f t -> gone f (t ++ u).
Proof. intros f t u [H|H]; [left; auto|right; apply closed_mono; auto]. Qed.
Lemma gone_dec : forall f t, gone f t \/ ~ gone f t.
Proof. intros f t. destruct (open (val f t)) eqn:E; [right; apply val_open; auto|left; apply val_shut; auto]. Qed.

Notation TOLD := (told self).
Notation REASON := (tls_reason pi po ci co self).
Notation SERVE := (tls_serve pi po ci co self).
Notation RR := (bs "tls_engine_recvrec_ack").
Notation SA := (bs "tls_engine_sendapp_ack").
Notation SR := (bs "tls_engine_sendrec_ack").
Notation RA := (bs "tls_engine_recvapp_ack").
Notation RECORD := (record usercert reported0).
Notation CERT := (certified usercert reported0).
Notation HANDING := (handing pi po co).
Notation STREAMS := (streams po ci usercert reported0).
Definition calm (t : trace) : Prop := forall e, SERVE t e.
Definition nocrt (t : trace) : Prop := find (fun e : event => namedb (bs "clientcrt") (fst e)) t = None.
Record flow (t : trace) (sh rep : bool) : Prop := mkflow {
  f_pi : handed RR t = got pi t; f_co : handed SA t = got co t; f_po : acked SR t = len (sent po t);
  f_R : forall P R, always (engine_ok P R) t -> is_prefix (sent po t) R;
  f_P0 : forall P R, always (engine_ok P R) t -> rep = false -> sent ci t = [] /\ acked RA t = 0;
  f_P1 : forall P R, always (engine_ok P R) t -> rep = true -> exists q, is_prefix q P /\ acked RA t = len q /\ ((sent ci t = RECORD t ++ q /\ CERT t) \/ (gone ci t /\ sent ci t = []));
  f_sh : sh = true -> rep = true /\ seenapp t;
  f_un : sh = false -> rep = reported0;
  f_self : ~ closed self t; f_neg : ~ closed (-1) t }.
(** Between the transfers *)
Definition still (c : sys) : Prop := match c with Shutdown _ _ | Close _ | Select _ _ _ _ => True | _ => False end.
Definition settled (t : trace) : Prop := exists sh rep, flow t sh rep.
Definition tok (t : trace) (e : event) : Prop :=
  usable t e /\ tls_close pi po ci co self t e /\ tls_moves pi po ci co reported0 t e /\ tls_notified ci co t e /\
  tls_select pi po ci co self t e /\ SERVE t e /\ HANDING (t ++ [e]) /\
  (forall P R, always (engine_ok P R) (t ++ [e]) -> STREAMS P R (t ++ [e])) /\
  (still (fst e) -> settled t).
Record tends (t : trace) : Prop := mktends {
  t_pi : eof pi t -> gone pi t; t_co : eof co t -> gone co t; t_67 : TOLD 67 t -> gone ci t; t_65 : TOLD 65 t -> gone ci t /\ gone co t }.
Definition seenok (t : trace) (sh : bool) : Prop := seenapp t -> sh = true \/ (gone ci t /\ gone co t).
Definition at_ (t : trace) : sess := mksess (val pi t) (val po t) (val ci t) (val co t) (-1) (-1) b1 b2.
Definition tinv (t : trace) (s : tsess) : Prop :=
  fds s = at_ t /\ flow t (shaken s) (told_user s) /\ tends t /\ seenok t (shaken s) /\ calm t /\ (shaken s = false -> nocrt t).
Definition tstop (t : trace) (r : Z) (s : tsess) : Prop :=
  fds s = at_ t /\ (r = 0 -> settled t) /\ ((r = 111 /\ tls_died usercert reported0 t) \/ (r = 0 /\ tls_over pi po ci co self t)).
Definition tnext (t : trace) (x : tverdict) : Prop := match x with Again s => tinv t s | Stop (r, s) => tstop t r s end.

Lemma calm_snoc : forall t c a, match c with Select _ _ _ None => False | _ => True end -> calm (t ++ [(c, a)]).
Proof. intros t c a H e t0 n rd wr b E. apply app_inj_tail in E as [_ E]. injection E as -> _. destruct H. Qed.
Lemma flow_handing : forall t sh rep, flow t sh rep -> HANDING t.
Proof. intros t sh rep F. destruct F. split; [rewrite f_pi0; apply prefix_refl|]. split; [rewrite f_co0; apply prefix_refl|]. rewrite f_po0. lia. Qed.
Lemma cert_mono : forall t u, CERT t -> CERT (t ++ u).
Proof. intros t u H U R. destruct (H U R) as (e & E & N). exists e. split; auto. pose proof (find_app _ (fun e : event => namedb (bs "clientcrt") (fst e)) t u) as X. unfold event in *. rewrite X, E. reflexivity. Qed.
Lemma flow_streams : forall t sh rep P R, flow t sh rep -> always (engine_ok P R) t -> STREAMS P R t.
Proof.
  intros t sh rep P R F C. assert (X : is_prefix (sent ci t) (RECORD t ++ P) /\ (sent ci t <> [] -> CERT t)); [|split; [apply X|split; [eapply f_R; eauto|apply X]]]. destruct rep.
  - destruct (f_P1 _ _ _ F P R C eq_refl) as (q & (u & ->) & _ & [[-> CE]|[_ ->]]); [split; [exists u; rewrite <- app_assoc; reflexivity|auto]|split; [exists (RECORD t ++ q ++ u); reflexivity|congruence]].
  - destruct (f_P0 _ _ _ F P R C eq_refl) as [-> _]. split; [exists (RECORD t ++ P); reflexivity|congruence].
Qed.

(** *** Calls that move nothing *)
Definition plainb (c : sys) : bool := negb (namedb RR c || namedb SA c || namedb SR c || namedb RA c || namedb (bs "clientcrt") c).
Definition plain (c : sys) (a : ans) : Prop := neutral c a /\ plainb c = true.
Lemma plain_names : forall c, plainb c = true -> namedb RR c = false /\ namedb SA c = false /\ namedb SR c = false /\ namedb RA c = false /\ namedb (bs "clientcrt") c = false.
Proof. intros c H. unfold plainb in H. rewrite negb_true_iff, !orb_false_iff in H. tauto. Qed.
Lemma nocrt_snoc : forall t c a, namedb (bs "clientcrt") c = false -> nocrt t -> nocrt (t ++ [(c, a)]).
Proof. intros t c a H N. unfold nocrt in *. rewrite find_app, N. cbn [find fst]. rewrite H. reflexivity. Qed.
Lemma record_snoc : forall t c a, namedb (bs "clientcrt") c = false -> RECORD (t ++ [(c, a)]) = RECORD t.
Proof.
  intros t c a H. unfold record, account. destruct reported0; auto. destruct usercert; auto. rewrite find_app.
  destruct (find _ t); auto. cbn [find fst]. rewrite H. reflexivity.
Qed.
Lemma flow_plain : forall t c a sh rep, plain c a -> flow t sh rep -> flow (t ++ [(c, a)]) sh rep.
Proof.
  intros t c a sh rep [N B] F. apply plain_names in B as (B1 & B2 & B3 & B4 & B5). destruct F as [F1 F2 F3 F4 F5 F6 F7 F8 F9 F10]. split.
  - rewrite handed_keep, neutral_got by auto. auto.
  - rewrite handed_keep, neutral_got by auto. auto.
  - rewrite acked_keep, neutral_sent by auto. auto.
  - intros P R C. apply always_last in C as [C _]. rewrite neutral_sent by auto. eauto.
  - intros P R C. apply always_last in C as [C _]. rewrite neutral_sent, acked_keep by auto. eauto.
  - intros P R C. apply always_last in C as [C _]. rewrite neutral_sent, acked_keep, record_snoc by auto. intros E. destruct (F6 P R C E) as (q & Q1 & Q2 & Q3). exists q. split; auto. split; auto. destruct Q3 as [[Q3 Q5]|[Q3 Q4]]; [left; split; [exact Q3|apply cert_mono; exact Q5]|]. right. split; auto. apply gone_mono. auto.
  - intros E. destruct (F7 E). split; auto. apply seenapp_mono. auto.
  - exact F8.
  - rewrite closed_snoc by (eapply neutral_close; eauto). auto.
  - rewrite closed_snoc by (eapply neutral_close; eauto). auto.
Qed.
Lemma tends_plain : forall t c a, neutral c a -> tends t -> tends (t ++ [(c, a)]).
Proof.
  intros t c a N [A B C D]. split; unfold told in *; rewrite ?neutral_got by auto; intros E.
  - apply gone_mono. apply neutral_eof in E; auto.
  - apply gone_mono. apply neutral_eof in E; auto.
  - apply gone_mono. auto.
  - apply D in E as [E1 E2]. split; apply gone_mono; auto.
Qed.
Lemma seenok_plain : forall t c a sh, namedb (bs "tls_engine_current_state") c = false -> seenok t sh -> seenok (t ++ [(c, a)]) sh.
Proof.
  intros t c a sh N S H. apply seenapp_snoc in H as [H|[H _]]; [|congruence]. destruct (S H) as [E|[E1 E2]]; auto. right. split; apply gone_mono; auto.
Qed.
Lemma at_snoc : forall t c a, (forall f, c <> Close f) -> at_ (t ++ [(c, a)]) = at_ t.
Proof. intros t c a N. unfold at_. rewrite !val_snoc by auto. reflexivity. Qed.
Lemma at_plain : forall t c a, neutral c a -> at_ (t ++ [(c, a)]) = at_ t.
Proof. intros t c a N. apply at_snoc. intros f. eapply neutral_close; eauto. Qed.
(** What remains to be shown for such a call. *)
Lemma tok_flow : forall t c a sh rep, flow (t ++ [(c, a)]) sh rep ->
  usable t (c, a) -> tls_close pi po ci co self t (c, a) -> tls_moves pi po ci co reported0 t (c, a) -> tls_notified ci co t (c, a) ->
  tls_select pi po ci co self t (c, a) -> SERVE t (c, a) -> (still c -> settled t) -> tok t (c, a).
Proof.
  intros t c a sh rep F H1 H2 H3 H4 H5 H6 H7. unfold tok. repeat (split; [assumption|]). split; [eapply flow_handing; eauto|]. split; [intros P R C; eapply flow_streams; eauto|exact H7].
Qed.

(** *** Closing *)
Lemma reason_shut : forall f t how a, REASON f t -> REASON f (t ++ [(Shutdown f how, a)]).
Proof.
  intros f t how a R. unfold tls_reason, told, Closed, Sendrec, Recvapp, flag in *. rewrite !neutral_got by exact I. rewrite !state_keep by reflexivity.
  assert (ND : forall n, nodata n t -> nodata n (t ++ [(Shutdown f how, a)])) by (intros n (x & J & K); exists x; split; auto; apply in_or_app; auto).
  assert (NR : forall n, noroom n t -> noroom n (t ++ [(Shutdown f how, a)])) by (intros n (x & J & K); exists x; split; auto; apply in_or_app; auto).
  destruct R as [(E & R)|[(E & R)|[(E & R)|(E & R)]]].
  - left. split; auto. destruct R as [R|R]; auto using eof_app.
  - right. left. split; auto. destruct R as [R|[R|[R1 R2]]]; auto using broken_app. right. right. split; auto. apply gone_mono. auto.
  - right. right. left. split; auto. destruct R as [R|[R|[[R1 R2]|[(R1 & R2 & R3)|R]]]]; [left; apply broken_app; auto|auto| |right; right; right; left|auto 10].
    + right. right. left. split; auto. apply gone_mono. auto.
    + split; [apply gone_mono; auto|]. split; auto. destruct R3 as (t0 & n & b & u & -> & J & K). exists t0, n, b, (u ++ [(Shutdown f how, a)]). split; [rewrite <- app_assoc; reflexivity|]. split; auto.
      intros e X. apply in_app_or in X as [X|[X|[]]]; auto. subst e. exists how. cbn [fst]. rewrite E. reflexivity.
  - right. right. right. split; auto. destruct R as [R|[R|R]]; auto using eof_app.
Qed.
Definition closes (f : Z) (t t' : trace) : Prop :=
  (t' = t /\ gone f t) \/ (0 <= f /\ exists how a b, t' = (t ++ [(Shutdown f how, a)]) ++ [(Close f, b)]).
Lemma flow_close : forall t f a sh rep, 0 <= f -> self <> f -> flow t sh rep -> flow (t ++ [(Close f, a)]) sh rep.
Proof.
  intros t f a sh rep F0 NS F. destruct F as [F1 F2 F3 F4 F5 F6 F7 F8 F9 F10]. split.
  - rewrite handed_keep, close_got by reflexivity. auto.
  - rewrite handed_keep, close_got by reflexivity. auto.
  - rewrite acked_keep, close_sent by reflexivity. auto.
  - intros P R C. apply always_last in C as [C _]. rewrite close_sent by auto. eauto.
  - intros P R C. apply always_last in C as [C _]. rewrite close_sent, acked_keep by reflexivity. eauto.
  - intros P R C. apply always_last in C as [C _]. rewrite close_sent, acked_keep, record_snoc by reflexivity. intros E. destruct (F6 P R C E) as (q & Q1 & Q2 & Q3). exists q. split; auto. split; auto. destruct Q3 as [[Q3 Q5]|[Q3 Q4]]; [left; split; [exact Q3|apply cert_mono; exact Q5]|]. right. split; auto. apply gone_mono. auto.
  - intros E. destruct (F7 E). split; auto. apply seenapp_mono. auto.
  - exact F8.
  - rewrite closed_snoc by congruence. auto.
  - rewrite closed_snoc; auto. intros E. injection E as E. lia.
Qed.
Lemma tok_shut : forall t f how a b sh rep, flow t sh rep -> calm t -> ~ gone f t -> self <> f -> REASON f t ->
  tok t (Shutdown f how, a) /\ tok (t ++ [(Shutdown f how, a)]) (Close f, b).
Proof.
  intros t f how a b sh rep F Q NG NS R. assert (F0 : 0 <= f) by (unfold gone in NG; lia). assert (NC : ~ closed f t) by (unfold gone in NG; tauto).
  assert (PL : plain (Shutdown f how) a) by (split; [exact I|reflexivity]). pose proof (flow_plain _ _ _ _ _ PL F) as F1. pose proof (flow_close _ f b _ _ F0 NS F1) as F2.
  split.
  - apply (tok_flow _ _ _ _ _ F1); [exact NC|exact R|exact I|intros (x & y & E); discriminate|exact I|apply Q|intros _; do 2 eexists; exact F].
  - apply (tok_flow _ _ _ _ _ F2); [cbn; rewrite closed_snoc by discriminate; exact NC|apply reason_shut; exact R|exact I|intros (x & y & E); discriminate|exact I|apply calm_snoc; exact I|intros _; do 2 eexists; exact F1].
Qed.
Lemma wp_tls_close_r : forall f t sh rep, flow t sh rep -> calm t -> self <> f -> (gone f t \/ REASON f t) ->
  wp tok t (shut_r (val f t)) (fun t' v => v = -1 /\ closes f t t').
Proof.
  intros f t sh rep F Q NS W. destruct (gone_dec f t) as [C|C].
  - apply wp_shut_r; [intros _; split; auto; left; auto|]. rewrite val_gone by auto. intros N. congruence.
  - rewrite val_is by auto. assert (F0 : 0 <= f) by (unfold gone in C; lia). apply wp_shut_r; [lia|]. intros _ a b.
    destruct W as [W|W]; [contradiction|]. destruct (tok_shut t f 0 a b sh rep F Q C NS W) as [O1 O2]. split; auto. split; auto. split; auto. right. split; auto. exists 0, a, b. apply pair_snoc.
Qed.
Lemma wp_tls_close_w : forall f t sh rep, flow t sh rep -> calm t -> self <> f -> (gone f t \/ REASON f t) ->
  wp tok t (shut_w (val f t)) (fun t' v => v = -1 /\ closes f t t').
Proof.
  intros f t sh rep F Q NS W. destruct (gone_dec f t) as [C|C].
  - apply wp_shut_w; [intros _; split; auto; left; auto|]. rewrite val_gone by auto. intros N. congruence.
  - rewrite val_is by auto. assert (F0 : 0 <= f) by (unfold gone in C; lia). apply wp_shut_w; [lia|]. intros _ a b.
    destruct W as [W|W]; [contradiction|]. destruct (tok_shut t f 1 a b sh rep F Q C NS W) as [O1 O2]. split; auto. split; auto. split; auto. right. split; auto. exists 1, a, b. apply pair_snoc.
Qed.

Section Closes.
Variables (f : Z) (t t' : trace).
Hypothesis H : closes f t t'.
Lemma closes_calm : calm t -> calm t'.
Proof. intros Q. destruct H as [[-> _]|(_ & how & a & b & ->)]; auto. apply calm_snoc. exact I. Qed.
Lemma closes_got : forall g, got g t' = got g t.
Proof. intros g. destruct H as [[-> _]|(_ & how & a & b & ->)]; auto. rewrite close_got, neutral_got by exact I. auto. Qed.
Lemma closes_eof : forall g, eof g t' <-> eof g t.
Proof.
  intros g. destruct H as [[-> _]|(_ & how & a & b & ->)]; [tauto|]. split; intros E; [apply close_eof in E; apply (neutral_eof (Shutdown f how) a) in E; [auto|exact I]|]. apply eof_app. apply eof_app. auto.
Qed.
Lemma closes_gone : forall g, g <> f -> (gone g t' <-> gone g t).
Proof. intros g N. destruct H as [[-> _]|(_ & how & a & b & ->)]; [tauto|]. rewrite !gone_snoc by congruence. tauto. Qed.
Lemma closes_this : gone f t'.
Proof. destruct H as [[-> C]|(_ & how & a & b & ->)]; auto. right. exists b. apply in_snoc. Qed.
Lemma closes_mono : forall g, gone g t -> gone g t'.
Proof. intros g G. destruct H as [[-> C]|(_ & how & a & b & ->)]; auto. apply gone_mono. apply gone_mono. auto. Qed.
Lemma closes_in : forall e, In e t -> In e t'.
Proof. intros e G. destruct H as [[-> C]|(_ & how & a & b & ->)]; auto. apply in_or_app. left. apply in_or_app. auto. Qed.
Lemma closes_broken : forall g, broken g t -> broken g t'.
Proof. intros g (b & a & J & R). exists b, a. split; auto. apply closes_in; auto. Qed.
Lemma closes_nodata : forall n, nodata n t -> nodata n t'.
Proof. intros n (a & J & R). exists a. split; auto. apply closes_in; auto. Qed.
Lemma closes_val : forall g, g <> f -> val g t' = val g t.
Proof. intros g N. destruct H as [[-> C]|(_ & how & a & b & ->)]; auto. rewrite !val_snoc by congruence. auto. Qed.
Lemma closes_val_this : val f t' = -1.
Proof. apply val_gone. apply closes_this. Qed.
Lemma closes_state : state t' = state t.
Proof. destruct H as [[-> C]|(_ & how & a & b & ->)]; auto. rewrite !state_keep by reflexivity. auto. Qed.
Lemma closes_flow : forall sh rep, self <> f -> flow t sh rep -> flow t' sh rep.
Proof. intros sh rep N F. destruct H as [[-> C]|(F0 & how & a & b & ->)]; auto. apply flow_close; auto. apply flow_plain; auto. split; [exact I|reflexivity]. Qed.
Lemma closes_tends : tends t -> tends t'.
Proof.
  intros [A B C D]. pose proof closes_mono as M. split; unfold told in *; rewrite ?closes_got, ?closes_eof; intros E; auto. apply D in E as (E1 & E2). auto.
Qed.
Lemma closes_seenapp : seenapp t' -> seenapp t.
Proof. destruct H as [[-> C]|(_ & how & a & b & ->)]; auto. intros E. apply seenapp_snoc in E as [E|[E _]]; [|discriminate]. apply seenapp_snoc in E as [E|[E _]]; [auto|discriminate]. Qed.
Lemma closes_nocrt : nocrt t -> nocrt t'.
Proof. destruct H as [[-> C]|(_ & how & a & b & ->)]; auto. intros N. apply nocrt_snoc; [reflexivity|]. apply nocrt_snoc; [reflexivity|auto]. Qed.
Lemma closes_seenok : forall sh, seenok t sh -> seenok t' sh.
Proof. intros sh S E. destruct (S (closes_seenapp E)) as [K|[K1 K2]]; auto. right. split; apply closes_mono; auto. Qed.
End Closes.
Ltac at_eq H := unfold at_, set_peerin, set_peerout, set_childin, set_childout, set_childctl, set_childack; cbn [peerin peerout childin childout childctl childack toc ton];
  rewrite (closes_val_this _ _ _ H), ?(closes_val _ _ _ H) by fds; reflexivity.

(** *** Before waiting: end of file *)
(** The state of an iteration: the variables, the streams, the flags just read. *)
Record pre (t : trace) (sh rep : bool) (st : Z) : Prop := mkpre {
  p_flow : flow t sh rep; p_tends : tends t; p_calm : calm t; p_st : st = state t;
  p_seen : seenapp t -> sh = true \/ (gone ci t /\ gone co t) \/ Z.testbit st 3 = true;
  p_un : sh = false -> nocrt t }.
Lemma closes_pre : forall f t t' sh rep st, closes f t t' -> self <> f -> pre t sh rep st -> pre t' sh rep st.
Proof.
  intros f t t' sh rep st H N [A B C D E U]. split; [eapply closes_flow; eauto|eapply closes_tends; eauto|eapply closes_calm; eauto|rewrite (closes_state _ _ _ H); auto| |intros Z; apply (closes_nocrt _ _ _ H); auto].
  intros S. destruct (E (closes_seenapp _ _ _ H S)) as [K|[[K1 K2]|K]]; auto. right. left. split; eapply closes_mono; eauto.
Qed.
Lemma wp_tls_eof1 : forall t sh rep st, pre t sh rep st ->
  wp tok t (tls_eof1 st (at_ t)) (fun t' s => s = at_ t' /\ pre t' sh rep st /\ (gone pi t' -> Recvapp t' \/ gone ci t')).
Proof.
  intros t sh rep st K. unfold tls_eof1. change (peerin (at_ t)) with (val pi t). change (childin (at_ t)) with (val ci t). rewrite has_recvapp.
  destruct (negb (open (val pi t)) && open (val ci t) && negb (Z.testbit st 4)) eqn:C.
  - rewrite !andb_true_iff, !negb_true_iff in C. destruct C as [[C1 C2] C3]. apply val_shut in C1. apply val_open in C2.
    eapply wp_bind; [eapply wp_tls_close_w; [apply (p_flow _ _ _ _ K)|apply (p_calm _ _ _ _ K)|fds|right]|].
    { right. right. left. split; auto. right. right. left. split; auto. unfold Recvapp, flag. rewrite <- (p_st _ _ _ _ K). congruence. }
    cbn beta. intros t' v [-> H]. apply wp_ret. split; [at_eq H|]. split; [eapply closes_pre; [exact H|fds|auto]|]. intros _. right. eapply closes_this; eauto.
  - apply wp_ret. split; auto. split; auto. intros G. destruct (gone_dec ci t) as [G'|G']; auto. left. apply val_shut in G. apply val_open in G'. rewrite G, G' in C. cbn [negb andb] in C.
    apply negb_false_iff in C. unfold Recvapp, flag. rewrite <- (p_st _ _ _ _ K). auto.
Qed.
Lemma pre_plain : forall t c a sh rep st, plain c a -> match c with Select _ _ _ None => False | _ => True end -> namedb (bs "tls_engine_current_state") c = false ->
  pre t sh rep st -> pre (t ++ [(c, a)]) sh rep st.
Proof.
  intros t c a sh rep st PL Q N [A B C D E U]. split; [apply flow_plain; auto|apply tends_plain; auto; apply PL|apply calm_snoc; auto|rewrite state_keep by auto; auto| |intros Z; apply nocrt_snoc; auto; apply (plain_names _ (proj2 PL))].
  intros S. apply seenapp_snoc in S as [S|[S _]]; [|congruence]. destruct (E S) as [K|[[K1 K2]|K]]; auto. right. left. split; apply gone_mono; auto.
Qed.
(** Looking whether the peer has sent something. *)
Lemma wp_pending : forall fuel t sh rep st, pre t sh rep st -> ~ gone pi t -> ~ gone ci t -> gone co t -> ~ Recvapp t ->
  wp tok t (pending_now fuel (val pi t)) (fun t' p => pre t' sh rep st /\ at_ t' = at_ t /\ (forall g, gone g t' <-> gone g t) /\ state t' = state t /\ (p = false -> idle pi ci t')).
Proof.
  intros fuel t sh rep st K G1 G2 G3 G4. unfold pending_now. rewrite val_is by auto. pose proof z_pi as Z1. replace (pi =? -1) with false by lia.
  revert t K G1 G2 G3 G4. induction fuel as [|fuel IH]; intros t K G1 G2 G3 G4; cbn [pending_loop]; [apply wp_halt|].
  unfold jail_poll. cbn [jp_sets]. replace (pi <? 0) with false by lia. unfold FD_SETSIZE. replace (1024 <=? pi) with false by lia.
  change (has POLLIN POLLIN) with true. change (has POLLIN POLLOUT) with false. change (0 <=? 0) with true. cbv iota zeta. change (1000000 * Z.quot 0 1000 + 1000 * Z.rem 0 1000) with 0.
  set (n := if 1 <=? pi then pi + 1 else 1). unfold sys1. cbn [pbind]. apply wp_do. intros a _.
  assert (PL : plain (Select n [pi] [] (Some 0)) a) by (split; [exact I|reflexivity]). pose proof (pre_plain _ _ _ _ _ _ PL I eq_refl K) as K1.
  assert (G : forall g, gone g (t ++ [(Select n [pi] [] (Some 0), a)]) <-> gone g t) by (intros; apply gone_snoc; discriminate).
  assert (ST : state (t ++ [(Select n [pi] [] (Some 0), a)]) = state t) by (apply state_keep; reflexivity).
  assert (AT : at_ (t ++ [(Select n [pi] [] (Some 0), a)]) = at_ t) by (apply at_plain; exact I).
  split.
  - apply (tok_flow _ _ _ _ _ (p_flow _ _ _ _ K1)); [exact I|exact I|exact I|intros (x & y & E); discriminate| |apply (p_calm _ _ _ _ K)|intros _; do 2 eexists; apply (p_flow _ _ _ _ K)]. left. repeat (split; [solve [auto]|]). exact G4.
  - cbn [pbind]. assert (ID : ~ (0 < ret a /\ In pi (data a)) -> idle pi ci (t ++ [(Select n [pi] [] (Some 0), a)])).
    { intros X. exists t, n, a, []. split; [reflexivity|]. split; auto. intros e []. }
    destruct (Z.leb_spec (ret a) 0) as [L|L]; cbn [pbind].
    + destruct ((ret a =? -1) && (err a =? EINTR)).
      * eapply wp_conseq; [apply IH; auto; [rewrite G; auto|rewrite G; auto|rewrite G; auto|unfold Recvapp, flag; rewrite ST; auto]|]. cbn beta. intros t' p (X1 & X2 & X3 & X4 & X5). split; auto. split; [congruence|]. split; [intros g; rewrite X3; auto|]. split; [congruence|auto].
      * apply wp_ret. split; auto. split; auto. split; auto. split; auto. intros _. apply ID. lia.
    + cbn [jp_result]. replace (pi <? 0) with false by lia. replace (FD_SETSIZE <=? pi) with false by (unfold FD_SETSIZE; lia). change (has POLLIN POLLIN) with true. change (has POLLIN POLLOUT) with false. cbv iota.
      destruct (readable a pi) eqn:RD; cbn [pbind List.hd].
      * change (0 + 1) with 1. apply wp_ret. split; auto. split; auto. split; auto. split; auto. discriminate.
      * change ((0 =? -1) && (0 =? EINTR)) with false. cbv iota. apply wp_ret. split; auto. split; auto. split; auto. split; auto. intros _. apply ID. intros [_ J]. unfold readable in RD. apply Bool.not_true_iff_false in RD. apply RD. apply existsb_exists. exists pi. split; auto. apply Z.eqb_refl.
Qed.

Lemma wp_tls_eof2 : forall fuel t sh rep st, pre t sh rep st -> (gone pi t -> Recvapp t \/ gone ci t) ->
  wp tok t (tls_eof2 fuel st (at_ t)) (fun t' s => s = at_ t' /\ pre t' sh rep st /\ (gone pi t' -> Recvapp t' \/ gone ci t')).
Proof.
  intros fuel t sh rep st K P1. unfold tls_eof2. change (childout (at_ t)) with (val co t). change (childin (at_ t)) with (val ci t). change (peerin (at_ t)) with (val pi t). rewrite has_recvapp.
  destruct (negb (open (val co t)) && open (val ci t) && negb (Z.testbit st 4)) eqn:C; [|apply wp_ret; auto].
  rewrite !andb_true_iff, !negb_true_iff in C. destruct C as [[C1 C2] C3]. apply val_shut in C1. apply val_open in C2.
  assert (NR : ~ Recvapp t) by (unfold Recvapp, flag; rewrite <- (p_st _ _ _ _ K); congruence).
  assert (G1 : ~ gone pi t) by (intros G; destruct (P1 G); auto).
  eapply wp_bind; [apply wp_pending; eauto|]. cbn beta. intros t' p (K1 & AT & G & ST & ID). destruct p.
  - apply wp_ret. split; [congruence|]. split; auto. intros X. rewrite G in X. contradiction.
  - assert (EV : val ci t = val ci t') by (rewrite !val_is; auto; rewrite G; auto). rewrite EV.
    eapply wp_bind; [eapply wp_tls_close_w; [apply (p_flow _ _ _ _ K1)|apply (p_calm _ _ _ _ K1)|fds|right]|].
    { right. right. left. split; auto. right. right. right. left. split; [apply G; auto|]. split; auto. unfold Recvapp, flag. rewrite ST. exact NR. }
    cbn beta. intros t2 v [-> H]. apply wp_ret. split; [rewrite <- AT; at_eq H|]. split; [eapply closes_pre; [exact H|fds|auto]|]. intros _. right. eapply closes_this; eauto.
Qed.
Lemma wp_tls_eof3 : forall t sh rep st, pre t sh rep st -> (gone pi t -> Recvapp t \/ gone ci t) ->
  wp tok t (tls_eof3 st (at_ t)) (fun t' s => s = at_ t' /\ pre t' sh rep st /\ (gone pi t' -> Recvapp t' \/ gone ci t')).
Proof.
  intros t sh rep st K P1. unfold tls_eof3. change (childout (at_ t)) with (val co t). change (peerout (at_ t)) with (val po t). rewrite has_closed, has_sendrec.
  destruct (negb (open (val co t)) && open (val po t) && Z.testbit st 0 && negb (Z.testbit st 1)) eqn:C; [|apply wp_ret; auto].
  rewrite !andb_true_iff, !negb_true_iff in C. destruct C as [[[C1 C2] C3] C4]. apply val_shut in C1. apply val_open in C2. pose proof (p_st _ _ _ _ K) as ST.
  eapply wp_bind; [eapply wp_tls_close_w; [apply (p_flow _ _ _ _ K)|apply (p_calm _ _ _ _ K)|fds|right]|].
  { right. left. split; auto. right. right. split; auto. unfold Closed, Sendrec, flag. rewrite <- ST. split; congruence. }
  cbn beta. intros t2 v [-> H]. apply wp_ret. split; [at_eq H|]. split; [eapply closes_pre; [exact H|fds|auto]|].
  intros G. rewrite (closes_gone _ _ _ H) in G by fds. rewrite (closes_gone _ _ _ H) by fds. unfold Recvapp, flag in *. rewrite (closes_state _ _ _ H). auto.
Qed.
Lemma tok_other : forall t m args d a sh rep, flow (t ++ [(Other m args d, a)]) sh rep -> calm t ->
  plainb (Other m args d) = true -> ~ In m [bs "tls_engine_recvapp_buf"; bs "tls_engine_sendrec_buf"; bs "tls_engine_recvrec_buf"; bs "tls_engine_sendapp_buf"] ->
  (m = bs "tls_engine_close" -> gone ci t /\ gone co t /\ ~ Closed t) -> tok t (Other m args d, a).
Proof.
  intros t m args d a sh rep F Q B N C. apply plain_names in B as (B1 & B2 & B3 & B4 & B5). apply (tok_flow _ _ _ _ _ F); [exact I|exact I| | |exact I|apply Q|intros []].
  - unfold tls_moves. cbn [fst In] in *. unfold namedb in *.
    split; [intros E; destruct (list_eq_dec _ _ _) in B4; [discriminate|contradiction]|].
    split; [intros E; destruct (list_eq_dec _ _ _) in B3; [discriminate|contradiction]|].
    split; [intros E; destruct (list_eq_dec _ _ _) in B1; [discriminate|contradiction]|].
    split; [intros E; destruct (list_eq_dec _ _ _) in B2; [discriminate|contradiction]|].
    split; [intros E; destruct N; auto|]. split; [intros E; destruct N; auto|]. split; intros E; destruct N; auto 10.
  - unfold tls_notified. cbn [fst]. intros (x & y & E). injection E as E _ _. auto.
Qed.
Ltac notin := let X := fresh in cbn [In]; intros X; repeat (destruct X as [X|X]; [discriminate X|]); exact X.
Lemma wp_tls_notify : forall t sh rep st, pre t sh rep st -> (gone pi t -> Recvapp t \/ gone ci t) ->
  wp tok t (tls_notify st (at_ t)) (fun t' st' => at_ t' = at_ t /\ pre t' sh rep st' /\ (gone pi t' -> Recvapp t' \/ gone ci t') /\
    (gone ci t' -> gone co t' -> Closed t' \/ exists a, In (Other (bs "tls_engine_close") [] [], a) t')).
Proof.
  intros t sh rep st K P1. unfold tls_notify. change (childout (at_ t)) with (val co t). change (childin (at_ t)) with (val ci t). rewrite has_closed.
  destruct (negb (open (val co t)) && negb (open (val ci t)) && negb (Z.testbit st 0)) eqn:C.
  - rewrite !andb_true_iff, !negb_true_iff in C. destruct C as [[C1 C2] C3]. apply val_shut in C1, C2. unfold engine, flush, current_state, engine, sys1. cbn [pbind].
    apply wp_do. intros a1 _. set (t1 := t ++ [(Other (bs "tls_engine_close") [] [], a1)]). assert (K1 : pre t1 sh rep st) by (apply pre_plain; [split; [exact I|reflexivity]|exact I|reflexivity|auto]).
    split. { eapply tok_other; [apply (p_flow _ _ _ _ K1)|apply (p_calm _ _ _ _ K)|reflexivity|notin|]. intros _. split; auto. split; auto. unfold Closed, flag. rewrite <- (p_st _ _ _ _ K). congruence. }
    cbn [pbind]. apply wp_do. intros a2 _. set (t2 := t1 ++ [(Other (bs "tls_engine_flush") [0] [], a2)]). assert (K2 : pre t2 sh rep st) by (apply pre_plain; [split; [exact I|reflexivity]|exact I|reflexivity|auto]).
    split. { eapply tok_other; [apply (p_flow _ _ _ _ K2)|apply (p_calm _ _ _ _ K1)|reflexivity|notin|discriminate]. }
    cbn [pbind]. apply wp_do. intros a3 _. set (t3 := t2 ++ [(Other (bs "tls_engine_current_state") [] [], a3)]). assert (F3 : flow t3 sh rep) by (apply flow_plain; [split; [exact I|reflexivity]|apply (p_flow _ _ _ _ K2)]).
    split. { eapply tok_other; [apply F3|apply (p_calm _ _ _ _ K2)|reflexivity|notin|discriminate]. }
    cbn [pbind]. apply wp_ret.
    assert (G : forall g, gone g t -> gone g t3) by (intros g X; unfold t3, t2, t1; rewrite <- !app_assoc; apply gone_mono; auto).
    split; [unfold t3, t2, t1; rewrite !at_plain by exact I; auto|]. split; [|split].
    + split; [exact F3|apply tends_plain; [exact I|apply (p_tends _ _ _ _ K2)]|apply calm_snoc; exact I|unfold t3; rewrite state_snoc; reflexivity| |intros Z; apply nocrt_snoc; [reflexivity|apply (p_un _ _ _ _ K2); auto]]. intros _. right. left. auto.
    + auto.
    + intros _ _. right. exists a1. unfold t3, t2, t1. apply in_or_app. left. apply in_or_app. left. apply in_snoc.
  - apply wp_ret. split; auto. split; auto. split; auto. intros G1 G2. left. apply val_shut in G1, G2. rewrite G1, G2 in C. cbn [negb andb] in C. apply negb_false_iff in C. unfold Closed, flag. rewrite <- (p_st _ _ _ _ K). exact C.
Qed.

(** *** The account record *)
Definition mute (e : event) : Prop := match fst e with Write _ _ | Poll _ _ => True | _ => False end.
Lemma mute_named : forall n c a, mute (c, a) -> namedb n c = false.
Proof. intros n c a M. destruct c; try destruct M; reflexivity. Qed.
Lemma mute_all : forall u t, Forall mute u ->
  (forall g, got g (t ++ u) = got g t) /\ (forall n, handed n (t ++ u) = handed n t) /\ (forall n, acked n (t ++ u) = acked n t) /\ state (t ++ u) = state t /\
  RECORD (t ++ u) = RECORD t /\ (forall g, closed g (t ++ u) <-> closed g t) /\ (forall g, eof g (t ++ u) -> eof g t) /\ (seenapp (t ++ u) -> seenapp t) /\ (calm t -> calm (t ++ u)) /\ at_ (t ++ u) = at_ t.
Proof.
  induction u as [|[c a] u IH] using rev_ind; intros t M; [rewrite app_nil_r; repeat (split; [solve [auto|intros; tauto]|]); reflexivity|].
  apply Forall_app in M as [M1 M2]. apply Forall_inv in M2. destruct (IH t M1) as (A1 & A2 & A3 & A4 & A5 & A6 & A7 & A8 & A9 & A10).
  assert (N : forall n, namedb n c = false) by (intros n; eapply mute_named; eauto). rewrite app_assoc.
  assert (NC : forall g, c <> Close g) by (intros g ->; destruct M2).
  split; [intros g; rewrite <- A1; rewrite got_app; destruct c; try destruct M2; cbn [got]; apply app_nil_r|].
  split; [intros n; rewrite handed_keep by auto; auto|]. split; [intros n; rewrite acked_keep by auto; auto|]. split; [rewrite state_keep by auto; auto|]. split; [rewrite record_snoc by auto; auto|].
  split; [intros g; rewrite closed_snoc by auto; auto|]. split; [intros g E; apply eof_snoc' in E as [E|((n & ->) & _)]; [auto|destruct M2]|].
  split; [intros E; apply seenapp_snoc in E as [E|[E _]]; [auto|rewrite N in E; discriminate]|]. split; [intros _; apply calm_snoc; destruct c; try destruct M2; exact I|]. rewrite at_snoc by auto. auto.
Qed.
Lemma ow_mute : forall fd u, onlywrite fd u -> Forall mute u.
Proof. intros fd u O. eapply Forall_impl; [|exact O]. intros [c a] [(b & E)|E]; cbn [fst] in E; unfold mute; cbn [fst]; rewrite E; exact I. Qed.
Lemma ow_sent : forall fd u g t, onlywrite fd u -> g <> fd -> sent g (t ++ u) = sent g t.
Proof.
  intros fd u g t O N. rewrite sent_app. replace (sent g u) with (@nil Z); [apply app_nil_r|]. induction O as [|[c a] u [(b & E)|E] O IH]; auto; cbn [fst] in E; rewrite E; cbn [sent]; auto.
  replace (fd =? g) with false by (symmetry; apply Z.eqb_neq; auto). auto.
Qed.
Lemma gone_mute : forall u t g, Forall mute u -> (gone g (t ++ u) <-> gone g t).
Proof. intros u t g M. unfold gone. destruct (mute_all u t M) as (_ & _ & _ & _ & _ & C & _). rewrite C. tauto. Qed.
Lemma wp_record : forall fuel t m extra, flow t false false -> calm t -> reported0 = false -> Sendapp t -> RECORD t = frame m -> CERT t -> len m < two63 ->
  wp tok t (pipe_write fuel (val ci t) (m ++ extra) (len m))
    (fun t' c => exists u, t' = t ++ u /\ onlywrite (val ci t) u /\ match c with Good => sent (val ci t) u = frame m | Fail _ => exists t0 e, u = t0 ++ [e] /\ hard e end).
Proof.
  intros fuel t m extra F Q R0 SA0 RC CE LM tr o RU L. destruct (pipe_write_ok _ _ _ _ _ _ RU L LM) as [OW H].
  assert (NP : po <> val ci t).
  { destruct (gone_dec ci t) as [G|G]; [rewrite val_gone by auto; pose proof z_po; lia|rewrite val_is by auto; fds]. }
  assert (NCL : ~ closed (val ci t) t).
  { destruct (gone_dec ci t) as [G|G]; [rewrite val_gone by auto; apply (f_neg _ _ _ F)|rewrite val_is by auto; unfold gone in G; tauto]. }
  assert (PF : is_prefix (sent (val ci t) tr) (frame m)).
  { destruct o as [[|e]| |]; [destruct H as [-> _]; apply prefix_refl|apply H|destruct H|apply H]. }
  split; [intros ->; exact H|]. split.
  - intros u1 e u2 ->. assert (OW1 : onlywrite (val ci t) u1) by (apply Forall_app in OW; apply OW). assert (OWe : onlywrite (val ci t) (u1 ++ [e])).
    { apply Forall_app in OW as [W1 W2]. apply Forall_app. split; auto. constructor; [apply Forall_inv in W2; exact W2|constructor]. }
    pose proof (ow_mute _ _ OW1) as M1. pose proof (ow_mute _ _ OWe) as M2. destruct (mute_all _ t M1) as (A1 & A2 & A3 & A4 & A5 & A6 & A7 & A8 & A9 & A10). destruct (mute_all _ t M2) as (B1 & B2 & B3 & B4 & B5 & B6 & B7 & B8 & B9 & B10).
    assert (W : (exists b, fst e = Write (val ci t) b) \/ fst e = Poll [(val ci t, 4)] (-1)).
    { apply Forall_app in OWe as [_ W]. apply Forall_inv in W. exact W. }
    unfold tok. rewrite <- app_assoc. destruct e as [c a]. cbn [fst] in W.
    split; [unfold usable; cbn [fst]; destruct W as [(b & ->)| ->]; [rewrite A6; exact NCL|exact I]|].
    split; [unfold tls_close; cbn [fst]; destruct W as [(b & ->)| ->]; exact I|].
    split. { unfold tls_moves; cbn [fst]; destruct W as [(b & ->)| ->]; [|exact I]. split; [intros E; congruence|]. intros _. right. split; auto. unfold Sendapp, flag. rewrite A4. exact SA0. }
    split; [intros (x & y & E); cbn [fst] in E; destruct W as [(b & ->)| ->]; discriminate|].
    split; [unfold tls_select; cbn [fst]; destruct W as [(b & ->)| ->]; exact I|].
    split; [apply A9; exact Q|].
    split.
    + pose proof (flow_handing _ _ _ F) as (H1 & H2 & H3). unfold handing. rewrite !B1, !B2, !B3, (ow_sent _ _ _ _ OWe NP). auto.
    + split; [|cbn [fst]; destruct W as [(b & ->)| ->]; intros []]. intros P R C. apply always_split in C. destruct (flow_streams _ _ _ _ _ F C) as (S1 & S2 & S3). split; [|split; [rewrite (ow_sent _ _ _ _ OWe NP); exact S2|intros _; apply cert_mono; exact CE]]. rewrite B5, RC.
      destruct (f_P0 _ _ _ F P R C eq_refl) as [E0 _]. rewrite sent_app, E0. cbn [app].
      destruct (Z.eq_dec ci (val ci t)) as [EC|NC].
      * rewrite EC at 1. destruct PF as (u & PF). exists (sent (val ci t) u2 ++ u ++ P).
        assert (SP : sent (val ci t) (u1 ++ (c, a) :: u2) = sent (val ci t) (u1 ++ [(c, a)]) ++ sent (val ci t) u2) by (rewrite <- sent_app, <- app_assoc; reflexivity). pose proof (eq_trans PF (f_equal (fun x => x ++ u) SP)) as PF2. cbn beta in PF2. rewrite PF2, <- !app_assoc. reflexivity.
      * pose proof (ow_sent _ _ _ [] OWe NC) as E1. cbn [app sent] in E1. rewrite E1. exists (frame m ++ P). reflexivity.
  - intros c ->. exists tr. split; auto. split; auto. destruct c; [apply H|]. destruct H as (_ & _ & (t0 & x & E & HD & _)). eauto.
Qed.

Lemma before_split : forall c l, In c l -> exists v, l = before c l ++ c :: v.
Proof.
  intros c l I. destruct (before_spec c l) as [N [E|E]]; auto. rewrite E in N. contradiction.
Qed.
Lemma before_app_in : forall c l m, In c l -> before c (l ++ m) = before c l.
Proof. intros c l m. induction l as [|x l IH]; intros I; [destruct I|]. cbn [app before]. destruct (Z.eqb_spec x c) as [->|N]; auto. f_equal. apply IH. destruct I; [contradiction|auto]. Qed.
Lemma before_app_not : forall c l m, ~ In c l -> before c (l ++ m) = l ++ before c m.
Proof. intros c l m. induction l as [|x l IH]; intros I; auto. cbn [app before]. cbn [In] in I. replace (x =? c) with false by (symmetry; apply Z.eqb_neq; tauto). f_equal. apply IH. tauto. Qed.
Lemma before_zeros : forall n m, before 0 (repeat 0 n ++ 0 :: m) = [].
Proof. intros [|n] m; reflexivity. Qed.
Lemma before_map : forall d n, before 0 (firstn n (d ++ repeat 0 n) ++ [0]) = before 0 (firstn n d).
Proof.
  intros d n. rewrite firstn_app. destruct (in_dec Z.eq_dec 0 (firstn n d)) as [I|I].
  - rewrite <- app_assoc. apply before_app_in. auto.
  - rewrite <- app_assoc, before_app_not by auto. replace (before 0 (firstn (n - length d) (repeat 0 n) ++ [0])) with (@nil Z).
    + rewrite app_nil_r. destruct (before_spec 0 (firstn n d)) as [_ [E|(v & E)]]; auto. exfalso. apply I. rewrite E. apply in_or_app. right. left. auto.
    + destruct (n - length d)%nat as [|k]; [reflexivity|]. destruct n; reflexivity.
Qed.
Lemma before_nonul : forall c l, nonul l -> nonul (before c l).
Proof. intros c l N. induction N as [|x l X N IH]; [constructor|]. cbn [before]. destruct (x =? c); constructor; auto. Qed.
Lemma before_len : forall c l, len (before c l) <= len l.
Proof. intros c l. induction l as [|x l IH]; [reflexivity|]. cbn [before]. destruct (x =? c); rewrite ?len_cons, ?len_nil; pose proof (len_nonneg _ l); lia. Qed.
Lemma crtbuf_split : forall d, exists rest, crtbuf d = before 0 (firstn 255 (map (fun b => b mod 256) d)) ++ 0 :: rest /\ nonul (before 0 (firstn 255 (map (fun b => b mod 256) d))) /\
  len (before 0 (firstn 255 (map (fun b => b mod 256) d))) <= 255.
Proof.
  intros d. assert (I : In 0 (crtbuf d)) by (unfold crtbuf; apply in_or_app; right; left; auto). destruct (before_split 0 _ I) as (v & E).
  assert (B : before 0 (crtbuf d) = before 0 (firstn 255 (map (fun b => b mod 256) d))) by (apply (before_map (map (fun b => b mod 256) d) 255)).
  rewrite B in E. exists v. split; auto.
  assert (N : forall l, Forall (fun b => 0 <= b < 256) l -> nonul (before 0 l)).
  { induction l as [|x l IH]; intros F; [constructor|]. inversion_clear F as [|? ? F1 F2]. cbn [before]. destruct (Z.eqb_spec x 0); [constructor|]. constructor; [lia|apply IH; auto]. }
  split.
  - apply N. apply Forall_forall. intros x X.
    assert (X' : In x (map (fun b => b mod 256) d)) by (rewrite <- (firstn_skipn 255 (map (fun b => b mod 256) d)); apply in_or_app; auto).
    apply in_map_iff in X' as (y & <- & _). apply Z.mod_pos_bound. lia.
  - assert (BL : forall l, len (before 0 l) <= len l).
    { induction l as [|x l IH]; [reflexivity|]. cbn [before]. destruct (x =? 0); rewrite ?len_cons, ?len_nil; pose proof (len_nonneg _ l); lia. }
    specialize (BL (firstn 255 (map (fun b => b mod 256) d))). unfold len in BL |- * at 1. unfold len. pose proof (firstn_le_length 255 (map (fun b => b mod 256) d)). lia.
Qed.

(** *** The end of the handshake *)
Lemma flow_crt : forall t a rep, flow t false rep -> rep = false -> flow (t ++ [(Other (bs "clientcrt") [] [], a)]) false rep.
Proof.
  intros t a rep F R0. destruct F as [F1 F2 F3 F4 F5 F6 F7 F8 F9 F10]. split.
  - rewrite handed_keep, neutral_got by (exact I || reflexivity). auto.
  - rewrite handed_keep, neutral_got by (exact I || reflexivity). auto.
  - rewrite acked_keep, neutral_sent by (exact I || reflexivity). auto.
  - intros P R C. apply always_last in C as [C _]. rewrite neutral_sent by exact I. eauto.
  - intros P R C. apply always_last in C as [C _]. rewrite neutral_sent, acked_keep by (exact I || reflexivity). eauto.
  - congruence.
  - discriminate.
  - auto.
  - rewrite closed_snoc by discriminate. auto.
  - rewrite closed_snoc by discriminate. auto.
Qed.
Lemma record_crt : forall t a, reported0 = false -> usercert = true -> nocrt t -> RECORD (t ++ [(Other (bs "clientcrt") [] [], a)]) = frame (login a ++ [0]).
Proof. intros t a R0 U NC. unfold record, account. rewrite R0, U, find_app. unfold nocrt in NC. unfold event in *. rewrite NC. reflexivity. Qed.
Definition reported (t : trace) (x : option tsess) (t' : trace) : Prop :=
  at_ t' = at_ t /\
  match x with
  | None => tls_died usercert reported0 t'
  | Some s => fds s = at_ t' /\ flow t' (shaken s) (told_user s) /\ tends t' /\ seenok t' (shaken s) /\ calm t' /\ (shaken s = false -> nocrt t') /\
    state t' = state t /\ (forall g, gone g t' <-> gone g t) /\ (Z.testbit (state t) 3 = true -> shaken s = true) /\ (exists u, t' = t ++ u)
  end.
Lemma wp_tls_alarm : forall t x s0, flow t true true -> tends t -> calm t -> at_ t = at_ s0 -> state t = state s0 -> (forall g, gone g t <-> gone g s0) -> (exists u, t = s0 ++ u) -> x = at_ s0 ->
  wp tok t (_ <~ alarm timeout ;; Ret (Some (mkts x true true))) (fun t' o => reported s0 o t').
Proof.
  intros t x s0 F T Q A S G (u & U) X. unfold alarm, sys1. cbn [pbind]. apply wp_do. intros a _.
  pose proof (flow_plain t (Other (bs "alarm") [timeout] []) a true true (conj I eq_refl) F) as F1. cbn [pbind]. split.
  - eapply tok_other; [apply F1|exact Q|reflexivity|notin|discriminate].
  - apply wp_ret. split; [rewrite at_plain by exact I; auto|]. cbn [fds shaken told_user].
    split; [rewrite at_plain by exact I; congruence|]. split; [exact F1|]. split; [apply tends_plain; [exact I|auto]|]. split; [intros _; left; auto|]. split; [apply calm_snoc; exact I|]. split; [discriminate|].
    split; [rewrite state_keep by reflexivity; auto|]. split; [intros g; rewrite gone_snoc by discriminate; auto|]. split; auto. exists (u ++ [(Other (bs "alarm") [timeout] [], a)]). rewrite U, app_assoc. reflexivity.
Qed.
Lemma wp_report_user : forall fuel t m rest s0, flow t false false -> tends t -> calm t -> reported0 = false -> Sendapp t -> RECORD t = frame (m ++ [0]) -> CERT t -> nonul m -> len m <= 255 ->
  at_ t = at_ s0 -> state t = state s0 -> (forall g, gone g t <-> gone g s0) -> (exists u, t = s0 ++ u) ->
  wp tok t (bad <~ report_user fuel (val ci t) (m ++ 0 :: rest) ;; if (bad : bool) then Ret None else _ <~ alarm timeout ;; Ret (Some (mkts (at_ s0) true true))) (fun t' o => reported s0 o t').
Proof.
  intros fuel t m rest s0 F T Q R0 SAP RC CE NN LM A S G (w & U). unfold report_user. rewrite str_len_ok by auto. cbn [lift pbind].
  assert (E : len m + 1 = len (m ++ [0])) by (rewrite len_app; reflexivity). rewrite E. replace (m ++ 0 :: rest) with ((m ++ [0]) ++ rest) by (rewrite <- app_assoc; reflexivity).
  assert (SE : seenapp t) by (apply state_app; exact SAP).
  eapply wp_bind; [eapply wp_bind; [eapply wp_record; auto; unfold two63; lia|]|].
  - cbn beta. intros t' c H. instantiate (1 := fun t' b => exists u, t' = t ++ u /\ onlywrite (val ci t) u /\ (if b then exists t0 e, u = t0 ++ [e] /\ hard e else sent (val ci t) u = frame (m ++ [0]))). destruct H as (u & H). destruct c; apply wp_ret; exists u; exact H.
  - cbn beta. intros t' b (u & -> & OW & H). pose proof (ow_mute _ _ OW) as M. destruct (mute_all _ t M) as (A1 & A2 & A3 & A4 & A5 & A6 & A7 & A8 & A9 & A10).
    assert (NP : po <> val ci t).
    { destruct (gone_dec ci t) as [K|K]; [rewrite val_gone by auto; pose proof z_po; lia|rewrite val_is by auto; fds]. }
    destruct b.
    + apply wp_ret. split; [congruence|]. split; auto. split; [unfold Sendapp, flag; rewrite A4; exact SAP|]. right. destruct H as (t0 & e & -> & HD). exists (t ++ t0), e. split; [rewrite app_assoc; reflexivity|exact HD].
    + apply wp_tls_alarm; auto; [|..].
      * split.
        -- rewrite A1, A2. apply F.
        -- rewrite A1, A2. apply F.
        -- rewrite A3, (ow_sent _ _ _ _ OW NP). apply F.
        -- intros P R C. apply always_split in C. rewrite (ow_sent _ _ _ _ OW NP). eapply f_R; eauto.
        -- discriminate.
        -- intros P R C _. apply always_split in C. destruct (f_P0 _ _ _ F P R C eq_refl) as [E0 E1]. exists []. split; [exists P; reflexivity|]. split; [rewrite A3, E1; reflexivity|].
           rewrite A5, RC, app_nil_r. destruct (gone_dec ci t) as [K|K].
           ++ right. split; [apply gone_mono; auto|]. rewrite (ow_sent _ _ _ _ OW); auto. rewrite val_gone by auto. pose proof z_ci. lia.
           ++ left. rewrite sent_app, E0. cbn [app]. rewrite val_is in H by auto. split; [exact H|apply cert_mono; exact CE].
        -- intros _. split; auto. apply seenapp_mono. auto.
        -- discriminate.
        -- rewrite A6. apply F.
        -- rewrite A6. apply F.
      * destruct T as [T1 T2 T3 T4]. split; unfold told in *; rewrite ?A1; intros X.
        -- apply gone_mono. apply T1. apply A7. auto.
        -- apply gone_mono. apply T2. apply A7. auto.
        -- apply gone_mono. auto.
        -- destruct (T4 X). split; apply gone_mono; auto.
      * congruence.
      * congruence.
      * intros g. rewrite gone_mute by auto. auto.
      * exists (w ++ u). rewrite U, app_assoc. reflexivity.
Qed.
Lemma wp_report : forall fuel t s st, pre t (shaken s) (told_user s) st -> fds s = at_ t ->
  wp tok t (report_handshake timeout usercert fuel st s) (fun t' o => reported t o t').
Proof.
  intros fuel t s st K A. destruct K as [F T Q ST SN UN]. destruct s as [x sh rep]. cbn [fds shaken told_user] in *. subst x. unfold report_handshake. cbn [fds shaken told_user].
  assert (REFL : forall b, (Z.testbit (state t) 3 = true -> b = true) -> b = sh -> reported t (Some (mkts (at_ t) sh rep)) t).
  { intros b HB ->. split; auto. cbn [fds shaken told_user]. split; auto. split; auto. split; auto. split; [|split; [exact Q|]].
    - intros S. destruct (SN S) as [X|[X|X]]; auto. left. apply HB. congruence.
    - split; auto. split; auto. split; [tauto|]. split; auto. exists []. symmetry. apply app_nil_r. }
  destruct sh; [apply wp_ret; apply (REFL true); auto|]. rewrite has_sendapp. destruct (Z.testbit st 3) eqn:B; cbn [negb]; [|apply wp_ret; apply (REFL false); auto; congruence].
  assert (SAP : Sendapp t) by (unfold Sendapp, flag; congruence). pose proof (f_un _ _ _ F eq_refl) as R0. specialize (UN eq_refl).
  assert (EX : exists u, t = t ++ u) by (exists []; symmetry; apply app_nil_r).
  destruct rep.
  - apply wp_tls_alarm; auto; try tauto. destruct F as [F1 F2 F3 F4 F5 F6 F7 F8 F9 F10]. split; auto; try discriminate. intros _. split; auto. apply state_app. exact SAP.
  - symmetry in R0. change (childin (at_ t)) with (val ci t). destruct usercert eqn:U.
    + unfold engine, sys1. cbn [pbind]. apply wp_do. intros a _. pose proof (flow_crt t a false F eq_refl) as F1. set (t1 := t ++ [(Other (bs "clientcrt") [] [], a)]) in *. split.
      * apply (tok_flow _ _ _ _ _ F1); [exact I|exact I| |intros (y & z & E); discriminate|exact I|apply Q|intros []]. unfold tls_moves. cbn [fst]. repeat (split; [intros E; discriminate|]). intros E; discriminate.
      * cbn [pbind]. destruct (Z.eqb_spec (ret a) 0) as [RZ|RZ]; cbn [pbind].
        -- apply wp_ret. split; [unfold t1; apply at_plain; exact I|]. split; auto. split; [unfold Sendapp, flag, t1; rewrite state_keep by reflexivity; exact SAP|]. left. split; auto. exists a. split; auto. apply in_snoc.
        -- destruct (crtbuf_split (data a)) as (rest & CB & NN & LN). rewrite CB. destruct (fixname_ok _ rest NN) as (junk & _ & FX). rewrite FX. cbn [lift pbind].
           assert (V : val ci t = val ci t1) by (symmetry; apply val_snoc; discriminate). rewrite V.
           apply wp_report_user; auto.
           ++ apply tends_plain; [exact I|auto].
           ++ apply calm_snoc. exact I.
           ++ unfold Sendapp, flag, t1. rewrite state_keep by reflexivity. exact SAP.
           ++ apply record_crt; auto.
           ++ intros _ _. exists (Other (bs "clientcrt") [] [], a). split; [|exact RZ]. unfold t1. rewrite find_app. unfold nocrt in UN. unfold event in *. rewrite UN. reflexivity.
           ++ apply before_nonul. auto.
           ++ eapply Z.le_trans; [apply before_len|exact LN].
           ++ apply at_plain. exact I.
           ++ apply state_keep. reflexivity.
           ++ intros g. apply gone_snoc. discriminate.
           ++ exists [(Other (bs "clientcrt") [] [], a)]. reflexivity.
    + cbn [pbind]. destruct (crtbuf_split []) as (rest & CB & NN & LN). rewrite CB. apply wp_report_user; auto; try tauto.
      * unfold record, account. rewrite R0, U. reflexivity.
      * intros X. congruence.
Qed.

(** *** Serving a descriptor *)
Lemma first_cons : forall n (x : list Z), 0 < n -> x <> [] -> firstn (Z.to_nat n) x <> [].
Proof. intros n [|y x] N X; [contradiction|]. destruct (Z.to_nat n) eqn:E; [lia|]. discriminate. Qed.
Lemma piece : forall x : list Z, x <> [] -> exists b, b = firstn (Z.to_nat 1048576) x /\ b <> [].
Proof. intros x X. eexists. split; [reflexivity|]. apply first_cons; [reflexivity|auto]. Qed.
Lemma wp_offer : forall (OK : trace -> event -> Prop) h fd x b (Q : trace -> Z * Z -> Prop), x <> [] -> b = firstn (Z.to_nat 1048576) x ->
  (forall a, sys_ok (Write fd b, a) -> OK h (Write fd b, a) /\ Q (h ++ [(Write fd b, a)]) (ret a, err a)) -> wp OK h (offer fd x) Q.
Proof.
  intros OK h fd x b Q NE BE H. unfold offer. destruct x as [|y x]; [contradiction|]. set (z := y :: x) in *. unfold fd_write, CHUNK. pose proof (len_nonneg _ z). replace (len z <? 0) with false by lia. cbv zeta.
  set (n := if 1048576 <? len z then 1048576 else len z). assert (N : n <= len z) by (unfold n; destruct (Z.ltb_spec 1048576 (len z)); lia). replace (len z <? n) with false by lia.
  assert (E : firstn (Z.to_nat n) z = firstn (Z.to_nat 1048576) z).
  { unfold n. destruct (Z.ltb_spec 1048576 (len z)) as [L|L]; auto. unfold len in *. rewrite !firstn_all2 by lia. reflexivity. }
  rewrite E, <- BE. unfold sys1. cbn [pbind]. apply wp_do. intros a A. destruct (H a A). split; auto. cbn [pbind]. apply wp_ret. auto.
Qed.
Lemma wp_fetch : forall (OK : trace -> event -> Prop) h fd n (Q : trace -> Z * Z * list Z -> Prop), 0 < n ->
  (forall a, let m := Z.min n 1048576 in sys_ok (Read fd m, a) -> OK h (Read fd m, a) /\ Q (h ++ [(Read fd m, a)]) (ret a, err a, data a)) -> wp OK h (fetch fd n) Q.
Proof.
  intros OK h fd n Q P H. unfold fetch. replace (n <=? 0) with false by lia. unfold fd_read, CHUNK. replace (n <? 0) with false by lia. cbv zeta.
  assert (E : (if 1048576 <? n then 1048576 else n) = Z.min n 1048576) by (destruct (Z.ltb_spec 1048576 n); lia). rewrite E. replace (n <? Z.min n 1048576) with false by lia.
  unfold sys1. cbn [pbind]. apply wp_do. intros a A. destruct (H a A). split; auto. cbn [pbind]. apply wp_ret. auto.
Qed.
(** After waiting: everything but the promise who is served next. *)
Definition live (t : trace) (sh : bool) : Prop := tends t /\ seenok t sh /\ (sh = false -> nocrt t).
Lemma live_step : forall t c a sh, live t sh -> (forall f, eof f (t ++ [(c, a)]) -> eof f t) -> got self (t ++ [(c, a)]) = got self t -> namedb (bs "tls_engine_current_state") c = false ->
  namedb (bs "clientcrt") c = false -> live (t ++ [(c, a)]) sh.
Proof.
  intros t c a sh ([A B C D] & SN & NC) EO G N1 N2. split; [|split; [apply seenok_plain; auto|intros E; apply nocrt_snoc; auto]].
  split; unfold told in *; rewrite ?G; intros E; [apply gone_mono; auto|apply gone_mono; auto|apply gone_mono; auto|]. destruct (D E). split; apply gone_mono; auto.
Qed.
Lemma live_plain : forall t c a sh, plain c a -> namedb (bs "tls_engine_current_state") c = false -> live t sh -> live (t ++ [(c, a)]) sh.
Proof.
  intros t c a sh [N B] S L. apply live_step; auto; [intros f; apply neutral_eof; auto|apply neutral_got; auto|apply (plain_names _ B)].
Qed.
Lemma live_closes : forall f t t' sh, closes f t t' -> live t sh -> live t' sh.
Proof. intros f t t' sh H (A & B & C). split; [eapply closes_tends; eauto|]. split; [eapply closes_seenok; eauto|]. intros E. eapply closes_nocrt; eauto. Qed.
Lemma live_inv : forall t s, fds s = at_ t -> flow t (shaken s) (told_user s) -> live t (shaken s) -> calm t -> tinv t s.
Proof. intros t s A F (T & S & N) Q. split; auto. Qed.
(** A step of the streams, one component at a time. *)
Lemma flow_step : forall t c a sh rep, flow t sh rep -> (forall f, c <> Close f) -> namedb (bs "clientcrt") c = false ->
  let t' := t ++ [(c, a)] in
  handed RR t' = got pi t' -> handed SA t' = got co t' -> acked SR t' = len (sent po t') ->
  (forall P R, always (engine_ok P R) t' -> is_prefix (sent po t) R -> is_prefix (sent po t') R) ->
  sent ci t' = sent ci t -> acked RA t' = acked RA t -> flow t' sh rep.
Proof.
  intros t c a sh rep F NC NN t' H1 H2 H3 H4 H5 H6. destruct F as [F1 F2 F3 F4 F5 F6 F7 F8 F9 F10]. split; auto.
  - intros P R C. apply H4 with (P := P); auto. apply always_last in C as [C _]. eauto.
  - intros P R C. apply always_last in C as [C _]. rewrite H5, H6. eauto.
  - intros P R C. apply always_last in C as [C _]. rewrite H5, H6. unfold t'. rewrite record_snoc by auto. intros E. destruct (F6 P R C E) as (q & Q1 & Q2 & Q3). exists q. split; auto. split; auto.
    destruct Q3 as [[Q3 Q5]|[Q3 Q4]]; [left; split; [exact Q3|apply cert_mono; exact Q5]|]. right. split; auto. apply gone_mono. auto.
  - intros E. destruct (F7 E). split; auto. apply seenapp_mono. auto.
  - unfold t'. rewrite closed_snoc by auto. auto.
  - unfold t'. rewrite closed_snoc by auto. auto.
Qed.
Lemma flow_read : forall t f n a sh rep, flow t sh rep -> f <> pi -> f <> co \/ data a = [] -> flow (t ++ [(Read f n, a)]) sh rep.
Proof.
  intros t f n a sh rep F N1 N2. apply flow_step; auto; try discriminate; try reflexivity; rewrite ?handed_keep, ?acked_keep, ?read_sent by reflexivity; auto; try apply F.
  - rewrite got_other by auto. apply F.
  - destruct (Z.eq_dec co f) as [<-|N].
    + rewrite got_this. destruct N2 as [N2|N2]; [congruence|]. rewrite N2, app_nil_r. apply F.
    + rewrite got_other by auto. apply F.
Qed.
Lemma flow_read_pi : forall t n a sh rep, flow t sh rep -> data a = [] -> flow (t ++ [(Read pi n, a)]) sh rep.
Proof.
  intros t n a sh rep F N. apply flow_step; auto; try discriminate; try reflexivity; rewrite ?handed_keep, ?acked_keep, ?read_sent by reflexivity; auto; try apply F.
  - rewrite got_this, N, app_nil_r. apply F.
  - rewrite got_other by fds. apply F.
Qed.
Lemma streams_keep : forall t t' sh rep P R, flow t sh rep -> sent po t' = sent po t -> sent ci t' = sent ci t -> RECORD t' = RECORD t -> (exists u, t' = t ++ u) -> always (engine_ok P R) t -> STREAMS P R t'.
Proof. intros t t' sh rep P R F E1 E2 E3 E4 C. destruct (flow_streams _ _ _ _ _ F C) as (S1 & S2 & S3). unfold streams. rewrite E1, E2, E3. destruct E4 as (u & ->). split; [exact S1|split; [exact S2|intros X; apply cert_mono; auto]]. Qed.
Lemma tok_buf : forall t m a sh rep, flow t sh rep -> SERVE t (Other m [] [], a) -> plainb (Other m [] []) = true -> m <> bs "tls_engine_close" ->
  tls_moves pi po ci co reported0 t (Other m [] [], a) -> tok t (Other m [] [], a).
Proof.
  intros t m a sh rep F S B N M. eapply tok_flow; [apply flow_plain; [split; [exact I|exact B]|exact F]|exact I|exact I|exact M| |exact I|exact S|intros []].
  intros (x & y & E). cbn [fst] in E. injection E as E _ _. contradiction.
Qed.
Lemma engine_seen : forall P R t, always (engine_ok P R) t -> Recvapp t -> seenapp t.
Proof.
  intros P R t. unfold Recvapp, flag. induction t as [|[c a] t IH] using rev_ind; intros C B; [discriminate B|]. apply always_last in C as [C O]. rewrite state_snoc in B.
  destruct (namedb (bs "tls_engine_current_state") c) eqn:N; [|apply seenapp_mono; auto]. destruct O as (_ & _ & O). apply namedb_called in N. destruct (O N B) as [H|H]; [|apply seenapp_mono; auto].
  exists c, a. split; [apply in_or_app; right; left; auto|]. auto.
Qed.

Lemma wp_tls_topeer : forall t s, fds s = at_ t -> flow t (shaken s) (told_user s) -> live t (shaken s) -> Sendrec t -> ~ gone po t ->
  (forall a, SERVE t (Other (bs "tls_engine_sendrec_buf") [] [], a)) -> wp tok t (tls_topeer s) tnext.
Proof.
  intros t s A F L SRF NG SV. unfold tls_topeer, engine. unfold sys1 at 1. cbn [pbind]. apply wp_do. intros a _.
  set (e1 := Other (bs "tls_engine_sendrec_buf") [] []). set (t1 := t ++ [(e1, a)]).
  assert (P1 : plain e1 a) by (split; [exact I|reflexivity]). pose proof (flow_plain _ _ _ _ _ P1 F) as F1. pose proof (live_plain _ _ _ _ P1 eq_refl L) as L1. fold t1 in F1, L1.
  assert (Q1 : calm t1) by (apply calm_snoc; exact I). assert (A1 : fds s = at_ t1) by (unfold t1; rewrite at_plain by exact I; auto).
  split. { eapply tok_buf; [exact F|apply SV|reflexivity|discriminate|]. unfold tls_moves. cbn [fst e1]. repeat (split; [intros E; first [discriminate E|auto]|]). intros E; discriminate E. }
  cbn [pbind]. rewrite A1. change (peerout (at_ t1)) with (val po t1). assert (NG1 : ~ gone po t1) by (unfold t1; rewrite gone_snoc by discriminate; auto).
  destruct (data a) as [|y d] eqn:DA.
  - cbn [offer pbind]. change (again (-1) EINVAL) with false. cbv iota. change (-1 <=? 0) with true. cbv iota.
    assert (ND : nodata (bs "tls_engine_sendrec_buf") t1) by (exists a; split; [apply in_snoc|auto]).
    eapply wp_bind; [eapply wp_tls_close_w; [exact F1|exact Q1|fds|right; right; left; split; auto]|]. cbn beta. intros t2 v [-> H]. apply wp_ret. split.
    + cbn [with_fds fds]. rewrite ?A1. at_eq H.
    + split; [intros _; do 2 eexists; eapply closes_flow; [eassumption|fds|eassumption]|]. right. split; auto. do 6 right. left. eapply closes_nodata; eauto.
  - rewrite <- DA. assert (DN : data a <> []) by (rewrite DA; discriminate). destruct (piece _ DN) as (b & BE & BN).
    rewrite val_is by auto.
    eapply wp_bind with (M := fun t' x => exists w, t' = t1 ++ [(Write po b, w)] /\ x = (ret w, err w) /\ sys_ok (Write po b, w)).
    + apply (wp_offer _ _ _ _ b); [exact DN|exact BE|]. intros w SO. split; [|eauto].
      assert (HS : usable t1 (Write po b, w) /\ tls_close pi po ci co self t1 (Write po b, w) /\ tls_moves pi po ci co reported0 t1 (Write po b, w) /\ tls_notified ci co t1 (Write po b, w) /\ tls_select pi po ci co self t1 (Write po b, w) /\ SERVE t1 (Write po b, w)).
      { split; [unfold usable; cbn [fst]; unfold gone in NG1; tauto|]. split; [exact I|]. split.
        - unfold tls_moves. cbn [fst]. split; [|intros E; destruct (m_po_ci E)]. intros _. exists a. split; [exists t, e1; split; [reflexivity|reflexivity]|auto].
        - split; [intros (x & z & E); discriminate|]. split; [exact I|apply Q1]. }
      unfold tok. repeat (split; [apply HS|]). split.
      * unfold handing. rewrite !handed_keep, !acked_keep, !write_got, sent_this, len_app by reflexivity. rewrite (f_pi _ _ _ F1), (f_co _ _ _ F1), (f_po _ _ _ F1). split; [apply prefix_refl|]. split; [apply prefix_refl|].
        pose proof (len_nonneg _ (firstn (Z.to_nat (ret w)) b)). lia.
      * split; [|intros []]. intros P R C. apply always_last in C as [C _]. destruct (flow_streams _ _ _ _ _ F1 C) as (S1 & S2 & S3). unfold streams. rewrite record_snoc by reflexivity. rewrite sent_other by fds. split; auto. split; [|intros X; apply cert_mono; auto]. rewrite sent_this, BE.
        unfold t1 in C. apply always_last in C as [C O]. destruct O as (_ & O & _). destruct (O ltac:(exists [], []; reflexivity)) as (u & SK).
        eapply prefix_next; [exact S2| |exact SK]. rewrite <- (f_po _ _ _ F1). unfold t1. apply acked_keep. reflexivity.
    + cbn beta. intros t' x (w & -> & -> & SO). set (t2 := t1 ++ [(Write po b, w)]). assert (Q2 : calm t2) by (apply calm_snoc; exact I). assert (A2 : fds s = at_ t2) by (unfold t2; rewrite at_snoc by discriminate; auto).
      assert (L2 : live t2 (shaken s)). { apply live_step; auto; [intros f; apply write_eof|apply write_got]. }
      destruct (again (ret w) (err w)) eqn:AG; [|destruct (Z.leb_spec (ret w) 0) as [LE|LE]].
      * apply wp_ret. apply live_inv; auto. apply flow_plain; auto. split; [apply write_soft; auto|reflexivity].
      * assert (F2 : flow t2 (shaken s) (told_user s)) by (apply flow_plain; auto; split; [exact LE|reflexivity]).
        assert (BR : broken po t2) by (apply broken_now; auto). assert (VE : po = val po t2) by (symmetry; apply val_is; unfold t2; rewrite gone_snoc by discriminate; auto). rewrite VE at 1.
        eapply wp_bind; [eapply wp_tls_close_w; [exact F2|exact Q2|fds|right; right; left; split; auto]|]. cbn beta. intros t3 v [-> H]. apply wp_ret. split.
        -- cbn [with_fds fds]. replace (at_ t1) with (at_ t2) by congruence. at_eq H.
        -- split; [intros _; do 2 eexists; eapply closes_flow; [eassumption|fds|eassumption]|]. right. split; auto. do 5 right. left. eapply closes_broken; eauto.
      * unfold engine_ack. unfold sys1 at 1. cbn [pbind]. apply wp_do. intros a3 _. set (t3 := t2 ++ [(Other SR [ret w] [], a3)]).
        assert (LW : len (firstn (Z.to_nat (ret w)) b) = ret w). { cbn [sys_ok] in SO. unfold len in *. rewrite firstn_length. lia. }
        assert (F3 : flow t3 (shaken s) (told_user s)).
        { assert (C3 : forall P R, always (engine_ok P R) t3 -> always (engine_ok P R) t2) by (intros P R C; unfold t3 in C; apply always_last in C; apply C).
          assert (C2 : forall P R, always (engine_ok P R) t2 -> always (engine_ok P R) t1) by (intros P R C; unfold t2 in C; apply always_last in C; apply C).
          destruct F1 as [G1 G2 G3 G4 G5 G6 G7 G8 G9 G10]. unfold t3, t2. split.
          - rewrite !handed_keep, neutral_got, write_got by (exact I || reflexivity). auto.
          - rewrite !handed_keep, neutral_got, write_got by (exact I || reflexivity). auto.
          - rewrite acked_snoc. change (namedb SR (Other SR [ret w] [])) with true. cbv iota. rewrite acked_keep, neutral_sent, sent_this, len_app, LW, G3 by (exact I || reflexivity). reflexivity.
          - intros P R C. apply C3 in C. pose proof C as C'. apply C2 in C'. rewrite neutral_sent, sent_this, BE by exact I. pose proof C' as C4. unfold t1 in C4. apply always_last in C4 as [_ (_ & O & _)]. destruct (O ltac:(exists [], []; reflexivity)) as (u & SK).
            eapply prefix_next; [eapply G4; eauto| |exact SK]. rewrite <- G3. unfold t1. apply acked_keep. reflexivity.
          - intros P R C. rewrite neutral_sent, sent_other, !acked_keep by (exact I || reflexivity || fds). eauto.
          - intros P R C E. rewrite neutral_sent, sent_other, !acked_keep, !record_snoc by (exact I || reflexivity || fds). destruct (G6 P R (C2 _ _ (C3 _ _ C)) E) as (q & K1 & K2 & K3). exists q. split; auto. split; auto. destruct K3 as [[K3 KC]|[K3 K4]]; [left; split; [exact K3|do 2 apply cert_mono; exact KC]|]. right. split; auto. apply gone_mono. apply gone_mono. auto.
          - intros E. destruct (G7 E). split; auto. apply seenapp_mono. apply seenapp_mono. auto.
          - exact G8.
          - rewrite !closed_snoc by discriminate. auto.
          - rewrite !closed_snoc by discriminate. auto. }
        split.
        -- apply (tok_flow _ _ _ _ _ F3); [exact I|exact I| |intros (x & z & E); discriminate|exact I|apply Q2|intros []]. unfold tls_moves. cbn [fst].
           split; [intros E; discriminate E|]. split; [intros _; exists w; split; [exists t1, (Write po b); split; [reflexivity|eauto]|auto]|]. repeat (split; [intros E; discriminate E|]). intros E; discriminate E.
        -- cbn [pbind]. apply wp_ret. apply live_inv; auto; [unfold t3; rewrite at_snoc by discriminate; auto| |apply calm_snoc; exact I]. apply live_step; auto; [intros f; apply neutral_eof; exact I|apply neutral_got; exact I].
Qed.
Lemma wp_tls_tochild : forall t s, fds s = at_ t -> flow t (shaken s) (told_user s) -> live t (shaken s) -> Recvapp t -> ~ gone ci t ->
  (forall a, SERVE t (Other (bs "tls_engine_recvapp_buf") [] [], a)) -> wp tok t (tls_tochild s) tnext.
Proof.
  intros t s A F L SRF NG SV. unfold tls_tochild, engine. unfold sys1 at 1. cbn [pbind]. apply wp_do. intros a _.
  set (e1 := Other (bs "tls_engine_recvapp_buf") [] []). set (t1 := t ++ [(e1, a)]).
  assert (P1 : plain e1 a) by (split; [exact I|reflexivity]). pose proof (flow_plain _ _ _ _ _ P1 F) as F1. pose proof (live_plain _ _ _ _ P1 eq_refl L) as L1. fold t1 in F1, L1.
  assert (Q1 : calm t1) by (apply calm_snoc; exact I). assert (A1 : fds s = at_ t1) by (unfold t1; rewrite at_plain by exact I; auto).
  split. { eapply tok_buf; [exact F|apply SV|reflexivity|discriminate|]. unfold tls_moves. cbn [fst e1]. repeat (split; [intros E; first [discriminate E|auto]|]). intros E; discriminate E. }
  cbn [pbind]. rewrite A1. change (childin (at_ t1)) with (val ci t1). assert (NG1 : ~ gone ci t1) by (unfold t1; rewrite gone_snoc by discriminate; auto).
  destruct (data a) as [|y d] eqn:DA.
  - cbn [offer pbind]. change (again (-1) EINVAL) with false. cbv iota. change (-1 <=? 0) with true. cbv iota.
    assert (ND : nodata (bs "tls_engine_recvapp_buf") t1) by (exists a; split; [apply in_snoc|auto]).
    eapply wp_bind; [eapply wp_tls_close_w; [exact F1|exact Q1|fds|right; right; right; left; split; auto]|]. cbn beta. intros t2 v [-> H]. apply wp_ret. split.
    + cbn [with_fds fds]. rewrite ?A1. at_eq H.
    + split; [intros _; do 2 eexists; eapply closes_flow; [eassumption|fds|eassumption]|]. right. split; auto. do 4 right. left. eapply closes_nodata; eauto.
  - rewrite <- DA. assert (DN : data a <> []) by (rewrite DA; discriminate). destruct (piece _ DN) as (b & BE & BN).
    rewrite val_is by auto.
    (* what has been delivered, under the interface of the engine *)
    assert (DEL : forall P R, always (engine_ok P R) t1 -> told_user s = true /\ exists q u, sent ci t1 = RECORD t1 ++ q /\ is_prefix q P /\ acked RA t1 = len q /\ skipn (Z.to_nat (len q)) P = data a ++ u /\ CERT t1).
    { intros P R C. pose proof C as C0. unfold t1 in C. apply always_last in C as [C (O & _ & _)]. pose proof (engine_seen _ _ _ C SRF) as SE. destruct L as (_ & SN & _). assert (SH : shaken s = true) by (destruct (SN SE) as [X|[X _]]; [auto|contradiction]).
      destruct (f_sh _ _ _ F SH) as [TU _]. split; auto. destruct (f_P1 _ _ _ F1 P R C0 TU) as (q & K1 & K2 & [[K3 KC]|[K3 _]]); [|contradiction]. destruct (O ltac:(exists [], []; reflexivity)) as (u & SK). exists q, u. split; auto. split; auto. split; auto. split; [|exact KC].
      rewrite <- K2. unfold t1. rewrite acked_keep by reflexivity. exact SK. }
    eapply wp_bind with (M := fun t' x => exists w, t' = t1 ++ [(Write ci b, w)] /\ x = (ret w, err w) /\ sys_ok (Write ci b, w)).
    + apply (wp_offer _ _ _ _ b); [exact DN|exact BE|]. intros w SO. split; [|eauto].
      assert (HS : usable t1 (Write ci b, w) /\ tls_close pi po ci co self t1 (Write ci b, w) /\ tls_moves pi po ci co reported0 t1 (Write ci b, w) /\ tls_notified ci co t1 (Write ci b, w) /\ tls_select pi po ci co self t1 (Write ci b, w) /\ SERVE t1 (Write ci b, w)).
      { split; [unfold usable; cbn [fst]; unfold gone in NG1; tauto|]. split; [exact I|]. split.
        - unfold tls_moves. cbn [fst]. split; [intros E; destruct (m_ci_po E)|]. intros _. left. exists a. split; [exists t, e1; split; [reflexivity|reflexivity]|auto].
        - split; [intros (x & z & E); discriminate|]. split; [exact I|apply Q1]. }
      unfold tok. repeat (split; [apply HS|]). split.
      * unfold handing. rewrite !handed_keep, !acked_keep, !write_got, sent_other by (reflexivity || fds). rewrite (f_pi _ _ _ F1), (f_co _ _ _ F1), (f_po _ _ _ F1). split; [apply prefix_refl|]. split; [apply prefix_refl|lia].
      * split; [|intros []]. intros P R C. apply always_last in C as [C _]. destruct (flow_streams _ _ _ _ _ F1 C) as (S1 & S2 & S3). unfold streams. rewrite record_snoc by reflexivity. rewrite (sent_other po) by fds.
        destruct (DEL P R C) as (_ & q & u & K1 & K2 & K3 & K4 & K5). split; [|split; [exact S2|intros _; apply cert_mono; exact K5]]. clear K5. rewrite sent_this, K1, BE. pose proof (prefix_next q P (len q) (data a) u (Z.to_nat (ret w)) (Z.to_nat 1048576) K2 eq_refl K4) as (v & K5). exists v. rewrite K5 at 1. rewrite !app_assoc. reflexivity.
    + cbn beta. intros t' x (w & -> & -> & SO). set (t2 := t1 ++ [(Write ci b, w)]). assert (Q2 : calm t2) by (apply calm_snoc; exact I). assert (A2 : fds s = at_ t2) by (unfold t2; rewrite at_snoc by discriminate; auto).
      assert (L2 : live t2 (shaken s)). { apply live_step; auto; [intros f; apply write_eof|apply write_got]. }
      destruct (again (ret w) (err w)) eqn:AG; [|destruct (Z.leb_spec (ret w) 0) as [LE|LE]].
      * apply wp_ret. apply live_inv; auto. apply flow_plain; auto. split; [apply write_soft; auto|reflexivity].
      * assert (F2 : flow t2 (shaken s) (told_user s)) by (apply flow_plain; auto; split; [exact LE|reflexivity]).
        assert (BR : broken ci t2) by (apply broken_now; auto). assert (VE : ci = val ci t2) by (symmetry; apply val_is; unfold t2; rewrite gone_snoc by discriminate; auto). rewrite VE at 1.
        eapply wp_bind; [eapply wp_tls_close_w; [exact F2|exact Q2|fds|right; right; right; left; split; auto]|]. cbn beta. intros t3 v [-> H]. apply wp_ret. split.
        -- cbn [with_fds fds]. replace (at_ t1) with (at_ t2) by congruence. at_eq H.
        -- split; [intros _; do 2 eexists; eapply closes_flow; [eassumption|fds|eassumption]|]. right. split; auto. do 3 right. left. eapply closes_broken; eauto.
      * unfold engine_ack. unfold sys1 at 1. cbn [pbind]. apply wp_do. intros a3 _. set (t3 := t2 ++ [(Other RA [ret w] [], a3)]).
        assert (LW : len (firstn (Z.to_nat (ret w)) b) = ret w). { cbn [sys_ok] in SO. unfold len in *. rewrite firstn_length. lia. }
        assert (F3 : flow t3 (shaken s) (told_user s)).
        { assert (C2 : forall P R, always (engine_ok P R) t3 -> always (engine_ok P R) t1) by (intros P R C; unfold t3 in C; apply always_last in C as [C _]; unfold t2 in C; apply always_last in C; apply C).
          destruct F1 as [G1 G2 G3 G4 G5 G6 G7 G8 G9 G10]. unfold t3, t2. split.
          - rewrite !handed_keep, neutral_got, write_got by (exact I || reflexivity). auto.
          - rewrite !handed_keep, neutral_got, write_got by (exact I || reflexivity). auto.
          - rewrite !acked_keep, neutral_sent, sent_other by (exact I || reflexivity || fds). exact G3.
          - intros P R C. apply C2 in C. rewrite neutral_sent, sent_other by (exact I || fds). eauto.
          - intros P R C E. apply C2 in C. destruct (DEL P R C) as [E' _]. congruence.
          - intros P R C E. apply C2 in C. rewrite neutral_sent, sent_this, !record_snoc by (exact I || reflexivity). destruct (DEL P R C) as (_ & q & u & K1 & K2 & K3 & K4 & KC). exists (q ++ firstn (Z.to_nat (ret w)) b).
            split; [rewrite BE; eapply prefix_next; eauto|]. split; [rewrite acked_snoc; change (namedb RA (Other RA [ret w] [])) with true; cbv iota; rewrite acked_keep, len_app, LW, K3 by reflexivity; reflexivity|]. left. split; [rewrite K1, app_assoc; reflexivity|do 2 apply cert_mono; exact KC].
          - intros E. destruct (G7 E). split; auto. apply seenapp_mono. apply seenapp_mono. auto.
          - exact G8.
          - rewrite !closed_snoc by discriminate. auto.
          - rewrite !closed_snoc by discriminate. auto. }
        split.
        -- apply (tok_flow _ _ _ _ _ F3); [exact I|exact I| |intros (x & z & E); discriminate|exact I|apply Q2|intros []]. unfold tls_moves. cbn [fst].
           split; [intros _; exists w; split; [exists t1, (Write ci b); split; [reflexivity|eauto]|auto]|]. repeat (split; [intros E; discriminate E|]). intros E; discriminate E.
        -- cbn [pbind]. apply wp_ret. apply live_inv; auto; [unfold t3; rewrite at_snoc by discriminate; auto| |apply calm_snoc; exact I]. apply live_step; auto; [intros f; apply neutral_eof; exact I|apply neutral_got; exact I].
Qed.
Lemma tl_alarm : forall k t s, fds s = at_ t -> flow t (shaken s) (told_user s) -> live t (shaken s) -> calm t -> wp tok t (_ <~ alarm k ;; Ret (Again s : tverdict)) tnext.
Proof.
  intros k t s A F L Q. unfold alarm, sys1. cbn [pbind]. apply wp_do. intros a _. assert (PL : plain (Other (bs "alarm") [k] []) a) by (split; [exact I|reflexivity]).
  pose proof (flow_plain _ _ _ _ _ PL F) as F1. split; [eapply tok_other; [exact F1|exact Q|reflexivity|notin|discriminate]|].
  cbn [pbind]. apply wp_ret. apply live_inv; auto; [rewrite at_plain by exact I; auto|apply live_plain; auto|apply calm_snoc; exact I].
Qed.
Lemma wp_tls_frompeer : forall t s, fds s = at_ t -> flow t (shaken s) (told_user s) -> live t (shaken s) -> Recvrec t -> ~ gone pi t ->
  (forall a, SERVE t (Other (bs "tls_engine_recvrec_buf") [] [], a)) -> wp tok t (tls_frompeer timeout s) tnext.
Proof.
  intros t s A F L C1 NG SV. unfold tls_frompeer, engine. unfold sys1 at 1. cbn [pbind]. apply wp_do. intros a _.
  set (e1 := Other (bs "tls_engine_recvrec_buf") [] []). set (t1 := t ++ [(e1, a)]).
  assert (P1 : plain e1 a) by (split; [exact I|reflexivity]). pose proof (flow_plain _ _ _ _ _ P1 F) as F1. pose proof (live_plain _ _ _ _ P1 eq_refl L) as L1. fold t1 in F1, L1.
  assert (Q1 : calm t1) by (apply calm_snoc; exact I). assert (A1 : fds s = at_ t1) by (unfold t1; rewrite at_plain by exact I; auto).
  split. { eapply tok_buf; [exact F|apply SV|reflexivity|discriminate|]. unfold tls_moves. cbn [fst e1]. repeat (split; [intros E; first [discriminate E|auto]|]). intros E; first [discriminate E|auto]. }
  cbn [pbind]. rewrite A1. change (peerin (at_ t1)) with (val pi t1). assert (NG1 : ~ gone pi t1) by (unfold t1; rewrite gone_snoc by discriminate; auto).
  destruct (Z.leb_spec (ret a) 0) as [NR|NR].
  - unfold fetch. replace (ret a <=? 0) with true by lia. cbn [pbind]. change (again (-1) EINVAL) with false. cbv iota. change (-1 <=? 0) with true. cbv iota.
    assert (ND : noroom (bs "tls_engine_recvrec_buf") t1) by (exists a; split; [apply in_snoc|auto]).
    eapply wp_bind; [eapply wp_tls_close_r; [exact F1|exact Q1|fds|right; left; split; auto]|]. cbn beta. intros t2 v [-> H]. apply wp_ret. apply live_inv; cbn [with_fds fds shaken told_user].
    + rewrite ?A1. at_eq H.
    + eapply closes_flow; [exact H|fds|auto].
    + eapply live_closes; eauto.
    + eapply closes_calm; eauto.
  - rewrite val_is by auto. set (n := Z.min (ret a) 1048576).
    eapply wp_bind with (M := fun t' x => exists w, t' = t1 ++ [(Read pi n, w)] /\ x = (ret w, err w, data w) /\ sys_ok (Read pi n, w)).
    + apply wp_fetch; auto. cbv zeta. fold n. intros w SO. split; [|eauto].
      assert (HS : usable t1 (Read pi n, w) /\ tls_close pi po ci co self t1 (Read pi n, w) /\ tls_moves pi po ci co reported0 t1 (Read pi n, w) /\ tls_notified ci co t1 (Read pi n, w) /\ tls_select pi po ci co self t1 (Read pi n, w) /\ SERVE t1 (Read pi n, w)).
      { split; [unfold usable; cbn [fst]; unfold gone in NG1; tauto|]. split; [exact I|]. split.
        - unfold tls_moves. cbn [fst]. split; [|intros E; destruct (m_pi_co E)]. intros _. exists a. split; [exists t, e1; split; [reflexivity|reflexivity]|]. split; [reflexivity|unfold n; lia].
        - split; [intros (x & z & E); discriminate|]. split; [exact I|apply Q1]. }
      unfold tok. repeat (split; [apply HS|]). split.
      * unfold handing. rewrite !handed_keep, !acked_keep, read_sent by reflexivity. rewrite got_this. split; [rewrite (f_pi _ _ _ F1); exists (data w); reflexivity|]. split; [rewrite got_other by fds; rewrite (f_co _ _ _ F1); apply prefix_refl|]. rewrite (f_po _ _ _ F1). lia.
      * split; [|intros []]. intros P R C. apply always_last in C as [C _]. eapply streams_keep; [exact F1|apply read_sent|apply read_sent|apply record_snoc; reflexivity|eexists; reflexivity|exact C].
    + cbn beta. intros t' x (w & -> & -> & SO). set (t2 := t1 ++ [(Read pi n, w)]). assert (Q2 : calm t2) by (apply calm_snoc; exact I). assert (A2 : fds s = at_ t2) by (unfold t2; rewrite at_snoc by discriminate; auto).
      destruct (again (ret w) (err w)) eqn:AG; [|destruct (Z.leb_spec (ret w) 0) as [LE|LE]].
      * apply wp_ret. pose proof (read_soft _ _ _ SO AG) as PN. apply live_inv; auto; [apply flow_plain; auto; split; [exact PN|reflexivity]|]. apply live_plain; auto. split; [exact PN|reflexivity].
      * assert (NO : data w = []) by (eapply read_none; eauto). assert (F2 : flow t2 (shaken s) (told_user s)) by (apply flow_read_pi; auto).
        assert (EO : eof pi t2). { exists n, w. split; [apply in_snoc|]. split; auto. intros [S1 S2]. unfold again in AG. rewrite S1, Z.eqb_refl in AG. lia. }
        assert (VE : pi = val pi t2) by (symmetry; apply val_is; unfold t2; rewrite gone_snoc by discriminate; auto). rewrite VE at 1.
        eapply wp_bind; [eapply wp_tls_close_r; [exact F2|exact Q2|fds|right; left; split; auto]|]. cbn beta. intros t3 v [-> H]. apply wp_ret. apply live_inv; cbn [with_fds fds shaken told_user].
        -- replace (at_ t1) with (at_ t2) by congruence. at_eq H.
        -- eapply closes_flow; [exact H|fds|auto].
        -- assert (ME : forall f, f <> pi -> eof f t2 -> eof f t1) by (intros f N X; eapply read_eof_other; eauto).
           assert (GG : forall f, got f t2 = got f t1) by (intros f; apply read_end_got; auto).
           destruct L1 as ([T1 T2 T3 T4] & SN & NC). split; [|split].
           ++ assert (MO : forall g, gone g t1 -> gone g t3) by (intros g X; eapply closes_mono; eauto; apply gone_mono; auto). split; unfold told in *; rewrite ?(closes_eof _ _ _ H), ?(closes_got _ _ _ H), ?GG; intros X.
              ** eapply closes_this; eauto.
              ** apply MO; apply T2; apply ME; auto; fds.
              ** auto.
              ** destruct (T4 X); auto.
           ++ eapply closes_seenok; [exact H|]. apply seenok_plain; auto.
           ++ intros X. eapply closes_nocrt; [exact H|]. apply nocrt_snoc; auto.
        -- eapply closes_calm; eauto.
      * assert (L2 : live t2 (shaken s)). { apply live_step; auto; [intros f; apply read_eof_data; auto|apply got_other; fds]. }
        unfold engine_ack. unfold sys1 at 1. cbn [pbind]. apply wp_do. intros a3 _. set (t3 := t2 ++ [(Other RR [ret w] (data w), a3)]).
        assert (F3 : flow t3 (shaken s) (told_user s)).
        { assert (C2 : forall P R, always (engine_ok P R) t3 -> always (engine_ok P R) t1) by (intros P R C; unfold t3 in C; apply always_last in C as [C _]; unfold t2 in C; apply always_last in C; apply C).
          destruct F1 as [G1 G2 G3 G4 G5 G6 G7 G8 G9 G10]. unfold t3, t2. split.
          - rewrite handed_snoc. change (namedb RR (Other RR [ret w] (data w))) with true. cbv iota. rewrite handed_keep, neutral_got, got_this, G1 by (exact I || reflexivity). reflexivity.
          - rewrite !handed_keep, neutral_got, got_other by (exact I || reflexivity || fds). auto.
          - rewrite !acked_keep, neutral_sent, read_sent by (exact I || reflexivity). exact G3.
          - intros P R C. apply C2 in C. rewrite neutral_sent, read_sent by exact I. eauto.
          - intros P R C. apply C2 in C. rewrite neutral_sent, read_sent, !acked_keep by (exact I || reflexivity). eauto.
          - intros P R C E. apply C2 in C. rewrite neutral_sent, read_sent, !acked_keep, !record_snoc by (exact I || reflexivity). destruct (G6 P R C E) as (q & K1 & K2 & K3). exists q. split; auto. split; auto. destruct K3 as [[K3 KC]|[K3 K4]]; [left; split; [exact K3|do 2 apply cert_mono; exact KC]|]. right. split; auto. apply gone_mono. apply gone_mono. auto.
          - intros E. destruct (G7 E). split; auto. apply seenapp_mono. apply seenapp_mono. auto.
          - exact G8.
          - rewrite !closed_snoc by discriminate. auto.
          - rewrite !closed_snoc by discriminate. auto. }
        assert (L3 : live t3 (shaken s)) by (apply live_step; auto; [intros f; apply neutral_eof; exact I|apply neutral_got; exact I]).
        assert (A3 : fds s = at_ t3) by (unfold t3; rewrite at_snoc by discriminate; auto). assert (Q3 : calm t3) by (apply calm_snoc; exact I).
        split.
        -- apply (tok_flow _ _ _ _ _ F3); [exact I|exact I| |intros (x & z & E); discriminate|exact I|apply Q2|intros []]. unfold tls_moves. cbn [fst].
           split; [intros E; discriminate E|]. split; [intros E; discriminate E|]. split; [intros _; exists w; split; [exists t1, (Read pi n); split; [reflexivity|eauto]|auto]|]. repeat (split; [intros E; discriminate E|]). intros E; discriminate E.
        -- cbn [pbind]. apply tl_alarm; auto.
Qed.
Lemma wp_tls_fromchild : forall t s, fds s = at_ t -> flow t (shaken s) (told_user s) -> live t (shaken s) -> Sendapp t -> ~ gone co t -> ~ gone po t ->
  (forall a, SERVE t (Other (bs "tls_engine_sendapp_buf") [] [], a)) -> wp tok t (tls_fromchild timeout s) tnext.
Proof.
  intros t s A F L C1 NG NGP SV. unfold tls_fromchild, engine. unfold sys1 at 1. cbn [pbind]. apply wp_do. intros a _.
  set (e1 := Other (bs "tls_engine_sendapp_buf") [] []). set (t1 := t ++ [(e1, a)]).
  assert (P1 : plain e1 a) by (split; [exact I|reflexivity]). pose proof (flow_plain _ _ _ _ _ P1 F) as F1. pose proof (live_plain _ _ _ _ P1 eq_refl L) as L1. fold t1 in F1, L1.
  assert (Q1 : calm t1) by (apply calm_snoc; exact I). assert (A1 : fds s = at_ t1) by (unfold t1; rewrite at_plain by exact I; auto).
  split. { eapply tok_buf; [exact F|apply SV|reflexivity|discriminate|]. unfold tls_moves. cbn [fst e1]. repeat (split; [intros E; first [discriminate E|auto]|]). intros E; first [discriminate E|auto]. }
  cbn [pbind]. rewrite A1. change (childout (at_ t1)) with (val co t1). assert (NG1 : ~ gone co t1) by (unfold t1; rewrite gone_snoc by discriminate; auto).
  destruct (Z.leb_spec (ret a) 0) as [NR|NR].
  - unfold fetch. replace (ret a <=? 0) with true by lia. cbn [pbind]. change (again (-1) EINVAL) with false. cbv iota. change (-1 <=? 0) with true. cbv iota.
    assert (ND : noroom (bs "tls_engine_sendapp_buf") t1) by (exists a; split; [apply in_snoc|auto]).
    eapply wp_bind; [eapply wp_tls_close_r; [exact F1|exact Q1|fds|right; right; right; right; split; auto]|]. cbn beta. intros t2 v [-> H]. apply wp_ret. apply live_inv; cbn [with_fds fds shaken told_user].
    + rewrite ?A1. at_eq H.
    + eapply closes_flow; [exact H|fds|auto].
    + eapply live_closes; eauto.
    + eapply closes_calm; eauto.
  - rewrite val_is by auto. set (n := Z.min (ret a) 1048576).
    eapply wp_bind with (M := fun t' x => exists w, t' = t1 ++ [(Read co n, w)] /\ x = (ret w, err w, data w) /\ sys_ok (Read co n, w)).
    + apply wp_fetch; auto. cbv zeta. fold n. intros w SO. split; [|eauto].
      assert (HS : usable t1 (Read co n, w) /\ tls_close pi po ci co self t1 (Read co n, w) /\ tls_moves pi po ci co reported0 t1 (Read co n, w) /\ tls_notified ci co t1 (Read co n, w) /\ tls_select pi po ci co self t1 (Read co n, w) /\ SERVE t1 (Read co n, w)).
      { split; [unfold usable; cbn [fst]; unfold gone in NG1; tauto|]. split; [exact I|]. split.
        - unfold tls_moves. cbn [fst]. split; [intros E; destruct (m_co_pi E)|]. intros _. exists a. split; [exists t, e1; split; [reflexivity|reflexivity]|]. split; [reflexivity|unfold n; lia].
        - split; [intros (x & z & E); discriminate|]. split; [exact I|apply Q1]. }
      unfold tok. repeat (split; [apply HS|]). split.
      * unfold handing. rewrite !handed_keep, !acked_keep, read_sent by reflexivity. split; [rewrite got_other by fds; rewrite (f_pi _ _ _ F1); apply prefix_refl|]. split; [rewrite (f_co _ _ _ F1), got_this; exists (data w); reflexivity|]. rewrite (f_po _ _ _ F1). lia.
      * split; [|intros []]. intros P R C. apply always_last in C as [C _]. eapply streams_keep; [exact F1|apply read_sent|apply read_sent|apply record_snoc; reflexivity|eexists; reflexivity|exact C].
    + cbn beta. intros t' x (w & -> & -> & SO). set (t2 := t1 ++ [(Read co n, w)]). assert (Q2 : calm t2) by (apply calm_snoc; exact I). assert (A2 : fds s = at_ t2) by (unfold t2; rewrite at_snoc by discriminate; auto).
      destruct (again (ret w) (err w)) eqn:AG; [|destruct (Z.leb_spec (ret w) 0) as [LE|LE]].
      * apply wp_ret. pose proof (read_soft _ _ _ SO AG) as PN. apply live_inv; auto; [apply flow_plain; auto; split; [exact PN|reflexivity]|]. apply live_plain; auto. split; [exact PN|reflexivity].
      * assert (NO : data w = []) by (eapply read_none; eauto). assert (F2 : flow t2 (shaken s) (told_user s)) by (apply flow_read; auto; fds).
        assert (EO : eof co t2). { exists n, w. split; [apply in_snoc|]. split; auto. intros [S1 S2]. unfold again in AG. rewrite S1, Z.eqb_refl in AG. lia. }
        assert (VE : co = val co t2) by (symmetry; apply val_is; unfold t2; rewrite gone_snoc by discriminate; auto). rewrite VE at 1.
        eapply wp_bind; [eapply wp_tls_close_r; [exact F2|exact Q2|fds|right; right; right; right; split; auto]|]. cbn beta. intros t3 v [-> H]. apply wp_ret. apply live_inv; cbn [with_fds fds shaken told_user].
        -- replace (at_ t1) with (at_ t2) by congruence. at_eq H.
        -- eapply closes_flow; [exact H|fds|auto].
        -- assert (ME : forall f, f <> co -> eof f t2 -> eof f t1) by (intros f N X; eapply read_eof_other; eauto).
           assert (GG : forall f, got f t2 = got f t1) by (intros f; apply read_end_got; auto).
           destruct L1 as ([T1 T2 T3 T4] & SN & NC). split; [|split].
           ++ assert (MO : forall g, gone g t1 -> gone g t3) by (intros g X; eapply closes_mono; eauto; apply gone_mono; auto). split; unfold told in *; rewrite ?(closes_eof _ _ _ H), ?(closes_got _ _ _ H), ?GG; intros X.
              ** apply MO; apply T1; apply ME; auto; fds.
              ** eapply closes_this; eauto.
              ** auto.
              ** destruct (T4 X); auto.
           ++ eapply closes_seenok; [exact H|]. apply seenok_plain; auto.
           ++ intros X. eapply closes_nocrt; [exact H|]. apply nocrt_snoc; auto.
        -- eapply closes_calm; eauto.
      * assert (L2 : live t2 (shaken s)). { apply live_step; auto; [intros f; apply read_eof_data; auto|apply got_other; fds]. }
        unfold engine_ack. unfold sys1 at 1. cbn [pbind]. apply wp_do. intros a3 _. set (t3 := t2 ++ [(Other SA [ret w] (data w), a3)]).
        assert (F3 : flow t3 (shaken s) (told_user s)).
        { assert (C2 : forall P R, always (engine_ok P R) t3 -> always (engine_ok P R) t1) by (intros P R C; unfold t3 in C; apply always_last in C as [C _]; unfold t2 in C; apply always_last in C; apply C).
          destruct F1 as [G1 G2 G3 G4 G5 G6 G7 G8 G9 G10]. unfold t3, t2. split.
          - rewrite !handed_keep, neutral_got, got_other by (exact I || reflexivity || fds). auto.
          - rewrite handed_snoc. change (namedb SA (Other SA [ret w] (data w))) with true. cbv iota. rewrite handed_keep, neutral_got, got_this, G2 by (exact I || reflexivity). reflexivity.
          - rewrite !acked_keep, neutral_sent, read_sent by (exact I || reflexivity). exact G3.
          - intros P R C. apply C2 in C. rewrite neutral_sent, read_sent by exact I. eauto.
          - intros P R C. apply C2 in C. rewrite neutral_sent, read_sent, !acked_keep by (exact I || reflexivity). eauto.
          - intros P R C E. apply C2 in C. rewrite neutral_sent, read_sent, !acked_keep, !record_snoc by (exact I || reflexivity). destruct (G6 P R C E) as (q & K1 & K2 & K3). exists q. split; auto. split; auto. destruct K3 as [[K3 KC]|[K3 K4]]; [left; split; [exact K3|do 2 apply cert_mono; exact KC]|]. right. split; auto. apply gone_mono. apply gone_mono. auto.
          - intros E. destruct (G7 E). split; auto. apply seenapp_mono. apply seenapp_mono. auto.
          - exact G8.
          - rewrite !closed_snoc by discriminate. auto.
          - rewrite !closed_snoc by discriminate. auto. }
        assert (L3 : live t3 (shaken s)) by (apply live_step; auto; [intros f; apply neutral_eof; exact I|apply neutral_got; exact I]).
        assert (A3 : fds s = at_ t3) by (unfold t3; rewrite at_snoc by discriminate; auto). assert (Q3 : calm t3) by (apply calm_snoc; exact I).
        split.
        -- apply (tok_flow _ _ _ _ _ F3); [exact I|exact I| |intros (x & z & E); discriminate|exact I|apply Q2|intros []]. unfold tls_moves. cbn [fst].
           split; [intros E; discriminate E|]. split; [intros E; discriminate E|]. split; [intros E; discriminate E|]. split; [intros _; exists w; split; [exists t1, (Read co n); split; [reflexivity|eauto]|auto]|]. repeat (split; [intros E; discriminate E|]). intros E; discriminate E.
        -- cbn [pbind]. unfold flush. unfold sys1 at 1. cbn [pbind]. apply wp_do. intros a5 _. set (t5 := t3 ++ [(Other (bs "tls_engine_flush") [0] [], a5)]).
           assert (PF : plain (Other (bs "tls_engine_flush") [0] []) a5) by (split; [exact I|reflexivity]). pose proof (flow_plain _ _ _ _ _ PF F3) as F5. pose proof (live_plain _ _ _ _ PF eq_refl L3) as L5. fold t5 in F5, L5.
           assert (A5 : fds s = at_ t5) by (unfold t5; rewrite at_snoc by discriminate; auto). assert (Q5 : calm t5) by (apply calm_snoc; exact I).
           split; [eapply tok_other; [exact F5|exact Q3|reflexivity|notin|discriminate]|]. cbn [pbind]. apply tl_alarm; auto.
Qed.

(** *** Signals *)
Lemma at_ctl : forall t, childctl (at_ t) = -1. Proof. reflexivity. Qed.
Lemma at_ack : forall t, childack (at_ t) = -1. Proof. reflexivity. Qed.
Lemma wp_shut_none : forall OK t (Q : trace -> Z -> Prop), Q t (-1) -> wp OK t (shut_r (-1)) Q.
Proof. intros OK t Q H. apply wp_shut_r; auto. intros N. congruence. Qed.
Lemma wp_shut_none_w : forall OK t (Q : trace -> Z -> Prop), Q t (-1) -> wp OK t (shut_w (-1)) Q.
Proof. intros OK t Q H. apply wp_shut_w; auto. intros N. congruence. Qed.
Lemma reason_65 : forall f t, f = ci \/ f = co -> TOLD 65 t -> REASON f t.
Proof. intros f t [->| ->] T; [right; right; left; split; auto; do 5 right; auto|right; right; right; split; auto]. Qed.
Lemma tl_alarm2 : forall k t s x, x = at_ t -> flow t (shaken s) (told_user s) -> live t (shaken s) -> calm t ->
  wp tok t (_ <~ alarm k ;; Ret (false, x)) (fun t' (y : bool * sess) => tnext t' (let (stop, f) := y in if stop then Stop (0, with_fds s f) else Again (with_fds s f))).
Proof.
  intros k t s x A F L Q. unfold alarm, sys1. cbn [pbind]. apply wp_do. intros a _. assert (PL : plain (Other (bs "alarm") [k] []) a) by (split; [exact I|reflexivity]).
  pose proof (flow_plain _ _ _ _ _ PL F) as F1. split; [eapply tok_other; [exact F1|exact Q|reflexivity|notin|discriminate]|].
  cbn [pbind]. apply wp_ret. apply live_inv; cbn [with_fds fds shaken told_user]; auto; [rewrite at_plain by exact I; auto|apply live_plain; auto|apply calm_snoc; exact I].
Qed.
Lemma wp_tls_signal : forall t s, fds s = at_ t -> flow t (shaken s) (told_user s) -> live t (shaken s) -> (forall n a, SERVE t (Read self n, a)) ->
  wp tok t (tls_signal finish self s) tnext.
Proof.
  intros t s A F L SV. pose proof (f_self _ _ _ F) as NC. unfold tls_signal, selfpipe_event. rewrite A.
  eapply wp_bind with (M := fun t' (y : bool * sess) => tnext t' (let (stop, f) := y in if stop then Stop (0, with_fds s f) else Again (with_fds s f)));
    [|cbn beta; intros t' [[|] f] H; apply wp_ret; exact H].
  eapply wp_bind with (M := fun t' x => exists a, t' = t ++ [(Read self 1, a)] /\ x = (ret a, err a, data a) /\ sys_ok (Read self 1, a)).
  - apply wp_read; [unfold CHUNK; lia|lia|]. intros a SO. split; [|eauto].
    apply (tok_flow _ _ _ (shaken s) (told_user s)); [apply flow_read; auto; fds|exact NC|exact I| |intros (x & y & E); discriminate|exact I|apply SV|intros []].
    unfold tls_moves. cbn [fst]. split; [intros E; destruct (m_self_pi E)|intros E; destruct (m_self_co E)].
  - intros t' x (a & -> & -> & SO). set (t1 := t ++ [(Read self 1, a)]). assert (F1 : flow t1 (shaken s) (told_user s)) by (apply flow_read; auto; fds).
    assert (Q1 : calm t1) by (apply calm_snoc; exact I). assert (A1 : at_ t = at_ t1) by (symmetry; apply at_snoc; discriminate). rewrite A1.
    destruct (again (ret a) (err a)) eqn:AG; [|destruct (Z.leb_spec (ret a) 0) as [LE|LE]].
    + apply (read_soft self 1 _ SO) in AG. apply wp_ret. apply live_inv; cbn [with_fds fds shaken told_user]; auto. apply live_plain; auto. split; [exact AG|reflexivity].
    + apply wp_ret. split; [reflexivity|]. split; [intros _; do 2 eexists; exact F1|]. right. split; auto. do 8 right. exists 1, a. split; [apply in_snoc|]. split; auto. intros [S1 S2]. unfold again in AG. rewrite S1, Z.eqb_refl in AG. lia.
    + cbn [sys_ok] in SO. destruct SO as [[Z0 _]|(Z1 & Z0 & _)]; [lia|]. assert (Z2 : len (data a) = 1) by lia.
      destruct (data a) as [|ch d] eqn:DA; [rewrite len_nil in Z2; lia|]. rewrite len_cons in Z2. assert (d = []) by (destruct d as [|y d]; auto; rewrite len_cons in Z2; pose proof (len_nonneg _ d); lia). subst d. cbn [List.hd].
      assert (GS : got self t1 = got self t ++ [ch]) by (unfold t1; rewrite got_this, DA; auto).
      assert (EP : forall f, eof f t1 -> eof f t) by (intros f W; apply read_eof_data in W; auto).
      assert (CM : forall f, gone f t -> gone f t1) by (intros f W; apply gone_mono; auto).
      assert (SN1 : seenok t1 (shaken s)) by (apply seenok_plain; [reflexivity|apply L]). assert (NC1 : shaken s = false -> nocrt t1) by (intros W; apply nocrt_snoc; [reflexivity|apply L; auto]).
      destruct L as ([Ea Eb Ec Ed] & _ & _).
      destruct (Z.eqb_spec ch 67) as [->|N67].
      * assert (T67 : TOLD 67 t1) by (unfold told; rewrite GS; apply in_or_app; right; left; auto). change (childin (at_ t1)) with (val ci t1).
        eapply wp_bind; [eapply (wp_tls_close_w ci t1); [exact F1|exact Q1|fds|right]|].
        { right. right. left. split; auto. do 4 right. auto. }
        cbn beta. intros t' v [-> H]. apply tl_alarm2; [at_eq H|eapply closes_flow; [exact H|fds|auto]| |eapply closes_calm; eauto].
        assert (MO : forall g, gone g t -> gone g t') by (intros g X; eapply closes_mono; eauto).
        split; [|split; [eapply closes_seenok; eauto|intros W; eapply closes_nocrt; eauto]].
        split; unfold told in *; rewrite ?(closes_eof _ _ _ H), ?(closes_got _ _ _ H), ?GS; intros W; auto.
        { eapply closes_this; eauto. }
        apply in_app_or in W as [W|[W|[]]]; [|discriminate]. apply Ed in W as (W1 & W2). auto.
      * change (childin (at_ t1)) with (val ci t1). change (childout (at_ t1)) with (val co t1). rewrite at_ctl, at_ack. change (open (-1)) with false. rewrite !orb_false_r.
        destruct ((ch =? 65) && (open (val ci t1) || open (val co t1))) eqn:C.
        -- assert (ch = 65) by (destruct (Z.eqb_spec ch 65); auto; discriminate). subst ch. clear C.
           assert (T65 : TOLD 65 t1) by (unfold told; rewrite GS; apply in_or_app; right; left; auto).
           eapply wp_bind; [eapply (wp_tls_close_w ci t1); [exact F1|exact Q1|fds|right; apply reason_65; auto]|].
           cbn beta. intros t2 v [-> H2]. assert (F2 : flow t2 (shaken s) (told_user s)) by (eapply closes_flow; [exact H2|fds|auto]). pose proof (closes_calm _ _ _ H2 Q1) as Q2.
           assert (T2 : TOLD 65 t2) by (unfold told; rewrite (closes_got _ _ _ H2); auto).
           replace (set_childin (at_ t1) (-1)) with (at_ t2) by (at_eq H2). cbv zeta. change (childout (at_ t2)) with (val co t2).
           eapply wp_bind; [eapply (wp_tls_close_r co t2); [exact F2|exact Q2|fds|right; apply reason_65; auto]|].
           cbn beta. intros t3 v [-> H3]. assert (F3 : flow t3 (shaken s) (told_user s)) by (eapply closes_flow; [exact H3|fds|auto]). pose proof (closes_calm _ _ _ H3 Q2) as Q3.
           replace (set_childout (at_ t2) (-1)) with (at_ t3) by (at_eq H3). rewrite at_ctl.
           eapply wp_bind with (M := fun t' v => t' = t3 /\ v = -1); [apply wp_shut_none; auto|]. cbn beta. intros t' v [-> ->]. change (set_childctl (at_ t3) (-1)) with (at_ t3). rewrite at_ack.
           eapply wp_bind with (M := fun t' v => t' = t3 /\ v = -1); [apply wp_shut_none_w; auto|]. cbn beta. intros t' v [-> ->]. change (set_childack (at_ t3) (-1)) with (at_ t3).
           apply tl_alarm2; auto.
           assert (MO : forall g, gone g t -> gone g t3) by (intros g X; eapply closes_mono; [exact H3|]; eapply closes_mono; [exact H2|]; auto).
           split; [|split; [eapply closes_seenok; eauto; eapply closes_seenok; eauto|intros W; eapply closes_nocrt; eauto; eapply closes_nocrt; eauto]].
           assert (GI : gone ci t3) by (eapply closes_mono; [exact H3|]; eapply closes_this; eauto). assert (GO : gone co t3) by (eapply closes_this; eauto).
           split; unfold told in *; rewrite ?(closes_eof _ _ _ H3), ?(closes_eof _ _ _ H2), ?(closes_got _ _ _ H3), ?(closes_got _ _ _ H2), ?GS; intros W; auto.
        -- apply wp_ret. split; [reflexivity|]. split; [intros _; do 2 eexists; exact F1|]. right. split; auto. do 7 right. left. exists ch. split; auto. unfold told. rewrite GS. apply in_or_app. right. left. auto.
Qed.

(** *** Waiting *)
Lemma val_eq : forall f g t, f <> -1 -> (val g t = f <-> g = f /\ ~ gone g t).
Proof.
  intros f g t N. destruct (gone_dec g t) as [G|G]; [rewrite val_gone by auto; split; [congruence|tauto]|]. rewrite val_is by auto. tauto.
Qed.
Lemma entry : forall (c : bool) (g ev f ev' : Z), (c, g, ev) = (true, f, ev') <-> c = true /\ g = f /\ ev = ev'.
Proof. intros. split; [intros E; injection E; auto|intros (-> & -> & ->); auto]. Qed.
Definition want_po (t : trace) : Prop := Sendrec t /\ ~ gone po t.
Definition want_pi (t : trace) : Prop := Recvrec t /\ ~ gone pi t /\ (~ gone ci t \/ Sendrec t \/ ~ gone co t).
Definition want_ci (t : trace) : Prop := Recvapp t /\ ~ gone ci t.
Definition want_co (t : trace) : Prop := Sendapp t /\ ~ gone co t /\ ~ gone po t.
Lemma can_po : forall t, can_sendrec (state t) (at_ t) = true <-> want_po t.
Proof. intros t. unfold can_sendrec, want_po, Sendrec, flag. change (peerout (at_ t)) with (val po t). rewrite andb_true_iff, val_open, has_sendrec. tauto. Qed.
Lemma can_pi : forall t, can_recvrec (state t) (at_ t) = true <-> want_pi t.
Proof.
  intros t. unfold can_recvrec, want_pi, Recvrec, Sendrec, flag. change (peerin (at_ t)) with (val pi t). change (childin (at_ t)) with (val ci t). change (childout (at_ t)) with (val co t).
  rewrite !andb_true_iff, !orb_true_iff, !val_open, has_recvrec, has_sendrec. tauto.
Qed.
Lemma can_ci : forall t, can_recvapp (state t) (at_ t) = true <-> want_ci t.
Proof. intros t. unfold can_recvapp, want_ci, Recvapp, flag. change (childin (at_ t)) with (val ci t). rewrite andb_true_iff, val_open, has_recvapp. tauto. Qed.
Lemma can_co : forall t, can_sendapp (state t) (at_ t) = true <-> want_co t.
Proof. intros t. unfold can_sendapp, want_co, Sendapp, flag. change (childout (at_ t)) with (val co t). change (peerout (at_ t)) with (val po t). rewrite !andb_true_iff, !val_open, has_sendapp. tauto. Qed.
Lemma tls_in : forall t f, f <> -1 -> (In (true, f, POLLIN) (tls_watch self (state t) (at_ t)) <-> (f = pi /\ want_pi t) \/ (f = co /\ want_co t) \/ f = self).
Proof.
  intros t f F. unfold tls_watch. cbn [In]. rewrite !entry, can_po, can_pi, can_ci, can_co. change (peerin (at_ t)) with (val pi t). change (peerout (at_ t)) with (val po t). change (childin (at_ t)) with (val ci t). change (childout (at_ t)) with (val co t). rewrite !val_eq by auto.
  assert (NE : POLLOUT <> POLLIN) by discriminate. split.
  - intros [(_ & _ & E)|[W|[(_ & _ & E)|[W|[W|[]]]]]]; [contradiction|left|contradiction|right; left|right; right]; intuition.
  - intros [[-> W]|[[-> W]| ->]]; [right; left|right; right; right; left|right; right; right; right; left]; [unfold want_pi in *; tauto|unfold want_co in *; tauto|tauto].
Qed.
Lemma tls_out : forall t f, f <> -1 -> (In (true, f, POLLOUT) (tls_watch self (state t) (at_ t)) <-> (f = po /\ want_po t) \/ (f = ci /\ want_ci t)).
Proof.
  intros t f F. unfold tls_watch. cbn [In]. rewrite !entry, can_po, can_pi, can_ci, can_co. change (peerin (at_ t)) with (val pi t). change (peerout (at_ t)) with (val po t). change (childin (at_ t)) with (val ci t). change (childout (at_ t)) with (val co t). rewrite !val_eq by auto.
  assert (NE : POLLIN <> POLLOUT) by discriminate. split.
  - intros [W|[(_ & _ & E)|[W|[(_ & _ & E)|[(_ & _ & E)|[]]]]]]; [left|contradiction|right|contradiction|contradiction]; intuition.
  - intros [[-> W]|[-> W]]; [left|right; right; left]; [unfold want_po in *; tauto|unfold want_ci in *; tauto].
Qed.
Lemma ne_pi : pi <> -1. Proof. pose proof z_pi. lia. Qed.
Lemma ne_po : po <> -1. Proof. pose proof z_po. lia. Qed.
Lemma ne_ci : ci <> -1. Proof. pose proof z_ci. lia. Qed.
Lemma ne_co : co <> -1. Proof. pose proof z_co. lia. Qed.
Lemma ne_self : self <> -1. Proof. pose proof z_self. lia. Qed.
Lemma range : forall f t, valid f -> ~ gone f t -> 0 <= f < 1024.
Proof. intros f t [V|V] G; auto. unfold gone in G. lia. Qed.
Lemma ready_val_r : forall a t c g, (c = true -> ~ gone g t) -> (wready a (c, val g t, POLLIN) = true <-> c = true /\ 0 < ret a /\ In g (data a)).
Proof. intros a t c g C. rewrite ready_r. split; intros (W & P & X); (split; [auto|]); specialize (C W); rewrite val_is in * by auto; auto. Qed.
Lemma ready_val_w : forall a t c g, (c = true -> ~ gone g t) -> (wready a (c, val g t, POLLOUT) = true <-> c = true /\ 0 < ret a /\ In (-1 - g) (data a)).
Proof. intros a t c g C. rewrite ready_w. split; intros (W & P & X); (split; [auto|]); specialize (C W); rewrite val_is in * by auto; auto. Qed.

Lemma wp_tls_wait : forall t s, fds s = at_ t -> flow t (shaken s) (told_user s) -> live t (shaken s) -> calm t ->
  (Closed t -> Sendrec t /\ seenapp t) -> (want_po t \/ want_pi t \/ want_ci t \/ want_co t) ->
  (gone pi t -> Recvapp t \/ gone ci t) -> (gone ci t -> gone co t -> Closed t \/ exists a, In (Other (bs "tls_engine_close") [] [], a) t) ->
  wp tok t (h <~ watch (tls_watch self (state t) (at_ t)) ;;
      match h with
      | [wtopeer; wfrompeer; wtochild; wfromchild; wself] =>
        if (wtochild : bool) then tls_tochild s
        else if (wtopeer : bool) then tls_topeer s
        else if (wfrompeer : bool) then tls_frompeer timeout s
        else if (wfromchild : bool) then tls_fromchild timeout s
        else if (wself : bool) then tls_signal finish self s
        else Ret (Again s)
      | _ => Bad
      end) tnext.
Proof.
  intros t s A F L Q H1 H2 H3 H4.
  eapply wp_bind with (M := fun t' x => exists n rd wr a, t' = t ++ [(Select n rd wr None, a)] /\ x = map (wready a) (tls_watch self (state t) (at_ t)) /\
    (forall f, f <> -1 -> (In f rd <-> (f = pi /\ want_pi t) \/ (f = co /\ want_co t) \/ f = self)) /\ (forall f, f <> -1 -> (In f wr <-> (f = po /\ want_po t) \/ (f = ci /\ want_ci t)))).
  - apply wp_watch.
    { unfold tls_watch. repeat apply Forall_cons; [..|apply Forall_nil]; intros C.
      - apply can_po in C. change (peerout (at_ t)) with (val po t). destruct C as [_ C]. rewrite val_is by auto. split; [apply z_po|auto].
      - apply can_pi in C. change (peerin (at_ t)) with (val pi t). destruct C as [_ [C _]]. rewrite val_is by auto. split; [apply z_pi|auto].
      - apply can_ci in C. change (childin (at_ t)) with (val ci t). destruct C as [_ C]. rewrite val_is by auto. split; [eapply range; fds|auto].
      - apply can_co in C. change (childout (at_ t)) with (val co t). destruct C as [_ [C _]]. rewrite val_is by auto. split; [eapply range; fds|auto].
      - split; [apply z_self|auto]. }
    intros n rd wr a RD WR. assert (RD' : forall f, f <> -1 -> (In f rd <-> (f = pi /\ want_pi t) \/ (f = co /\ want_co t) \/ f = self)) by (intros f X; rewrite RD; apply tls_in; auto).
    assert (WR' : forall f, f <> -1 -> (In f wr <-> (f = po /\ want_po t) \/ (f = ci /\ want_ci t))) by (intros f X; rewrite WR; apply tls_out; auto). clear RD WR.
    split; [|exists n, rd, wr, a; auto].
    assert (PL : plain (Select n rd wr None) a) by (split; [exact I|reflexivity]). apply (tok_flow _ _ _ _ _ (flow_plain _ _ _ _ _ PL F)); [exact I|exact I|exact I|intros (x & y & E); discriminate| |apply Q|intros _; do 2 eexists; exact F].
    unfold tls_select. cbn [fst]. right. split; auto.
    assert (I1 : In po wr <-> want_po t) by (rewrite WR' by apply ne_po; pose proof m_po_ci; tauto). assert (I2 : In pi rd <-> want_pi t) by (rewrite RD' by apply ne_pi; pose proof m_pi_co; pose proof m_pi_self; tauto).
    assert (I3 : In ci wr <-> want_ci t) by (rewrite WR' by apply ne_ci; pose proof m_ci_po; tauto). assert (I4 : In co rd <-> want_co t) by (rewrite RD' by apply ne_co; pose proof m_co_pi; pose proof m_co_self; tauto).
    split; [apply RD'; [apply ne_self|auto]|]. split; [exact I1|]. split; [exact I2|]. split; [exact I3|]. split; [exact I4|].
    split. { destruct H2 as [W|[W|[W|W]]]; [exists po; left|exists pi; right|exists ci; left|exists co; right]; cbn [In]; tauto. }
    destruct L as ([T1 T2 T3 T4] & _). split; auto. split; auto. split; auto. split; auto. split; auto. split; auto. split; auto. split; [apply F|]. split; apply F.
  - intros t' x (n & rd & wr & a & -> & -> & RD & WR). set (t1 := t ++ [(Select n rd wr None, a)]).
    assert (PL : plain (Select n rd wr None) a) by (split; [exact I|reflexivity]).
    pose proof (flow_plain _ _ _ _ _ PL F) as F1. pose proof (live_plain _ _ _ _ PL eq_refl L) as L1. fold t1 in F1, L1.
    assert (A1 : fds s = at_ t1) by (unfold t1; rewrite at_plain by exact I; auto). assert (ST : state t1 = state t) by (apply state_keep; reflexivity).
    assert (G1 : forall f, gone f t1 <-> gone f t) by (intros f; apply gone_snoc; discriminate).
    assert (I1 : In po wr <-> want_po t) by (rewrite WR by apply ne_po; pose proof m_po_ci; tauto). assert (I2 : In pi rd <-> want_pi t) by (rewrite RD by apply ne_pi; pose proof m_pi_co; pose proof m_pi_self; tauto).
    assert (I3 : In ci wr <-> want_ci t) by (rewrite WR by apply ne_ci; pose proof m_ci_po; tauto). assert (I4 : In co rd <-> want_co t) by (rewrite RD by apply ne_co; pose proof m_co_pi; pose proof m_co_self; tauto).
    assert (I5 : In self rd) by (apply RD; [apply ne_self|auto]).
    assert (SV : forall e, (0 < ret a ->
      let w f := In f wr /\ In (-1 - f) (data a) in
      let r f := In f rd /\ In f (data a) in
      (w ci -> fst e = Other (bs "tls_engine_recvapp_buf") [] []) /\
      (~ w ci -> w po -> fst e = Other (bs "tls_engine_sendrec_buf") [] []) /\
      (~ w ci -> ~ w po -> r pi -> fst e = Other (bs "tls_engine_recvrec_buf") [] []) /\
      (~ w ci -> ~ w po -> ~ r pi -> r co -> fst e = Other (bs "tls_engine_sendapp_buf") [] []) /\
      (~ w ci -> ~ w po -> ~ r pi -> ~ r co -> r self -> exists n, fst e = Read self n)) -> SERVE t1 e).
    { intros e W t0 n' rd' wr' a' EQ. unfold t1 in EQ. apply app_inj_tail in EQ as [_ EQ]. injection EQ as <- <- <- <-. exact W. }
    unfold tls_watch. cbn [map].
    change (peerout (at_ t)) with (val po t). change (peerin (at_ t)) with (val pi t). change (childin (at_ t)) with (val ci t). change (childout (at_ t)) with (val co t).
    set (X1 := wready a (_, val po t, POLLOUT)). set (X2 := wready a (_, val pi t, POLLIN)). set (X3 := wready a (_, val ci t, POLLOUT)). set (X4 := wready a (_, val co t, POLLIN)). set (X5 := wready a (true, self, POLLIN)).
    assert (K1 : X1 = true <-> 0 < ret a /\ In po wr /\ In (-1 - po) (data a)).
    { unfold X1. rewrite ready_val_w by (rewrite can_po; intros [_ W]; auto). rewrite can_po, I1. tauto. }
    assert (K2 : X2 = true <-> 0 < ret a /\ In pi rd /\ In pi (data a)).
    { unfold X2. rewrite ready_val_r by (rewrite can_pi; intros (_ & W & _); auto). rewrite can_pi, I2. tauto. }
    assert (K3 : X3 = true <-> 0 < ret a /\ In ci wr /\ In (-1 - ci) (data a)).
    { unfold X3. rewrite ready_val_w by (rewrite can_ci; intros [_ W]; auto). rewrite can_ci, I3. tauto. }
    assert (K4 : X4 = true <-> 0 < ret a /\ In co rd /\ In co (data a)).
    { unfold X4. rewrite ready_val_r by (rewrite can_co; intros (_ & W & _); auto). rewrite can_co, I4. tauto. }
    assert (K5 : X5 = true <-> 0 < ret a /\ In self rd /\ In self (data a)).
    { unfold X5. rewrite ready_r. tauto. }
    clearbody X1 X2 X3 X4 X5.
    destruct X3.
    { destruct (proj1 K3 eq_refl) as (B1 & B2 & B3). pose proof B2 as B4. rewrite I3 in B4. destruct B4 as [B4 B5].
      apply wp_tls_tochild with (t := t1); auto; [unfold Recvapp, flag; rewrite ST; exact B4|rewrite G1; auto|]. intros a'. apply SV. intros _. cbv zeta. cbn [fst]. split; auto. tauto. }
    assert (N3 : 0 < ret a -> ~ (In ci wr /\ In (-1 - ci) (data a))) by (intros X C; assert (false = true) by (apply K3; auto); discriminate).
    destruct X1.
    { destruct (proj1 K1 eq_refl) as (B1 & B2 & B3). pose proof B2 as B4. rewrite I1 in B4. destruct B4 as [B4 B5].
      apply wp_tls_topeer with (t := t1); auto; [unfold Sendrec, flag; rewrite ST; exact B4|rewrite G1; auto|]. intros a'. apply SV. intros _. cbv zeta. cbn [fst]. split; [tauto|]. split; auto. tauto. }
    assert (N1 : 0 < ret a -> ~ (In po wr /\ In (-1 - po) (data a))) by (intros X C; assert (false = true) by (apply K1; auto); discriminate).
    destruct X2.
    { destruct (proj1 K2 eq_refl) as (B1 & B2 & B3). pose proof B2 as B4. rewrite I2 in B4. destruct B4 as (B4 & B5 & _).
      apply wp_tls_frompeer with (t := t1); auto; [unfold Recvrec, flag; rewrite ST; exact B4|rewrite G1; auto|]. intros a'. apply SV. intros _. cbv zeta. cbn [fst]. split; [tauto|]. split; [tauto|]. split; auto. tauto. }
    assert (N2 : 0 < ret a -> ~ (In pi rd /\ In pi (data a))) by (intros X C; assert (false = true) by (apply K2; auto); discriminate).
    destruct X4.
    { destruct (proj1 K4 eq_refl) as (B1 & B2 & B3). pose proof B2 as B4. rewrite I4 in B4. destruct B4 as (B4 & B5 & B6).
      apply wp_tls_fromchild with (t := t1); auto; [unfold Sendapp, flag; rewrite ST; exact B4|rewrite G1; auto|rewrite G1; auto|]. intros a'. apply SV. intros _. cbv zeta. cbn [fst]. split; [tauto|]. split; [tauto|]. split; [tauto|]. split; auto. tauto. }
    assert (N4 : 0 < ret a -> ~ (In co rd /\ In co (data a))) by (intros X C; assert (false = true) by (apply K4; auto); discriminate).
    destruct X5.
    { apply wp_tls_signal with (t := t1); auto. intros b a'. apply SV. intros _. cbv zeta. cbn [fst]. split; [tauto|]. split; [tauto|]. split; [tauto|]. split; [tauto|eauto]. }
    assert (N5 : 0 < ret a -> ~ (In self rd /\ In self (data a))) by (intros X C; assert (false = true) by (apply K5; auto); discriminate).
    apply wp_ret. apply live_inv; auto. intros e. apply SV. cbv zeta. tauto.
Qed.

Lemma wp_tls_body : forall fuel t s, tinv t s -> wp tok t (tls_body timeout finish self usercert fuel s) tnext.
Proof.
  intros fuel t s (A & F & T & SN & Q & UN). unfold tls_body. unfold current_state at 1. unfold engine, sys1. cbn [pbind]. apply wp_do. intros a _.
  set (t1 := t ++ [(Other (bs "tls_engine_current_state") [] [], a)]).
  assert (K1 : pre t1 (shaken s) (told_user s) (ret a)).
  { split; [apply flow_plain; auto; split; [exact I|reflexivity]|apply tends_plain; [exact I|auto]|apply calm_snoc; exact I|unfold t1; rewrite state_snoc; reflexivity| |intros E; apply nocrt_snoc; auto].
    intros E. apply seenapp_snoc in E as [E|[_ E]]; auto. destruct (SN E) as [X|[X1 X2]]; auto. right. left. split; apply gone_mono; auto. }
  split. { eapply tok_other; [apply (p_flow _ _ _ _ K1)|exact Q|reflexivity|notin|discriminate]. }
  cbn [pbind]. rewrite A. assert (A1 : at_ t = at_ t1) by (symmetry; apply at_plain; exact I). rewrite A1. set (st0 := ret a) in *. clearbody st0.
  eapply wp_bind; [apply wp_tls_eof1; exact K1|]. cbn beta. intros t2 f (-> & K2 & P2).
  eapply wp_bind; [apply wp_tls_eof2; [exact K2|exact P2]|]. cbn beta. intros t3 f (-> & K3 & P3).
  eapply wp_bind; [apply wp_tls_eof3; [exact K3|exact P3]|]. cbn beta. intros t4 f (-> & K4 & P4).
  eapply wp_bind; [apply wp_tls_notify; [exact K4|exact P4]|]. cbn beta. intros t5 st (A5 & K5 & P5 & N5). rewrite <- A5.
  eapply wp_bind; [eapply wp_report; [exact K5|reflexivity]|]. cbn beta. intros t6 [s'|] [A6 R6].
  2:{ apply wp_ret. split; [symmetry; exact A6|]. split; [discriminate|]. left. auto. }
  destruct R6 as (E6 & F6 & T6 & SN6 & Q6 & UN6 & ST6 & G6 & SH6 & (u & U6)). rewrite <- A6. pose proof (p_st _ _ _ _ K5) as ST5. rewrite <- ST6 in ST5. rewrite ST5. rewrite has_closed, has_sendrec.
  destruct (Z.testbit (state t6) 0 && negb (shaken s')) eqn:C1.
  { apply andb_true_iff in C1 as [C1 C2]. apply negb_true_iff in C2. apply wp_ret. split; [exact E6|]. split; [intros _; do 2 eexists; exact F6|]. right. split; auto. left. split; [exact C1|]. unfold Sendapp, flag. rewrite ST6. intros X. specialize (SH6 X). congruence. }
  destruct (Z.testbit (state t6) 0 && negb (Z.testbit (state t6) 1)) eqn:C2.
  { apply andb_true_iff in C2 as [C2 C3]. apply negb_true_iff in C3. apply wp_ret. split; [exact E6|]. split; [intros _; do 2 eexists; exact F6|]. right. split; auto. right. left. split; [exact C2|]. unfold Sendrec, flag. congruence. }
  destruct (negb (can_recvrec (state t6) (at_ t6)) && negb (can_sendrec (state t6) (at_ t6)) && negb (can_sendapp (state t6) (at_ t6)) && negb (can_recvapp (state t6) (at_ t6))) eqn:C3.
  { rewrite !andb_true_iff, !negb_true_iff, <- !not_true_iff_false, can_pi, can_po, can_co, can_ci in C3. unfold want_pi, want_po, want_co, want_ci in C3. apply wp_ret. split; [exact E6|]. split; [intros _; do 2 eexists; exact F6|]. right. split; auto. right. right. left. tauto. }
  apply wp_tls_wait; auto.
  - split; auto.
  - intros CL. unfold Closed, flag in CL. rewrite CL in C1, C2. cbn [andb] in C1, C2. apply negb_false_iff in C1, C2. split; [exact C2|]. apply (f_sh _ _ _ F6 C1).
  - apply not_true_iff_false in C3. rewrite !andb_true_iff, !negb_true_iff, <- !not_true_iff_false, can_pi, can_po, can_co, can_ci in C3.
    destruct (can_sendrec (state t6) (at_ t6)) eqn:W1; [left; apply can_po; auto|]. destruct (can_recvrec (state t6) (at_ t6)) eqn:W2; [right; left; apply can_pi; auto|].
    destruct (can_recvapp (state t6) (at_ t6)) eqn:W3; [right; right; left; apply can_ci; auto|]. destruct (can_sendapp (state t6) (at_ t6)) eqn:W4; [right; right; right; apply can_co; auto|].
    rewrite <- not_true_iff_false in *. rewrite can_po in W1. rewrite can_pi in W2. rewrite can_ci in W3. rewrite can_co in W4. tauto.
  - rewrite !G6. unfold Recvapp, flag in *. rewrite ST6. auto.
  - rewrite !G6. unfold Closed, flag in *. rewrite ST6. intros X1 X2. destruct (N5 X1 X2) as [X|(b & X)]; auto. right. exists b. rewrite U6. apply in_or_app. auto.
Qed.
Definition start (f : Z) : Z := if f <? 0 then -1 else f.
Lemma wp_tls_phase : forall fuel,
  wp tok [] (tls_phase timeout finish self usercert fuel (mkts (mksess pi po (start ci) (start co) (-1) (-1) b1 b2) false reported0)) (fun t x => tstop t (fst x) (snd x)).
Proof.
  intros fuel. unfold tls_phase. apply wp_iter with (I := tinv).
  - intros t s V. eapply wp_conseq; [apply wp_tls_body; auto|]. intros t1 [s1|[r s1]] N; exact N.
  - split; [|split; [|split; [|split; [|split]]]]; cbn [fds shaken told_user].
    + unfold at_, val, start. replace (pi <? 0) with false by (pose proof z_pi; lia). replace (po <? 0) with false by (pose proof z_po; lia). reflexivity.
    + split; try reflexivity; try discriminate.
      * intros P R _. exists R. reflexivity.
      * intros P R _ _. split; reflexivity.
      * intros P R _ E. exists []. split; [exists P; reflexivity|]. split; [reflexivity|]. left. unfold record. rewrite E. split; [reflexivity|intros _ X; discriminate].
      * intros (a & []).
      * intros (a & []).
    + split; unfold told; cbn [got In]; try tauto; intros (n & a & [] & _).
    + intros (c & a & [] & _).
    + intros e t0 n rd wr a W. destruct t0; discriminate.
    + reflexivity.
Qed.
End Tls.
