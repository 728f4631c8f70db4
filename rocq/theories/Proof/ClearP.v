(** The cleartext phase. *)
From Verif.Model Require Import Base Sys Io Fdio Relay Session.
From Verif.Spec Require Import Waiting Flow Starttls.
From Verif.Proof Require Import Tac SysP FdioP IoP WpP TcpP CurP.

Section Clear.
Variables timeout finish pi po ci co cc ck self : Z.
Hypothesis SETUP : clear_setup pi po ci co cc ck self.

Ltac nd_solve :=
  let H := fresh in
  destruct SETUP as [H _];
  repeat match type of H with NoDup (_ :: _) => let A := fresh in inversion_clear H as [|? ? A H'] ; rename H' into H; cbn [In] in A end;
  intros E; rewrite E in *; tauto.
Lemma n_pi_po : pi <> po. Proof. nd_solve. Qed.
Lemma n_pi_ci : pi <> ci. Proof. nd_solve. Qed.
Lemma n_pi_co : pi <> co. Proof. nd_solve. Qed.
Lemma n_pi_cc : pi <> cc. Proof. nd_solve. Qed.
Lemma n_pi_ck : pi <> ck. Proof. nd_solve. Qed.
Lemma n_pi_self : pi <> self. Proof. nd_solve. Qed.
Lemma n_po_pi : po <> pi. Proof. nd_solve. Qed.
Lemma n_po_ci : po <> ci. Proof. nd_solve. Qed.
Lemma n_po_co : po <> co. Proof. nd_solve. Qed.
Lemma n_po_cc : po <> cc. Proof. nd_solve. Qed.
Lemma n_po_ck : po <> ck. Proof. nd_solve. Qed.
Lemma n_po_self : po <> self. Proof. nd_solve. Qed.
Lemma n_ci_pi : ci <> pi. Proof. nd_solve. Qed.
Lemma n_ci_po : ci <> po. Proof. nd_solve. Qed.
Lemma n_ci_co : ci <> co. Proof. nd_solve. Qed.
Lemma n_ci_cc : ci <> cc. Proof. nd_solve. Qed.
Lemma n_ci_ck : ci <> ck. Proof. nd_solve. Qed.
Lemma n_ci_self : ci <> self. Proof. nd_solve. Qed.
Lemma n_co_pi : co <> pi. Proof. nd_solve. Qed.
Lemma n_co_po : co <> po. Proof. nd_solve. Qed.
Lemma n_co_ci : co <> ci. Proof. nd_solve. Qed.
Lemma n_co_cc : co <> cc. Proof. nd_solve. Qed.
Lemma n_co_ck : co <> ck. Proof. nd_solve. Qed.
Lemma n_co_self : co <> self. Proof. nd_solve. Qed.
Lemma n_cc_pi : cc <> pi. Proof. nd_solve. Qed.
Lemma n_cc_po : cc <> po. Proof. nd_solve. Qed.
Lemma n_cc_ci : cc <> ci. Proof. nd_solve. Qed.
Lemma n_cc_co : cc <> co. Proof. nd_solve. Qed.
Lemma n_cc_ck : cc <> ck. Proof. nd_solve. Qed.
Lemma n_cc_self : cc <> self. Proof. nd_solve. Qed.
Lemma n_ck_pi : ck <> pi. Proof. nd_solve. Qed.
Lemma n_ck_po : ck <> po. Proof. nd_solve. Qed.
Lemma n_ck_ci : ck <> ci. Proof. nd_solve. Qed.
Lemma n_ck_co : ck <> co. Proof. nd_solve. Qed.
Lemma n_ck_cc : ck <> cc. Proof. nd_solve. Qed.
Lemma n_ck_self : ck <> self. Proof. nd_solve. Qed.
Lemma n_self_pi : self <> pi. Proof. nd_solve. Qed.
Lemma n_self_po : self <> po. Proof. nd_solve. Qed.
Lemma n_self_ci : self <> ci. Proof. nd_solve. Qed.
Lemma n_self_co : self <> co. Proof. nd_solve. Qed.
Lemma n_self_cc : self <> cc. Proof. nd_solve. Qed.
Lemma n_self_ck : self <> ck. Proof. nd_solve. Qed.
Hint Resolve n_pi_po n_pi_ci n_pi_co n_pi_cc n_pi_ck n_pi_self n_po_pi n_po_ci n_po_co n_po_cc n_po_ck n_po_self n_ci_pi n_ci_po n_ci_co n_ci_cc n_ci_ck n_ci_self n_co_pi n_co_po n_co_ci n_co_cc n_co_ck n_co_self n_cc_pi n_cc_po n_cc_ci n_cc_co n_cc_ck n_cc_self n_ck_pi n_ck_po n_ck_ci n_ck_co n_ck_cc n_ck_self n_self_pi n_self_po n_self_ci n_self_co n_self_cc n_self_ck : fds.
Lemma small : forall f, In f [pi; po; ci; co; cc; ck; self] -> 0 <= f < 1024.
Proof. destruct SETUP as [_ F]. rewrite Forall_forall in F. exact F. Qed.
Lemma s_pi : 0 <= pi < 1024. Proof. apply small. cbn. tauto. Qed.
Lemma s_po : 0 <= po < 1024. Proof. apply small. cbn. tauto. Qed.
Lemma s_ci : 0 <= ci < 1024. Proof. apply small. cbn. tauto. Qed.
Lemma s_co : 0 <= co < 1024. Proof. apply small. cbn. tauto. Qed.
Lemma s_cc : 0 <= cc < 1024. Proof. apply small. cbn. tauto. Qed.
Lemma s_ck : 0 <= ck < 1024. Proof. apply small. cbn. tauto. Qed.
Lemma s_self : 0 <= self < 1024. Proof. apply small. cbn. tauto. Qed.

Notation TOLD := (told self).
Notation REASON := (clear_reason pi po ci co cc ck self).
Notation SERVE := (clear_serve pi po ci co cc self).
Definition cbal (i o : Z) (t : trace) : Prop := exists p, got i t = sent o t ++ p /\ len p <= 8192.
Definition cok (t : trace) (e : event) : Prop :=
  conveys [] pi ci 8192 t e /\ conveys [] co po 8192 t e /\ usable t e /\ clear_close pi po ci co cc ck self t e /\
  clear_boundary pi po co cc ck t e /\ clear_select pi po ci co cc ck self t e /\ SERVE t e /\ cbal pi ci (t ++ [e]) /\ cbal co po (t ++ [e]).
Definition quiet (t : trace) : Prop := forall e, SERVE t e.
Record strm (t : trace) (b1 b2 : rbuf) : Prop := mkstrm {
  s_b1 : bufok 8192 b1; s_b2 : bufok 8192 b2;
  s_in : got pi t = sent ci t ++ content b1; s_out : got co t = sent po t ++ content b2 }.
Definition lock (t : trace) : Prop := closed ck t -> closed cc t.
Record core (t : trace) (b1 b2 : rbuf) : Prop := mkcore {
  c_s : strm t b1 b2; c_cc : got cc t = []; c_ck : sent ck t = []; c_lock : lock t; c_self : ~ closed self t }.
Record ends (t : trace) : Prop := mkends {
  e_pi : eof pi t -> closed pi t; e_co : eof co t -> closed co t; e_67 : TOLD 67 t -> closed ci t;
  e_65 : TOLD 65 t -> closed ci t /\ closed co t /\ closed cc t /\ closed ck t }.
Definition here (t : trace) (b1 b2 : rbuf) : sess := mksess (cur pi t) (cur po t) (cur ci t) (cur co t) (cur cc t) (cur ck t) b1 b2.
Definition cinv (t : trace) (s : sess) : Prop := exists b1 b2, s = here t b1 b2 /\ core t b1 b2 /\ ends t /\ quiet t.
Definition cstop (t : trace) (r : Z) (s : sess) : Prop := exists b1 b2, s = here t b1 b2 /\
  ((r = 1 /\ clear_tls pi po co cc ck t /\ fill b1 = 0 /\ fill b2 = 0) \/ (r = 0 /\ sent ck t = [] /\ clear_over pi po ci co cc self t)).
Definition next (t : trace) (x : verdict) : Prop := match x with Again s => cinv t s | Stop (r, s) => cstop t r s end.

Lemma quiet_snoc : forall t c a, match c with Select _ _ _ _ => False | _ => True end -> quiet (t ++ [(c, a)]).
Proof. intros t c a H e t0 n rd wr us b E. apply app_inj_tail in E as [_ E]. injection E as -> _. destruct H. Qed.
Lemma strm_bal : forall t b1 b2, strm t b1 b2 -> cbal pi ci t /\ cbal co po t.
Proof.
  intros t b1 b2 [A B C D]. split; [exists (content b1)|exists (content b2)]; (split; [auto|]); erewrite content_len by eauto; unfold bufok in *; lia.
Qed.
Lemma strm_nil : forall t b1 b2, strm t b1 b2 -> (fill b1 = 0 <-> got pi t = sent ci t) /\ (fill b2 = 0 <-> got co t = sent po t).
Proof.
  intros t b1 b2 [A B C D]. apply content_len in A, B. split; rewrite ?C, ?D.
  - split; intros E; [rewrite E in A; destruct (content b1); [apply app_nil_r|rewrite len_cons in A; pose proof (len_nonneg _ l); lia]|].
    apply (f_equal (@length Z)) in E. rewrite app_length in E. unfold len in A. lia.
  - split; intros E; [rewrite E in B; destruct (content b2); [apply app_nil_r|rewrite len_cons in B; pose proof (len_nonneg _ l); lia]|].
    apply (f_equal (@length Z)) in E. rewrite app_length in E. unfold len in B. lia.
Qed.
Lemma strm_room : forall t b1 b2, strm t b1 b2 -> (fill b1 < 8192 <-> room pi ci t) /\ (fill b2 < 8192 <-> room co po t).
Proof.
  intros t b1 b2 [A B C D]. split; split.
  - intros F. exists (content b1). split; auto. rewrite (content_len _ _ A). auto.
  - intros (p & E & L). rewrite C in E. apply app_inv_head in E. subst p. rewrite (content_len _ _ A) in L. auto.
  - intros F. exists (content b2). split; auto. rewrite (content_len _ _ B). auto.
  - intros (p & E & L). rewrite D in E. apply app_inv_head in E. subst p. rewrite (content_len _ _ B) in L. auto.
Qed.

(** *** Neutral calls *)
Lemma neutral_strm : forall t c a b1 b2, neutral c a -> strm t b1 b2 -> strm (t ++ [(c, a)]) b1 b2.
Proof. intros t c a b1 b2 N [A B C D]. split; auto; rewrite neutral_got, neutral_sent by auto; auto. Qed.
Lemma neutral_lock : forall t c a, neutral c a -> lock t -> lock (t ++ [(c, a)]).
Proof. intros t c a N L. unfold lock in *. rewrite !closed_snoc by (eapply neutral_close; eauto). auto. Qed.
Lemma neutral_core : forall t c a b1 b2, neutral c a -> core t b1 b2 -> core (t ++ [(c, a)]) b1 b2.
Proof. intros t c a b1 b2 N [A B C D F]. split; [apply neutral_strm; auto|rewrite neutral_got by auto; auto|rewrite neutral_sent by auto; auto|apply neutral_lock; auto|rewrite closed_snoc by (eapply neutral_close; eauto); auto]. Qed.
Lemma neutral_ends : forall t c a, neutral c a -> ends t -> ends (t ++ [(c, a)]).
Proof.
  intros t c a N [A B C D]. unfold told in *. split; unfold told.
  - intros E. apply closed_mono. apply neutral_eof in E; auto.
  - intros E. apply closed_mono. apply neutral_eof in E; auto.
  - rewrite neutral_got by auto. intros E. apply closed_mono. auto.
  - rewrite neutral_got by auto. intros E. apply D in E as (E1 & E2 & E3 & E4). repeat split; apply closed_mono; auto.
Qed.
Lemma neutral_here : forall t c a b1 b2, neutral c a -> here (t ++ [(c, a)]) b1 b2 = here t b1 b2.
Proof. intros t c a b1 b2 N. unfold here. rewrite !cur_snoc by (eapply neutral_close; eauto). reflexivity. Qed.
Lemma neutral_reason : forall f t c a, neutral c a -> REASON f t -> REASON f (t ++ [(c, a)]).
Proof.
  intros f t c a N R. unfold clear_reason, told in *. rewrite !neutral_got, !neutral_sent by auto.
  destruct R as [(E & R)|[(E & R)|[(E & R)|[(E & R)|[(E & R)|(E & R)]]]]].
  - left. auto using eof_app.
  - right. left. split; auto. destruct R as [R|[R1 R2]]; [left; apply broken_app; auto|right; split; auto; apply closed_mono; auto].
  - right. right. left. split; auto. destruct R as [R|[[R1 R2]|[R|R]]]; [left; apply broken_app; auto|right; left; split; auto; apply closed_mono; auto|auto|auto].
  - right. right. right. left. split; auto. destruct R as [R|R]; auto using eof_app.
  - right. right. right. right. left. split; auto. destruct R as [(n & b & I & R)|R]; auto. left. exists n, b. split; auto. apply in_or_app. auto.
  - right. right. right. right. right. split; auto.
Qed.

(** *** Closing *)
Lemma cok_shut : forall t b1 b2 how f a b, strm t b1 b2 -> quiet t -> ~ closed f t -> REASON f t ->
  cok t (Shutdown f how, a) /\ cok (t ++ [(Shutdown f how, a)]) (Close f, b).
Proof.
  intros t b1 b2 how f a b S Q NC W. pose proof (neutral_strm _ (Shutdown f how) a b1 b2 I S) as S1.
  assert (S2 : strm ((t ++ [(Shutdown f how, a)]) ++ [(Close f, b)]) b1 b2).
  { destruct S1 as [A B C D]. split; auto; rewrite close_got, close_sent; auto. }
  split; unfold cok, conveys, usable, clear_close, clear_boundary, clear_select; cbn [fst].
  - repeat (split; [solve [auto]|]). apply (strm_bal _ _ _ S1).
  - split; [exact I|]. split; [exact I|]. split; [rewrite closed_snoc by discriminate; auto|]. split; [apply neutral_reason; [exact I|auto]|].
    split; [exact I|]. split; [exact I|]. split; [apply quiet_snoc; exact I|]. apply (strm_bal _ _ _ S2).
Qed.
Definition closes (f : Z) (t t' : trace) : Prop :=
  (t' = t /\ closed f t) \/ (exists how a b, t' = (t ++ [(Shutdown f how, a)]) ++ [(Close f, b)]).
Lemma wp_close_r : forall f t b1 b2, 0 <= f -> strm t b1 b2 -> quiet t -> (closed f t \/ REASON f t) ->
  wp cok t (shut_r (cur f t)) (fun t' v => v = -1 /\ closes f t t').
Proof.
  intros f t b1 b2 F S Q W. destruct (closedb f t) eqn:C.
  - pose proof (proj1 (closedb_iff _ _) C) as C'. apply wp_shut_r; [intros _; split; auto; left; auto|]. rewrite cur_gone by auto. intros N. congruence.
  - assert (NC : ~ closed f t) by (rewrite <- closedb_iff; congruence). rewrite cur_is by auto. apply wp_shut_r; [lia|]. intros _ a b.
    destruct W as [W|W]; [contradiction|]. destruct (cok_shut t b1 b2 0 f a b S Q NC W) as [O1 O2]. split; auto. split; auto. split; auto. right. exists 0, a, b. apply pair_snoc.
Qed.
Lemma wp_close_w : forall f t b1 b2, 0 <= f -> strm t b1 b2 -> quiet t -> (closed f t \/ REASON f t) ->
  wp cok t (shut_w (cur f t)) (fun t' v => v = -1 /\ closes f t t').
Proof.
  intros f t b1 b2 F S Q W. destruct (closedb f t) eqn:C.
  - pose proof (proj1 (closedb_iff _ _) C) as C'. apply wp_shut_w; [intros _; split; auto; left; auto|]. rewrite cur_gone by auto. intros N. congruence.
  - assert (NC : ~ closed f t) by (rewrite <- closedb_iff; congruence). rewrite cur_is by auto. apply wp_shut_w; [lia|]. intros _ a b.
    destruct W as [W|W]; [contradiction|]. destruct (cok_shut t b1 b2 1 f a b S Q NC W) as [O1 O2]. split; auto. split; auto. split; auto. right. exists 1, a, b. apply pair_snoc.
Qed.
Lemma closes_quiet : forall f t t', closes f t t' -> quiet t -> quiet t'.
Proof. intros f t t' [[-> _]|(how & a & b & ->)] Q; auto. apply quiet_snoc. exact I. Qed.
Lemma closes_got : forall f t t', closes f t t' -> forall g, got g t' = got g t.
Proof. intros f t t' [[-> _]|(how & a & b & ->)] g; auto. rewrite close_got, neutral_got by exact I. auto. Qed.
Lemma closes_sent : forall f t t', closes f t t' -> forall g, sent g t' = sent g t.
Proof. intros f t t' [[-> _]|(how & a & b & ->)] g; auto. rewrite close_sent, neutral_sent by exact I. auto. Qed.
Lemma closes_eof : forall f t t', closes f t t' -> forall g, eof g t' <-> eof g t.
Proof.
  intros f t t' [[-> _]|(how & a & b & ->)] g; [tauto|]. split; intros E; [apply close_eof in E; apply (neutral_eof (Shutdown f how) a) in E; [auto|exact I]|]. apply eof_app. apply eof_app. auto.
Qed.
Lemma closes_closed : forall f t t', closes f t t' -> forall g, g <> f -> (closed g t' <-> closed g t).
Proof. intros f t t' [[-> _]|(how & a & b & ->)] g N; [tauto|]. rewrite !closed_snoc by congruence. tauto. Qed.
Lemma closes_this : forall f t t', closes f t t' -> closed f t'.
Proof. intros f t t' [[-> C]|(how & a & b & ->)]; auto. exists b. apply in_snoc. Qed.
Lemma closes_mono : forall f t t', closes f t t' -> forall g, closed g t -> closed g t'.
Proof. intros f t t' [[-> C]|(how & a & b & ->)] g H; auto. apply closed_mono. apply closed_mono. auto. Qed.
Lemma closes_in : forall f t t', closes f t t' -> forall e, In e t -> In e t'.
Proof. intros f t t' [[-> C]|(how & a & b & ->)] e H; auto. apply in_or_app. left. apply in_or_app. auto. Qed.
Lemma closes_broken : forall f t t', closes f t t' -> forall g, broken g t -> broken g t'.
Proof. intros f t t' H g (b & a & I & R). exists b, a. split; auto. eapply closes_in; eauto. Qed.
Lemma closes_cur : forall f t t', closes f t t' -> forall g, g <> f -> cur g t' = cur g t.
Proof. intros f t t' [[-> C]|(how & a & b & ->)] g N; auto. rewrite !cur_snoc by congruence. auto. Qed.
Lemma closes_cur_this : forall f t t', closes f t t' -> cur f t' = -1.
Proof. intros f t t' H. apply cur_gone. eapply closes_this. eauto. Qed.
Lemma closes_strm : forall f t t' b1 b2, closes f t t' -> strm t b1 b2 -> strm t' b1 b2.
Proof. intros f t t' b1 b2 H [A B C D]. split; auto; rewrite !(closes_got _ _ _ H), !(closes_sent _ _ _ H); auto. Qed.
Lemma closes_core : forall f t t' b1 b2, closes f t t' -> f <> ck /\ self <> f -> core t b1 b2 -> core t' b1 b2.
Proof.
  intros f t t' b1 b2 H [N N'] [A B C D F]. split; [eapply closes_strm; eauto|rewrite (closes_got _ _ _ H); auto|rewrite (closes_sent _ _ _ H); auto| |rewrite (closes_closed _ _ _ H) by auto; auto].
  intros K. rewrite (closes_closed _ _ _ H) in K by auto. eapply closes_mono; eauto.
Qed.
Lemma closes_ends : forall f t t', closes f t t' -> ends t -> ends t'.
Proof.
  intros f t t' H [A B C D]. pose proof (closes_mono _ _ _ H) as M. split; unfold told in *; rewrite ?(closes_got _ _ _ H), ?(closes_eof _ _ _ H); intros E; auto.
  apply D in E as (E1 & E2 & E3 & E4). auto.
Qed.
Lemma reason_told65 : forall f t, TOLD 65 t -> f = ci \/ f = co \/ f = cc \/ f = ck -> REASON f t.
Proof. intros f t T H. unfold clear_reason. destruct H as [E|[E|[E|E]]]; auto 10. Qed.

Ltac fds := eauto with fds.
Ltac here_eq H := unfold here, set_peerin, set_peerout, set_childin, set_childout, set_childctl, set_childack; cbn [peerin peerout childin childout childctl childack toc ton];
  rewrite (closes_cur_this _ _ _ H), ?(closes_cur _ _ _ H) by fds; reflexivity.

Lemma wp_clear_eof : forall t b1 b2, core t b1 b2 -> ends t -> quiet t ->
  wp cok t (clear_eof (here t b1 b2)) (fun t' s => s = here t' b1 b2 /\ core t' b1 b2 /\ ends t' /\ quiet t' /\
    (closed pi t' -> fill b1 = 0 -> closed ci t') /\ (closed co t' -> fill b2 = 0 -> closed po t')).
Proof.
  intros t b1 b2 K E Q. unfold clear_eof.
  apply wp_bind with (M := fun t' s => s = here t' b1 b2 /\ core t' b1 b2 /\ ends t' /\ quiet t' /\ (closed pi t' -> fill b1 = 0 -> closed ci t')).
  - change (peerin (here t b1 b2)) with (cur pi t). change (childin (here t b1 b2)) with (cur ci t). change (toc (here t b1 b2)) with b1.
    destruct (negb (open (cur pi t)) && open (cur ci t) && (fill b1 =? 0)) eqn:C.
    + rewrite !andb_true_iff, negb_true_iff, Z.eqb_eq in C. destruct C as [[C1 C2] C3]. apply cur_shut in C1; [|apply s_pi]. apply cur_open in C2; [|apply s_ci].
      eapply wp_bind; [eapply wp_close_w; [apply s_ci|apply (c_s _ _ _ K)|auto|right]|].
      { right. right. left. split; auto. right. left. split; auto. apply (strm_nil _ _ _ (c_s _ _ _ K)). auto. }
      cbn beta. intros t' v [-> H]. apply wp_ret. split; [here_eq H|]. split; [eapply closes_core; [exact H|fds|auto]|]. split; [eapply closes_ends; eauto|]. split; [eapply closes_quiet; eauto|]. intros _ _. eapply closes_this; eauto.
    + apply wp_ret. repeat (split; auto). intros C1 C2. apply cur_shut in C1; [|apply s_pi]. rewrite C1 in C. apply cur_shut; [apply s_ci|]. replace (fill b1 =? 0) with true in C by lia. cbn [negb] in C. rewrite andb_true_r in C. auto.
  - clear t K E Q. cbn beta. intros t s (-> & K & E & Q & P1).
    change (childout (here t b1 b2)) with (cur co t). change (peerout (here t b1 b2)) with (cur po t). change (ton (here t b1 b2)) with b2.
    destruct (negb (open (cur co t)) && open (cur po t) && (fill b2 =? 0)) eqn:C.
    + rewrite !andb_true_iff, negb_true_iff, Z.eqb_eq in C. destruct C as [[C1 C2] C3]. apply cur_shut in C1; [|apply s_co]. apply cur_open in C2; [|apply s_po].
      eapply wp_bind; [eapply wp_close_w; [apply s_po|apply (c_s _ _ _ K)|auto|right]|].
      { right. left. split; auto. right. split; auto. apply (strm_nil _ _ _ (c_s _ _ _ K)). auto. }
      cbn beta. intros t' v [-> H]. apply wp_ret. split; [here_eq H|]. split; [eapply closes_core; [exact H|fds|auto]|]. split; [eapply closes_ends; eauto|]. split; [eapply closes_quiet; eauto|].
      rewrite !(closes_closed _ _ _ H pi), !(closes_closed _ _ _ H ci) by fds. split; auto. intros _ _. eapply closes_this; eauto.
    + apply wp_ret. repeat (split; auto). intros C1 C2. apply cur_shut in C1; [|apply s_co]. rewrite C1 in C. apply cur_shut; [apply s_po|]. replace (fill b2 =? 0) with true in C by lia. cbn [negb] in C. rewrite andb_true_r in C. auto.
Qed.

(** *** Writing *)
Lemma content_ne : forall b, bufok 8192 b -> 0 < fill b -> content b <> [].
Proof. intros b B F E. apply content_len in B. rewrite E, len_nil in B. lia. Qed.
Lemma wp_topeer : forall t b1 b2, core t b1 b2 -> ends t -> ~ closed po t -> 0 < fill b2 -> (forall b a, SERVE t (Write po b, a)) ->
  wp cok t (clear_topeer (here t b1 b2)) next.
Proof.
  intros t b1 b2 K E NC F S. destruct K as [[B1 B2 X Y] KC KK KL KS]. unfold clear_topeer. change (peerout (here t b1 b2)) with (cur po t). change (ton (here t b1 b2)) with b2. rewrite cur_is by auto.
  set (c := content b2). assert (CL : len c = fill b2) by (apply (content_len 8192); auto). pose proof B2 as [B2a B2b].
  eapply wp_bind with (M := fun t' x => exists a, t' = t ++ [(Write po c, a)] /\ x = (ret a, err a) /\ sys_ok (Write po c, a)).
  - apply wp_write; [unfold CHUNK; lia|lia|]. intros a SO. fold (content b2) in SO |- *. fold c in SO |- *. split; [|eauto].
    unfold cok, conveys, usable, clear_close, clear_boundary, clear_select. cbn [fst].
    split; [intros Z0; destruct (n_po_ci Z0)|]. split; [intros _; split; [apply content_ne; auto|exact Y]|]. split; [exact NC|]. split; [exact I|].
    split; [rewrite (proj2 (Z.eqb_neq po ck)) by fds; exact KC|]. split; [exact I|]. split; [apply S|]. split.
    + exists (content b1). rewrite got_write, sent_other by fds. split; [exact X|]. rewrite (content_len _ _ B1). unfold bufok in B1. lia.
    + exists (skipn (Z.to_nat (ret a)) c). rewrite got_write, sent_this, <- app_assoc, firstn_skipn. split; [exact Y|]. unfold len. rewrite skipn_length. unfold len in CL. lia.
  - intros t' x (a & -> & -> & SO). assert (K : core t b1 b2) by (repeat (split; auto)).
    destruct (again (ret a) (err a)) eqn:AG; [|destruct (Z.leb_spec (ret a) 0) as [L|L]].
    + apply (write_soft po c) in AG. apply wp_ret. exists b1, b2. rewrite neutral_here by auto. split; auto. split; [apply neutral_core; auto|]. split; [apply neutral_ends; auto|apply quiet_snoc; exact I].
    + pose proof (broken_now po t c a L AG) as BR. assert (N : neutral (Write po c) a) by exact L. apply (neutral_core _ _ _ _ _ N) in K.
      assert (EQ : po = cur po (t ++ [(Write po c, a)])) by (symmetry; apply cur_is; rewrite closed_snoc by discriminate; auto). rewrite EQ at 2.
      eapply wp_bind; [eapply wp_close_w; [apply s_po|apply (c_s _ _ _ K)|apply quiet_snoc; exact I|right]|].
      { right. left. split; auto. }
      cbn beta. intros t' v [-> H]. apply wp_ret. exists b1, b2. split; [rewrite <- (neutral_here _ _ _ _ _ N); here_eq H|]. right. split; auto. split; [rewrite (closes_sent _ _ _ H); apply (c_ck _ _ _ K)|]. right. left. eapply closes_broken; eauto.
    + cbn [sys_ok] in SO. assert (RL : 0 <= ret a <= fill b2) by lia. destruct (consume_ok 8192 b2 (ret a) B2 ltac:(unfold CHUNK; lia) RL) as (b' & E1 & E2 & E3 & E4).
      eapply wp_bind; [eapply wp_lift with (Q := fun t' b => t' = t ++ [(Write po c, a)] /\ b = b'); [unfold consume_buffer; replace (ret a =? 0) with false by lia; exact E1|auto]|]. cbn beta. intros t' b [-> ->]. apply wp_ret. exists b1, b'.
      split; [unfold here, set_ton; cbn [peerin peerout childin childout childctl childack toc ton]; rewrite !cur_snoc by discriminate; reflexivity|].
      split; [|split; [|apply quiet_snoc; exact I]].
      * split; [split; auto| | | |].
        -- rewrite got_write, sent_other by fds. exact X.
        -- rewrite got_write, sent_this, <- app_assoc. unfold c. rewrite <- E3. exact Y.
        -- rewrite got_write. exact KC.
        -- rewrite sent_other by fds. exact KK.
        -- unfold lock. rewrite !closed_snoc by discriminate. exact KL.
        -- rewrite closed_snoc by discriminate. exact KS.
      * destruct E as [Ea Eb Ec Ed]. split; unfold told in *; rewrite ?got_write, ?closed_snoc by discriminate; auto; intros W; apply write_eof in W; auto.
Qed.
Lemma wp_tochild : forall t b1 b2, core t b1 b2 -> ends t -> ~ closed ci t -> 0 < fill b1 -> (forall b a, SERVE t (Write ci b, a)) ->
  wp cok t (clear_tochild (here t b1 b2)) next.
Proof.
  intros t b1 b2 K E NC F S. destruct K as [[B1 B2 X Y] KC KK KL KS]. unfold clear_tochild. change (childin (here t b1 b2)) with (cur ci t). change (toc (here t b1 b2)) with b1. rewrite cur_is by auto.
  set (c := content b1). assert (CL : len c = fill b1) by (apply (content_len 8192); auto). pose proof B1 as [B1a B1b].
  eapply wp_bind with (M := fun t' x => exists a, t' = t ++ [(Write ci c, a)] /\ x = (ret a, err a) /\ sys_ok (Write ci c, a)).
  - apply wp_write; [unfold CHUNK; lia|lia|]. intros a SO. fold (content b1) in SO |- *. fold c in SO |- *. split; [|eauto].
    unfold cok, conveys, usable, clear_close, clear_boundary, clear_select. cbn [fst].
    split; [intros _; split; [apply content_ne; auto|exact X]|]. split; [intros Z0; destruct (n_ci_po Z0)|]. split; [exact NC|]. split; [exact I|].
    split; [rewrite (proj2 (Z.eqb_neq ci ck)) by fds; exact KC|]. split; [exact I|]. split; [apply S|]. split.
    + exists (skipn (Z.to_nat (ret a)) c). rewrite got_write, sent_this, <- app_assoc, firstn_skipn. split; [exact X|]. unfold len. rewrite skipn_length. unfold len in CL. lia.
    + exists (content b2). rewrite got_write, sent_other by fds. split; [exact Y|]. rewrite (content_len _ _ B2). unfold bufok in B2. lia.
  - intros t' x (a & -> & -> & SO). assert (K : core t b1 b2) by (repeat (split; auto)).
    destruct (again (ret a) (err a)) eqn:AG; [|destruct (Z.leb_spec (ret a) 0) as [L|L]].
    + apply (write_soft ci c) in AG. apply wp_ret. exists b1, b2. rewrite neutral_here by auto. split; auto. split; [apply neutral_core; auto|]. split; [apply neutral_ends; auto|apply quiet_snoc; exact I].
    + pose proof (broken_now ci t c a L AG) as BR. assert (N : neutral (Write ci c) a) by exact L. apply (neutral_core _ _ _ _ _ N) in K.
      assert (EQ : ci = cur ci (t ++ [(Write ci c, a)])) by (symmetry; apply cur_is; rewrite closed_snoc by discriminate; auto). rewrite EQ at 2.
      eapply wp_bind; [eapply wp_close_w; [apply s_ci|apply (c_s _ _ _ K)|apply quiet_snoc; exact I|right]|].
      { right. right. left. split; auto. }
      cbn beta. intros t' v [-> H]. apply wp_ret. exists b1, b2. split; [rewrite <- (neutral_here _ _ _ _ _ N); here_eq H|]. right. split; auto. split; [rewrite (closes_sent _ _ _ H); apply (c_ck _ _ _ K)|]. right. right. left. eapply closes_broken; eauto.
    + cbn [sys_ok] in SO. assert (RL : 0 <= ret a <= fill b1) by lia. destruct (consume_ok 8192 b1 (ret a) B1 ltac:(unfold CHUNK; lia) RL) as (b' & E1 & E2 & E3 & E4).
      eapply wp_bind; [eapply wp_lift with (Q := fun t' b => t' = t ++ [(Write ci c, a)] /\ b = b'); [unfold consume_buffer; replace (ret a =? 0) with false by lia; exact E1|auto]|]. cbn beta. intros t' b [-> ->]. apply wp_ret. exists b', b2.
      split; [unfold here, set_toc; cbn [peerin peerout childin childout childctl childack toc ton]; rewrite !cur_snoc by discriminate; reflexivity|].
      split; [|split; [|apply quiet_snoc; exact I]].
      * split; [split; auto| | | |].
        -- rewrite got_write, sent_this, <- app_assoc. unfold c. rewrite <- E3. exact X.
        -- rewrite got_write, sent_other by fds. exact Y.
        -- rewrite got_write. exact KC.
        -- rewrite sent_other by fds. exact KK.
        -- unfold lock. rewrite !closed_snoc by discriminate. exact KL.
        -- rewrite closed_snoc by discriminate. exact KS.
      * destruct E as [Ea Eb Ec Ed]. split; unfold told in *; rewrite ?got_write, ?closed_snoc by discriminate; auto; intros W; apply write_eof in W; auto.
Qed.

(** *** Reading *)
Lemma here_snoc : forall t c a b1 b2, (forall f, c <> Close f) -> here (t ++ [(c, a)]) b1 b2 = here t b1 b2.
Proof. intros t c a b1 b2 N. unfold here. rewrite !cur_snoc by auto. reflexivity. Qed.
Lemma cok_alarm : forall t b1 b2 x a, strm t b1 b2 -> quiet t -> cok t (Other (bs "alarm") [x] [], a).
Proof.
  intros t b1 b2 x a S Q. pose proof (neutral_strm _ (Other (bs "alarm") [x] []) a b1 b2 I S) as S1.
  unfold cok, conveys, usable, clear_close, clear_boundary, clear_select; cbn [fst]. repeat (split; [solve [auto]|]). apply (strm_bal _ _ _ S1).
Qed.
Lemma wp_cl_alarm : forall t b1 b2 x, strm t b1 b2 -> quiet t -> wp cok t (alarm x) (fun t' _ => exists a, t' = t ++ [(Other (bs "alarm") [x] [], a)]).
Proof. intros. apply wp_alarm. intros a. split; [eapply cok_alarm; eauto|eauto]. Qed.
Lemma dead_strm : forall t f n a b1 b2, sys_ok (Read f n, a) -> ret a <= 0 -> strm t b1 b2 -> strm (t ++ [(Read f n, a)]) b1 b2.
Proof. intros t f n a b1 b2 SO L [A B C D]. split; auto; rewrite (read_end_got f n a _ _ SO L), read_sent; auto. Qed.
Lemma dead_core : forall t f n a b1 b2, sys_ok (Read f n, a) -> ret a <= 0 -> core t b1 b2 -> core (t ++ [(Read f n, a)]) b1 b2.
Proof.
  intros t f n a b1 b2 SO L [A B C D F]. split; [apply dead_strm; auto|rewrite (read_end_got f n a _ _ SO L); auto|rewrite read_sent; auto| |rewrite closed_snoc by discriminate; auto].
  unfold lock. rewrite !closed_snoc by discriminate. exact D.
Qed.
Lemma dead_ends : forall t f n a t', sys_ok (Read f n, a) -> ret a <= 0 -> ends t -> closes f (t ++ [(Read f n, a)]) t' -> ends t'.
Proof.
  intros t f n a t' SO L [A B C D] H. pose proof (closes_mono _ _ _ H) as M. pose proof (closes_this _ _ _ H) as TH.
  assert (M' : forall g, closed g t -> closed g t') by (intros g W; apply M; apply closed_mono; auto).
  split; unfold told in *; rewrite ?(closes_got _ _ _ H), ?(closes_eof _ _ _ H), ?(read_end_got f n a _ _ SO L); intros E; auto.
  - apply eof_snoc' in E as [E|((m & E) & _)]; auto. injection E as -> _. auto.
  - apply eof_snoc' in E as [E|((m & E) & _)]; auto. injection E as -> _. auto.
  - apply D in E as (E1 & E2 & E3 & E4). auto.
Qed.
Lemma data_ends : forall t f n a, f <> self -> 0 < ret a -> ends t -> ends (t ++ [(Read f n, a)]).
Proof.
  intros t f n a F L [A B C D]. split; unfold told in *; rewrite ?closed_snoc by discriminate; rewrite ?got_other by auto; intros E; auto.
  - apply read_eof_data in E; auto.
  - apply read_eof_data in E; auto.
Qed.
Lemma buf_u64 : forall b, bufok 8192 b -> u64 (BUFFER - fill b) = 8192 - fill b.
Proof. intros b [_ H]. unfold u64, two64, BUFFER. apply Z.mod_small. lia. Qed.
Lemma neutral_next : forall t c a b1 b2, neutral c a -> match c with Select _ _ _ _ => False | _ => True end -> core t b1 b2 -> ends t ->
  cinv (t ++ [(c, a)]) (here t b1 b2).
Proof.
  intros t c a b1 b2 N Q K E. exists b1, b2. rewrite neutral_here by auto. split; auto. split; [apply neutral_core; auto|]. split; [apply neutral_ends; auto|apply quiet_snoc; auto].
Qed.
Lemma wp_frompeer : forall t b1 b2, core t b1 b2 -> ends t -> ~ closed pi t -> fill b1 < 8192 -> (forall b a, SERVE t (Read pi b, a)) ->
  wp cok t (clear_frompeer timeout (here t b1 b2)) next.
Proof.
  intros t b1 b2 K E NC F S. destruct K as [[B1 B2 X Y] KC KK KL KS]. unfold clear_frompeer. change (peerin (here t b1 b2)) with (cur pi t). change (toc (here t b1 b2)) with b1. rewrite cur_is by auto.
  rewrite buf_u64 by auto. set (n := 8192 - fill b1). pose proof (content_len _ _ B1) as CL. pose proof B1 as [B1a B1b].
  eapply wp_bind with (M := fun t' x => exists a, t' = t ++ [(Read pi n, a)] /\ x = (ret a, err a, data a) /\ sys_ok (Read pi n, a)).
  - apply wp_read; [unfold CHUNK; lia|lia|]. intros a SO. split; [|eauto].
    unfold cok, conveys, usable, clear_close, clear_boundary, clear_select. cbn [fst].
    split. { intros _. split; [lia|]. exists (content b1). split; [exact X|lia]. }
    split; [intros Z0; destruct (n_pi_co Z0)|]. split; [exact NC|]. split; [exact I|].
    split; [split; [exact KC|intros Z0; destruct (n_pi_cc Z0)]|]. split; [exact I|]. split; [apply S|]. split.
    + exists (content b1 ++ data a). rewrite got_this, read_sent, app_assoc, X. split; [auto|]. rewrite len_app, CL. cbn [sys_ok] in SO.
      destruct SO as [[_ Z0]|(Z1 & Z0 & _)]; [rewrite Z0, len_nil; lia|lia].
    + exists (content b2). rewrite got_other, read_sent by fds. split; [exact Y|]. rewrite (content_len _ _ B2). unfold bufok in B2. lia.
  - intros t' x (a & -> & -> & SO). assert (K : core t b1 b2) by (repeat (split; auto)).
    destruct (again (ret a) (err a)) eqn:AG; [|destruct (Z.leb_spec (ret a) 0) as [L|L]].
    + apply (read_soft pi n _ SO) in AG. apply wp_ret. apply neutral_next; auto.
    + pose proof (eof_now pi t n a L AG) as BR. apply (dead_core _ _ _ _ _ _ SO L) in K.
      assert (EQ : pi = cur pi (t ++ [(Read pi n, a)])) by (symmetry; apply cur_is; rewrite closed_snoc by discriminate; auto). rewrite EQ at 2.
      eapply wp_bind; [eapply wp_close_r; [apply s_pi|apply (c_s _ _ _ K)|apply quiet_snoc; exact I|right; left; auto]|].
      cbn beta. intros t' v [-> H]. apply wp_ret. exists b1, b2. split; [rewrite <- (here_snoc t (Read pi n) a) by discriminate; here_eq H|].
      split; [eapply closes_core; [exact H|fds|auto]|]. split; [eapply dead_ends; eauto|]. eapply closes_quiet; [exact H|apply quiet_snoc; exact I].
    + pose proof SO as SO'. cbn [sys_ok] in SO. destruct SO as [[Z0 _]|(Z1 & Z0 & _)]; [lia|].
      destruct (append_ok 8192 b1 (ret a) (data a) B1 ltac:(unfold CHUNK; lia) ltac:(lia) ltac:(lia)) as (E3 & E4).
      assert (K' : core (t ++ [(Read pi n, a)]) (append b1 (ret a) (data a)) b2).
      { split; [split; auto| | | |].
        - rewrite got_this, read_sent, E4, app_assoc, X. auto.
        - rewrite got_other, read_sent by fds. exact Y.
        - rewrite got_other by fds. exact KC.
        - rewrite read_sent. exact KK.
        - unfold lock. rewrite !closed_snoc by discriminate. exact KL.
        - rewrite closed_snoc by discriminate. exact KS. }
      eapply wp_bind; [eapply wp_cl_alarm; [exact (c_s _ _ _ K')|apply quiet_snoc; exact I]|]. cbn beta. intros t' _ (a' & ->). apply wp_ret.
      change (set_toc (here t b1 b2) (append b1 (ret a) (data a))) with (here t (append b1 (ret a) (data a)) b2). rewrite <- (here_snoc t (Read pi n) a) by discriminate.
      apply neutral_next; auto; try exact I. apply data_ends; auto. fds.
Qed.
Lemma wp_fromchild : forall t b1 b2, core t b1 b2 -> ends t -> ~ closed co t -> fill b2 < 8192 -> (forall b a, SERVE t (Read co b, a)) ->
  wp cok t (clear_fromchild timeout (here t b1 b2)) next.
Proof.
  intros t b1 b2 K E NC F S. destruct K as [[B1 B2 X Y] KC KK KL KS]. unfold clear_fromchild. change (childout (here t b1 b2)) with (cur co t). change (ton (here t b1 b2)) with b2. rewrite cur_is by auto.
  rewrite buf_u64 by auto. set (n := 8192 - fill b2). pose proof (content_len _ _ B2) as CL. pose proof B2 as [B2a B2b].
  eapply wp_bind with (M := fun t' x => exists a, t' = t ++ [(Read co n, a)] /\ x = (ret a, err a, data a) /\ sys_ok (Read co n, a)).
  - apply wp_read; [unfold CHUNK; lia|lia|]. intros a SO. split; [|eauto].
    unfold cok, conveys, usable, clear_close, clear_boundary, clear_select. cbn [fst].
    split; [intros Z0; destruct (n_co_pi Z0)|].
    split. { intros _. split; [lia|]. exists (content b2). split; [exact Y|lia]. }
    split; [exact NC|]. split; [exact I|].
    split; [split; [exact KC|intros Z0; destruct (n_co_cc Z0)]|]. split; [exact I|]. split; [apply S|]. split.
    + exists (content b1). rewrite got_other, read_sent by fds. split; [exact X|]. rewrite (content_len _ _ B1). unfold bufok in B1. lia.
    + exists (content b2 ++ data a). rewrite got_this, read_sent, app_assoc, Y. split; [auto|]. rewrite len_app, CL. cbn [sys_ok] in SO.
      destruct SO as [[_ Z0]|(Z1 & Z0 & _)]; [rewrite Z0, len_nil; lia|lia].
  - intros t' x (a & -> & -> & SO). assert (K : core t b1 b2) by (repeat (split; auto)).
    destruct (again (ret a) (err a)) eqn:AG; [|destruct (Z.leb_spec (ret a) 0) as [L|L]].
    + apply (read_soft co n _ SO) in AG. apply wp_ret. apply neutral_next; auto.
    + pose proof (eof_now co t n a L AG) as BR. apply (dead_core _ _ _ _ _ _ SO L) in K.
      assert (EQ : co = cur co (t ++ [(Read co n, a)])) by (symmetry; apply cur_is; rewrite closed_snoc by discriminate; auto). rewrite EQ at 2.
      eapply wp_bind; [eapply wp_close_r; [apply s_co|apply (c_s _ _ _ K)|apply quiet_snoc; exact I|right; right; right; right; left; auto]|].
      cbn beta. intros t' v [-> H]. apply wp_ret. exists b1, b2. split; [rewrite <- (here_snoc t (Read co n) a) by discriminate; here_eq H|].
      split; [eapply closes_core; [exact H|fds|auto]|]. split; [eapply dead_ends; eauto|]. eapply closes_quiet; [exact H|apply quiet_snoc; exact I].
    + pose proof SO as SO'. cbn [sys_ok] in SO. destruct SO as [[Z0 _]|(Z1 & Z0 & _)]; [lia|].
      destruct (append_ok 8192 b2 (ret a) (data a) B2 ltac:(unfold CHUNK; lia) ltac:(lia) ltac:(lia)) as (E3 & E4).
      assert (K' : core (t ++ [(Read co n, a)]) b1 (append b2 (ret a) (data a))).
      { split; [split; auto| | | |].
        - rewrite got_other, read_sent by fds. exact X.
        - rewrite got_this, read_sent, E4, app_assoc, Y. auto.
        - rewrite got_other by fds. exact KC.
        - rewrite read_sent. exact KK.
        - unfold lock. rewrite !closed_snoc by discriminate. exact KL.
        - rewrite closed_snoc by discriminate. exact KS. }
      eapply wp_bind; [eapply wp_cl_alarm; [exact (c_s _ _ _ K')|apply quiet_snoc; exact I]|]. cbn beta. intros t' _ (a' & ->). apply wp_ret.
      change (set_ton (here t b1 b2) (append b2 (ret a) (data a))) with (here t b1 (append b2 (ret a) (data a))). rewrite <- (here_snoc t (Read co n) a) by discriminate.
      apply neutral_next; auto; try exact I. apply data_ends; auto. fds.
Qed.

(** *** Signals *)
Lemma self_strm : forall t n a b1 b2, strm t b1 b2 -> strm (t ++ [(Read self n, a)]) b1 b2.
Proof. intros t n a b1 b2 [A B C D]. split; auto; rewrite got_other, read_sent by fds; auto. Qed.
Lemma self_core : forall t n a b1 b2, core t b1 b2 -> core (t ++ [(Read self n, a)]) b1 b2.
Proof. intros t n a b1 b2 [A B C D F]. split; [apply self_strm; auto|rewrite got_other by fds; auto|rewrite read_sent; auto|unfold lock; rewrite !closed_snoc by discriminate; exact D|rewrite closed_snoc by discriminate; auto]. Qed.
Lemma wp_signal : forall t b1 b2, core t b1 b2 -> ends t -> (forall b a, SERVE t (Read self b, a)) ->
  wp cok t (clear_signal finish self (here t b1 b2)) next.
Proof.
  intros t b1 b2 K E S. pose proof (c_self _ _ _ K) as NC. unfold clear_signal, selfpipe_event.
  eapply wp_bind with (M := fun t' (x : bool * sess) => next t' (let (stop, s) := x in if stop then Stop (0, s) else Again s));
    [|cbn beta; intros t' [[|] s] H; apply wp_ret; exact H].
  eapply wp_bind with (M := fun t' x => exists a, t' = t ++ [(Read self 1, a)] /\ x = (ret a, err a, data a) /\ sys_ok (Read self 1, a)).
  - apply wp_read; [unfold CHUNK; lia|lia|]. intros a SO. split; [|eauto].
    unfold cok, conveys, usable, clear_close, clear_boundary, clear_select. cbn [fst].
    split; [intros Z0; destruct (n_self_pi Z0)|]. split; [intros Z0; destruct (n_self_co Z0)|]. split; [exact NC|]. split; [exact I|].
    split; [split; [exact (c_cc _ _ _ K)|intros Z0; destruct (n_self_cc Z0)]|]. split; [exact I|]. split; [apply S|].
    apply (strm_bal _ b1 b2). apply self_strm. apply (c_s _ _ _ K).
  - intros t' x (a & -> & -> & SO). set (t1 := t ++ [(Read self 1, a)]). assert (NC1 : ~ closed self t1) by (unfold t1; rewrite closed_snoc by discriminate; auto).
    assert (HE : here t b1 b2 = here t1 b1 b2) by (unfold t1; rewrite here_snoc by discriminate; auto).
    assert (Q1 : quiet t1) by (apply quiet_snoc; exact I). pose proof (self_core t 1 a b1 b2 K) as K1. fold t1 in K1. rewrite HE.
    destruct (again (ret a) (err a)) eqn:AG; [|destruct (Z.leb_spec (ret a) 0) as [L|L]].
    + apply (read_soft self 1 _ SO) in AG. apply wp_ret. rewrite <- HE. apply neutral_next; auto.
    + apply wp_ret. exists b1, b2. split; auto. right. split; auto. split; [apply (c_ck _ _ _ K1)|]. do 6 right. apply (eof_now self t 1 a L AG).
    + cbn [sys_ok] in SO. destruct SO as [[Z0 _]|(Z1 & Z0 & _)]; [lia|]. assert (Z2 : len (data a) = 1) by lia.
      destruct (data a) as [|ch d] eqn:DA; [rewrite len_nil in Z2; lia|]. rewrite len_cons in Z2. assert (d = []) by (destruct d as [|y d]; auto; rewrite len_cons in Z2; pose proof (len_nonneg _ d); lia). subst d. cbn [List.hd].
      assert (GS : got self t1 = got self t ++ [ch]) by (unfold t1; rewrite got_this, DA; auto).
      assert (EP : forall f, eof f t1 -> eof f t) by (intros f W; apply read_eof_data in W; auto).
      assert (CM : forall f, closed f t -> closed f t1) by (intros f W; apply closed_mono; auto).
      destruct (Z.eqb_spec ch 67) as [->|N67].
      * assert (T67 : TOLD 67 t1) by (unfold told; rewrite GS; apply in_or_app; right; left; auto).
        eapply wp_bind; [eapply (wp_close_w ci t1); [apply s_ci|apply (c_s _ _ _ K1)|auto|right]|].
        { right. right. left. auto. }
        cbn beta. intros t' v [-> H]. assert (K2 : core t' b1 b2) by (eapply closes_core; [exact H|fds|auto]). pose proof (closes_mono _ _ _ H) as M.
        eapply wp_bind; [eapply wp_cl_alarm; [exact (c_s _ _ _ K2)|eapply closes_quiet; eauto]|]. cbn beta. intros t'' _ (a' & ->). apply wp_ret.
        replace (set_childin (here t1 b1 b2) (-1)) with (here t' b1 b2) by (here_eq H). apply neutral_next; auto; try exact I.
        destruct E as [Ea Eb Ec Ed]. split; unfold told in *; rewrite ?(closes_eof _ _ _ H), ?(closes_got _ _ _ H), ?GS; intros W; auto.
        { eapply closes_this; eauto. }
        apply in_app_or in W as [W|[W|[]]]; [|discriminate]. apply Ed in W as (W1 & W2 & W3 & W4). auto 10.
      * change (childin (here t1 b1 b2)) with (cur ci t1). change (childout (here t1 b1 b2)) with (cur co t1). change (childctl (here t1 b1 b2)) with (cur cc t1). change (childack (here t1 b1 b2)) with (cur ck t1).
        destruct ((ch =? 65) && (open (cur ci t1) || open (cur co t1) || open (cur cc t1) || open (cur ck t1))) eqn:C.
        -- assert (ch = 65) by (destruct (Z.eqb_spec ch 65); auto; discriminate). subst ch. clear C.
           assert (T65 : TOLD 65 t1) by (unfold told; rewrite GS; apply in_or_app; right; left; auto).
           eapply wp_bind; [eapply (wp_close_w ci t1); [apply s_ci|apply (c_s _ _ _ K1)|auto|right; apply reason_told65; auto]|].
           cbn beta. intros t2 v [-> H2]. assert (K2 : core t2 b1 b2) by (eapply closes_core; [exact H2|fds|auto]). pose proof (closes_quiet _ _ _ H2 Q1) as Q2.
           assert (T2 : TOLD 65 t2) by (unfold told; rewrite (closes_got _ _ _ H2); auto).
           replace (set_childin (here t1 b1 b2) (-1)) with (here t2 b1 b2) by (here_eq H2). cbv zeta. change (childout (here t2 b1 b2)) with (cur co t2).
           eapply wp_bind; [eapply (wp_close_r co t2); [apply s_co|apply (c_s _ _ _ K2)|auto|right; apply reason_told65; auto]|].
           cbn beta. intros t3 v [-> H3]. assert (K3 : core t3 b1 b2) by (eapply closes_core; [exact H3|fds|auto]). pose proof (closes_quiet _ _ _ H3 Q2) as Q3.
           assert (T3 : TOLD 65 t3) by (unfold told; rewrite (closes_got _ _ _ H3); auto).
           replace (set_childout (here t2 b1 b2) (-1)) with (here t3 b1 b2) by (here_eq H3). change (childctl (here t3 b1 b2)) with (cur cc t3).
           eapply wp_bind; [eapply (wp_close_r cc t3); [apply s_cc|apply (c_s _ _ _ K3)|auto|right; apply reason_told65; auto]|].
           cbn beta. intros t4 v [-> H4]. assert (K4 : core t4 b1 b2) by (eapply closes_core; [exact H4|fds|auto]). pose proof (closes_quiet _ _ _ H4 Q3) as Q4.
           assert (T4 : TOLD 65 t4) by (unfold told; rewrite (closes_got _ _ _ H4); auto).
           replace (set_childctl (here t3 b1 b2) (-1)) with (here t4 b1 b2) by (here_eq H4). change (childack (here t4 b1 b2)) with (cur ck t4).
           eapply wp_bind; [eapply (wp_close_w ck t4); [apply s_ck|apply (c_s _ _ _ K4)|auto|right; apply reason_told65; auto 10]|].
           cbn beta. intros t5 v [-> H5]. pose proof (closes_quiet _ _ _ H5 Q4) as Q5.
           replace (set_childack (here t4 b1 b2) (-1)) with (here t5 b1 b2) by (here_eq H5).
           pose proof (closes_mono _ _ _ H2) as M2. pose proof (closes_mono _ _ _ H3) as M3. pose proof (closes_mono _ _ _ H4) as M4. pose proof (closes_mono _ _ _ H5) as M5.
           assert (D2 : closed ci t5) by (apply M5, M4, M3, (closes_this _ _ _ H2)). assert (D3 : closed co t5) by (apply M5, M4, (closes_this _ _ _ H3)).
           assert (D4 : closed cc t5) by (apply M5, (closes_this _ _ _ H4)). assert (D5 : closed ck t5) by apply (closes_this _ _ _ H5).
           assert (K5 : core t5 b1 b2).
           { destruct K4 as [A1 A2 A3 A4 A5]. split; [eapply closes_strm; eauto|rewrite (closes_got _ _ _ H5); auto|rewrite (closes_sent _ _ _ H5); auto| |rewrite (closes_closed _ _ _ H5) by fds; auto]. intros _. auto. }
           eapply wp_bind; [eapply wp_cl_alarm; [exact (c_s _ _ _ K5)|auto]|]. cbn beta. intros t'' _ (a' & ->). apply wp_ret.
              apply neutral_next; auto; try exact I.
           assert (MM : forall f, closed f t -> closed f t5) by (intros f W; apply M5, M4, M3, M2, CM; exact W).
           destruct E as [Ea Eb Ec Ed]. split; unfold told in *; rewrite ?(closes_eof _ _ _ H5), ?(closes_eof _ _ _ H4), ?(closes_eof _ _ _ H3), ?(closes_eof _ _ _ H2); intros W; auto.
        -- apply wp_ret. exists b1, b2. split; auto. right. split; auto. split; [apply (c_ck _ _ _ K1)|]. do 5 right. left. exists ch. split; auto. unfold told. rewrite GS. apply in_or_app. right. left. auto.
Qed.

(** *** Control *)
Definition acking (b1 b2 : rbuf) (ok : list Z) (t : trace) : Prop :=
  strm t b1 b2 /\ quiet t /\ got cc t = [0] /\ sent ck t = ok /\ got co t = sent po t /\ ~ closed pi t /\ ~ closed po t /\ closed cc t /\ ~ closed ck t.
Lemma acking_neutral : forall b1 b2 ok t c a, neutral c a -> match c with Select _ _ _ _ => False | _ => True end -> acking b1 b2 ok t -> acking b1 b2 ok (t ++ [(c, a)]).
Proof.
  intros b1 b2 ok t c a N Q (A1 & A2 & A3 & A4 & A5 & A6 & A7 & A8 & A9). unfold acking. rewrite !neutral_got, !neutral_sent by auto. rewrite !closed_snoc by (eapply neutral_close; eauto).
  split; [apply neutral_strm; auto|]. split; [apply quiet_snoc; auto|]. auto 10.
Qed.
Lemma wp_ack : forall b1 b2 fuel t s, acking b1 b2 [] t -> s = here t b1 b2 ->
  wp cok t (writeall fuel ck [0] 1) (fun t' c => s = here t' b1 b2 /\ match c with Good => acking b1 b2 [0] t' | Fail _ => acking b1 b2 [] t' end).
Proof.
  intros b1 b2 fuel. induction fuel as [|fuel IH]; intros t s A HS; cbn [writeall]; [apply wp_halt|].
  change (0 <? 1) with true. change (CHUNK <? 1) with false. cbv iota zeta. replace (len [0] <? 1) with false by reflexivity. change (firstn (Z.to_nat 1) [0]) with [0].
  pose proof A as (A1 & A2 & A3 & A4 & A5 & A6 & A7 & A8 & A9). pose proof A1 as [B1 B2 X Y].
  apply wp_do. intros a SO.
  assert (ST : strm (t ++ [(Write ck [0], a)]) b1 b2) by (split; auto; rewrite got_write, sent_other by fds; auto).
  split.
  { unfold cok, conveys, usable, clear_close, clear_boundary, clear_select. cbn [fst].
    split; [intros Z0; destruct (n_ck_ci Z0)|]. split; [intros Z0; destruct (n_ck_po Z0)|]. split; [exact A9|]. split; [exact I|].
    split; [rewrite Z.eqb_refl; auto 10|]. split; [exact I|]. split; [apply A2|]. apply (strm_bal _ _ _ ST). }
  destruct (Z.leb_spec (ret a) 0) as [L|L].
  - assert (N : neutral (Write ck [0]) a) by exact L. apply (acking_neutral _ _ _ _ _ _ N I) in A. rewrite <- (neutral_here _ _ _ _ _ N) in HS.
    destruct (transient _); [|apply wp_ret; auto].
    apply wp_do. intros a' _. split.
    { unfold cok, conveys, usable, clear_close, clear_boundary, clear_select. cbn [fst]. repeat (split; [solve [auto | apply quiet_snoc; exact I]|]).
      apply (strm_bal _ b1 b2). apply neutral_strm; [exact I|auto]. }
    apply (acking_neutral _ _ _ _ (Poll [(ck, 4)] (-1)) a' I I) in A. rewrite <- (neutral_here _ (Poll [(ck, 4)] (-1)) a' _ _ I) in HS.
    destruct (_ && _); [apply wp_ret; auto|]. apply IH; auto.
  - cbn [sys_ok] in SO. assert (R1 : ret a = 1). { change (len [0]) with 1 in SO. lia. }
    rewrite R1. change (skipn (Z.to_nat 1) [0]) with (@nil Z). change (1 - 1) with 0. destruct fuel as [|fuel]; cbn [writeall]; [apply wp_halt|]. change (0 <? 0) with false. cbv iota.
    apply wp_ret. split; [rewrite here_snoc by discriminate; auto|]. unfold acking. rewrite !got_write, sent_this, A4, R1. rewrite (sent_other po) by fds. rewrite !closed_snoc by discriminate.
    split; [exact ST|]. split; [apply quiet_snoc; exact I|]. repeat (split; [solve [auto]|]). exact A9.
Qed.

Lemma wp_control : forall fuel t b1 b2, core t b1 b2 -> ends t -> ~ closed cc t -> ~ closed po t -> fill b2 = 0 -> (forall b a, SERVE t (Read cc b, a)) ->
  (exists t0 m rd wr us a, t = t0 ++ [(Select m rd wr us, a)] /\ 0 < ret a /\ In cc rd /\ In cc (data a)) ->
  wp cok t (clear_control fuel (here t b1 b2)) next.
Proof.
  intros fuel t b1 b2 K E NC NP F S FOUND. unfold clear_control. change (childctl (here t b1 b2)) with (cur cc t). rewrite cur_is by auto.
  pose proof (proj1 (proj2 (strm_nil _ _ _ (c_s _ _ _ K))) F) as DL.
  assert (NK : ~ closed ck t) by (intros W; apply NC; apply (c_lock _ _ _ K); exact W).
  eapply wp_bind with (M := fun t' x => exists a, t' = t ++ [(Read cc 2, a)] /\ x = (ret a, err a, data a) /\ sys_ok (Read cc 2, a)).
  { apply wp_read; [unfold CHUNK; lia|lia|]. intros a SO. split; [|eauto].
    unfold cok, conveys, usable, clear_close, clear_boundary, clear_select. cbn [fst].
    split; [intros Z0; destruct (n_cc_pi Z0)|]. split; [intros Z0; destruct (n_cc_co Z0)|]. split; [exact NC|]. split; [exact I|].
    split; [split; [exact (c_cc _ _ _ K)|auto]|]. split; [exact I|]. split; [apply S|].
    destruct (c_s _ _ _ K) as [A B C D]. apply (strm_bal _ b1 b2). split; auto; rewrite got_other, read_sent by fds; auto. }
  intros t' x (a & -> & -> & SO). set (t1 := t ++ [(Read cc 2, a)]).
  assert (HE : here t b1 b2 = here t1 b1 b2) by (unfold t1; rewrite here_snoc by discriminate; auto).
  assert (S1 : strm t1 b1 b2). { destruct (c_s _ _ _ K) as [A B C D]. split; auto; unfold t1; rewrite got_other, read_sent by fds; auto. }
  assert (Q1 : quiet t1) by (apply quiet_snoc; exact I). assert (CK : sent ck t1 = []) by (unfold t1; rewrite read_sent; apply (c_ck _ _ _ K)).
  assert (NC1 : ~ closed cc t1) by (unfold t1; rewrite closed_snoc by discriminate; auto).
  assert (CU : cc = cur cc t1) by (symmetry; apply cur_is; auto).
  assert (RD : In (Read cc 2, a) t1) by apply in_snoc. rewrite HE.
  destruct (Z.eqb_spec (ret a) (-1)) as [M1|M1].
  - destruct ((err a =? EINTR) || (err a =? EAGAIN)) eqn:SE.
    + apply wp_ret. rewrite <- HE. apply neutral_next; auto; try exact I. apply read_soft; auto. unfold again. rewrite SE. lia.
    + assert (NS : ~ soft a) by (intros [_ W]; lia). rewrite CU at 1.
      eapply wp_bind; [eapply (wp_close_r cc t1); [apply s_cc|apply S1|auto|right]|].
      { right. right. right. right. left. split; auto. left. exists 2, a. auto. }
      cbn beta. intros t' v [-> H]. apply wp_ret. exists b1, b2. split; [here_eq H|]. right. split; auto. split; [rewrite (closes_sent _ _ _ H); auto|].
      do 3 right. left. exists 2, a. split; auto. eapply closes_in; eauto.
  - assert (NS : ~ soft a) by (intros [W _]; contradiction).
    assert (RE : REASON cc t1). { right. right. right. right. left. split; auto. left. exists 2, a. auto. }
    destruct (Z.eqb_spec (ret a) 0) as [R0|R0].
    + rewrite CU at 1. eapply wp_bind; [eapply (wp_close_r cc t1); [apply s_cc|apply S1|auto|right; auto]|].
      cbn beta. intros t' v [-> H]. apply wp_ret. exists b1, b2. split; [here_eq H|].
      assert (L : ret a <= 0) by lia. split; [eapply closes_core; [exact H|fds|apply dead_core; auto]|]. split; [eapply dead_ends; eauto|]. eapply closes_quiet; eauto.
    + assert (GC : got cc t1 = data a) by (unfold t1; rewrite got_this, (c_cc _ _ _ K); auto).
      pose proof SO as SO'. cbn [sys_ok] in SO. destruct SO as [[Z0 _]|(Z1 & Z0 & _)]; [lia|].
      assert (NE : got cc t1 <> []) by (rewrite GC; intros W; rewrite W, len_nil in Z0; lia).
      destruct (Z.eqb_spec (ret a) 1) as [R1|R1]; cbn [negb].
      2:{ apply wp_ret. exists b1, b2. split; auto. right. split; auto. split; auto. do 4 right. left. exact NE. }
      destruct (data a) as [|ch d] eqn:DA; [rewrite len_nil in Z0; lia|]. rewrite len_cons in Z0. assert (d = []) by (destruct d as [|y d]; auto; rewrite len_cons in Z0; pose proof (len_nonneg _ d); lia). subst d. cbn [List.hd].
      destruct (Z.eqb_spec ch 0) as [->|N0]; cbn [negb].
      2:{ apply wp_ret. exists b1, b2. split; auto. right. split; auto. split; auto. do 4 right. left. exact NE. }
      rewrite CU at 1. eapply wp_bind; [eapply (wp_close_r cc t1); [apply s_cc|apply S1|auto|right; auto]|].
      cbn beta. intros t2 v [-> H]. pose proof (closes_quiet _ _ _ H Q1) as Q2. pose proof (closes_strm _ _ _ _ _ H S1) as S2.
      assert (GC2 : got cc t2 = [0]) by (rewrite (closes_got _ _ _ H); auto). assert (CK2 : sent ck t2 = []) by (rewrite (closes_sent _ _ _ H); auto).
      replace (set_childctl (here t1 b1 b2) (-1)) with (here t2 b1 b2) by (here_eq H). cbv zeta.
      change (peerin (here t2 b1 b2)) with (cur pi t2). change (peerout (here t2 b1 b2)) with (cur po t2). change (childack (set_toc _ _)) with (cur ck t2).
      assert (NP2 : ~ closed po t2). { rewrite (closes_closed _ _ _ H) by fds. unfold t1. rewrite closed_snoc by discriminate. auto. }
      assert (NK2 : ~ closed ck t2). { rewrite (closes_closed _ _ _ H) by fds. unfold t1. rewrite closed_snoc by discriminate. auto. }
      destruct (negb (open (cur pi t2)) || negb (open (cur po t2))) eqn:OP.
      { apply wp_ret. exists b1, b2. split; auto. right. split; auto. split; auto. do 4 right. left. congruence. }
      apply orb_false_elim in OP as [OP _]. rewrite negb_false_iff in OP. apply cur_open in OP; [|apply s_pi].
      rewrite (cur_is ck t2) by auto.
      set (b0 := mkrbuf (mem (toc (here t2 b1 b2))) 0). change (set_toc (here t2 b1 b2) b0) with (here t2 b0 b2).
      assert (A : acking b1 b2 [] t2).
      { unfold acking. repeat (split; [solve [auto]|]). split; [|split; auto; split; auto; split; [apply (closes_this _ _ _ H)|auto]].
        rewrite (closes_got _ _ _ H), (closes_sent _ _ _ H). unfold t1. rewrite got_other, read_sent by fds. exact DL. }
      eapply wp_bind; [apply (wp_ack b1 b2 fuel t2 (here t2 b1 b2) A eq_refl)|]. cbn beta. intros t3 c [HS A3].
      assert (HS0 : here t2 b0 b2 = here t3 b0 b2). { unfold here in HS |- *. injection HS as -> -> -> -> -> ->. reflexivity. }
      rewrite HS0. destruct c as [|e].
      * destruct A3 as (A1 & A2 & A3 & A4 & A5 & A6 & A7 & A8 & A9).
        assert (CU3 : ck = cur ck t3) by (symmetry; apply cur_is; auto).
        rewrite CU3 at 1. eapply wp_bind; [eapply (wp_close_w ck t3); [apply s_ck|apply A1|auto|right]|]. { do 5 right. split; auto. }
        cbn beta. intros t4 v [-> H4]. apply wp_ret. exists b0, b2. split; [here_eq H4|]. left. split; auto. split; [|split; [reflexivity|exact F]].
        unfold clear_tls. rewrite !(closes_got _ _ _ H4), !(closes_sent _ _ _ H4), (closes_closed _ _ _ H4 pi), (closes_closed _ _ _ H4 po), (closes_closed _ _ _ H4 cc) by fds.
        repeat (split; [solve [auto]|]). eapply closes_this; eauto.
      * destruct A3 as (A1 & A2 & A3 & A4 & A5 & A6 & A7 & A8 & A9). apply wp_ret. exists b0, b2. split; auto. right. split; auto. split; auto. do 4 right. left. congruence.
Qed.

(** *** Waiting *)
Lemma cur_eq : forall f g t, 0 <= f -> (cur g t = f <-> g = f /\ ~ closed g t).
Proof. intros f g t F. unfold cur. rewrite <- closedb_iff. destruct (closedb g t); split; [lia|intros [_ W]; congruence|intros ->; split; congruence|tauto]. Qed.
Lemma ent : forall (c : bool) (g ev f ev' : Z), (c, g, ev) = (true, f, ev') <-> c = true /\ g = f /\ ev = ev'.
Proof. intros. split; [intros E; injection E; auto|intros (-> & -> & ->); auto]. Qed.
Definition may_in (t : trace) (b1 b2 : rbuf) (f : Z) : Prop :=
  (f = pi /\ ~ closed pi t /\ ~ closed ci t /\ fill b1 < 8192) \/ (f = co /\ ~ closed co t /\ fill b2 < 8192) \/
  (f = cc /\ ~ closed cc t /\ ~ closed po t /\ fill b2 = 0) \/ f = self.
Definition may_out (t : trace) (b1 b2 : rbuf) (f : Z) : Prop :=
  (f = po /\ ~ closed po t /\ fill b2 <> 0) \/ (f = ci /\ ~ closed ci t /\ fill b1 <> 0).
Lemma watch_in : forall t b1 b2 f, 0 <= f -> (In (true, f, POLLIN) (clear_watch self (here t b1 b2)) <-> may_in t b1 b2 f).
Proof.
  intros t b1 b2 f F. unfold clear_watch, here. cbn [peerin peerout childin childout childctl childack toc ton]. cbn [In]. rewrite !ent, !cur_eq by auto.
  rewrite !andb_true_iff, !cur_open by (apply s_pi || apply s_po || apply s_ci || apply s_co || apply s_cc). rewrite !Z.eqb_eq, !Z.ltb_lt. unfold BUFFER, may_in.
  assert (NE : POLLOUT <> POLLIN) by discriminate. split.
  - intros [(_ & _ & E)|[(_ & _ & E)|[W|[W|[W|[W|[]]]]]]]; [contradiction|contradiction|left|right; left|right; right; left|right; right; right]; intuition.
  - intros [W|[W|[W|W]]]; [right; right; left|right; right; right; left|right; right; right; right; left|right; right; right; right; right; left]; intuition.
Qed.
Lemma watch_out : forall t b1 b2 f, 0 <= f -> (In (true, f, POLLOUT) (clear_watch self (here t b1 b2)) <-> may_out t b1 b2 f).
Proof.
  intros t b1 b2 f F. unfold clear_watch, here. cbn [peerin peerout childin childout childctl childack toc ton]. cbn [In]. rewrite !ent, !cur_eq by auto.
  rewrite !andb_true_iff, !cur_open by (apply s_pi || apply s_po || apply s_ci || apply s_co || apply s_cc). rewrite !negb_true_iff, !Z.eqb_neq. unfold may_out.
  assert (NE : POLLIN <> POLLOUT) by discriminate. split.
  - intros [W|[W|[(_ & _ & E)|[(_ & _ & E)|[(_ & _ & E)|[(_ & _ & E)|[]]]]]]]; try contradiction; [left|right]; intuition.
  - intros [W|W]; [left|right; left]; intuition.
Qed.
(** Only two facts about each descriptor are needed below. *)
Lemma may_in_pi : forall t b1 b2, may_in t b1 b2 pi <-> ~ closed pi t /\ ~ closed ci t /\ fill b1 < 8192.
Proof. intros. unfold may_in. pose proof n_pi_co. pose proof n_pi_cc. pose proof n_pi_self. intuition. Qed.
Lemma may_in_co : forall t b1 b2, may_in t b1 b2 co <-> ~ closed co t /\ fill b2 < 8192.
Proof. intros. unfold may_in. pose proof n_co_pi. pose proof n_co_cc. pose proof n_co_self. intuition. Qed.
Lemma may_in_cc : forall t b1 b2, may_in t b1 b2 cc <-> ~ closed cc t /\ ~ closed po t /\ fill b2 = 0.
Proof. intros. unfold may_in. pose proof n_cc_pi. pose proof n_cc_co. pose proof n_cc_self. intuition. Qed.
Lemma may_out_po : forall t b1 b2, may_out t b1 b2 po <-> ~ closed po t /\ fill b2 <> 0.
Proof. intros. unfold may_out. pose proof n_po_ci. intuition. Qed.
Lemma may_out_ci : forall t b1 b2, may_out t b1 b2 ci <-> ~ closed ci t /\ fill b1 <> 0.
Proof. intros. unfold may_out. pose proof n_ci_po. intuition. Qed.
(** The answer, descriptor by descriptor *)
Lemma ready_in : forall a t c g, (c = true -> ~ closed g t) -> (wready a (c, cur g t, POLLIN) = true <-> c = true /\ 0 < ret a /\ In g (data a)).
Proof. intros a t c g C. rewrite ready_r. split; intros (W & P & X); (split; [auto|]); specialize (C W); rewrite cur_is in * by auto; auto. Qed.
Lemma ready_out : forall a t c g, (c = true -> ~ closed g t) -> (wready a (c, cur g t, POLLOUT) = true <-> c = true /\ 0 < ret a /\ In (-1 - g) (data a)).
Proof. intros a t c g C. rewrite ready_w. split; intros (W & P & X); (split; [auto|]); specialize (C W); rewrite cur_is in * by auto; auto. Qed.

Lemma wp_cl_body : forall fuel t s, cinv t s -> wp cok t (clear_body timeout finish self fuel s) next.
Proof.
  intros fuel t s (b1 & b2 & -> & K & E & Q). unfold clear_body. eapply wp_bind; [apply wp_clear_eof; auto|]. clear t K E Q. cbn beta. intros t s (-> & K & E & Q & P1 & P2).
  destruct (clear_done (here t b1 b2)) eqn:D.
  { unfold clear_done, here in D. cbn [peerin peerout childin childout] in D. rewrite !andb_true_iff, !negb_true_iff in D. destruct D as [[[D1 D2] D3] D4].
    apply cur_shut in D1; [|apply s_pi]. apply cur_shut in D2; [|apply s_ci]. apply cur_shut in D3; [|apply s_co]. apply cur_shut in D4; [|apply s_po].
    apply wp_ret. exists b1, b2. split; auto. right. split; auto. split; [apply (c_ck _ _ _ K)|]. left. auto. }
  destruct (strm_nil _ _ _ (c_s _ _ _ K)) as [M1 M2]. destruct (strm_room _ _ _ (c_s _ _ _ K)) as [R1 R2].
  eapply wp_bind with (M := fun t' x => exists n rd wr a, t' = t ++ [(Select n rd wr None, a)] /\ x = map (wready a) (clear_watch self (here t b1 b2)) /\
    (forall f, 0 <= f -> (In f rd <-> may_in t b1 b2 f)) /\ (forall f, 0 <= f -> (In f wr <-> may_out t b1 b2 f))).
  - apply wp_watch.
    { unfold clear_watch, here. cbn [peerin peerout childin childout childctl childack toc ton]. repeat apply Forall_cons; [..|apply Forall_nil]; intros C; rewrite ?andb_true_iff in C.
      - destruct C as [C _]. apply cur_open in C; [|apply s_po]. rewrite cur_is by auto. split; [apply s_po|auto].
      - destruct C as [_ C]. apply cur_open in C; [|apply s_ci]. rewrite cur_is by auto. split; [apply s_ci|auto].
      - destruct C as [[C _] _]. apply cur_open in C; [|apply s_pi]. rewrite cur_is by auto. split; [apply s_pi|auto].
      - destruct C as [C _]. apply cur_open in C; [|apply s_co]. rewrite cur_is by auto. split; [apply s_co|auto].
      - destruct C as [[_ C] _]. apply cur_open in C; [|apply s_cc]. rewrite cur_is by auto. split; [apply s_cc|auto].
      - split; [apply s_self|auto]. }
    intros n rd wr a RD WR. assert (RD' : forall f, 0 <= f -> (In f rd <-> may_in t b1 b2 f)) by (intros f F; rewrite RD; apply watch_in; auto).
    assert (WR' : forall f, 0 <= f -> (In f wr <-> may_out t b1 b2 f)) by (intros f F; rewrite WR; apply watch_out; auto). clear RD WR.
    split; [|exists n, rd, wr, a; auto].
    unfold cok, conveys, usable, clear_close, clear_boundary. cbn [fst]. split; [exact I|]. split; [exact I|]. split; [exact I|]. split; [exact I|]. split; [apply (c_cc _ _ _ K)|].
    split; [|split; [apply Q|apply (strm_bal _ b1 b2); apply neutral_strm; [exact I|apply (c_s _ _ _ K)]]].
    unfold clear_select. cbn [fst]. rewrite !RD', !WR' by (apply s_pi || apply s_po || apply s_ci || apply s_co || apply s_cc || apply s_self).
    rewrite may_in_pi, may_in_co, may_in_cc, may_out_po, may_out_ci, <- M1, <- M2, <- R1, <- R2.
    split; [auto|]. split; [unfold may_in; auto|]. repeat (split; [tauto|]). destruct E as [Ea Eb Ec Ed]. auto.
  - intros t' x (n & rd & wr & a & -> & -> & RD & WR). set (t1 := t ++ [(Select n rd wr None, a)]).
    assert (N : neutral (Select n rd wr None) a) by exact I.
    pose proof (neutral_core _ _ _ _ _ N K) as K1. pose proof (neutral_ends _ _ _ N E) as E1. fold t1 in K1, E1.
    assert (HE : here t b1 b2 = here t1 b1 b2) by (unfold t1; rewrite neutral_here by auto; auto). rewrite HE.
    assert (CL : forall f, closed f t1 <-> closed f t) by (intros f; unfold t1; apply closed_snoc; discriminate).
    assert (SV : forall e, (0 < ret a ->
      let w f := In f wr /\ In (-1 - f) (data a) in
      let r f := In f rd /\ In f (data a) in
      (w po -> exists b, fst e = Write po b) /\
      (~ w po -> r co -> exists n, fst e = Read co n) /\
      (~ w po -> ~ r co -> r cc -> exists n, fst e = Read cc n) /\
      (~ w po -> ~ r co -> ~ r cc -> w ci -> exists b, fst e = Write ci b) /\
      (~ w po -> ~ r co -> ~ r cc -> ~ w ci -> r pi -> exists n, fst e = Read pi n) /\
      (~ w po -> ~ r co -> ~ r cc -> ~ w ci -> ~ r pi -> r self -> exists n, fst e = Read self n)) -> SERVE t1 e).
    { intros e W t0 n' rd' wr' us' a' EQ. unfold t1 in EQ. apply app_inj_tail in EQ as [_ EQ]. injection EQ as <- <- <- _ <-. exact W. }
    unfold clear_watch. cbn [map].
    change (peerout (here t1 b1 b2)) with (cur po t1). change (peerin (here t1 b1 b2)) with (cur pi t1). change (childin (here t1 b1 b2)) with (cur ci t1). change (childout (here t1 b1 b2)) with (cur co t1). change (childctl (here t1 b1 b2)) with (cur cc t1).
    change (toc (here t1 b1 b2)) with b1. change (ton (here t1 b1 b2)) with b2.
    set (P := wready a (_, cur po t1, POLLOUT)). set (W := wready a (_, cur ci t1, POLLOUT)). set (X := wready a (_, cur pi t1, POLLIN)). set (Y := wready a (_, cur co t1, POLLIN)). set (Z := wready a (_, cur cc t1, POLLIN)). set (V := wready a (true, self, POLLIN)).
    assert (HP : P = true <-> 0 < ret a /\ In po wr /\ In (-1 - po) (data a)).
    { unfold P. rewrite WR, may_out_po by apply s_po. rewrite ready_out by (rewrite andb_true_iff; intros [C _]; apply cur_open in C; [auto|apply s_po]). rewrite andb_true_iff, negb_true_iff, Z.eqb_neq, cur_open, CL by apply s_po. tauto. }
    assert (HW : W = true <-> 0 < ret a /\ In ci wr /\ In (-1 - ci) (data a)).
    { unfold W. rewrite WR, may_out_ci by apply s_ci. rewrite ready_out by (rewrite andb_true_iff; intros [_ C]; apply cur_open in C; [auto|apply s_ci]). rewrite andb_true_iff, negb_true_iff, Z.eqb_neq, cur_open, CL by apply s_ci. tauto. }
    assert (HX : X = true <-> 0 < ret a /\ In pi rd /\ In pi (data a)).
    { unfold X. rewrite RD, may_in_pi by apply s_pi. rewrite (ready_in a t1 _ pi) by (rewrite !andb_true_iff; intros [[C _] _]; apply cur_open in C; [auto|apply s_pi]).
      rewrite !andb_true_iff, !cur_open, !CL by (apply s_pi || apply s_ci). unfold BUFFER. rewrite Z.ltb_lt. tauto. }
    assert (HY : Y = true <-> 0 < ret a /\ In co rd /\ In co (data a)).
    { unfold Y. rewrite RD, may_in_co by apply s_co. rewrite (ready_in a t1 _ co) by (rewrite !andb_true_iff; intros [C _]; apply cur_open in C; [auto|apply s_co]).
      rewrite !andb_true_iff, !cur_open, !CL by apply s_co. unfold BUFFER. rewrite Z.ltb_lt. tauto. }
    assert (HZ : Z = true <-> 0 < ret a /\ In cc rd /\ In cc (data a)).
    { unfold Z. rewrite RD, may_in_cc by apply s_cc. rewrite (ready_in a t1 _ cc) by (rewrite !andb_true_iff; intros [[_ C] _]; apply cur_open in C; [auto|apply s_cc]).
      rewrite !andb_true_iff, !cur_open, !CL by (apply s_cc || apply s_po). rewrite Z.eqb_eq. tauto. }
    assert (HV : V = true <-> 0 < ret a /\ In self rd /\ In self (data a)).
    { unfold V. rewrite RD by apply s_self. rewrite ready_r. unfold may_in. tauto. }
    clearbody P W X Y Z V.
    assert (NB : forall b : bool, b = false <-> ~ (b = true)) by (intros []; split; congruence).
    destruct P.
    { destruct (proj1 HP eq_refl) as (A1 & A2 & A3). pose proof A2 as A4. rewrite WR, may_out_po in A4 by apply s_po. destruct A4 as [A4 A5]. pose proof (c_s _ _ _ K) as [_ [_ B2] _ _].
      apply wp_topeer; auto; [rewrite CL; auto|lia|]. intros b a'. apply SV. intros _. cbv zeta. cbn [fst]. split; [eauto|]. tauto. }
    assert (NP : 0 < ret a -> ~ (In po wr /\ In (-1 - po) (data a))) by (intros L C; assert (false = true) by (apply HP; auto); discriminate).
    destruct Y.
    { destruct (proj1 HY eq_refl) as (A1 & A2 & A3). pose proof A2 as A4. rewrite RD, may_in_co in A4 by apply s_co. destruct A4 as [A4 A5].
      apply wp_fromchild; auto; [rewrite CL; auto|]. intros b a'. apply SV. intros _. cbv zeta. cbn [fst]. split; [tauto|]. split; [eauto|]. tauto. }
    assert (NY : 0 < ret a -> ~ (In co rd /\ In co (data a))) by (intros L C; assert (false = true) by (apply HY; auto); discriminate).
    destruct Z.
    { destruct (proj1 HZ eq_refl) as (A1 & A2 & A3). pose proof A2 as A4. rewrite RD, may_in_cc in A4 by apply s_cc. destruct A4 as (A4 & A5 & A6).
      apply wp_control; auto; [rewrite CL; auto|rewrite CL; auto| |exists t, n, rd, wr, None, a; auto]. intros b a'. apply SV. intros _. cbv zeta. cbn [fst]. split; [tauto|]. split; [tauto|]. split; [eauto|]. tauto. }
    assert (NZ : 0 < ret a -> ~ (In cc rd /\ In cc (data a))) by (intros L C; assert (false = true) by (apply HZ; auto); discriminate).
    destruct W.
    { destruct (proj1 HW eq_refl) as (A1 & A2 & A3). pose proof A2 as A4. rewrite WR, may_out_ci in A4 by apply s_ci. destruct A4 as [A4 A5]. pose proof (c_s _ _ _ K) as [[_ B1] _ _ _].
      apply wp_tochild; auto; [rewrite CL; auto|lia|]. intros b a'. apply SV. intros _. cbv zeta. cbn [fst]. split; [tauto|]. split; [tauto|]. split; [tauto|]. split; [eauto|]. tauto. }
    assert (NW : 0 < ret a -> ~ (In ci wr /\ In (-1 - ci) (data a))) by (intros L C; assert (false = true) by (apply HW; auto); discriminate).
    destruct X.
    { destruct (proj1 HX eq_refl) as (A1 & A2 & A3). pose proof A2 as A4. rewrite RD, may_in_pi in A4 by apply s_pi. destruct A4 as (A4 & A5 & A6).
      apply wp_frompeer; auto; [rewrite CL; auto|]. intros b a'. apply SV. intros _. cbv zeta. cbn [fst]. split; [tauto|]. split; [tauto|]. split; [tauto|]. split; [tauto|]. split; [eauto|]. tauto. }
    assert (NX : 0 < ret a -> ~ (In pi rd /\ In pi (data a))) by (intros L C; assert (false = true) by (apply HX; auto); discriminate).
    destruct V.
    { apply wp_signal; auto. intros b a'. apply SV. intros _. cbv zeta. cbn [fst]. split; [tauto|]. split; [tauto|]. split; [tauto|]. split; [tauto|]. split; [tauto|eauto]. }
    assert (NV : 0 < ret a -> ~ (In self rd /\ In self (data a))) by (intros L C; assert (false = true) by (apply HV; auto); discriminate).
    apply wp_ret. exists b1, b2. split; auto. split; auto. split; auto. intros e. apply SV. cbv zeta. tauto.
Qed.
Lemma wp_cleartext : forall fuel m1 m2 f1 f2, len m1 = 8192 -> len m2 = 8192 ->
  wp cok [] (cleartext timeout finish self fuel (mksess pi po ci co cc ck (mkrbuf m1 f1) (mkrbuf m2 f2))) (fun t x => cstop t (fst x) (snd x)).
Proof.
  intros fuel m1 m2 f1 f2 L1 L2. unfold cleartext. apply wp_iter with (I := cinv).
  - intros t s V. eapply wp_conseq; [apply wp_cl_body; auto|]. intros t1 [s1|[r s1]] N; exact N.
  - exists (mkrbuf m1 0), (mkrbuf m2 0). split; [reflexivity|]. split.
    + split; [split; try (split; cbn [mem fill]; [auto|lia]); reflexivity|reflexivity|reflexivity|intros (a & [])|intros (a & [])].
    + split; [|intros e t0 n rd wr us a W; destruct t0; discriminate]. split; unfold told; cbn [got In]; try tauto; intros (n & a & [] & _).
Qed.
End Clear.
