(** From acts to the byte streams of an SMTP session. *)
From Verif.Model Require Import Base Sys Smtp.
From Verif.Spec Require Import Text Stream.
From Verif.Proof Require Import Tac SysP CallsP IoP SmtpIoP SmtpStP SmtpP SmtpReplyP SmtpSessP.
From Verif.Spec Require Import SmtpSpec SmtpView.

Lemma rd_sent : forall fd f t, Forall (rd fd) t -> sent f t = [].
Proof. intros fd f t H. induction H as [|e t (n & a & ->) H IH]; [reflexivity|]. exact IH. Qed.
Lemma rd_got : forall fd f t, Forall (rd fd) t -> f <> fd -> got f t = [].
Proof. intros fd f t H N. induction H as [|e t (n & a & ->) H IH]; [reflexivity|]. cbn [got]. destruct (Z.eqb_spec fd f); [congruence|]. exact IH. Qed.
Lemma wr_got : forall fd f t, Forall (wr fd) t -> got f t = [].
Proof. intros fd f t H. induction H as [|e t (n & a & ->) H IH]; [reflexivity|]. exact IH. Qed.
Lemma wr_sent : forall fd f t, Forall (wr fd) t -> f <> fd -> sent f t = [].
Proof. intros fd f t H N. induction H as [|e t (n & a & ->) H IH]; [reflexivity|]. cbn [sent]. destruct (Z.eqb_spec fd f); [congruence|]. exact IH. Qed.

Lemma takes_app : forall l b r s, takes l b r -> takes l (b ++ s) (r ++ s).
Proof.
  intros l b r s H. induction H.
  - constructor.
  - rewrite <- app_assoc. cbn [app]. constructor. auto.
  - rewrite <- app_assoc. constructor. auto.
  - rewrite <- app_assoc. constructor. auto.
  - apply tk_other; auto.
Qed.
Lemma takes_trans : forall l1 b m l2 r, takes l1 b m -> takes l2 m r -> takes (l1 ++ l2) b r.
Proof. intros l1 b m l2 r H. induction H; intros HT; cbn [app]; [auto|constructor; auto|constructor; auto|constructor; auto|apply tk_other; auto]. Qed.

Section View.
Variable g : setting.
Hypothesis D : distinct g.

Lemma dist : toprog g <> 1 /\ (offers g = true -> toprog g <> 5) /\ toprog g <> gfd g /\ fromprog g <> 0 /\ gfd g <> 0 /\ gfd g <> 1.
Proof. destruct D as (A & B & F & C & E). cbn [In] in *. split; [lia|]. split; [intros O; apply F; exact O|]. repeat split; lia. Qed.

Lemma does_client : forall a v t v', does g a v t v' -> takes [a] (cu v ++ got 0 t) (cu v').
Proof.
  destruct dist as (D1 & D2 & D3 & D4 & D5 & D6). intros a v t v' H.
  assert (OT : (forall x, a <> ALine x) -> (forall x, a <> AFlood x) -> a <> ADrain -> got 0 t = [] -> cu v' = cu v -> takes [a] (cu v ++ got 0 t) (cu v')).
  { intros A1 A2 A3 -> ->. rewrite app_nil_r. apply tk_other; auto. constructor. }
  destruct a; cbn [does] in H.
  - destruct H as (_ & -> & _). constructor. constructor.
  - destruct H as (_ & -> & _). constructor. constructor.
  - destruct H as (H & _ & E & _). apply OT; try discriminate; auto. eapply rd_got; eauto.
  - destruct H as (H & _ & E & _). apply OT; try discriminate; auto. eapply rd_got; eauto.
  - destruct H as (H & _ & _ & E & _). apply OT; try discriminate; auto. eapply wr_got; eauto.
  - destruct H as (H & _ & E & _). apply OT; try discriminate; auto. eapply wr_got; eauto.
  - destruct H as (H & _ & ->). apply OT; try discriminate; auto. eapply wr_got; eauto.
  - destruct H as (-> & [(-> & _)|[(_ & b & -> & _)|(_ & b & b' & -> & _)]]); apply OT; try discriminate; auto.
  - destruct H as (H & _ & ->). apply OT; try discriminate; auto. eapply wr_got; eauto.
  - destruct H as (H & _ & ->). apply OT; try discriminate; auto. eapply wr_got; eauto.
  - destruct H as (H & _ & ->). apply OT; try discriminate; auto. eapply rd_got; eauto.
  - destruct H as (H & _ & ->). apply OT; try discriminate; auto. eapply rd_got; eauto.
  - destruct H as (H & ->). apply OT; try discriminate; auto. eapply rd_got; eauto.
  - destruct H as ((w & b & -> & H & _) & ->). apply OT; try discriminate; auto. rewrite got_app, (wr_got 5) by auto. reflexivity.
  - destruct H as (_ & -> & _). rewrite <- (app_nil_r (cu v ++ got 0 t)). constructor. constructor.
  - destruct H as ((w & H & _ & H2) & ->). apply OT; try discriminate; auto.
    destruct (x =? 0); [destruct H2 as (b & ->); rewrite got_app|subst t]; rewrite (rd_got 6) by (auto; lia); reflexivity.
Qed.
Definition raised (a : act) : Prop := a = ARaise -> offers g = true.
Lemma does_prog : forall a v t v', raised a -> does g a v t v' -> sent (toprog g) t ++ kp v' = kp v ++ toprogram a.
Proof.
  destruct dist as (D1 & D2 & D3 & D4 & D5 & D6). intros a v t v' RA H.
  assert (OT : toprogram a = [] -> sent (toprog g) t = [] -> kp v' = kp v -> sent (toprog g) t ++ kp v' = kp v ++ toprogram a).
  { intros -> -> ->. rewrite app_nil_r. reflexivity. }
  destruct a; cbn [does] in H.
  - destruct H as (H & _ & _ & E). apply OT; auto. eapply rd_sent; eauto.
  - destruct H as (H & _ & _ & E). apply OT; auto. eapply rd_sent; eauto.
  - destruct H as (H & _ & _ & E). apply OT; auto. eapply rd_sent; eauto.
  - destruct H as (H & _ & _ & E). apply OT; auto. eapply rd_sent; eauto.
  - destruct H as (H & -> & -> & _). rewrite app_nil_r. reflexivity.
  - destruct H as (H & -> & _). reflexivity.
  - destruct H as (H & _ & ->). apply OT; auto. eapply wr_sent; eauto.
  - destruct H as (-> & [(-> & _)|[(_ & b & -> & _)|(_ & b & b' & -> & _)]]); apply OT; auto.
  - destruct H as (H & _ & ->). apply OT; auto. eapply wr_sent; eauto.
  - destruct H as (H & _ & ->). apply OT; auto. eapply wr_sent; eauto.
  - destruct H as (H & _ & ->). apply OT; auto. eapply rd_sent; eauto.
  - destruct H as (H & _ & ->). apply OT; auto. eapply rd_sent; eauto.
  - destruct H as (H & ->). apply OT; auto. eapply rd_sent; eauto.
  - destruct H as ((w & b & -> & H & _) & ->). apply OT; auto. rewrite sent_app, (wr_sent 5) by (auto; apply D2, RA; reflexivity). reflexivity.
  - destruct H as ((e1 & w & e2 & n & b & -> & H & _ & _ & (b1 & ->) & (b2 & ->)) & _ & _ & E). apply OT; auto. cbn [sent]. rewrite sent_app, (rd_sent 0) by auto. reflexivity.
  - destruct H as ((w & H & _ & H2) & ->). apply OT; auto.
    destruct (x =? 0); [destruct H2 as (b & ->); rewrite sent_app|subst t]; rewrite (rd_sent 6) by auto; reflexivity.
Qed.
Lemma does_tell : forall a v t v', does g a v t v' -> sent 1 t = toclient a.
Proof.
  destruct dist as (D1 & D2 & D3 & D4 & D5 & D6). intros a v t v' H. destruct a; cbn [does toclient] in *.
  - eapply rd_sent; apply H.
  - eapply rd_sent; apply H.
  - eapply rd_sent; apply H.
  - eapply rd_sent; apply H.
  - eapply wr_sent; [apply H|auto].
  - eapply wr_sent; [apply H|auto].
  - apply H.
  - destruct H as (_ & [(-> & _)|[(_ & b & -> & _)|(_ & b & b' & -> & _)]]); reflexivity.
  - eapply wr_sent; [apply H|auto].
  - eapply wr_sent; [apply H|auto].
  - eapply rd_sent; apply H.
  - eapply rd_sent; apply H.
  - eapply rd_sent; apply H.
  - destruct H as ((w & b & -> & H & _) & _). rewrite sent_app, (wr_sent 5) by (auto; lia). reflexivity.
  - destruct H as ((e1 & w & e2 & n & b & -> & H & _ & _ & (b1 & ->) & (b2 & ->)) & _). cbn [sent]. rewrite sent_app, (rd_sent 0) by auto. reflexivity.
  - destruct H as ((w & H & _ & H2) & _). destruct (x =? 0); [destruct H2 as (b & ->); rewrite sent_app|subst t]; rewrite (rd_sent 6) by auto; reflexivity.
Qed.

Lemma story_client : forall v t l v', story g v t l v' -> takes l (cu v ++ got 0 t) (cu v').
Proof.
  intros v t l v' H. induction H as [v|v a t1 v1 l t2 v2 H S IH]; [rewrite app_nil_r; constructor|].
  rewrite got_app, app_assoc. apply (takes_trans [a] _ (cu v1 ++ got 0 t2)); auto. apply takes_app. apply does_client. auto.
Qed.
Lemma story_prog : forall v t l v', story g v t l v' -> Forall raised l -> sent (toprog g) t ++ kp v' = kp v ++ forwarded l.
Proof.
  intros v t l v' H. induction H as [v|v a t1 v1 l t2 v2 H S IH]; intros RA; [cbn; rewrite app_nil_r; reflexivity|]. inversion RA as [|? ? R1 R2]; subst.
  rewrite sent_app, <- app_assoc, IH, app_assoc, (does_prog _ _ _ _ R1 H), <- app_assoc by exact R2. reflexivity.
Qed.
Lemma story_tell : forall v t l v', story g v t l v' -> sent 1 t = displayed l.
Proof. intros v t l v' H. induction H as [v|v a t1 v1 l t2 v2 H S IH]; [reflexivity|]. rewrite sent_app, IH, (does_tell _ _ _ _ H). reflexivity. Qed.

Lemma prefix_refl : forall (x : list Z), is_prefix x x. Proof. intros x. exists []. rewrite app_nil_r. reflexivity. Qed.
Lemma prefix_nil : forall (x : list Z), is_prefix [] x. Proof. intros x. exists x. reflexivity. Qed.
Lemma svc_sent : forall f t, Forall (fun e => forall fd b, fst e <> Write fd b) t -> sent f t = [].
Proof. intros f t H. induction H as [|[k a] t H1 H IH]; [reflexivity|]. destruct k; try exact IH. exfalso. eapply H1. reflexivity. Qed.
Lemma svc_got : forall f t, Forall (fun e => forall fd n, fst e <> Read fd n) t -> got f t = [].
Proof. intros f t H. induction H as [|[k a] t H1 H IH]; [reflexivity|]. destruct k; try exact IH. exfalso. eapply H1. reflexivity. Qed.

Lemma partial_prog : forall P v t, (forall p, P = Raise p -> offers g = true) -> partial g P v t -> is_prefix (sent (toprog g) t) (kp v ++ forwarded (pact P)).
Proof.
  destruct dist as (D1 & D2 & D3 & D4 & D5 & D6). intros P v t RA H.
  assert (OT : sent (toprog g) t = [] -> is_prefix (sent (toprog g) t) (kp v ++ forwarded (pact P))) by (intros ->; apply prefix_nil).
  destruct P; cbn [partial pact forwarded flat_map toprogram] in *; rewrite ?app_nil_r in *; try (apply OT; eapply rd_sent; apply H).
  - apply H.
  - apply H.
  - apply OT. eapply wr_sent; [apply H|auto].
  - apply OT. apply svc_sent. eapply Forall_impl; [|exact H]. intros e (b & ->) fd x; discriminate.
  - apply OT. eapply wr_sent; [apply H|auto].
  - apply OT. eapply wr_sent; [apply H|]. apply D2. eapply RA. reflexivity.
  - apply OT. apply svc_sent. eapply Forall_impl; [|exact H]. intros e [(n & b & ->)|[(b & ->)|(b & ->)]] fd x; discriminate.
  - subst t. apply OT. reflexivity.
  - apply OT. apply svc_sent. eapply Forall_impl; [|exact H]. intros e [->|[->|(b & ->)]] fd x; discriminate.
Qed.
Lemma partial_tell : forall P v t, partial g P v t -> is_prefix (sent 1 t) (displayed (pact P)).
Proof.
  destruct dist as (D1 & D2 & D3 & D4 & D5 & D6). intros P v t H.
  assert (OT : sent 1 t = [] -> is_prefix (sent 1 t) (displayed (pact P))) by (intros ->; apply prefix_nil).
  destruct P; cbn [partial pact displayed flat_map toclient] in *; rewrite ?app_nil_r in *; try (apply OT; eapply rd_sent; apply H).
  - apply OT. eapply wr_sent; [apply H|auto].
  - apply OT. eapply wr_sent; [apply H|auto].
  - apply H.
  - apply OT. apply svc_sent. eapply Forall_impl; [|exact H]. intros e (b & ->) fd x; discriminate.
  - apply OT. eapply wr_sent; [apply H|auto].
  - apply OT. eapply wr_sent; [apply H|lia].
  - apply OT. apply svc_sent. eapply Forall_impl; [|exact H]. intros e [(n & b & ->)|[(b & ->)|(b & ->)]] fd x; discriminate.
  - subst t. apply OT. reflexivity.
  - apply OT. apply svc_sent. eapply Forall_impl; [|exact H]. intros e [->|[->|(b & ->)]] fd x; discriminate.
Qed.
Lemma finished_sent : forall f t x, finished g t x -> sent f t = [].
Proof.
  intros f t x [(_ & -> & _)|(c1 & c2 & w & a & -> & H & _)]; [reflexivity|]. cbn [sent]. rewrite sent_app.
  rewrite svc_sent; [reflexivity|]. eapply Forall_impl; [|exact H]. intros e ((b & ->) & _) fd y; discriminate.
Qed.

(** TLS is requested only if it was offered *)
Inductive tlsp : plan -> Prop :=
| q_loop : forall e, tlsp (Loop e)
| q_body : forall e, tlsp (Body e)
| q_give : forall b p, tlsp p -> tlsp (Give b p)
| q_queue : forall b p, tlsp p -> tlsp (Queue b p)
| q_tell : forall b p, tlsp p -> tlsp (Tell b p)
| q_reply : forall k, (forall h d t, tlsp (k h d t)) -> tlsp (Reply k)
| q_probe : forall k, (forall r, (r = true -> offers g = true) -> tlsp (k r)) -> tlsp (Probe k)
| q_ask : forall q k, (forall r, tlsp (k r)) -> tlsp (Ask q k)
| q_await : forall k, (forall r, tlsp (k r)) -> tlsp (Await k)
| q_raise : forall p, offers g = true -> tlsp p -> tlsp (Raise p)
| q_drain : forall p, tlsp p -> tlsp (Drain p)
| q_ack : forall p, tlsp p -> tlsp (Ack p)
| q_die : tlsp Die
| q_finish : tlsp Finish.
Lemma tlsp_pass : forall y k, (forall h, tlsp (k h)) -> tlsp (pass g y k).
Proof. intros. unfold pass. apply q_give, q_reply. intros. apply q_tell. auto. Qed.
Lemma tlsp_command : forall e x, tlsp (command g e x).
Proof.
  intros e x. unfold command. destruct (kindof (norm x)).
  - apply tlsp_pass. constructor.
  - apply tlsp_pass. intros h. destruct (code h =? 354); constructor.
  - unfold mail. destruct (beginsb _ _); [destruct (_ <? _); [constructor|]|]; apply tlsp_pass; constructor.
  - unfold rcptto. destruct (rcptenv e (norm x)) as [e'|]; [|constructor].
    assert (FW : tlsp (pass g (norm x) (fun _ => Loop e'))) by (apply tlsp_pass; constructor).
    destruct (policy g); auto. destruct (sender e'); auto. destruct (rcpt e'); auto. constructor. intros [r|]; auto. destruct (verdict r); auto. constructor. constructor.
  - constructor. constructor. intros r _. constructor. intros h d t. destruct (r && _); [destruct (_ <? _); [constructor|]|]; constructor; constructor.
  - constructor. intros [|] O.
    + apply q_tell, q_raise; [apply O; reflexivity|]. apply q_drain, q_ack, q_give, q_reply. constructor.
    + constructor. constructor.
  - constructor. constructor. intros. constructor. constructor.
Qed.
Lemma tlsp_body : forall e x, tlsp (body g e x).
Proof. intros e x. unfold body. apply q_queue. destruct (dotted x); [|constructor]. apply q_give, q_reply. intros. apply q_tell. constructor. Qed.
Lemma tlsp_step : forall P a P' v t v', step g P a P' -> does g a v t v' -> tlsp P -> tlsp P' /\ raised a.
Proof.
  intros P a P' v t v' S H T. split; [|intros ->; inversion S; subst; inversion T; subst; assumption].
  destruct S; inversion T; subst; auto; try (constructor; auto; fail); try apply tlsp_command; try apply tlsp_body.
  match goal with X : forall r, _ -> tlsp _ |- _ => apply X end. intros ->. destruct H as [_ [(_ & _ & X)|[(X & _)|(X & _)]]]; [discriminate|exact X|exact X].
Qed.
Lemma tlsp_story : forall v t l v', story g v t l v' -> forall P P', follows g P l P' -> tlsp P -> tlsp P' /\ Forall raised l.
Proof.
  intros v t l v' S. induction S as [v|v a t1 v1 l t2 v2 H S IH]; intros P P' F T; inversion F; subst; [auto|].
  match goal with X : step _ _ _ _ |- _ => destruct (tlsp_step _ _ _ _ _ _ X H T) as [T1 R1] end.
  match goal with X : follows _ _ l _ |- _ => destruct (IH _ _ X T1) as [T2 R2] end. auto.
Qed.
Lemma tlsp_start : tlsp (start g).
Proof. unfold start. apply q_reply. intros. apply q_tell. constructor. Qed.

Lemma conforms_account : forall tr x, conforms g tr x -> exists l P, account g tr l P /\
  (x = Some 111 \/ x = None \/ P = Finish).
Proof.
  intros tr x (t1 & t2 & l & v & P & C & S & F & H). exists l, P.
  pose proof (story_client _ _ _ _ S) as SC. destruct (tlsp_story _ _ _ _ S _ _ F tlsp_start) as [TP RA]. assert (RP : forall p, P = Raise p -> offers g = true) by (intros p ->; inversion TP; assumption). pose proof (story_prog _ _ _ _ S RA) as SP. pose proof (story_tell _ _ _ _ S) as ST. cbn [view0 cu kp app] in SC, SP.
  assert (X : is_prefix (sent (toprog g) t2) (kp v ++ forwarded (pact P)) /\ is_prefix (sent 1 t2) (displayed (pact P)) /\ (x = Some 111 \/ x = None \/ P = Finish)).
  { destruct x as [x|].
    - destruct H as [(-> & -> & ->)|[(-> & H)|(-> & _ & H)]].
      + repeat split; auto; apply prefix_nil.
      + rewrite !(finished_sent _ _ _ H). repeat split; auto; apply prefix_nil.
      + split; [apply partial_prog; auto|]. split; [eapply partial_tell; eauto|auto].
    - split; [apply partial_prog; auto|]. split; [eapply partial_tell; eauto|auto]. }
  destruct X as (X1 & X2 & X3). split; auto. split; auto.
  rewrite <- !(sent_core _ tr), <- (got_core _ tr), C, !got_app, !sent_app.
  split; [eexists; apply takes_app; exact SC|]. unfold forwarded, displayed in *. rewrite !flat_map_app.
  split.
  - rewrite <- SP, <- app_assoc. apply is_prefix_app2. auto.
  - rewrite ST. apply is_prefix_app2. auto.
Qed.
End View.

(** ** What is relayed *)
Inductive okp : option (list Z) -> plan -> Prop :=
| k_loop : forall o e, okp o (Loop e)
| k_body : forall o e, okp o (Body e)
| k_give : forall x p, okp None p -> okp (Some x) (Give (norm x) p)
| k_queue : forall x p, okp None p -> okp (Some x) (Queue (norm x) p)
| k_flush : forall p, okp None p -> okp None (Give [] p)
| k_rset : forall o p, okp None p -> okp o (Give (bs "RSET" ++ [13; 10]) p)
| k_tell : forall o b p, okp o p -> okp o (Tell b p)
| k_reply : forall o k, (forall h d t, okp o (k h d t)) -> okp o (Reply k)
| k_probe : forall o k, (forall r, okp o (k r)) -> okp o (Probe k)
| k_ask : forall o q k, (forall r, okp o (k r)) -> okp o (Ask q k)
| k_await : forall o k, (forall r, okp o (k r)) -> okp o (Await k)
| k_raise : forall o p, okp o p -> okp o (Raise p)
| k_drain : forall o p, okp o p -> okp o (Drain p)
| k_ack : forall o p, okp o p -> okp o (Ack p)
| k_die : forall o, okp o Die
| k_finish : forall o, okp o Finish.

Lemma okp_pass : forall g x k, (forall h, okp None (k h)) -> okp (Some x) (pass g (norm x) k).
Proof. intros g x k H. unfold pass. constructor. constructor. intros. constructor. auto. Qed.
Lemma okp_command : forall g e x, okp (Some x) (command g e x).
Proof.
  intros g e x. unfold command. destruct (kindof (norm x)).
  - apply okp_pass. constructor.
  - apply okp_pass. intros h. destruct (code h =? 354); constructor.
  - unfold mail. destruct (beginsb _ _); [destruct (_ <? _); [constructor|]|]; apply okp_pass; constructor.
  - unfold rcptto. destruct (rcptenv e (norm x)) as [e'|]; [|constructor].
    assert (FW : okp (Some x) (pass g (norm x) (fun _ => Loop e'))) by (apply okp_pass; constructor).
    destruct (policy g); auto. destruct (sender e'); auto. destruct (rcpt e'); auto. constructor. intros [r|]; auto. destruct (verdict r); auto. constructor. constructor.
  - constructor. constructor. intros r. constructor. intros h d t. destruct (r && _); [destruct (_ <? _); [constructor|]|]; constructor; constructor.
  - constructor. intros [|].
    + apply k_tell. apply k_raise. apply k_drain. apply k_ack. apply k_rset. apply k_reply. constructor.
    + constructor. constructor.
  - constructor. constructor. intros. constructor. constructor.
Qed.
Lemma okp_body : forall g e x, okp (Some x) (body g e x).
Proof.
  intros g e x. unfold body. apply k_queue. destruct (dotted x); [|constructor]. apply k_flush. apply k_reply. intros. apply k_tell. constructor.
Qed.
Lemma okp_start : forall g, okp None (start g).
Proof. intros g. unfold start. apply k_reply. intros. apply k_tell. constructor. Qed.

Lemma rl_skip : forall o a l, (match a with ALine _ | AGive _ | AQueue _ => False | _ => True end) -> relays o l -> relays o (a :: l).
Proof. intros o a l H R. destruct a; try destruct H; apply rl_other; auto; discriminate. Qed.
Lemma pact_relays : forall o P, okp o P -> relays o (pact P).
Proof. intros o P H. inversion H; subst; cbn [pact]; try (constructor; fail); try (constructor; constructor). apply rl_skip; [exact I|constructor]. Qed.
Lemma follows_relays : forall g P l P', follows g P l P' -> forall o, okp o P -> relays o (l ++ pact P').
Proof.
  intros g P l P' F. induction F as [p|p a p1 l p2 S F IH]; intros o K; [apply pact_relays; auto|]. cbn [app].
  destruct S; try (apply rl_skip; [exact I|]; apply IH; inversion K; subst; auto; constructor; auto; fail).
  - apply rl_line; auto. apply IH. apply okp_command.
  - apply rl_line; auto. apply IH. apply okp_body.
  - inversion K; subst; constructor; apply IH; auto.
  - inversion K; subst; constructor; apply IH; auto.
Qed.

Lemma relays_app : forall a o b, relays o (a ++ b) -> relays o a.
Proof.
  induction a as [|x a IH]; intros o b R; [constructor|]. cbn [app] in R. inversion R; subst; constructor; eauto.
Qed.

(** Only lines and RSET. *)
Fixpoint linesof (l : list act) : list (list Z) := match l with [] => [] | ALine x :: l => x :: linesof l | _ :: l => linesof l end.
Lemma relays_each : forall o l, relays o l -> forall b, In (AGive b) l \/ In (AQueue b) l ->
  b = [] \/ b = bs "RSET" ++ [13; 10] \/ exists x, b = norm x /\ (In (ALine x) l \/ o = Some x).
Proof.
  intros o l H. induction H as [o|o x l L N H IH|x l H IH|x l H IH|l H IH|o l H IH|o a l A1 A2 A3 H IH]; intros b Hb.
  - destruct Hb as [[]|[]].
  - destruct (IH b) as [E|[E|(y & E & [I|I])]]; auto.
    + destruct Hb as [[Q|Q]|[Q|Q]]; auto; discriminate.
    + right. right. exists y. split; auto. left. right. auto.
    + injection I as <-. right. right. exists x. split; auto. left. left. auto.
  - destruct Hb as [[Q|Q]|[Q|Q]]; try discriminate; [injection Q as <-; right; right; exists x; auto| |];
    (destruct (IH b) as [E|[E|(y & E & [I|I])]]; auto; [right; right; exists y; split; auto; left; right; auto|discriminate]).
  - destruct Hb as [[Q|Q]|[Q|Q]]; try discriminate; [|injection Q as <-; right; right; exists x; auto|];
    (destruct (IH b) as [E|[E|(y & E & [I|I])]]; auto; [right; right; exists y; split; auto; left; right; auto|discriminate]).
  - destruct Hb as [[Q|Q]|[Q|Q]]; try discriminate; [injection Q as <-; auto| |];
    (destruct (IH b) as [E|[E|(y & E & [I|I])]]; auto; [right; right; exists y; split; auto; left; right; auto|discriminate]).
  - destruct Hb as [[Q|Q]|[Q|Q]]; try discriminate; [injection Q as <-; auto| |];
    (destruct (IH b) as [E|[E|(y & E & [I|I])]]; auto; [right; right; exists y; split; auto; left; right; auto|discriminate]).
  - assert (Hb' : In (AGive b) l \/ In (AQueue b) l) by (destruct Hb as [[Q|Q]|[Q|Q]]; auto; subst a; exfalso; [eapply A2|eapply A3]; reflexivity).
    destruct (IH b Hb') as [E|[E|(y & E & [I|I])]]; auto; right; right; exists y; split; auto. left. right. auto.
Qed.

Lemma takes_bytes : forall l b r, takes l b r -> bytes b -> forall x, In (ALine x) l -> bytes x.
Proof.
  intros l b r H. induction H as [b|x l b r H IH|x l b r H IH|d l b r H IH|a l b r A1 A2 A3 H IH]; intros B y Hy.
  - destruct Hy.
  - apply Forall_app in B as [B1 B2]. apply Forall_cons_iff in B2 as [_ B2]. destruct Hy as [Q|Q]; [injection Q as <-; auto|auto].
  - apply Forall_app in B as [B1 B2]. destruct Hy as [Q|Q]; [discriminate|auto].
  - apply Forall_app in B as [B1 B2]. destruct Hy as [Q|Q]; [discriminate|auto].
  - destruct Hy as [Q|Q]; auto. subst a. exfalso. eapply A1. reflexivity.
Qed.

(** A line over the limit is the last act. *)
Lemma flood_last : forall g P l P' x, follows g P l P' -> In (AFlood x) l -> P' = Die /\ islong x /\ exists l', l = l' ++ [AFlood x].
Proof.
  intros g P l P' x F. induction F as [p|p a p1 l p2 S F IH]; intros H; [destruct H|]. destruct H as [->|H].
  - inversion S; subst; inversion F; subst; try (split; auto; split; auto; exists []; reflexivity); match goal with H : step _ Die _ _ |- _ => inversion H end.
  - destruct (IH H) as (A & B & l' & ->). split; auto. split; auto. exists (a :: l'). reflexivity.
Qed.
Lemma norm_nozero : forall x, bytes x -> ~ In 0 (norm x).
Proof. intros x B Q. pose proof (norm_nonul x B) as N. eapply Forall_forall in N; [|exact Q]. lia. Qed.
