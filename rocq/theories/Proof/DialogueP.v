(** Consequences of the dialogue. *)
From Verif.Model Require Import Base Sys Io Framed Str Buffer Pem Jail Scalar.
From Verif.Spec Require Import Stream Text PemFile Curve Protocol.
From Verif.Proof Require Import Tac SysP IoP FrameP StrP CallsP PemP ScalarP.

Definition kernelcall (c : sys) : Prop := match c with Other _ _ _ => True | _ => False end.
Lemma jail_others : forall a d l t o, runs (jail a d l) t o -> Forall (fun e => kernelcall (fst e)) t.
Proof.
  intros a d l t o R. eapply use_calls; [exact R|]. unfold jail, jail_main, must, mustbe, when, jail_limit_memory.
  repeat (first [calls1 | match goal with |- calls _ ((if ?b then _ else _) _) => destruct b | |- calls _ ((match ?x with _ => _ end) _) => destruct x end | progress cbn beta zeta]); exact Logic.I.
Qed.

Section D.
Variables (nojail : bool) (account dir : option (list Z)).
Notation dialogue := (dialogue nojail account dir).
Notation work := (work nojail account dir).

Lemma filename_clean : forall m, clean (filename m).
Proof. intros m. apply sanitized_clean. Qed.

Lemma wipe_after : forall t : trace, Forall (fun e => wipecall (fst e)) t -> Forall (fun e => after (fst e)) t.
Proof. intros t F. eapply Forall_impl; [|exact F]. unfold after. auto. Qed.
Lemma read_after : forall t : trace, Forall (fun e => readcall (fst e)) t -> Forall (fun e => after (fst e)) t.
Proof. intros t F. eapply Forall_impl; [|exact F]. unfold after, serves. auto. Qed.
Lemma write_after : forall t : trace, Forall (fun e => writecall (fst e)) t -> Forall (fun e => after (fst e)) t.
Proof. intros t F. eapply Forall_impl; [|exact F]. unfold after, serves. auto. Qed.
Lemma wipe_before : forall t : trace, Forall (fun e => wipecall (fst e)) t -> Forall (fun e => before (fst e)) t.
Proof.
  intros t F. eapply Forall_impl; [|exact F]. unfold before. intros [c a] H. right. exists []. cbn [fst] in *. split; [|split; intros (u & v & E); destruct u; discriminate].
  destruct c; cbn in *; try tauto. destruct H as [->| ->]; auto 8.
Qed.
Lemma read_before : forall t : trace, Forall (fun e => readcall (fst e)) t -> Forall (fun e => before (fst e)) t.
Proof. intros t F. eapply Forall_impl; [|exact F]. unfold before, serves. auto. Qed.
Lemma write_before : forall t : trace, Forall (fun e => writecall (fst e)) t -> Forall (fun e => before (fst e)) t.
Proof. intros t F. eapply Forall_impl; [|exact F]. unfold before, serves. auto. Qed.
Lemma sign_after : forall t : trace, Forall (fun e => signcall (fst e)) t -> Forall (fun e => after (fst e)) t.
Proof.
  intros t F. eapply Forall_impl; [|exact F]. intros [[] a] H; cbn [fst] in *; try contradiction H. unfold signcall in H. unfold after, keyop, wipecall, keyops. cbn [In] in *.
  destruct H as [<-|[<-|[<-|[<-|[]]]]]; auto 12.
Qed.

Lemma work_after : forall ph acc t ws ph', work ph acc t ws ph' -> ph <> Naming -> Forall (fun e => after (fst e)) t /\ ph' <> Naming.
Proof.
  intros ph acc t ws ph' W N. inversion W; subst; try congruence; split; try discriminate; try (apply sign_after; assumption);
    repeat (apply Forall_cons || apply Forall_nil); unfold after, keyop, wipecall, keyops; cbn [fst In]; auto 20.
Qed.
Lemma vain_after : forall ph acc (t : trace), Forall (fun e => vaincall ph acc (fst e)) t -> ph <> Naming -> Forall (fun e => after (fst e)) t.
Proof.
  intros ph acc t F N. destruct ph; try congruence.
  3:{ eapply Forall_impl; [|exact F]. intros [c a]. unfold after, keyop, keyops. cbn [vaincall fst]. intros [H|[(x & p & ->)|(x & p & ->)]]; cbn [In]; auto 20. }
  - destruct acc as [|x [|y acc]]; try (apply wipe_after; exact F). eapply Forall_impl; [|exact F]. intros [c a]. unfold after, keyop, keyops. cbn [vaincall fst].
    intros [->|[H|(s & ->)]]; cbn [In]; auto 20. cbn. auto.
  - apply sign_after. exact F.
  - destruct acc as [|x1 [|x2 [|x3 [|x4 [|x5 acc]]]]]; try (apply wipe_after; exact F). eapply Forall_impl; [|exact F]. intros [c a]. unfold after, keyop, keyops. cbn [vaincall fst].
    intros [H|[->| ->]]; cbn [In]; auto 20.
Qed.

Lemma dialogue_after : forall ph acc tr log o, dialogue ph acc tr log o -> ph <> Naming -> Forall (fun e => after (fst e)) tr.
Proof.
  intros ph acc tr log o D. induction D; intros N; rewrite ?Forall_app; auto using wipe_after, read_after, write_after.
  - constructor; auto. left. right. right. reflexivity.
  - destruct (work_after _ _ _ _ _ H0 N) as [A B]. auto using write_after.
  - destruct (work_after _ _ _ _ _ H0 N) as [A B]. auto using write_after, wipe_after.
  - eapply vain_after; eauto.
  - congruence.
Qed.

(** The jail call, and what may follow it. *)
Definition jailing (j b : trace) : Prop :=
  if nojail then j = []
  else j = [] /\ b = [] \/
       exists oj, runs (jail account dir true) j oj /\ ((exists r lim, oj = Fin (r, lim) /\ r <> -1) \/ Forall (fun e => wipecall (fst e)) b).

Lemma file_before : forall m (t : trace), Forall (fun e => filecall (filename m) (fst e)) t -> Forall (fun e => before (fst e)) t.
Proof. intros m t F. eapply Forall_impl; [|exact F]. intros e H. right. exists (filename m). split; auto. apply filename_clean. Qed.

Lemma dialogue_order : forall acc tr log o, dialogue Naming acc tr log o ->
  exists a j b, tr = a ++ j ++ b /\ Forall (fun e => before (fst e)) a /\ Forall (fun e => after (fst e)) b /\ jailing j b.
Proof.
  intros acc tr log o D. remember Naming as ph eqn:EP. revert EP.
  assert (STOP : forall t : trace, Forall (fun e => before (fst e)) t -> exists a j b, t = a ++ j ++ b /\ Forall (fun e => before (fst e)) a /\ Forall (fun e => after (fst e)) b /\ jailing j b).
  { intros t F. exists t, [], []. rewrite !app_nil_r. split; [auto|]. split; [auto|]. split; [constructor|]. unfold jailing. destruct nojail; auto. }
  assert (APP : forall t t' : trace, Forall (fun e => before (fst e)) t ->
     (exists a j b, t' = a ++ j ++ b /\ Forall (fun e => before (fst e)) a /\ Forall (fun e => after (fst e)) b /\ jailing j b) ->
     exists a j b, t ++ t' = a ++ j ++ b /\ Forall (fun e => before (fst e)) a /\ Forall (fun e => after (fst e)) b /\ jailing j b).
  { intros t t' F (a & j & b & -> & A & B & C). exists (t ++ a), j, b. rewrite <- app_assoc. split; auto. split; auto. apply Forall_app. auto. }
  induction D; intros EP; try subst ph.
  - change ((Other (bs "getppid") [] [], a) :: t) with ([(Other (bs "getppid") [] [], a)] ++ t). apply APP; auto. constructor; [|constructor]. left. right. right. reflexivity.
  - apply APP; auto using read_before.
  - apply STOP. apply Forall_app. auto using read_before, wipe_before.
  - apply STOP. auto using wipe_before.
  - inversion H0; subst.
    + rewrite app_assoc. apply APP; auto. apply Forall_app. split; [eapply file_before; eauto|auto using write_before].
    + rewrite app_assoc. apply APP; auto. apply Forall_app. split; [eapply file_before; eauto|auto using write_before].
    + exists [], [], (t1 ++ t2). split; [reflexivity|]. split; [constructor|]. split. { apply Forall_app. split; [auto using write_after|]. eapply dialogue_after; eauto. discriminate. } unfold jailing. match goal with H : nojail = _ |- _ => rewrite H end. reflexivity.
    + exists [], t, (t1 ++ t2). split; [reflexivity|]. split; [constructor|]. split. { apply Forall_app. split; [auto using write_after|]. eapply dialogue_after; eauto. discriminate. }
      unfold jailing. match goal with H : nojail = _ |- _ => rewrite H end. right. exists (Fin (r, lim)). split; eauto.
  - inversion H0; subst.
    + apply STOP. rewrite !Forall_app. split; [eapply file_before; eauto|split; auto using write_before, wipe_before].
    + apply STOP. rewrite !Forall_app. split; [eapply file_before; eauto|split; auto using write_before, wipe_before].
    + exists [], [], (t1 ++ t2). split; [reflexivity|]. split; [constructor|]. split. { apply Forall_app. split; auto using write_after, wipe_after. } unfold jailing. match goal with H : nojail = _ |- _ => rewrite H end. reflexivity.
    + exists [], t, (t1 ++ t2). split; [reflexivity|]. split; [constructor|]. split. { apply Forall_app. split; auto using write_after, wipe_after. }
      unfold jailing. match goal with H : nojail = _ |- _ => rewrite H end. right. exists (Fin (r, lim)). split; eauto.
  - apply STOP. destruct acc as [|m [|m2 acc]]; try (apply wipe_before; assumption). eapply Forall_impl; [|exact H0]. intros e [_ F]. right. exists (filename m). split; auto. apply filename_clean.
  - exists [], t, t'. split; [reflexivity|]. split; [constructor|]. split; [auto using wipe_after|]. unfold jailing. rewrite H. right. exists oj. split; auto.
  - discriminate.
Qed.

(** ** Byte streams *)
Lemma wipe_silent : forall t : trace, Forall (fun e => wipecall (fst e)) t -> got 0 t = [] /\ sent 1 t = [].
Proof. intros t F. split; [eapply got_none|eapply sent_none]; eauto. Qed.
Lemma write_noread : forall t : trace, Forall (fun e => writecall (fst e)) t -> got 0 t = [].
Proof. intros t F. eapply got_none; [exact F|]. intros n [[b E]|E]; discriminate. Qed.
Lemma read_nowrite : forall t : trace, Forall (fun e => readcall (fst e)) t -> sent 1 t = [].
Proof. intros t F. eapply sent_none; [exact F|]. intros b [n E]. discriminate. Qed.
Lemma file_silent : forall f (t : trace), Forall (fun e => filecall f (fst e)) t -> got 0 t = [] /\ sent 1 t = [].
Proof. intros f t F. split; [eapply got_none; [exact F|cbn; lia]|eapply sent_none; [exact F|cbn; auto]]. Qed.
Lemma kernel_silent : forall t : trace, Forall (fun e => kernelcall (fst e)) t -> got 0 t = [] /\ sent 1 t = [].
Proof. intros t F. split; [eapply got_none; [exact F|cbn; auto]|eapply sent_none; [exact F|cbn; auto]]. Qed.
Lemma work_silent : forall ph acc t ws ph', work ph acc t ws ph' -> got 0 t = [] /\ sent 1 t = [].
Proof.
  intros ph acc t ws ph' W. inversion W; subst; auto; try (eapply file_silent; eassumption).
  - eapply kernel_silent. eapply jail_others; eauto.
  - apply kernel_silent. eapply Forall_impl; [|match goal with H : Forall _ t |- _ => exact H end]. intros [[] ?]; cbn; auto.
  - apply kernel_silent. eapply Forall_impl; [|match goal with H : Forall _ t |- _ => exact H end]. intros [[] ?]; cbn; auto.
Qed.
Lemma vain_silent : forall ph acc (t : trace), Forall (fun e => vaincall ph acc (fst e)) t -> got 0 t = [] /\ sent 1 t = [].
Proof.
  intros ph acc t F. assert (X : Forall (fun e => (exists f, filecall f (fst e)) \/ kernelcall (fst e)) t).
  { eapply Forall_impl; [|exact F]. intros [c a]. cbn [fst]. unfold vaincall.
    assert (W : wipecall c -> kernelcall c) by (destruct c; cbn; auto). assert (S : signcall c -> kernelcall c) by (destruct c; cbn; auto).
    destruct ph; auto.
    - destruct acc as [|m [|m2 acc]]; auto. intros [_ H]. eauto.
    - destruct acc as [|m [|m2 acc]]; auto. intros [->|[H|(s & ->)]]; cbn; auto.
    - intros [H|[(x & p & ->)|(x & p & ->)]]; cbn; auto.
    - destruct acc as [|x1 [|x2 [|x3 [|x4 [|x5 acc]]]]]; auto. intros [H|[->| ->]]; cbn; auto. }
  split; [apply (got_none 0 t (fun c => (exists f, filecall f c) \/ kernelcall c) X)|apply (sent_none 1 t (fun c => (exists f, filecall f c) \/ kernelcall c) X)];
    intros n [[f H]|H]; cbn in H; auto; lia.
Qed.

Lemma frames_app : forall a b, frames (a ++ b) = frames a ++ frames b.
Proof. intros. unfold frames. rewrite map_app, concat_app. reflexivity. Qed.
Lemma frames_one : forall m, frames [m] = frame m.
Proof. intros. unfold frames. cbn [map concat]. apply app_nil_r. Qed.

(** Complete requests, then an incomplete one; complete replies, then an incomplete one. *)
Definition requests (log : list exchange) : list Z := frames (concat (map fst log)).
Definition replies (log : list exchange) : list Z := concat (concat (map snd log)).

(** Where a reply comes from. *)
Lemma work_origin : forall ph acc t ws ph' x y, work ph acc t ws ph' -> Forall (origin (x ++ t ++ y)) ws.
Proof.
  intros ph acc t ws ph' x y W. inversion W; subst; repeat (apply Forall_cons || apply Forall_nil); try apply o_zero; try apply o_nothing.
  - eapply o_certificate; eauto.
  - match goal with H : exists a, _ |- _ => destruct H as (a & I & <-) end. apply o_errno; auto. apply in_or_app. right. apply in_or_app. auto.
  - eapply o_point; [|eauto]. apply in_or_app. right. right. left. reflexivity.
  - eapply o_signature; [|eauto]. apply in_or_app. right. apply in_or_app. left. eauto.
  - eapply o_prf; [|eauto]. apply in_or_app. right. left. reflexivity.
  - eapply o_offset with (n := bs "decrypt"); [auto| |auto]. apply in_or_app. right. left. reflexivity.
  - eapply o_record with (n := bs "decrypt"); [auto| |auto]. apply in_or_app. right. left. reflexivity.
  - eapply o_offset with (n := bs "encrypt"); [auto| |auto]. apply in_or_app. right. left. reflexivity.
  - eapply o_record with (n := bs "encrypt"); [auto| |auto]. apply in_or_app. right. left. reflexivity.
Qed.

Lemma dialogue_origin : forall ph acc tr log o, dialogue ph acc tr log o ->
  exists ws, is_prefix (sent 1 tr) (concat ws) /\ forall x, Forall (origin (x ++ tr)) ws.
Proof.
  intros ph acc tr log o D.
  assert (NIL : forall t : trace, sent 1 t = [] -> exists ws, is_prefix (sent 1 t) (concat ws) /\ forall x, Forall (origin (x ++ t)) ws).
  { intros t E. exists []. rewrite E. split; [exists []; reflexivity|constructor]. }
  induction D.
  - destruct IHD as (ws & P & Q). exists ws. split; auto. intros x. specialize (Q (x ++ [(Other (bs "getppid") [] [], a)])). rewrite <- app_assoc in Q. exact Q.
  - destruct IHD as (ws & P & Q). exists ws. rewrite sent_app, (read_nowrite t) by auto. split; auto. intros x. specialize (Q (x ++ t)). rewrite <- app_assoc in Q. exact Q.
  - apply NIL. rewrite sent_app, (read_nowrite t) by auto. apply wipe_silent. auto.
  - apply NIL. apply wipe_silent. auto.
  - destruct IHD as (ws' & (u & P) & Q). destruct (work_silent _ _ _ _ _ H0) as [_ S]. exists (ws ++ ws'). split.
    + rewrite !sent_app, S, H1, concat_app, P. exists u. cbn [app]. rewrite <- app_assoc. reflexivity.
    + intros x. apply Forall_app. split; [eapply work_origin; eauto|]. specialize (Q (x ++ t ++ t1)). rewrite <- !app_assoc in Q. exact Q.
  - destruct (work_silent _ _ _ _ _ H0) as [_ S]. destruct (wipe_silent _ H3) as [_ S3]. exists ws. split.
    + rewrite !sent_app, S, S3, app_nil_r. exact H1.
    + intros x. eapply work_origin; eauto.
  - apply NIL. eapply vain_silent; eauto.
  - apply NIL. rewrite sent_app. destruct (kernel_silent _ (jail_others _ _ _ _ _ H0)) as [_ ->]. apply wipe_silent. auto.
  - apply NIL. reflexivity.
Qed.

Lemma dialogue_streams : forall ph acc tr log o, dialogue ph acc tr log o ->
  (exists part, frames acc ++ got 0 tr = requests log ++ part) /\ is_prefix (sent 1 tr) (replies log).
Proof.
  intros ph acc tr log o D. unfold requests, replies.
  assert (NIL : forall acc (t : trace), sent 1 t = [] -> (exists part, frames acc ++ got 0 t = frames (concat (map fst (@nil exchange))) ++ part) /\ is_prefix (sent 1 t) (concat (concat (map snd (@nil exchange))))).
  { intros ac t E. split; [exists (frames ac ++ got 0 t); reflexivity|]. rewrite E. exists []. reflexivity. }
  induction D.
  - cbn [got sent]. exact IHD.
  - destruct IHD as ((p & A) & B). split; [exists p|]. + rewrite got_app, H2, <- A, frames_app, frames_one, <- app_assoc. auto. + rewrite sent_app, (read_nowrite t) by auto. auto.
  - apply NIL. rewrite sent_app, (read_nowrite t) by auto. apply wipe_silent. auto.
  - apply NIL. apply wipe_silent. auto.
  - destruct IHD as ((p & A) & B). cbn [map concat fst snd]. destruct (work_silent _ _ _ _ _ H0) as [G S]. split.
    + exists p. rewrite !got_app, G, (write_noread t1) by auto. change (frames [] ++ got 0 t2) with (got 0 t2) in A. rewrite frames_app, <- !app_assoc. cbn [app]. rewrite A. auto.
    + rewrite !sent_app, S, H1, concat_app. cbn [app]. apply is_prefix_app2. auto.
  - destruct (work_silent _ _ _ _ _ H0) as [G S]. destruct (wipe_silent _ H3) as [G3 S3]. cbn [map concat fst snd]. rewrite !app_nil_r. split.
    + exists []. rewrite !got_app, G, G3, (write_noread t1) by auto. rewrite !app_nil_r. reflexivity.
    + rewrite !sent_app, S, S3, app_nil_r. exact H1.
  - apply NIL. eapply vain_silent; eauto.
  - apply NIL. rewrite sent_app. destruct (kernel_silent _ (jail_others _ _ _ _ _ H0)) as [_ ->]. apply wipe_silent. auto.
  - apply NIL. reflexivity.
Qed.

(** The only way to an error. *)
Lemma dialogue_wrong : forall ph acc tr log o, dialogue ph acc tr log o -> o = Wrong ->
  exists ty label n seed, leval ty = 0 /\ ~ In 0 label /\ frames acc ++ got 0 tr = requests log ++ frames [ty; label; n; seed].
Proof.
  intros ph acc tr log o D. unfold requests. induction D; intros EO; try contradiction.
  - cbn [got]. auto.
  - destruct (IHD EO) as (ty & la & n & se & A & B & C). exists ty, la, n, se. split; auto. split; auto. rewrite got_app, H2, <- C, frames_app, frames_one, <- app_assoc. auto.
  - destruct (IHD EO) as (ty & la & n & se & A & B & C). exists ty, la, n, se. split; auto. split; auto. cbn [map concat fst]. destruct (work_silent _ _ _ _ _ H0) as [G _].
    rewrite !got_app, G, (write_noread t1) by auto. rewrite frames_app, <- app_assoc. rewrite <- C. reflexivity.
  - exists ty, label, n, seed. split; auto. split; auto. cbn [map concat got]. rewrite app_nil_r. reflexivity.
Qed.
End D.
