(** Histories: which descriptors are open, what a further call changes. *)
From Verif.Model Require Import Base Sys Io Fdio Relay.
From Verif.Spec Require Import Waiting Flow.
From Verif.Proof Require Import Tac SysP FdioP WpP TcpP.

Definition closedb (f : Z) (t : trace) : bool := existsb (fun e => match fst e with Close g => g =? f | _ => false end) t.
Lemma closedb_iff : forall f t, closedb f t = true <-> closed f t.
Proof.
  intros f t. unfold closedb, closed. rewrite existsb_exists. split.
  - intros ([c a] & I & H). cbn [fst] in H. destruct c; try discriminate. exists a. apply Z.eqb_eq in H. subst. auto.
  - intros (a & I). exists (Close f, a). split; auto. cbn. apply Z.eqb_refl.
Qed.
(** The value of the variable of descriptor [f]. *)
Definition cur (f : Z) (t : trace) : Z := if closedb f t then -1 else f.
Lemma cur_open : forall f t, 0 <= f -> (open (cur f t) = true <-> ~ closed f t).
Proof. intros f t F. unfold cur, open. rewrite <- closedb_iff. destruct (closedb f t); split; intros; try congruence; try discriminate; lia. Qed.
Lemma cur_shut : forall f t, 0 <= f -> (open (cur f t) = false <-> closed f t).
Proof. intros f t F. unfold cur, open. rewrite <- closedb_iff. destruct (closedb f t); split; intros; try congruence; try discriminate; lia. Qed.
Lemma cur_is : forall f t, ~ closed f t -> cur f t = f.
Proof. intros f t N. unfold cur. destruct (closedb f t) eqn:E; auto. apply closedb_iff in E. contradiction. Qed.
Lemma cur_gone : forall f t, closed f t -> cur f t = -1.
Proof. intros f t N. unfold cur. apply closedb_iff in N. rewrite N. auto. Qed.
Lemma cur_snoc : forall f t c a, c <> Close f -> cur f (t ++ [(c, a)]) = cur f t.
Proof.
  intros f t c a N. unfold cur, closedb. rewrite existsb_app. cbn [existsb fst]. rewrite orb_false_r.
  replace (match c with Close g => g =? f | _ => false end) with false; [rewrite orb_false_r; auto|]. destruct c; auto. symmetry. apply Z.eqb_neq. congruence.
Qed.
Lemma cur_close : forall f t a, cur f (t ++ [(Close f, a)]) = -1.
Proof. intros. apply cur_gone. apply closed_app. right. exists a. left. auto. Qed.
Lemma closed_snoc : forall f t c a, c <> Close f -> (closed f (t ++ [(c, a)]) <-> closed f t).
Proof. intros f t c a N. rewrite closed_app, closed_one. tauto. Qed.
Lemma closed_mono : forall f t u, closed f t -> closed f (t ++ u).
Proof. intros. apply closed_app. auto. Qed.

(** Calls that move no data, close nothing and meet no end of file. *)
Definition neutral (c : sys) (a : ans) : Prop :=
  match c with
  | Read _ _ => data a = [] /\ soft a
  | Write _ _ => ret a <= 0
  | Close _ => False
  | _ => True
  end.
Lemma neutral_got : forall c a f t, neutral c a -> got f (t ++ [(c, a)]) = got f t.
Proof. intros c a f t N. rewrite got_app. destruct c; cbn [got]; rewrite ?app_nil_r; auto. cbn [neutral] in N. destruct N as [-> _]. destruct (_ =? f); cbn [app]; apply app_nil_r. Qed.
Lemma neutral_sent : forall c a f t, neutral c a -> sent f (t ++ [(c, a)]) = sent f t.
Proof.
  intros c a f t N. rewrite sent_app. destruct c; cbn [sent]; rewrite ?app_nil_r; auto. cbn [neutral] in N. destruct (_ =? f); [|apply app_nil_r].
  replace (Z.to_nat (ret a)) with 0%nat by lia. cbn [firstn app]. apply app_nil_r.
Qed.
Lemma neutral_close : forall c a f, neutral c a -> c <> Close f.
Proof. intros c a f N ->. exact N. Qed.
Lemma eof_snoc' : forall f t c a, eof f (t ++ [(c, a)]) -> eof f t \/ ((exists n, c = Read f n) /\ ret a <= 0 /\ ~ soft a).
Proof. intros f t c a (n & b & I & L & S). apply in_app_or in I as [I|[I|[]]]; [left; exists n, b; auto|]. injection I as -> ->. right. eauto. Qed.
Lemma neutral_eof : forall c a f t, neutral c a -> eof f (t ++ [(c, a)]) -> eof f t.
Proof. intros c a f t N E. apply eof_snoc' in E as [E|((n & ->) & _ & S)]; auto. cbn [neutral] in N. tauto. Qed.
Lemma close_got : forall f g t a, got f (t ++ [(Close g, a)]) = got f t.
Proof. intros. rewrite got_app. cbn [got]. apply app_nil_r. Qed.
Lemma close_sent : forall f g t a, sent f (t ++ [(Close g, a)]) = sent f t.
Proof. intros. rewrite sent_app. cbn [sent]. apply app_nil_r. Qed.
Lemma close_eof : forall f g t a, eof f (t ++ [(Close g, a)]) -> eof f t.
Proof. intros f g t a E. apply eof_snoc' in E as [E|((n & E) & _)]; auto. discriminate. Qed.
Lemma write_got : forall f g b t a, got f (t ++ [(Write g b, a)]) = got f t.
Proof. intros. rewrite got_app. cbn [got]. apply app_nil_r. Qed.
Lemma write_eof : forall f g b t a, eof f (t ++ [(Write g b, a)]) -> eof f t.
Proof. intros f g b t a E. apply eof_snoc' in E as [E|((n & E) & _)]; auto. discriminate. Qed.
Lemma read_soft : forall f n a, sys_ok (Read f n, a) -> again (ret a) (err a) = true -> neutral (Read f n) a.
Proof.
  intros f n a S A. pose proof (again_ret _ _ A) as R. split; [apply (read_none f n); auto; lia|]. unfold again in A. unfold soft. lia.
Qed.
Lemma write_soft : forall f b a, again (ret a) (err a) = true -> neutral (Write f b) a.
Proof. intros f b a A. apply again_ret in A. cbn. lia. Qed.
(** A failed read: no data, end of file for its descriptor only. *)
Lemma read_end_got : forall f n a g t, sys_ok (Read f n, a) -> ret a <= 0 -> got g (t ++ [(Read f n, a)]) = got g t.
Proof. intros f n a g t S L. rewrite got_app. cbn [got]. rewrite (read_none f n a S L). destruct (f =? g); cbn [app]; apply app_nil_r. Qed.
Lemma read_sent : forall f n a g t, sent g (t ++ [(Read f n, a)]) = sent g t.
Proof. intros. rewrite sent_app. cbn [sent]. apply app_nil_r. Qed.
Lemma read_eof_other : forall f n a g t, g <> f -> eof g (t ++ [(Read f n, a)]) -> eof g t.
Proof. intros f n a g t N E. apply eof_snoc' in E as [E|((m & E) & _)]; auto. congruence. Qed.
Lemma read_eof_data : forall f n a g t, 0 < ret a -> eof g (t ++ [(Read f n, a)]) -> eof g t.
Proof. intros f n a g t N E. apply eof_snoc' in E as [E|((m & E) & L & _)]; auto. lia. Qed.
Lemma in_snoc : forall (t : trace) e, In e (t ++ [e]).
Proof. intros. apply in_or_app. right. left. auto. Qed.
Lemma pair_snoc : forall (t : trace) x y, t ++ [x; y] = (t ++ [x]) ++ [y].
Proof. intros. rewrite <- app_assoc. reflexivity. Qed.

Lemma ready_r : forall a c f, wready a (c, f, POLLIN) = true <-> c = true /\ 0 < ret a /\ In f (data a).
Proof. intros a c f. unfold wready. change (POLLIN =? POLLIN) with true. cbv iota. rewrite !andb_true_iff, Z.ltb_lt. destruct (in_dec Z.eq_dec f (data a)); [tauto|]. split; [intros []; discriminate|tauto]. Qed.
Lemma ready_w : forall a c f, wready a (c, f, POLLOUT) = true <-> c = true /\ 0 < ret a /\ In (-1 - f) (data a).
Proof. intros a c f. unfold wready. change (POLLOUT =? POLLIN) with false. cbv iota. rewrite !andb_true_iff, Z.ltb_lt. destruct (in_dec Z.eq_dec (-1 - f) (data a)); [tauto|]. split; [intros []; discriminate|tauto]. Qed.
