(** Which system calls a program can make. *)
From Verif.Model Require Import Base Sys Io Str Buffer Stralloc.
From Verif.Spec Require Import Stream.
From Verif.Proof Require Import Tac SysP.

Definition calls {A} (P : sys -> Prop) (p : prog A) : Prop :=
  forall tr o, runs p tr o -> Forall (fun e => P (fst e)) tr.

Lemma calls_ret : forall A P (x : A), calls P (Ret x).
Proof. intros A P x tr o [-> _]. constructor. Qed.
Lemma calls_bad : forall A P, calls P (@Bad A).
Proof. intros A P tr o [-> _]. constructor. Qed.
Lemma calls_halt : forall A P, calls P (@Halt A).
Proof. intros A P tr o [-> _]. constructor. Qed.
Lemma calls_lift : forall A P (x : res A), calls P (lift x).
Proof. intros A P x. destruct x; [apply calls_ret|apply calls_bad|apply calls_halt]. Qed.
Lemma calls_do : forall A (P : sys -> Prop) c (k : ans -> prog A), P c -> (forall a, calls P (k a)) -> calls P (Do c k).
Proof.
  intros A P c k H K tr o R. destruct R as [[-> ->]|(a & tr' & -> & R)]; [constructor|].
  constructor; [exact H|]. exact (K a tr' o R).
Qed.
Lemma calls_sys1 : forall (P : sys -> Prop) c, P c -> calls P (sys1 c).
Proof. intros P c H. apply calls_do; auto. intros. apply calls_ret. Qed.
Lemma calls_bind : forall A B P (p : prog A) (f : A -> prog B), calls P p -> (forall x, calls P (f x)) -> calls P (pbind p f).
Proof.
  intros A B P p f H K tr o R. apply runs_bind in R as [(a & t1 & t2 & -> & R1 & R2)|[[R1 ->]|[R1 ->]]].
  - apply Forall_app. split; [exact (H _ _ R1)|exact (K _ _ _ R2)].
  - exact (H _ _ R1).
  - exact (H _ _ R1).
Qed.
Lemma calls_weak : forall A (P Q : sys -> Prop) (p : prog A), calls P p -> (forall c, P c -> Q c) -> calls Q p.
Proof. intros A P Q p H I tr o R. eapply Forall_impl; [|exact (H _ _ R)]. cbn beta. auto. Qed.

Lemma use_calls : forall A P (p : prog A) tr o, runs p tr o -> calls P p -> Forall (fun e => P (fst e)) tr.
Proof. intros A P p tr o R C. exact (C tr o R). Qed.

(** Structural proof search: splits binds, conditionals and matches. *)
Ltac calls1 :=
  match goal with
  | |- calls _ (Ret _) => apply calls_ret
  | |- calls _ Bad => apply calls_bad
  | |- calls _ Halt => apply calls_halt
  | |- calls _ (lift _) => apply calls_lift
  | |- calls _ (Do _ _) => apply calls_do; [|intro]
  | |- calls _ (sys1 _) => apply calls_sys1
  | |- calls _ (pbind _ _) => apply calls_bind; [|intro]
  | |- calls _ (if ?b then _ else _) => destruct b
  | |- calls _ (match ?x with _ => _ end) => destruct x
  end.

Definition reads (fd : Z) (c : sys) : Prop := exists n, c = Read fd n.
Definition writes (fd : Z) (c : sys) : Prop := (exists b, c = Write fd b) \/ c = Poll [(fd, 4)] (-1).
Definition allocs (c : sys) : Prop := exists n, c = Alloc n.

Lemma readall_calls : forall f fd x n, calls (reads fd) (readall f fd x n).
Proof. induction f; intros; cbn [readall]; repeat calls1; auto. eexists; eauto. Qed.
Lemma writeall_calls : forall f fd x n, calls (writes fd) (writeall f fd x n).
Proof. induction f; intros; cbn [writeall]; repeat calls1; auto; [left; eexists; eauto|right; auto]. Qed.
Lemma pipe_write_calls : forall f fd x n, calls (writes fd) (pipe_write f fd x n).
Proof. intros. unfold pipe_write. repeat calls1; apply writeall_calls. Qed.
Lemma pipe_readall_calls : forall f fd x n, calls (reads fd) (pipe_readall f fd x n).
Proof. intros. unfold pipe_readall. repeat calls1; apply readall_calls. Qed.
Lemma pipe_readmax_calls : forall f fd x n, calls (reads fd) (pipe_readmax f fd x n).
Proof. intros. unfold pipe_readmax. repeat calls1; apply readall_calls. Qed.
Lemma pipe_readalloc_calls : forall f fd, calls (fun c => reads fd c \/ allocs c) (pipe_readalloc f fd).
Proof.
  intros. unfold pipe_readalloc. repeat calls1; try (right; eexists; eauto; fail);
    (eapply calls_weak; [apply readall_calls|]; cbn beta; auto).
Qed.

Lemma ready_calls : forall r n, calls allocs (stralloc_readyplus r n).
Proof. intros. unfold stralloc_readyplus. repeat calls1; eexists; eauto. Qed.
Lemma catb_calls : forall r x n, calls allocs (stralloc_catb r x n).
Proof. intros. unfold stralloc_catb, stralloc_store. repeat calls1; apply ready_calls. Qed.
Lemma cats_calls : forall r x, calls allocs (stralloc_cats r x).
Proof. intros. unfold stralloc_cats. repeat calls1; apply catb_calls. Qed.

(** Consequences for the byte streams. *)
Lemma sent_none : forall fd (tr : trace) P, Forall (fun e => P (fst e)) tr -> (forall b, ~ P (Write fd b)) -> sent fd tr = [].
Proof.
  intros fd tr P F N. induction F as [|[c a] tr H F IH]; [reflexivity|]. cbn [sent fst] in *. destruct c; auto.
  destruct (Z.eqb_spec fd0 fd); [subst; destruct (N _ H)|auto].
Qed.
Lemma got_none : forall fd (tr : trace) P, Forall (fun e => P (fst e)) tr -> (forall n, ~ P (Read fd n)) -> got fd tr = [].
Proof.
  intros fd tr P F N. induction F as [|[c a] tr H F IH]; [reflexivity|]. cbn [got fst] in *. destruct c; auto.
  destruct (Z.eqb_spec fd0 fd); [subst; destruct (N _ H)|auto].
Qed.
Lemma reads_nowrite : forall fd g b, ~ reads fd (Write g b).
Proof. intros fd g b [n E]. discriminate. Qed.
Lemma writes_noread : forall fd g n, ~ writes fd (Read g n).
Proof. intros fd g n [[b E]|E]; discriminate. Qed.
Lemma allocs_nowrite : forall g b, ~ allocs (Write g b).
Proof. intros g b [n E]. discriminate. Qed.
Lemma allocs_noread : forall g b, ~ allocs (Read g b).
Proof. intros g b [n E]. discriminate. Qed.

(** The errno of a failed transfer was reported by one of its calls, or is the value for end
    of file. *)
Definition reported (e : Z) (tr : trace) : Prop := e = 32 \/ exists x, In x tr /\ err (snd x) = e.
Lemma reported_l : forall e a b, reported e a -> reported e (a ++ b).
Proof. intros e a b [H|(x & I & H)]; [left; auto|right; exists x; split; auto; apply in_or_app; auto]. Qed.
Lemma reported_r : forall e a b, reported e b -> reported e (a ++ b).
Proof. intros e a b [H|(x & I & H)]; [left; auto|right; exists x; split; auto; apply in_or_app; auto]. Qed.

Lemma readall_err : forall f fd x n tr e x', runs (readall f fd x n) tr (Fin (Fail e, x')) -> reported e tr.
Proof.
  induction f; intros fd x n tr e x' R; cbn [readall] in R; [destruct R; discriminate|].
  destruct (0 <? n); [|destruct R; discriminate]. destruct (len x <? _) in R; [destruct R; discriminate|].
  destruct R as [[_ R]|(a & t & -> & R)]; [discriminate|].
  destruct (ret a <=? 0).
  - destruct (transient _).
    + apply (reported_r e [_]). eapply IHf; eauto.
    + destruct R as [-> R]. injection R as -> ->. destruct (Z.eqb_spec (ret a) 0); [left; reflexivity|]. right. exists (Read fd (if CHUNK <? n then CHUNK else n), a). cbn. auto.
  - apply runs_bind in R as [([c y] & t1 & t2 & -> & R1 & R2)|[[R1 E]|[R1 E]]]; try discriminate.
    destruct R2 as [-> R2]. injection R2 as <- ->. apply (reported_r e [_]). apply reported_l. eapply IHf; eauto.
Qed.
Lemma writeall_err : forall f fd x n tr e, runs (writeall f fd x n) tr (Fin (Fail e)) -> reported e tr.
Proof.
  induction f; intros fd x n tr e R; cbn [writeall] in R; [destruct R; discriminate|].
  destruct (0 <? n); [|destruct R; discriminate]. destruct (len x <? _) in R; [destruct R; discriminate|].
  destruct R as [[_ R]|(a & t & -> & R)]; [discriminate|].
  destruct (ret a <=? 0).
  - destruct (transient _).
    + destruct R as [[_ R]|(p & t' & -> & R)]; [discriminate|]. apply (reported_r e [_]).
      destruct (_ && _) in R; [|apply (reported_r e [_]); eapply IHf; eauto].
      destruct R as [-> R]. injection R as ->. right. eexists. split; [left; reflexivity|reflexivity].
    + destruct R as [-> R]. injection R as ->. destruct (Z.eqb_spec (ret a) 0); [left; reflexivity|]. right. eexists. split; [left; reflexivity|reflexivity].
  - apply (reported_r e [_]). eapply IHf; eauto.
Qed.
Lemma pipe_write_err : forall f fd x n tr e, runs (pipe_write f fd x n) tr (Fin (Fail e)) -> 0 <= n -> reported e tr.
Proof.
  intros f fd x n tr e R N. unfold pipe_write in R. destruct (Z.ltb_spec n 0); [lia|].
  apply runs_bind in R as [(c & t1 & t2 & -> & R1 & R2)|[[R1 E]|[R1 E]]]; try discriminate.
  destruct c as [|e']; [apply reported_r; eapply writeall_err; eauto|].
  destruct R2 as [-> R2]. injection R2 as ->. apply reported_l. eapply writeall_err; eauto.
Qed.
Lemma readalloc_err : forall f fd tr e, runs (pipe_readalloc f fd) tr (Fin (inl e)) ->
  reported e tr \/ exists v, e = toint v.
Proof.
  intros f fd tr e R. unfold pipe_readalloc in R.
  apply runs_bind in R as [([c num] & t1 & t2 & -> & R1 & R2)|[[R1 E]|[R1 E]]]; try discriminate.
  destruct c as [|e']; [|destruct R2 as [-> R2]; injection R2 as ->; left; apply reported_l; eapply readall_err; eauto].
  destruct (uint64_unpack num) as [l| |]; cbn [lift pbind] in R2; try (destruct R2; discriminate).
  destruct (l <? 0).
  - destruct (s64 (- l)) as [v| |]; cbn [lift pbind] in R2; try (destruct R2; discriminate).
    destruct R2 as [-> R2]. injection R2 as ->. right. eauto.
  - left. apply reported_r. destruct R2 as [[_ R2]|(a & t & -> & R2)]; [discriminate|].
    destruct (ret a =? 0).
    + destruct R2 as [-> R2]. injection R2 as ->. right. eexists. split; [left; reflexivity|reflexivity].
    + apply (reported_r e [_]). apply runs_bind in R2 as [([c y] & u1 & u2 & -> & S1 & S2)|[[S1 E]|[S1 E]]]; try discriminate.
      destruct c as [|e']; destruct S2 as [-> S2]; [discriminate|]. injection S2 as ->. apply reported_l. eapply readall_err; eauto.
Qed.
