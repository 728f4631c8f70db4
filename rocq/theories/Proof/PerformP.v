(** Concrete runs for examples: an operating system with a state. *)
From Verif.Model Require Import Base Sys.
From Verif.Proof Require Import Tac SysP FdioP SmtpIoP PlayP.

Fixpoint perform {S R} (f : S -> sys -> ans * S) (n : nat) (s : S) (p : prog R) : trace * outcome R :=
  match p with
  | Ret r => ([], Fin r)
  | Bad => ([], Wrong)
  | Halt => ([], Cut)
  | Do c k =>
    match n with
    | O => ([], Cut)
    | Datatypes.S n => let '(a, s) := f s c in let '(t, o) := perform f n s (k a) in ((c, a) :: t, o)
    end
  end.
Lemma perform_runs : forall S R (f : S -> sys -> ans * S) n s (p : prog R), runs p (fst (perform f n s p)) (snd (perform f n s p)).
Proof.
  intros S R f. induction n as [|n IH]; intros s p; destruct p as [r|c k| |]; cbn [perform]; try (split; reflexivity); [left; split; reflexivity|].
  destruct (f s c) as [a s']. specialize (IH s' (k a)). destruct (perform f n s' (k a)) as [t o]. right. exists a, t. split; auto.
Qed.
Lemma perform_show : forall S R (f : S -> sys -> ans * S) n s (p : prog R) (Q : trace -> outcome R -> bool),
  (let '(tr, o) := perform f n s p in forallb sys_okb tr && Q tr o) = true -> exists tr o, runs p tr o /\ legal tr /\ Q tr o = true.
Proof.
  intros S R f n s p Q H. pose proof (perform_runs S R f n s p) as P. destruct (perform f n s p) as [tr o]. cbn [fst snd] in P. apply andb_prop in H as [H1 H2].
  exists tr, o. split; auto. split; auto. apply legal_dec; auto.
Qed.
