(** Concrete runs for examples: scripted peers answer the system calls. *)
From Verif.Model Require Import Base Sys.
From Verif.Proof Require Import Tac SysP FdioP SmtpIoP.

(** What the peers still have to say: blocks per descriptor.  An empty block means "nothing
    there at the moment", no block means end of file. *)
Definition world : Type := list (Z * list (list Z)).
Fixpoint pull (w : world) (fd n : Z) : ans * world :=
  match w with
  | [] => (mkans 0 0 [], [])
  | (f, q) :: w =>
    if f =? fd then
      match q with
      | [] => (mkans 0 0 [], (f, []) :: w)
      | [] :: q => (mkans (-1) EAGAIN [], (f, q) :: w)
      | x :: q =>
        if len x <=? n then (mkans (len x) 0 x, (f, q) :: w)
        else (mkans n 0 (firstn (Z.to_nat n) x), (f, skipn (Z.to_nat n) x :: q) :: w)
      end
    else let '(a, w) := pull w fd n in (a, (f, q) :: w)
  end.
Definition respond (w : world) (c : sys) : ans * world :=
  match c with
  | Read fd n => pull w fd n
  | Write fd b => (mkans (len b) 0 [], w)
  | Alloc n => (mkans 1 0 [], w)
  | Time => (mkans 1000000000 0 [], w)
  | Select _ r s _ => (mkans 1 0 (r ++ map (fun f => -1 - f) s), w)
  | _ => (mkans 0 0 [0], w)
  end.
Fixpoint play {R} (n : nat) (w : world) (p : prog R) : trace * outcome R :=
  match p with
  | Ret r => ([], Fin r)
  | Bad => ([], Wrong)
  | Halt => ([], Cut)
  | Do c k =>
    match n with
    | O => ([], Cut)
    | S n => let '(a, w) := respond w c in let '(t, o) := play n w (k a) in ((c, a) :: t, o)
    end
  end.
Lemma play_runs : forall R n w (p : prog R), runs p (fst (play n w p)) (snd (play n w p)).
Proof.
  intros R. induction n as [|n IH]; intros w p; destruct p as [r|c k| |]; cbn [play]; try (split; reflexivity); [left; split; reflexivity|].
  destruct (respond w c) as [a w']. specialize (IH w' (k a)). destruct (play n w' (k a)) as [t o]. right. exists a, t. split; auto.
Qed.

Definition clock_okb (e : event) : bool := match fst e with Time => (0 <=? ret (snd e)) && (ret (snd e) <=? 4611686018427387904) | _ => true end.
Lemma play_show : forall R n w (p : prog R) (Q : trace -> outcome R -> bool),
  (let '(tr, o) := play n w p in forallb sys_okb tr && forallb clock_okb tr && Q tr o) = true ->
  exists tr o, runs p tr o /\ fine tr /\ Q tr o = true.
Proof.
  intros R n w p Q H. pose proof (play_runs R n w p) as P. destruct (play n w p) as [tr o]. cbn [fst snd] in P. apply andb_prop in H as [H H3]. apply andb_prop in H as [H1 H2].
  exists tr, o. split; auto. split; auto. split; [apply legal_dec; auto|]. apply Forall_forall. intros e I. rewrite forallb_forall in H2. specialize (H2 e I). unfold clock_ok, clock_okb in *. destruct (fst e); auto. lia.
Qed.
Definition same (x y : list Z) : bool := if list_eq_dec Z.eq_dec x y then true else false.
Lemma same_true : forall x y, same x y = true -> x = y.
Proof. intros x y. unfold same. destruct (list_eq_dec Z.eq_dec x y); congruence. Qed.
Definition exits (x : Z) (o : outcome Z) : bool := match o with Fin y => y =? x | _ => false end.
Lemma exits_true : forall x o, exits x o = true -> o = Fin x.
Proof. intros x [y| |] H; cbn [exits] in H; try discriminate. apply Z.eqb_eq in H. congruence. Qed.

(** The same with scripted answers. *)
Fixpoint follow {R} (l : list ans) (p : prog R) : trace * outcome R :=
  match p with
  | Ret r => ([], Fin r)
  | Bad => ([], Wrong)
  | Halt => ([], Cut)
  | Do c k => match l with [] => ([], Cut) | a :: l => let '(t, o) := follow l (k a) in ((c, a) :: t, o) end
  end.
Lemma follow_runs : forall R l (p : prog R), runs p (fst (follow l p)) (snd (follow l p)).
Proof.
  intros R. induction l as [|a l IH]; intros p; destruct p as [r|c k| |]; cbn [follow]; try (split; reflexivity); [left; split; reflexivity|].
  specialize (IH (k a)). destruct (follow l (k a)) as [t o]. right. exists a, t. split; auto.
Qed.
Lemma follow_show : forall R l (p : prog R) (Q : trace -> outcome R -> bool),
  (let '(tr, o) := follow l p in forallb sys_okb tr && Q tr o) = true -> exists tr o, runs p tr o /\ legal tr /\ Q tr o = true.
Proof.
  intros R l p Q H. pose proof (follow_runs R l p) as P. destruct (follow l p) as [tr o]. cbn [fst snd] in P. apply andb_prop in H as [H1 H2].
  exists tr, o. split; auto. split; auto. apply legal_dec; auto.
Qed.
Definition ok (n : Z) : ans := mkans n 0 [].
Definition rd (l : list Z) : ans := mkans (len l) 0 l.
Definition ready (l : list Z) : ans := mkans 1 0 l.
Definition later : ans := mkans (-1) EAGAIN [].
