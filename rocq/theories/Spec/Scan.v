(** The program and the wrapper side by side: select looks at one descriptor after the other while the program
    goes on writing. *)
From Verif.Model Require Import Base Sys.
From Verif.Spec Require Import Flow.

(** What the program has written so far to its output and to its control pipe, and the moment at which the n-th
    call of the wrapper looks at a descriptor. *)
Record timing := mktiming { output : nat -> list Z; control : nat -> list Z; looks : nat -> Z -> nat }.

Section Scan.
Variables co cc : Z.
Variable T : timing.
Definition grows (f : nat -> list Z) : Prop := forall k k', (k <= k')%nat -> exists u, f k' = f k ++ u.
(** A pipe gives its bytes in order.  Waiting: the output is not reported only if there is nothing to read; the
    control pipe is reported only if there is something to read or nothing will ever come. *)
Definition pipes_answer (t : trace) (e : event) : Prop :=
  let n := length t in let a := snd e in
  match fst e with
  | Read f _ =>
    (f = co -> exists u, output T (looks T n co) = got co t ++ data a ++ u) /\
    (f = cc -> exists u, control T (looks T n cc) = got cc t ++ data a ++ u)
  | Select _ rd _ _ =>
    0 < ret a ->
    (In co rd -> ~ In co (data a) -> got co t = output T (looks T n co)) /\
    (In cc rd -> In cc (data a) -> got cc t <> control T (looks T n cc) \/ forall k, (looks T n cc <= k)%nat -> control T k = got cc t)
  | _ => True
  end.
Definition side_by_side (tr : trace) : Prop :=
  grows (output T) /\ grows (control T) /\ (forall n m f g, (n < m)%nat -> (looks T n f <= looks T m g)%nat) /\ always pipes_answer tr.
(** The program: the reply before the control byte. *)
Definition replies (reply : list Z) : Prop := forall k, control T k <> [] -> exists u, output T k = reply ++ u.
(** The order in which one call looks at the descriptors. *)
Definition control_first : Prop := forall n, (looks T n cc <= looks T n co)%nat.
Definition at_once : Prop := forall n f g, looks T n f = looks T n g.
Definition ascending : Prop := forall n f g, f < g -> (looks T n f <= looks T n g)%nat.
End Scan.
