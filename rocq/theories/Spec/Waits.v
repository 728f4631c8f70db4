(** Where a program stands after some calls, and two processes that are connected by pipes. *)
From Verif.Model Require Import Base Sys.
From Verif.Spec Require Import Stream.

(** After the calls [tr] the next call of [p] is [c]. *)
Fixpoint faces {R} (p : prog R) (tr : trace) (c : sys) : Prop :=
  match p with
  | Do c' k => (tr = [] /\ c' = c) \/ exists a t, tr = (c', a) :: t /\ faces (k a) t c
  | _ => False
  end.

(** The next call reads from descriptor [fd]. *)
Definition reads_next {R} (p : prog R) (tr : trace) (fd : Z) : Prop := exists n, faces p tr (Read fd n).
(** The next call writes to descriptor [fd], or waits until that is possible. *)
Definition writes_next {R} (p : prog R) (tr : trace) (fd : Z) : Prop :=
  (exists b, faces p tr (Write fd b)) \/ faces p tr (Poll [(fd, 4)] (-1)).

(** A pipe: [w] was written to it, [r] was read from it, [x] is still in it. *)
Definition holds (w r x : list Z) : Prop := w = r ++ x.
(** A process cannot go on: it reads from an empty pipe, or writes to one that holds as much
    as it can. *)
Definition blocked {R} (capacity : Z) (p : prog R) (tr : trace) (input : Z) (inpipe : list Z) (output : Z) (outpipe : list Z) : Prop :=
  (reads_next p tr input /\ inpipe = []) \/ (writes_next p tr output /\ capacity <= len outpipe).
