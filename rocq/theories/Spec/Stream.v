(** Specification vocabulary for descriptor I/O. *)
From Verif.Model Require Import Base Sys.

(** The kernel reported end of file or an error that is not a retry condition
    (4 = EINTR, 11 = EAGAIN). *)
Definition hard (e : event) : Prop :=
  match e with
  | (Read _ _, a) | (Write _ _, a) => ret a = 0 \/ (ret a < 0 /\ err a <> 4 /\ err a <> 11)
  | (Poll _ _, a) => ret a = -1 /\ err a <> 4
  | (Alloc _, a) => ret a = 0
  | _ => False
  end.

(** The last event, and only it, is such a report. *)
Definition ends_hard (tr : trace) : Prop :=
  exists t e, tr = t ++ [e] /\ hard e /\ Forall (fun x => ~ hard x) t.

Definition quiet (tr : trace) : Prop := Forall (fun x => ~ hard x) tr.

(** Little-endian representation with [n] bytes. *)
Fixpoint le (n : nat) (v : Z) : list Z :=
  match n with O => [] | S n' => v mod 256 :: le n' (v / 256) end.
Fixpoint leval (l : list Z) : Z :=
  match l with [] => 0 | b :: t => b + 256 * leval t end.

(** A framed message: length as 8 little-endian bytes, then the bytes. *)
Definition frame (m : list Z) : list Z := le 8 (len m) ++ m.
Definition errframe (e : Z) : list Z := le 8 (2 ^ 64 - e).

Definition is_prefix (p l : list Z) : Prop := exists u, l = p ++ u.
