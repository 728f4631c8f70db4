(** Specification vocabulary for loops that must not spin: what the world does that justifies
    another round. *)
From Verif.Model Require Import Base Sys.

(** Bytes were transferred. *)
Definition transferred (e : event) : bool :=
  match e with (Read _ _, a) | (Write _ _, a) => 0 <? ret a | _ => false end.
(** The kernel asks to try again: EINTR (4), EAGAIN (11). *)
Definition postponed (e : event) : bool :=
  match e with (Read _ _, a) | (Write _ _, a) => (ret a <? 0) && ((err a =? 4) || (err a =? 11)) | _ => false end.
(** A wait ends although none of the descriptors asked about is ready: it was interrupted, timed
    out, or the kernel is wrong.  Readable descriptors f are listed as f, writable ones as -1 - f. *)
Definition woken (e : event) : bool :=
  match e with
  | (Select _ rd wr _, a) =>
    (ret a <=? 0) || negb (existsb (fun f => existsb (Z.eqb f) (data a)) rd || existsb (fun f => existsb (Z.eqb (-1 - f)) (data a)) wr)
  | _ => false
  end.
(** The number of calls that give a reason to go on. *)
Definition reasons (tr : trace) : nat := length (filter (fun e => transferred e || postponed e || woken e) tr).
(** The number of descriptors that are open among some variables (-1: closed). *)
Definition opened (l : list Z) : nat := length (filter (fun v => negb (v =? -1)) l).
(** Descriptors that select() can be asked about, or closed. *)
Definition selectable (l : list Z) : Prop := Forall (fun v => v = -1 \/ 0 <= v < 1024) l.
