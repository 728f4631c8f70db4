(** Specification vocabulary for waiting with a deadline and for polling. *)
From Verif.Model Require Import Base Sys.

(** A round of waiting without result: the clock shows a time before the deadline, select
    waits at most until the deadline, and it is interrupted or [fd] is not ready.
    [mark] is what the answer of select contains if it is ready. *)
Inductive waited (mark deadline : Z) (sel : Z -> sys) : trace -> Prop :=
| waited_none : waited mark deadline sel []
| waited_more : forall c tm s tr, ret c < deadline -> tm = Z.min (deadline - ret c) 1000000000 ->
    (ret s = -1 /\ err s = EINTR) \/ (ret s <> -1 /\ ~ In mark (data s)) ->
    waited mark deadline sel tr -> waited mark deadline sel ((Time, c) :: (sel tm, s) :: tr).

(** Number of times a system call occurs in a trace. *)
Definition times (P : sys -> bool) (tr : trace) : nat := length (filter (fun e : event => P (fst e)) tr).

(** Polling: the entry (fd, events) asks for reading (bit 0) or writing (bit 2). *)
Definition asks (bit : Z) (e : Z * Z) : bool := (0 <=? fst e) && Z.testbit (snd e) bit.
Definition ready_for (a : ans) (e : Z * Z) : Z * Z :=
  (if asks 0 e && (if in_dec Z.eq_dec (fst e) (data a) then true else false) then 1 else 0,
   if asks 2 e && (if in_dec Z.eq_dec (-1 - fst e) (data a) then true else false) then 1 else 0).
(** revents of an entry and number of flags in all of them *)
Definition reported (a : ans) (e : Z * Z) : Z := fst (ready_for a e) + 4 * snd (ready_for a e).
Fixpoint flags (a : ans) (x : list (Z * Z)) : Z :=
  match x with [] => 0 | e :: x' => fst (ready_for a e) + snd (ready_for a e) + flags a x' end.
