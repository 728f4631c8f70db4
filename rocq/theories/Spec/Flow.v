(** Byte streams between descriptors, seen in the system calls of a process. *)
From Verif.Model Require Import Base Sys.

(** Every call is in order with respect to the calls before it. *)
Definition always (OK : trace -> event -> Prop) (tr : trace) : Prop :=
  forall t1 e t2, tr = t1 ++ e :: t2 -> OK t1 e.

(** From [i] to [o] behind the bytes [h], never more than [N] bytes on the way: a write offers
    exactly what is on the way, a read asks for exactly the free space. *)
Definition conveys (h : list Z) (i o N : Z) (t : trace) (e : event) : Prop :=
  match fst e with
  | Write f b => f = o -> b <> [] /\ h ++ got i t = sent o t ++ b
  | Read f n => f = i -> 0 < n /\ exists p, h ++ got i t = sent o t ++ p /\ n = N - len p
  | _ => True
  end.
Definition conduit (h : list Z) (i o N : Z) (tr : trace) : Prop :=
  always (conveys h i o N) tr /\ exists p, h ++ got i tr = sent o tr ++ p /\ len p <= N.

Definition soft (a : ans) : Prop := ret a = -1 /\ (err a = EINTR \/ err a = EAGAIN).
(** End of file or an error was seen on a descriptor read from / written to. *)
Definition eof (fd : Z) (t : trace) : Prop := exists n a, In (Read fd n, a) t /\ ret a <= 0 /\ ~ soft a.
Definition broken (fd : Z) (t : trace) : Prop := exists b a, In (Write fd b, a) t /\ ret a <= 0 /\ ~ soft a.
Definition closed (fd : Z) (t : trace) : Prop := exists a, In (Close fd, a) t.
(** Select reported [fd] readable. *)
Definition reported (fd : Z) (t : trace) : Prop :=
  exists n rd wr us a, In (Select n rd wr us, a) t /\ 0 < ret a /\ In fd (data a).

(** Descriptors are not used after their close, and closed at most once. *)
Definition usable (t : trace) (e : event) : Prop :=
  match fst e with
  | Read f _ | Write f _ | Shutdown f _ | Close f => ~ closed f t
  | _ => True
  end.

(** ** The TCP relay between (0, 1) and (ri, ro) *)
Section Tcp.
Variables ri ro self : Z.
Variable h : list Z.
(** Five descriptors, small enough for select; the header fits into the buffer. *)
Definition tcp_setup : Prop :=
  NoDup [0; 1; ri; ro; self] /\ (0 <= ri < 1024 /\ 0 <= ro < 1024 /\ 0 <= self < 1024) /\ len h <= 8192.
(** Why a descriptor may be closed. *)
Definition tcp_close (t : trace) (e : event) : Prop :=
  match fst e with
  | Shutdown f _ | Close f =>
    (f = 0 /\ eof 0 t) \/
    (f = 1 /\ (broken 1 t \/ (eof ri t /\ got ri t = sent 1 t))) \/
    (f = ri /\ (eof ri t \/ broken 1 t \/ broken ro t \/ reported self t)) \/
    (f = ro /\ (broken ro t \/ (eof 0 t /\ h ++ got 0 t = sent ro t) \/ broken 1 t \/ reported self t))
  | _ => True
  end.
(** What is waited for: room and data in each direction that is alive, and signals; before
    that end of file is passed on once everything is delivered. *)
Definition tcp_select (t : trace) (e : event) : Prop :=
  match fst e with
  | Select n rd wr us =>
    us = None /\ In self rd /\
    (In 0 rd <-> ~ closed 0 t /\ ~ closed ro t /\ exists p, h ++ got 0 t = sent ro t ++ p /\ len p < 8192) /\
    (In ri rd <-> ~ closed ri t /\ ~ closed 1 t /\ exists p, got ri t = sent 1 t ++ p /\ len p < 8192) /\
    (In ro wr <-> ~ closed ro t /\ h ++ got 0 t <> sent ro t) /\
    (In 1 wr <-> ~ closed 1 t /\ got ri t <> sent 1 t) /\
    (eof 0 t -> h ++ got 0 t = sent ro t -> closed ro t) /\ (eof ri t -> got ri t = sent 1 t -> closed 1 t)
  | _ => True
  end.
(** How the relay ends: both directions at their end, or a failed write, or a signal. *)
Definition tcp_end (t : trace) : Prop :=
  (eof 0 t /\ eof ri t /\ h ++ got 0 t = sent ro t /\ got ri t = sent 1 t) \/ broken ro t \/ broken 1 t \/ reported self t.
(** After waiting, a descriptor reported ready is served: writing before reading. *)
Definition tcp_serve (t : trace) (e : event) : Prop :=
  forall t0 n rd wr us a, t = t0 ++ [(Select n rd wr us, a)] -> 0 < ret a ->
    let w f := In f wr /\ In (-1 - f) (data a) in
    let r f := In f rd /\ In f (data a) in
    (w ro -> exists b, fst e = Write ro b) /\
    (~ w ro -> w 1 -> exists b, fst e = Write 1 b) /\
    (~ w ro -> ~ w 1 -> r 0 -> exists n, fst e = Read 0 n) /\
    (~ w ro -> ~ w 1 -> ~ r 0 -> r ri -> exists n, fst e = Read ri n).
End Tcp.
