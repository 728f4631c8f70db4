(** The cleartext phase of delayed encryption: peer (pi, po), child (ci, co), control byte from
    the child on cc, acknowledgement on ck, signals on self. *)
From Verif.Model Require Import Base Sys.
From Verif.Spec Require Import Flow.

Section Clear.
Variables pi po ci co cc ck self : Z.
Definition clear_setup : Prop := NoDup [pi; po; ci; co; cc; ck; self] /\ Forall (fun f => 0 <= f < 1024) [pi; po; ci; co; cc; ck; self].
(** The self-pipe delivered the byte [x]: 67 for the end of the child, 65 for the timer. *)
Definition told (x : Z) (t : trace) : Prop := In x (got self t).
(** Fewer than 8192 bytes are on the way from [i] to [o]. *)
Definition room (i o : Z) (t : trace) : Prop := exists p, got i t = sent o t ++ p /\ len p < 8192.
(** Why a descriptor may be closed. *)
Definition clear_reason (f : Z) (t : trace) : Prop :=
  (f = pi /\ eof pi t) \/
  (f = po /\ (broken po t \/ (closed co t /\ got co t = sent po t))) \/
  (f = ci /\ (broken ci t \/ (closed pi t /\ got pi t = sent ci t) \/ told 67 t \/ told 65 t)) \/
  (f = co /\ (eof co t \/ told 65 t)) \/
  (f = cc /\ ((exists n a, In (Read cc n, a) t /\ ~ soft a) \/ told 65 t)) \/
  (f = ck /\ (sent ck t = [0] \/ told 65 t)).
Definition clear_close (t : trace) (e : event) : Prop :=
  match fst e with Shutdown f _ | Close f => clear_reason f t | _ => True end.
(** The control byte is asked for only when all of the child's output is with the peer; after
    it nothing is read any more and only the acknowledgement, one zero byte, is written. *)
Definition clear_boundary (t : trace) (e : event) : Prop :=
  match fst e with
  | Read f n => got cc t = [] /\ (f = cc -> n = 2 /\ ~ closed po t /\ got co t = sent po t /\
      (* and when waiting has just found it ready *)
      exists t0 m rd wr us a, t = t0 ++ [(Select m rd wr us, a)] /\ 0 < ret a /\ In cc rd /\ In cc (data a))
  | Write f b =>
    if f =? ck then b = [0] /\ got cc t = [0] /\ sent ck t = [] /\ ~ closed pi t /\ ~ closed po t else got cc t = []
  | Select _ _ _ _ => got cc t = []
  | _ => True
  end.
(** What is waited for. *)
Definition clear_select (t : trace) (e : event) : Prop :=
  match fst e with
  | Select n rd wr us =>
    us = None /\ In self rd /\
    (In pi rd <-> ~ closed pi t /\ ~ closed ci t /\ room pi ci t) /\
    (In co rd <-> ~ closed co t /\ room co po t) /\
    (In cc rd <-> ~ closed cc t /\ ~ closed po t /\ got co t = sent po t) /\
    (In po wr <-> ~ closed po t /\ got co t <> sent po t) /\
    (In ci wr <-> ~ closed ci t /\ got pi t <> sent ci t) /\
    (* end of file has been passed on, signals have been obeyed *)
    (closed pi t -> got pi t = sent ci t -> closed ci t) /\ (closed co t -> got co t = sent po t -> closed po t) /\
    (eof pi t -> closed pi t) /\ (eof co t -> closed co t) /\
    (told 67 t -> closed ci t) /\ (told 65 t -> closed ci t /\ closed co t /\ closed cc t /\ closed ck t)
  | _ => True
  end.
(** The order in which ready descriptors are served. *)
Definition clear_serve (t : trace) (e : event) : Prop :=
  forall t0 n rd wr us a, t = t0 ++ [(Select n rd wr us, a)] -> 0 < ret a ->
    let w f := In f wr /\ In (-1 - f) (data a) in
    let r f := In f rd /\ In f (data a) in
    (w po -> exists b, fst e = Write po b) /\
    (~ w po -> r co -> exists n, fst e = Read co n) /\
    (~ w po -> ~ r co -> r cc -> exists n, fst e = Read cc n) /\
    (~ w po -> ~ r co -> ~ r cc -> w ci -> exists b, fst e = Write ci b) /\
    (~ w po -> ~ r co -> ~ r cc -> ~ w ci -> r pi -> exists n, fst e = Read pi n) /\
    (~ w po -> ~ r co -> ~ r cc -> ~ w ci -> ~ r pi -> r self -> exists n, fst e = Read self n).
(** The phase ends with TLS ... *)
Definition clear_tls (t : trace) : Prop :=
  got cc t = [0] /\ sent ck t = [0] /\ got co t = sent po t /\ ~ closed pi t /\ ~ closed po t /\ closed cc t /\ closed ck t.
(** ... or without. *)
Definition clear_over (t : trace) : Prop :=
  (closed pi t /\ closed po t /\ closed ci t /\ closed co t) \/ broken po t \/ broken ci t \/
  (* failed read of the control descriptor; a wrong message there, or the peer is gone, or the
     acknowledgement failed *)
  (exists n a, In (Read cc n, a) t /\ ret a = -1 /\ ~ soft a) \/ got cc t <> [] \/
  (* another signal, or a second timer *)
  (exists x, told x t /\ x <> 67) \/ eof self t.
End Clear.
