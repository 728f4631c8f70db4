(** Why tlswrapper gives up with exit status 111 before its program has ended. *)
From Verif.Model Require Import Base Sys.
From Verif.Spec Require Import Stream Restrict Process Blame.

(** a call was answered in some way *)
Definition answering (nm args dat : list Z) (P : ans -> Prop) (u : trace) : Prop := exists a, u = [(Other nm args dat, a)] /\ P a.
(** an end of a pipe that was made: 0 for reading, 1 for writing *)
Definition pipe_end (k : nat) (fd : Z) (t : trace) : Prop :=
  exists a, In (Other (bs "pipe") [] [], a) t /\ ret a <> -1 /\ nth k (data a) 0 = fd.
(** Writing to or reading from [fd] failed for good. *)
Definition unwritten (fd : Z) (u : trace) : Prop :=
  exists e, u = [e] /\ hard e /\ ((exists b, fst e = Write fd b) \/ exists w, fst e = Poll [(fd, w)] (-1)).
Definition unread (fd : Z) (u : trace) : Prop :=
  exists e, u = [e] /\ hard e /\ ((exists n, fst e = Read fd n) \/ exists n, fst e = Alloc n).
(** The other side sent an error number instead of data. *)
Definition declined (fd : Z) (u : trace) : Prop := exists v, 0 < v < 2 ^ 63 /\ got fd u = errframe v.

(** No signal handler, no pipe, no process, no jail; with a delayed start descriptor 5 or 6 in use or /dev/null not
    there; the program or the key process cannot be written to (or the former has been given up already: -1); the trust
    anchor cannot be had; no name in the client's certificate although one is needed. *)
Definition wrapper_gives_up (nojail delayed usercert anchored : bool) (account : option (list Z)) (dir : list Z) (t : trace) : Prop :=
  (exists n, within (answering (bs "sigaction") [n] [] (fun a => ret a = -1)) t) \/
  within (failing (bs "pipe")) t \/ within (failing (bs "fork")) t \/
  (delayed = true /\
   ((exists fd, (fd = 5 \/ fd = 6) /\ within (answering (bs "fstat") [fd] [] (fun a => ret a <> -1)) t) \/
    within (answering (bs "open") [] (bs "/dev/null") (fun a => ret a = -1)) t)) \/
  (nojail = false /\ within (unconfined account dir) t) \/
  (exists fd, (pipe_end 1 fd t \/ (delayed = false /\ fd = -1)) /\ within (unwritten fd) t) \/
  (anchored = true /\
   ((exists fd, pipe_end 0 fd t /\ (within (unread fd) t \/ within (declined fd) t)) \/
    exists pem, within (answering (bs "tls_pubcrt_parse") [] pem (fun a => ret a = 0)) t)) \/
  (usercert = true /\ delayed = false /\ within (answering (bs "clientcrt") [] [] (fun a => ret a = 0)) t).
