(** Why a parallel connect to several addresses fails. *)
From Verif.Model Require Import Base Sys Fdio Conn.

(** a socket is told to connect to address and port [d]; the kernel is asked whether it has a peer *)
Definition tries (fd : Z) (d : list Z) : sys := Other (bs "connect") [fd] d.
Definition peer (fd : Z) : sys := Other (bs "getpeername") [fd] [].
(** no socket got a connection *)
Definition unlucky (t : trace) : Prop :=
  forall fd d a, In (tries fd d, a) t -> ret a <> 0 /\ forall g, In (peer fd, g) t -> ret g = -1.
(** [secs] seconds have passed since the first look at the clock, in whole milliseconds *)
Definition lapsed (secs : Z) (t : trace) : Prop :=
  exists t1 a t2 b t3, t = t1 ++ (Time, a) :: t2 ++ (Time, b) :: t3 /\ Forall (fun e => fst e <> Time) t1 /\
    ret a / 1000 + 1000 * secs <= ret b / 1000.
(** waiting is impossible: select fails (other than by a signal), or a descriptor is too large for it *)
Definition unable (t : trace) : Prop :=
  (exists n r w us a, In (Select n r w us, a) t /\ ret a = -1 /\ err a <> 4) \/ (exists fd d a, In (tries fd d, a) t /\ 1024 <= fd).
(** every socket failed: at once, for another reason than that the connection takes time, or later *)
Definition refused (t : trace) : Prop :=
  forall fd d a, fd <> -1 -> In (tries fd d, a) t -> (err a <> 115 /\ err a <> 11) \/ exists g, In (peer fd, g) t /\ ret g = -1.
(** [addrs], all of them, were tried in vain *)
Definition in_vain (addrs : list (list Z)) (port : list Z) (secs : Z) (t : trace) : Prop :=
  (forall c, In c addrs -> exists fd a, In (tries fd (c ++ port), a) t) /\ unlucky t /\ (refused t \/ lapsed secs t \/ unable t).
(** a socket could not be prepared or duplicated *)
Definition unprepared (t : trace) : Prop :=
  exists a, (In (Other (bs "socket") [] [], a) t \/ (exists s, In (Other (bs "fcntl") [s; 2; 1] [], a) t \/ In (Other (bs "setsockopt") [s] [], a) t \/ In (Other (bs "dup") [s] [], a) t)) /\ ret a = -1.
