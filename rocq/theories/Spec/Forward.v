(** What tlswrapper-tcp and its resolver helper may do, and when. *)
From Verif.Model Require Import Base Sys Inet Conninfo Proxy.
From Verif.Spec Require Import Process Proxy Program Resolver Flow.

(** Data of the connection is transferred or waited for, or a connection is opened. *)
Definition exposed (e : event) : Prop := transfers e \/ calling (bs "connect") e = true.
(** The name server, or anything else, is asked for a name; a datagram is received. *)
Definition asks (e : event) : Prop := calling (bs "getaddrinfo") e = true.
Definition receives (e : event) : Prop := calling (bs "recv") e = true.

(** ** From the name to the connection *)
(** A offer of the helper that carries the addresses [cs]: their length in bytes, then the addresses. *)
Definition offer (cs : list (list Z)) (d : list Z) : Prop := Forall addr cs /\ len cs <= 8 /\ d = 16 * len cs :: concat cs.
(** What the helper sends: 255 for an error, or addresses (none, if the name has none). *)
Definition honest (e : event) : Prop :=
  forall fd n, fst e = Other (bs "recv") [fd; n] [] -> 0 < ret (snd e) -> data (snd e) = [255] \/ exists cs, offer cs (data (snd e)).
(** The addresses [cs] were given for [host]: by the system's resolver, or by the helper in offer to a request with
    the name. *)
Definition answered (decode : list Z -> list (list Z)) (nojail : bool) (host : list Z) (t : trace) (cs : list (list Z)) : Prop :=
  if nojail then exists x a, In (Other (bs "getaddrinfo") [] (host ++ 0 :: x), a) t /\ lookup decode 8 a (Some cs)
  else exists fd t1 s t2 r t3, t = t1 ++ (Other (bs "send") [fd] (host ++ repeat 0 (256 - length host)), s) :: t2 ++ (Other (bs "recv") [fd; 256] [], r) :: t3 /\
    len host <= 255 /\ ret s = 256 /\ 0 < ret r /\ offer cs (data r).
(** Nothing is written. *)
Definition wordless (c : sys) : Prop := match c with Write _ _ | Shutdown _ _ => False | _ => True end.
(** The connection [ri] is open to one of the addresses and [ro] is its duplicate. *)
Definition linked (cs : list (list Z)) (port : Z) (t : trace) (ri ro : Z) : Prop :=
  (exists c a, In c cs /\ In (Other (bs "connect") [ri] (c ++ [port / 256; port mod 256]), a) t /\
     (ret a = 0 \/ exists g, In (Other (bs "getpeername") [ri] [], g) t /\ ret g <> -1)) /\
  exists a, In (Other (bs "dup") [ri] [], a) t /\ ret a = ro.
(** The ends of the incoming connection, from the PROXY line, which is then all that was read, or without reading. *)
Definition learned (I : inet) (env : environment) (proxy : bool) (t : trace) (i : info) : Prop :=
  if proxy then exists u, got 0 t = u ++ [10] /\ ~ In 10 u /\ pp_line I (u ++ [10]) (mkep (localip i) (localport i) (remoteip i) (remoteport i))
  else got 0 t = [] /\ observed I env false t i.
(** What was read is no PROXY line: it did not end within 127 bytes, or is not one. *)
Definition garbled (I : inet) (t : trace) : Prop :=
  (~ In 10 (got 0 t) /\ ((exists n a, In (Read 0 n, a) t /\ ret a <= 0) \/ len (got 0 t) = 127)) \/
  (exists u, got 0 t = u ++ [10] /\ ~ In 10 u /\ forall e, ~ pp_line I (got 0 t) e).
(** The PROXY header that is sent ahead. *)
Definition ahead (I : inet) (wanted : bool) (i : info) (h : list Z) : Prop :=
  if wanted then header I (mkep (localip i) (localport i) (remoteip i) (remoteport i)) h else h = [].
(** There is nothing to say in a header, or no memory for it. *)
Definition headless (t : trace) (i : info) : Prop :=
  mkep (localip i) (localport i) (remoteip i) (remoteport i) = ep_zero \/ exists n a, In (Alloc n, a) t /\ ret a = 0.
(** What is done before the first byte is passed on: nothing was written; one of the host's addresses is connected to,
    and nothing was read from it; the header is known; and the time limit is set. *)
Record ready (I : inet) (env : environment) (decode : list Z -> list (list Z)) (nojail proxy wanted : bool) (host : list Z) (port timeout : Z)
  (t : trace) (ri ro self : Z) (h : list Z) : Prop := {
  rd_quiet : Forall (fun e => wordless (fst e)) t;
  rd_address : exists cs, answered decode nojail host t cs /\ linked cs port t ri ro;
  rd_unread : got ri t = [];
  rd_header : exists i, learned I env proxy t i /\ ahead I wanted i h;
  rd_self : exists a, In (Other (bs "pipe") [] [], a) t /\ ret a <> -1 /\ nth 0 (data a) 0 = self;
  rd_alarm : exists t1 a, t = t1 ++ [(Other (bs "alarm") [timeout] [], a)] }.
(** The relay: two streams, behind the header [h] and without any; how it ends. *)
Definition relays (ri ro self : Z) (h : list Z) (u : trace) (code : option Z) : Prop :=
  conduit h 0 ro 8192 u /\ conduit [] ri 1 8192 u /\ always (tcp_close ri ro self h) u /\ always (tcp_select ri ro self h) u /\
  forall x, code = Some x -> x = 0 /\ tcp_end ri ro self h u.
