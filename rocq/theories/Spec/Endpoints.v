(** What the environment and a socket say about the two ends of a connection. *)
From Verif.Model Require Import Base Inet Conninfo.
From Verif.Spec Require Import Num Ip.

(** text of an address: dotted quad or IPv6, by the conversions of libc *)
Definition ip_text (I : inet) (s a : list Z) : Prop :=
  (exists q, pton4 I s = Some q /\ a = [0;0;0;0;0;0;0;0;0;0;255;255] ++ q) \/
  (pton4 I s = None /\ pton6 I s = Some a).
(** canonical decimal text of a port *)
Definition port_text (s p : list Z) : Prop :=
  exists p0 p1, p = [p0; p1] /\ is_byte p0 /\ is_byte p1 /\ numeral s /\ decval s = 256 * p0 + p1.

(** all four variables are set and valid *)
Definition env_says (I : inet) (e : environment) (i : info) : Prop :=
  exists a b c d,
    getenv e (bs "TCPLOCALIP") = Some a /\ ip_text I a (localip i) /\
    getenv e (bs "TCPLOCALPORT") = Some b /\ port_text b (localport i) /\
    getenv e (bs "TCPREMOTEIP") = Some c /\ ip_text I c (remoteip i) /\
    getenv e (bs "TCPREMOTEPORT") = Some d /\ port_text d (remoteport i).

(** an IPv4 or IPv6 socket name *)
Definition sock_says (s : option sockname) (a p : list Z) : Prop :=
  exists n, s = Some n /\
    ((family n = 2 /\ a = [0;0;0;0;0;0;0;0;0;0;255;255] ++ sin_addr n /\ p = sin_port n) \/
     (family n = 10 /\ a = sin6_addr n /\ p = sin6_port n)).

(** a connection of two addresses and ports *)
Definition endpoints (i : info) : Prop :=
  addr6 (localip i) /\ addr6 (remoteip i) /\
  length (localport i) = 2%nat /\ bytes (localport i) /\ length (remoteport i) = 2%nat /\ bytes (remoteport i).

(** values of variables are C strings *)
Definition strings (e : environment) : Prop := Forall (fun nv => nonul (snd nv)) e.
