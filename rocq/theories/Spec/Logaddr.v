(** What the address texts of the log stand for. *)
From Verif.Model Require Import Base Sys Inet.
From Verif.Spec Require Import Num Ip LogText.

Section Logaddr.
Variable I : inet.
(** The text of an address: dotted decimal for the IPv4 addresses, otherwise IPv6 text that is read as the address. *)
Definition addrtext (a t : list Z) : Prop :=
  (exists q, a = v4prefix ++ q /\ dotquad q t) \/
  ((forall q, a <> v4prefix ++ q) /\ pton6 I t = Some a /\ Forall ip6_char t).
(** The address and the port: brackets around the IPv6 text. *)
Definition placetext (a : list Z) (port : Z) (t : list Z) : Prop :=
  exists h n, numeral n /\ decval n = port /\ addrtext a h /\
    (((exists q, a = v4prefix ++ q) /\ t = h ++ bs ":" ++ n) \/ ((forall q, a <> v4prefix ++ q) /\ t = bs "[" ++ h ++ bs "]:" ++ n)).

(** Requests: those of LogText, an address, an address and a port; pointers, [None] for NULL. *)
Inductive aop : Type := AOld (o : fop) | AIp (ip : option (list Z)) | APlace (ip port : option (list Z)).
(** a pointer to an address, to a port *)
Definition ip_at (p a : list Z) : Prop := addr6 a /\ exists more, p = a ++ more.
Definition port_at (p : list Z) (v : Z) : Prop := exists p0 p1 more, p = p0 :: p1 :: more /\ is_byte p0 /\ is_byte p1 /\ v = 256 * p0 + p1.
Definition awf (o : aop) : Prop :=
  match o with
  | AOld o => fwf o
  | AIp (Some p) => exists a, ip_at p a
  | APlace (Some p) (Some q) => (exists a, ip_at p a) /\ exists v, port_at q v
  | _ => True
  end.
Definition aspec (o : aop) (t : list Z) : Prop :=
  match o with
  | AOld o => fspec o t
  | AIp (Some p) => exists a, ip_at p a /\ addrtext a t
  | APlace (Some p) (Some q) => exists a v, ip_at p a /\ port_at q v /\ placetext a v t
  | _ => t = bs "(null)"
  end.
End Logaddr.
