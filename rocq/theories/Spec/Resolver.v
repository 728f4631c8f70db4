(** Specification vocabulary for name resolution: addresses, big-endian numbers,
    datagram channels. *)
From Verif.Model Require Import Base Sys.
From Coq Require Export Permutation.

(** Value of a byte string, most significant byte first. *)
Definition beval (l : list Z) : Z := fold_left (fun a b => 256 * a + b) l 0.

Definition addr (c : list Z) : Prop := length c = 16%nat.
(** IPv4 address a.b.c.d as ::ffff:a.b.c.d *)
Definition v4 (c : list Z) : Prop := exists a, c = repeat 0 10 ++ [255; 255] ++ a.

(** The addresses a resolver answer stands for. *)
Definition usable (answers : list (list Z)) : list (list Z) :=
  flat_map (fun a =>
    if Nat.eqb (length a) 4 then [repeat 0 10 ++ [255; 255] ++ a]
    else if Nat.eqb (length a) 16 then [a] else []) answers.

(** What a lookup may deliver: at most [max] of the addresses, in any order but with an
    IPv6 address first if there is one. *)
Definition ordering (got delivered : list (list Z)) : Prop :=
  Permutation got delivered /\
  ((exists c, In c got /\ ~ v4 c) -> exists c l, delivered = c :: l /\ ~ v4 c).

(** "no such name" and "no address" are the error codes -2 and -5; the first one counts
    as a failure if the process ran out of descriptors (errno 24). *)
Definition nodata (a : ans) : Prop := (ret a = -2 /\ err a <> 24) \/ ret a = -5.
(** Number of bytes and the addresses a lookup delivers when the resolver answered [a]. *)
Definition lookup (decode : list Z -> list (list Z)) (max : nat) (a : ans) (r : option (list (list Z))) : Prop :=
  match r with
  | None => ret a <> 0 /\ ~ nodata a
  | Some [] => nodata a \/ (ret a = 0 /\ firstn max (usable (decode (data a))) = [])
  | Some s => ret a = 0 /\ ordering (firstn max (usable (decode (data a)))) s
  end.

(** Datagrams sent and received on a descriptor, in order. *)
Definition is_name (a b : list Z) : bool := if list_eq_dec Z.eq_dec a b then true else false.
Definition dsent (fd : Z) (tr : trace) : list (list Z) :=
  flat_map (fun e : sys * ans => match fst e with
    | Other nm [f] b => if is_name nm (bs "send") && (f =? fd) && (0 <=? ret (snd e)) then [b] else []
    | _ => [] end) tr.
Definition drecv (fd : Z) (tr : trace) : list (list Z) :=
  flat_map (fun e : sys * ans => match fst e with
    | Other nm [f; n] _ => if is_name nm (bs "recv") && (f =? fd) && (0 <? ret (snd e)) then [data (snd e)] else []
    | _ => [] end) tr.
(** What the kernel may answer: a datagram is sent whole or not at all, and a received
    one fits the buffer. *)
Definition dgram (e : sys * ans) : Prop :=
  match fst e with
  | Other nm [f] b => nm = bs "send" -> ret (snd e) = -1 \/ ret (snd e) = len b
  | Other nm [f; n] _ => nm = bs "recv" -> ret (snd e) = -1 \/ (ret (snd e) = len (data (snd e)) /\ ret (snd e) <= n)
  | _ => True
  end.
(** Names handed to the system resolver, with its answers. *)
Definition resolved (tr : trace) : list (list Z * ans) :=
  flat_map (fun e : sys * ans => match fst e with
    | Other nm [] h => if is_name nm (bs "getaddrinfo") then [(h, snd e)] else []
    | _ => [] end) tr.
(** [b] has read, in order and cut to its buffer of [n] bytes, a part of what was written. *)
Definition delivered (n : nat) (written read : list (list Z)) : Prop :=
  exists l l', written = l ++ l' /\ read = map (firstn n) l.
(** No send or receive of the trace failed, and nobody closed the channel. *)
Definition healthy (e : sys * ans) : Prop :=
  match fst e with
  | Other nm [f] b => nm = bs "send" -> 0 <= ret (snd e)
  | Other nm [f; n] _ => nm = bs "recv" -> 0 < ret (snd e)
  | _ => True
  end.

(** A request (buffer, its size, name) the protocol accepts. *)
Definition accepted (q : list Z * Z * list Z) : bool :=
  let '(ip, iplen, name) := q in (16 <=? iplen) && (len name <=? 255).
(** The result of a request comes from the resolver's answer for its own name. *)
Definition own (decode : list Z -> list (list Z)) (q : (list Z * Z * list Z) * (Z * list Z)) (l : list Z * ans) : Prop :=
  let '((ip, iplen, name), (n, ip')) := q in
  (exists t, fst l = name ++ 0 :: t) /\
  exists r, lookup decode 8 (snd l) r /\
    match r with
    | None => n = -1 /\ ip' = ip
    | Some s => n = Z.min iplen (len (concat s)) /\ ip' = firstn (Z.to_nat n) (concat s) ++ skipn (Z.to_nat n) ip
    end.
