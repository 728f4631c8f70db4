(** Independent specification of the certificate choice. *)
From Verif.Model Require Import Base Sys.
From Verif.Spec Require Import Stream Text Name Settings.

(** Hash functions by BearSSL number, in the order of preference. *)
Definition usable_hashes : list Z := [6; 5; 4; 2].
(** [h] is the best hash in the mask; 0 when the mask has none. *)
Definition best_hash (mask h : Z) : Prop :=
  (h = 0 /\ forall g, In g usable_hashes -> Z.testbit mask g = false) \/
  (In h usable_hashes /\ Z.testbit mask h = true /\
   forall g, In g usable_hashes -> Z.testbit mask g = true -> g <= h).

(** A client suite given as number and translation; its key exchange is in the bits from 12 on:
    1 is ECDHE with an RSA signature, 2 ECDHE with an ECDSA signature.  Key types: 1 RSA, 2 EC. *)
Definition suits (keytype : Z) (s : Z * Z) : Prop :=
  (keytype = 1 /\ snd s / 4096 = 1) \/ (keytype = 2 /\ snd s / 4096 = 2).

(** The signature algorithm number: 0xFF00 plus a hash number; before TLS 1.2 no hash (the
    MD5 and SHA-1 pair) for RSA and SHA-1 for ECDSA.  The hash mask has the RSA hashes in its
    low byte and the ECDSA hashes in the next one. *)
Definition signature (keytype ver mask algo : Z) : Prop :=
  (ver < 771 /\ keytype = 1 /\ algo = 65280) \/
  (ver < 771 /\ keytype = 2 /\ algo = 65282) \/
  (771 <= ver /\ exists h, algo = 65280 + h /\ best_hash (if keytype =? 2 then mask / 256 else mask) h).

(** The string at a possibly null pointer; null is like empty. *)
Definition otext (p : option (list Z)) : list Z := match p with Some q => text q | None => [] end.

(** The file an entry stands for: a file entry (0x8000) stands for its sanitised name, a
    directory entry (0x4000) for the sanitised join with a valid nonempty server name. *)
Inductive stands_for (name : list Z) : list Z * Z -> list Z -> Prop :=
| SFfile : forall p, stands_for name (p, 32768) (sanitized (text p))
| SFdir : forall p ls, name <> [] -> valid_name name ls ->
    stands_for name (p, 16384) (sanitized (text p ++ [47] ++ name)).
(** Unsanitised length with the terminator. *)
Definition path_bytes (name : list Z) (e : list Z * Z) : Z :=
  if snd e =? 16384 then len (text (fst e)) + 1 + len name + 1 else len (text (fst e)) + 1.

(** The key process was asked for the file and delivered a PEM text which the parser turned
    into a chain for a key of the given type. *)
Definition loads (to from : Z) (file : list Z) (tr : trace) (keytype : Z) (chain : list Z) : Prop :=
  exists t pem a, tr = t ++ [(Other (bs "pubcrt") [] pem, a)] /\
    sent to tr = frame (file ++ [0]) /\ got from tr = frame pem /\
    ret a = keytype /\ keytype <> 0 /\ data a = chain.
(** The attempt failed with errno [e]: the key process answered with it, or a call of this
    attempt reported it (32, broken pipe, also stands for end of file).  Only a prefix of the
    request may have been sent. *)
Definition fails (to from : Z) (file : list Z) (tr : trace) (e : Z) : Prop :=
  is_prefix (sent to tr) (frame (file ++ [0])) /\
  (e = 32 \/ (exists x, In x tr /\ err (snd x) = e) \/
   exists v, 0 < v < 2 ^ 63 /\ got from tr = errframe v /\ (e - v) mod 2 ^ 32 = 0).

(** An entry was passed over; [tr] are the calls made for it. *)
Inductive unusable (to from : Z) (name : list Z) (offers : list (Z * Z)) : list Z * Z -> trace -> Prop :=
| Unoname : forall p, name = [] -> unusable to from name offers (p, 16384) []
| Ubadname : forall p, (forall ls, ~ valid_name name ls) -> unusable to from name offers (p, 16384) []
| Unopath : forall e tr, (exists n a, In (Alloc n, a) tr /\ ret a = 0) \/ 1024 < path_bytes name e ->
    sent to tr = [] -> unusable to from name offers e tr
| Umissing : forall p f tr, stands_for name (p, 16384) f -> fails to from f tr 2 ->
    unusable to from name offers (p, 16384) tr
| Unosuite : forall e f tr kt ch, stands_for name e f -> loads to from f tr kt ch ->
    (forall s, In s offers -> ~ suits kt s) -> unusable to from name offers e tr.

(** An entry ended the search without a result. *)
Inductive fatal (to from : Z) (name : list Z) (islast : Prop) : list Z * Z -> trace -> Prop :=
| Ffile : forall p f tr e, stands_for name (p, 32768) f -> fails to from f tr e ->
    fatal to from name islast (p, 32768) tr
| Fdir : forall p f tr e, stands_for name (p, 16384) f -> fails to from f tr e -> e <> 2 \/ islast ->
    fatal to from name islast (p, 16384) tr.

(** The answer for a loaded certificate: the first suite of the client that suits the key. *)
Definition answers (offers : list (Z * Z)) (ver mask kt suite algo : Z) : Prop :=
  exists s1 s s2, offers = s1 ++ s :: s2 /\ Forall (fun y => ~ suits kt y) s1 /\ suits kt s /\
    suite = fst s /\ signature kt ver mask algo.

(** Everything written to the key process is requests for files the entries stand for, the
    pieces being cut short only by failed or unfinished writes. *)
Definition asks (to : Z) (name : list Z) (es : list (list Z * Z)) (tr : trace) : Prop :=
  exists ps, sent to tr = concat ps /\
    Forall (fun p => exists e f, In e es /\ stands_for name e f /\ is_prefix p (frame (f ++ [0]))) ps.

