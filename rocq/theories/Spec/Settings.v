(** What TLS options ask for: the names of tlswrapper(1), ALGORITHMS, with the IANA code points. *)
From Verif.Model Require Import Base.

Definition same (a b : list Z) : bool := if list_eq_dec Z.eq_dec a b then true else false.
(** the string at a pointer *)
Fixpoint text (p : list Z) : list Z :=
  match p with
  | [] => []
  | c :: t => if c =? 0 then [] else c :: text t
  end.
Fixpoint lookup {A} (t : list (list Z * A)) (n : list Z) : option A :=
  match t with
  | [] => None
  | (m, v) :: t => if same n m then Some v else lookup t n
  end.

(** TLS_ECDHE_ECDSA_WITH_x, TLS_ECDHE_RSA_WITH_x *)
Definition suite_names : list (list Z * (Z * Z)) :=
  [(bs "CHACHA20_POLY1305_SHA256", (0xCCA9, 0xCCA8));
   (bs "AES_256_GCM_SHA384", (0xC02C, 0xC030));
   (bs "AES_128_GCM_SHA256", (0xC02B, 0xC02F));
   (bs "AES_256_CBC_SHA384", (0xC024, 0xC028));
   (bs "AES_128_CBC_SHA256", (0xC023, 0xC027));
   (bs "AES_256_CBC_SHA", (0xC00A, 0xC014));
   (bs "AES_128_CBC_SHA", (0xC009, 0xC013))].
Definition group_names : list (list Z * Z) :=
  [(bs "secp256r1", 0x17); (bs "secp384r1", 0x18); (bs "secp521r1", 0x19); (bs "x25519", 0x1D)].
Definition version_names : list (list Z * Z) :=
  [(bs "tls10", 0x0301); (bs "tls11", 0x0302); (bs "tls12", 0x0303)].

Definition suites (n : list Z) : list Z :=
  match lookup suite_names n with Some (ec, rsa) => [ec; rsa] | None => [] end.
(** the elements of a list in the order of their first occurrence *)
Fixpoint firsts (l : list (list Z)) : list (list Z) :=
  match l with
  | [] => []
  | x :: l => x :: filter (fun y => negb (same x y)) (firsts l)
  end.
Definition wanted_suites (names : list (list Z)) : list Z :=
  match names with
  | [] => flat_map suites [bs "CHACHA20_POLY1305_SHA256"; bs "AES_256_GCM_SHA384"; bs "AES_128_GCM_SHA256"]
  | _ => flat_map suites (firsts names)
  end.
Definition wanted_groups (names : list (list Z)) (g : Z) : Prop :=
  match names with
  | [] => g = 0x1D \/ g = 0x17
  | _ => exists n, In n names /\ lookup group_names n = Some g
  end.
(** the last one, TLS 1.2 if there is none *)
Definition wanted_version (names : list (list Z)) : option Z :=
  match rev names with
  | [] => Some 0x0303
  | n :: _ => lookup version_names n
  end.
