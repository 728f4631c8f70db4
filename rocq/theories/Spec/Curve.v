(** The groups used for key exchange: parameters from SEC 2 / FIPS 186-4 and RFC 7748. *)
From Verif.Model Require Import Base.

Definition order (curve : Z) : option Z :=
  match curve with
  | 23 => Some 0xFFFFFFFF00000000FFFFFFFFFFFFFFFFBCE6FAADA7179E84F3B9CAC2FC632551
  | 24 => Some 0xFFFFFFFFFFFFFFFFFFFFFFFFFFFFFFFFFFFFFFFFFFFFFFFFC7634D81F4372DDF581A0DB248B0A77AECEC196ACCC52973
  | 25 => Some 0x01FFFFFFFFFFFFFFFFFFFFFFFFFFFFFFFFFFFFFFFFFFFFFFFFFFFFFFFFFFFFFFFFFFFA51868783BF2F966B7FCC0148F709A5D03BB5C9B8899C47AEBB6FB71E91386409
  | _ => None
  end.
(** Bytes of a scalar, of a public point (uncompressed for the NIST curves), of a shared
    secret. *)
Definition sizes (curve : Z) : option (Z * Z * Z) :=
  match curve with
  | 23 => Some (32, 65, 32)
  | 24 => Some (48, 97, 48)
  | 25 => Some (66, 133, 66)
  | 29 => Some (32, 32, 32)
  | _ => None
  end.

(** Big-endian number. *)
Fixpoint beval (l : list Z) : Z :=
  match l with [] => 0 | b :: t => b * 256 ^ len t + beval t end.

Definition valid_scalar (curve : Z) (s : list Z) : Prop :=
  (exists p x, sizes curve = Some (len s, p, x)) /\
  forall n, order curve = Some n -> 0 < beval s < n.
