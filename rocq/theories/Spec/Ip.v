(** What the theorems assume of libc's address conversion. *)
From Verif.Model Require Import Base Inet.
From Verif.Spec Require Import Num.

Definition addr4 (a : list Z) : Prop := length a = 4%nat /\ bytes a.
Definition addr6 (a : list Z) : Prop := length a = 16%nat /\ bytes a.

(** Dotted quad of four bytes. *)
Definition dotquad (a s : list Z) : Prop :=
  exists n0 n1 n2 n3, Forall numeral [n0; n1; n2; n3] /\
    a = map decval [n0; n1; n2; n3] /\
    s = n0 ++ 46 :: n1 ++ 46 :: n2 ++ 46 :: n3.

(** Characters that may occur in a formatted IPv6 address. *)
Definition ip6_char (c : Z) : Prop :=
  digit c \/ 97 <= c <= 102 \/ c = 58 \/ c = 46.

(** Characters that may occur in accepted IPv6 text. *)
Definition ip6_in (c : Z) : Prop := ip6_char c \/ 65 <= c <= 70.

Record inet_ok (I : inet) : Prop := {
  (* accepted text is an address of the right size *)
  ok_pton4_addr : forall s a, pton4 I s = Some a -> addr4 a;
  ok_pton6_addr : forall s a, pton6 I s = Some a -> addr6 a;
  (* IPv4 text consists of digits and dots *)
  ok_pton4_chars : forall s a, pton4 I s = Some a -> Forall (fun c => digit c \/ c = 46) s;
  (* IPv6 text consists of hexadecimal digits, colons and dots *)
  ok_pton6_chars : forall s a, pton6 I s = Some a -> Forall ip6_in s;
  ok_pton6_colon : forall s a, pton6 I s = Some a -> In 58 s;
  (* formatting: canonical dotted quad, and it reads back *)
  ok_ntop4 : forall a, addr4 a -> dotquad a (ntop4 I a) /\ pton4 I (ntop4 I a) = Some a;
  (* formatting IPv6: fits, has a colon, plain characters, and reads back *)
  ok_ntop6 : forall a, addr6 a ->
     (length (ntop6 I a) <= 45)%nat /\ In 58 (ntop6 I a) /\ Forall ip6_char (ntop6 I a) /\
     pton6 I (ntop6 I a) = Some a
}.
