(** C05: IP addresses survive formatting and parsing. *)
From Verif.Model Require Import Base Inet InetIsc.
From Verif.Spec Require Import Num Ip.
From Verif.Proof Require Import Tac InetIscP IpP.

(** The assumption about libc is met by the ISC/glibc algorithms. *)
Theorem C05_libc_interface_satisfiable : inet_ok isc.
Proof. exact isc_ok. Qed.
Print Assumptions C05_libc_interface_satisfiable.

(** Round trip for every 16-byte address and every conversion library with the
    assumed properties. *)
Theorem C05_ip_roundtrip : forall I a rest, inet_ok I -> addr6 a ->
  parseip I (iptostr I a ++ 0 :: rest) = Ok (Some a).
Proof. intros. apply parseip_iptostr; assumption. Qed.
Print Assumptions C05_ip_roundtrip.

(** The text fits the 46-byte buffer with its terminator and has no NUL. *)
Theorem C05_ip_text_fits : forall I a, inet_ok I -> addr6 a ->
  (length (iptostr I a) + 1 <= 46)%nat /\ Forall ip6_char (iptostr I a).
Proof. intros I a O A. destruct (iptostr_chars I O a A) as (C & L & _). split; auto. lia. Qed.
Print Assumptions C05_ip_text_fits.

(** IPv4-mapped addresses are shown as dotted quads, others with a colon. *)
Theorem C05_ip_families : forall I, inet_ok I ->
  (forall q, addr4 q -> dotquad q (iptostr I ([0;0;0;0;0;0;0;0;0;0;255;255] ++ q))) /\
  (forall a, addr6 a -> firstn 12 a <> [0;0;0;0;0;0;0;0;0;0;255;255] -> In 58 (iptostr I a)).
Proof. intros I O. split; [apply (iptostr_v4 I O)|apply (iptostr_v6 I O)]. Qed.
Print Assumptions C05_ip_families.

(** Whatever text is accepted, the result is a 16-byte address. *)
Theorem C05_parse_result : forall I s rest a, inet_ok I -> nonul s ->
  parseip I (s ++ 0 :: rest) = Ok (Some a) -> addr6 a.
Proof. intros I s rest a O. apply (parseip_addr I O). Qed.
Print Assumptions C05_parse_result.

Example C05_ex1 : parseip isc (bs "192.168.2.255" ++ [0]) = Ok (Some [0;0;0;0;0;0;0;0;0;0;255;255;192;168;2;255]).
Proof. reflexivity. Qed.
Example C05_ex2 : iptostr isc [32;1;13;184;0;0;0;0;0;0;0;1;1;2;0;0] = bs "2001:db8::1:102:0".
Proof. reflexivity. Qed.
Example C05_ex3 : parseip isc (bs "192.168.2.256" ++ [0]) = Ok None.
Proof. reflexivity. Qed.
Example C05_ex4 : parseip isc (bs "2001:DB8::1:102:0" ++ [0]) = Ok (Some [32;1;13;184;0;0;0;0;0;0;0;1;1;2;0;0]).
Proof. reflexivity. Qed.
