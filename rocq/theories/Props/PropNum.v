(** C01, C02: numeric options and ports.  Specification: Spec/Num.v. *)
From Verif.Model Require Import Base Parsenum.
From Verif.Spec Require Import Num.
From Verif.Proof Require Import Tac NumP.

(** C01.  For every NUL-terminated string [s] (followed by arbitrary memory
    [rest], possibly none) and every range, the parser returns normally (no
    out-of-bounds read, no signed overflow) and either accepts, and then [s] is
    a signed numeral whose exact value is delivered and lies in the range and
    in the 64-bit range, or rejects with output 0, and then no such value
    exists. *)
Theorem C01_parsenum_exact : forall s rest min max, nonul s ->
  exists ret num,
    parsenum_ min max (s ++ 0 :: rest) = Ok (ret, num) /\
    ((ret = 1 /\ signed_numeral s num /\ min <= num <= max /\ in_s64 num) \/
     (ret = 0 /\ num = 0 /\
      forall v, signed_numeral s v -> ~ (min <= v <= max /\ in_s64 v))).
Proof. exact parsenum_correct. Qed.
Print Assumptions C01_parsenum_exact.

(** The value of a numeral is unique, so "the exact value" is meaningful. *)
Theorem C01_value_unique : forall s v w, nonul s ->
  signed_numeral s v -> signed_numeral s w -> v = w.
Proof. exact signed_numeral_unique. Qed.
Print Assumptions C01_value_unique.

Example C01_ex_min : parsenum_ parsenum_MIN parsenum_MAX (bs "-9223372036854775808" ++ [0])
  = Ok (1, - two63).
Proof. reflexivity. Qed.
Example C01_ex_overflow : parsenum_ parsenum_MIN parsenum_MAX (bs "9223372036854775808" ++ [0])
  = Ok (0, 0).
Proof. reflexivity. Qed.
Example C01_ex_wrap : parsenum_ parsenum_MIN parsenum_MAX (bs "18446744073709551617" ++ [0])
  = Ok (0, 0).
Proof. reflexivity. Qed.
Example C01_ex_hyp : nonul (bs "+86400").
Proof. repeat constructor; vm_compute; auto; discriminate. Qed.
Example C01_ex_plus : parsenum_ 1 86400 (bs "+86400" ++ [0; 255; 7]) = Ok (1, 86400).
Proof. reflexivity. Qed.

(** C02, formatting: canonical decimal text of the big-endian value, NUL padded
    inside the six-byte buffer; memory after the buffer is untouched. *)
Theorem C02_porttostr_canonical : forall p0 p1 buf rest, is_byte p0 -> is_byte p1 ->
  length buf = 6%nat ->
  exists s, numeral s /\ decval s = 256 * p0 + p1 /\ (length s <= 5)%nat /\
    porttostr (buf ++ rest) p0 p1 = Ok (s ++ repeat 0 (6 - length s) ++ rest, O).
Proof. exact porttostr_correct. Qed.
Print Assumptions C02_porttostr_canonical.

(** C02, parsing: accepted exactly for canonical unsigned numerals up to 65535,
    delivering the big-endian bytes. *)
Theorem C02_parseport_exact : forall s rest, nonul s ->
  exists r, parseport_ (s ++ 0 :: rest) = Ok r /\
  match r with
  | Some (p0, p1) => is_byte p0 /\ is_byte p1 /\ numeral s /\ decval s = 256 * p0 + p1
  | None => ~ (numeral s /\ decval s < 65536)
  end.
Proof. exact parseport_correct. Qed.
Print Assumptions C02_parseport_exact.

(** C02, round trip. *)
Theorem C02_port_roundtrip : forall p0 p1 buf rest, is_byte p0 -> is_byte p1 ->
  length buf = 6%nat ->
  exists out, porttostr (buf ++ rest) p0 p1 = Ok (out, O) /\
              parseport_ out = Ok (Some (p0, p1)).
Proof. exact port_roundtrip. Qed.
Print Assumptions C02_port_roundtrip.

Example C02_ex1 : porttostr (repeat 170 6) 255 255 = Ok (bs "65535" ++ [0], O).
Proof. reflexivity. Qed.
Example C02_ex2 : porttostr (repeat 170 6) 0 0 = Ok (bs "0" ++ repeat 0 5, O).
Proof. reflexivity. Qed.
Example C02_ex3 : parseport_ (bs "65536" ++ [0]) = Ok None.
Proof. reflexivity. Qed.
Example C02_ex4 : parseport_ (bs "0443" ++ [0]) = Ok None.
Proof. reflexivity. Qed.
