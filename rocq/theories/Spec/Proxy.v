(** Which header lines the PROXY v1 reader accepts, and with what meaning. *)
From Verif.Model Require Import Base Inet Proxy.
From Verif.Spec Require Import Num.

Definition port2 (s p : list Z) : Prop :=
  numeral s /\ exists a b, p = [a; b] /\ is_byte a /\ is_byte b /\ decval s = 256 * a + b.
(** Field separator: a space or a NUL byte. *)
Definition sep (c : Z) : Prop := c = 32 \/ c = 0.
Definition fam4 (I : inet) (s a : list Z) : Prop := exists q, pton4 I s = Some q /\ a = v4prefix ++ q.
Definition fam6 (I : inet) (s a : list Z) : Prop := pton6 I s = Some a.

Inductive pp_line (I : inet) : list Z -> endpoints -> Prop :=
| pp_unknown t : pp_line I (bs "PROXY UNKNOWN" ++ t) ep_zero
| pp_tcp (v6 : bool) r l rp lp s1 s2 s3 s4 t ra la rpb lpb :
    (if v6 then fam6 I r ra else fam4 I r ra) -> (if v6 then fam6 I l la else fam4 I l la) ->
    port2 rp rpb -> port2 lp lpb -> sep s1 -> sep s2 -> sep s3 -> (s4 = 13 \/ s4 = 10 \/ s4 = 0) ->
    pp_line I ((if v6 then bs "PROXY TCP6 " else bs "PROXY TCP4 ")
               ++ r ++ s1 :: l ++ s2 :: rp ++ s3 :: lp ++ s4 :: t) (mkep la lpb ra rpb).

(** The header text for a pair of endpoints. *)
Definition header (I : inet) (e : endpoints) (h : list Z) : Prop :=
  exists rp lp, port2 rp (rport e) /\ port2 lp (lport e) /\
  h = (if list_eq_dec Z.eq_dec (firstn 12 (rip e)) v4prefix then bs "PROXY TCP4 " else bs "PROXY TCP6 ")
      ++ iptostr I (rip e) ++ bs " " ++ iptostr I (lip e) ++ bs " " ++ rp ++ bs " " ++ lp ++ [13; 10].
