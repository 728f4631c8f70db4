(** Independent specification of decimal numerals. *)
From Verif.Model Require Import Base.

Definition digit (c : Z) : Prop := 48 <= c <= 57.

(** Value of a digit string, most significant digit first:
    sum of digit * 10^(number of digits to the right). *)
Fixpoint decval (s : list Z) : Z :=
  match s with
  | [] => 0
  | c :: s' => (c - 48) * 10 ^ (len s') + decval s'
  end.

(** Canonical unsigned numeral: "0", or no leading zero. *)
Definition numeral (s : list Z) : Prop :=
  s = bs "0" \/
  exists c s', s = c :: s' /\ 49 <= c <= 57 /\ Forall digit s'.

(** Optional single sign before a canonical numeral, with its mathematical value. *)
Inductive signed_numeral : list Z -> Z -> Prop :=
| sn_plain s : numeral s -> signed_numeral s (decval s)
| sn_plus s : numeral s -> signed_numeral (43 :: s) (decval s)
| sn_minus s : numeral s -> signed_numeral (45 :: s) (- decval s).
