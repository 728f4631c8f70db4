(** Specification of growable strings: what each operation does to the content. *)
From Verif.Model Require Import Base.
From Verif.Spec Require Import Num.

(** Operations; a source buffer is given by its content, [None] if it never owned storage. *)
Inductive sop : Type :=
| Scatb (x : list Z) | Scats (x : list Z) | Scat (y : option (list Z)) | Sappend (c : Z) | Szero
| Scopyb (x : list Z) | Scopys (x : list Z) | Scopy (y : option (list Z))
| Scatnum (v width : Z) | Scopynum (v : Z) | Sfree.

(** Decimal text of a non-negative number padded with zeros to a width. *)
Definition padded (v width : Z) (t : list Z) : Prop :=
  exists z m, t = repeat 48 z ++ m /\ numeral m /\ decval m = v /\ Z.of_nat z = Z.max 0 (width - len m).
Definition number (v width : Z) (t : list Z) : Prop :=
  (0 <= v /\ padded v width t) \/ (v < 0 /\ exists u, t = 45 :: u /\ padded (- v) width u).

(** [sop_sem op ok old new]: content after the operation reported success / failure. *)
Definition sop_sem (o : sop) (ok : bool) (old new : list Z) : Prop :=
  match o, ok with
  | (Scatb x | Scats x | Scat (Some x)), true => new = old ++ x
  | Sappend c, true => new = old ++ [c]
  | Szero, true => new = old ++ [0]
  | (Scopyb x | Scopys x | Scopy (Some x)), true => new = x
  | Scatnum v w, true => exists t, number v w t /\ new = old ++ t
  | Scopynum v, true => number v 0 new
  | (Scat None | Scopy None), true => False
  | Sfree, true => new = []
  | Sfree, false => False
  | (Scatb _ | Scats _ | Scat _ | Sappend _ | Szero), false => new = old
  | (Scopyb _ | Scopys _ | Scopy _), false => new = []
  | Scatnum v w, false => new = old \/ (v < 0 /\ new = old ++ [45])
  | Scopynum v, false => new = [] \/ (v < 0 /\ new = [45])
  end.

(** Upper bound of the bytes an operation may add. *)
Definition sop_size (o : sop) : Z :=
  match o with
  | Scatb x | Scats x | Scat (Some x) | Scopyb x | Scopys x | Scopy (Some x) => len x
  | Scat None | Scopy None | Sfree => 0
  | Sappend _ | Szero => 1
  | Scatnum _ w => 21 + Z.max 0 w
  | Scopynum _ => 21
  end.
