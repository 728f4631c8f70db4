(** What the C library's malloc and free promise, as a check of a trace, and what an
    allocator owes in return. *)
From Verif.Model Require Import Base Sys.

Definition same (a b : list Z) : bool := if list_eq_dec Z.eq_dec a b then true else false.

(** Memory blocks (address, size) that do not overlap. *)
Definition apart (x y : Z * Z) : Prop := fst x + snd x <= fst y \/ fst y + snd y <= fst x.
Definition apartb (x y : Z * Z) : bool := (fst x + snd x <=? fst y) || (fst y + snd y <=? fst x).

(** [L]: blocks handed out by malloc and not freed.  malloc answers with NULL or with a
    16-byte aligned block that overlaps neither the program's static [arena] nor any block
    in [L]; None stands for an answer no malloc gives. *)
Definition heap1 (arena : Z * Z) (L : list (Z * Z)) (e : event) : option (list (Z * Z)) :=
  match fst e with
  | Other nm [x] _ =>
    if same nm (bs "malloc") then
      if ret (snd e) =? 0 then Some L
      else if (0 <? ret (snd e)) && (ret (snd e) + x <? two64) && (ret (snd e) mod 16 =? 0) &&
              apartb (ret (snd e), x) arena && forallb (apartb (ret (snd e), x)) L
           then Some ((ret (snd e), x) :: L) else None
    else if same nm (bs "free") then Some (filter (fun b => negb (fst b =? x)) L)
    else Some L
  | _ => Some L
  end.
Fixpoint heap (arena : Z * Z) (L : list (Z * Z)) (tr : trace) : option (list (Z * Z)) :=
  match tr with
  | [] => Some L
  | e :: t => match heap1 arena L e with Some L1 => heap arena L1 t | None => None end
  end.

(** Size of the memory behind a request of n bytes: a multiple of 32, at least 32. *)
Definition backing (n : Z) : Z := 32 * ((Z.max n 1 + 31) / 32).
