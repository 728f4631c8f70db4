(** Which descriptors are open, read off a trace.  socket and dup answer -1 or a descriptor
    that is not open, pipe and socketpair -1 or two of them (None stands for an answer no kernel
    gives); close closes. *)
From Verif.Model Require Import Base Sys.

Definition mem (x : Z) (l : list Z) : bool := existsb (Z.eqb x) l.
Definition named (n m : list Z) : bool := if list_eq_dec Z.eq_dec n m then true else false.
Definition opens (L : list Z) (r : Z) : option (list Z) :=
  if r =? -1 then Some L
  else if (0 <=? r) && negb (mem r L) then Some (r :: L) else None.
Definition opens2 (L : list Z) (a : ans) : option (list Z) :=
  let r := nth 0 (data a) 0 in let s := nth 1 (data a) 0 in
  if ret a =? -1 then Some L
  else if (0 <=? r) && negb (mem r L) && (0 <=? s) && negb (mem s (r :: L)) then Some (s :: r :: L) else None.
Definition fd1 (L : list Z) (e : event) : option (list Z) :=
  match fst e with
  | Other n _ _ =>
    if named n (bs "socket") || named n (bs "dup") then opens L (ret (snd e))
    else if named n (bs "pipe") || named n (bs "socketpair") then opens2 L (snd e)
    else Some L
  | Close f => Some (filter (fun x => negb (x =? f)) L)
  | _ => Some L
  end.
Fixpoint fdrun (L : list Z) (tr : trace) : option (list Z) :=
  match tr with
  | [] => Some L
  | e :: t => match fd1 L e with Some L1 => fdrun L1 t | None => None end
  end.
(** every close is of an open descriptor (or of -1, which has no effect) *)
Fixpoint closes_open (L : list Z) (tr : trace) : Prop :=
  match tr with
  | [] => True
  | e :: t =>
    (forall f, fst e = Close f -> f <> -1 -> In f L) /\
    match fd1 L e with Some L1 => closes_open L1 t | None => True end
  end.
