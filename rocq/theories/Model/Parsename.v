(** Model of parsename.c. *)
From Verif.Model Require Import Base.

(** parsename.c:60-61  scan for "..": [true] means "return 0". *)
Fixpoint pname_dots (str : list Z) : res bool :=
  match str with
  | [] => UB
  | c :: t =>
      if c =? 0 then Ok false
      else if c =? 46
           then (d <- deref t ;; if d =? 46 then Ok true else pname_dots t)
           else pname_dots t
  end.

(** parsename.c:64  [for (pos = 0; pos < 256; ++pos) out[pos] = 0;]
    [k] iterations are left. *)
Fixpoint pname_zero (k pos : nat) (out : list Z) : res (list Z) :=
  match k with
  | O => Ok out
  | S k' => out' <- st out pos 0 ;; pname_zero k' (S pos) out'
  end.

(** parsename.c:76-77  length of the label at [str]. *)
Fixpoint pname_lablen (str : list Z) : res nat :=
  match str with
  | [] => UB
  | c :: t =>
      if c =? 0 then Ok O
      else if c =? 46 then Ok O
      else (n <- pname_lablen t ;; Ok (S n))
  end.

(** parsename.c:88-95  character check of the [j] label bytes; [false] means
    "return 0". *)
Fixpoint pname_labok (j : nat) (str : list Z) : res bool :=
  match j with
  | O => Ok true
  | S j' =>
      c <- deref str ;;
      if ((97 <=? c) && (c <=? 122)) || ((65 <=? c) && (c <=? 90)) ||
         ((48 <=? c) && (c <=? 57)) || (c =? 45) || (c =? 95)
      then pname_labok j' (tl str)
      else Ok false
  end.

(** parsename.c:107-111  copy [j] label bytes; [None] means "return 0". *)
Fixpoint pname_copy (j : nat) (str out : list Z) (pos : nat)
  : res (option (list Z * list Z * nat)) :=
  match j with
  | O => Ok (Some (str, out, pos))
  | S j' =>
      if (255 <=? pos)%nat then Ok None
      else
        c <- deref str ;;
        out' <- st out pos c ;;
        pname_copy j' (tl str) out' (S pos)
  end.

(** parsename.c:67-112  outer loop; [None] means "return 0". *)
Fixpoint pname_main (fuel : nat) (str out : list Z) (pos : nat)
  : res (option (list Z * nat)) :=
  match fuel with
  | O => Fuel
  | S f =>
      c <- deref str ;;
      if c =? 0 then Ok (Some (out, pos))
      else if c =? 46 then pname_main f (tl str) out pos         (* 69-72 *)
      else
        j <- pname_lablen str ;;                                 (* 76-77 *)
        if (63 <? j)%nat then Ok None                            (* 80 *)
        else
          ok <- pname_labok j str ;;                             (* 88-95 *)
          if negb ok then Ok None
          else if c =? 45 then Ok None                           (* 98 *)
          else
            e <- (match j with O => UB | S j' => ld str j' end) ;; (* 99 *)
            if e =? 45 then Ok None
            else if (255 <=? pos)%nat then Ok None               (* 103 *)
            else
              out' <- st out pos (u8 (Z.of_nat j)) ;;            (* 104 *)
              r <- pname_copy j str out' (S pos) ;;              (* 107-111 *)
              match r with
              | None => Ok None
              | Some (str', out'', pos') => pname_main f str' out'' pos'
              end
  end.

(** parsename.c:48-118  parsename_ with non-NULL arguments.  [Some out'] is
    return value 1 with the final buffer, [None] is return value 0 (the buffer
    content is then unspecified by the interface and not returned). *)
Definition parsename_ (out str : list Z) : res (option (list Z)) :=
  c0 <- deref str ;;
  lead <- (if c0 =? 46 then (c1 <- ld str 1 ;; Ok (negb (c1 =? 0))) else Ok false) ;; (* 59 *)
  if (lead : bool) then Ok None
  else
    dd <- pname_dots str ;;
    if (dd : bool) then Ok None
    else
      out0 <- pname_zero 256 0 out ;;
      r <- pname_main (length str) str out0 0 ;;
      match r with
      | None => Ok None
      | Some (out1, pos) =>
          if (255 <=? pos)%nat then Ok None                      (* 115 *)
          else (out2 <- st out1 pos 0 ;; Ok (Some out2))         (* 116 *)
      end.
