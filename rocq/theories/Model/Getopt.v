(** Model of the option loop that main_tlswrapper_tcp.c (lines 259-304) and main_tlswrapper_smtp.c (lines 853-910)
    share; the options of each are in Tcpmain.v and Smtpmain.v.

    An argument is the memory from its first character on (with its NUL); the vector is the list of the
    arguments, its end the null pointer.  None stands for die(100).  A letter is tested against the letters
    without and with an argument in this order; no letter is of both kinds. *)
From Verif.Model Require Import Base Str Parsenum.

Section Getopt.
Variable O : Type.
(** letters without argument; letters with argument; their effect *)
Variable plain : Z -> O -> option O.
Variable takes : Z -> bool.
Variable set_option : Z -> list Z -> O -> res (option O).

(** how the letters of one argument end *)
Inductive letters := Usage | Next (o : O) | Ate (o : O).
(** tcp 265-303, smtp 859-909: with [x] after ++x and [next] = argv[1]; an option letter whose argument is missing
    falls through to usage() *)
Fixpoint cluster (x : list Z) (next : option (list Z)) (o : O) : res letters :=
  match x with
  | [] => UB
  | c :: x1 =>
    if c =? 0 then Ok (Next o) else
    match plain c o with
    | Some o => cluster x1 next o
    | None =>
      if takes c then
        c1 <- deref x1 ;;
        if negb (c1 =? 0) then
          r <- set_option c x1 o ;;
          Ok (match r with Some o => Next o | None => Usage end)
        else
          match next with
          | Some a => r <- set_option c a o ;; Ok (match r with Some o => Ate o | None => Usage end)
          | None => Ok Usage
          end
      else Ok Usage
    end
  end.
(** tcp 263-264, smtp 857-858 *)
Definition dashes (x : list Z) : res bool :=
  c1 <- ld x 1 ;;
  if c1 =? 0 then Ok true
  else if c1 =? 45 then (c2 <- ld x 2 ;; Ok (c2 =? 0))
  else Ok false.
(** tcp 259-304, smtp 853-910: with the arguments from argv[1] on; the result starts at the next [*++argv] *)
Fixpoint options (argv : list (list Z)) (o : O) : res (option (list (list Z) * O)) :=
  match argv with
  | [] => Ok (Some ([], o))
  | x :: rest =>
    c0 <- deref x ;;
    if negb (c0 =? 45) then Ok (Some (x :: rest, o))
    else
      d <- dashes x ;;
      if (d : bool) then Ok (Some (rest, o))
      else
        r <- cluster (tl x) (hd_error rest) o ;;
        match r with
        | Usage => Ok None
        | Next o => options rest o
        | Ate o => match rest with [] => UB | _ :: rest => options rest o end
        end
  end.
End Getopt.

(** str_equal(s, x) *)
Definition streq (s : list Z) (x : list Z) : res bool := d <- str_diff (s ++ [0]) x ;; Ok (d =? 0).
(** pp_incoming and pp_outgoing of main_tlswrapper_tcp.c (lines 137-155, 161-179): whether the value is set *)
Definition pp_version (x : list Z) : res (option bool) :=
  b <- streq (bs "0") x ;;
  if (b : bool) then Ok (Some false) else
  b <- streq (bs "1") x ;;
  if (b : bool) then Ok (Some true) else Ok None.
(** timeout_parse: main_tlswrapper_tcp.c:189-197, main_tlswrapper_smtp.c:173-181 *)
Definition seconds_parse (x : list Z) : res (option Z) :=
  '(ok, n) <- parsenum_ 1 86400 x ;; Ok (if ok =? 0 then None else Some n).
