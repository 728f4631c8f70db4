(** Model of tlswrapper.c: choice of the applet by the name of the program.

    argv[0] is the memory from its first character on, None a null pointer.  The three entry points are
    called with the same argc and argv and with flagnojail 0; the result says which one. *)
From Verif.Model Require Import Base Str.

(** tlswrapper.c:29-31, the loop with [ret]; both are pointers into the argument *)
Fixpoint basename_loop (s ret : list Z) : res (list Z) :=
  match s with
  | [] => UB
  | c :: t => if c =? 0 then Ok ret else basename_loop t (if c =? 47 then t else ret)
  end.
(** tlswrapper.c:22-33, argument not null *)
Definition basename (str : list Z) : res (list Z) := basename_loop str str.

(** the entry point called, or the argument of _exit *)
Inductive applet := Wrapper (flagnojail : Z) | Tcp (flagnojail : Z) | Smtp (flagnojail : Z) | Exit (code : Z).

(** str.h:11 *)
Definition str_equal (s t : list Z) : res bool := d <- str_diff s t ;; Ok (d =? 0).

(** tlswrapper.c:50-65; with argc < 1 there is no argv[0] *)
Definition main (argc : Z) (argv0 : option (list Z)) : res applet :=
  if argc <? 1 then Ok (Exit 100) else
  match argv0 with
  | None => Ok (Exit 100)
  | Some a =>
    x <- basename a ;;
    b <- str_equal x (bs "tlswrapper-tcp" ++ [0]) ;;
    if (b : bool) then Ok (Tcp 0) else
    b <- str_equal x (bs "tlswrapper-smtp" ++ [0]) ;;
    if (b : bool) then Ok (Smtp 0) else
    Ok (Wrapper 0)
  end.
