(** Specification vocabulary for the secrets in the memory of the key process.  The calls are those of
    the process with the outside (see the head of Model/Keyjail.v); randombytes is called to overwrite
    an object, and the sizes tell the objects apart: the scalar has 66 bytes, the buffer of the shared
    secret 133, the key of the key file 32. *)
From Verif.Model Require Import Base Sys.
From Coq Require Import Bool.

Definition eqs (x y : list Z) : bool := if list_eq_dec Z.eq_dec x y then true else false.

(** What is in memory: the scalar of the key exchange, the shared secret, the decoded private key, the
    clear text of the key file, the key that made the text clear; and whether the keys of the session
    have been derived. *)
Record secrets : Type := mksecrets { scalar : bool; shared : bool; private : bool; file : bool; filekey : bool; derived : bool }.
Definition none : secrets := mksecrets false false false false false false.
Definition scalar_only : secrets := mksecrets true false false false false false.
Definition session_only : secrets := mksecrets false false false false false true.
Definition note (s : secrets) (e : event) : secrets :=
  match fst e with
  | Other n l d =>
    if eqs n (bs "mulgen") then mksecrets true (shared s) (private s) (file s) (filekey s) (derived s)
    else if eqs n (bs "mul") then mksecrets (scalar s) true (private s) (file s) (filekey s) (derived s)
    else if eqs n (bs "seccrt_parse") then mksecrets (scalar s) (shared s) true (negb (eqs d [])) true (derived s)
    else if eqs n (bs "derive") then mksecrets (scalar s) (shared s) (private s) (file s) (filekey s) true
    else if eqs n (bs "alloc_free") && eqs d (bs "sec") then mksecrets (scalar s) (shared s) (private s) false (filekey s) (derived s)
    else if eqs n (bs "randombytes") then
      if eqs d (bs "keycrt") then mksecrets (scalar s) (shared s) false (file s) (filekey s) (derived s)
      else if eqs l [66] then mksecrets false (shared s) (private s) (file s) (filekey s) (derived s)
      else if eqs l [133] then mksecrets (scalar s) false (private s) (file s) (filekey s) (derived s)
      else if eqs l [32] then mksecrets (scalar s) (shared s) (private s) (file s) false (derived s)
      else s
    else s
  | _ => s
  end.
Definition kept (t : trace) : secrets := fold_left note t none.

(** Talking (reading, writing, waiting): no key, no file, no shared secret in memory.  Making a scalar:
    nothing at all.  Decoding the key, using the scalar: the scalar and nothing else.  Signing: the
    file is gone.  Deriving the keys of the session: no scalar, no key, no file, and for the first
    time.  Working for the session: the keys of the session and nothing else. *)
Definition discreet (h : trace) (e : event) : Prop :=
  let s := kept h in
  match fst e with
  | Read _ _ | Write _ _ | Poll _ _ => private s = false /\ file s = false /\ filekey s = false /\ shared s = false
  | Other n _ _ =>
    (n = bs "mulgen" -> s = none) /\
    (n = bs "seccrt_parse" -> s = scalar_only) /\
    (n = bs "mul" -> s = scalar_only) /\
    (n = bs "do_sign" -> private s = true /\ file s = false /\ shared s = false /\ derived s = false) /\
    (n = bs "derive" -> scalar s = false /\ shared s = true /\ private s = false /\ file s = false /\ filekey s = false /\ derived s = false) /\
    (n = bs "prf" \/ n = bs "encrypt" \/ n = bs "decrypt" -> s = session_only)
  | _ => True
  end.
