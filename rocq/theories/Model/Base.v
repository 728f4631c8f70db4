(** Common vocabulary of the model: bytes, outcomes, C integer ranges.

    Modelling conventions (used by every model file):
    - a byte is a [Z] between 0 and 255; C [char] data is modelled by its
      unsigned value (every comparison in the code that depends on the
      signedness of [char] is written out where it occurs);
    - a readable pointer is the list of bytes from the pointer to the end of
      the object; dereferencing the empty list is [UB];
    - [UB] is undefined behaviour (out-of-bounds access, signed overflow,
      NULL dereference), [Fuel] is "the loop bound given to the model ran
      out", which is never a normal outcome. *)
From Coq Require Export ZArith List Bool Lia.
From Coq Require Ascii String.
Export ListNotations String.StringSyntax.
Open Scope Z_scope.

(** Outcome of a modelled C function. *)
Inductive res (A : Type) : Type :=
| Ok (a : A)
| UB
| Fuel.
Arguments Ok {A} _.
Arguments UB {A}.
Arguments Fuel {A}.

Definition bind {A B} (x : res A) (f : A -> res B) : res B :=
  match x with Ok a => f a | UB => UB | Fuel => Fuel end.

Declare Scope res_scope.
Delimit Scope res_scope with res.
Notation "x <- e ;; f" := (bind e (fun x => f))
  (at level 61, e at next level, right associativity) : res_scope.
Notation "' p <- e ;; f" := (bind e (fun p => f))
  (at level 61, p pattern, e at next level, right associativity) : res_scope.
Open Scope res_scope.

(** [*p] for a pointer modelled by the bytes from it to the end of its object. *)
Definition deref (p : list Z) : res Z :=
  match p with [] => UB | c :: _ => Ok c end.

(** [p[i]] *)
Definition ld (p : list Z) (i : nat) : res Z :=
  match nth_error p i with Some c => Ok c | None => UB end.

Fixpoint upd {A} (l : list A) (i : nat) (x : A) : list A :=
  match l, i with
  | [], _ => []
  | _ :: t, O => x :: t
  | h :: t, S i' => h :: upd t i' x
  end.

(** [p[i] = x] *)
Definition st (p : list Z) (i : nat) (x : Z) : res (list Z) :=
  if (i <? length p)%nat then Ok (upd p i x) else UB.

(** 64-bit unsigned wrap-around and the signed 64-bit range. *)
Definition two64 : Z := 18446744073709551616.
Definition two63 : Z := 9223372036854775808.
Definition u64 (x : Z) : Z := x mod two64.
Definition in_s64 (x : Z) : Prop := - two63 <= x < two63.
Definition in_s64b (x : Z) : bool := (- two63 <=? x) && (x <? two63).
(** Signed arithmetic: the result must be representable, otherwise UB. *)
Definition s64 (x : Z) : res Z := if in_s64b x then Ok x else UB.
(** 8-bit truncation, [(unsigned char) x]. *)
Definition u8 (x : Z) : Z := x mod 256.
Definition u16 (x : Z) : Z := x mod 65536.
Definition u32 (x : Z) : Z := x mod 4294967296.

Definition is_byte (b : Z) : Prop := 0 <= b < 256.
Definition bytes (l : list Z) : Prop := Forall is_byte l.
(** Content of a C string: bytes different from the terminating NUL. *)
Definition nonul (l : list Z) : Prop := Forall (fun b => 0 < b < 256) l.

(** Literals. *)
Definition bs (s : String.string) : list Z :=
  map (fun c => Z.of_N (Ascii.N_of_ascii c)) (String.list_ascii_of_string s).
Arguments bs s%string_scope.

Definition len {A} (l : list A) : Z := Z.of_nat (length l).
