(** One framed read in the three ways the program uses: pipe_readall into an object of the
    expected length, pipe_readmax into a buffer of a given capacity, pipe_readalloc into a
    fresh block.  The destination is a new object, filled with zeros before the call. *)
From Verif.Model Require Import Base Sys Io.

Inductive reader : Type := Exact (n : Z) | Upto (cap : Z) | Fresh.
Definition read_msg (fuel : nat) (fd : Z) (r : reader) : prog (option (list Z)) :=
  match r with
  | Exact n => '(c, b) <~ pipe_readall fuel fd (zeros n) n ;;
               match c with Good => Ret (Some b) | Fail _ => Ret None end
  | Upto cap => '(c, b, n) <~ pipe_readmax fuel fd (zeros cap) cap ;;
                match c with Good => Ret (Some (firstn (Z.to_nat n) b)) | Fail _ => Ret None end
  | Fresh => x <~ pipe_readalloc fuel fd ;;
             match x with inr b => Ret (Some b) | inl _ => Ret None end
  end.
