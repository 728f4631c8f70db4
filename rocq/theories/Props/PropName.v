(** C03: host names.  Specification: Spec/Name.v. *)
From Verif.Model Require Import Base Parsename.
From Verif.Spec Require Import Name.
From Verif.Proof Require Import Tac NameP.

(** For every NUL-terminated string and every 256-byte output buffer the parser
    returns normally (so it neither reads past the NUL nor writes outside the
    buffer); it accepts exactly the valid names, and then the buffer is the wire
    form followed by zeros. *)
Theorem C03_parsename_exact : forall s rest out, nonul s -> length out = 256%nat ->
  exists r, parsename_ out (s ++ 0 :: rest) = Ok r /\
  match r with
  | Some out' => exists ls, valid_name s ls /\ out' = wire ls ++ repeat 0 (256 - length (wire ls))
  | None => forall ls, ~ valid_name s ls
  end.
Proof. exact parsename_correct. Qed.
Print Assumptions C03_parsename_exact.

(** The encoding is lossless: equal wire forms mean equal label lists. *)
Theorem C03_wire_injective : forall a b,
  Forall label_ok a -> Forall label_ok b -> wire a = wire b -> a = b.
Proof. exact wire_inj. Qed.
Print Assumptions C03_wire_injective.

Example C03_ex1 : exists r,
  parsename_ (repeat 170 256) (bs "www.example-1.com." ++ [0]) = Ok (Some r) /\
  firstn 20 r = [3] ++ bs "www" ++ [9] ++ bs "example-1" ++ [3] ++ bs "com" ++ [0; 0].
Proof. eexists. split; [vm_compute; reflexivity|reflexivity]. Qed.
Example C03_ex2 : parsename_ (repeat 170 256) (bs "a..b" ++ [0]) = Ok None.
Proof. reflexivity. Qed.
Example C03_ex3 : parsename_ (repeat 170 256) (bs "-a.b" ++ [0]) = Ok None.
Proof. reflexivity. Qed.
Example C03_ex4 : parsename_ (repeat 170 256) (bs "a/b" ++ [0]) = Ok None.
Proof. reflexivity. Qed.
Example C03_ex_hyp : valid_name (bs "a.b-c") [bs "a"; bs "b-c"].
Proof.
  split; [left; reflexivity|]. split; [|cbn; lia].
  repeat apply Forall_cons; try apply Forall_nil; repeat split; try discriminate; try (cbn; lia);
    repeat apply Forall_cons; try apply Forall_nil; unfold lab_char; cbn; lia.
Qed.
