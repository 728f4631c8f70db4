(** Independent specification of "host[:port]" strings. *)
From Verif.Model Require Import Base Inet.
From Verif.Spec Require Import Num.

(** [hp_form s host port six]: [s] denotes [host] and [port] ([] if there is no
    port); [six] tells whether the form is reserved for IPv6 literals. *)
Inductive hp_form : list Z -> list Z -> list Z -> bool -> Prop :=
| hp_br h :                            (* [h] *)
    h <> [] -> ~ In 91 h -> ~ In 93 h ->
    hp_form (91 :: h ++ [93]) h [] true
| hp_br_port h p :                     (* [h]:p *)
    h <> [] -> ~ In 91 h -> ~ In 93 h -> p <> [] -> ~ In 93 p ->
    hp_form (91 :: h ++ [93; 58] ++ p) h p true
| hp_plain h :                         (* h *)
    h <> [] -> hd 0 h <> 91 -> ~ In 93 h -> ~ In 58 h ->
    hp_form h h [] false
| hp_plain_port h p :                  (* h:p *)
    h <> [] -> hd 0 h <> 91 -> ~ In 93 h -> ~ In 58 h -> p <> [] -> ~ In 93 p -> ~ In 58 p ->
    hp_form (h ++ 58 :: p) h p false
| hp_multi a b c :                     (* a:b:c, whole text is the host *)
    hd 0 (a ++ 58 :: b ++ 58 :: c) <> 91 -> ~ In 93 (a ++ 58 :: b ++ 58 :: c) ->
    hp_form (a ++ 58 :: b ++ 58 :: c) (a ++ 58 :: b ++ 58 :: c) [] true.

(** Acceptable to a caller; [wantport] is false if the caller does not ask for
    the port. *)
Definition hp_ok (I : inet) (wantport : bool) (s host port : list Z) : Prop :=
  exists six, hp_form s host port six /\
    (length host <= 255)%nat /\
    (six = true -> pton6 I host <> None) /\
    (wantport = true -> port = [] \/ (numeral port /\ decval port < 65536)).

(** A string [s] stored NUL-terminated and zero-filled in an [n] byte buffer. *)
Definition stored (n : nat) (s : list Z) : list Z := s ++ repeat 0 (n - length s).
