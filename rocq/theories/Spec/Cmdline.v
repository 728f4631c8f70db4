(** The command line of tlswrapper(1), independent of how it is parsed. *)
From Verif.Model Require Import Base Sys.
From Verif.Spec Require Import Num Settings.

(** An option letter alone or with its argument.  Words are strings without their NUL. *)
Inductive item := Flag (c : Z) | Opt (c : Z) (a : list Z).
Definition flag_letters : list Z := bs "qQvsSnN".
Definition arg_letters : list Z := bs "pUumMTtdfaecJj".

(** letters after a '-': the argument of an option is the rest of the word, or the next word if there is no rest *)
Inductive group : list Z -> list (list Z) -> list item -> list (list Z) -> Prop :=
| group_end : forall ws, group [] ws [] ws
| group_flag : forall c t ws l ws', In c flag_letters -> group t ws l ws' -> group (c :: t) ws (Flag c :: l) ws'
| group_joined : forall c t ws, In c arg_letters -> t <> [] -> group (c :: t) ws [Opt c t] ws
| group_apart : forall c w ws, In c arg_letters -> group [c] (w :: ws) [Opt c w] ws.
(** words: options, and the words of the program *)
Inductive line : list (list Z) -> list item -> list (list Z) -> Prop :=
| line_empty : line [] [] []
| line_program : forall w ws, hd 0 w <> 45 -> line (w :: ws) [] (w :: ws)
| line_dash : forall ws, line (bs "-" :: ws) [] ws
| line_dashes : forall ws, line (bs "--" :: ws) [] ws
| line_group : forall t ws l ws' l' ws'', t <> [] -> t <> bs "-" -> group t ws l ws' -> line ws' l' ws'' ->
    line ((45 :: t) :: ws) (l ++ l') ws''.

(** the arguments given with a letter, in order *)
Definition args (c : Z) (l : list item) : list (list Z) :=
  flat_map (fun i => match i with Opt d a => if d =? c then [a] else [] | Flag _ => [] end) l.
Definition last_arg (c : Z) (l : list item) : option (list Z) := hd_error (rev (args c l)).
(** the last of two opposite letters *)
Definition last_flag (on off : Z) (start : bool) (l : list item) : bool :=
  fold_left (fun v i => match i with Flag c => if c =? on then true else if c =? off then false else v | Opt _ _ => v end) l start.
(** certificate entries with their file type, in order *)
Definition entries (l : list item) : list (list Z * Z) :=
  flat_map (fun i => match i with Opt d a => if d =? 100 then [(a, 16384)] else if d =? 102 then [(a, 32768)] else [] | Flag _ => [] end) l.

(** the call that looks at a file found one of this type *)
Definition looked (a : list Z) (type : Z) (e : event) : Prop :=
  fst e = Other (bs "stat") [] a /\ ret (snd e) <> -1 /\ Z.land (nth 0 (data (snd e)) 0 mod 4294967296) 61440 = type.
(** an option is allowed after [before], with the calls it makes *)
Definition allowed (before : list item) (i : item) (t : trace) : Prop :=
  match i with
  | Flag _ => t = []
  | Opt c a =>
    if c =? 112 then (a = bs "0" \/ a = bs "1") /\ t = []
    else if c =? 85 then (a = bs "commonName" \/ a = bs "emailAddress") /\ t = []
    else if (c =? 109) || (c =? 77) then lookup version_names a <> None /\ t = []
    else if c =? 101 then lookup group_names a <> None /\ t = []
    else if c =? 99 then lookup suite_names a <> None /\ t = []
    else if c =? 100 then exists e, t = [e] /\ looked a 16384 e /\ (length (entries before) < 4)%nat
    else if c =? 102 then exists e, t = [e] /\ looked a 32768 e /\ (length (entries before) < 4)%nat
    else if c =? 97 then exists e, t = [e] /\ looked a 32768 e /\ args 97 before = []
    else t = []
  end.
Inductive all_allowed : list item -> list item -> trace -> Prop :=
| allowed_nil : forall before, all_allowed before [] []
| allowed_cons : forall before i l t1 t2, allowed before i t1 -> all_allowed (before ++ [i]) l t2 -> all_allowed before (i :: l) (t1 ++ t2).

Definition delay (l : list item) : bool := last_flag 110 78 false l.
Definition seconds (a : option (list Z)) (default : list Z) (v : Z) : Prop :=
  signed_numeral (match a with Some s => s | None => default end) v /\ 1 <= v <= 86400.

(** a command line on which the program may be started *)
Record accepted (words : list (list Z)) (l : list item) (prg : list (list Z)) (timeout hstimeout : Z) (tr : trace) : Prop := {
  a_line : line words l prg;
  a_allowed : all_allowed [] l tr;
  a_program : prg <> [];
  a_entries : entries l <> [];
  a_anchor : args 85 l <> [] -> args 97 l <> [];
  a_delay : args 85 l <> [] -> delay l = false;
  a_timeout : seconds (last_arg 116 l) (bs "60") timeout;
  a_hstimeout : seconds (last_arg 84 l) (bs "30") hstimeout }.
