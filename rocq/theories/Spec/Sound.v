(** The two ways into undefined behaviour that are open to a process of tlswrapper. *)
From Verif.Model Require Import Base Sys.
From Verif.Spec Require Import Stream Process Fdtable Cmdline Protocol.

(** [t] is the life of the process with the key, or of the original process, from the second fork on. *)
Definition key_process (t : trace) : Prop := exists c, c <> 0 /\ forks t = [c; 0].
Definition first_process (t : trace) : Prop := exists c k, c <> 0 /\ k <> 0 /\ forks t = [c; k].
Inductive excepted (T : table) (l : list item) (tr : trace) : Prop :=
(** the key process was asked, after other requests, for a PRF with a label that has no terminator *)
| unterminated_label : forall before after ms ty label n seed, tr = before ++ after -> key_process before ->
    got 0 tr = frames (ms ++ [ty; label; n; seed]) -> leval ty = 0 -> ~ In 0 label -> excepted T l tr
(** with -a, and nothing else: the key process sent -2^63 for the length of the anchor file *)
| negative_length : forall before after fd, args 97 l <> [] -> tr = before ++ after -> first_process before ->
    tab (descriptors T before) fd = Some (ReadEnd 5, true) -> got fd tr = le 8 (2 ^ 63) -> excepted T l tr.
