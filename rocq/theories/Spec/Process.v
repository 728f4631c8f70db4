(** The life of a process, read off its system calls. *)
From Verif.Model Require Import Base Sys.
From Verif.Spec Require Import Restrict.

Definition calling (nm : list Z) (e : event) : bool :=
  match fst e with Other n _ _ => if list_eq_dec Z.eq_dec n nm then true else false | _ => false end.
(** answers of fork in order, calls of waitpid *)
Definition forks (tr : trace) : list Z := map (fun e => ret (snd e)) (filter (calling (bs "fork")) tr).
Definition waits (tr : trace) : trace := filter (calling (bs "waitpid")) tr.
(** a process that was never told to be the new one *)
Definition original (tr : trace) : Prop := ~ In 0 (forks tr).

(** The exit code for the answer [a] of waitpid for the process [child]; a status word with low seven bits 0
    stands for an exit with the code in bits 8 to 15. *)
Inductive reported_status (child : Z) (a : ans) : Z -> Prop :=
| exited_with : forall w, ret a = child -> w = nth 0 (data a) 0 -> w mod 128 = 0 -> reported_status child a ((w / 256) mod 256)
| killed : forall w, ret a = child -> w = nth 0 (data a) 0 -> w mod 128 <> 0 -> reported_status child a 111
| not_waited : ret a <> child -> reported_status child a 111.

(** Data is transferred, waited for, or the end of a connection is announced. *)
Definition transfers (e : event) : Prop :=
  match fst e with Read _ _ | Write _ _ | Poll _ _ | Select _ _ _ _ | Shutdown _ _ => True | _ => False end.

(** Where the ids come from: the process id, or an entry of the account without any id 0. *)
Inductive identity : option (list Z) -> event -> bool -> Z -> Z -> Prop :=
| from_pid : forall a id, 0 <= ret a -> id = 141500000 + ret a mod 1000000000 -> identity None (Other (bs "getpid") [] [], a) false id id
| from_name : forall acc a uid gid, ret a <> 0 -> uid = u32 (nth 0 (data a) 0) -> gid = u32 (nth 1 (data a) 0) -> uid <> 0 -> gid <> 0 ->
    identity (Some acc) (Other (bs "getpwnam") [] acc, a) true uid gid.
(** All restrictions were put in place, one after the other. *)
Definition restricted (account dir : option (list Z)) (limits : bool) (t : trace) : Prop :=
  exists before e named uid gid steps t1 t2 after, t = before ++ (e :: steps ++ t1 ++ t2) ++ after /\
    identity account e named uid gid /\ Forall2 done (restrictions named dir limits uid gid) steps /\
    capped 9 134217728 t1 /\ capped 2 134217728 t2.
