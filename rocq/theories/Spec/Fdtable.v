(** The descriptors of a process, read off its system calls. *)
From Verif.Model Require Import Base Sys.
From Verif.Spec Require Import Process.

(** What a descriptor stands for: something the process was started with, an end of the n-th pipe, a file. *)
Inductive object := Given (fd : Z) | ReadEnd (n : nat) | WriteEnd (n : nat) | File.
(** for each open descriptor the object, and whether it is closed when a program is executed *)
Definition table : Type := Z -> option (object * bool).
Definition set (T : table) (fd : Z) (v : option (object * bool)) : table := fun f => if f =? fd then v else T f.
Record fdstate := mkfds { tab : table; pipecount : nat }.

Definition step (s : fdstate) (e : event) : fdstate :=
  let a := snd e in
  match fst e with
  | Close fd => mkfds (set (tab s) fd None) (pipecount s)
  | Other _ args _ =>
    if ret a =? -1 then s
    else if calling (bs "pipe") e then
      mkfds (set (set (tab s) (nth 0 (data a) 0) (Some (ReadEnd (S (pipecount s)), false))) (nth 1 (data a) 0) (Some (WriteEnd (S (pipecount s)), false))) (S (pipecount s))
    else if calling (bs "open") e || calling (bs "open_read") e then mkfds (set (tab s) (ret a) (Some (File, false))) (pipecount s)
    else if calling (bs "dup") e then
      mkfds (set (tab s) (ret a) (match tab s (nth 0 args 0) with Some (o, _) => Some (o, false) | None => None end)) (pipecount s)
    else if calling (bs "fcntl") e && (nth 1 args 0 =? 2) then
      mkfds (set (tab s) (nth 0 args 0) (match tab s (nth 0 args 0) with Some (o, _) => Some (o, Z.testbit (nth 2 args 0) 0) | None => None end)) (pipecount s)
    else s
  | _ => s
  end.
(** A process that was started with the descriptors [T]. *)
Definition descriptors (T : table) (t : trace) : fdstate := fold_left step t (mkfds T 0).

Definition is_object (o : object) (x : option (object * bool)) : bool :=
  match x, o with
  | Some (Given a, _), Given b => a =? b
  | Some (ReadEnd a, _), ReadEnd b => Nat.eqb a b
  | Some (WriteEnd a, _), WriteEnd b => Nat.eqb a b
  | Some (File, _), File => true
  | _, _ => false
  end.
(** The bytes accepted from a process for an object, and those it reads from an object, over all descriptors that
    stand for it at the time. *)
Definition put (o : object) (s : fdstate) (e : event) : list Z :=
  match fst e with Write fd b => if is_object o (tab s fd) then firstn (Z.to_nat (ret (snd e))) b else [] | _ => [] end.
Definition took (o : object) (s : fdstate) (e : event) : list Z :=
  match fst e with Read fd _ => if is_object o (tab s fd) then data (snd e) else [] | _ => [] end.
Definition flow (f : fdstate -> event -> list Z) (T : table) (t : trace) : list Z :=
  snd (fold_left (fun x e => (step (fst x) e, snd x ++ f (fst x) e)) t (mkfds T 0, [])).
Definition written (T : table) (o : object) : trace -> list Z := flow (put o) T.
Definition taken (T : table) (o : object) : trace -> list Z := flow (took o) T.

(** The kernel: a new descriptor is the lowest that is not in use (pipe: the two lowest) and fits into a set for
    select; a closed descriptor cannot be duplicated; the flag of an open descriptor can be set. *)
Definition fresh (s : fdstate) (other fd : Z) : Prop := tab s fd = None /\ 0 <= fd < 1024 /\ forall f, 0 <= f < fd -> f <> other -> tab s f <> None.
Definition fd_answer (s : fdstate) (e : event) : Prop :=
  let a := snd e in
  (calling (bs "pipe") e = true -> ret a <> -1 ->
     nth 0 (data a) 0 <> nth 1 (data a) 0 /\ fresh s (nth 1 (data a) 0) (nth 0 (data a) 0) /\ fresh s (nth 0 (data a) 0) (nth 1 (data a) 0)) /\
  (calling (bs "open") e = true \/ calling (bs "open_read") e = true \/ calling (bs "dup") e = true -> ret a <> -1 -> fresh s (-1) (ret a)) /\
  (forall fd d, fst e = Other (bs "dup") [fd] d -> tab s fd = None -> ret a = -1) /\
  (forall fd v d, fst e = Other (bs "fcntl") [fd; 2; v] d -> tab s fd <> None -> ret a <> -1).
Definition kernel_fds (T : table) (tr : trace) : Prop := forall t1 e t2, tr = t1 ++ e :: t2 -> fd_answer (descriptors T t1) e.
(** What tlswrapper is started with: the connection on 0 and 1, and nothing that uses the numbers in a special
    way. *)
Definition start_table (T : table) : Prop := (forall fd o b, T fd = Some (o, b) -> o = Given fd /\ 0 <= fd) /\ T 0 <> None /\ T 1 <> None.

(** What the program inherits, exactly: its ends of the first two pipes, with -n those of the next two and
    /dev/null for free numbers below; and what tlswrapper itself was started with. *)
Definition program_fds (T : table) (delay : bool) (s : fdstate) : Prop :=
  forall fd o, tab s fd = Some (o, false) <->
    (fd = 0 /\ o = ReadEnd 1) \/ (fd = 1 /\ o = WriteEnd 2) \/
    (delay = true /\ fd = 5 /\ o = WriteEnd 3) \/ (delay = true /\ fd = 6 /\ o = ReadEnd 4) \/
    (delay = true /\ 2 <= fd <= 4 /\ T fd = None /\ o = File) \/
    (fd <> 0 /\ fd <> 1 /\ fd <> 5 /\ fd <> 6 /\ T fd = Some (o, false)).
(** The process with the key: its two pipes, files, and nothing of the connection or of the program. *)
Definition key_fds (s : fdstate) : Prop :=
  forall fd o b, tab s fd = Some (o, b) -> o = ReadEnd 6 \/ o = WriteEnd 5 \/ o = File \/ (o = Given fd /\ 2 <= fd).
(** The wrapper: its own ends only; the program's output has a smaller number than its control pipe. *)
Definition wrapper_fds (s : fdstate) : Prop :=
  (forall fd o b, tab s fd = Some (o, b) ->
    In o [WriteEnd 1; ReadEnd 2; ReadEnd 3; WriteEnd 4; ReadEnd 5; WriteEnd 6; ReadEnd 7; WriteEnd 7; File] \/ o = Given fd) /\
  (forall fd b fd' b', tab s fd = Some (ReadEnd 2, b) -> tab s fd' = Some (ReadEnd 3, b') -> fd < fd').
