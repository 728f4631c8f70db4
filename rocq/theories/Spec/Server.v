(** How tlswrapper-smtp starts the mail server. *)
From Verif.Model Require Import Base Sys.
From Verif.Spec Require Import Process Fdtable Program.

(** Blocking mode (bit 11 of the status flags) is switched on or off and the other flags are kept; nothing is
    changed if they cannot be read. *)
Definition switched (fd : Z) (blocks : bool) (t : trace) : Prop :=
  exists a, (ret a = -1 /\ t = [(Other (bs "fcntl") [fd; 3; 0] [], a)]) \/
    (ret a <> -1 /\ exists v b, t = [(Other (bs "fcntl") [fd; 3; 0] [], a); (Other (bs "fcntl") [fd; 4; v] [], b)] /\
       forall n, 0 <= n -> Z.testbit v n = if n =? 11 then negb blocks else Z.testbit (ret a) n).
(** A pipe, both ends closed on exec and not blocking. *)
Definition piped (r w : Z) (t : trace) : Prop :=
  exists a b c m1 m2, t = (Other (bs "pipe") [] [], a) :: ((Other (bs "fcntl") [r; 2; 1] [], b) :: m1) ++ ((Other (bs "fcntl") [w; 2; 1] [], c) :: m2) /\
    ret a <> -1 /\ nth 0 (data a) 0 = r /\ nth 1 (data a) 0 = w /\ switched r false m1 /\ switched w false m2.
(** [fd] replaces [n] and blocks; [unused] is closed. *)
Definition installed (unused fd n : Z) (t : trace) : Prop :=
  exists a b d m, t = (Close unused, a) :: (Close n, b) :: (Other (bs "dup") [fd] [], d) :: m /\ ret d = n /\ switched n true m.
(** Whether the STARTTLS descriptors exist is looked up. *)
Definition probed (tls : bool) (t : trace) : Prop :=
  exists a, (ret a <> 0 /\ tls = false /\ t = [(Other (bs "fstat") [5] [], a)]) \/
    (ret a = 0 /\ exists b, t = [(Other (bs "fstat") [5] [], a); (Other (bs "fstat") [6] [], b)] /\ (tls = true <-> ret b = 0)).
(** All calls of the process that becomes the mail server. *)
Record served (user : option (list Z)) (prg : list (list Z)) (tr : trace) : Prop := {
  sv_trace : exists t0 tp tls p1 p2 f al s0 s1 c5 d sigs x r1 w1 r2 w2,
    tr = t0 ++ tp ++ p1 ++ p2 ++ [(Other (bs "fork") [] [], f)] ++ [al] ++ s0 ++ s1 ++ [c5] ++ d ++ sigs ++ [(Other (bs "execvp") [] (hd [] prg), x)] /\
    map fst t0 = [Other (bs "signal") [13; 1] []; Other (bs "signal") [14; 2] []; Other (bs "alarm") [30] []] /\
    probed tls tp /\ piped r1 w1 p1 /\ piped r2 w2 p2 /\ ret f = 0 /\ fst al = Other (bs "alarm") [0] [] /\
    installed w1 r1 0 s0 /\ installed r2 w2 1 s1 /\ fst c5 = Close 5 /\
    match user with Some u => lowered u d | None => d = [] end /\
    map fst sigs = [Other (bs "signal") [13; 0] []; Other (bs "signal") [14; 0] []] /\ ret x <> -1 }.
(** What the mail server inherits, exactly: its ends of the two pipes in place of the connection, and everything
    else tlswrapper-smtp was started with, but descriptor 5. *)
Definition server_fds (T : table) (s : fdstate) : Prop :=
  forall fd o, tab s fd = Some (o, false) <->
    (fd = 0 /\ o = ReadEnd 1) \/ (fd = 1 /\ o = WriteEnd 2) \/ (fd <> 0 /\ fd <> 1 /\ fd <> 5 /\ T fd = Some (o, false)).
