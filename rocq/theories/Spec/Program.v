(** How the program is started. *)
From Verif.Model Require Import Base Sys Inet Conninfo Proxy.
From Verif.Spec Require Import Num Ip Text Stream Restrict Proxy Endpoints Process Cmdline.

(** The name in an account record: the text before the first NUL; the last byte counts as one. *)
Definition account_of (r : list Z) : list Z := before 0 (removelast r).
(** From now on the process has the ids of the account: groups first, then the user, each checked; nothing of it
    failed, and no other call was made. *)
Definition lowered (account : list Z) (t : trace) : Prop :=
  exists e uid gid steps t1 t2, t = e :: steps ++ t1 ++ t2 /\ identity (Some account) e true uid gid /\
    Forall2 done (restrictions true None false uid gid) steps /\ capped 9 134217728 t1 /\ capped 2 134217728 t2.
(** Variables stored one after the other. *)
Definition stored (vars : list (list Z * list Z)) (t : trace) : Prop :=
  Forall2 (fun v e => fst e = Other (bs "setenv") [] (fst v ++ 61 :: snd v)) vars t.
(** Only reads from [fd]. *)
Definition reading (fd : Z) (t : trace) : Prop := Forall (fun e => exists n, fst e = Read fd n) t.
(** The four variables that describe the connection. *)
Definition told_env (I : inet) (i : info) (t : trace) : Prop :=
  exists a b c d, ip_text I a (localip i) /\ port_text b (localport i) /\ ip_text I c (remoteip i) /\ port_text d (remoteport i) /\
    stored [(bs "TCPREMOTEIP", c); (bs "TCPREMOTEPORT", d); (bs "TCPLOCALIP", a); (bs "TCPLOCALPORT", b)] t.
(** From the connection information to the program, exactly: four frames are received, the variables stored, the
    account record received, the ids changed to the record's account (with -U) and to the account of -u, three
    signals reset, and the program executed.  [d1], [d2]: the two changes of ids. *)
Record handed_over (I : inet) (usercert : bool) (user : option (list Z)) (prg : list (list Z)) (t : trace) (i : info) (r : list Z) (d1 d2 : trace) : Prop := {
  ho_trace : exists tinfo tenv trec sigs a, t = tinfo ++ tenv ++ trec ++ d1 ++ d2 ++ sigs ++ [(Other (bs "execvp") [] (hd [] prg), a)] /\ ret a <> -1 /\
    reading 0 tinfo /\ got 0 tinfo = frame (localip i) ++ frame (localport i) ++ frame (remoteip i) ++ frame (remoteport i) /\
    told_env I i tenv /\ reading 0 trec /\ got 0 trec = frame r /\
    map fst sigs = [Other (bs "signal") [13; 0] []; Other (bs "signal") [17; 0] []; Other (bs "signal") [15; 0] []];
  ho_info : endpoints i;
  ho_record : bytes r /\ len r <= 256;
  ho_cert : (usercert = true /\ 1 < len r /\ lowered (account_of r) d1) \/ ((usercert = false \/ len r <= 1) /\ d1 = []);
  ho_user : match user with Some u => lowered u d2 | None => d2 = [] end }.

(** ** What the wrapper tells the program's process *)
(** The name of a socket in an answer: the family, then the fields of sockaddr_in (4 and 2 bytes) and of
    sockaddr_in6 (16 and 2 bytes). *)
Definition field (x : ans) (k n : nat) : list Z := map (fun j => nth (S k + j) (data x) 0 mod 256) (seq 0 n).
Definition socket_answer (x : ans) : option sockname :=
  if ret x =? -1 then None else Some (mksock (nth 0 (data x) 0) (field x 0 4) (field x 4 2) (field x 6 16) (field x 22 2)).
(** The two ends of the connection: from the PROXY line with "-p 1", else from the environment if all four
    variables are valid, else from the socket if it has two internet names. *)
Definition observed (I : inet) (env : environment) (proxy : bool) (t : trace) (i : info) : Prop :=
  if proxy then exists t1 t2 u, t = t1 ++ t2 /\ got 0 t1 = u ++ [10] /\ ~ In 10 u /\ pp_line I (u ++ [10]) (mkep (localip i) (localport i) (remoteip i) (remoteport i))
  else
    env_says I env i \/
    (forall j, ~ env_says I env j) /\
    ((exists x y a b c d, In (Other (bs "getsockname") [0] [], x) t /\ In (Other (bs "getpeername") [0] [], y) t /\
        sock_says (socket_answer x) a b /\ sock_says (socket_answer y) c d /\ i = mkinfo a b c d) \/
     (exists nm x, (nm = bs "getsockname" \/ nm = bs "getpeername") /\ In (Other nm [0] [], x) t /\ forall a b, ~ sock_says (socket_answer x) a b)).
Definition sized (i : info) : Prop := length (localip i) = 16%nat /\ length (localport i) = 2%nat /\ length (remoteip i) = 16%nat /\ length (remoteport i) = 2%nat.
Definition frames (i : info) : list Z := frame (localip i) ++ frame (localport i) ++ frame (remoteip i) ++ frame (remoteport i).
(** -U is given; "-p 1" is given. *)
Definition fromcert (l : list item) : bool := match last_arg 85 l with Some _ => true | None => false end.
Definition proxied (l : list item) : bool := if in_dec (list_eq_dec Z.eq_dec) (bs "1") (args 112 l) then true else false.
