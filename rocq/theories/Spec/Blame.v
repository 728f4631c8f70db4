(** Why tlswrapper-tcp and tlswrapper-smtp give up with exit status 111. *)
From Verif.Model Require Import Base Sys.
From Verif.Spec Require Import Restrict Process Resolver Forward Attempt Mailer.

(** somewhere in the trace *)
Definition within (P : trace -> Prop) (t : trace) : Prop := exists t1 u t2, t = t1 ++ u ++ t2 /\ P u.
(** a call that takes no argument failed *)
Definition failing (nm : list Z) (u : trace) : Prop := exists a, u = [(Other nm [] [], a)] /\ ret a = -1.
(** A socket was not made, or is not closed on exec, or is not sent without delay, or not duplicated. *)
Definition unsocketed (u : trace) : Prop :=
  exists a v, u = (Other (bs "socket") [] [], a) :: v /\
    (ret a = -1 \/
     exists b, (In (Other (bs "fcntl") [ret a; 2; 1] [], b) v \/ In (Other (bs "setsockopt") [ret a] [], b) v \/ In (Other (bs "dup") [ret a] [], b) v) /\ ret b = -1).
(** There is no such account, or it is root's; or all restrictions but the last one tried were set up. *)
Definition unconfined (account : option (list Z)) (dir : list Z) (u : trace) : Prop :=
  (exists acc a, account = Some acc /\ u = [(Other (bs "getpwnam") [] acc, a)] /\ (ret a = 0 \/ u32 (nth 0 (data a) 0) = 0 \/ u32 (nth 1 (data a) 0) = 0)) \/
  exists e named uid gid, identity account e named uid gid /\
    ((exists l1 s l2 t e1, restrictions named (Some dir) true uid gid = l1 ++ s :: l2 /\ u = e :: t ++ [e1] /\ Forall2 done l1 t /\ missed s e1) \/
     (exists t t1, u = e :: t ++ t1 /\ Forall2 done (restrictions named (Some dir) true uid gid) t /\
        (uncapped 9 134217728 t1 \/ exists t2 t3, t1 = t2 ++ t3 /\ capped 9 134217728 t2 /\ uncapped 2 134217728 t3))).
(** No address is known for [host]: the system's resolver, asked for [max] of them, fails or has none; or the name is too
    long for the helper, or the helper is not there, or it answers that it failed or that there is none. *)
Definition nowhere (decode : list Z -> list (list Z)) (nojail : bool) (max : nat) (host : list Z) (u : trace) : Prop :=
  if nojail then exists x a v, u = (Other (bs "getaddrinfo") [] (host ++ 0 :: x), a) :: v /\ (lookup decode max a None \/ lookup decode max a (Some []))
  else
    (u = [] /\ 255 < len host) \/
    exists fd s v, u = (Other (bs "send") [fd] (host ++ repeat 0 (256 - length host)), s) :: v /\
      (ret s <> 256 \/ exists r, v = [(Other (bs "recv") [fd; 256] [], r)] /\ (ret r <= 0 \/ data r = [255] \/ data r = [0])).

(** tlswrapper-tcp: no helper, no address, no pipe to itself, no sockets, no jail, or no connection. *)
Definition tcp_gives_up (decode : list Z -> list (list Z)) (nojail : bool) (account : option (list Z)) (dir host : list Z) (port connect : Z) (t : trace) : Prop :=
  (nojail = false /\ (within (failing (bs "socketpair")) t \/ within (failing (bs "fork")) t)) \/
  within (nowhere decode nojail 8 host) t \/
  within (failing (bs "pipe")) t \/
  within unsocketed t \/
  (nojail = false /\ within (unconfined account dir) t) \/
  exists cs, answered decode nojail host t cs /\ within (in_vain cs [port / 256; port mod 256] connect) t.
(** tlswrapper-smtp: no pipes or process for the mail server, no jail; and with a policy server: no helper, no socket, no
    address, or no connection although one is demanded. *)
Definition smtp_gives_up (decode : list Z -> list (list Z)) (nojail : bool) (account : option (list Z)) (dir : list Z) (crw : Z) (grey : option (list Z * Z)) (strict : bool) (t : trace) : Prop :=
  within (failing (bs "pipe")) t \/
  within (failing (bs "fork")) t \/
  (nojail = false /\ within (unconfined account dir) t) \/
  exists host port, grey = Some (host, port) /\
    ((nojail = false /\ within (failing (bs "socketpair")) t) \/
     within unsocketed t \/
     within (nowhere decode nojail 1 host) t \/
     (strict = true /\ exists x, chosen decode nojail host t x /\ within (in_vain [x] [port / 256; port mod 256] crw) t)).
