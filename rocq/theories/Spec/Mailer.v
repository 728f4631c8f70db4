(** tlswrapper-smtp up to the SMTP session. *)
From Verif.Model Require Import Base Sys Inet Conninfo.
From Verif.Spec Require Import Process Descriptors Program Resolver Forward Server Attempt SmtpSpec.

(** [x] is the first address given for [host]: by the system's resolver, which was asked for one, or by the helper. *)
Definition chosen (decode : list Z -> list (list Z)) (nojail : bool) (host : list Z) (t : trace) (x : list Z) : Prop :=
  if nojail then exists y a, In (Other (bs "getaddrinfo") [] (host ++ 0 :: y), a) t /\ lookup decode 1 a (Some [x])
  else exists cs, answered decode false host t (x :: cs).
(** Without -g there is no policy server.  With it, its address was looked up, and the session has a connection to it, or
    one was tried in vain and that does not matter. *)
Definition policed (decode : list Z -> list (list Z)) (nojail : bool) (crw : Z) (grey : option (list Z * Z)) (strict : bool) (t : trace) (policy : option Z) : Prop :=
  match grey with
  | None => policy = None
  | Some (host, port) => exists x, chosen decode nojail host t x /\
    match policy with
    | Some fd => exists other, linked [x] port t fd other
    | None => strict = false /\ exists t1 u t2, t = t1 ++ u ++ t2 /\ in_vain [x] [port / 256; port mod 256] crw u
    end
  end.
(** What is done before the session [g] begins: the STARTTLS descriptors are looked up; two pipes to and from the mail
    server are made and it is started; the client's address is found out; nothing was read or written; the time limit is
    set last. *)
Record opened (I : inet) (env : environment) (decode : list Z -> list (list Z)) (nojail : bool) (timeout crw : Z) (grey : option (list Z * Z))
  (t : trace) (g : setting) : Prop := {
  op_quiet : Forall (fun e => wordless (fst e)) t;
  op_trace : exists t0 tp p1 p2 f c1 c2 s1 s2 rest al r1 w2,
    t = t0 ++ tp ++ p1 ++ p2 ++ [(Other (bs "fork") [] [], f)] ++ [c1; c2] ++ s1 ++ s2 ++ rest ++ [al] /\
    map fst t0 = [Other (bs "signal") [13; 1] []; Other (bs "signal") [14; 2] []; Other (bs "alarm") [30] []] /\
    probed (offers g) tp /\ piped r1 (toprog g) p1 /\ piped (fromprog g) w2 p2 /\ ret f = pid g /\ 0 <> pid g /\ -1 <> pid g /\
    fst c1 = Close w2 /\ fst c2 = Close r1 /\ switched (fromprog g) true s1 /\ switched (toprog g) true s2 /\
    fst al = Other (bs "alarm") [timeout] [];
  op_unread : got 0 t = [] /\ got (fromprog g) t = [] /\ (forall fd, policy g = Some fd -> got fd t = []);
  op_policy : policed decode nojail crw grey (strict g) t (policy g);
  op_peer : exists i, observed I env false t i /\ ip g = iptostr I (remoteip i) }.

(** the descriptors of the session besides those the process was given *)
Definition wired (g : setting) : list Z := fromprog g :: toprog g :: match policy g with Some p => [p] | None => [] end.
(** fstat succeeds for open descriptors only *)
Definition fstats (L : list Z) (tr : trace) : Prop :=
  forall t1 fd a t2 L1, tr = t1 ++ (Other (bs "fstat") [fd] [], a) :: t2 -> ret a = 0 -> fdrun L t1 = Some L1 -> In fd L1.
