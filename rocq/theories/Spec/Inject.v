(** The wrapper and the wrapped program joined by pipes: one history of both. *)
From Verif.Model Require Import Base Sys.

Inductive who : Type := Wrap | Prog.
Definition is_who (x y : who) : bool := match x, y with Wrap, Wrap | Prog, Prog => true | _, _ => false end.
Definition joint : Type := list (who * event).
Definition part (x : who) (j : joint) : trace := map snd (filter (fun e => is_who x (fst e)) j).
(** [x] writes to the descriptor [f], [y] reads from [g]: bytes come out in order and not before they went in;
    a read that finds nothing, or the end of file, found the pipe empty. *)
Definition pipe (x : who) (f : Z) (y : who) (g : Z) (j : joint) : Prop :=
  (forall j1 j2, j = j1 ++ j2 -> exists u, sent f (part x j1) = got g (part y j1) ++ u) /\
  (forall j1 n a j2, j = j1 ++ (y, (Read g n, a)) :: j2 -> 0 < n -> ret a = 0 \/ (ret a = -1 /\ err a = EAGAIN) ->
     sent f (part x j1) = got g (part y j1)).
