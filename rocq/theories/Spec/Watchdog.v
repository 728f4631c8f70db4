(** The alarm clock of a process, read off its system calls. *)
From Verif.Model Require Import Base Sys.

Definition named (n m : list Z) : bool := if list_eq_dec Z.eq_dec n m then true else false.
(** not set, set to so many seconds, or rung: its byte was taken from the self-pipe *)
Inductive clock : Type := Off | Running (n : Z) | Rung.
(** [clk] the clock; [action] what SIGALRM does: 0 it ends the process, 1 nothing, 2 the handler writes to the self-pipe,
    3 it ends the process again, after there has been a handler; [newest] the read end of the pipe made last; since the
    handler is in place, [rearmed] counts the calls of alarm and [fed] the reads that gave something; [due] something was
    read since the clock was set. *)
Record guard : Type := mkguard { clk : clock; action : Z; newest : Z; rearmed : Z; fed : Z; due : bool }.
Definition look (w : guard) (e : event) : guard :=
  match e with
  | (Read fd _, a) =>
    if (action w =? 2) && (0 <? ret a) then
      mkguard (if (fd =? newest w) && (hd 0 (data a) =? 65) then Rung else clk w) (action w) (newest w) (rearmed w) (fed w + 1) true
    else w
  | (Other m args _, a) =>
    if named m (bs "alarm") then
      let n := hd 0 args in
      mkguard (if n =? 0 then Off else Running n) (action w) (newest w) (if action w =? 2 then rearmed w + 1 else rearmed w) (fed w) false
    else if named m (bs "sigaction") && (hd 0 args =? 14) && negb (ret a =? -1) then mkguard (clk w) 2 (newest w) 0 0 false
    else if named m (bs "signal") && (hd 0 args =? 14) then
      let d := nth 1 args 0 in mkguard (clk w) (if d =? 0 then 3 else d) (newest w) (rearmed w) (fed w) (due w)
    else if named m (bs "pipe") && negb (ret a =? -1) then mkguard (clk w) (action w) (nth 0 (data a) 0) (rearmed w) (fed w) (due w)
    else w
  | _ => w
  end.
Definition seen (t : trace) : guard := fold_left look t (mkguard Off 0 (-1) 0 0 false).

(** The clock supervises what happens: [th] is the timeout of the session, [hh] the one of the handshake. *)
Definition guarded (th hh : Z) (t : trace) (e : event) : Prop :=
  let w := seen t in
  (* before the handler: SIGALRM ends the process, and it will come *)
  (action w = 0 -> (clk w = Running 10 /\ fst e = Other (bs "alarm") [hh] []) \/ clk w = Running hh) /\
  (action w <> 1) /\
  (* the handler: every wait has a running clock and includes the self-pipe; the clock was set anew after
     everything read; it is set only to the given times,
     and all but two times for something that came in *)
  (action w = 2 -> match fst e with
    | Select _ rd _ None => In (newest w) rd /\ due w = false /\ exists n, clk w = Running n /\ In n [th; hh; 1]
    | Other m args _ => m = bs "alarm" -> (exists n, args = [n] /\ In n [th; hh; 1]) /\ rearmed w + 1 <= fed w + 2
    | _ => True
    end) /\
  (* afterwards: nothing is transferred or waited for but the two processes *)
  (action w = 3 -> match fst e with
    | Shutdown _ _ | Close _ => True
    | Other m _ _ => m = bs "waitpid"
    | _ => False
    end).
(** the limits in [guarded] are up to a day *)
Definition day (n : Z) : Prop := 1 <= n <= 86400.
