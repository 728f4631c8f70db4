(** The alarm clocks of tlswrapper-tcp and tlswrapper-smtp, read off their system calls. *)
From Verif.Model Require Import Base Sys.
From Verif.Spec Require Import Flow Process Watchdog.

(** tlswrapper-tcp, [th] its timeout.  There is no clock at all until SIGALRM has a handler; then every wait has the
    clock running with all of the timeout since the last thing read, and includes the self-pipe; it is set to nothing
    else, and all but one time for something that came in. *)
Definition forward_guarded (th : Z) (t : trace) (e : event) : Prop :=
  let w := seen t in
  (action w = 0 -> clk w = Off /\ calling (bs "alarm") e = false) /\
  (action w = 0 \/ action w = 2) /\
  (action w = 2 -> match fst e with
    | Select _ rd _ None => In (newest w) rd /\ due w = false /\ clk w = Running th
    | Other m args _ => m = bs "alarm" -> args = [th] /\ rearmed w + 1 <= fed w + 1
    | _ => True
    end).

(** what sets the clock or changes what happens when it rings *)
Definition sets (e : event) : bool :=
  match fst e with
  | Other m args _ => named m (bs "alarm") || ((named m (bs "signal") || named m (bs "sigaction")) && (hd 0 args =? 14))
  | _ => false
  end.
Definition settings (t : trace) : list sys := map fst (filter sets t).
Definition on_alarm : sys := Other (bs "signal") [14; 2] [].
Definition alarm_in (n : Z) : sys := Other (bs "alarm") [n] [].
(** tlswrapper-smtp, [th] its timeout: the clock is set twice, to half a minute and to the timeout; nothing is written before that,
    and nothing read but single bytes (the test of a connection). *)
Definition twice (th : Z) : list sys := [on_alarm; alarm_in 30; alarm_in th].
Definition mail_guarded (th : Z) (t : trace) (e : event) : Prop :=
  (match fst e with Read _ n => n <> 1 -> settings t = twice th | Write _ _ => settings t = twice th | _ => True end) /\
  (sets e = true -> exists n, settings (t ++ [e]) = firstn n (twice th)).
