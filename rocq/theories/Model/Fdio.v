(** Model of timeoutread.c, timeoutwrite.c, fd.c (directional close) and jail_poll.c.
    Log output is omitted. *)
From Verif.Model Require Import Base Sys.

Definition FD_SETSIZE : Z := 1024.
Definition readable (a : ans) (fd : Z) : bool := existsb (Z.eqb fd) (data a).
Definition writable (a : ans) (fd : Z) : bool := existsb (Z.eqb (-1 - fd)) (data a).

(** gettimeofday: the clock in microseconds, tv_sec and tv_usec *)
Definition tv_sec (a : ans) : Z := ret a / 1000000.
Definition tv_usec (a : ans) : Z := ret a mod 1000000.
(** 1000000LL * (t + tv.tv_sec) + tv.tv_usec *)
Definition micros (t : Z) (a : ans) : res Z :=
  s <- s64 (t + tv_sec a) ;; m <- s64 (1000000 * s) ;; s64 (m + tv_usec a).

(** timeoutread.c:48-66, timeoutwrite.c:48-66.  Result: None = ready, Some e = return -1
    with errno e. *)
Fixpoint timeout_wait (fuel : nat) (rd : bool) (fd deadline : Z) : prog (option Z) :=
  match fuel with
  | O => Halt
  | S f =>
    c <~ sys1 Time ;;
    now <~ lift (micros 0 c) ;;
    tm <~ lift (s64 (deadline - now)) ;;
    if tm <=? 0 then Ret (Some ETIMEDOUT) else
    let tm := if 1000000000 <? tm then 1000000000 else tm in
    let sec := tm / 1000000 in
    let usec := tm mod 1000000 in
    a <~ sys1 (if rd then Select (fd + 1) [fd] [] (Some (1000000 * sec + usec))
               else Select (fd + 1) [] [fd] (Some (1000000 * sec + usec))) ;;
    if ret a =? -1 then
      if err a =? EINTR then timeout_wait f rd fd deadline else Ret (Some (err a))
    else if (if rd then readable a fd else writable a fd) then Ret None
    else timeout_wait f rd fd deadline
  end.

(** timeoutread.c:34-68: result, errno, data *)
Definition timeoutread (fuel : nat) (t fd n : Z) : prog (Z * Z * list Z) :=
  if (t <? 0) || (n <? 0) || (fd <? 0) || (FD_SETSIZE <=? fd) then Ret (-1, EINVAL, [])
  else
    c <~ sys1 Time ;;
    deadline <~ lift (micros t c) ;;
    w <~ timeout_wait fuel true fd deadline ;;
    match w with
    | Some e => Ret (-1, e, [])
    | None => a <~ sys1 (Read fd n) ;; Ret (ret a, err a, data a)
    end.
(** timeoutwrite.c:34-68; [len b] bytes are written *)
Definition timeoutwrite (fuel : nat) (t fd : Z) (b : list Z) (n : Z) : prog (Z * Z) :=
  if (t <? 0) || (n <? 0) || (fd <? 0) || (FD_SETSIZE <=? fd) then Ret (-1, EINVAL)
  else
    c <~ sys1 Time ;;
    deadline <~ lift (micros t c) ;;
    w <~ timeout_wait fuel false fd deadline ;;
    match w with
    | Some e => Ret (-1, e)
    | None =>
      if len b <? n then Bad else
      a <~ sys1 (Write fd (firstn (Z.to_nat n) b)) ;; Ret (ret a, err a)
    end.

Definition SHUT_RD : Z := 0.
Definition SHUT_WR : Z := 1.
(** fd.c:162-170 *)
Definition tryshutdown (fd how errno : Z) : prog (bool * Z) :=
  a <~ sys1 (Shutdown fd how) ;;
  if ret a =? 0 then Ret (true, errno) else Ret (false, err a).
(** fd.c:180-184 *)
Definition tryclose (fd errno : Z) : prog (bool * Z) :=
  a <~ sys1 (Close fd) ;;
  if ret a =? 0 then Ret (true, errno) else Ret (false, err a).
(** fd.c:200-224 and 240-264 (fdname is not null).  [None]: null pointer.  Result: the
    new value of the variable, errno. *)
Definition fd_close_ (how : Z) (fd : option Z) (errno : Z) : prog (option Z * Z) :=
  let saved := errno in
  match fd with
  | None => Ret (None, EINVAL)
  | Some v =>
    if v =? -1 then Ret (Some v, errno)
    else
      '(_, errno) <~ tryshutdown v how errno ;;
      '(_, errno) <~ tryclose v errno ;;
      Ret (Some (-1), saved)
  end.
Definition fd_close_read := fd_close_ SHUT_RD.
Definition fd_close_write := fd_close_ SHUT_WR.

(** A history of directional closes over an array of descriptor variables. *)
Fixpoint closes (h : list (bool * nat)) (v : list Z) (errno : Z) : prog (list Z * Z) :=
  match h with
  | [] => Ret (v, errno)
  | (rd, i) :: h' =>
    x <~ lift (ld v i) ;;
    '(x, errno) <~ (if rd then fd_close_read (Some x) errno else fd_close_write (Some x) errno) ;;
    match x with
    | Some x => v <~ lift (st v i x) ;; closes h' v errno
    | None => Bad
    end
  end.

Definition POLLIN : Z := 1.
Definition POLLOUT : Z := 4.
Definition has (events bit : Z) : bool := negb (Z.land events bit =? 0).
(** jail_poll.c:53-67; None: a descriptor is too large *)
Fixpoint jp_sets (x : list (Z * Z)) (nfds : Z) (rd wr : list Z) : option (Z * list Z * list Z) :=
  match x with
  | [] => Some (nfds, rd, wr)
  | (fd, ev) :: x' =>
    if fd <? 0 then jp_sets x' nfds rd wr
    else if FD_SETSIZE <=? fd then None
    else
      let nfds := if nfds <=? fd then fd + 1 else nfds in
      let rd := if has ev POLLIN then fd :: rd else rd in
      let wr := if has ev POLLOUT then fd :: wr else wr in
      jp_sets x' nfds rd wr
  end.
(** jail_poll.c:78-103; revents and the count; None: EINVAL *)
Fixpoint jp_result (x : list (Z * Z)) (a : ans) (r : Z) : option (Z * list Z) :=
  match x with
  | [] => Some (r, [])
  | (fd, ev) :: x' =>
    if fd <? 0 then
      match jp_result x' a r with Some (r, l) => Some (r, 0 :: l) | None => None end
    else if FD_SETSIZE <=? fd then None
    else
      let '(re, r) := if has ev POLLIN then (if readable a fd then (Z.lor 0 POLLIN, r + 1) else (0, r)) else (0, r) in
      let '(re, r) := if has ev POLLOUT then (if writable a fd then (Z.lor re POLLOUT, r + 1) else (re, r)) else (re, r) in
      match jp_result x' a r with Some (r, l) => Some (r, re :: l) | None => None end
  end.
(** jail_poll.c:37-104: result, errno if it is -1, revents.  (On the second EINVAL the
    revents of earlier entries stay; it cannot happen after the first check.) *)
Definition jail_poll (x : list (Z * Z)) (ms : Z) : prog (Z * Z * list Z) :=
  let zero := map (fun _ => 0) x in
  match jp_sets x 1 [] [] with
  | None => Ret (-1, EINVAL, zero)
  | Some (nfds, rd, wr) =>
    let tv := if 0 <=? ms then Some (1000000 * Z.quot ms 1000 + 1000 * Z.rem ms 1000) else None in
    a <~ sys1 (Select nfds rd wr tv) ;;
    if ret a <=? 0 then Ret (ret a, err a, zero)
    else match jp_result x a 0 with
         | Some (r, l) => Ret (r, 0, l)
         | None => Ret (-1, EINVAL, zero)
         end
  end.
