(** Model of conn.c, socket.c (socket_tcp, socket_connect, socket_connected),
    milliseconds.c and fd_blocking_disable (fd.c).

    The two static arrays fds and dupfds are one list of 8 pairs.  errno is modelled where
    the code looks at it.  Log output is omitted.  A socket address is the 16 address bytes
    followed by the 2 port bytes; the constant parts of sockaddr_in6 are omitted. *)
From Verif.Model Require Import Base Sys Buffer Fdio.

Definition EINPROGRESS : Z := 115.
Definition MAXIP : Z := 8.  (* conn.c:21 *)
Definition slots : Type := list (Z * Z).
Definition none : Z * Z := (-1, -1).
(** conn.c:23-24 *)
Definition conn_start_state : slots := repeat none 8.

(** fd.c:290-298 *)
Definition fd_blocking_disable (fd : Z) : prog unit :=
  a <~ sys1 (Other (bs "fcntl") [fd; 3; 0] []) ;;
  if ret a =? -1 then Ret tt
  else _ <~ sys1 (Other (bs "fcntl") [fd; 4; Z.lor (ret a) 2048] []) ;; Ret tt.
(** socket.c:24-45 *)
Definition socket_tcp : prog Z :=
  a <~ sys1 (Other (bs "socket") [] []) ;;
  let s := ret a in
  if s =? -1 then Ret (-1)
  else
    b <~ sys1 (Other (bs "fcntl") [s; 2; 1] []) ;;
    if ret b =? -1 then _ <~ sys1 (Close s) ;; Ret (-1)
    else
      c <~ sys1 (Other (bs "setsockopt") [s] []) ;;
      if ret c =? -1 then _ <~ sys1 (Close s) ;; Ret (-1)
      else _ <~ fd_blocking_disable s ;; Ret s.
(** socket.c:58-68 *)
Definition socket_connect (s : Z) (ip port : list Z) : prog ans :=
  i <~ lift (slice ip 0 16) ;;
  p <~ lift (slice port 0 2) ;;
  sys1 (Other (bs "connect") [s] (i ++ p)).
(** socket.c:78-91 *)
Definition socket_connected (s : Z) : prog bool :=
  a <~ sys1 (Other (bs "getpeername") [s] []) ;;
  if ret a =? -1 then _ <~ sys1 (Read s 1) ;; Ret false else Ret true.
(** milliseconds.c:15-20 *)
Definition milliseconds : prog Z :=
  a <~ sys1 Time ;;
  s <~ lift (s64 (tv_sec a * 1000)) ;;
  lift (s64 (s + tv_usec a / 1000)).
(** conversion to int *)
Definition s32 (x : Z) : Z := let y := u32 x in if 2147483648 <=? y then y - 4294967296 else y.

(** conn.c:33-40 *)
Fixpoint findslot (sl : slots) (fd : Z) (i : nat) : option nat :=
  match sl with
  | [] => None
  | (a, _) :: sl' => if a =? fd then Some i else findslot sl' fd (S i)
  end.
(** conn.c:50-65; [slot] None: index -1 *)
Definition closeslot (sl : slots) (slot : option nat) : prog slots :=
  match slot with
  | None => Ret sl
  | Some i =>
    match nth_error sl i with
    | None => Ret sl
    | Some (a, b) =>
      _ <~ sys1 (Close a) ;;
      _ <~ sys1 (Close b) ;;
      Ret (upd sl i none)
    end
  end.
(** conn.c:73-76 *)
Fixpoint conn_reset_from (m i : nat) (sl : slots) : prog slots :=
  match m with
  | O => Ret sl
  | S m => sl <~ closeslot sl (Some i) ;; conn_reset_from m (S i) sl
  end.
Definition conn_reset : slots -> prog slots := conn_reset_from 8 0.

(** conn.c:165-179; [m] slots to go *)
Fixpoint conn_prepare (m i : nat) (sl : slots) : prog (bool * slots) :=
  match m with
  | O => Ret (true, sl)
  | S m =>
    fd <~ socket_tcp ;;
    let sl := upd sl i (fd, snd (nth i sl none)) in
    if fd =? -1 then sl <~ conn_reset sl ;; Ret (false, sl)
    else
      d <~ sys1 (Other (bs "dup") [fd] []) ;;
      let sl := upd sl i (fd, ret d) in
      if ret d =? -1 then sl <~ conn_reset sl ;; Ret (false, sl)
      else conn_prepare m (S i) sl
  end.
(** conn.c:156-180 *)
Definition conn_init (sl : slots) (num : Z) : prog (bool * slots) :=
  sl <~ conn_reset sl ;;
  let num := if MAXIP <? num then MAXIP else num in
  conn_prepare (Z.to_nat num) 0 sl.

(** conn.c:117-130; [w] is the winning slot *)
Fixpoint copyip_loop (m i w : nat) (sl : slots) (ip : list Z) (dupfd : Z) : prog (slots * list Z * Z) :=
  match m with
  | O => Ret (sl, ip, dupfd)
  | S m =>
    match nth_error sl i with
    | None => Bad
    | Some (a, b) =>
      if Nat.eqb i w then
        x <~ lift (slice ip (16 * Z.of_nat i) 16) ;;
        let ip := x ++ skipn 16 ip in
        copyip_loop m (S i) w (upd sl i none) ip b
      else if negb (a =? -1) || negb (b =? -1) then
        sl <~ closeslot sl (Some i) ;;
        copyip_loop m (S i) w sl ip dupfd
      else copyip_loop m (S i) w sl ip dupfd
    end
  end.
(** conn.c:109-131 *)
Definition conn_copyip (fd : Z) (sl : slots) (ip : list Z) (iplen : Z) : prog (slots * list Z * Z) :=
  let iplen := if MAXIP * 16 <? iplen then MAXIP * 16 else iplen in
  match findslot sl fd 0 with
  | None => Ret (sl, ip, -1)
  | Some slot =>
    if iplen / 16 <=? Z.of_nat slot then Ret (sl, ip, -1)
    else copyip_loop (Z.to_nat (iplen / 16)) 0 slot sl ip (-1)
  end.

(** conn.c:231-250; the winning descriptor, if a connect succeeded at once *)
Fixpoint conn_start (m i : nat) (sl : slots) (ip port : list Z) : prog (option Z * slots) :=
  match m with
  | O => Ret (None, sl)
  | S m =>
    match nth_error sl i with
    | None => Bad
    | Some (fd, _) =>
      a <~ socket_connect fd (skipn (16 * i) ip) port ;;
      if ret a =? 0 then Ret (Some fd, sl)
      else if negb (err a =? EINPROGRESS) && negb (err a =? EAGAIN) then
        sl <~ closeslot sl (Some i) ;;
        conn_start m (S i) sl ip port
      else conn_start m (S i) sl ip port
    end
  end.
(** conn.c:255-262 *)
Definition pending (n : nat) (sl : slots) : list Z :=
  filter (fun fd => negb (fd =? -1)) (map fst (firstn n sl)).
(** conn.c:296-315 *)
Fixpoint conn_check (p : list (Z * Z)) (sl : slots) : prog (option Z * slots) :=
  match p with
  | [] => Ret (None, sl)
  | (fd, re) :: p' =>
    if re =? 0 then conn_check p' sl
    else
      ok <~ socket_connected fd ;;
      if ok : bool then Ret (Some fd, sl)
      else
        sl <~ closeslot sl (findslot sl fd 0) ;;
        conn_check p' sl
  end.
(** conn.c:252-316 *)
Fixpoint conn_wait (fuel : nat) (deadline : Z) (n : nat) (sl : slots) : prog (option Z * slots) :=
  match fuel with
  | O => Halt
  | S fuel =>
    let p := pending n sl in
    match p with
    | [] => sl <~ conn_reset sl ;; Ret (None, sl)
    | _ =>
      now <~ milliseconds ;;
      tm <~ lift (s64 (deadline - now)) ;;
      if tm <=? 0 then sl <~ conn_reset sl ;; Ret (None, sl)
      else
        '(r, e, re) <~ jail_poll (map (fun fd => (fd, POLLOUT)) p) (s32 tm) ;;
        if r =? -1 then
          if e =? EINTR then conn_wait fuel deadline n sl
          else sl <~ conn_reset sl ;; Ret (None, sl)
        else
          '(w, sl) <~ conn_check (combine p re) sl ;;
          match w with
          | Some fd => Ret (Some fd, sl)
          | None => conn_wait fuel deadline n sl
          end
    end
  end.
(** conn.c:206-317; the pointers are not null.  Result: connfds, ip, slots; None: return 0. *)
Definition conn (fuel : nat) (sl : slots) (timeout : Z) (ip : list Z) (iplen : Z) (port : list Z) : prog (option (Z * Z) * list Z * slots) :=
  now <~ milliseconds ;;
  t <~ lift (s64 (1000 * timeout)) ;;
  deadline <~ lift (s64 (now + t)) ;;
  let iplen := if MAXIP * 16 <? iplen then MAXIP * 16 else iplen in
  if (timeout <? 1) || (iplen <? 16) then Ret (None, ip, sl)
  else
    let n := Z.to_nat (iplen / 16) in
    '(w, sl) <~ conn_start n 0 sl ip port ;;
    '(w, sl) <~ (match w with
                 | Some fd => Ret (Some fd, sl)
                 | None => conn_wait fuel deadline n sl
                 end) ;;
    match w with
    | None => Ret (None, ip, sl)
    | Some fd =>
      '(sl, ip, d) <~ conn_copyip fd sl ip iplen ;;
      Ret (Some (fd, d), ip, sl)
    end.

(** The two calls as main_tlswrapper_tcp.c:330-357 makes them. *)
Definition connect_any (fuel : nat) (num timeout : Z) (ip : list Z) (iplen : Z) (port : list Z) : prog (option (Z * Z) * list Z * slots) :=
  '(ok, sl) <~ conn_init conn_start_state num ;;
  if negb ok then Ret (None, ip, sl)
  else conn fuel sl timeout ip iplen port.
