(** Common parts of the relay loops (main_tlswrapper.c, main_tlswrapper_tcp.c): reading and
    writing with buffers in static storage, waiting for descriptors.  The TCP relay.
    Log output is omitted. *)
From Verif.Model Require Import Base Sys Io Fdio.

(** fd.c:57-82 with 29-43: result, errno, data.  The buffer is not null; [room] is the number
    of bytes between the destination and the end of its object. *)
Definition fd_read (fd room n : Z) : prog (Z * Z * list Z) :=
  if n <? 0 then Ret (-1, EINVAL, [])
  else
    let n := if CHUNK <? n then CHUNK else n in
    if room <? n then Bad else
    a <~ sys1 (Read fd n) ;; Ret (ret a, err a, data a).
(** fd.c:123-148 with 95-109; [x] are the bytes from the source pointer on *)
Definition fd_write (fd : Z) (x : list Z) (n : Z) : prog (Z * Z) :=
  if n <? 0 then Ret (-1, EINVAL)
  else
    let n := if CHUNK <? n then CHUNK else n in
    if len x <? n then Bad else
    a <~ sys1 (Write fd (firstn (Z.to_nat n) x)) ;; Ret (ret a, err a).
(** if (r == -1) if (errno == EINTR || errno == EAGAIN) continue; *)
Definition again (r e : Z) : bool := (r =? -1) && ((e =? EINTR) || (e =? EAGAIN)).

(** A buffer in static storage and the number of bytes in use. *)
Record rbuf : Type := mkrbuf { mem : list Z; fill : Z }.
(** The kernel stored [d] at buf + buflen, buflen += r *)
Definition append (b : rbuf) (r : Z) (d : list Z) : rbuf :=
  mkrbuf (firstn (Z.to_nat (fill b)) (mem b) ++ d ++ skipn (Z.to_nat (fill b) + length d) (mem b)) (u64 (fill b + r)).
(** memmove(buf, buf + r, buflen - r), buflen -= r (sizes are unsigned) *)
Definition consume (b : rbuf) (r : Z) : res rbuf :=
  let n := u64 (fill b - r) in
  if (r <? 0) || (len (mem b) <? r + n) then UB
  else Ok (mkrbuf (firstn (Z.to_nat n) (skipn (Z.to_nat r) (mem b)) ++ skipn (Z.to_nat n) (mem b)) n).

(** The watch pointers: (condition, descriptor, events) in the order of the pollfd array. *)
Definition watcher : Type := (bool * Z * Z)%type.
Fixpoint polled (ws : list watcher) : list (Z * Z) :=
  match ws with
  | [] => []
  | (c, fd, ev) :: ws => if c then (fd, ev) :: polled ws else polled ws
  end.
Fixpoint hits (ws : list watcher) (rev : list Z) : list bool :=
  match ws with
  | [] => []
  | (c, fd, ev) :: ws =>
    if c then negb (List.hd 0 rev =? 0) :: hits ws (List.tl rev) else false :: hits ws rev
  end.
(** Waiting, then clearing the watch pointers: main_tlswrapper_tcp.c:428-444,
    main_tlswrapper.c:744-755, 1054-1063. *)
Definition watch (ws : list watcher) : prog (list bool) :=
  '(r, e, rev) <~ jail_poll (polled ws) (-1) ;;
  if r <? 0 then Ret (map (fun _ => false) ws) else Ret (hits ws rev).

(** fd_close_read(name, &v), fd_close_write(name, &v): the new value of the variable. *)
Definition shut_r (v : Z) : prog Z :=
  '(x, _) <~ fd_close_read (Some v) stale ;; match x with Some x => Ret x | None => Bad end.
Definition shut_w (v : Z) : prog Z :=
  '(x, _) <~ fd_close_write (Some v) stale ;; match x with Some x => Ret x | None => Bad end.

(** A loop: [Again] is continue (or the end of the body), [Stop] leaves the loop. *)
Inductive nxt (S R : Type) : Type := Again (s : S) | Stop (r : R).
Arguments Again {S R} _.
Arguments Stop {S R} _.
Fixpoint iter {S R} (fuel : nat) (body : S -> prog (nxt S R)) (s : S) : prog R :=
  match fuel with
  | O => Halt
  | Datatypes.S fuel =>
    x <~ body s ;;
    match x with Again s => iter fuel body s | Stop r => Ret r end
  end.

Definition open (v : Z) : bool := negb (v =? -1).
Definition BUFFER : Z := 8192.
Definition empty : rbuf := mkrbuf (repeat 0 (Z.to_nat 8192)) 0.
Definition alarm (t : Z) : prog unit := _ <~ sys1 (Other (bs "alarm") [t] []) ;; Ret tt.

(** ** main_tlswrapper_tcp.c *)
Record tcp : Type := mktcp {
  localin : Z; localout : Z; remotein : Z; remoteout : Z; inb : rbuf; outb : rbuf }.

Section Tcp.
Variable timeout self : Z.     (* timeout, selfpipe[0] *)

(** 389-396 *)
Definition tcp_eof (s : tcp) : prog tcp :=
  s <~ (if negb (open (localin s)) && open (remoteout s) && (fill (inb s) =? 0) then
          ro <~ shut_w (remoteout s) ;; Ret (mktcp (localin s) (localout s) (remotein s) ro (inb s) (outb s))
        else Ret s) ;;
  (if negb (open (remotein s)) && open (localout s) && (fill (outb s) =? 0) then
     lo <~ shut_w (localout s) ;; Ret (mktcp (localin s) lo (remotein s) (remoteout s) (inb s) (outb s))
   else Ret s).
(** 397-401 *)
Definition tcp_done (s : tcp) : bool :=
  negb (open (localin s)) && negb (open (remotein s)) && negb (open (remoteout s)) && negb (open (localout s)) &&
  (fill (inb s) =? 0) && (fill (outb s) =? 0).
(** 407-431: watch0, watch1, watchtoremote, watchfromremote, watchfromselfpipe *)
Definition tcp_watch (s : tcp) : list watcher :=
  [(open (localin s) && open (remoteout s) && (fill (inb s) <? BUFFER), localin s, POLLIN);
   (open (localout s) && (0 <? fill (outb s)), localout s, POLLOUT);
   (open (remoteout s) && ((0 <? fill (inb s)) || negb (open (localin s))), remoteout s, POLLOUT);
   (open (remotein s) && open (localout s) && (fill (outb s) <? BUFFER), remotein s, POLLIN);
   (true, self, POLLIN)].
(** 450-462 *)
Definition tcp_toremote (s : tcp) : prog (nxt tcp tcp) :=
  if 0 <? fill (inb s) then
    '(r, e) <~ fd_write (remoteout s) (mem (inb s)) (fill (inb s)) ;;
    if again r e then Ret (Again s)
    else if r <=? 0 then
      ro <~ shut_w (remoteout s) ;; Ret (Stop (mktcp (localin s) (localout s) (remotein s) ro (inb s) (outb s)))
    else
      b <~ lift (consume (inb s) r) ;;
      Ret (Again (mktcp (localin s) (localout s) (remotein s) (remoteout s) b (outb s)))
  else Ret (Again s).
(** 464-475 *)
Definition tcp_tolocal (s : tcp) : prog (nxt tcp tcp) :=
  '(r, e) <~ fd_write (localout s) (mem (outb s)) (fill (outb s)) ;;
  if again r e then Ret (Again s)
  else if r <=? 0 then
    lo <~ shut_w (localout s) ;; Ret (Stop (mktcp (localin s) lo (remotein s) (remoteout s) (inb s) (outb s)))
  else
    b <~ lift (consume (outb s) r) ;;
    Ret (Again (mktcp (localin s) (localout s) (remotein s) (remoteout s) (inb s) b)).
(** 477-489 *)
Definition tcp_fromlocal (s : tcp) : prog (nxt tcp tcp) :=
  '(r, e, d) <~ fd_read (localin s) (len (mem (inb s)) - fill (inb s)) (u64 (BUFFER - fill (inb s))) ;;
  if again r e then Ret (Again s)
  else if r <=? 0 then
    li <~ shut_r (localin s) ;; Ret (Again (mktcp li (localout s) (remotein s) (remoteout s) (inb s) (outb s)))
  else
    _ <~ alarm timeout ;;
    Ret (Again (mktcp (localin s) (localout s) (remotein s) (remoteout s) (append (inb s) r d) (outb s))).
(** 491-503 *)
Definition tcp_fromremote (s : tcp) : prog (nxt tcp tcp) :=
  '(r, e, d) <~ fd_read (remotein s) (len (mem (outb s)) - fill (outb s)) (u64 (BUFFER - fill (outb s))) ;;
  if again r e then Ret (Again s)
  else if r <=? 0 then
    ri <~ shut_r (remotein s) ;; Ret (Again (mktcp (localin s) (localout s) ri (remoteout s) (inb s) (outb s)))
  else
    _ <~ alarm timeout ;;
    Ret (Again (mktcp (localin s) (localout s) (remotein s) (remoteout s) (inb s) (append (outb s) r d))).
(** 378-510 *)
Definition tcp_body (s : tcp) : prog (nxt tcp tcp) :=
  s <~ tcp_eof s ;;
  if tcp_done s then Ret (Stop s)
  else
    h <~ watch (tcp_watch s) ;;
    match h with
    | [w0; w1; wto; wfrom; wself] =>
      if (wto : bool) then tcp_toremote s
      else if (w1 : bool) then tcp_tolocal s
      else if (w0 : bool) then tcp_fromlocal s
      else if (wfrom : bool) then tcp_fromremote s
      else if (wself : bool) then Ret (Stop s)
      else Ret (Again s)
    | _ => Bad
    end.
(** 378-514: the loop and the closes behind it, then die(0).  [h] is the PROXY header put
    into inbuf at 361-367 (empty without -P). *)
Definition tcp_relay (fuel : nat) (ri ro : Z) (h : list Z) : prog Z :=
  s <~ iter fuel tcp_body (mktcp 0 1 ri ro (append empty (len h) h) empty) ;;
  _ <~ shut_r (remotein s) ;;
  _ <~ shut_w (remoteout s) ;;
  Ret 0.
End Tcp.
