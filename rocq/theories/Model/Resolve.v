(** Model of randommod.c, randombytes.c and resolvehost.c.

    Simplifications: log output is omitted.  The copy of a 16-byte block onto itself
    (memcpy with equal pointers, resolvehost.c:44,49) is taken to leave the block as it is. *)
From Verif.Model Require Import Base Sys Io Buffer Pem.

(** randombytes.c:49-74 reading from /dev/urandom; [n] bytes are left. *)
Fixpoint randombytes_loop (fuel : nat) (fd : Z) (x : list Z) (n : Z) : prog (list Z) :=
  match fuel with
  | O => Halt
  | S f =>
    if 0 <? n then
      let i := if n <? 1048576 then n else 1048576 in
      a <~ sys1 (Read fd i) ;;
      if ret a <? 1 then (_ <~ sys1 (Other (bs "sleep") [1] []) ;; randombytes_loop f fd x n)
      else randombytes_loop f fd (x ++ data a) (n - ret a)
    else Ret x
  end.
Definition randombytes_c (fuel : nat) (fd : Z) (n : Z) : prog (list Z) := randombytes_loop fuel fd [] n.

(** randommod.c:29-31; result * 256 is signed arithmetic, the sum and the remainder
    are unsigned *)
Fixpoint rm_loop (r : list Z) (result n : Z) : res Z :=
  match r with
  | [] => Ok result
  | b :: r' => m <- s64 (result * 256) ;; rm_loop r' (u64 (u64 m + b) mod n) n
  end.
(** randommod.c:23-33 *)
Definition randommod (n : Z) : prog Z :=
  if n <=? 1 then Ret 0
  else r <~ randombytes 32 ;; lift (rm_loop r 0 n).

(** 16 bytes at an offset *)
Definition block (s : list Z) (i : Z) : res (list Z) :=
  if (i <? 0) || (len s <? i + 16) then UB else Ok (firstn 16 (skipn (Z.to_nat i) s)).
(** resolvehost.c:24-31 *)
Definition swap (s : list Z) (i j : Z) : res (list Z) :=
  t <- block s i ;;
  y <- block s j ;;
  s <- copyin s i y 16 ;;
  copyin s j t 16.

(** resolvehost.c:41-45 *)
Fixpoint shuffle (n : nat) (s : list Z) : prog (list Z) :=
  match n with
  | O | S O => Ret s
  | S n' =>
    i <~ randommod (Z.of_nat n) ;;
    s <~ lift (swap s (16 * i) (16 * Z.of_nat n')) ;;
    shuffle n' s
  end.

Definition mapped : list Z := [0;0;0;0;0;0;0;0;0;0;255;255].
(** memcmp(s + i, mapped, 12) *)
Definition ismapped (s : list Z) (i : Z) : res bool :=
  b <- block s i ;; Ok (if list_eq_dec Z.eq_dec (firstn 12 b) mapped then true else false).
(** resolvehost.c:47-52; [k] rounds are left *)
Fixpoint firstv6 (k : nat) (s : list Z) (i nn : Z) : res (list Z) :=
  match k with
  | O => Ok s
  | S k' =>
    if i + 16 <=? nn then
      m <- ismapped s i ;;
      if negb m then swap s i 0 else firstv6 k' s (i + 16) nn
    else Ok s
  end.
(** resolvehost.c:33-53 *)
Definition sortip (s : list Z) (nn : Z) : prog (list Z) :=
  if nn <? 0 then Ret s
  else
    let n := Z.to_nat (Z.shiftr nn 4) in
    s <~ shuffle n s ;;
    lift (firstv6 (S n) s 0 nn).

(** Results of getaddrinfo in the answer: for each entry the number of address bytes
    (4 for sockaddr_in, 16 for sockaddr_in6, other values for other address kinds) and
    the address. *)
Fixpoint gai (fuel : nat) (d : list Z) : list (list Z) :=
  match fuel, d with
  | S f, n :: d' => firstn (Z.to_nat n) d' :: gai f (skipn (Z.to_nat n) d')
  | _, _ => []
  end.
Definition gai_list (d : list Z) : list (list Z) := gai (length d) d.

(** resolvehost.c:107-124 *)
Fixpoint collect (l : list (list Z)) (ip : list Z) (n iplen : Z) : res (list Z * Z) :=
  match l with
  | [] => Ok (ip, n)
  | a :: l' =>
    if len a =? 4 then
      if n + 16 <=? iplen then
        ip <- copyin ip n mapped 12 ;;
        ip <- copyin ip (n + 12) a 4 ;;
        collect l' ip (n + 16) iplen
      else collect l' ip n iplen
    else if len a =? 16 then
      if n + 16 <=? iplen then
        ip <- copyin ip n a 16 ;;
        collect l' ip (n + 16) iplen
      else collect l' ip n iplen
    else collect l' ip n iplen
  end.
(** resolvehost.c:128; [k] is iplen - len - i *)
Fixpoint cyclefill (k : nat) (ip : list Z) (n : nat) (i : nat) : res (list Z) :=
  match k with
  | O => Ok ip
  | S k' => c <- ld ip i ;; ip <- st ip (n + i) c ;; cyclefill k' ip n (S i)
  end.

Definition EMFILE : Z := 24.
Definition EAI_NONAME : Z := -2.
Definition EAI_NODATA : Z := -5.
Definition EAI_SYSTEM : Z := -11.

(** resolvehost.c:74-134; returns the length, errno if it is -1, and the buffer.
    [None] are null pointers; getaddrinfo: ret = error code, err = errno. *)
Definition resolvehost (ip : option (list Z)) (iplen : Z) (host : option (list Z)) : prog (Z * Z * list Z) :=
  match ip, host with
  | Some ip, Some host =>
    if iplen <? 16 then Ret (-1, EINVAL, ip) else
    a <~ sys1 (Other (bs "getaddrinfo") [] host) ;;
    if negb (ret a =? 0) then
      let e := if (ret a =? EAI_NONAME) && (err a =? EMFILE) then EAI_SYSTEM else ret a in
      let errno := if e =? EAI_SYSTEM then err a else 0 in
      let n := if (e =? EAI_NONAME) || (e =? EAI_NODATA) then 0 else -1 in
      Ret (n, errno, ip)
    else
      '(ip, n) <~ lift (collect (gai_list (data a)) ip 0 iplen) ;;
      if 0 <? n then
        ip <~ sortip ip n ;;
        ip <~ lift (cyclefill (Z.to_nat (iplen - n)) ip (Z.to_nat n) 0) ;;
        Ret (n, 0, ip)
      else Ret (n, 0, ip)
  | _, _ => Ret (-1, EINVAL, match ip with Some x => x | None => [] end)
  end.

(** Datagram sockets: Other "send" [fd] datagram, Other "recv" [fd; size]; ret = number
    of bytes, data = the datagram (cut to the size by the kernel). *)
Definition Send (fd : Z) (b : list Z) : sys := Other (bs "send") [fd] b.
Definition Recv (fd n : Z) : sys := Other (bs "recv") [fd; n] [].

(** resolvehost.c:171-199: the helper's loop; [pk] tells how often its parent is still
    there.  The poll answer is revents of the descriptor in data.  The buffers are
    uninitialised at first.  Result: exit status. *)
Fixpoint helper (fuel : nat) (fd ppid : Z) (buf ip : list Z) : prog Z :=
  match fuel with
  | O => Halt
  | S f =>
    pp <~ sys1 (Other (bs "getppid") [] []) ;;
    if negb (ret pp =? ppid) then Ret 0 else
    p <~ sys1 (Poll [(fd, 1)] 1000) ;;
    if (match data p with [0] => true | [] => true | _ => false end) then helper f fd ppid buf ip else
    a <~ sys1 (Recv fd 257) ;;
    if ret a =? 257 then Ret 0
    else if ret a =? -1 then
      if (err a =? EINTR) || (err a =? EAGAIN) then helper f fd ppid buf ip else Ret 111
    else if ret a =? 0 then Ret 0
    else
      buf <~ lift (copyin buf 0 (data a) (ret a)) ;;
      buf <~ lift (st buf 255 0) ;;
      '(n, _, ip1) <~ resolvehost (Some (skipn 1 ip)) 128 (Some buf) ;;
      let '(ip0, n) := if n <? 0 then (255, 0) else (u8 n, n) in
      let ip := ip0 :: ip1 in
      r <~ sys1 (Send fd (firstn (Z.to_nat (n + 1)) ip)) ;;
      if ret r =? -1 then Ret 111 else helper f fd ppid buf ip
  end.

(** resolvehost.c:240: length of the name *)
Fixpoint namelen (h : list Z) : res Z :=
  match h with
  | [] => UB
  | c :: h' => if c =? 0 then Ok 0 else n <- namelen h' ;; Ok (n + 1)
  end.
(** resolvehost.c:230-263; the reply buffer is the 256-byte request buffer *)
Definition resolvehost_do (fd : Z) (ip : option (list Z)) (iplen : Z) (host : option (list Z)) : prog (Z * list Z) :=
  match ip, host with
  | Some ip, Some host =>
    if iplen <? 16 then Ret (-1, ip) else
    i <~ lift (namelen host) ;;
    if 255 <? i then Ret (-1, ip) else
    buf <~ lift (copyin (repeat 0 256) 0 host i) ;;
    s <~ sys1 (Send fd buf) ;;
    if negb (ret s =? 256) then Ret (-1, ip) else
    a <~ sys1 (Recv fd 256) ;;
    if ret a <=? 0 then Ret (-1, ip) else
    buf <~ lift (copyin buf 0 (data a) (ret a)) ;;
    if ret a =? 1 then
      b0 <~ lift (ld buf 0) ;;
      if u8 b0 =? 255 then Ret (-1, ip) else Ret (u8 b0, ip)
    else
      let n := ret a - 1 in
      let n := if iplen <? n then iplen else n in
      ip <~ lift (copyin ip 0 (skipn 1 buf) n) ;;
      Ret (n, ip)
  | _, _ => Ret (-1, match ip with Some x => x | None => [] end)
  end.

(** A process making one lookup after another. *)
Fixpoint lookups_do (fd : Z) (reqs : list (list Z * Z * list Z)) : prog (list (Z * list Z)) :=
  match reqs with
  | [] => Ret []
  | (ip, iplen, host) :: reqs' =>
    x <~ resolvehost_do fd (Some ip) iplen (Some host) ;;
    xs <~ lookups_do fd reqs' ;;
    Ret (x :: xs)
  end.
