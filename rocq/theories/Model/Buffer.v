(** Model of buffer.c and buffer.h.  The callback [op] is a [Write] / [Read] call on the
    buffer's descriptor. *)
From Verif.Model Require Import Base Sys Io Str.

(** buffer.h:4-10; [bx] is the memory [x] points to. *)
Record buffer : Type := mkbuf { bx : list Z; bp : Z; bn : Z; bfd : Z }.

(** buffer.c:26-35 *)
Definition buffer_init (fd : Z) (x : list Z) (xlen : Z) : buffer :=
  mkbuf x 0 (if xlen <? 0 then 0 else xlen) fd.

(** buffer.h:12-13 *)
Definition BUFSIZE : Z := 8192.

(** for (i = 0; i < n; ++i) d[p + i] = x[i]; *)
Definition copyin (d : list Z) (p : Z) (x : list Z) (n : Z) : res (list Z) :=
  if n <=? 0 then Ok d
  else if (p <? 0) || (len d <? p + n) || (len x <? n) then UB
  else Ok (firstn (Z.to_nat p) d ++ firstn (Z.to_nat n) x ++ skipn (Z.to_nat (p + n)) d).

(** buffer.c:55-73; the callback's -1 with EINTR retries, any other value is added to
    the position (a result of 0 repeats the same write). *)
Fixpoint allwrite (fuel : nat) (fd : Z) (x : list Z) (xlen : Z) : prog rc :=
  match fuel with
  | O => Halt
  | S f =>
      if 0 <? xlen then
        let n := if BUFSIZE <? xlen then BUFSIZE else xlen in
        if len x <? n then Bad else
        Do (Write fd (firstn (Z.to_nat n) x)) (fun a =>
          if ret a =? -1 then
            if err a =? EINTR then allwrite f fd x xlen else Ret (Fail (err a))
          else allwrite f fd (skipn (Z.to_nat (ret a)) x) (xlen - ret a))
      else Ret Good
  end.

(** buffer.c:82-87 *)
Definition buffer_flush (fuel : nat) (s : buffer) : prog (rc * buffer) :=
  c <~ allwrite fuel (bfd s) (bx s) (bp s) ;;
  match c with
  | Fail e => Ret (Fail e, s)
  | Good => Ret (Good, mkbuf (bx s) 0 (bn s) (bfd s))
  end.

(** buffer.c:114-117 *)
Definition buffer_put_tail (fuel : nat) (s : buffer) (x : list Z) (xlen : Z) : prog (rc * buffer) :=
  if bn s <=? xlen then (c <~ allwrite fuel (bfd s) x xlen ;; Ret (c, s))
  else
    d <~ lift (copyin (bx s) (bp s) x xlen) ;;
    Ret (Good, mkbuf d (bp s + xlen) (bn s) (bfd s)).

(** buffer.c:98-118 *)
Definition buffer_put (fuel : nat) (s : buffer) (x : list Z) (xlen : Z) : prog (rc * buffer) :=
  if xlen <? 0 then Ret (Fail EINVAL, s)
  else
    let n := bn s - bp s in
    if n <? xlen then
      d <~ lift (copyin (bx s) (bp s) x n) ;;
      let s1 := mkbuf d (bp s + n) (bn s) (bfd s) in
      '(c, s2) <~ buffer_flush fuel s1 ;;
      match c with
      | Fail e => Ret (Fail e, s2)
      | Good => buffer_put_tail fuel s2 (skipn (Z.to_nat n) x) (xlen - n)
      end
    else buffer_put_tail fuel s x xlen.

(** buffer.c:128-134 *)
Definition buffer_puts (fuel : nat) (s : buffer) (x : list Z) : prog (rc * buffer) :=
  n <~ lift (str_len x) ;; buffer_put fuel s x n.

(** buffer.c:145-153 *)
Definition buffer_putflush (fuel : nat) (s : buffer) (x : list Z) (xlen : Z) : prog (rc * buffer) :=
  if xlen <? 0 then Ret (Fail EINVAL, s)
  else
    '(c, s1) <~ buffer_flush fuel s ;;
    match c with
    | Fail e => Ret (Fail e, s1)
    | Good => c2 <~ allwrite fuel (bfd s1) x xlen ;; Ret (c2, s1)
    end.

(** buffer.c:163-169 *)
Definition buffer_putsflush (fuel : nat) (s : buffer) (x : list Z) : prog (rc * buffer) :=
  n <~ lift (str_len x) ;; buffer_putflush fuel s x n.

(** buffer.h:28-30 *)
Definition buffer_PUTC (fuel : nat) (s : buffer) (c : Z) : prog (rc * buffer) :=
  if negb (bn s =? bp s) then
    d <~ lift (copyin (bx s) (bp s) [c] 1) ;;
    Ret (Good, mkbuf d (bp s + 1) (bn s) (bfd s))
  else buffer_put fuel s [c] 1.

(** ** Input *)

(** buffer.c:189-199; [avail] is the size of the destination.  Result: return value,
    errno, bytes stored at the start of the destination. *)
Fixpoint oneread (fuel : nat) (fd : Z) (avail xlen : Z) : prog (Z * Z * list Z) :=
  match fuel with
  | O => Halt
  | S f =>
      let n := if BUFSIZE <? xlen then BUFSIZE else xlen in
      if (n <? 0) || (avail <? n) then Bad else
      Do (Read fd n) (fun a =>
        if (ret a =? -1) && (err a =? EINTR) then oneread f fd avail n
        else Ret (ret a, err a, data a))
  end.

(** buffer.c:219: for (i = r - 1; i >= 0; --i) s->x[s->n + i] = s->x[i]; *)
Fixpoint shift_up (r : nat) (n : Z) (x : list Z) : res (list Z) :=
  match r with
  | O => Ok x
  | S i => b <- ld x i ;; x' <- st x (Z.to_nat (n + Z.of_nat i)) b ;; shift_up i n x'
  end.

(** buffer.c:209-221.  The read stores its bytes at the start of [x]. *)
Definition buffer_feed (fuel : nat) (s : buffer) : prog (Z * Z * buffer) :=
  if negb (bp s =? 0) then Ret (bp s, 0, s)
  else
    '(r, e, b) <~ oneread fuel (bfd s) (len (bx s)) (bn s) ;;
    if r <=? 0 then Ret (r, e, s)
    else
      x1 <~ lift (copyin (bx s) 0 b r) ;;
      let n := bn s - r in
      x2 <~ lift (if 0 <? n then shift_up (Z.to_nat r) n x1 else Ok x1) ;;
      Ret (r, 0, mkbuf x2 r n (bfd s)).

(** [n] bytes of memory at offset [p] *)
Definition slice (x : list Z) (p n : Z) : res (list Z) :=
  if n <=? 0 then Ok []
  else if (p <? 0) || (len x <? p + n) then UB
  else Ok (firstn (Z.to_nat n) (skipn (Z.to_nat p) x)).

(** buffer.c:232-241; returns the bytes copied (the return value is their number). *)
Definition getthis (s : buffer) (xlen : Z) : res (list Z * buffer) :=
  let xlen := if bp s <? xlen then bp s else xlen in
  b <- slice (bx s) (bn s) xlen ;;
  Ok (b, mkbuf (bx s) (bp s - xlen) (bn s + xlen) (bfd s)).

(** buffer.c:252-265; the destination has at least [xlen] bytes.  Result: return value,
    errno, bytes stored, buffer. *)
Definition buffer_get (fuel : nat) (s : buffer) (xlen : Z) : prog (Z * Z * list Z * buffer) :=
  if xlen <? 0 then Ret (-1, EINVAL, [], s)
  else if 0 <? bp s then
    '(b, s') <~ lift (getthis s xlen) ;; Ret (len b, 0, b, s')
  else if bn s <=? xlen then
    '(r, e, b) <~ oneread fuel (bfd s) xlen xlen ;; Ret (r, e, b, s)
  else
    '(r, e, s1) <~ buffer_feed fuel s ;;
    if r <=? 0 then Ret (r, e, [], s1)
    else ('(b, s') <~ lift (getthis s1 xlen) ;; Ret (len b, 0, b, s')).

(** buffer.h:37  the readable window *)
Definition buffer_PEEK (s : buffer) : list Z := skipn (Z.to_nat (bn s)) (bx s).
(** buffer.h:38 *)
Definition buffer_SEEK (s : buffer) (k : Z) : buffer := mkbuf (bx s) (bp s - k) (bn s + k) (bfd s).

(** buffer.h:40-42 *)
Definition buffer_GETC (fuel : nat) (s : buffer) : prog (Z * Z * list Z * buffer) :=
  if 0 <? bp s then
    c <~ lift (ld (bx s) (Z.to_nat (bn s))) ;; Ret (1, 0, [c], buffer_SEEK s 1)
  else buffer_get fuel s 1.

(** buffer.c:275-288 *)
Fixpoint buffer_copy (fuel : nat) (bout bin : buffer) : prog (Z * buffer * buffer) :=
  match fuel with
  | O => Halt
  | S f =>
      '(n, _, bin1) <~ buffer_feed f bin ;;
      if n <? 0 then Ret (-2, bout, bin1)
      else if n =? 0 then Ret (0, bout, bin1)
      else
        '(c, bout1) <~ buffer_put f bout (buffer_PEEK bin1) n ;;
        match c with
        | Fail _ => Ret (-3, bout1, bin1)
        | Good => buffer_copy f bout1 (buffer_SEEK bin1 n)
        end
  end.
