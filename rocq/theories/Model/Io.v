(** Model of readall.c, writeall.c, pipe.c. *)
From Verif.Model Require Import Base Sys.

(** Result of a function returning 0 / -1 with errno.  [stale] stands for an errno
    the function does not set itself. *)
Inductive rc : Type := Good | Fail (e : Z).
Definition stale : Z := -1.

Definition CHUNK : Z := 1048576.

(** EINTR, EAGAIN, EWOULDBLOCK (= EAGAIN on Linux) *)
Definition transient (e : Z) : bool := (e =? EINTR) || (e =? EAGAIN).

(** readall.c:22-42.  [x] is the destination; the result carries its new content.
    Asking the kernel for more bytes than the object has is UB. *)
Fixpoint readall (fuel : nat) (fd : Z) (x : list Z) (xlen : Z) : prog (rc * list Z) :=
  match fuel with
  | O => Halt
  | S f =>
      if 0 <? xlen then
        let n := if CHUNK <? xlen then CHUNK else xlen in
        if len x <? n then Bad else
        Do (Read fd n) (fun a =>
          let e := if ret a =? 0 then EPIPE else err a in
          if ret a <=? 0 then
            if transient e then readall f fd x xlen else Ret (Fail e, x)
          else
            '(c, x') <~ readall f fd (skipn (Z.to_nat (ret a)) x) (xlen - ret a) ;;
            Ret (c, data a ++ x'))
      else Ret (Good, x)
  end.

(** writeall.c:23-46.  [x] are the readable bytes from the source pointer on. *)
Fixpoint writeall (fuel : nat) (fd : Z) (x : list Z) (xlen : Z) : prog rc :=
  match fuel with
  | O => Halt
  | S f =>
      if 0 <? xlen then
        let n := if CHUNK <? xlen then CHUNK else xlen in
        if len x <? n then Bad else
        Do (Write fd (firstn (Z.to_nat n) x)) (fun a =>
          let e := if ret a =? 0 then EPIPE else err a in
          if ret a <=? 0 then
            if transient e then
              Do (Poll [(fd, 4)] (-1)) (fun p =>
                if (ret p =? -1) && negb (err p =? EINTR) then Ret (Fail (err p))
                else writeall f fd x xlen)
            else Ret (Fail e)
          else writeall f fd (skipn (Z.to_nat (ret a)) x) (xlen - ret a))
      else Ret Good
  end.

(** pipe.c:27-36 *)
Fixpoint pack_loop (n : nat) (x : Z) : list Z :=
  match n with O => [] | S n' => u8 x :: pack_loop n' (Z.shiftr x 8) end.
Definition uint64_pack (xll : Z) : list Z := pack_loop 8 (u64 xll).

(** (long long) of an unsigned 64-bit value *)
Definition tosigned (y : Z) : Z := if y <? two63 then y else y - two64.

(** pipe.c:46-52 *)
Fixpoint unpack_loop (i : nat) (x : list Z) (y : Z) : res Z :=
  match i with
  | O => Ok y
  | S i' => b <- ld x i' ;; unpack_loop i' x (Z.lor (u64 (Z.shiftl y 8)) b)
  end.
Definition uint64_unpack (x : list Z) : res Z := y <- unpack_loop 8 x 0 ;; Ok (tosigned y).

Definition zeros (n : Z) : list Z := repeat 0 (Z.to_nat n).

(** pipe.c:68-80 *)
Definition pipe_write (fuel : nat) (fd : Z) (x : list Z) (xlen : Z) : prog rc :=
  if xlen <? 0 then Ret (Fail EINVAL) else
  c <~ writeall fuel fd (uint64_pack xlen) 8 ;;
  match c with
  | Fail e => Ret (Fail e)
  | Good => writeall fuel fd x xlen
  end.

(** pipe.c:92-99; [errno] is the value on entry *)
Definition pipe_writeerrno (fuel : nat) (fd : Z) (errno : Z) : prog rc :=
  writeall fuel fd (uint64_pack (- errno)) 8.

(** pipe.c:117-132; [out] non-null *)
Definition pipe_readall (fuel : nat) (fd : Z) (out : list Z) (outlen : Z) : prog (rc * list Z) :=
  if CHUNK <? outlen then Ret (Fail EINVAL, out) else
  '(c, num) <~ readall fuel fd (zeros 8) 8 ;;
  match c with
  | Fail e => Ret (Fail e, out)
  | Good =>
      l <~ lift (uint64_unpack num) ;;
      if negb (u64 l =? outlen) then Ret (Fail stale, out)
      else readall fuel fd out (tosigned (u64 l))
  end.

(** pipe.c:151-169; returns the new [*outlen] as well *)
Definition pipe_readmax (fuel : nat) (fd : Z) (out : list Z) (outlen : Z) : prog (rc * list Z * Z) :=
  if CHUNK <? outlen then Ret (Fail EINVAL, out, outlen) else
  '(c, num) <~ readall fuel fd (zeros 8) 8 ;;
  match c with
  | Fail e => Ret (Fail e, out, outlen)
  | Good =>
      l <~ lift (uint64_unpack num) ;;
      if outlen <? u64 l then Ret (Fail stale, out, outlen)
      else
        '(c2, out') <~ readall fuel fd out (tosigned (u64 l)) ;;
        match c2 with
        | Fail e => Ret (Fail e, out', outlen)
        | Good => Ret (Good, out', u64 l)
        end
  end.

(** (int) of a signed 64-bit value (gcc, clang: wraps) *)
Definition toint (x : Z) : Z := let y := u32 x in if y <? 2147483648 then y else y - 4294967296.

(** pipe.c:183-203; [inr b] is the block with its length, [inl e] is NULL with errno
    [e].  A failed read after the allocation leaks the block. *)
Definition pipe_readalloc (fuel : nat) (fd : Z) : prog (Z + list Z) :=
  '(c, num) <~ readall fuel fd (zeros 8) 8 ;;
  match c with
  | Fail e => Ret (inl e)
  | Good =>
      l <~ lift (uint64_unpack num) ;;
      if l <? 0 then (e <~ lift (s64 (- l)) ;; Ret (inl (toint e)))
      else
        Do (Alloc l) (fun a =>
          if ret a =? 0 then Ret (inl (err a))
          else
            '(c2, out) <~ readall fuel fd (zeros l) l ;;
            match c2 with
            | Fail e => Ret (inl e)
            | Good => Ret (inr out)
            end)
  end.
