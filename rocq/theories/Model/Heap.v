(** Model of alloc.c.

    Memory is a function from addresses to bytes.  [space] is the address of the static
    arena.  malloc is a call whose answer holds the address (0: NULL) and, in data, the
    bytes found in the new block; free is a call that carries the content the block has at
    that moment.  The nodes of the tracking list are kept as a list of (node, ptr, len);
    their own bytes are not part of the modelled memory.  Log output is omitted. *)
From Verif.Model Require Import Base Sys.

Definition ALIGNMENT : Z := 32.     (* alloc.h:7 *)
Definition STATICSPACE : Z := 131072.  (* alloc.h:8 *)

Record astate : Type := mka {
  amem : Z -> Z;
  avail : Z;
  allocated : Z;
  ahead : list (Z * Z * Z);
  alimit : Z
}.
(** alloc.c:26-31; the arena has static storage, so it starts as zeros *)
Definition alloc_init (mem0 : Z -> Z) (space : Z) : astate :=
  mka (fun p => if (space <=? p) && (p <? space + STATICSPACE) then 0 else mem0 p) STATICSPACE 0 [] (-1).

Definition setmem (m : Z -> Z) (p : Z) (d : list Z) : Z -> Z :=
  fun q => if (p <=? q) && (q <? p + len d) then nth (Z.to_nat (q - p)) d 0 else m q.
Definition getmem (m : Z -> Z) (p n : Z) : list Z := map (fun i => m (p + Z.of_nat i)) (seq 0 (Z.to_nat n)).

(** alloc.c:42-49 *)
Definition alloc_limit (s : astate) (value : Z) : astate :=
  if value <? 0 then s else mka (amem s) (avail s) (allocated s) (ahead s) value.

(** (long long) of an unsigned 64-bit value *)
Definition tos64 (x : Z) : Z := if two63 <=? x then x - two64 else x.
(** alloc.c:66-71, 74-79: getrlimit answers with rlim_cur in data *)
Definition lower (a : ans) (v : Z) : Z :=
  if ret a =? -1 then v
  else let c := tos64 (u64 (hd 0 (data a))) in
       if (0 <? c) && (c <? v) then c else v.
(** alloc.c:58-82 *)
Definition alloc_limit_get (s : astate) : prog (Z * astate) :=
  if negb (alimit s =? -1) then Ret (alimit s, s)
  else
    let v := two63 - 1 in
    a <~ sys1 (Other (bs "getrlimit") [9] []) ;;
    let v := lower a v in
    b <~ sys1 (Other (bs "getrlimit") [2] []) ;;
    let v := lower b v in
    Ret (v, mka (amem s) (avail s) (allocated s) (ahead s) v).

(** alloc.c:91-99 *)
Definition aligned_len (n : Z) : Z :=
  if n <=? 0 then ALIGNMENT
  else u64 (u64 (u64 (u64 n + ALIGNMENT) - 1) / ALIGNMENT * ALIGNMENT).
(** alloc.c:108-115 *)
Definition is_static (space p : Z) : bool := (space <=? p) && (p <? space + STATICSPACE).
(** alloc.c:136-146; machine words of 8 bytes *)
Definition cleanup (m : Z -> Z) (p n : Z) : Z -> Z :=
  let words := n / 8 in
  fun q => if (p <=? q) && (q <? p + 8 * words) then 0 else m q.
(** alloc.c:156-167 *)
Definition alloc_add (s : astate) (p n : Z) : prog (bool * astate) :=
  a <~ sys1 (Other (bs "malloc") [24] []) ;;
  if ret a =? 0 then Ret (false, s)
  else Ret (true, mka (amem s) (avail s) (allocated s) ((ret a, p, n) :: ahead s) (alimit s)).
(** alloc.c:176-193 *)
Fixpoint alloc_remove (l : list (Z * Z * Z)) (p : Z) : option ((Z * Z * Z) * list (Z * Z * Z)) :=
  match l with
  | [] => None
  | (nd, q, n) :: l' =>
    if q =? p then Some ((nd, q, n), l')
    else match alloc_remove l' p with Some (x, r) => Some (x, (nd, q, n) :: r) | None => None end
  end.

(** alloc.c:210-287: pointer (0: NULL), errno, state *)
Definition alloc (space : Z) (s : astate) (norig : Z) : prog (Z * Z * astate) :=
  if norig <? 0 then Ret (0, EINVAL, s)
  else if (two63 - 1) - (ALIGNMENT - 1) <? norig then Ret (0, ENOMEM, s)
  else
    let n := aligned_len norig in
    if n <=? avail s then
      let v := avail s - n in
      Ret (space + v, 0, mka (amem s) v (allocated s) (ahead s) (alimit s))
    else
      '(limit, s) <~ alloc_limit_get s ;;
      rest <~ lift (s64 (limit - allocated s)) ;;
      if (limit <? allocated s) || (rest <? norig) then Ret (0, ENOMEM, s)
      else
        a <~ sys1 (Other (bs "malloc") [n] []) ;;
        if ret a =? 0 then Ret (0, ENOMEM, s)
        else
          let x := ret a in
          let m := setmem (amem s) x (firstn (Z.to_nat n) (data a ++ repeat 0 (Z.to_nat n))) in
          let s := mka (cleanup m x n) (avail s) (allocated s) (ahead s) (alimit s) in
          '(ok, s) <~ alloc_add s x norig ;;
          if negb ok then
            let m := cleanup (amem s) x n in
            _ <~ sys1 (Other (bs "free") [x] (getmem m x n)) ;;
            Ret (0, ENOMEM, mka m (avail s) (allocated s) (ahead s) (alimit s))
          else
            t <~ lift (s64 (allocated s + norig)) ;;
            Ret (x, 0, mka (amem s) (avail s) t (ahead s) (alimit s)).

(** alloc.c:299-321 *)
Definition alloc_free (space : Z) (s : astate) (p : Z) : prog astate :=
  if p =? 0 then Ret s
  else if is_static space p then Ret s
  else
    match alloc_remove (ahead s) p with
    | None => Ret s
    | Some ((nd, _, n), l) =>
      let k := aligned_len n in
      t <~ lift (s64 (allocated s - n)) ;;
      let m := cleanup (amem s) p k in
      _ <~ sys1 (Other (bs "free") [p] (getmem m p k)) ;;
      _ <~ sys1 (Other (bs "free") [nd] []) ;;
      Ret (mka m (avail s) t l (alimit s))
    end.

(** alloc.c:334-340 *)
Fixpoint freelist (l : list (Z * Z * Z)) (m : Z -> Z) : prog (Z -> Z) :=
  match l with
  | [] => Ret m
  | (nd, p, n) :: l' =>
    let k := aligned_len n in
    let m := cleanup m p k in
    _ <~ sys1 (Other (bs "free") [p] (getmem m p k)) ;;
    _ <~ sys1 (Other (bs "free") [nd] []) ;;
    freelist l' m
  end.
(** alloc.c:328-345 *)
Definition alloc_freeall (space : Z) (s : astate) : prog astate :=
  m <~ freelist (ahead s) (amem s) ;;
  Ret (mka (cleanup m space STATICSPACE) STATICSPACE 0 [] (alimit s)).

(** A user of the allocator: it allocates, writes into blocks it owns (block number,
    offset, bytes), frees blocks it owns, frees everything, or changes the limit.
    [live]: the blocks it owns, [dead]: blocks freed since the last alloc_freeall. *)
Inductive aop : Type :=
| OpAlloc (n : Z)
| OpWrite (i : nat) (off : Z) (d : list Z)
| OpFree (i : nat)
| OpFreeAll
| OpLimit (v : Z).
Definition ustate : Type := (astate * list (Z * Z) * list (Z * Z))%type.
Definition dropnth {A} (i : nat) (l : list A) : list A := firstn i l ++ skipn (S i) l.
Definition use1 (space : Z) (o : aop) (u : ustate) : prog ustate :=
  let '(s, live, dead) := u in
  match o with
  | OpAlloc n =>
    '(p, _, s) <~ alloc space s n ;;
    Ret (s, if p =? 0 then live else (p, n) :: live, dead)
  | OpWrite i off d =>
    match nth_error live i with
    | Some (p, n) =>
      if (0 <=? off) && (off + len d <=? n)
      then Ret (mka (setmem (amem s) (p + off) d) (avail s) (allocated s) (ahead s) (alimit s), live, dead)
      else Ret u
    | None => Ret u
    end
  | OpFree i =>
    match nth_error live i with
    | Some (p, n) => s <~ alloc_free space s p ;; Ret (s, dropnth i live, (p, n) :: dead)
    | None => Ret u
    end
  | OpFreeAll => s <~ alloc_freeall space s ;; Ret (s, [], [])
  | OpLimit v => Ret (alloc_limit s v, live, dead)
  end.
Fixpoint use (space : Z) (h : list aop) (u : ustate) : prog ustate :=
  match h with
  | [] => Ret u
  | o :: h' => u <~ use1 space o u ;; use space h' u
  end.
