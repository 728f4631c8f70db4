(** Model of stralloc.c.  [alloc] is the call [Alloc n]: answer 1 gives [n] zero bytes, 0 is
    NULL (alloc.c:210-287 clears every block it returns; the static arena is all zero).
    The buffer structure itself is never a null pointer and source bytes do not lie inside
    the destination's own block. *)
From Verif.Model Require Import Base Sys Io Str Buffer.

(** stralloc.h:6-10; [sm] is the block [s] points to, [None] for a null pointer. *)
Record stralloc : Type := mksa { sm : option (list Z); slen : Z; salloc : Z }.
Definition sa_empty : stralloc := mksa None 0 0.

(** stralloc.c:41: while (want > newalloc) newalloc = 2 * newalloc + 32; overflow is UB.
    64 rounds are enough for every 64-bit value. *)
Fixpoint grow (fuel : nat) (want na : Z) : res Z :=
  match fuel with
  | O => Fuel
  | S f => if na <? want then (if in_s64b (2 * na + 32) then grow f want (2 * na + 32) else UB) else Ok na
  end.

(** stralloc.c:27-52 *)
Definition stralloc_readyplus (r : stralloc) (n : Z) : prog (rc * stralloc) :=
  if n <? 0 then Ret (Fail EINVAL, r)
  else if n =? 0 then Ret (Good, r)
  else if negb (in_s64b (slen r + n) && in_s64b (slen r + n + 1)) then Bad
  else if salloc r <? slen r + n + 1 then
    na <~ lift (grow 64 (slen r + n + 1) (salloc r)) ;;
    Do (Alloc na) (fun a =>
      if ret a =? 0 then Ret (Fail (err a), r)
      else
        let fresh := repeat 0 (Z.to_nat na) in
        match sm r with
        | None => Ret (Good, mksa (Some fresh) (slen r) na)
        | Some m => d <~ lift (copyin fresh 0 m (slen r)) ;; Ret (Good, mksa (Some d) (slen r) na)
        end)
  else Ret (Good, r).

(** stralloc.c:81-82: for (i = 0; i < xlen; ++i) r->s[r->len + i] = x[i]; r->len += xlen; *)
Definition stralloc_store (r : stralloc) (x : list Z) (n : Z) : prog (rc * stralloc) :=
  match sm r with
  | None => Bad
  | Some m => d <~ lift (copyin m (slen r) x n) ;; Ret (Good, mksa (Some d) (slen r + n) (salloc r))
  end.

(** stralloc.c:69-84 *)
Definition stralloc_catb (r : stralloc) (xv : option (list Z)) (xlen : Z) : prog (rc * stralloc) :=
  match xv with
  | None => Ret (Fail EINVAL, r)
  | Some x =>
      if xlen <? 0 then Ret (Fail EINVAL, r)
      else if xlen =? 0 then Ret (Good, r)
      else
        '(c, r1) <~ stralloc_readyplus r xlen ;;
        match c with
        | Fail e => Ret (Fail e, r1)
        | Good => stralloc_store r1 x xlen
        end
  end.

(** stralloc.c:96-108 *)
Definition stralloc_cats (r : stralloc) (xv : option (list Z)) : prog (rc * stralloc) :=
  match xv with
  | None => Ret (Fail EINVAL, r)
  | Some x => n <~ lift (str_len x) ;; stralloc_catb r (Some x) n
  end.

(** stralloc.c:120-128 *)
Definition stralloc_cat (x y : stralloc) : prog (rc * stralloc) := stralloc_catb x (sm y) (slen y).

(** r->len = 0 *)
Definition sa_clear (r : stralloc) : stralloc := mksa (sm r) 0 (salloc r).

(** stralloc.c:141-150 *)
Definition stralloc_copyb (r : stralloc) (xv : option (list Z)) (xlen : Z) := stralloc_catb (sa_clear r) xv xlen.
(** stralloc.c:163-172 *)
Definition stralloc_copys (r : stralloc) (xv : option (list Z)) := stralloc_cats (sa_clear r) xv.
(** stralloc.c:184-193 *)
Definition stralloc_copy (x y : stralloc) := stralloc_cat (sa_clear x) y.
(** stralloc.c:203-205 *)
Definition stralloc_append (r : stralloc) (xv : option (list Z)) := stralloc_catb r xv 1.
(** stralloc.c:217 *)
Definition stralloc_0 (r : stralloc) := stralloc_append r (Some [0]).

(** stralloc.c:242-247: number of decimal digits; 20 rounds suffice for 64 bits. *)
Fixpoint ndigits (fuel : nat) (q n : Z) : Z :=
  match fuel with
  | O => n
  | S f => if 9 <? q then ndigits f (q / 10) (n + 1) else n
  end.

(** stralloc.c:253-256: the bytes stored by while (len) { s[--len] = '0' + u % 10; u /= 10; } *)
Fixpoint putdigits (k : nat) (u : Z) : list Z :=
  match k with
  | O => []
  | S k' => putdigits k' (u / 10) ++ [48 + u mod 10]
  end.

(** stralloc.c:231-259 *)
Definition stralloc_catunum0 (sa : stralloc) (u n : Z) : prog (rc * stralloc) :=
  let l := ndigits 20 u 1 in
  let l := if l <? n then n else l in
  '(c, r1) <~ stralloc_readyplus sa l ;;
  match c with
  | Fail e => Ret (Fail e, r1)
  | Good => stralloc_store r1 (putdigits (Z.to_nat l) u) l
  end.

(** stralloc.c:272-291; [l] is a signed 64-bit value *)
Definition stralloc_catnum0 (sa : stralloc) (l n : Z) : prog (rc * stralloc) :=
  if l <? 0 then
    '(c, sa1) <~ stralloc_append sa (Some [45]) ;;
    match c with
    | Fail e => Ret (Fail e, sa1)
    | Good => stralloc_catunum0 sa1 (u64 (- u64 l)) n
    end
  else stralloc_catunum0 sa (u64 l) n.

(** stralloc.c:301-303 *)
Definition stralloc_catnum (r : stralloc) (num : Z) := stralloc_catnum0 r num 0.
(** stralloc.c:315-324 *)
Definition stralloc_copynum (r : stralloc) (num : Z) := stralloc_catnum (sa_clear r) num.
(** stralloc.c:334-341; releasing the block is not modelled here *)
Definition stralloc_free (r : stralloc) : stralloc := sa_empty.
