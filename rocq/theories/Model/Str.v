(** Model of str.c, case.c, fixpath.c, fixname.c. *)
From Verif.Model Require Import Base.

(** ** str.c.  An index into a string is modelled by the tail pointer. *)

(** str.c:17-23 *)
Fixpoint str_len (s : list Z) : res Z :=
  match s with
  | [] => UB
  | c :: t => if c =? 0 then Ok 0 else (n <- str_len t ;; Ok (n + 1))
  end.

(** str.c:33-41 *)
Fixpoint str_start (s t : list Z) : res Z :=
  match s with
  | [] => UB
  | c :: s' =>
      d <- deref t ;;
      if c =? 0 then Ok (if d =? 0 then 1 else 0)
      else if negb (c =? d) then Ok (if d =? 0 then 1 else 0)
      else str_start s' (tl t)
  end.

(** str.c:52-61; [c] is truncated to a byte as by [char ch = c]. *)
Fixpoint str_chr (s : list Z) (c : Z) : res Z :=
  match s with
  | [] => UB
  | x :: t => if x =? 0 then Ok 0
              else if x =? u8 c then Ok 0
              else (n <- str_chr t c ;; Ok (n + 1))
  end.

(** str.c:77-79  loop with index [i] and last match [u]. *)
Fixpoint str_rchr_loop (s : list Z) (c i u : Z) : res (Z * Z) :=
  match s with
  | [] => UB
  | x :: t => if x =? 0 then Ok (i, u)
              else str_rchr_loop t c (i + 1) (if x =? u8 c then i else u)
  end.
(** str.c:72-82 *)
Definition str_rchr (s : list Z) (c : Z) : res Z :=
  '(i, u) <- str_rchr_loop s c 0 (-1) ;; Ok (if u =? -1 then i else u).

(** str.c:93-102 *)
Fixpoint str_diff (s t : list Z) : res Z :=
  match s with
  | [] => UB
  | c :: s' =>
      d <- deref t ;;
      if c =? 0 then Ok (c - d)
      else if negb (c =? d) then Ok (c - d)
      else str_diff s' (tl t)
  end.

(** str.c:115-125; [n] is [len - i]. *)
Fixpoint str_diffn (s t : list Z) (n : Z) : res Z :=
  match s with
  | [] => UB
  | c :: s' =>
      if c =? 0 then (d <- deref t ;; Ok (c - d))
      else if n <=? 0 then Ok 0
      else
        d <- deref t ;;
        if negb (c =? d) then Ok (c - d)
        else str_diffn s' (tl t) (n - 1)
  end.

(** str.c:136-143  [d] is the destination from index [i] on; the result is the
    final destination (from [i] on) and the returned length minus [i]. *)
Fixpoint str_copy (d t : list Z) : res (list Z * Z) :=
  match t with
  | [] => UB
  | c :: t' =>
      match d with
      | [] => UB
      | _ :: d' => if c =? 0 then Ok (0 :: d', 0)
                   else ('(r, n) <- str_copy d' t' ;; Ok (c :: r, n + 1))
      end
  end.

(** ** case.c *)

(** case.c:28-32 and the identical code in the other functions. *)
Definition case_norm (c : Z) : Z :=
  let x := u8 (c - 65) in
  if x <=? 90 - 65 then u8 (x + 97) else u8 (x + 65).

(** case.c:22-41 *)
Fixpoint case_diffb_loop (n : nat) (s t : list Z) : res Z :=
  match n with
  | O => Ok 0
  | S n' =>
      c <- deref s ;; d <- deref t ;;
      let x := case_norm c in let y := case_norm d in
      if negb (x =? y) then Ok (x - y) else case_diffb_loop n' (tl s) (tl t)
  end.
Definition case_diffb (s : list Z) (len : Z) (t : list Z) : res Z :=
  case_diffb_loop (Z.to_nat len) s t.

(** case.c:52-71 *)
Fixpoint case_diffs (s t : list Z) : res Z :=
  match s with
  | [] => UB
  | c :: s' =>
      d <- deref t ;;
      let x := case_norm c in let y := case_norm d in
      if negb (x =? y) then Ok (x - y)
      else if x =? 0 then Ok (x - y)
      else case_diffs s' (tl t)
  end.

(** case.c:82-102.  A negative [len] never reaches zero by decrements; the model
    keeps the test [!len] on Z. *)
Fixpoint case_startb (s : list Z) (len : Z) (t : list Z) : res Z :=
  match t with
  | [] => UB
  | d :: t' =>
      let y := case_norm d in
      if y =? 0 then Ok 1
      else if len =? 0 then Ok 0
      else
        c <- deref s ;;
        if negb (case_norm c =? y) then Ok 0 else case_startb (tl s) (len - 1) t'
  end.

(** case.c:112-130 *)
Fixpoint case_starts (s t : list Z) : res Z :=
  match t with
  | [] => UB
  | d :: t' =>
      c <- deref s ;;
      let x := case_norm c in let y := case_norm d in
      if y =? 0 then Ok 1
      else if negb (x =? y) then Ok 0
      else case_starts (tl s) t'
  end.

(** case.c:147-148, 165-166 *)
Definition case_low1 (c : Z) : Z :=
  let x := u8 (c - 65) in if x <=? 90 - 65 then u8 (x + 97) else c.

(** case.c:141-151 *)
Fixpoint case_lowerb_loop (n : nat) (s : list Z) : res (list Z) :=
  match n with
  | O => Ok s
  | S n' => match s with
            | [] => UB
            | c :: s' => (r <- case_lowerb_loop n' s' ;; Ok (case_low1 c :: r))
            end
  end.
Definition case_lowerb (s : list Z) (len : Z) : res (list Z) := case_lowerb_loop (Z.to_nat len) s.

(** case.c:160-169 *)
Fixpoint case_lowers (s : list Z) : res (list Z) :=
  match s with
  | [] => UB
  | c :: s' => if c =? 0 then Ok s else (r <- case_lowers s' ;; Ok (case_low1 c :: r))
  end.

(** ** fixpath.c:25-40 *)

(** fixpath.c:31-38  in-place loop over the buffer with read index [i] and write
    index [j]; returns the buffer and the final [j]. *)
Fixpoint fixpath_loop (fuel : nat) (s : list Z) (i j : nat) : res (list Z * nat) :=
  match fuel with
  | O => Fuel
  | S f =>
      ch <- ld s i ;;
      if ch =? 0 then Ok (s, j)
      else
        prevslash <- (match j with O => Ok false | S j' => (p <- ld s j' ;; Ok (p =? 47)) end) ;;
        let ch' := if (prevslash : bool) && (ch =? 46) then 58 else ch in
        if prevslash && (ch' =? 47) then fixpath_loop f s (S i) j
        else (s' <- st s j ch' ;; fixpath_loop f s' (S i) (S j))
  end.
Definition fixpath (s : list Z) : res (list Z) :=
  '(s', j) <- fixpath_loop (length s) s 0 0 ;; st s' j 0.

(** ** fixname.c:19-29 *)
Fixpoint fixname_loop (fuel : nat) (x : list Z) (i : nat) : res (list Z) :=
  match fuel with
  | O => Fuel
  | S f =>
      c <- ld x i ;;
      if c =? 0 then Ok x
      else if c =? 64 then st x i 0
      else fixname_loop f x (S i)
  end.
Definition fixname (x : list Z) : res (list Z) := fixname_loop (length x) x 0.
