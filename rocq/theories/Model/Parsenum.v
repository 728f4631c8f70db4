(** Model of parsenum.c, parseport.c and porttostr.c. *)
From Verif.Model Require Import Base.

(** parsenum.h:9-10  parsenum_MAX, parsenum_MIN *)
Definition parsenum_MAX : Z := two63 - 1.
Definition parsenum_MIN : Z := - parsenum_MAX - 1.

(** parsenum.c:59-66  digit loop; [None] is "goto err".
    [str] is the memory from [str+i]; [i] counts digits, [ret] is the
    unsigned 64-bit accumulator.  [c] is computed in unsigned 64-bit
    arithmetic, so a byte below '0' becomes huge. *)
Fixpoint pn_digits (str : list Z) (i ret : Z) : res (option (Z * Z)) :=
  match str with
  | [] => UB
  | ch :: str' =>
      if ch =? 0 then Ok (Some (i, ret))
      else
        let c := u64 (ch - 48) in
        if 9 <? c then Ok None
        else if (u64 (u64 (-1) - c)) / 10 <? ret then Ok None
        else pn_digits str' (i + 1) (u64 (10 * ret + c))
  end.

(** parsenum.c:29-95  parsenum_, with non-NULL [num] and [str].
    Result: return value and the final content of [*num]. *)
Definition parsenum_ (min max : Z) (str : list Z) : res (Z * Z) :=
  let err := Ok (0, 0) in                              (* lines 91-94 *)
  c0 <- deref str ;;                                   (* line 38 *)
  if c0 =? 0 then err                                  (* lines 39-41 *)
  else
    let '(flagsign, str) :=
      if c0 =? 43 then (false, tl str)                 (* '+' lines 42-45 *)
      else if c0 =? 45 then (true, tl str)             (* '-' lines 46-50 *)
      else (false, str) in
    d0 <- ld str 0 ;;                                  (* line 56 *)
    z <- (if d0 =? 48 then (d1 <- ld str 1 ;; Ok (negb (d1 =? 0))) else Ok false) ;;
    if (z : bool) then err
    else
      r <- pn_digits str 0 0 ;;                        (* lines 59-66 *)
      match r with
      | None => err
      | Some (i, ret) =>
          if i =? 0 then err                           (* line 69 *)
          else
            signed <-
              (if (flagsign : bool) then                        (* lines 72-79 *)
                 if u64 (parsenum_MAX + 1) <? ret then Ok None
                 else if ret =? u64 (parsenum_MAX + 1) then Ok (Some parsenum_MIN)
                 else (m <- s64 ret ;; n <- s64 (- m) ;; Ok (Some n))
               else                                    (* lines 80-84 *)
                 if parsenum_MAX <? ret then Ok None
                 else (m <- s64 ret ;; Ok (Some m))) ;;
            match signed with
            | None => err
            | Some num =>
                if num <? min then err                 (* line 87 *)
                else if max <? num then err            (* line 88 *)
                else Ok (1, num)
            end
      end.

(** parseport.c:31-48  parseport_, non-NULL arguments.  Result: [Some] the two
    stored bytes on return value 1, [None] on return value 0 (port untouched). *)
Definition parseport_ (str : list Z) : res (option (Z * Z)) :=
  c0 <- deref str ;;
  if (c0 =? 0) || (c0 =? 43) || (c0 =? 45) then Ok None        (* line 39 *)
  else
    '(ok, num) <- parsenum_ 0 65535 str ;;                     (* line 42 *)
    if ok =? 0 then Ok None
    else Ok (Some (u8 (Z.shiftr num 8), u8 num)).              (* lines 45-46 *)

(** porttostr.h:4  PORTTOSTR_LEN *)
Definition PORTTOSTR_LEN : nat := 6.

(** porttostr.c:39-42  first loop: number of digits of [num]. *)
Fixpoint pts_count (fuel : nat) (num : Z) (l : nat) : res nat :=
  match fuel with
  | O => Fuel
  | S f => let num' := u16 (num / 10) in
           let l' := S l in
           if num' =? 0 then Ok l' else pts_count f num' l'
  end.

(** porttostr.c:48-51  second loop: writes digits backwards at [--pos]. *)
Fixpoint pts_fill (fuel : nat) (buf : list Z) (pos : nat) (num : Z) : res (list Z * nat) :=
  match fuel with
  | O => Fuel
  | S f =>
      match pos with
      | O => UB                                      (* write before the buffer *)
      | S p =>
          buf' <- st buf p (u8 (48 + num mod 10)) ;;
          let num' := u16 (num / 10) in
          if num' =? 0 then Ok (buf', p) else pts_fill f buf' p num'
      end
  end.

(** porttostr.c:53  [while (len < PORTTOSTR_LEN) strbuf[len++] = 0;] with
    [strbuf] pointing at offset [pos]. *)
Fixpoint pts_pad (k : nat) (buf : list Z) (pos l : nat) : res (list Z) :=
  match k with
  | O => Ok buf
  | S k' =>
      if (l <? PORTTOSTR_LEN)%nat
      then (buf' <- st buf (pos + l) 0 ;; pts_pad k' buf' pos (S l))
      else Ok buf
  end.

(** porttostr.c:28-55  porttostr into a caller buffer of arbitrary content;
    returns the buffer and the offset of the returned pointer.  The static
    buffer used for a NULL argument is such a buffer too. *)
Definition porttostr (strbuf : list Z) (p0 p1 : Z) : res (list Z * nat) :=
  let num := Z.lor (u16 (Z.shiftl p0 8)) p1 in
  l <- pts_count 100 num 0 ;;
  '(buf, pos) <- pts_fill 100 strbuf l num ;;
  buf' <- pts_pad 100 buf pos l ;;
  Ok (buf', pos).
