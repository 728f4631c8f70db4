(** Model of the address texts of log.c: log_ip, log_ipport. *)
From Verif.Model Require Import Base Sys Stralloc Inet Log.

(** [n] bytes at an offset of an object; all of them must be there *)
Definition ldn (p : list Z) (i n : nat) : res (list Z) := if (i + n <=? length p)%nat then Ok (firstn n (skipn i p)) else UB.
(** inet_ntop(., ., x + off, size) with the text [t] as its result: the text and its NUL are stored if they fit, otherwise
    nothing is stored and the result is NULL *)
Definition ntop (x : list Z) (off : nat) (size : Z) (t : list Z) : res (list Z * bool) :=
  if len t + 1 <=? size then y <- stl x off (t ++ [0]) ;; Ok (y, true) else Ok (x, false).

Section Logip.
Variable I : inet.

(** log.c:611-637; the memcmp is at 617 *)
Definition log_ip (r : rot) (ip : option (list Z)) : res (rot * ptr) :=
  let i := rnext r in
  x <- rslot r i ;;
  match ip with
  | None => x <- stl x 0 (bs "(null)" ++ [0]) ;; Ok (rput r i x, (i, 0%nat))
  | Some ip =>
    h <- ldn ip 0 12 ;;
    '(x, ok) <- (if list_eq_dec Z.eq_dec h v4prefix then a <- ldn ip 12 4 ;; ntop x 0 STATICBUFSIZE (ntop4 I a)
                 else a <- ldn ip 0 16 ;; ntop x 0 STATICBUFSIZE (ntop6 I a)) ;;
    x <- (if ok then Ok x else st x 0 0) ;;
    Ok (rput r i x, (i, 0%nat))
  end.

(** log.c:661-693 *)
Definition log_ipport (r : rot) (ip port : option (list Z)) : res (rot * ptr) :=
  let i := rnext r in
  x <- rslot r i ;;
  match ip, port with
  | Some ip, Some port =>
    h <- ldn ip 0 12 ;;
    x <- (if list_eq_dec Z.eq_dec h v4prefix then
            a <- ldn ip 12 4 ;;
            '(x, ok) <- ntop x 0 STATICBUFSIZE (ntop4 I a) ;;
            if ok then Ok x else st x 0 0
          else
            a <- ldn ip 0 16 ;;
            x <- st x 0 91 ;;
            '(x, ok) <- ntop x 1 (STATICBUFSIZE - 1) (ntop6 I a) ;;
            x <- (if ok then Ok x else st x 1 0) ;;
            plen <- cstrlen x ;;
            x <- st x (Z.to_nat plen) 93 ;;
            st x (Z.to_nat (plen + 1)) 0) ;;
    plen <- cstrlen x ;;
    x <- st x (Z.to_nat plen) 58 ;;
    p0 <- ld port 0 ;; p1 <- ld port 1 ;;
    let k := Z.to_nat (plen + 1) in
    '(y, _) <- numtostr (skipn k x) (STATICBUFSIZE - plen - 1) (Z.lor (Z.shiftl p0 8) p1) 0 ;;
    Ok (rput r i (firstn k x ++ y), (i, 0%nat))
  | _, _ => x <- stl x 0 (bs "(null)" ++ [0]) ;; Ok (rput r i x, (i, 0%nat))
  end.
End Logip.
