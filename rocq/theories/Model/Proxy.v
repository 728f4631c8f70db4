(** Model of proxyprotocol.c; log output omitted. *)
From Verif.Model Require Import Base Sys Io Parsenum Inet Str Buffer Stralloc.

(** The four output (or input) arrays: addresses of 16 bytes, ports of 2 bytes. *)
Record endpoints : Type := mkep { lip : list Z; lport : list Z; rip : list Z; rport : list Z }.
(** proxyprotocol.c:55-58 *)
Definition ep_zero : endpoints := mkep (repeat 0 16) (repeat 0 2) (repeat 0 16) (repeat 0 2).

(** proxyprotocol.h:13 *)
Definition PROXYPROTOCOL_MAX : nat := 128.

(** proxyprotocol.c:64-70  [k] is PROXYPROTOCOL_MAX - 1 - pos; [None] is a failed read. *)
Fixpoint pp_read (fuel : nat) (k : nat) (sin : buffer) (pos : nat) (buf : list Z) : prog (option (list Z * nat)) :=
  match k with
  | O => Ret (Some (buf, pos))
  | S k' =>
      '(r, _, b, sin') <~ buffer_GETC fuel sin ;;
      if negb (r =? 1) then Ret None
      else
        c <~ lift (deref b) ;;
        buf' <~ lift (st buf pos c) ;;
        if c =? 10 then Ret (Some (buf', pos)) else pp_read fuel k' sin' (S pos) buf'
  end.

(** proxyprotocol.c:94-101 and the two analogous blocks: the text up to the next space is
    terminated and parsed; then the pointer moves behind it.  Writing and moving are on the
    same tail of the line buffer; bytes in front are not read again. *)
Definition pp_field {A} (parse : list Z -> res (option A)) (p : list Z) : res (option (A * list Z)) :=
  n <- str_chr p 32 ;;
  p' <- st p (Z.to_nat n) 0 ;;
  r <- parse p' ;;
  Ok (match r with Some a => Some (a, skipn (S (Z.to_nat n)) p') | None => None end).

(** proxyprotocol.c:81-132  [buf] is the 128-byte line buffer *)
Definition pp_parse (I : inet) (buf : list Z) : res (option endpoints) :=
  u <- str_start buf (bs "PROXY UNKNOWN" ++ [0]) ;;
  if negb (u =? 0) then Ok (Some ep_zero)
  else
    t4 <- str_start buf (bs "PROXY TCP4 " ++ [0]) ;;
    t6 <- (if negb (t4 =? 0) then Ok 0 else str_start buf (bs "PROXY TCP6 " ++ [0])) ;;
    if (t4 =? 0) && (t6 =? 0) then Ok None
    else
      let parseipop := if negb (t4 =? 0) then parseip4_ I else parseip6_ I in
      let buf := skipn 11 buf in
      f1 <- pp_field parseipop buf ;;
      match f1 with
      | None => Ok None
      | Some (ra, buf) =>
          f2 <- pp_field parseipop buf ;;
          match f2 with
          | None => Ok None
          | Some (la, buf) =>
              f3 <- pp_field parseport_ buf ;;
              match f3 with
              | None => Ok None
              | Some ((rp0, rp1), buf) =>
                  n <- str_chr buf 10 ;; buf <- st buf (Z.to_nat n) 0 ;;        (* 124 *)
                  m <- str_chr buf 13 ;; buf <- st buf (Z.to_nat m) 0 ;;        (* 125 *)
                  r <- parseport_ buf ;;
                  match r with
                  | None => Ok None
                  | Some (lp0, lp1) => Ok (Some (mkep la [lp0; lp1] ra [rp0; rp1]))
                  end
              end
          end
      end.

(** proxyprotocol.c:44-143; [out] are the caller's arrays. *)
Definition proxyprotocol_v1_get (fuel : nat) (I : inet) (fd : Z) (out : endpoints) : prog (Z * endpoints) :=
  let sin := buffer_init fd [] 0 in
  r <~ pp_read fuel (PROXYPROTOCOL_MAX - 1) sin 0 (repeat 0 PROXYPROTOCOL_MAX) ;;
  match r with
  | None => Ret (0, out)
  | Some (buf, pos) =>
      c <~ lift (ld buf pos) ;;
      if negb (c =? 10) then Ret (0, out)                    (* 71-75 *)
      else
        buf <~ lift (st buf (S pos) 0) ;;                     (* 77 *)
        e <~ lift (pp_parse I buf) ;;
        match e with
        | Some e => Ret (1, e)                               (* 135-140 *)
        | None => Ret (0, out)
        end
  end.

(** A chain of stralloc calls, stopping at the first failure (proxyprotocol.c:181-195). *)
Fixpoint sa_chain (r : stralloc) (l : list (stralloc -> prog (rc * stralloc))) : prog (rc * stralloc) :=
  match l with
  | [] => Ret (Good, r)
  | f :: t => '(c, r1) <~ f r ;; match c with Good => sa_chain r1 t | Fail e => Ret (Fail e, r1) end
  end.
Definition cats (x : list Z) (r : stralloc) := stralloc_cats r (Some (x ++ [0])).

(** porttostr.c into its static buffer: the string at the returned pointer *)
Definition portstr (p : list Z) : res (list Z) :=
  p0 <- ld p 0 ;; p1 <- ld p 1 ;;
  '(b, pos) <- porttostr (repeat 0 PORTTOSTR_LEN) p0 p1 ;; Ok (skipn pos b).

Definition all_zero (l : list Z) : bool := forallb (fun x => x =? 0) l.

(** proxyprotocol.c:166-205; [buf] is [None] for a null pointer.  Result: return value and
    the destination. *)
Definition proxyprotocol_v1 (I : inet) (buf : option (list Z)) (buflen : Z) (e : endpoints) : prog (Z * option (list Z)) :=
  if all_zero (lip e) && all_zero (rip e) && all_zero (lport e) && all_zero (rport e) then Ret (0, buf)
  else
    rp <~ lift (portstr (rport e)) ;;
    lp <~ lift (portstr (lport e)) ;;
    let proto := if list_eq_dec Z.eq_dec (firstn 12 (rip e)) v4prefix then bs "PROXY TCP4 " else bs "PROXY TCP6 " in
    '(c, sa) <~ sa_chain sa_empty
      [ (fun r => stralloc_copys r (Some (proto ++ [0])));
        cats (iptostr I (rip e)); cats (bs " "); cats (iptostr I (lip e)); cats (bs " ");
        (fun r => stralloc_cats r (Some rp)); cats (bs " "); (fun r => stralloc_cats r (Some lp));
        cats [13; 10]; stralloc_0 ] ;;
    match c with
    | Fail _ => Ret (0, buf)
    | Good =>
        let n := slen sa - 1 in
        match buf, sm sa with
        | Some b, Some m =>
            if n <=? buflen then (d <~ lift (copyin b 0 m n) ;; Ret (n, Some d)) else Ret (0, buf)
        | Some b, None => Bad
        | None, _ => Ret (0, buf)
        end
    end.
