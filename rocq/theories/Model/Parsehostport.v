(** Model of parsehostport.c. *)
From Verif.Model Require Import Base Parsenum Inet.

(** parsehostport.h  buffer sizes *)
Definition HOSTBYTES : nat := 256.
Definition PORTBYTES : nat := 6.

(** parsehostport.c:61-64  scan of a bracketed host; [None] is "return 0",
    [Some i] is the index where the loop stopped (NUL or closing bracket). *)
Fixpoint php_bracket (fuel : nat) (inp : list Z) (i : nat) : res (option nat) :=
  match fuel with
  | O => Fuel
  | S f =>
      c <- ld inp i ;;
      if c =? 0 then Ok (Some i)
      else if c =? 91 then Ok None
      else if c =? 93 then Ok (Some i)
      else php_bracket f inp (S i)
  end.

(** parsehostport.c:79-80  scan of the port after a bracketed host. *)
Fixpoint php_brport (fuel : nat) (inp : list Z) (l : nat) : res (option nat) :=
  match fuel with
  | O => Fuel
  | S f =>
      c <- ld inp l ;;
      if c =? 0 then Ok (Some l)
      else if c =? 93 then Ok None
      else php_brport f inp (S l)
  end.

(** parsehostport.c:89-95  scan of an unbracketed input: length, number of
    colons and index of the last one. *)
Fixpoint php_scan (fuel : nat) (inp : list Z) (l cc lc : nat) : res (option (nat * nat * nat)) :=
  match fuel with
  | O => Fuel
  | S f =>
      c <- ld inp l ;;
      if c =? 0 then Ok (Some (l, cc, lc))
      else if c =? 93 then Ok None
      else if c =? 58 then php_scan f inp (S l) (S cc) l
      else php_scan f inp (S l) cc lc
  end.

Record slices := { s_host : nat; s_hostlen : nat; s_port : nat; s_portlen : nat;
                   s_brack : bool; s_cc : nat }.

(** parsehostport.c:39-122  parsehostport_split_; pointers into the input are
    offsets; [None] is return value 0. *)
Definition php_split (inp : list Z) : res (option slices) :=
  let fuel := length inp in
  c0 <- ld inp 0 ;;
  if c0 =? 0 then Ok None                                      (* 58 *)
  else if c0 =? 91 then                                        (* 60-85 *)
    r <- php_bracket fuel inp 1 ;;
    match r with
    | None => Ok None
    | Some i =>
        ci <- ld inp i ;;
        if ci =? 0 then Ok None                                (* 66 *)
        else if (i =? 1)%nat then Ok None                      (* 67 *)
        else
          c1 <- ld inp (i + 1) ;;
          if c1 =? 0 then                                      (* 75 *)
            Ok (Some {| s_host := 1; s_hostlen := i - 1; s_port := i + 1; s_portlen := 0;
                        s_brack := true; s_cc := 0 |})
          else if negb (c1 =? 58) then Ok None                 (* 76 *)
          else
            c2 <- ld inp (i + 2) ;;
            if c2 =? 0 then Ok None                            (* 77 *)
            else
              r2 <- php_brport fuel inp (i + 2) ;;
              match r2 with
              | None => Ok None
              | Some l =>
                  Ok (Some {| s_host := 1; s_hostlen := i - 1; s_port := i + 2;
                              s_portlen := l - i - 2; s_brack := true; s_cc := 0 |})
              end
    end
  else                                                         (* 87-121 *)
    r <- php_scan fuel inp 0 0 0 ;;
    match r with
    | None => Ok None
    | Some (l, cc, lc) =>
        if (cc =? 0)%nat then
          Ok (Some {| s_host := 0; s_hostlen := l; s_port := l; s_portlen := 0;
                      s_brack := false; s_cc := cc |})
        else if (cc =? 1)%nat then
          if (lc =? 0)%nat then Ok None
          else
            c <- ld inp (lc + 1) ;;
            if c =? 0 then Ok None
            else Ok (Some {| s_host := 0; s_hostlen := lc; s_port := lc + 1;
                             s_portlen := l - lc - 1; s_brack := false; s_cc := cc |})
        else
          Ok (Some {| s_host := 0; s_hostlen := l; s_port := l; s_portlen := 0;
                      s_brack := false; s_cc := cc |})
    end.

(** parsehostport.c:181, 186, 191, 193  [for (i..k) dst[i] = src[off + i];] *)
Fixpoint php_copy (k : nat) (src : list Z) (off : nat) (dst : list Z) (i : nat) : res (list Z) :=
  match k with
  | O => Ok dst
  | S k' => c <- ld src (off + i) ;; d <- st dst i c ;; php_copy k' src off d (S i)
  end.

(** parsehostport.c:152-209  parsehostport with non-NULL [outhost] and input;
    [outport] is [None] when the caller passes NULL.  Returns the return value and
    the buffers.  Log output and errno are omitted. *)
Definition parsehostport (I : inet) (outhost : list Z) (outport : option (list Z)) (inp : list Z)
  : res (Z * list Z * option (list Z)) :=
  let err :=                                                    (* 203-208 *)
    h <- st outhost 0 0 ;;
    match outport with
    | None => Ok (0, h, None)
    | Some p => (p' <- st p 0 0 ;; Ok (0, h, Some p'))
    end in
  r <- php_split inp ;;
  match r with
  | None => err
  | Some sl =>
      let portlen := match outport with None => O | Some _ => s_portlen sl end in   (* 177 *)
      if (HOSTBYTES <=? s_hostlen sl)%nat then err
      else if (PORTBYTES <=? portlen)%nat then err
      else
        th <- php_copy (s_hostlen sl) inp (s_host sl) (repeat 0 HOSTBYTES) 0 ;;
        th <- st th (s_hostlen sl) 0 ;;
        six <- (if s_brack sl || (1 <? s_cc sl)%nat then
                  (a <- parseip6_ I th ;; Ok (match a with Some _ => true | None => false end))
                else Ok true) ;;
        if negb six then err
        else
          tp <- php_copy portlen inp (s_port sl) (repeat 0 PORTBYTES) 0 ;;
          tp <- st tp portlen 0 ;;
          pok <- (if (portlen =? 0)%nat then Ok true else
                    (a <- parseport_ tp ;; Ok (match a with Some _ => true | None => false end))) ;;
          if negb pok then err
          else
            oh <- php_copy HOSTBYTES th 0 outhost 0 ;;
            match outport with
            | None => Ok (1, oh, None)
            | Some p => (op <- php_copy PORTBYTES tp 0 p 0 ;; Ok (1, oh, Some op))
            end
  end.
