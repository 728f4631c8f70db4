(** Model of tls_pem.c.

    Simplifications: log output is omitted; randombytes() is an external service whose
    answer is cut or padded to the requested length (every byte string of that length is a
    possible answer); the ChaCha20 routine of BearSSL is a parameter [stream] (key, nonce,
    position to keystream byte) that is XORed onto the data, which is what
    br_chacha20_ct_run(key, nonce, 0, data, len) does. *)
From Verif.Model Require Import Base Sys Io Buffer.

(** randombytes(x, n) *)
Definition randombytes (n : nat) : prog (list Z) :=
  Do (Other (bs "randombytes") [Z.of_nat n] []) (fun a => Ret (map u8 (firstn n (data a ++ repeat 0 n)))).

(** tls.h:176-184; the memory is [None] for a null pointer. *)
Record tls_pem : Type := mkpem { palloc : Z; publen : Z; pub : option (list Z); seclen : Z; sec : option (list Z) }.
Definition pem_zero : tls_pem := mkpem 0 0 None 0 None.

(** tls_pem.c:50-67; [k] is len - i. *)
Fixpoint lineparser (k : nat) (buf : list Z) (i : nat) (out : list Z) (outlen outmax : nat) : res (nat * list Z * nat) :=
  match k with
  | O => Ok (i, out, outlen)
  | S k' =>
      c <- ld buf i ;;
      if c =? 13 then Ok (S i, out, outlen)
      else if c =? 10 then Ok (S i, out, outlen)
      else if (outmax <=? outlen)%nat then Ok ((i + k)%nat, out, O)
      else out' <- st out outlen c ;; lineparser k' buf (S i) out' (S outlen) outmax
  end.

(** linelen == |lit| + 1 && !memcmp(line, lit, linelen - 1) *)
Definition isline (line : list Z) (linelen : nat) (lit : list Z) : bool :=
  (linelen =? S (length lit))%nat && (if list_eq_dec Z.eq_dec (firstn (length lit) line) lit then true else false).

(** tls_pem.c:87-112; [n] is ctx->seclen. *)
Fixpoint pemloop (fuel n pos : nat) (flagpub : bool) (line sec pub : list Z) (seclen publen : nat)
  : res (list Z * list Z * nat * nat) :=
  match fuel with
  | O => Fuel
  | S f =>
      if (pos <? n)%nat then
        '(pos, line, linelen) <- lineparser (n - pos) sec pos line O 64 ;;
        if (linelen =? 0)%nat then pemloop f n pos flagpub line sec pub seclen publen
        else
          line <- st line linelen 10 ;;
          let linelen := S linelen in
          let flagpub := flagpub || isline line linelen (bs "-----BEGIN CERTIFICATE-----")
                                 || isline line linelen (bs "-----BEGIN X509 CERTIFICATE-----") in
          '(sec, pub, seclen, publen) <-
            (if flagpub then
               pub <- copyin pub (Z.of_nat publen) line (Z.of_nat linelen) ;; Ok (sec, pub, seclen, (publen + linelen)%nat)
             else
               sec <- copyin sec (Z.of_nat seclen) line (Z.of_nat linelen) ;; Ok (sec, pub, (seclen + linelen)%nat, publen)) ;;
          let flagpub := flagpub && negb (isline line linelen (bs "-----END CERTIFICATE-----"))
                                 && negb (isline line linelen (bs "-----END X509 CERTIFICATE-----")) in
          pemloop f n pos flagpub line sec pub seclen publen
      else Ok (sec, pub, seclen, publen)
  end.

(** tls_pem.c:78-118; [line0] is the uninitialised stack buffer. *)
Definition pemparse (line0 : list Z) (c : tls_pem) : prog tls_pem :=
  match sec c, pub c with
  | Some s, Some p =>
      let n := Z.to_nat (seclen c) in
      '(s, p, sl, pl) <~ lift (pemloop (S n) n O false line0 s p O O) ;;
      _ <~ randombytes 65 ;;
      r1 <~ randombytes (Z.to_nat (palloc c) - sl) ;;
      s <~ lift (copyin s (Z.of_nat sl) r1 (len r1)) ;;
      r2 <~ randombytes (Z.to_nat (palloc c) - pl) ;;
      p <~ lift (copyin p (Z.of_nat pl) r2 (len r2)) ;;
      Ret (mkpem (palloc c) (Z.of_nat pl) (Some p) (Z.of_nat sl) (Some s))
  | _, _ => Bad
  end.

Section CIPHER.
Variable stream : list Z -> list Z -> nat -> Z.

Fixpoint xorfrom (key nonce : list Z) (i : nat) (x : list Z) : list Z :=
  match x with [] => [] | b :: t => Z.lxor b (stream key nonce i) :: xorfrom key nonce (S i) t end.

(** tls_pem.c:142-155; [nonce] is the static nonce, [None] before initialisation. *)
Definition tls_pem_encrypt (key : list Z) (nonce : option (list Z)) (c : tls_pem) : prog (list Z * tls_pem) :=
  n <~ (match nonce with Some n => Ret n | None => randombytes 12 end) ;;
  match sec c with
  | Some s =>
      if (len s <? seclen c) || (seclen c <? 0) then Bad
      else
        let k := Z.to_nat (seclen c) in
        Ret (n, mkpem (palloc c) (publen c) (pub c) (seclen c) (Some (xorfrom key n O (firstn k s) ++ skipn k s)))
  | None => if seclen c =? 0 then Ret (n, c) else Bad
  end.

(** tls_pem.c:28-32; the freed pointers are named by their content length only. *)
Definition tls_pem_free (c : tls_pem) : prog tls_pem :=
  _ <~ (match sec c with Some s => sys1 (Other (bs "alloc_free") [] (bs "sec")) | None => Ret (mkans 0 0 []) end) ;;
  _ <~ (match pub c with Some s => sys1 (Other (bs "alloc_free") [] (bs "pub")) | None => Ret (mkans 0 0 []) end) ;;
  Ret pem_zero.

(** tls_pem.c:170-200; fstat() answers [ret] and data [[is regular; size]].  Sizes: st_size
    is a non-negative long long, and alloc() refuses what exceeds its range (alloc.c:216). *)
Definition pem_alloc (n : Z) : prog (option (list Z)) :=
  a <~ sys1 (Alloc n) ;; Ret (if ret a =? 0 then None else Some (zeros n)).
Definition pem_cleanup (fd : Z) (ok : bool) (nonce : option (list Z)) (c : tls_pem) : prog (Z * option (list Z) * tls_pem) :=
  _ <~ (if negb (fd =? -1) then sys1 (Close fd) else Ret (mkans 0 0 [])) ;;
  if ok then Ret (1, nonce, c) else (c <~ tls_pem_free c ;; Ret (0, nonce, c)).
Definition tls_pem_load (fuel : nat) (line0 : list Z) (fn key : list Z) (nonce : option (list Z)) (c : tls_pem)
  : prog (Z * option (list Z) * tls_pem) :=
  _ <~ tls_pem_free c ;;
  o <~ sys1 (Other (bs "open_read") [] fn) ;;
  let fd := ret o in
  if fd =? -1 then pem_cleanup fd false nonce pem_zero
  else
    s <~ sys1 (Other (bs "fstat") [fd] []) ;;
    if ret s =? -1 then pem_cleanup fd false nonce pem_zero
    else
      isreg <~ lift (ld (data s) 0) ;; size <~ lift (ld (data s) 1) ;;
      if isreg =? 0 then pem_cleanup fd false nonce pem_zero
      else
        let al := size + 1 in
        m1 <~ pem_alloc al ;;
        match m1 with
        | None => pem_cleanup fd false nonce (mkpem al 0 None size None)
        | Some s1 =>
            m2 <~ pem_alloc al ;;
            match m2 with
            | None => pem_cleanup fd false nonce (mkpem al 0 None size (Some s1))
            | Some p1 =>
                '(r, s2) <~ readall fuel fd s1 size ;;
                match r with
                | Fail _ => pem_cleanup fd false nonce (mkpem al 0 (Some p1) size (Some s2))
                | Good =>
                    s3 <~ lift (st s2 (Z.to_nat size) 10) ;;
                    c <~ pemparse line0 (mkpem al 0 (Some p1) (size + 1) (Some s3)) ;;
                    '(n, c) <~ tls_pem_encrypt key nonce c ;;
                    pem_cleanup fd true (Some n) c
                end
            end
        end.
End CIPHER.
