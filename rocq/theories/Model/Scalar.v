(** Model of tls_crypto_scalarmult.c, for the build without X448 and HASLIB25519.

    The elliptic curve routines of BearSSL are outside calls: mulgen gets the curve and the
    scalar and answers the length of the point in ret and the point in data; mul gets the
    curve, the scalar and the point and answers 0 or not in ret and the new point in data.
    The answers are cut or padded to the size of the buffer part they are written to. *)
From Verif.Model Require Import Base Sys.

(** The bytes an outside routine left in a buffer of [n] bytes. *)
Definition filled (n : nat) (x : list Z) : list Z := map u8 (firstn n (x ++ repeat 0 n)).

(** sk[0] &= 127; sk[0] |= 64; (tls_crypto_scalarmult.c:63-64, 70-71, 124-125, 132-133) *)
Definition clamp64 (sk : list Z) : res (list Z) :=
  b <- ld sk 0 ;; sk <- st sk 0 (Z.land b 127) ;;
  b <- ld sk 0 ;; st sk 0 (Z.lor b 64).
(** sk[0] = 0; sk[1] |= 128; (tls_crypto_scalarmult.c:77-78, 140-141) *)
Definition clamp128 (sk : list Z) : res (list Z) :=
  sk <- st sk 0 0 ;; b <- ld sk 1 ;; st sk 1 (Z.lor b 128).

Definition X25519 : Z := 29.
Definition SECP256R1 : Z := 23.
Definition SECP384R1 : Z := 24.
Definition SECP521R1 : Z := 25.

(** *plen = mulgen(p, sk, n, curve); if ( *plen == want) ret = 0; *)
Definition mulgen (curve : Z) (n want : nat) (sk : list Z) : prog (option (list Z) * list Z) :=
  if len sk <? Z.of_nat n then Bad else
  a <~ sys1 (Other (bs "mulgen") [curve] (firstn n sk)) ;;
  Ret (if ret a =? Z.of_nat want then Some (filled want (data a)) else None, sk).

(** tls_crypto_scalarmult.c:38-84.  Result: the public point or failure, and the scalar
    buffer. *)
Definition tls_crypto_scalarmult_base (curve : Z) (sk : list Z) : prog (option (list Z) * list Z) :=
  if curve =? X25519 then mulgen curve 32 32 sk
  else if curve =? SECP256R1 then sk <~ lift (clamp64 sk) ;; mulgen curve 32 65 sk
  else if curve =? SECP384R1 then sk <~ lift (clamp64 sk) ;; mulgen curve 48 97 sk
  else if curve =? SECP521R1 then sk <~ lift (clamp128 sk) ;; mulgen curve 66 133 sk
  else Ret (None, sk).

(** if (mul(p, plen, sk, n, curve)) ret = 0;  The point buffer is overwritten. *)
Definition mul (curve : Z) (plen n : nat) (p sk : list Z) : prog (bool * list Z) :=
  if (len p <? Z.of_nat plen) || (len sk <? Z.of_nat n) then Bad else
  a <~ sys1 (Other (bs "mul") (curve :: firstn n sk) (firstn plen p)) ;;
  Ret (negb (ret a =? 0), filled plen (data a) ++ skipn plen p).
(** for (i = 0; i < n; ++i) p[i] = p[i + 1]; *plen = n; *)
Definition dropfirst (n : nat) (p : list Z) : res (list Z) :=
  if len p <? Z.of_nat n + 1 then UB else Ok (firstn n (skipn 1 p)).

(** tls_crypto_scalarmult.c:99-148.  Result: the shared secret or failure. *)
Definition tls_crypto_scalarmult (curve : Z) (p sk : list Z) : prog (option (list Z)) :=
  if curve =? X25519 then
    '(ok, p) <~ mul curve 32 32 p sk ;; Ret (if ok : bool then Some (firstn 32 p) else None)
  else if curve =? SECP256R1 then
    sk <~ lift (clamp64 sk) ;; '(ok, p) <~ mul curve 65 32 p sk ;;
    s <~ lift (dropfirst 32 p) ;; Ret (if ok : bool then Some s else None)
  else if curve =? SECP384R1 then
    sk <~ lift (clamp64 sk) ;; '(ok, p) <~ mul curve 97 48 p sk ;;
    s <~ lift (dropfirst 48 p) ;; Ret (if ok : bool then Some s else None)
  else if curve =? SECP521R1 then
    sk <~ lift (clamp128 sk) ;; '(ok, p) <~ mul curve 133 66 p sk ;;
    s <~ lift (dropfirst 66 p) ;; Ret (if ok : bool then Some s else None)
  else Ret None.
