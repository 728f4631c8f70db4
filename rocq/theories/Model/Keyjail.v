(** Model of tls_keyjail.c: the process that holds the private key.

    Outside calls (BearSSL and the kernel): mulgen and mul as in Scalar.v; seccrt_parse gets
    the clear secret part of the PEM file and answers 0 or the key type; do_sign gets key
    type, hash and digest and answers the signature length in ret and its bytes in data;
    derive stands for br_ssl_engine_compute_master and the two br_ssl_engine_switch calls of a
    cipher suite, it gets suite, PRF hash and shared secret; prf gets the PRF hash, the length
    of the label in args and label and seed in data; decrypt and encrypt get record type and
    version and the record, they answer 0 (null pointer) or not in ret, the offset of the
    returned pointer to the start of the record and then the new record in data.  errno is
    the value left by the failed tls_pem_load.  Log output and the engine set-up of
    lines 84-93 and 209-211 are omitted. *)
From Verif.Model Require Import Base Sys Io Framed Str Buffer Pem Jail Scalar.

Definition EC : Z := 2.   (* BR_KEYTYPE_EC *)
Definition RSA : Z := 1.  (* BR_KEYTYPE_RSA *)

(** The PRF hash of a cipher suite, tls_keyjail.c:237-301 (br_sha1_ID 2, br_sha256_ID 4,
    br_sha384_ID 5). *)
Definition suite_prf (suite : Z) : option Z :=
  if (suite =? 0xCCA9) || (suite =? 0xCCA8) then Some 4
  else if (suite =? 0xC02C) || (suite =? 0xC030) then Some 5
  else if (suite =? 0xC02B) || (suite =? 0xC02F) then Some 4
  else if (suite =? 0xC024) || (suite =? 0xC028) then Some 5
  else if (suite =? 0xC023) || (suite =? 0xC027) then Some 4
  else if (suite =? 0xC00A) || (suite =? 0xC014) then Some 2
  else if (suite =? 0xC009) || (suite =? 0xC013) then Some 2
  else None.

(** A little-endian unsigned integer object (x86, ARM). *)
Fixpoint native (l : list Z) : Z := match l with [] => 0 | b :: t => b + 256 * native t end.

Section KEYJAIL.
Variable stream : list Z -> list Z -> nat -> Z.
Variable fuel : nat.
(** flagnojail, jailaccount, jaildir *)
Variables (nojail : bool) (account dir : option (list Z)).

(** tls_keyjail.c:405-407 *)
Definition cleanup : prog unit := _ <~ randombytes 32 ;; Ret tt.

(** if (pipe_read...(0, ...) == -1) goto cleanup; *)
Definition request (r : reader) (k : list Z -> prog unit) : prog unit :=
  x <~ read_msg fuel 0 r ;;
  match x with Some m => k m | None => cleanup end.
(** if (pipe_write(1, x, n) == -1) goto cleanup; *)
Definition reply (x : list Z) (n : Z) (k : prog unit) : prog unit :=
  c <~ pipe_write fuel 1 x n ;;
  match c with Good => k | Fail _ => cleanup end.

(** tls_keyjail.c:63-101.  Result: the 2048-byte buffer and the signature length. *)
Definition sign (pem : tls_pem) (key : list Z) (nonce : option (list Z)) (hash : Z) (m : list Z) : prog (list Z * Z) :=
  '(_, pem) <~ tls_pem_encrypt stream key nonce pem ;;
  a <~ sys1 (Other (bs "seccrt_parse") [] (match sec pem with Some s => firstn (Z.to_nat (seclen pem)) s | None => [] end)) ;;
  if ret a =? 0 then
    _ <~ sys1 (Other (bs "randombytes") [] (bs "keycrt")) ;;
    _ <~ tls_pem_free pem ;;
    Ret (m, 0)
  else
    pem <~ tls_pem_free pem ;;
    s <~ (if (ret a =? EC) || (ret a =? RSA) then
            b <~ sys1 (Other (bs "do_sign") [ret a; hash] m) ;;
            Ret (filled 2048 (data b), ret b)
          else Ret (m, 0)) ;;
    _ <~ sys1 (Other (bs "randombytes") [] (bs "keycrt")) ;;
    _ <~ tls_pem_free pem ;;
    Ret s.

(** tls_keyjail.c:345-364 and 387-396: the offset and the record. *)
Definition offsets (x : list Z) (k : prog unit) : prog unit :=
  let raw := nth 0 x 0 in
  if (raw <? -64) || (64 <? raw) then cleanup
  else reply [u8 raw] 1 (reply (map u8 (skipn 1 x)) (len (skipn 1 x)) k).

(** tls_keyjail.c:305-403 *)
Fixpoint service (n : nat) (ppid prf_id : Z) : prog unit :=
  match n with
  | O => Halt
  | S n =>
      g <~ sys1 (Other (bs "getppid") [] []) ;;
      if negb (ret g =? ppid) then cleanup else
      request (Exact 1) (fun ch =>
      let ch := native ch in
      if ch =? 0 then
        request (Exact 16) (fun label =>
        request (Exact 8) (fun seedlen =>
        if 48 <? native seedlen then cleanup else
        request (Upto (native seedlen)) (fun seed =>
        l <~ lift (str_len label) ;;
        a <~ sys1 (Other (bs "prf") [prf_id; l] (firstn (Z.to_nat l) label ++ seed)) ;;
        reply (filled 12 (data a)) 12 (service n ppid prf_id))))
      else if ch =? 1 then
        request (Exact 4) (fun ty =>
        request (Exact 4) (fun ver =>
        request (Upto 16709) (fun m =>
        a <~ sys1 (Other (bs "decrypt") [native ty; native ver] m) ;;
        if ret a =? 0 then reply [0] 1 (reply [] 0 (service n ppid prf_id))
        else offsets (data a) (service n ppid prf_id))))
      else if ch =? 2 then
        request (Exact 4) (fun ty =>
        request (Exact 4) (fun ver =>
        request (Upto 16709) (fun m =>
        a <~ sys1 (Other (bs "encrypt") [native ty; native ver] m) ;;
        if ret a =? 0 then cleanup
        else offsets (data a) (service n ppid prf_id))))
      else cleanup)
  end.

(** tls_keyjail.c:213-303 *)
Definition derive (ppid curve : Z) (sk : list Z) (pklen : Z) : prog unit :=
  request (Exact pklen) (fun pk =>
  request (Exact 32) (fun session_id =>
  request (Exact 2) (fun version =>
  request (Exact 2) (fun suite =>
  request (Exact 32) (fun client_random =>
  request (Exact 32) (fun server_random =>
  x <~ tls_crypto_scalarmult curve pk sk ;;
  match x with
  | None => cleanup
  | Some shared =>
      _ <~ randombytes 66 ;;
      match suite_prf (native suite) with
      | None => cleanup
      | Some prf_id =>
          _ <~ sys1 (Other (bs "derive") [native suite; prf_id] shared) ;;
          _ <~ randombytes 133 ;;
          service fuel ppid prf_id
      end
  end)))))).

(** tls_keyjail.c:181-207 *)
Definition handshake (ppid : Z) (pem : tls_pem) (key : list Z) (nonce : option (list Z)) : prog unit :=
  j <~ (if nojail then Ret (0, None) else jail account dir true) ;;
  if fst j =? -1 then cleanup else
  request (Exact 1) (fun curve =>
  let curve := native curve in
  sk <~ randombytes 66 ;;
  '(x, sk) <~ tls_crypto_scalarmult_base curve sk ;;
  match x with
  | None => cleanup
  | Some pk =>
      reply pk (len pk) (
      request (Exact 1) (fun hash =>
      request (Exact 8) (fun datalen =>
      if 2048 <? native datalen then cleanup else
      request (Upto (native datalen)) (fun m =>
      '(buf, n) <~ sign pem key nonce (native hash) m ;;
      _ <~ randombytes 32 ;;
      reply buf n (derive ppid curve sk (len pk))))))
  end).

(** tls_keyjail.c:160-179; [line0] is the stack buffer of the PEM parser. *)
Fixpoint files (n : nat) (ppid : Z) (line0 : list Z) (pem : tls_pem) (key : list Z) (nonce : option (list Z)) : prog unit :=
  match n with
  | O => Halt
  | S n =>
      request (Upto 1024) (fun fn =>
      if len fn =? 0 then handshake ppid pem key nonce
      else
        fn <~ lift (st fn (length fn - 1) 0) ;;
        fn <~ lift (fixpath fn) ;;
        l <~ lift (str_len fn) ;;
        key <~ randombytes 32 ;;
        '(r, nonce, pem) <~ tls_pem_load stream fuel line0 (firstn (Z.to_nat l) fn) key nonce pem ;;
        if r =? 0 then
          e <~ sys1 (Other (bs "errno") [] []) ;;
          c <~ pipe_writeerrno fuel 1 (ret e) ;;
          match c with Good => files n ppid line0 pem key nonce | Fail _ => cleanup end
        else
          match pub pem with
          | Some p => reply p (publen pem) (files n ppid line0 pem key nonce)
          | None => Bad
          end)
  end.

(** tls_keyjail.c:146-157; [key0] is the uninitialised key. *)
Definition tls_keyjail (line0 key0 : list Z) : prog unit :=
  p <~ sys1 (Other (bs "getppid") [] []) ;;
  files fuel (ret p) line0 pem_zero key0 None.
End KEYJAIL.
