(** Model of tls_profile (tls_profile.c:223-333) and of tls_ecdhe_get_default (tls_ecdhe.c:136-145).

    The calls of BearSSL are outside calls with the name of the C function: numbers are in the arguments, static
    objects are in the data by their name in the source.  The context that most of them take is left out; those
    with br_x509_minimal in their name take ctx->xc.  br_ssl_engine_set_ec gets the copy of BearSSL's table that
    tls_ecdhe_get_default makes: the curves and the two multiplications in it (xoff and order are those of BearSSL
    without X448).  Trust anchors are given by their number, and the buffer for the name from the certificate is
    left out.  The answers are ignored, as in C. *)
From Verif.Model Require Import Base Sys Str Config Pem.

(** values of bearssl_ssl.h and bearssl_hash.h *)
Definition ENFORCE_SERVER_PREFERENCES : Z := 1.
Definition NO_RENEGOTIATION : Z := 2.
Definition md5_ID : Z := 1.
Definition sha1_ID : Z := 2.
Definition sha256_ID : Z := 4.
Definition sha384_ID : Z := 5.
Definition sha512_ID : Z := 6.
(** BR_SSL_BUFSIZE_BIDI: (16384 + 325) + (16384 + 85) *)
Definition BUFSIZE_BIDI : Z := 33178.

Definition br (name args data : list Z) : prog unit := _ <~ sys1 (Other name args data) ;; Ret tt.

(** main_tlswrapper.c:38, 1191-1192, 1241 *)
Definition tls_flags (prefer : bool) : Z :=
  Z.lor (if prefer then ENFORCE_SERVER_PREFERENCES else 0) NO_RENEGOTIATION.
(** main_tlswrapper.c:327-342: ctx.clientcrt.oid, here computed from the string that was compared there *)
Definition name_oid (certuser : option (list Z)) : res (option (list Z)) :=
  match certuser with
  | None => Ok None
  | Some x =>
    d <- str_diff (bs "commonName" ++ [0]) x ;;
    if d =? 0 then Ok (Some [3; 85; 4; 3])
    else
      d <- str_diff (bs "emailAddress" ++ [0]) x ;;
      if d =? 0 then Ok (Some [9; 42; 134; 72; 134; 247; 13; 1; 9; 1]) else Ok None
  end.

(** 279-308 *)
Definition client_certificates (talen : Z) (oid : option (list Z)) : prog unit :=
  if 0 <? talen then
    _ <~ br (bs "br_x509_minimal_init") [talen] (bs "br_sha256_vtable") ;;
    _ <~ br (bs "br_x509_minimal_set_hash") [sha256_ID] (bs "br_sha256_vtable") ;;
    _ <~ br (bs "br_x509_minimal_set_hash") [sha384_ID] (bs "br_sha384_vtable") ;;
    _ <~ br (bs "br_x509_minimal_set_hash") [sha512_ID] (bs "br_sha512_vtable") ;;
    _ <~ br (bs "br_ssl_engine_set_default_rsavrfy") [] [] ;;
    _ <~ br (bs "br_ssl_engine_set_ecdsa") [] (bs "tls_ecdsa_vrfy_asn1") ;;
    _ <~ br (bs "br_x509_minimal_set_rsa") [] (bs "br_rsa_pkcs1_vrfy_get_default") ;;
    _ <~ br (bs "br_x509_minimal_set_ecdsa") [] (bs "br_ec_get_default br_ecdsa_vrfy_asn1_get_default") ;;
    _ <~ br (bs "br_ssl_engine_set_x509") [] (bs "xc.vtable") ;;
    _ <~ br (bs "br_ssl_server_set_trust_anchor_names_alt") [talen] [] ;;
    match oid with
    | Some x => br (bs "br_x509_minimal_set_name_elements") [1] x
    | None => Ret tt
    end
  else Ret tt.
(** 223-333 *)
Definition tls_profile (c : config) (prefer : bool) (talen : Z) (oid : option (list Z)) : prog unit :=
  _ <~ br (bs "br_ssl_server_zero") [] [] ;;
  _ <~ br (bs "br_ssl_engine_set_versions") [version_min c; version_max c] [] ;;
  _ <~ br (bs "br_ssl_engine_set_all_flags") [tls_flags prefer] [] ;;
  _ <~ br (bs "br_ssl_engine_set_suites") (ciphers c) [] ;;
  _ <~ br (bs "br_ssl_engine_set_ec") [curves c] (bs "tls_pipe_mulgen tls_pipe_mul") ;;
  _ <~ br (bs "br_ssl_server_set_policy") [] (bs "tls_policy_vtable") ;;
  _ <~ br (bs "br_ssl_engine_set_hash") [md5_ID] (bs "br_md5_vtable") ;;
  _ <~ br (bs "br_ssl_engine_set_hash") [sha1_ID] (bs "br_sha1_vtable") ;;
  _ <~ br (bs "br_ssl_engine_set_hash") [sha256_ID] (bs "br_sha256_vtable") ;;
  _ <~ br (bs "br_ssl_engine_set_hash") [sha384_ID] (bs "br_sha384_vtable") ;;
  _ <~ br (bs "br_ssl_engine_set_hash") [sha512_ID] (bs "br_sha512_vtable") ;;
  _ <~ br (bs "br_ssl_engine_set_prf10") [] (bs "tls_pipe_prf") ;;
  _ <~ br (bs "br_ssl_engine_set_prf_sha256") [] (bs "tls_pipe_prf") ;;
  _ <~ br (bs "br_ssl_engine_set_prf_sha384") [] (bs "tls_pipe_prf") ;;
  _ <~ br (bs "br_ssl_engine_set_chapol") [] (bs "tls_pipe_chapol_in_vtable tls_pipe_chapol_out_vtable") ;;
  _ <~ br (bs "br_ssl_engine_set_gcm") [] (bs "tls_pipe_gcm_in_vtable tls_pipe_gcm_out_vtable") ;;
  _ <~ br (bs "br_ssl_engine_set_default_aes_cbc") [] [] ;;
  _ <~ br (bs "br_ssl_engine_set_cbc") [] (bs "tls_pipe_cbc_in_vtable tls_pipe_cbc_out_vtable") ;;
  _ <~ client_certificates talen oid ;;
  _ <~ br (bs "br_ssl_engine_set_buffer") [BUFSIZE_BIDI; 1] (bs "ctx.iobuf") ;;
  seed <~ randombytes 32 ;;
  _ <~ br (bs "br_ssl_engine_inject_entropy") [] seed ;;
  _ <~ randombytes 32 ;;
  _ <~ br (bs "br_prng_seeder_system") [] [] ;;
  br (bs "br_ssl_server_reset") [] [].
