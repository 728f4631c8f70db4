(** The TLS engine that a command line asks for, read off BearSSL's set-up calls.

    Every set-up call overwrites one setting (bearssl_ssl.h, bearssl_x509.h); br_ssl_server_zero forgets the settings
    of the server, br_x509_minimal_init those of the validator of client certificates. *)
From Verif.Model Require Import Base Sys.
From Verif.Spec Require Import Settings Cmdline.

Definition called (names : list (list Z)) (c : sys) : bool := match c with Other n _ _ => existsb (same n) names | _ => false end.
(** what happened after the last such call, nothing if there was none *)
Fixpoint since (b : sys -> bool) (acc : option trace) (t : trace) : option trace :=
  match t with
  | [] => acc
  | e :: t => since b (if b (fst e) then Some [] else match acc with Some l => Some (l ++ [e]) | None => None end) t
  end.
Definition after_call (name : list Z) (t : trace) : trace := match since (called [name]) None t with Some l => l | None => [] end.
(** the numbers and the object of the last such call *)
Fixpoint last_call (b : sys -> bool) (acc : option (list Z * list Z)) (t : trace) : option (list Z * list Z) :=
  match t with
  | [] => acc
  | (c, _) :: t => last_call b (match c with Other _ a d => if b c then Some (a, d) else acc | _ => acc end) t
  end.
Definition server (names : list (list Z)) (t : trace) : option (list Z * list Z) := last_call (called names) None (after_call (bs "br_ssl_server_zero") t).
Definition validator (names : list (list Z)) (t : trace) : option (list Z * list Z) := last_call (called names) None (after_call (bs "br_x509_minimal_init") t).
(** the hash function with a number: there is a table with one entry for each *)
Definition sets_hash (name : list Z) (i : Z) (c : sys) : bool := called [name] c && match c with Other _ (j :: _) _ => j =? i | _ => false end.
Definition server_hash (i : Z) (t : trace) := last_call (sets_hash (bs "br_ssl_engine_set_hash") i) None (after_call (bs "br_ssl_server_zero") t).
Definition validator_hash (i : Z) (t : trace) := last_call (sets_hash (bs "br_x509_minimal_set_hash") i) None (after_call (bs "br_x509_minimal_init") t).

Definition setup (c : sys) : bool := match c with Other n _ _ => same (firstn 3 n) (bs "br_") | _ => false end.
(** the last set-up call starts the handshake: settings made after it would be late *)
Definition armed (t : trace) : Prop :=
  exists a x b, t = a ++ (Other (bs "br_ssl_server_reset") [] [], x) :: b /\ Forall (fun e => setup (fst e) = false) b.

(** X.690 8.19: the first two arcs in one number, numbers in base 128 with the high bit on all digits but the last;
    BearSSL wants the length in front *)
Definition base128 (n : Z) : list Z :=
  (if n <? 16384 then [] else [128 + n / 16384]) ++ (if n <? 128 then [] else [128 + n / 128 mod 128]) ++ [n mod 128].
Definition oid (arcs : list Z) : list Z :=
  match arcs with
  | a :: b :: l => let x := base128 (40 * a + b) ++ flat_map base128 l in len x :: x
  | _ => []
  end.
(** attributes of a name: id-at-commonName (X.520), emailAddress (PKCS #9) *)
Definition attribute (x : list Z) : list Z :=
  if same x (bs "commonName") then oid [2; 5; 4; 3]
  else if same x (bs "emailAddress") then oid [1; 2; 840; 113549; 1; 9; 1]
  else [].

(** the hash functions of bearssl_hash.h *)
Definition hashes : list (Z * list Z) :=
  [(1, bs "br_md5_vtable"); (2, bs "br_sha1_vtable"); (4, bs "br_sha256_vtable"); (5, bs "br_sha384_vtable"); (6, bs "br_sha512_vtable")].

(** client certificates: nobody is asked for one without -a; with -a it has to lead to one of the certificates
    in that file, and only SHA-2 signatures count *)
Definition asks_nobody (t : trace) : Prop :=
  server [bs "br_ssl_engine_set_x509"; bs "br_ssl_engine_set_default_x509"] t = None /\
  server [bs "br_ssl_server_set_trust_anchor_names"; bs "br_ssl_server_set_trust_anchor_names_alt"] t = None.
Definition asks (user : option (list Z)) (t : trace) : Prop :=
  server [bs "br_ssl_engine_set_x509"; bs "br_ssl_engine_set_default_x509"] t = Some ([], bs "xc.vtable") /\
  (exists n pem a, In (Other (bs "tls_pubcrt_parse") [] pem, a) t /\ ret a <> 0 /\ nth 0 (data a) 0 = n /\ 1 <= n <= 16 /\
    server [bs "br_ssl_server_set_trust_anchor_names"; bs "br_ssl_server_set_trust_anchor_names_alt"] t = Some ([n], []) /\
    last_call (called [bs "br_x509_minimal_init"]) None t = Some ([n], bs "br_sha256_vtable")) /\
  (forall i, validator_hash i t = if i =? 4 then Some ([i], bs "br_sha256_vtable") else if i =? 5 then Some ([i], bs "br_sha384_vtable")
     else if i =? 6 then Some ([i], bs "br_sha512_vtable") else None) /\
  validator [bs "br_x509_minimal_set_rsa"] t = Some ([], bs "br_rsa_pkcs1_vrfy_get_default") /\
  validator [bs "br_x509_minimal_set_ecdsa"] t = Some ([], bs "br_ec_get_default br_ecdsa_vrfy_asn1_get_default") /\
  server [bs "br_ssl_engine_set_rsavrfy"; bs "br_ssl_engine_set_default_rsavrfy"] t <> None /\
  server [bs "br_ssl_engine_set_ecdsa"; bs "br_ssl_engine_set_default_ecdsa"] t = Some ([], bs "tls_ecdsa_vrfy_asn1") /\
  validator [bs "br_x509_minimal_set_name_elements"] t = match user with Some x => Some ([1], attribute x) | None => None end.

(** the engine for the options [l] *)
Record engine_for (l : list item) (t : trace) : Prop := {
  (** versions from -m to -M *)
  e_versions : exists lo hi, server [bs "br_ssl_engine_set_versions"] t = Some ([lo; hi], []) /\ wanted_version (args 109 l) = Some lo /\ wanted_version (args 77 l) = Some hi;
  (** the server's preferences unless -S; no renegotiation; no other flag, so nobody passes without the certificate that was asked for *)
  e_flags : exists f, server [bs "br_ssl_engine_set_all_flags"; bs "br_ssl_engine_add_flags"; bs "br_ssl_engine_remove_flags"] t = Some ([f], []) /\
    forall b, 0 <= b -> Z.testbit f b = if b =? 0 then last_flag 115 83 true l else b =? 1;
  e_suites : server [bs "br_ssl_engine_set_suites"] t = Some (wanted_suites (args 99 l), []);
  (** groups; multiplications are made in the key process *)
  e_groups : exists m, server [bs "br_ssl_engine_set_ec"; bs "br_ssl_engine_set_default_ec"; bs "br_ssl_engine_set_default_ecdsa"] t = Some ([m], bs "tls_pipe_mulgen tls_pipe_mul") /\
    forall g, 0 <= g -> (Z.testbit m g = true <-> wanted_groups (args 101 l) g);
  (** certificates are chosen by tls_choose, signatures are made in the key process *)
  e_policy : server [bs "br_ssl_server_set_policy"; bs "br_ssl_server_set_single_rsa"; bs "br_ssl_server_set_single_ec"] t = Some ([], bs "tls_policy_vtable");
  e_hashes : forall i v, In (i, v) hashes -> server_hash i t = Some ([i], v);
  (** the master secret and the record keys stay in the key process *)
  e_prf10 : server [bs "br_ssl_engine_set_prf10"] t = Some ([], bs "tls_pipe_prf");
  e_prf256 : server [bs "br_ssl_engine_set_prf_sha256"] t = Some ([], bs "tls_pipe_prf");
  e_prf384 : server [bs "br_ssl_engine_set_prf_sha384"] t = Some ([], bs "tls_pipe_prf");
  e_chapol : server [bs "br_ssl_engine_set_chapol"; bs "br_ssl_engine_set_default_chapol"] t = Some ([], bs "tls_pipe_chapol_in_vtable tls_pipe_chapol_out_vtable");
  e_gcm : server [bs "br_ssl_engine_set_gcm"; bs "br_ssl_engine_set_default_aes_gcm"] t = Some ([], bs "tls_pipe_gcm_in_vtable tls_pipe_gcm_out_vtable");
  e_cbc : server [bs "br_ssl_engine_set_cbc"; bs "br_ssl_engine_set_default_aes_cbc"; bs "br_ssl_engine_set_default_des_cbc"] t = Some ([], bs "tls_pipe_cbc_in_vtable tls_pipe_cbc_out_vtable");
  e_clients : match args 97 l with [] => asks_nobody t | _ => asks (last_arg 85 l) t end;
  (** room for records in both directions at the same time *)
  e_buffer : exists n, server [bs "br_ssl_engine_set_buffer"] t = Some ([n; 1], bs "ctx.iobuf") /\ (16384 + 325) + (16384 + 85) <= n;
  (** 32 random bytes asked for after the last zeroing *)
  e_seed : exists x a, server [bs "br_ssl_engine_inject_entropy"] t = Some ([], x) /\ In (Other (bs "randombytes") [32] [], a) (after_call (bs "br_ssl_server_zero") t) /\ x = data a;
  e_armed : armed t }.

(** a use of the engine: records, application data, its state, the name in the client's certificate *)
Definition engine_call (c : sys) : bool := match c with Other n _ _ => same (firstn 11 n) (bs "tls_engine_") || same n (bs "clientcrt") | _ => false end.
(** randombytes fills its buffer; the certificate parser finds between 1 and 16 certificates or fails (C88) *)
Definition plausible (tr : trace) : Prop :=
  (forall n a, In (Other (bs "randombytes") [n] [], a) tr -> len (data a) = n /\ Forall (fun b => 0 <= b < 256) (data a)) /\
  (forall pem a, In (Other (bs "tls_pubcrt_parse") [] pem, a) tr -> ret a <> 0 -> 1 <= nth 0 (data a) 0 <= 16).
