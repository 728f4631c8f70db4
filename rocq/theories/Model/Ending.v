(** The texts for the log about the end of a TLS connection: tls_error.c, tls_engine.c:174-208,
    tls_keytype.c, and run_tls_phase of main_tlswrapper.c once more, now with the variables reason
    and detail.  The level of the log is not looked at here: log_e writes at level 2 and above,
    log_d at level 3 and above (Log.v). *)
From Verif.Model Require Import Base Sys Io Fdio Str Relay Session Tlsphase.

(** tls_error.c:11-245, the terminator left out; the values are those of bearssl_ssl.h and
    bearssl_x509.h *)
Definition errors : list (Z * list Z) :=
  [(1, bs "Caller-provided parameter is incorrect.");
   (2, bs "Operation requested by the caller cannot be applied with the current context state (e.g. reading data while outgoing data is waiting to be sent).");
   (3, bs "Incoming protocol or record version is unsupported.");
   (4, bs "Incoming record version does not match the expected version.");
   (5, bs "Incoming record length is invalid.");
   (6, bs "Incoming record is too large to be processed, or buffer is too small for the handshake message to send.");
   (7, bs "Decryption found an invalid padding, or the record MAC is not correct.");
   (8, bs "No initial entropy was provided, and none can be obtained from the OS.");
   (9, bs "Incoming record type is unknown.");
   (10, bs "Incoming record or message has wrong type with regards to the current engine state.");
   (12, bs "ChangeCipherSpec message from the peer has invalid contents.");
   (13, bs "Alert message from the peer has invalid contents (odd length).");
   (14, bs "Incoming handshake message decoding failed.");
   (15, bs "ServerHello contains a session ID which is larger than 32 bytes.");
   (16, bs "Server wants to use a cipher suite that we did not claim to support. This is also reported if we tried to advertise a cipher suite that we do not support.");
   (17, bs "Server wants to use a compression that we did not claim to support.");
   (18, bs "Server's max fragment length does not match client's.");
   (19, bs "Secure renegotiation failed.");
   (20, bs "Server sent an extension type that we did not announce, or used the same extension type several times in a single ServerHello.");
   (21, bs "Invalid Server Name Indication contents (when used by the server, this extension shall be empty).");
   (22, bs "Invalid ServerHelloDone from the server (length is not 0).");
   (23, bs "Internal limit exceeded (e.g. server's public key is too large).");
   (24, bs "Finished message from peer does not match the expected value.");
   (25, bs "Session resumption attempt with distinct version or cipher suite.");
   (26, bs "Unsupported or invalid algorithm (ECDHE curve, signature algorithm, hash function).");
   (27, bs "Invalid signature in ServerKeyExchange or CertificateVerify message.");
   (28, bs "Peer's public key does not have the proper type or is not allowed for the requested operation.");
   (29, bs "Client did not send a certificate upon request, or the client certificate could not be validated.");
   (31, bs "I/O error or premature close on transport stream.");
   (33, bs "Invalid value in an ASN.1 structure.");
   (34, bs "Truncated certificate or other ASN.1 object.");
   (35, bs "Empty certificate chain (no certificate at all).");
   (36, bs "Decoding error: inner element extends beyond outer element size.");
   (37, bs "Decoding error: unsupported tag class (application or private).");
   (38, bs "Decoding error: unsupported tag value.");
   (39, bs "Decoding error: indefinite length.");
   (40, bs "Decoding error: extraneous element.");
   (41, bs "Decoding error: unexpected element.");
   (42, bs "Decoding error: expected constructed element, but is primitive.");
   (43, bs "Decoding error: expected primitive element, but is constructed.");
   (44, bs "Decoding error: BIT STRING length is not multiple of 8.");
   (45, bs "Decoding error: BOOLEAN value has invalid length.");
   (46, bs "Decoding error: value is off-limits.");
   (47, bs "Invalid distinguished name.");
   (48, bs "Invalid date/time representation.");
   (49, bs "Certificate contains unsupported features that cannot be ignored.");
   (50, bs "Key or signature size exceeds internal limits.");
   (51, bs "Key type does not match that which was expected.");
   (52, bs "Signature is invalid.");
   (53, bs "Validation time is unknown.");
   (54, bs "Certificate is expired or not yet valid.");
   (55, bs "Issuer/Subject DN mismatch in the chain.");
   (56, bs "Expected server name was not found in the chain.");
   (57, bs "Unknown critical extension in certificate.");
   (58, bs "Not a CA, or path length constraint violation.");
   (59, bs "Key Usage extension prohibits intended usage.");
   (60, bs "Public key found in certificate is too small.");
   (62, bs "Chain could not be linked to a trust anchor.")].
(** tls_error.c:268-298, the terminator left out *)
Definition alerts : list (Z * list Z) :=
  [(0, bs "close_notify");
   (10, bs "unexpected_message");
   (20, bs "bad_record_mac");
   (21, bs "decryption_failed");
   (22, bs "record_overflow");
   (30, bs "decompression_failure");
   (40, bs "handshake_failure");
   (42, bs "bad_certificate");
   (43, bs "unsupported_certificate");
   (44, bs "certificate_revoked");
   (45, bs "certificate_expired");
   (46, bs "certificate_unknown");
   (47, bs "illegal_parameter");
   (48, bs "unknown_ca");
   (49, bs "access_denied");
   (50, bs "decode_error");
   (51, bs "decrypt_error");
   (70, bs "protocol_version");
   (71, bs "insufficient_security");
   (80, bs "internal_error");
   (86, bs "inappropriate_fallback");
   (90, bs "user_canceled");
   (100, bs "no_renegotiation");
   (110, bs "unsupported_extension");
   (112, bs "unrecognized_name")].
(** The loop over a table that ends with a null pointer: 260-262, 312-314 *)
Fixpoint lookup (t : list (Z * list Z)) (otherwise : list Z) (n : Z) : list Z :=
  match t with
  | [] => otherwise
  | (k, s) :: t => if k =? n then s else lookup t otherwise n
  end.
(** tls_error.c:256-264 *)
Definition tls_error_str (e : Z) : list Z := lookup errors (bs "unknown") e.
(** tls_error.c:308-316 *)
Definition tls_alert_str (a : Z) : list Z := lookup alerts (bs "unknown_alert") a.
(** tls_keytype.c:20-24, with the values of bearssl_x509.h *)
Definition tls_keytype_str (i : Z) : list Z :=
  if i =? 1 then bs "RSA" else if i =? 2 then bs "EC" else bs "UNKNOWN".

(** bearssl_ssl.h *)
Definition RECV_FATAL_ALERT : Z := 256.
Definition SEND_FATAL_ALERT : Z := 512.
(** tls_engine.c:187-208: the returned text and the lines written at the error level *)
Definition reason_of (done : bool) (e : Z) : list Z * list (list Z) :=
  let line s := if done then [s] else [] in
  if e =? 0 then (bs "TLS closed normally", [])
  else if SEND_FATAL_ALERT <=? e then
    let a := tls_alert_str (e - SEND_FATAL_ALERT) in (a, line (bs "TLS sent alert: " ++ a))
  else if RECV_FATAL_ALERT <=? e then
    let a := tls_alert_str (e - RECV_FATAL_ALERT) in (a, line (bs "TLS received alert: " ++ a))
  else (tls_error_str e, line (bs "TLS error: " ++ tls_error_str e)).
Definition close_reason (done : bool) : prog (list Z * list (list Z)) :=
  a <~ engine (bs "br_ssl_engine_last_error") ;; Ret (reason_of done (ret a)).

(** reason, detail, the lines at the error level *)
Record summary : Type := mksum { reason : list Z; detail : list Z; lines : list (list Z) }.
Definition bare (r : list Z) : summary := mksum r [] [].
(** 908-909 *)
Definition unset : summary := bare (bs "unknown").
Definition sverdict : Type := nxt tsess (Z * tsess * summary).
(** The only way out of a part of the loop is that with this reason. *)
Definition because (m : summary) (p : prog tverdict) : prog sverdict :=
  x <~ p ;; Ret (match x with Again s => Again s | Stop (c, s) => Stop (c, s, m) end).

Section Said.
Variables timeout finishtimeout self : Z.
Variable usercert : bool.
(** 907-1122 *)
Definition said_body (fuel : nat) (s : tsess) : prog sverdict :=
  st <~ current_state ;;
  f <~ tls_eof1 st (fds s) ;;
  f <~ tls_eof2 fuel st f ;;
  f <~ tls_eof3 st f ;;
  st <~ tls_notify st f ;;
  s' <~ report_handshake timeout usercert fuel st (with_fds s f) ;;
  match s' with
  | None => Ret (Stop (111, with_fds s f, unset))
  | Some s =>
    (* 996-1000 *)
    if has st CLOSED && negb (shaken s) then
      '(d, l) <~ close_reason (shaken s) ;; Ret (Stop (0, s, mksum (bs "handshake failed") d l))
    (* 1005-1009 *)
    else if has st CLOSED && negb (has st SENDREC) then
      '(d, l) <~ close_reason (shaken s) ;; Ret (Stop (0, s, mksum (bs "finished") d l))
    (* 1018-1022 *)
    else if negb (can_recvrec st f) && negb (can_sendrec st f) && negb (can_sendapp st f) && negb (can_recvapp st f) then
      Ret (Stop (0, s, mksum (bs "finished") (bs "close_notify sent, not waiting for peer") []))
    else
      h <~ watch (tls_watch self st f) ;;
      match h with
      | [wtopeer; wfrompeer; wtochild; wfromchild; wself] =>
        (* 1070 *)
        if (wtochild : bool) then because (bare (bs "write to child failed")) (tls_tochild s)
        (* 1083 *)
        else if (wtopeer : bool) then because (bare (bs "write to network failed")) (tls_topeer s)
        else if (wfrompeer : bool) then because unset (tls_frompeer timeout s)
        else if (wfromchild : bool) then because unset (tls_fromchild timeout s)
        (* 1119 *)
        else if (wself : bool) then because (bare (bs "signal")) (tls_signal finishtimeout self s)
        else Ret (Again s)
      | _ => Bad
      end
  end.
Definition said_phase (fuel : nat) (s : tsess) : prog (Z * tsess * summary) := iter fuel (said_body fuel) s.
End Said.

(** 1124-1129: the line at the debug level *)
Definition phase_line (m : summary) : list Z :=
  bs "tls phase: " ++ reason m ++ (match detail m with [] => [] | d => bs ", " ++ d end).
