(** What a line about the end of a TLS connection should mean. *)
From Verif.Model Require Import Base Sys.

Definition call_of (n : list Z) (e : event) : Prop := exists l d, fst e = Other n l d.
(** the engine was asked to close *)
Definition asked_close (tr : trace) : Prop := exists e, In e tr /\ call_of (bs "tls_engine_close") e.
(** what the engine said last about its state *)
Definition state_said (e : event) : option Z :=
  match fst e with
  | Other n _ _ => if list_eq_dec Z.eq_dec n (bs "tls_engine_current_state") then Some (ret (snd e)) else None
  | _ => None
  end.
Fixpoint last_state (tr : trace) : option Z :=
  match tr with
  | [] => None
  | e :: t => match last_state t with Some x => Some x | None => state_said e end
  end.
Definition flag (st f : Z) : Prop := Z.land st f <> 0.
(** bearssl_ssl.h: an engine that is not closed waits for something: for its records to be taken
    (2), for records of the peer (4), or for its plaintext to be taken (16). *)
Definition alive (tr : trace) : Prop :=
  forall e st, In e tr -> state_said e = Some st -> flag st 1 \/ flag st 2 \/ flag st 4 \/ flag st 16.

(** RFC 5246, A.3, without the numbers that are reserved, and RFC 7507, RFC 6066 for the two others
    (86, 112) *)
Definition alert_names : list (Z * list Z) :=
  [(0, bs "close_notify"); (10, bs "unexpected_message"); (20, bs "bad_record_mac"); (22, bs "record_overflow");
   (30, bs "decompression_failure"); (40, bs "handshake_failure"); (42, bs "bad_certificate");
   (43, bs "unsupported_certificate"); (44, bs "certificate_revoked"); (45, bs "certificate_expired");
   (46, bs "certificate_unknown"); (47, bs "illegal_parameter"); (48, bs "unknown_ca"); (49, bs "access_denied");
   (50, bs "decode_error"); (51, bs "decrypt_error"); (70, bs "protocol_version"); (71, bs "insufficient_security");
   (80, bs "internal_error"); (86, bs "inappropriate_fallback"); (90, bs "user_canceled");
   (100, bs "no_renegotiation"); (110, bs "unsupported_extension"); (112, bs "unrecognized_name")].
