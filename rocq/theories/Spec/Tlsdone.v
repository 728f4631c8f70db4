(** Nothing is left behind in the TLS phase: the engine is seen as a source of plaintext and of
    records, and what counts is whether all of it has been passed on. *)
From Verif.Model Require Import Base Sys.
From Verif.Spec Require Import Stream Text Flow Starttls Tlsrelay.

(** The calls in which the engine does its work. *)
Definition working : list (list Z) :=
  [bs "tls_engine_recvrec_ack"; bs "tls_engine_sendapp_ack"; bs "tls_engine_sendrec_ack"; bs "tls_engine_recvapp_ack"; bs "tls_engine_flush"; bs "tls_engine_close"].
Definition works (c : sys) : Prop := exists m, In m working /\ called m c.

Section Engine.
(** After the calls t: the plaintext P t decrypted so far and the records R t made so far.
    An engine that has failed may have dropped what it had not passed on. *)
Variables P R : trace -> list Z.
Variable failed : trace -> Prop.
Definition engine_makes (t : trace) (e : event) : Prop :=
  let (c, a) := e in
  (* plaintext and records are offered behind what was acknowledged *)
  (called (bs "tls_engine_recvapp_buf") c -> exists u, skipn (Z.to_nat (acked (bs "tls_engine_recvapp_ack") t)) (P t) = data a ++ u) /\
  (called (bs "tls_engine_sendrec_buf") c -> exists u, skipn (Z.to_nat (acked (bs "tls_engine_sendrec_ack") t)) (R t) = data a ++ u) /\
  (* no plaintext before the end of the handshake *)
  (called (bs "tls_engine_current_state") c -> Z.testbit (ret a) 4 = true -> Z.testbit (ret a) 3 = true \/ seenapp t) /\
  (* a state without these bits: nothing is left *)
  (called (bs "tls_engine_current_state") c -> Z.testbit (ret a) 4 = false -> len (P t) <= acked (bs "tls_engine_recvapp_ack") t \/ failed t) /\
  (called (bs "tls_engine_current_state") c -> Z.testbit (ret a) 1 = false -> len (R t) <= acked (bs "tls_engine_sendrec_ack") t \/ failed t) /\
  (* what has been made stays, more is made only in certain calls *)
  is_prefix (P t) (P (t ++ [e])) /\ is_prefix (R t) (R (t ++ [e])) /\ (failed t -> failed (t ++ [e])) /\
  (~ works c -> P (t ++ [e]) = P t /\ R (t ++ [e]) = R t).

Section Done.
Variables pi po ci co self : Z.
Variables usercert reported0 : bool.
(** The program has been given the account record and all of the plaintext; or nothing, and there is no plaintext. *)
Definition given (t : trace) : Prop :=
  sent ci t = record usercert reported0 t ++ P t \/ (sent ci t = [] /\ P t = []).
(** The end of the input of the program: all of the plaintext has come before it, or a write to
    the program failed, the engine failed or contradicted itself, or a signal cut the input. *)
Definition input_end (t : trace) (e : event) : Prop :=
  (exists how, fst e = Shutdown ci how) \/ fst e = Close ci ->
  given t \/ broken ci t \/ nodata (bs "tls_engine_recvapp_buf") t \/ failed t \/ told self 67 t \/ told self 65 t.
(** The end of the output to the peer: all that the program has written has been handed to the
    engine, and all records that the engine has made have been sent. *)
Definition output_end (t : trace) (e : event) : Prop :=
  (exists how, fst e = Shutdown po how) \/ fst e = Close po ->
  (gone co t /\ handed (bs "tls_engine_sendapp_ack") t = got co t /\ sent po t = R t) \/
  broken po t \/ nodata (bs "tls_engine_sendrec_buf") t \/ failed t.
(** The end of the phase. *)
Definition all_end (t : trace) : Prop :=
  handed (bs "tls_engine_recvrec_ack") t = got pi t /\ handed (bs "tls_engine_sendapp_ack") t = got co t /\
  (~ Sendrec t -> sent po t = R t \/ failed t) /\ (~ Recvapp t -> ~ gone ci t -> given t \/ failed t).
End Done.
End Engine.

(** Plaintext of the program does not stay in a half filled record: the record is closed at once;
    and so is the record that announces the end. *)
Definition tls_flushed (t : trace) (e : event) : Prop :=
  forall a, after t (fun c => called (bs "tls_engine_sendapp_ack") c \/ called (bs "tls_engine_close") c) a ->
  fst e = Other (bs "tls_engine_flush") [0] [].
(** The state of the engine in use is the present one. *)
Definition fresh (t : trace) : Prop :=
  exists t0 a u, t = t0 ++ (Other (bs "tls_engine_current_state") [] [], a) :: u /\
    forall e, In e u -> ~ works (fst e) /\ ~ called (bs "tls_engine_current_state") (fst e).
Definition tls_fresh (t : trace) (e : event) : Prop :=
  match fst e with Shutdown _ _ | Close _ | Select _ _ _ _ => fresh t | _ => True end.
