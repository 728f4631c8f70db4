(** The TLS phase: peer (pi, po), child (ci, co), signals on self; between them the TLS engine,
    seen in the calls of it.  A negative ci or co stands for a descriptor that is closed from
    the start. *)
From Verif.Model Require Import Base Sys.
From Verif.Spec Require Import Stream Text Flow Starttls.

(** ** The engine *)
Definition called (name : list Z) (c : sys) : Prop := exists args d, c = Other name args d.
Definition namedb (name : list Z) (c : sys) : bool :=
  match c with Other m _ _ => if list_eq_dec Z.eq_dec m name then true else false | _ => false end.
(** The last answer about its state; bits 0 to 4: closed, record to send, room for a record,
    room for application data, application data to deliver. *)
Definition state (t : trace) : Z :=
  fold_left (fun s e => if namedb (bs "tls_engine_current_state") (fst e) then ret (snd e) else s) t 0.
Definition flag (k : Z) (t : trace) : Prop := Z.testbit (state t) k = true.
Definition Closed := flag 0.
Definition Sendrec := flag 1.
Definition Recvrec := flag 2.
Definition Sendapp := flag 3.
Definition Recvapp := flag 4.
(** The bytes handed to the engine, and the number of its bytes acknowledged. *)
Definition handed (name : list Z) (t : trace) : list Z :=
  concat (map (fun e => match fst e with Other m _ d => if namedb name (fst e) then d else [] | _ => [] end) t).
Definition acked (name : list Z) (t : trace) : Z :=
  fold_left (fun s e => match fst e with Other m (n :: _) _ => if namedb name (fst e) then s + n else s | _ => s end) t 0.
(** Some state so far allowed application data to be sent. *)
Definition seenapp (t : trace) : Prop :=
  exists c a, In (c, a) t /\ called (bs "tls_engine_current_state") c /\ Z.testbit (ret a) 3 = true.
(** Interface of the engine: the plaintext P received and the records R produced are offered in
    order, behind what was acknowledged; plaintext is not available before the state has shown
    the handshake to be complete. *)
Definition engine_ok (P R : list Z) (t : trace) (e : event) : Prop :=
  let (c, a) := e in
  (called (bs "tls_engine_recvapp_buf") c -> exists u, skipn (Z.to_nat (acked (bs "tls_engine_recvapp_ack") t)) P = data a ++ u) /\
  (called (bs "tls_engine_sendrec_buf") c -> exists u, skipn (Z.to_nat (acked (bs "tls_engine_sendrec_ack") t)) R = data a ++ u) /\
  (called (bs "tls_engine_current_state") c -> Z.testbit (ret a) 4 = true -> Z.testbit (ret a) 3 = true \/ seenapp t).

Section Tls.
Variables pi po ci co self : Z.
(** The login name comes from the certificate; the child has its account record already. *)
Variables usercert reported0 : bool.
Definition tls_setup : Prop :=
  NoDup [pi; po; ci; co; self] /\ 0 <= pi < 1024 /\ 0 <= po < 1024 /\ 0 <= self < 1024 /\
  (ci < -1 \/ 0 <= ci < 1024) /\ (co < -1 \/ 0 <= co < 1024).
Definition gone (f : Z) (t : trace) : Prop := f < 0 \/ closed f t.

(** The account record: the name in the certificate up to the first @, or nothing. *)
Definition login (a : ans) : list Z := before 64 (before 0 (firstn 255 (map (fun b => b mod 256) (data a)))).
Definition account (t : trace) : list Z :=
  if usercert then
    match find (fun e => namedb (bs "clientcrt") (fst e)) t with Some e => login (snd e) ++ [0] | None => [0] end
  else [0].
Definition record (t : trace) : list Z := if reported0 then [] else frame (account t).

(** The first answer about the client certificate is that there is a name in it. *)
Definition certified (t : trace) : Prop :=
  usercert = true -> reported0 = false -> exists e, find (fun e => namedb (bs "clientcrt") (fst e)) t = Some e /\ ret (snd e) <> 0.

(** The streams: to the child the account record and then the plaintext, and nothing without a client certificate if
    the name is to come from it; to the peer the records; the engine is handed what was read. *)
Definition streams (P R : list Z) (t : trace) : Prop :=
  is_prefix (sent ci t) (record t ++ P) /\ is_prefix (sent po t) R /\ (sent ci t <> [] -> certified t).
Definition handing (t : trace) : Prop :=
  is_prefix (handed (bs "tls_engine_recvrec_ack") t) (got pi t) /\
  is_prefix (handed (bs "tls_engine_sendapp_ack") t) (got co t) /\
  acked (bs "tls_engine_sendrec_ack") t <= len (sent po t).
(** A transfer in progress: which call follows which. *)
Definition after (t : trace) (c : sys -> Prop) (a : ans) : Prop := exists t0 x, t = t0 ++ [(x, a)] /\ c x.
Definition tls_moves (t : trace) (e : event) : Prop :=
  match fst e with
  | Write f b =>
    (f = po -> exists a, after t (eq (Other (bs "tls_engine_sendrec_buf") [] [])) a /\ b = firstn (Z.to_nat 1048576) (data a) /\ b <> []) /\
    (f = ci -> (exists a, after t (eq (Other (bs "tls_engine_recvapp_buf") [] [])) a /\ b = firstn (Z.to_nat 1048576) (data a) /\ b <> []) \/
               (Sendapp t /\ reported0 = false))
  | Read f n =>
    (f = pi -> exists a, after t (eq (Other (bs "tls_engine_recvrec_buf") [] [])) a /\ n = Z.min (ret a) 1048576 /\ 0 < n) /\
    (f = co -> exists a, after t (eq (Other (bs "tls_engine_sendapp_buf") [] [])) a /\ n = Z.min (ret a) 1048576 /\ 0 < n)
  | Other m args d =>
    (m = bs "tls_engine_recvapp_ack" -> exists a, after t (fun c => exists b, c = Write ci b) a /\ args = [ret a] /\ 0 < ret a) /\
    (m = bs "tls_engine_sendrec_ack" -> exists a, after t (fun c => exists b, c = Write po b) a /\ args = [ret a] /\ 0 < ret a) /\
    (m = bs "tls_engine_recvrec_ack" -> exists a, after t (fun c => exists n, c = Read pi n) a /\ args = [ret a] /\ 0 < ret a /\ d = data a) /\
    (m = bs "tls_engine_sendapp_ack" -> exists a, after t (fun c => exists n, c = Read co n) a /\ args = [ret a] /\ 0 < ret a /\ d = data a) /\
    (m = bs "tls_engine_recvapp_buf" -> Recvapp t /\ ~ gone ci t) /\
    (m = bs "tls_engine_sendrec_buf" -> Sendrec t /\ ~ gone po t) /\
    (m = bs "tls_engine_recvrec_buf" -> Recvrec t /\ ~ gone pi t) /\
    (m = bs "tls_engine_sendapp_buf" -> Sendapp t /\ ~ gone co t /\ ~ gone po t)
  | _ => True
  end.
(** TLS shutdown is started only when the child has no descriptor any more. *)
Definition tls_notified (t : trace) (e : event) : Prop :=
  called (bs "tls_engine_close") (fst e) -> gone ci t /\ gone co t /\ ~ Closed t.

(** The engine returned no buffer (although its state said so). *)
Definition nodata (name : list Z) (t : trace) : Prop := exists a, In (Other name [] [], a) t /\ data a = [].
Definition noroom (name : list Z) (t : trace) : Prop := exists a, In (Other name [] [], a) t /\ ret a <= 0.
(** The peer was just asked for, without waiting, and had nothing to read. *)
Definition idle (t : trace) : Prop :=
  exists t0 n a u, t = t0 ++ (Select n [pi] [] (Some 0), a) :: u /\ ~ (0 < ret a /\ In pi (data a)) /\
    forall e, In e u -> exists how, fst e = Shutdown ci how.
(** Why a descriptor may be closed. *)
Definition tls_reason (f : Z) (t : trace) : Prop :=
  (f = pi /\ (eof pi t \/ noroom (bs "tls_engine_recvrec_buf") t)) \/
  (f = po /\ (broken po t \/ nodata (bs "tls_engine_sendrec_buf") t \/ (gone co t /\ Closed t /\ ~ Sendrec t))) \/
  (f = ci /\ (broken ci t \/ nodata (bs "tls_engine_recvapp_buf") t \/ (gone pi t /\ ~ Recvapp t) \/
              (gone co t /\ ~ Recvapp t /\ idle t) \/ told self 67 t \/ told self 65 t)) \/
  (f = co /\ (eof co t \/ noroom (bs "tls_engine_sendapp_buf") t \/ told self 65 t)).
Definition tls_close (t : trace) (e : event) : Prop :=
  match fst e with Shutdown f _ | Close f => tls_reason f t | _ => True end.

(** What is waited for, and what has been done before. *)
Definition tls_select (t : trace) (e : event) : Prop :=
  match fst e with
  | Select n rd wr us =>
    (us = Some 0 /\ rd = [pi] /\ wr = [] /\ gone co t /\ ~ gone ci t /\ ~ gone pi t /\ ~ Recvapp t) \/
    (us = None /\ In self rd /\
     (In po wr <-> Sendrec t /\ ~ gone po t) /\
     (In pi rd <-> Recvrec t /\ ~ gone pi t /\ (~ gone ci t \/ Sendrec t \/ ~ gone co t)) /\
     (In ci wr <-> Recvapp t /\ ~ gone ci t) /\
     (In co rd <-> Sendapp t /\ ~ gone co t /\ ~ gone po t) /\
     (exists f, In f [po; ci] /\ In f wr \/ In f [pi; co] /\ In f rd) /\
     (Closed t -> Sendrec t /\ seenapp t) /\
     (* end of file has been passed on, signals have been obeyed, shutdown has been started *)
     (gone pi t -> Recvapp t \/ gone ci t) /\
     (gone ci t -> gone co t -> Closed t \/ exists a, In (Other (bs "tls_engine_close") [] [], a) t) /\
     (eof pi t -> gone pi t) /\ (eof co t -> gone co t) /\ (told self 67 t -> gone ci t) /\ (told self 65 t -> gone ci t /\ gone co t) /\
     (* nothing is on the way outside the engine *)
     handed (bs "tls_engine_recvrec_ack") t = got pi t /\ handed (bs "tls_engine_sendapp_ack") t = got co t /\
     acked (bs "tls_engine_sendrec_ack") t = len (sent po t))
  | _ => True
  end.
(** The order in which ready descriptors are served. *)
Definition tls_serve (t : trace) (e : event) : Prop :=
  forall t0 n rd wr a, t = t0 ++ [(Select n rd wr None, a)] -> 0 < ret a ->
    let w f := In f wr /\ In (-1 - f) (data a) in
    let r f := In f rd /\ In f (data a) in
    (w ci -> fst e = Other (bs "tls_engine_recvapp_buf") [] []) /\
    (~ w ci -> w po -> fst e = Other (bs "tls_engine_sendrec_buf") [] []) /\
    (~ w ci -> ~ w po -> r pi -> fst e = Other (bs "tls_engine_recvrec_buf") [] []) /\
    (~ w ci -> ~ w po -> ~ r pi -> r co -> fst e = Other (bs "tls_engine_sendapp_buf") [] []) /\
    (~ w ci -> ~ w po -> ~ r pi -> ~ r co -> r self -> exists n, fst e = Read self n).

(** How the phase ends: exit code 111 or return. *)
Definition tls_died (t : trace) : Prop :=
  reported0 = false /\ Sendapp t /\
  ((usercert = true /\ exists a, In (Other (bs "clientcrt") [] [], a) t /\ ret a = 0) \/
   (* the account record could not be written *)
   exists t0 e, t = t0 ++ [e] /\ hard e).
Definition tls_over (t : trace) : Prop :=
  (* the handshake failed; or everything is done *)
  (Closed t /\ ~ Sendapp t) \/ (Closed t /\ ~ Sendrec t) \/
  (~ (Sendrec t /\ ~ gone po t) /\ ~ (Recvrec t /\ ~ gone pi t /\ (~ gone ci t \/ Sendrec t \/ ~ gone co t)) /\
   ~ (Recvapp t /\ ~ gone ci t) /\ ~ (Sendapp t /\ ~ gone co t /\ ~ gone po t)) \/
  broken ci t \/ nodata (bs "tls_engine_recvapp_buf") t \/ broken po t \/ nodata (bs "tls_engine_sendrec_buf") t \/
  (exists x, told self x t /\ x <> 67) \/ eof self t.
End Tls.
