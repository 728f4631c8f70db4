(** What a PEM file contains, as told by a PEM decoder, and what is to be made of it. *)
From Verif.Model Require Import Base Sys Certs.

(** ** The decoder's story *)

(** What a decoder reports: bytes of the current object, a BEGIN line, an END line, nonsense. *)
Inductive ev : Type := Chunk (b : list Z) | Begin (n : list Z) | End (n : list Z) | Broken.

Definition is_call (nm : list Z) (c : sys) : bool :=
  match c with Other m _ _ => if list_eq_dec Z.eq_dec m nm then true else false | _ => false end.
Definition is_pem_push : sys -> bool := is_call (bs "br_pem_decoder_push").
Definition is_pem_event : sys -> bool := is_call (bs "br_pem_decoder_event").

Definition said1 (e : event) : list ev :=
  if is_pem_push (fst e) then (if ret (snd e) =? -1 then [Chunk (data (snd e))] else [])
  else if is_pem_event (fst e) then
    (if ret (snd e) =? 1 then [Begin (data (snd e))] else if ret (snd e) =? 2 then [End (data (snd e))]
     else if ret (snd e) =? 3 then [Broken] else [])
  else [].
Definition said (tr : trace) : list ev := concat (map said1 tr).

(** Bytes of the file the decoder has taken. *)
Definition took1 (e : event) : Z := if is_pem_push (fst e) then (if ret (snd e) =? -1 then 0 else ret (snd e)) else 0.
Definition took (tr : trace) : Z := fold_right (fun e s => took1 e + s) 0 tr.

(** An object is its name and its contents. *)
Definition obj : Type := (list Z * list Z)%type.

(** [whole l os]: the report [l] is that of a complete file with the objects [os] in this order. *)
Inductive whole : list ev -> list obj -> Prop :=
| whole_nil : whole [] []
| whole_stray l os b : whole l os -> whole (l ++ [Chunk b]) os
| whole_obj l os n bs : whole l os -> whole (l ++ Begin n :: map Chunk bs ++ [End n]) (os ++ [(n, concat bs)]).
(** [amid l os n b]: a file with the objects [os], then one called [n] that is not finished, [b] so far. *)
Definition amid (l : list ev) (os : list obj) (n b : list Z) : Prop :=
  exists l0 bs, l = l0 ++ Begin n :: map Chunk bs /\ whole l0 os /\ b = concat bs.

(** Contents of the objects with one of the names. *)
Definition among (names : list (list Z)) (n : list Z) : bool := if in_dec (list_eq_dec Z.eq_dec) n names then true else false.
Definition pick (names : list (list Z)) (os : list obj) : list (list Z) := map snd (filter (fun o => among names (fst o)) os).

(** ** What BearSSL's decoders are relied on for *)

(** the name of the last BEGIN line *)
Fixpoint last_begin (l : list ev) : option (list Z) :=
  match l with
  | [] => None
  | e :: t => match last_begin t with Some n => Some n | None => match e with Begin n => Some n | _ => None end end
  end.
(** Bytes handed to destination functions. *)
Definition given1 (e : event) : Z :=
  match fst e with Other _ _ _ => if ret (snd e) =? -1 then len (data (snd e)) else 0 | _ => 0 end.
Definition given (tr : trace) : Z := fold_right (fun e s => given1 e + s) 0 tr.

(** The PEM decoder takes no more than it was offered, names are strings, and an END line has
    the name of the BEGIN line; a failed allocation sets errno (alloc.c); the data fits into
    memory; the X.509 decoder's key has its parts. *)
Definition decoders (before : trace) (e : event) : Prop :=
  let '(c, a) := e in
  (forall n, c = pem_push n -> ret a = -1 \/ 0 <= ret a <= n) /\
  (c = pem_event -> Forall (fun x => 0 < x < 256) (data a) /\
                    (ret a = 2 -> forall n, last_begin (said before) = Some n -> data a = n)) /\
  (forall n, c = Alloc n -> (ret a = 0 /\ err a <> 0) \/ ret a = 1) /\
  (c = x509_pkey -> (ret a = 2 -> data a <> []) /\
                    (ret a = 1 -> exists n e, data a = len n :: n ++ e)) /\
  given before + given1 e < 2 ^ 60.

(** [decoder A tr]: every event of the trace is as [A] says. *)
Definition decoder (A : trace -> event -> Prop) (tr : trace) : Prop :=
  forall before e after, tr = before ++ e :: after -> A before e.

(** ** The certificates *)

Definition cert_objects : list (list Z) := [bs "CERTIFICATE"; bs "X509 CERTIFICATE"].

(** The public key of an answer of br_x509_decoder_get_pkey (BR_KEYTYPE_RSA 1, BR_KEYTYPE_EC 2). *)
Inductive pubkey : ans -> pkey -> Prop :=
| pubkey_ec p curve q : ret p = 2 -> data p = curve :: q -> pubkey p (KeyEC curve q)
| pubkey_rsa p n e : ret p = 1 -> data p = len n :: n ++ e -> pubkey p (KeyRSA n e).
Definition type_of (k : pkey) : Z := match k with KeyEC _ _ => 2 | KeyRSA _ _ => 1 end.

(** [consult der t tr]: the X.509 decoder is given the certificate [der] and no other; [t] is
    what it says: name, authority flag (BR_X509_TA_CA 1) and key. *)
Inductive consult (der : list Z) : anchor -> trace -> Prop :=
| consult_intro cbs a e p c fl k :
    Forall (fun x => ret x = -1) cbs -> ret a <> -1 -> ret e = 0 -> pubkey p k ->
    (fl = 1 /\ ret c <> 0 \/ fl = 0 /\ ret c = 0) ->
    consult der (mkanchor (concat (map data cbs)) fl k)
      (map (fun x => (x509_push der, x)) cbs ++ [(x509_push der, a); (x509_last_error, e); (x509_pkey, p); (x509_isca, c)]).
Inductive consults : list (list Z) -> list anchor -> trace -> Prop :=
| consults_nil : consults [] [] []
| consults_snoc ds ts tr d t u : consults ds ts tr -> consult d t u -> consults (ds ++ [d]) (ts ++ [t]) (tr ++ u).
Definition is_x509 (e : event) : bool :=
  is_call (bs "br_x509_decoder_push") (fst e) || is_call (bs "br_x509_decoder_last_error") (fst e) ||
  is_call (bs "br_x509_decoder_get_pkey") (fst e) || is_call (bs "br_x509_decoder_isCA") (fst e).

(** The chain of a file: its certificates, 1 to 16, each with what the X.509 decoder says. *)
Definition chain_of (os : list obj) (tr : trace) (c : pubcrt) : Prop :=
  crt c = pick cert_objects os /\ 1 <= len (crt c) <= 16 /\ consults (crt c) (ta c) (filter is_x509 tr) /\
  exists t ts, ta c = t :: ts /\ key_type c = type_of (key t).

(** ** Reasons to refuse a file *)

Definition no_memory (tr : trace) : Prop := exists n a, In (Alloc n, a) tr /\ ret a = 0.
(** the X.509 decoder reports an error, no key, or a key that is neither RSA nor EC *)
Definition bad_cert (tr : trace) : Prop :=
  (exists e, In (x509_last_error, e) tr /\ ret e <> 0) \/
  (exists p, In (x509_pkey, p) tr /\ ret p <> 1 /\ ret p <> 2).
(** a report that cannot go on to be that of a complete file *)
Definition malformed (l : list ev) : Prop :=
  exists l0 e, l = l0 ++ [e] /\
    (e = Broken \/
     (exists n os m b, e = Begin n /\ amid l0 os m b) \/
     (exists n os, e = End n /\ whole l0 os)).
Definition unfinished (l : list ev) : Prop := exists os n b, amid l os n b.
(** the BEGIN line of a seventeenth certificate *)
Definition too_many (l : list ev) : Prop :=
  exists l0 n os, l = l0 ++ [Begin n] /\ In n cert_objects /\ whole l0 os /\ len (pick cert_objects os) = 16.
Definition no_certs (l : list ev) : Prop := exists os, whole l os /\ pick cert_objects os = [].

(** ** The private key *)

Definition key_objects : list (list Z) := [bs "EC PRIVATE KEY"; bs "RSA PRIVATE KEY"; bs "PRIVATE KEY"].

Definition is_skey (e : event) : bool :=
  is_call (bs "br_skey_decoder_init") (fst e) || is_call (bs "br_skey_decoder_push") (fst e) ||
  is_call (bs "br_skey_decoder_last_error") (fst e) || is_call (bs "br_skey_decoder_key_type") (fst e) ||
  is_call (bs "br_skey_decoder_get_rsa") (fst e) || is_call (bs "br_skey_decoder_get_ec") (fst e).

(** What is known of the key type the key decoder will answer: a fresh one answers 0, and the
    answer changes only when the decoder is restarted or fed. *)
Definition known1 (k : option Z) (e : event) : option Z :=
  if is_call (bs "br_skey_decoder_init") (fst e) || is_call (bs "br_skey_decoder_push") (fst e) then None
  else if is_call (bs "br_skey_decoder_key_type") (fst e) then Some (ret (snd e)) else k.
Definition known (tr : trace) : option Z := fold_left known1 tr (Some 0).

(** The decoders for the private key: as above; data is delivered within objects only; the key
    type is steady. *)
Definition key_decoders (before : trace) (e : event) : Prop :=
  let '(c, a) := e in
  (forall n, c = pem_push n -> (ret a = -1 /\ exists os m b, amid (said before) os m b) \/ 0 <= ret a <= n) /\
  (c = pem_event -> Forall (fun x => 0 < x < 256) (data a) /\
                    (ret a = 2 -> forall n, last_begin (said before) = Some n -> data a = n)) /\
  (c = skey_type -> forall v, known before = Some v -> ret a = v).

(** [decoding payload t tr]: the key decoder is asked once if it has a key, started, given
    [payload] and nothing else, reports no error and a key of type [t]. *)
Definition decoding (payload : list Z) (t : Z) (tr : trace) : Prop :=
  exists z i ps e k g,
    tr = (skey_type, z) :: (skey_init, i) :: map (fun p => (skey_push (fst p), snd p)) ps ++
         [(skey_last_error, e); (skey_type, k); ((if t =? 1 then skey_rsa else skey_ec), g)] /\
    concat (map fst ps) = payload /\ ret e = 0 /\ ret k = t /\ (t = 1 \/ t = 2).

(** What is fed to the key decoder is what the PEM decoder just delivered from an object that
    has the name of a private key. *)
Definition only_key (before : trace) (e : event) : Prop :=
  forall b, fst e = skey_push b ->
    exists os n c, amid (said before) os n (c ++ b) /\ In n key_objects /\
      exists t p a, before = t ++ [(p, a)] /\ is_pem_push p = true /\ ret a = -1 /\ data a = b.

(** the key decoder reports an error or a key that is neither RSA nor EC *)
Definition bad_key (tr : trace) : Prop :=
  (exists e, In (skey_last_error, e) tr /\ ret e <> 0) \/
  (exists t0 e k, tr = t0 ++ [(skey_last_error, e); (skey_type, k)] /\ ret k <> 1 /\ ret k <> 2).
(** the BEGIN line of a second key *)
Definition second_key (l : list ev) : Prop :=
  exists l0 n os, l = l0 ++ [Begin n] /\ In n key_objects /\ whole l0 os /\ len (pick key_objects os) = 1.
Definition no_key (l : list ev) : Prop := exists os, whole l os /\ pick key_objects os = [].
