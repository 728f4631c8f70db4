(** Model of tls_pubcrt.c and tls_seccrt.c: reading certificates and the private key from PEM.

    Outside calls (BearSSL):
    - br_pem_decoder_push gets the number of bytes left.  The answer -1 means that the decoder
      calls the current destination with the bytes in data and goes on; any other answer is
      its result, the number of bytes it took.
    - br_pem_decoder_event answers the event; data is the text br_pem_decoder_name points to
      then, without its terminator (the decoder is not used between the two).
    - br_x509_decoder_push gets the certificate, its answers are like those of
      br_pem_decoder_push; br_x509_decoder_last_error, br_x509_decoder_isCA answer in ret;
      br_x509_decoder_get_pkey answers -1 for a null pointer, otherwise the key type, with the
      curve and the point in data for an elliptic curve key, the length of the modulus, the
      modulus and the exponent for an RSA key.
    - br_skey_decoder_init, br_skey_decoder_push, br_skey_decoder_last_error,
      br_skey_decoder_key_type, br_skey_decoder_get_rsa and br_skey_decoder_get_ec work on
      crt->keydc; that these read the key through a pointer into it is not modelled.
    Omitted: log output with tls_keytype_str and the calls made for it (tls_pubcrt.c:217-225,
    tls_seccrt.c:99-102 and 105-106), br_pem_decoder_init and br_x509_decoder_init, and the
    contents of *crt when 0 is returned: no caller looks at them (tls_pipe.c:50,
    main_tlswrapper.c:1436, tls_keyjail.c:77). *)
From Verif.Model Require Import Base Sys Io Str Buffer Stralloc Applet Keyjail.

Definition PEM_BEGIN : Z := 1.  (* BR_PEM_BEGIN_OBJ *)
Definition PEM_END : Z := 2.    (* BR_PEM_END_OBJ *)
Definition PEM_ERROR : Z := 3.  (* BR_PEM_ERROR *)
Definition MAXCERTS : Z := 16.  (* tls_MAXCERTFILES, tls.h:9 *)

Definition pem_push (n : Z) : sys := Other (bs "br_pem_decoder_push") [n] [].
Definition pem_event : sys := Other (bs "br_pem_decoder_event") [] [].
Definition x509_push (der : list Z) : sys := Other (bs "br_x509_decoder_push") [] der.
Definition x509_last_error : sys := Other (bs "br_x509_decoder_last_error") [] [].
Definition x509_pkey : sys := Other (bs "br_x509_decoder_get_pkey") [] [].
Definition x509_isca : sys := Other (bs "br_x509_decoder_isCA") [] [].
Definition skey_init : sys := Other (bs "br_skey_decoder_init") [] [].
Definition skey_push (b : list Z) : sys := Other (bs "br_skey_decoder_push") [] b.
Definition skey_last_error : sys := Other (bs "br_skey_decoder_last_error") [] [].
Definition skey_type : sys := Other (bs "br_skey_decoder_key_type") [] [].
Definition skey_rsa : sys := Other (bs "br_skey_decoder_get_rsa") [] [].
Definition skey_ec : sys := Other (bs "br_skey_decoder_get_ec") [] [].
(** randombytes(&x, sizeof x) *)
Definition wipe (x : list Z) : sys := Other (bs "randombytes") [] x.

(** One call of a decoder's push function; [cb] is the destination and its state. *)
Fixpoint push {S} (fuel : nat) (c : sys) (cb : S -> list Z -> prog S) (s : S) : prog (Z * S) :=
  match fuel with
  | O => Halt
  | S f => Do c (fun a => if ret a =? -1 then s <~ cb s (data a) ;; push f c cb s else Ret (ret a, s))
  end.

(** str_equal(name, a) || ... *)
Fixpoint one_of (names : list (list Z)) (n : list Z) : prog bool :=
  match names with
  | [] => Ret false
  | a :: t => e <~ lift (str_equal (n ++ [0]) (a ++ [0])) ;; if e then Ret true else one_of t n
  end.

(** tls_pubcrt.c:16-20, tls_seccrt.c:12-16 *)
Definition parsedummy {S} (s : S) (_ : list Z) : prog S := Ret s.

(** ** tls_pubcrt.c *)

(** tls_pubcrt.c:31-39; [src] holds the bytes at the source pointer, none for a null pointer *)
Definition xmemdup (src : list Z) (n : Z) : prog (option (list Z)) :=
  Do (Alloc n) (fun a =>
    if ret a =? 0 then Ret None
    else d <~ lift (copyin (repeat 0 (Z.to_nat n)) 0 src n) ;; Ret (Some d)).

(** tls_pubcrt.c:41-46 *)
Record sa : Type := mksab { ss : stralloc; serror : Z }.
Definition sa_bytes (x : sa) : list Z := match sm (ss x) with Some m => m | None => [] end.

(** tls_pubcrt.c:58-72 *)
Definition append (x : sa) (b : list Z) : prog sa :=
  if negb (serror x =? 0) then Ret x
  else '(c, s) <~ stralloc_catb (ss x) (Some b) (len b) ;;
       Ret (mksab s (match c with Good => serror x | Fail e => e end)).
(** x.len = 0 *)
Definition sa_zero (x : sa) : sa := mksab (sa_clear (ss x)) (serror x).

(** br_x509_trust_anchor and struct tls_pubcrt, tls.h:11-21; only the used entries of the two
    arrays *)
Inductive pkey : Type := KeyEC (curve : Z) (q : list Z) | KeyRSA (n e : list Z).
Record anchor : Type := mkanchor { dn : list Z; flags : Z; key : pkey }.
Record pubcrt : Type := mkpub { key_type : Z; crt : list (list Z); ta : list anchor }.

Definition cert_names : list (list Z) := [bs "CERTIFICATE"; bs "X509 CERTIFICATE"].

(** tls_pubcrt.c:187-216: the copied key and its type; none: goto cleanup *)
Definition pub_key (p : ans) : prog (option (pkey * Z)) :=
  if ret p =? EC then
    match data p with
    | curve :: q => x <~ xmemdup q (len q) ;; Ret (match x with Some q => Some (KeyEC curve q, EC) | None => None end)
    | [] => Bad
    end
  else if ret p =? RSA then
    match data p with
    | nlen :: ne =>
        if (nlen <? 0) || (len ne <? nlen) then Bad else
        let '(n, e) := (firstn (Z.to_nat nlen) ne, skipn (Z.to_nat nlen) ne) in
        x <~ xmemdup n (len n) ;;
        match x with
        | None => Ret None
        | Some n => y <~ xmemdup e (len e) ;; Ret (match y with Some e => Some (KeyRSA n e, RSA) | None => None end)
        end
    | [] => Bad
    end
  else Ret None.

(** tls_pubcrt.c:153-227; none: goto cleanup *)
Definition pub_cert (fuel : nat) (x : sa) (c : pubcrt) : prog (option (sa * pubcrt)) :=
  if MAXCERTS <=? len (crt c) then Bad else
  d <~ xmemdup (sa_bytes x) (slen (ss x)) ;;
  match d with
  | None => Ret None
  | Some der =>
      '(_, x) <~ push fuel (x509_push der) append (sa_zero x) ;;
      if negb (serror x =? 0) then Ret None else
      e <~ sys1 x509_last_error ;;
      if negb (ret e =? 0) then Ret None else
      p <~ sys1 x509_pkey ;;
      if ret p =? -1 then Ret None else
      if MAXCERTS <=? len (ta c) then Bad else
      d <~ xmemdup (sa_bytes x) (slen (ss x)) ;;
      match d with
      | None => Ret None
      | Some name =>
          ca <~ sys1 x509_isca ;;
          k <~ pub_key p ;;
          match k with
          | None => Ret None
          | Some (k, ty) =>
              let kt := if len (crt c) =? 0 then ty else key_type c in
              let fl := if negb (ret ca =? 0) then 1 else 0 in   (* BR_X509_TA_CA *)
              Ret (Some (x, mkpub kt (crt c ++ [der]) (ta c ++ [mkanchor name fl k])))
          end
      end
  end.

(** tls_pubcrt.c:110-246.  [dest]: the destination of the decoder is append (otherwise
    parsedummy or none). *)
Fixpoint pub_loop (fuel : nat) (n : Z) (inobj dest : bool) (x : sa) (c : pubcrt) : prog (option pubcrt) :=
  match fuel with
  | O => Halt
  | S f =>
      if 0 <? n then
        '(tlen, x) <~ push f (pem_push n) (if dest then append else parsedummy) x ;;
        if negb (serror x =? 0) then Ret None else
        if (tlen <? 0) || (n <? tlen) then Bad else
        let n := n - tlen in
        e <~ sys1 pem_event ;;
        if ret e =? PEM_BEGIN then
          if inobj then Ret None else
          cert <~ one_of cert_names (data e) ;;
          if cert : bool then
            if MAXCERTS <=? len (crt c) then Ret None
            else pub_loop f n true true (sa_zero x) c
          else pub_loop f n true false x c
        else if ret e =? PEM_END then
          if negb inobj then Ret None else
          cert <~ one_of cert_names (data e) ;;
          if cert : bool then
            r <~ pub_cert f x c ;;
            match r with
            | None => Ret None
            | Some (x, c) => pub_loop f n false dest x c
            end
          else pub_loop f n false dest x c
        else if ret e =? PEM_ERROR then Ret None
        else pub_loop f n inobj dest x c
      else if inobj then Ret None
      else if len (crt c) =? 0 then Ret None
      else Ret (Some c)
  end.

(** tls_pubcrt.c:92-253; none: 0 is returned *)
Definition tls_pubcrt_parse (fuel : nat) (buflen : Z) : prog (option pubcrt) :=
  r <~ pub_loop fuel buflen false false (mksab sa_empty 0) (mkpub 0 [] []) ;;
  _ <~ sys1 (wipe (bs "pc")) ;;
  _ <~ sys1 (wipe (bs "dc5")) ;;
  Ret r.

(** ** tls_seccrt.c *)

Definition key_names : list (list Z) := [bs "EC PRIVATE KEY"; bs "RSA PRIVATE KEY"; bs "PRIVATE KEY"].

(** tls_seccrt.c:18-20 *)
Definition parsekey (_ : unit) (b : list Z) : prog unit := _ <~ sys1 (skey_push b) ;; Ret tt.

(** tls.h:23-28: which kind of key [key] points to (none: null pointer), and key_type *)
Record seccrt : Type := mksec { skey : option Z; skeytype : Z }.

(** tls_seccrt.c:87-113; none: goto cleanup *)
Definition sec_key : prog (option seccrt) :=
  e <~ sys1 skey_last_error ;;
  if negb (ret e =? 0) then Ret None else
  t <~ sys1 skey_type ;;
  if ret t =? RSA then _ <~ sys1 skey_rsa ;; Ret (Some (mksec (Some RSA) (ret t)))
  else if ret t =? EC then _ <~ sys1 skey_ec ;; Ret (Some (mksec (Some EC) (ret t)))
  else Ret None.

(** tls_seccrt.c:48-132.  [dest]: the destination of the decoder is parsekey. *)
Fixpoint sec_loop (fuel : nat) (n : Z) (inobj dest : bool) (c : seccrt) : prog (option seccrt) :=
  match fuel with
  | O => Halt
  | S f =>
      if 0 <? n then
        '(tlen, _) <~ push f (pem_push n) (if dest then parsekey else parsedummy) tt ;;
        if (tlen <? 0) || (n <? tlen) then Bad else
        let n := n - tlen in
        e <~ sys1 pem_event ;;
        if ret e =? PEM_BEGIN then
          if inobj then Ret None else
          iskey <~ one_of key_names (data e) ;;
          if iskey : bool then
            t <~ sys1 skey_type ;;
            if negb (ret t =? 0) then Ret None else
            _ <~ sys1 skey_init ;;
            sec_loop f n true true c
          else sec_loop f n true false c
        else if ret e =? PEM_END then
          if negb inobj then Ret None else
          iskey <~ one_of key_names (data e) ;;
          if iskey : bool then
            r <~ sec_key ;;
            match r with None => Ret None | Some c => sec_loop f n false dest c end
          else sec_loop f n false dest c
        else if ret e =? PEM_ERROR then Ret None
        else sec_loop f n inobj dest c
      else if inobj then Ret None
      else match skey c with None => Ret None | Some _ => Ret (Some c) end
  end.

(** tls_seccrt.c:33-138; none: 0 is returned *)
Definition tls_seccrt_parse (fuel : nat) (buflen : Z) : prog (option seccrt) :=
  r <~ sec_loop fuel buflen false false (mksec None 0) ;;
  _ <~ sys1 (wipe (bs "pc")) ;;
  Ret r.
