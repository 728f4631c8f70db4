(** Model of tls_profile.c (hash_choose, copyfn, tls_choose) and of tls_pipe_getcert in
    tls_pipe.c.  Log calls are left out. *)
From Verif.Model Require Import Base Sys Io Str Buffer Stralloc Parsename Config.

(** tls_profile.c:26-37; BearSSL hash numbers: SHA-1 2, SHA-256 4, SHA-384 5, SHA-512 6 *)
Fixpoint hash_scan (pf : list Z) (bf : Z) : Z :=
  match pf with
  | [] => 0
  | x :: pf' => if Z.land (Z.shiftr bf x) 1 =? 0 then hash_scan pf' bf else x
  end.
Definition hash_choose (bf : Z) : Z := hash_scan [6; 5; 4; 2] bf.

(** tls_profile.c:60-65: append "/" and [b] when [b] is not empty *)
Definition copyfn_leaf (sa : stralloc) (b : list Z) : prog (rc * stralloc) :=
  n <~ lift (str_len b) ;;
  if 0 <? n then
    '(c, sa1) <~ stralloc_cats sa (Some (bs "/" ++ [0])) ;;
    match c with
    | Fail e => Ret (Fail e, sa1)
    | Good => stralloc_cats sa1 (Some b)
    end
  else Ret (Good, sa).

(** tls_profile.c:50-77; [buf] is the whole destination array *)
Definition copyfn (buf a b : list Z) : prog (bool * list Z) :=
  '(c, sa) <~ stralloc_copys sa_empty (Some a) ;;
  match c with
  | Fail _ => Ret (false, buf)
  | Good =>
      '(c, sa) <~ copyfn_leaf sa b ;;
      match c with
      | Fail _ => Ret (false, buf)
      | Good =>
          '(c, sa) <~ stralloc_0 sa ;;
          match c with
          | Fail _ => Ret (false, buf)
          | Good =>
              match sm sa with
              | None => Bad
              | Some m =>
                  m' <~ lift (fixpath m) ;;
                  if slen sa <=? len buf then
                    d <~ lift (copyin buf 0 m' (slen sa)) ;; Ret (true, d)
                  else Ret (false, buf)
              end
          end
      end
  end.

(** tls_pubcrt_parse, tls_pubcrt.c:92-253, as an outside call on the PEM bytes: the answer 0
    is a failure with an arbitrary errno (it may be an older value, the parser does not always
    set it), any other answer is the key type of the first certificate, with the certificates in
    [data]. *)
Definition pubcrt (pem : list Z) : sys := Other (bs "pubcrt") [] pem.

(** tls_pipe.c:31-64; [inl errno] or the key type and the chain *)
Definition tls_pipe_getcert (fuel : nat) (tochild fromchild : Z) (fn : list Z) : prog (Z + Z * list Z) :=
  n <~ lift (str_len fn) ;;
  c <~ pipe_write fuel tochild fn (n + 1) ;;
  match c with
  | Fail e => Ret (inl e)
  | Good =>
      x <~ pipe_readalloc fuel fromchild ;;
      match x with
      | inl e => Ret (inl e)
      | inr pem =>
          Do (pubcrt pem) (fun a =>
            if ret a =? 0 then Ret (inl (err a)) else Ret (inr (ret a, data a)))
      end
  end.

(** What BearSSL reports about the ClientHello: suites with their translation, hashes, the
    server name (a NUL-terminated string or a null pointer), the negotiated version. *)
Record hello : Type := mkhello {
  offered : list (Z * Z); hashes : Z; sni : option (list Z); version : Z }.

Record choice : Type := mkchoice { c_chain : list Z; c_suite : Z; c_algo : Z }.

(** tls_profile.c:169-198; BR_SSLKEYX_ECDHE_RSA 1, BR_SSLKEYX_ECDHE_ECDSA 2, BR_KEYTYPE_RSA 1,
    BR_KEYTYPE_EC 2, BR_TLS12 0x0303, br_sha1_ID 2 *)
Fixpoint pick_suite (st : list (Z * Z)) (hs ver kt : Z) (chain : list Z) : option choice :=
  match st with
  | [] => None
  | (s, tx) :: st' =>
      if (Z.shiftr tx 12 =? 2) && (kt =? 2) then
        Some (mkchoice chain s (if ver <? 771 then 65280 + 2 else 65280 + hash_choose (Z.shiftr hs 8)))
      else if (Z.shiftr tx 12 =? 1) && (kt =? 1) then
        Some (mkchoice chain s (if ver <? 771 then 65280 else 65280 + hash_choose hs))
      else pick_suite st' hs ver kt chain
  end.

(** ctx->certfn, ctx->key_type, ctx->chain *)
Record cctx : Type := mkcctx { certfn : list Z; key_type : Z; chain : list Z }.

(** How one entry ends: next entry, give up, or a certificate is loaded (or, for an entry of
    neither type, the previous one is still there). *)
Inductive loaded : Type := Next (c : cctx) | Giveup | Have (c : cctx).

(** tls_profile.c:120-150; [last] is certfiles_len == i + 1 *)
Definition try_dir (fuel : nat) (to from : Z) (h : hello) (name : list Z) (last : bool) (c : cctx) : prog loaded :=
  match sni h with
  | None => Ret (Next c)
  | Some s =>
      n <~ lift (str_len s) ;;
      if n =? 0 then Ret (Next c)
      else
        p <~ lift (parsename_ (repeat 0 256) s) ;;
        match p with
        | None => Ret (Next c)
        | Some _ =>
            '(ok, fn) <~ copyfn (certfn c) name s ;;
            let c := mkcctx fn (key_type c) (chain c) in
            if negb ok then Ret (Next c)
            else
              r <~ tls_pipe_getcert fuel to from fn ;;
              match r with
              | inl e => if negb (e =? ENOENT) || last then Ret Giveup else Ret (Next c)
              | inr (kt, ch) => Ret (Have (mkcctx fn kt ch))
              end
        end
  end.

(** tls_profile.c:151-167 *)
Definition try_file (fuel : nat) (to from : Z) (name : list Z) (c : cctx) : prog loaded :=
  '(ok, fn) <~ copyfn (certfn c) name [0] ;;
  let c := mkcctx fn (key_type c) (chain c) in
  if negb ok then Ret (Next c)
  else
    r <~ tls_pipe_getcert fuel to from fn ;;
    match r with
    | inl e => Ret Giveup
    | inr (kt, ch) => Ret (Have (mkcctx fn kt ch))
    end.

(** tls_profile.c:119-208; an entry is its name and file type *)
Fixpoint tls_choose (fuel : nat) (to from : Z) (h : hello) (es : list (list Z * Z)) (c : cctx) : prog (option choice) :=
  match es with
  | [] => Ret None
  | (name, ty) :: es' =>
      r <~ (if ty =? S_IFDIR then
              try_dir fuel to from h name (match es' with [] => true | _ => false end) c
            else if ty =? S_IFREG then try_file fuel to from name c
            else Ret (Have c)) ;;
      match r with
      | Next c => tls_choose fuel to from h es' c
      | Giveup => Ret None
      | Have c =>
          match pick_suite (offered h) (hashes h) (version h) (key_type c) (chain c) with
          | Some x => Ret (Some x)
          | None => tls_choose fuel to from h es' c
          end
      end
  end.
