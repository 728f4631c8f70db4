(** Model of tls_cipher.c, tls_ecdhe.c (tls_ecdhe_add), tls_version.c, tls_anchor.c, tls_certfile.c and
    of the functions of main_tlswrapper.c that call them for a command line option.

    The configuration is the part of struct tls_context (tls.h:37-77) those functions use, and the static
    variables use_default.  An array with its length is the list of its valid entries; writing at [len++] is
    [push], undefined behaviour beyond the capacity.  Numbers of suites, curves and versions are those of
    BearSSL's header, which are the IANA code points.  X448 is not compiled in (tls_ecdhe.c:18). *)
From Verif.Model Require Import Base Str.

(** certificate entries: name and file type (tls.h:30-33) *)
Definition S_IFDIR : Z := 16384.
Definition S_IFREG : Z := 32768.
Definition S_IFMT : Z := 61440.

Record config := mkconfig {
  cipher_default : bool;      (* tls_cipher.c:84 *)
  ciphers : list Z;           (* cipher_enabled[16], cipher_enabled_len *)
  ecdhe_default : bool;       (* tls_ecdhe.c:43 *)
  curves : Z;                 (* ecdhe_enabled *)
  version_min : Z;
  version_max : Z;
  anchorfn : option (list Z);
  certfiles : list (list Z * Z) (* certfiles[4], certfiles_len *)
}.

Definition push {A} (cap : nat) (l : list A) (x : A) : res (list A) :=
  if Nat.ltb (length l) cap then Ok (l ++ [x]) else UB.

(** tls_cipher.c:13-63: name, suite for EC keys, suite for RSA keys *)
Definition tls_ciphers : list (list Z * (Z * Z)) :=
  [(bs "CHACHA20_POLY1305_SHA256", (52393, 52392));
   (bs "AES_256_GCM_SHA384", (49196, 49200));
   (bs "AES_128_GCM_SHA256", (49195, 49199));
   (bs "AES_256_CBC_SHA384", (49188, 49192));
   (bs "AES_128_CBC_SHA256", (49187, 49191));
   (bs "AES_256_CBC_SHA", (49162, 49172));
   (bs "AES_128_CBC_SHA", (49161, 49171))].
(** tls_ecdhe.c:13-22 *)
Definition tls_ecdhes : list (list Z * Z) :=
  [(bs "x25519", 29); (bs "secp256r1", 23); (bs "secp384r1", 24); (bs "secp521r1", 25)].
(** tls_version.c:12-17 *)
Definition tls_versions : list (list Z * Z) :=
  [(bs "tls10", 769); (bs "tls11", 770); (bs "tls12", 771)].

(** main_tlswrapper.c:37-52 *)
Definition static_config : config :=
  mkconfig true [] true (Z.lor (Z.shiftl 1 29) (Z.shiftl 1 23)) 771 771 None [].

(** the loops over a table: tls_cipher.c:128-133, tls_ecdhe.c:63-67, tls_version.c:52-57, 76-81 *)
Fixpoint table_find {A} (t : list (list Z * A)) (x : list Z) : res (option A) :=
  match t with
  | [] => Ok None
  | (n, v) :: t => d <- str_diff x (n ++ [0]) ;; if negb (d =? 0) then table_find t x else Ok (Some v)
  end.

Definition set_ciphers (c : config) (d : bool) (l : list Z) : config :=
  mkconfig d l (ecdhe_default c) (curves c) (version_min c) (version_max c) (anchorfn c) (certfiles c).
Definition set_curves (c : config) (d : bool) (m : Z) : config :=
  mkconfig (cipher_default c) (ciphers c) d m (version_min c) (version_max c) (anchorfn c) (certfiles c).
Definition set_vmin (c : config) (v : Z) : config :=
  mkconfig (cipher_default c) (ciphers c) (ecdhe_default c) (curves c) v (version_max c) (anchorfn c) (certfiles c).
Definition set_vmax (c : config) (v : Z) : config :=
  mkconfig (cipher_default c) (ciphers c) (ecdhe_default c) (curves c) (version_min c) v (anchorfn c) (certfiles c).
Definition set_anchor (c : config) (x : list Z) : config :=
  mkconfig (cipher_default c) (ciphers c) (ecdhe_default c) (curves c) (version_min c) (version_max c) (Some x) (certfiles c).
Definition set_certs (c : config) (l : list (list Z * Z)) : config :=
  mkconfig (cipher_default c) (ciphers c) (ecdhe_default c) (curves c) (version_min c) (version_max c) (anchorfn c) l.

(** tls_cipher.c:94-102 *)
Definition tls_cipher_defaults (c : config) : res config :=
  l <- push 16 [] 52393 ;;
  l <- push 16 l 52392 ;;
  l <- push 16 l 49196 ;;
  l <- push 16 l 49200 ;;
  l <- push 16 l 49195 ;;
  l <- push 16 l 49199 ;;
  Ok (set_ciphers c (cipher_default c) l).

(** tls_cipher.c:140-148 *)
Fixpoint already (l : list Z) (ec rsa : Z) : Z * Z :=
  match l with
  | [] => (ec, rsa)
  | s :: l => if (s =? ec) || (s =? rsa) then already l 0 0 else already l ec rsa
  end.
(** tls_cipher.c:117-162 *)
Definition tls_cipher_add (c : config) (x : list Z) : res (bool * config) :=
  let c := if cipher_default c then set_ciphers c false [] else c in
  f <- table_find tls_ciphers x ;;
  match f with
  | None => Ok (false, c)
  | Some (ec, rsa) =>
    let '(ec, rsa) := if negb (ec =? 0) && negb (rsa =? 0) then already (ciphers c) ec rsa else (ec, rsa) in
    if negb (ec =? 0) && negb (rsa =? 0) then
      if Nat.ltb 16 (length (ciphers c) + 2) then Ok (false, c)
      else
        l <- push 16 (ciphers c) ec ;;
        l <- push 16 l rsa ;;
        Ok (true, set_ciphers c (cipher_default c) l)
    else Ok (true, c)
  end.

(** tls_ecdhe.c:54-70 *)
Definition tls_ecdhe_add (c : config) (x : list Z) : res (bool * config) :=
  let c := if ecdhe_default c then set_curves c false 0 else c in
  f <- table_find tls_ecdhes x ;;
  match f with
  | None => Ok (false, c)
  | Some v => Ok (true, set_curves c (ecdhe_default c) (Z.lor (curves c) (u32 (Z.shiftl 1 v))))
  end.

(** tls_version.c:48-59 *)
Definition tls_version_setmin (c : config) (x : list Z) : res (bool * config) :=
  f <- table_find tls_versions x ;;
  match f with None => Ok (false, c) | Some v => Ok (true, set_vmin c v) end.
(** tls_version.c:72-83 *)
Definition tls_version_setmax (c : config) (x : list Z) : res (bool * config) :=
  f <- table_find tls_versions x ;;
  match f with None => Ok (false, c) | Some v => Ok (true, set_vmax c v) end.

(** tls_anchor.c:19-24 *)
Definition tls_anchor_add (c : config) (x : list Z) : res (bool * config) :=
  match anchorfn c with Some _ => Ok (false, c) | None => Ok (true, set_anchor c x) end.

(** tls_certfile.c:20-31 *)
Definition tls_certfile_add_dir (c : config) (x : list Z) : res (bool * config) :=
  if Nat.leb 4 (length (certfiles c)) then Ok (false, c)
  else l <- push 4 (certfiles c) (x, S_IFDIR) ;; Ok (true, set_certs c l).
(** tls_certfile.c:42-53 *)
Definition tls_certfile_add_file (c : config) (x : list Z) : res (bool * config) :=
  if Nat.leb 4 (length (certfiles c)) then Ok (false, c)
  else l <- push 4 (certfiles c) (x, S_IFREG) ;; Ok (true, set_certs c l).

(** An option with its argument; [mode] is what stat says about the file, None if stat fails. *)
Inductive setting :=
| Cipher (x : list Z) | Curve (x : list Z) | Vmin (x : list Z) | Vmax (x : list Z)
| Anchor (x : list Z) (mode : option Z) | Certdir (x : list Z) (mode : option Z) | Certfile (x : list Z) (mode : option Z).

Definition need (r : res (bool * config)) : res (option config) :=
  '(ok, c) <- r ;; Ok (if ok : bool then Some c else None).
Definition statted (mode : option Z) (type : Z) (r : res (option config)) : res (option config) :=
  match mode with
  | None => Ok None
  | Some m => if negb (Z.land m S_IFMT =? type) then Ok None else r
  end.
(** main_tlswrapper.c:354-503 (version_setmin, version_setmax, certfile_add_dir, certfile_add_file,
    anchor_add, ecdhe_add, cipher_add); None: exit with code 100 *)
Definition apply_setting (c : config) (o : setting) : res (option config) :=
  match o with
  | Cipher x => need (tls_cipher_add c x)
  | Curve x => need (tls_ecdhe_add c x)
  | Vmin x => need (tls_version_setmin c x)
  | Vmax x => need (tls_version_setmax c x)
  | Anchor x m => statted m S_IFREG (need (tls_anchor_add c x))
  | Certdir x m => statted m S_IFDIR (need (tls_certfile_add_dir c x))
  | Certfile x m => statted m S_IFREG (need (tls_certfile_add_file c x))
  end.
Fixpoint apply_settings (c : config) (l : list setting) : res (option config) :=
  match l with
  | [] => Ok (Some c)
  | o :: l => r <- apply_setting c o ;; match r with None => Ok None | Some c => apply_settings c l end
  end.
(** main_tlswrapper.c:1175 and the options in order *)
Definition configure (l : list setting) : res (option config) :=
  c <- tls_cipher_defaults static_config ;; apply_settings c l.
