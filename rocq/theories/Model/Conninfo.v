(** Model of connectioninfo.c.

    The environment is a list of names and values.  What getsockname and getpeername store for descriptor 0
    is a [sockname], None a failure.  setenv may fail (return value -1), which connectioninfo_set ignores:
    its four answers are an argument.  Log output is omitted. *)
From Verif.Model Require Import Base Inet Parsenum.

(** the four output buffers *)
Record info := mkinfo { localip : list Z; localport : list Z; remoteip : list Z; remoteport : list Z }.
Definition set_localip (i : info) (x : list Z) := mkinfo x (localport i) (remoteip i) (remoteport i).
Definition set_localport (i : info) (x : list Z) := mkinfo (localip i) x (remoteip i) (remoteport i).
Definition set_remoteip (i : info) (x : list Z) := mkinfo (localip i) (localport i) x (remoteport i).
Definition set_remoteport (i : info) (x : list Z) := mkinfo (localip i) (localport i) (remoteip i) x.

(** struct sockaddr_storage: ss_family, and the fields of sockaddr_in and sockaddr_in6 at their place in it *)
Record sockname := mksock { family : Z; sin_addr : list Z; sin_port : list Z; sin6_addr : list Z; sin6_port : list Z }.
Definition AF_INET : Z := 2.
Definition AF_INET6 : Z := 10.

(** connectioninfo.c:45-56 and 61-72: address and port stored for a socket name, None: return 0 *)
Definition endpoint (s : sockname) : option (list Z * list Z) :=
  if family s =? AF_INET then Some (v4prefix ++ sin_addr s, sin_port s)
  else if family s =? AF_INET6 then Some (sin6_addr s, sin6_port s)
  else None.

(** connectioninfo.c:34-76; [here] and [peer] are the answers of getsockname and getpeername *)
Definition connectioninfo_fromfd (here peer : option sockname) (i : info) : bool * info :=
  match here with
  | None => (false, i)
  | Some s =>
    match endpoint s with
    | None => (false, i)
    | Some (a, p) =>
      let i := set_localport (set_localip i a) p in
      match peer with
      | None => (false, i)
      | Some s =>
        match endpoint s with
        | None => (false, i)
        | Some (a, p) => (true, set_remoteport (set_remoteip i a) p)
        end
      end
    end
  end.

Definition environment := list (list Z * list Z).
(** getenv: the value without its terminating NUL *)
Fixpoint getenv (e : environment) (n : list Z) : option (list Z) :=
  match e with
  | [] => None
  | (m, v) :: e => if list_eq_dec Z.eq_dec m n then Some v else getenv e n
  end.
(** setenv(n, v, 1) *)
Fixpoint putenv (e : environment) (n v : list Z) : environment :=
  match e with
  | [] => [(n, v)]
  | (m, w) :: e => if list_eq_dec Z.eq_dec m n then (m, v) :: e else (m, w) :: putenv e n v
  end.
Definition setenv (ok : bool) (e : environment) (n v : list Z) : environment := if ok then putenv e n v else e.

Section Libc.
Variable I : inet.

(** parseip.c:58-82 and parseport.c:67-88 with the argument of getenv *)
Definition parseip_env (v : option (list Z)) : res (option (list Z)) :=
  match v with None => Ok None | Some s => parseip I (s ++ [0]) end.
Definition parseport_env (v : option (list Z)) : res (option (list Z)) :=
  match v with
  | None => Ok None
  | Some s => r <- parseport_ (s ++ [0]) ;; Ok (match r with Some (a, b) => Some [a; b] | None => None end)
  end.

(** connectioninfo.c:89-101 *)
Definition connectioninfo_fromenv (e : environment) (i : info) : res (bool * info) :=
  r <- parseip_env (getenv e (bs "TCPLOCALIP")) ;;
  match r with
  | None => Ok (false, i)
  | Some x =>
    let i := set_localip i x in
    r <- parseport_env (getenv e (bs "TCPLOCALPORT")) ;;
    match r with
    | None => Ok (false, i)
    | Some x =>
      let i := set_localport i x in
      r <- parseip_env (getenv e (bs "TCPREMOTEIP")) ;;
      match r with
      | None => Ok (false, i)
      | Some x =>
        let i := set_remoteip i x in
        r <- parseport_env (getenv e (bs "TCPREMOTEPORT")) ;;
        match r with
        | None => Ok (false, i)
        | Some x => Ok (true, set_remoteport i x)
        end
      end
    end
  end.

(** connectioninfo.c:116-124 *)
Definition connectioninfo_get (e : environment) (here peer : option sockname) (i : info) : res (bool * info) :=
  '(ok, i) <- connectioninfo_fromenv e i ;;
  if (ok : bool) then Ok (true, i)
  else Ok (connectioninfo_fromfd here peer i).

(** the string porttostr leaves in its static buffer [buf] *)
Definition porttext (buf : list Z) (p : list Z) : res (list Z) :=
  p0 <- ld p 0 ;; p1 <- ld p 1 ;;
  '(out, pos) <- porttostr buf p0 p1 ;;
  cstr (skipn pos out).

(** connectioninfo.c:137-145; [buf]: the static buffer of porttostr, [oks]: the answers of setenv *)
Definition connectioninfo_set (oks : bool * bool * bool * bool) (buf : list Z) (e : environment) (i : info) : res environment :=
  let '(o1, o2, o3, o4) := oks in
  let e := setenv o1 e (bs "TCPREMOTEIP") (iptostr I (remoteip i)) in
  rp <- porttext buf (remoteport i) ;;
  let e := setenv o2 e (bs "TCPREMOTEPORT") rp in
  let e := setenv o3 e (bs "TCPLOCALIP") (iptostr I (localip i)) in
  lp <- porttext buf (localport i) ;;
  Ok (setenv o4 e (bs "TCPLOCALPORT") lp).
End Libc.
