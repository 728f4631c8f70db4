(** Model of main_tlswrapper.c:1154-1542: from the command line to the end of the process, for the wrapper and
    for the two processes it starts.  One run is the life of one process: fork answers 0 in the new process.

    Outside calls: sigaction, signal, fstat, open, pipe (the two descriptors in data), fork, dup, fcntl,
    getsockname and getpeername (ss_family and the address fields in data), setenv (name and value in data), execvp
    (an answer other than -1: the program runs), waitpid (the status in data), tls_pubcrt_parse (the number of
    certificates in data; C88).
    tls_pipe_set_engine and log_set_ip only set variables.  Omitted: log output, the overwriting of memory by
    cleanup() before _exit, and the signal handler (Session.v), which may interrupt at any point. *)
From Verif.Model Require Import Base Sys Io Str Inet Config Parsenum Fdio Relay Session Tlsphase Jail Pem Keyjail Proxy Conninfo Options Profile.

(** How a process ends: _exit, or another program runs in it. *)
Inductive ending : Type := Exit (code : Z) | Exec (argv : list (list Z)).

Definition SIGPIPE : Z := 13.
Definition F_SETFD : Z := 2.
Definition F_GETFL : Z := 3.
Definition F_SETFL : Z := 4.
Definition O_NONBLOCK : Z := 2048.
Definition do (c : sys) : prog unit := _ <~ sys1 c ;; Ret tt.
(** what a signal does: SIG_DFL, SIG_IGN, or the program's own handler *)
Definition DFL : Z := 0.
Definition IGN : Z := 1.
Definition HANDLER : Z := 2.
Definition signal (n d : Z) : prog unit := do (Other (bs "signal") [n; d] []).
(** fd.c:265-294 *)
Definition blocking (fd : Z) (on : bool) : prog unit :=
  a <~ sys1 (Other (bs "fcntl") [fd; F_GETFL; 0] []) ;;
  if ret a =? -1 then Ret tt
  else do (Other (bs "fcntl") [fd; F_SETFL; if on then Z.land (ret a) (Z.lnot O_NONBLOCK) else Z.lor (ret a) O_NONBLOCK] []).
(** open_pipe.c:23-31, and die_pipe() *)
Definition open_pipe (k : Z -> Z -> prog ending) : prog ending :=
  a <~ sys1 (Other (bs "pipe") [] []) ;;
  if ret a =? -1 then Ret (Exit 111)
  else
    let r := nth 0 (data a) 0 in
    let w := nth 1 (data a) 0 in
    _ <~ do (Other (bs "fcntl") [r; F_SETFD; 1] []) ;; _ <~ blocking r false ;;
    _ <~ do (Other (bs "fcntl") [w; F_SETFD; 1] []) ;; _ <~ blocking w false ;;
    k r w.
(** if (dup(fd) != n) die_dup(); *)
Definition dup (fd n : Z) (k : prog ending) : prog ending :=
  a <~ sys1 (Other (bs "dup") [fd] []) ;;
  if ret a =? n then k else Ret (Exit 111).
(** if (f == -1) die(111); *)
Definition need (p : prog rc) (k : prog ending) : prog ending :=
  c <~ p ;; match c with Good => k | Fail _ => Ret (Exit 111) end.
Definition sigaction (n : Z) (k : prog ending) : prog ending :=
  a <~ sys1 (Other (bs "sigaction") [n] []) ;;
  if ret a =? -1 then Ret (Exit 111) else k.
(** a string or the null pointer *)
Definition cstr_opt (p : option (list Z)) : res (option (list Z)) :=
  match p with Some p => s <- cstr p ;; Ok (Some s) | None => Ok None end.
Fixpoint cstrs (l : list (list Z)) : res (list (list Z)) :=
  match l with [] => Ok [] | p :: l => s <- cstr p ;; l <- cstrs l ;; Ok (s :: l) end.

(** getsockname or getpeername for descriptor 0 *)
Definition socket_name (nm : list Z) : prog (option sockname) :=
  a <~ sys1 (Other nm [0] []) ;;
  Ret (if ret a =? -1 then None
       else
         let d := map u8 (skipn 1 (data a)) ++ repeat 0 24 in
         Some (mksock (nth 0 (data a) 0) (firstn 4 d) (firstn 2 (skipn 4 d)) (firstn 16 (skipn 6 d)) (firstn 2 (skipn 22 d)))).
Definition zero_info : info := mkinfo (repeat 0 16) (repeat 0 2) (repeat 0 16) (repeat 0 2).
(** connectioninfo.c:116-124 with its calls, the result being ignored (1441) *)
Definition connection (I : inet) (e : environment) : prog info :=
  '(ok, i) <~ lift (connectioninfo_fromenv I e zero_info) ;;
  if (ok : bool) then Ret i
  else
    here <~ socket_name (bs "getsockname") ;;
    match here with
    | None => Ret (snd (connectioninfo_fromfd here None i))
    | Some s =>
      match endpoint s with
      | None => Ret (snd (connectioninfo_fromfd here None i))
      | Some _ => peer <~ socket_name (bs "getpeername") ;; Ret (snd (connectioninfo_fromfd here peer i))
      end
    end.
Definition put_env (name value : list Z) : prog unit := do (Other (bs "setenv") [] (name ++ 61 :: value)).
(** connectioninfo.c:137-145; [buf]: the static buffer of porttostr *)
Definition put_connection (I : inet) (buf : list Z) (i : info) : prog unit :=
  _ <~ put_env (bs "TCPREMOTEIP") (iptostr I (remoteip i)) ;;
  rp <~ lift (porttext buf (remoteport i)) ;;
  _ <~ put_env (bs "TCPREMOTEPORT") rp ;;
  _ <~ put_env (bs "TCPLOCALIP") (iptostr I (localip i)) ;;
  lp <~ lift (porttext buf (localport i)) ;;
  put_env (bs "TCPLOCALPORT") lp.

(** the descriptors of the four pipes to and from the program *)
Record pipes := mkpipes { toc_r : Z; toc_w : Z; fromc_r : Z; fromc_w : Z; fromctl_r : Z; fromctl_w : Z; toctl_r : Z; toctl_w : Z }.

Section Main.
Variable I : inet.
Variable stream : list Z -> list Z -> nat -> Z.
Variable fuel : nat.
(** uninitialised or static memory: the account buffer, the buffer of porttostr, a line and a key of the keyjail *)
Variables junk portbuf line0 key0 : list Z.
Variable env : environment.
Variable nojail : bool.

(** ** The program's process: 1309-1361 *)
(** pipe_readall(0, x, n) with a static array, and die(111) *)
Definition receive (n : Z) (k : list Z -> prog ending) : prog ending :=
  '(c, x) <~ pipe_readall fuel 0 (zeros n) n ;;
  match c with Good => k x | Fail _ => Ret (Exit 111) end.
(** if (jail_droppriv(x) == -1) die_droppriv(x) *)
Definition droppriv (x : list Z) (k : prog ending) : prog ending :=
  '(r, _) <~ jail (Some x) None false ;;
  if r =? -1 then Ret (Exit 111) else k.
(** 1343-1350 *)
Definition login (usercert : bool) (k : prog ending) : prog ending :=
  '(c, account, n) <~ pipe_readmax fuel 0 junk 256 ;;
  match c with
  | Fail _ => Ret (Exit 111)
  | Good =>
    if n <=? 1 then k
    else
      account <~ lift (st account (Z.to_nat (n - 1)) 0) ;;
      if negb usercert then k
      else x <~ lift (cstr account) ;; droppriv x k
  end.
(** 1334-1360 *)
Definition child_start (usercert : bool) (user : option (list Z)) (argv : list (list Z)) : prog ending :=
  receive 16 (fun lip => receive 2 (fun lport => receive 16 (fun rip => receive 2 (fun rport =>
  _ <~ put_connection I portbuf (mkinfo lip lport rip rport) ;;
  login usercert (
  u <~ lift (cstr_opt user) ;;
  (match u with Some u => droppriv u | None => fun k => k end) (
  _ <~ signal SIGPIPE DFL ;; _ <~ signal SIGCHLD DFL ;; _ <~ signal SIGTERM DFL ;;
  v <~ lift (cstrs argv) ;;
  a <~ sys1 (Other (bs "execvp") [] (hd [] v)) ;;
  Ret (if ret a =? -1 then Exit 111 else Exec v))))))).
Definition child_main (cmd : command) (p : pipes) : prog ending :=
  let delay := delayed (settings cmd) in
  _ <~ alarm 0 ;;
  _ <~ do (Close (toc_w p)) ;; _ <~ do (Close 0) ;;
  dup (toc_r p) 0 (
  _ <~ blocking 0 true ;;
  _ <~ do (Close (fromc_r p)) ;; _ <~ do (Close 1) ;;
  dup (fromc_w p) 1 (
  _ <~ blocking 1 true ;;
  _ <~ do (Close (fromctl_r p)) ;; _ <~ do (Close 5) ;;
  (if delay then fun k => dup (fromctl_w p) 5 (_ <~ blocking 5 true ;; k) else fun k => k) (
  _ <~ do (Close (toctl_w p)) ;; _ <~ do (Close 6) ;;
  (if delay then fun k => dup (toctl_r p) 6 (_ <~ blocking 6 true ;; k) else fun k => k) (
  child_start (match certuser (settings cmd) with Some _ => true | None => false end) (user (settings cmd)) (program cmd))))).

(** ** The process with the key: 1388-1407 *)
Definition keyjail_main (o : opts) (p : pipes) (fromk_r fromk_w tok_r tok_w : Z) : prog ending :=
  _ <~ alarm 0 ;;
  _ <~ do (Close fromk_r) ;; _ <~ do (Close tok_w) ;;
  _ <~ do (Close (fromctl_r p)) ;; _ <~ do (Close (toctl_w p)) ;; _ <~ do (Close (fromc_r p)) ;; _ <~ do (Close (toc_w p)) ;;
  _ <~ do (Close 0) ;;
  dup tok_r 0 (
  _ <~ do (Close 1) ;;
  dup fromk_w 1 (
  _ <~ blocking 0 true ;; _ <~ blocking 1 true ;;
  _ <~ signal SIGPIPE IGN ;; _ <~ signal SIGCHLD DFL ;; _ <~ signal SIGTERM DFL ;;
  acc <~ lift (cstr_opt (jailaccount o)) ;; dir <~ lift (cstr (jaildir o)) ;;
  _ <~ tls_keyjail stream fuel nojail acc (Some dir) line0 key0 ;;
  Ret (Exit 0))).

(** ** The wrapper *)
(** waitpid, repeated after EINTR *)
Fixpoint wait (n : nat) (pid : Z) : prog ans :=
  match n with
  | O => Halt
  | S n =>
    a <~ sys1 (Other (bs "waitpid") [pid] []) ;;
    if (ret a =? -1) && (err a =? EINTR) then wait n pid else Ret a
  end.
(** WIFEXITED, WEXITSTATUS of Linux *)
Definition exited (status : Z) : bool := Z.land status 127 =? 0.
Definition exitstatus (status : Z) : Z := Z.land (Z.shiftr status 8) 255.
(** 1495-1541 *)
Definition finish (child keyjail fromk_r tok_w : Z) (s : sess) : prog ending :=
  _ <~ signal SIGCHLD DFL ;; _ <~ signal SIGALRM DFL ;;
  _ <~ shut_r (peerin s) ;; _ <~ shut_w (peerout s) ;;
  _ <~ do (Close fromk_r) ;; _ <~ do (Close tok_w) ;;
  _ <~ wait fuel keyjail ;;
  _ <~ shut_r (childctl s) ;; _ <~ shut_w (childack s) ;; _ <~ shut_r (childout s) ;; _ <~ shut_w (childin s) ;;
  a <~ wait fuel child ;;
  Ret (Exit (if negb (ret a =? child) then 111
             else let status := nth 0 (data a) 0 in if exited status then exitstatus status else 111)).

(** 1422-1432; the continuation gets ctx.anchorcrt.talen *)
Definition anchor (fn : option (list Z)) (fromk_r tok_w : Z) (k : Z -> prog ending) : prog ending :=
  match fn with
  | None => k 0
  | Some fn =>
    fn <~ lift (fixpath fn) ;;
    n <~ lift (str_len fn) ;;
    need (pipe_write fuel tok_w fn (n + 1)) (
    x <~ pipe_readalloc fuel fromk_r ;;
    match x with
    | inl _ => Ret (Exit 111)
    | inr pem =>
      a <~ sys1 (Other (bs "tls_pubcrt_parse") [] pem) ;;
      if ret a =? 0 then Ret (Exit 111) else k (nth 0 (data a) 0)
    end)
  end.
(** 1435-1442 *)
Definition peer_info (pp : bool) (k : info -> prog ending) : prog ending :=
  if pp then
    '(r, e) <~ proxyprotocol_v1_get fuel I 0 (mkep (localip zero_info) (localport zero_info) (remoteip zero_info) (remoteport zero_info)) ;;
    if r =? 0 then Ret (Exit 100) else k (mkinfo (lip e) (lport e) (rip e) (rport e))
  else i <~ connection I env ;; k i.
(** 1454-1457 *)
Definition tell (fd : Z) (i : info) (k : prog ending) : prog ending :=
  need (pipe_write fuel fd (localip i) 16) (
  need (pipe_write fuel fd (localport i) 2) (
  need (pipe_write fuel fd (remoteip i) 16) (
  need (pipe_write fuel fd (remoteport i) 2) k))).

(** 1490: tls_profile(&ctx) *)
Definition init_tls (o : opts) (talen : Z) : prog unit :=
  oid <~ lift (name_oid (certuser o)) ;; tls_profile (cfg o) (prefer o) talen oid.
(** 1445-1493 *)
Definition relay (cmd : command) (talen self : Z) (s : sess) (done : sess -> prog ending) : prog ending :=
  let o := settings cmd in
  let usercert := match certuser o with Some _ => true | None => false end in
  _ <~ blocking 0 false ;; _ <~ blocking 1 false ;;
  (fun k => if delayed o
   then bad <~ report_user fuel (childin s) [0] ;; if (bad : bool) then Ret (Exit 111) else k s
   else v <~ shut_r (childctl s) ;; w <~ shut_w (childack s) ;; k (set_childack (set_childctl s v) w))
  (fun s =>
  sigaction SIGALRM (
  (fun k => if delayed o
   then
     _ <~ alarm (timeout cmd) ;;
     '(r, s) <~ cleartext (timeout cmd) 1 self fuel s ;;
     if r =? 0 then done s else _ <~ alarm (hstimeout cmd) ;; k s
   else k s)
  (fun s =>
  _ <~ init_tls o talen ;;
  '(r, t) <~ tls_phase (timeout cmd) 1 self usercert fuel (mkts s false (delayed o)) ;;
  if r =? 0 then done (fds t) else Ret (Exit r)))).

(** 1415-1493: the jail, and what follows *)
Definition jailed_main (cmd : command) (p : pipes) (child keyjail fromk_r tok_w self : Z) : prog ending :=
  let o := settings cmd in
  acc <~ lift (cstr_opt (jailaccount o)) ;; dir <~ lift (cstr (jaildir o)) ;;
  r <~ (if nojail then Ret (0, None) else jail acc (Some dir) true) ;;
  if fst r =? -1 then Ret (Exit 111)
  else
    anchor (anchorfn (cfg o)) fromk_r tok_w (fun talen =>
    peer_info (ppin o) (fun i =>
    let s := mksess 0 1 (toc_w p) (fromc_r p) (fromctl_r p) (toctl_w p) empty empty in
    tell (childin s) i (
    relay cmd talen self s (finish child keyjail fromk_r tok_w)))).

(** 1364-1413 *)
Definition parent_main (cmd : command) (p : pipes) (child : Z) : prog ending :=
  _ <~ do (Close (fromctl_w p)) ;; _ <~ do (Close (toctl_r p)) ;; _ <~ do (Close (fromc_w p)) ;; _ <~ do (Close (toc_r p)) ;;
  _ <~ blocking (fromctl_r p) false ;; _ <~ blocking (toctl_w p) false ;; _ <~ blocking (fromc_r p) false ;; _ <~ blocking (toc_w p) false ;;
  _ <~ randombytes 1 ;;
  open_pipe (fun fromk_r fromk_w =>
  open_pipe (fun tok_r tok_w =>
  f <~ sys1 (Other (bs "fork") [] []) ;;
  if ret f =? -1 then Ret (Exit 111)
  else if ret f =? 0 then keyjail_main (settings cmd) p fromk_r fromk_w tok_r tok_w
  else
    _ <~ do (Close fromk_w) ;; _ <~ do (Close tok_r) ;;
    _ <~ blocking fromk_r true ;; _ <~ blocking tok_w true ;;
    open_pipe (fun self_r self_w =>
    jailed_main cmd p child (ret f) fromk_r tok_w self_r))).

(** 1287-1296 *)
Fixpoint devnull (n : nat) (k : prog ending) : prog ending :=
  match n with
  | O => Halt
  | S n =>
    a <~ sys1 (Other (bs "open") [] (bs "/dev/null")) ;;
    if ret a =? -1 then Ret (Exit 111)
    else if 6 <? ret a then _ <~ do (Close (ret a)) ;; k
    else devnull n k
  end.
Definition reserve (k : prog ending) : prog ending :=
  a <~ sys1 (Other (bs "fstat") [5] []) ;;
  if negb (ret a =? -1) then Ret (Exit 111)
  else
    a <~ sys1 (Other (bs "fstat") [6] []) ;;
    if negb (ret a =? -1) then Ret (Exit 111) else devnull fuel k.

(** 1279-1308 *)
Definition start_child (cmd : command) : prog ending :=
  _ <~ alarm (hstimeout cmd) ;;
  (if delayed (settings cmd) then reserve else fun k => k) (
  open_pipe (fun t0 t1 => open_pipe (fun f0 f1 => open_pipe (fun c0 c1 => open_pipe (fun k0 k1 =>
  let p := mkpipes t0 t1 f0 f1 c0 c1 k0 k1 in
  f <~ sys1 (Other (bs "fork") [] []) ;;
  if ret f =? -1 then Ret (Exit 111)
  else if ret f =? 0 then child_main cmd p
  else parent_main cmd p (ret f)))))).

(** 1154-1280 *)
Definition main_tlswrapper (argv : list (list Z)) : prog ending :=
  _ <~ signal SIGPIPE IGN ;;
  sigaction SIGCHLD (
  sigaction SIGTERM (
  _ <~ alarm 10 ;;
  r <~ command_line argv ;;
  match r with
  | None => Ret (Exit 100)
  | Some cmd => start_child cmd
  end)).
End Main.
