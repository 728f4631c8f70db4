(** Model of main_tlswrapper_tcp.c:239-519: from the command line to the end of the process, for tlswrapper-tcp and
    for the resolver helper it starts.  One run is the life of one process: fork answers 0 in the new process.

    Omitted: log output (but the addresses given to log_ip are read), the overwriting of memory by cleanup() before
    _exit, the static log name, id and address, and the signal handler, which may write to the self-pipe at any
    point. *)
From Verif.Model Require Import Base Sys Io Str Buffer Inet Parsenum Fdio Relay Session Jail Pem Proxy Conninfo Conn Resolve Main Getopt Lookup.

(** static variables set by options (lines 31-63, 126-131) *)
Record topts := mktopts {
  tverbose : Z;                      (* flagverbose *)
  ctimeoutstr : list Z;              (* connecttimeoutstr *)
  ttimeoutstr : list Z;              (* timeoutstr *)
  tppin : bool;                      (* ppin != 0 *)
  tppout : bool;                     (* ppout != 0 *)
  tdir : list Z;                     (* ctx.empty_dir *)
  taccount : option (list Z)         (* ctx.account *)
}.
Definition set_tverbose o v := mktopts v (ctimeoutstr o) (ttimeoutstr o) (tppin o) (tppout o) (tdir o) (taccount o).
Definition set_ctimeout o v := mktopts (tverbose o) v (ttimeoutstr o) (tppin o) (tppout o) (tdir o) (taccount o).
Definition set_ttimeout o v := mktopts (tverbose o) (ctimeoutstr o) v (tppin o) (tppout o) (tdir o) (taccount o).
Definition set_tppin o v := mktopts (tverbose o) (ctimeoutstr o) (ttimeoutstr o) v (tppout o) (tdir o) (taccount o).
Definition set_tppout o v := mktopts (tverbose o) (ctimeoutstr o) (ttimeoutstr o) (tppin o) v (tdir o) (taccount o).
Definition set_tdir o v := mktopts (tverbose o) (ctimeoutstr o) (ttimeoutstr o) (tppin o) (tppout o) v (taccount o).
Definition set_taccount o v := mktopts (tverbose o) (ctimeoutstr o) (ttimeoutstr o) (tppin o) (tppout o) (tdir o) v.

(** 266-268 *)
Definition tcp_plain (c : Z) (o : topts) : option topts :=
  if c =? 113 then Some (set_tverbose o 0)                      (* q *)
  else if c =? 81 then Some (set_tverbose o 1)                  (* Q *)
  else if c =? 118 then Some (set_tverbose o (tverbose o + 1))  (* v *)
  else None.
(** 270-301 *)
Definition tcp_takes (c : Z) : bool := existsb (Z.eqb c) [84; 116; 112; 80; 74; 106].
Definition tcp_option (c : Z) (x : list Z) (o : topts) : res (option topts) :=
  if c =? 84 then Ok (Some (set_ctimeout o x))                  (* T *)
  else if c =? 116 then Ok (Some (set_ttimeout o x))            (* t *)
  else if c =? 112 then                                         (* p *)
    r <- pp_version x ;; Ok (match r with Some true => Some (set_tppin o true) | Some false => Some o | None => None end)
  else if c =? 80 then                                          (* P *)
    r <- pp_version x ;; Ok (match r with Some true => Some (set_tppout o true) | Some false => Some o | None => None end)
  else if c =? 74 then Ok (Some (set_tdir o x))                 (* J *)
  else Ok (Some (set_taccount o (Some x))).                     (* j *)
(** the values before the first option; EMPTYDIR is that of Makefile:2 *)
Definition tcp_start : topts :=
  mktopts 1 (bs "10" ++ [0]) (bs "3600" ++ [0]) false false (bs "/var/lib/tlswrapper/empty" ++ [0]) None.

Record tcpcmd := mktcpcmd { tset : topts; thost : list Z; tport : list Z; ttimeout : Z; tconnect : Z }.
(** 256-318; None: die(100).  parseport refuses a null pointer. *)
Definition tcp_command (argv : list (list Z)) : res (option tcpcmd) :=
  match argv with
  | [] => Ok None
  | _ :: argv =>
    r <- options topts tcp_plain tcp_takes tcp_option argv tcp_start ;;
    match r with
    | None => Ok None
    | Some (host :: port :: _, o) =>
      p <- parseport_ port ;;
      match p with
      | None => Ok None
      | Some (p0, p1) =>
        t <- seconds_parse (ttimeoutstr o) ;;
        match t with
        | None => Ok None
        | Some t =>
          h <- seconds_parse (ctimeoutstr o) ;;
          match h with
          | None => Ok None
          | Some h => Ok (Some (mktcpcmd o host [p0; p1] t h))
          end
        end
      end
    | Some _ => Ok None
    end
  end.

(** 345: log_ip(ip + i) reads 16 bytes *)
Fixpoint log_ips (k : nat) (ip : list Z) (i n : Z) : res unit :=
  match k with
  | O => Ok tt
  | S k => if i <? n then _ <- block ip i ;; log_ips k ip (i + 16) n else Ok tt
  end.

Section Tcpmain.
Variable I : inet.
Variable fuel : nat.
Variables buf0 ip0 : list Z.    (* uninitialised memory of the resolver helper *)
Variable env : environment.
Variable nojail : bool.

(** die(x): cleanup() stops the resolver *)
Definition tcp_die (r : resolver) (x : Z) : prog ending := _ <~ resolvehost_close fuel r ;; Ret (Exit x).

(** 326-334 *)
Definition tcp_resolve (c : tcpcmd) (k : resolver -> list Z -> Z -> prog ending) : prog ending :=
  if nojail then '(n, _, ip) <~ resolvehost (Some (repeat 0 128)) 128 (Some (thost c)) ;; k None ip n
  else resolvehost_init fuel buf0 ip0 (fun r =>
    match r with
    | None => Ret (Exit 111)
    | Some (fd, pid) => '(n, ip) <~ resolvehost_do fd (Some (repeat 0 128)) 128 (Some (thost c)) ;; k r ip n
    end).

(** 384-389: the PROXY header, if one is wanted *)
Definition tcp_header (c : tcpcmd) (i : info) (k : list Z -> prog ending) : prog ending :=
  if tppout (tset c) then
    '(n, b) <~ proxyprotocol_v1 I (Some (repeat 0 (Z.to_nat 8192))) 8192 (mkep (localip i) (localport i) (remoteip i) (remoteport i)) ;;
    if u64 n =? 0 then Ret (Exit 100)
    else match b with Some b => k (firstn (Z.to_nat n) b) | None => Bad end
  else k [].
(** 359-519 *)
Definition tcp_jailed (c : tcpcmd) (self : Z) (sl : slots) (ip : list Z) (n : Z) : prog ending :=
  acc <~ lift (cstr_opt (taccount (tset c))) ;; dir <~ lift (cstr (tdir (tset c))) ;;
  r <~ (if nojail then Ret (0, None) else jail acc (Some dir) true) ;;
  if fst r =? -1 then Ret (Exit 111)
  else
    peer_info I fuel env (tppin (tset c)) (fun i =>
    '(w, ip, _) <~ conn fuel sl (tconnect c) ip n (tport c) ;;
    match w with
    | None => Ret (Exit 111)
    | Some (ri, ro) =>
      tcp_header c i (fun h =>
      _ <~ signal SIGTERM HANDLER ;; _ <~ signal SIGALRM HANDLER ;; _ <~ alarm (ttimeout c) ;;
      x <~ tcp_relay (ttimeout c) self fuel ri ro h ;;
      Ret (Exit x))
    end).
(** 335-357 *)
Definition tcp_resolved (c : tcpcmd) (r : resolver) (ip : list Z) (n : Z) : prog ending :=
  if n <=? 0 then tcp_die r 111
  else
    _ <~ lift (if 3 <=? tverbose (tset c) then log_ips (Z.to_nat n) ip 0 n else Ok tt) ;;
    _ <~ resolvehost_close fuel r ;;
    a <~ sys1 (Other (bs "pipe") [] []) ;;
    if ret a =? -1 then Ret (Exit 111)
    else
      '(ok, sl) <~ conn_init conn_start_state (n / 16) ;;
      if negb ok then Ret (Exit 111)
      else tcp_jailed c (nth 0 (data a) 0) sl ip n.
(** 239-324 *)
Definition main_tcp (argv : list (list Z)) : prog ending :=
  _ <~ signal SIGPIPE IGN ;;
  r <~ lift (tcp_command argv) ;;
  match r with
  | None => Ret (Exit 100)
  | Some c => _ <~ randombytes 1 ;; tcp_resolve c (tcp_resolved c)
  end.
End Tcpmain.
