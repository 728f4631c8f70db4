(** Model of main_tlswrapper_smtp.c:834-1029: from the command line to the end of the process, for tlswrapper-smtp,
    for the mail server it starts and for the resolver helper.  One run is the life of one process: fork answers 0
    in the new process.  The session itself is Smtp.v.

    Omitted: log output (log_ip is given the first address only), the overwriting of memory by cleanup() before
    _exit, and the signal handler, which ends the process (188-192).  The log id does not change after start-up and
    is an argument. *)
From Verif.Model Require Import Base Sys Io Str Buffer Inet Parsenum Parsehostport Fdio Relay Session Jail Pem Proxy Conninfo Conn Resolve Main Getopt Lookup.
From Verif.Model Require Smtp.

(** static variables set by options (lines 43-49, 152-153, 347) *)
Record sopts := mksopts {
  sverbose : Z;                      (* flagverbose *)
  sfailclosed : bool;                (* flaggreyfailclosed *)
  suser : option (list Z);           (* user *)
  crwstr : list Z;                   (* crwtimeoutstr *)
  stimeoutstr : list Z;              (* timeoutstr *)
  sgrey : option (list Z);           (* greylisthostport *)
  sdir : list Z;                     (* jaildir *)
  saccount : option (list Z)         (* jailaccount *)
}.
Definition set_sverbose o v := mksopts v (sfailclosed o) (suser o) (crwstr o) (stimeoutstr o) (sgrey o) (sdir o) (saccount o).
Definition set_failclosed o v := mksopts (sverbose o) v (suser o) (crwstr o) (stimeoutstr o) (sgrey o) (sdir o) (saccount o).
Definition set_suser o v := mksopts (sverbose o) (sfailclosed o) v (crwstr o) (stimeoutstr o) (sgrey o) (sdir o) (saccount o).
Definition set_crw o v := mksopts (sverbose o) (sfailclosed o) (suser o) v (stimeoutstr o) (sgrey o) (sdir o) (saccount o).
Definition set_stimeout o v := mksopts (sverbose o) (sfailclosed o) (suser o) (crwstr o) v (sgrey o) (sdir o) (saccount o).
Definition set_sgrey o v := mksopts (sverbose o) (sfailclosed o) (suser o) (crwstr o) (stimeoutstr o) v (sdir o) (saccount o).
Definition set_sdir o v := mksopts (sverbose o) (sfailclosed o) (suser o) (crwstr o) (stimeoutstr o) (sgrey o) v (saccount o).
Definition set_saccount o v := mksopts (sverbose o) (sfailclosed o) (suser o) (crwstr o) (stimeoutstr o) (sgrey o) (sdir o) v.

(** 860-862, 878-879 *)
Definition smtp_plain (c : Z) (o : sopts) : option sopts :=
  if c =? 113 then Some (set_sverbose o 0)                      (* q *)
  else if c =? 81 then Some (set_sverbose o 1)                  (* Q *)
  else if c =? 118 then Some (set_sverbose o (sverbose o + 1))  (* v *)
  else if c =? 99 then Some (set_failclosed o true)             (* c *)
  else if c =? 67 then Some (set_failclosed o false)            (* C *)
  else None.
(** 864-888 *)
Definition smtp_takes (c : Z) : bool := existsb (Z.eqb c) [117; 84; 116; 103; 74; 106].
Definition smtp_option (c : Z) (x : list Z) (o : sopts) : res (option sopts) :=
  Ok (Some (
  if c =? 117 then set_suser o (Some x)                         (* u *)
  else if c =? 84 then set_crw o x                              (* T *)
  else if c =? 116 then set_stimeout o x                        (* t *)
  else if c =? 103 then set_sgrey o (Some x)                    (* g *)
  else if c =? 74 then set_sdir o x                             (* J *)
  else set_saccount o (Some x))).                               (* j *)
(** the values before the first option; EMPTYDIR is that of Makefile:2 *)
Definition smtp_start : sopts :=
  mksopts 1 false None (bs "15" ++ [0]) (bs "600" ++ [0]) None (bs "/var/lib/tlswrapper/empty" ++ [0]) None.

(** [shost]: greylisthost and greylistport *)
Record smtpcmd := mksmtpcmd { sset : sopts; sprogram : list (list Z); stimeout : Z; scrw : Z; shost : option (list Z * list Z) }.
(** 897-911; [junk]: the uninitialised greylistportstr.  None: die(100) *)
Definition grey_command (I : inet) (junk : list Z) (g : option (list Z)) : res (option (option (list Z * list Z))) :=
  match g with
  | None => Ok (Some None)
  | Some x =>
    '(ok, h, p) <- parsehostport I (repeat 0 256) (Some junk) x ;;
    if ok =? 0 then Ok None
    else
      match p with
      | None => UB
      | Some p =>
        n <- parseport_ p ;;
        Ok (match n with Some (p0, p1) => Some (Some (h, [p0; p1])) | None => None end)
      end
  end.
(** 850-912 *)
Definition smtp_command (I : inet) (junk : list Z) (argv : list (list Z)) : res (option smtpcmd) :=
  match argv with
  | [] => Ok None
  | _ :: argv =>
    r <- options sopts smtp_plain smtp_takes smtp_option argv smtp_start ;;
    match r with
    | None => Ok None
    | Some ([], _) => Ok None
    | Some (prg, o) =>
      t <- seconds_parse (stimeoutstr o) ;;
      match t with
      | None => Ok None
      | Some t =>
        h <- seconds_parse (crwstr o) ;;
        match h with
        | None => Ok None
        | Some h =>
          g <- grey_command I junk (sgrey o) ;;
          Ok (match g with Some g => Some (mksmtpcmd o prg t h g) | None => None end)
        end
      end
    end
  end.

Section Smtpmain.
Variable I : inet.
Variable fuel : nat.
Variables buf0 ip0 junk : list Z.    (* uninitialised memory of the resolver helper, and greylistportstr *)
Variable env : environment.
Variable nojail : bool.
Variable logid : option (list Z).    (* log_get_id() *)

(** 914 *)
Definition has_starttls : prog bool :=
  a <~ sys1 (Other (bs "fstat") [5] []) ;;
  if negb (ret a =? 0) then Ret false
  else b <~ sys1 (Other (bs "fstat") [6] []) ;; Ret (ret b =? 0).

(** 924-948: the mail server's process *)
Definition server_main (cmd : smtpcmd) (toc_r toc_w fromc_r fromc_w : Z) : prog ending :=
  _ <~ alarm 0 ;;
  _ <~ do (Close toc_w) ;; _ <~ do (Close 0) ;;
  dup toc_r 0 (
  _ <~ blocking 0 true ;;
  _ <~ do (Close fromc_r) ;; _ <~ do (Close 1) ;;
  dup fromc_w 1 (
  _ <~ blocking 1 true ;;
  _ <~ do (Close 5) ;;
  u <~ lift (cstr_opt (suser (sset cmd))) ;;
  (match u with Some u => droppriv u | None => fun k => k end) (
  _ <~ signal SIGPIPE DFL ;; _ <~ signal SIGALRM DFL ;;
  v <~ lift (cstrs (sprogram cmd)) ;;
  a <~ sys1 (Other (bs "execvp") [] (hd [] v)) ;;
  Ret (if ret a =? -1 then Exit 111 else Exec v)))).

(** 980-1013: greylistfd *)
Definition grey_connect (cmd : smtpcmd) (r : resolver) (sl : slots) (k : Z -> prog ending) : prog ending :=
  match shost cmd with
  | None => k (-1)
  | Some (host, port) =>
    '(n, ip) <~ (if nojail
                 then '(n, _, ip) <~ resolvehost (Some (repeat 0 16)) 16 (Some host) ;; Ret (n, ip)
                 else match r with
                      | Some (fd, _) => resolvehost_do fd (Some (repeat 0 16)) 16 (Some host)
                      | None => Bad
                      end) ;;
    if n <=? 0 then Ret (Exit 111)
    else
      _ <~ (if nojail then Ret tt else resolvehost_close fuel r) ;;
      '(w, _, _) <~ conn fuel sl (scrw cmd) ip n port ;;
      match w with
      | None => if sfailclosed (sset cmd) then Ret (Exit 111) else k (-1)
      | Some (g0, g1) => _ <~ do (Close g1) ;; k g0
      end
  end.
(** 974-1029 *)
Definition smtp_jailed (cmd : smtpcmd) (tls : bool) (child toc_w fromc_r : Z) (r : resolver) (sl : slots) : prog ending :=
  acc <~ lift (cstr_opt (saccount (sset cmd))) ;; dir <~ lift (cstr (sdir (sset cmd))) ;;
  x <~ (if nojail then Ret (0, None) else jail acc (Some dir) true) ;;
  if fst x =? -1 then Ret (Exit 111)
  else
    grey_connect cmd r sl (fun grey =>
    i <~ connection I env ;;
    _ <~ alarm (stimeout cmd) ;;
    x <~ Smtp.smtp fuel (Smtp.mkcfg (scrw cmd) logid (iptostr I (remoteip i) ++ [0]) grey (sfailclosed (sset cmd)) tls child fromc_r toc_w) ;;
    Ret (Exit x)).
(** 949-972 *)
Definition smtp_parent (cmd : smtpcmd) (tls : bool) (child toc_r toc_w fromc_r fromc_w : Z) : prog ending :=
  _ <~ do (Close fromc_w) ;; _ <~ do (Close toc_r) ;;
  _ <~ blocking fromc_r true ;; _ <~ blocking toc_w true ;;
  _ <~ randombytes 1 ;;
  match shost cmd with
  | None => smtp_jailed cmd tls child toc_w fromc_r None conn_start_state
  | Some _ =>
    (fun k => if nojail then k None
              else resolvehost_init fuel buf0 ip0 (fun r => match r with None => Ret (Exit 111) | Some _ => k r end))
    (fun r =>
    '(ok, sl) <~ conn_init conn_start_state 1 ;;
    if negb ok then Ret (Exit 111)
    else smtp_jailed cmd tls child toc_w fromc_r r sl)
  end.
(** 834-922 *)
Definition main_smtp (argv : list (list Z)) : prog ending :=
  _ <~ signal SIGPIPE IGN ;; _ <~ signal SIGALRM HANDLER ;; _ <~ alarm 30 ;;
  r <~ lift (smtp_command I junk argv) ;;
  match r with
  | None => Ret (Exit 100)
  | Some cmd =>
    tls <~ has_starttls ;;
    open_pipe (fun t0 t1 => open_pipe (fun f0 f1 =>
    f <~ sys1 (Other (bs "fork") [] []) ;;
    if ret f =? -1 then Ret (Exit 111)
    else if ret f =? 0 then server_main cmd t0 t1 f0 f1
    else smtp_parent cmd tls (ret f) t0 t1 f0 f1))
  end.
End Smtpmain.
