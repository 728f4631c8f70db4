(** Model of jail.c.

    getpwnam is a call whose answer is 0 (no entry) or not, with the user and group id of
    the entry in data; the strings of the entry are not modelled, so setenv carries only the
    variable name.  getrlimit answers with the soft and hard limit in data.  Log output is
    omitted.  Numbers of resources and prctl options are those of Linux, where all the
    #ifdef branches are taken. *)
From Verif.Model Require Import Base Sys.

Definition RLIMIT_DATA : Z := 2.
Definition RLIMIT_CORE : Z := 4.
Definition RLIMIT_NPROC : Z := 6.
Definition RLIMIT_NOFILE : Z := 7.
Definition RLIMIT_AS : Z := 9.
Definition PR_SET_DUMPABLE : Z := 4.
Definition DATAMAX : Z := 134217728.  (* jail.c:225 *)

(** jail.c:41-67 *)
Definition jail_limit_memory (resource limit : Z) : prog Z :=
  a <~ sys1 (Other (bs "getrlimit") [resource] []) ;;
  if ret a =? -1 then (if err a =? EINVAL then Ret 0 else Ret (-1))
  else
    let cur := u64 (nth 0 (data a) 0) in
    let max := u64 (nth 1 (data a) 0) in
    if cur <=? limit then Ret 0
    else
      let max := if limit <? max then limit else max in
      b <~ sys1 (Other (bs "setrlimit") [resource; limit; max] []) ;;
      if ret b =? -1 then (if err b =? EINVAL then Ret 0 else Ret (-1))
      else Ret 0.

(** a call after which -1 means failure *)
Definition must (c : sys) (k : prog (Z * option Z)) : prog (Z * option Z) :=
  a <~ sys1 c ;;
  if ret a =? -1 then Ret (-1, None) else k.
(** a call whose result has to be [v] *)
Definition mustbe (c : sys) (v : Z) (k : prog (Z * option Z)) : prog (Z * option Z) :=
  a <~ sys1 c ;;
  if u32 (ret a) =? v then k else Ret (-1, None).
Definition when (b : bool) (f : prog (Z * option Z) -> prog (Z * option Z)) (k : prog (Z * option Z)) : prog (Z * option Z) :=
  if b then f k else k.

(** jail.c:131-240: everything after the ids are known; [named]: an account was given.
    Result: return value and the limit passed to alloc_limit. *)
Definition jail_main (named : bool) (dir : option (list Z)) (limits : bool) (uid gid : Z) : prog (Z * option Z) :=
  must (Other (bs "setgid") [gid] [])
  (mustbe (Other (bs "getgid") [] []) gid
  ((if named then must (Other (bs "initgroups") [gid] []) else must (Other (bs "setgroups") [gid] []))
  (match dir with
   | Some d => fun k => must (Other (bs "chdir") [] d) (must (Other (bs "chroot") [] (bs ".")) k)
   | None => fun k => k
   end
  (must (Other (bs "setuid") [uid] [])
  (mustbe (Other (bs "getuid") [] []) uid
  (when limits (must (Other (bs "setrlimit") [RLIMIT_NOFILE; 0; 0] []))
  (when named (fun k =>
     must (Other (bs "setenv") [] (bs "HOME"))
     (must (Other (bs "setenv") [] (bs "SHELL"))
     (must (Other (bs "setenv") [] (bs "USER"))
     (must (Other (bs "setenv") [] (bs "LOGNAME")) k))))
  (when limits (fun k =>
     must (Other (bs "setrlimit") [RLIMIT_NPROC; 0; 0] [])
     (must (Other (bs "setrlimit") [RLIMIT_CORE; 0; 0] [])
     (must (Other (bs "prctl") [PR_SET_DUMPABLE; 0] []) k)))
  (r <~ jail_limit_memory RLIMIT_AS DATAMAX ;;
   if r =? -1 then Ret (-1, Some DATAMAX)
   else
     r <~ jail_limit_memory RLIMIT_DATA DATAMAX ;;
     if r =? -1 then Ret (-1, Some DATAMAX) else Ret (0, Some DATAMAX)))))))))).

(** jail.c:94-247 *)
Definition jail (account dir : option (list Z)) (limits : bool) : prog (Z * option Z) :=
  match account with
  | None =>
    a <~ sys1 (Other (bs "getpid") [] []) ;;
    let id := 141500000 + Z.rem (ret a) 1000000000 in
    jail_main false dir limits id id
  | Some acc =>
    a <~ sys1 (Other (bs "getpwnam") [] acc) ;;
    if ret a =? 0 then Ret (-1, None)
    else
      let uid := u32 (nth 0 (data a) 0) in
      let gid := u32 (nth 1 (data a) 0) in
      if (uid =? 0) || (gid =? 0) then Ret (-1, None)
      else jail_main true dir limits uid gid
  end.
