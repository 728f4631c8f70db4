(** Model of the command line of main_tlswrapper.c (lines 1174-1280) and of the functions it calls for one
    option (lines 302-519).

    An argument is the memory from its first character on (with its NUL); the vector is the list of the
    arguments, its end the null pointer.  stat is a call with the argument's string; its answer has the return
    value and st_mode in data.  None stands for die(100).  Log output and the log level set by -q, -Q, -v
    are omitted except for the variable flagverbose.  The bit TOLERATE_NO_CLIENT_AUTH that -a clears is never
    set. *)
From Verif.Model Require Import Base Sys Str Inet Config Parsenum.

(** static variables set by options (main_tlswrapper.c:37-66, 291-292) *)
Record opts := mkopts {
  cfg : config;
  verbose : Z;                        (* flagverbose *)
  prefer : bool;                      (* ENFORCE_SERVER_PREFERENCES in ctx.flags *)
  ppin : bool;                        (* ppin != 0 *)
  certuser : option (list Z);         (* userfromcert *)
  user : option (list Z);
  hstimeoutstr : list Z;
  timeoutstr : list Z;
  jaildir : list Z;                   (* ctx.jaildir *)
  jailaccount : option (list Z);      (* ctx.jailaccount *)
  delayed : bool                      (* ctx.flagdelayedenc *)
}.
Definition set_cfg o v := mkopts v (verbose o) (prefer o) (ppin o) (certuser o) (user o) (hstimeoutstr o) (timeoutstr o) (jaildir o) (jailaccount o) (delayed o).
Definition set_verbose o v := mkopts (cfg o) v (prefer o) (ppin o) (certuser o) (user o) (hstimeoutstr o) (timeoutstr o) (jaildir o) (jailaccount o) (delayed o).
Definition set_prefer o v := mkopts (cfg o) (verbose o) v (ppin o) (certuser o) (user o) (hstimeoutstr o) (timeoutstr o) (jaildir o) (jailaccount o) (delayed o).
Definition set_ppin o v := mkopts (cfg o) (verbose o) (prefer o) v (certuser o) (user o) (hstimeoutstr o) (timeoutstr o) (jaildir o) (jailaccount o) (delayed o).
Definition set_certuser o v := mkopts (cfg o) (verbose o) (prefer o) (ppin o) v (user o) (hstimeoutstr o) (timeoutstr o) (jaildir o) (jailaccount o) (delayed o).
Definition set_user o v := mkopts (cfg o) (verbose o) (prefer o) (ppin o) (certuser o) v (hstimeoutstr o) (timeoutstr o) (jaildir o) (jailaccount o) (delayed o).
Definition set_hstimeout o v := mkopts (cfg o) (verbose o) (prefer o) (ppin o) (certuser o) (user o) v (timeoutstr o) (jaildir o) (jailaccount o) (delayed o).
Definition set_timeout o v := mkopts (cfg o) (verbose o) (prefer o) (ppin o) (certuser o) (user o) (hstimeoutstr o) v (jaildir o) (jailaccount o) (delayed o).
Definition set_jaildir o v := mkopts (cfg o) (verbose o) (prefer o) (ppin o) (certuser o) (user o) (hstimeoutstr o) (timeoutstr o) v (jailaccount o) (delayed o).
Definition set_jailaccount o v := mkopts (cfg o) (verbose o) (prefer o) (ppin o) (certuser o) (user o) (hstimeoutstr o) (timeoutstr o) (jaildir o) v (delayed o).
Definition set_delayed o v := mkopts (cfg o) (verbose o) (prefer o) (ppin o) (certuser o) (user o) (hstimeoutstr o) (timeoutstr o) (jaildir o) (jailaccount o) v.

Definition streq (s : list Z) (x : list Z) : res bool := d <- str_diff (s ++ [0]) x ;; Ok (d =? 0).

(** main_tlswrapper.c:302-317 *)
Definition pp_incoming (o : opts) (x : list Z) : res (option opts) :=
  b <- streq (bs "0") x ;;
  if (b : bool) then Ok (Some o) else
  b <- streq (bs "1") x ;;
  if (b : bool) then Ok (Some (set_ppin o true)) else Ok None.
(** main_tlswrapper.c:327-342 *)
Definition certuser_add (o : opts) (x : list Z) : res (option opts) :=
  let o := set_certuser o (Some x) in
  b <- streq (bs "commonName") x ;;
  if (b : bool) then Ok (Some o) else
  b <- streq (bs "emailAddress") x ;;
  if (b : bool) then Ok (Some o) else Ok None.

(** an option that changes the TLS configuration: Model/Config.v *)
Definition configured (o : opts) (s : setting) : prog (option opts) :=
  r <~ lift (apply_setting (cfg o) s) ;;
  Ret (match r with Some c => Some (set_cfg o c) | None => None end).
(** stat(x, &st) at the start of certfile_add_dir, certfile_add_file and anchor_add (395, 422, 448) *)
Definition statted (o : opts) (x : list Z) (f : option Z -> setting) : prog (option opts) :=
  s <~ lift (cstr x) ;;
  a <~ sys1 (Other (bs "stat") [] s) ;;
  configured o (f (if ret a =? -1 then None else Some (u32 (nth 0 (data a) 0)))).

(** letters of options with an argument: 1195-1266 *)
Definition takes (c : Z) : bool :=
  existsb (Z.eqb c) [112; 85; 117; 109; 77; 84; 116; 100; 102; 97; 101; 99; 74; 106].
Definition set_option (c : Z) (x : list Z) (o : opts) : prog (option opts) :=
  if c =? 112 then lift (pp_incoming o x)                  (* p *)
  else if c =? 85 then lift (certuser_add o x)             (* U *)
  else if c =? 117 then Ret (Some (set_user o (Some x)))   (* u *)
  else if c =? 109 then configured o (Vmin x)              (* m *)
  else if c =? 77 then configured o (Vmax x)               (* M *)
  else if c =? 84 then Ret (Some (set_hstimeout o x))      (* T *)
  else if c =? 116 then Ret (Some (set_timeout o x))       (* t *)
  else if c =? 100 then statted o x (Certdir x)            (* d *)
  else if c =? 102 then statted o x (Certfile x)           (* f *)
  else if c =? 97 then statted o x (Anchor x)              (* a *)
  else if c =? 101 then configured o (Curve x)             (* e *)
  else if c =? 99 then configured o (Cipher x)             (* c *)
  else if c =? 74 then Ret (Some (set_jaildir o x))        (* J *)
  else Ret (Some (set_jailaccount o (Some x))).            (* j *)
(** letters without argument: 1186-1192, 1268-1269 *)
Definition plain (c : Z) (o : opts) : option opts :=
  if c =? 113 then Some (set_verbose o 0)                  (* q *)
  else if c =? 81 then Some (set_verbose o 1)              (* Q *)
  else if c =? 118 then Some (set_verbose o (verbose o + 1)) (* v *)
  else if c =? 115 then Some (set_prefer o true)           (* s *)
  else if c =? 83 then Some (set_prefer o false)           (* S *)
  else if c =? 110 then Some (set_delayed o true)          (* n *)
  else if c =? 78 then Some (set_delayed o false)          (* N *)
  else None.

(** how the letters of one argument end *)
Inductive letters := Usage | Next (o : opts) | Ate (o : opts).
(** 1185-1272, with [x] after ++x and [next] = argv[1]; an option letter whose argument is missing falls
    through to usage() *)
Fixpoint cluster (x : list Z) (next : option (list Z)) (o : opts) : prog letters :=
  match x with
  | [] => Bad
  | c :: x1 =>
    if c =? 0 then Ret (Next o) else
    match plain c o with
    | Some o => cluster x1 next o
    | None =>
      if takes c then
        c1 <~ lift (deref x1) ;;
        if negb (c1 =? 0) then
          r <~ set_option c x1 o ;;
          Ret (match r with Some o => Next o | None => Usage end)
        else
          match next with
          | Some a => r <~ set_option c a o ;; Ret (match r with Some o => Ate o | None => Usage end)
          | None => Ret Usage
          end
      else Ret Usage
    end
  end.

(** 1183-1184 *)
Definition dashes (x : list Z) : res bool :=
  c1 <- ld x 1 ;;
  if c1 =? 0 then Ok true
  else if c1 =? 45 then (c2 <- ld x 2 ;; Ok (c2 =? 0))
  else Ok false.
(** 1179-1273, with the arguments from argv[1] on; the result starts at [++argv] of line 1274 *)
Fixpoint options (argv : list (list Z)) (o : opts) : prog (option (list (list Z) * opts)) :=
  match argv with
  | [] => Ret (Some ([], o))
  | x :: rest =>
    c0 <~ lift (deref x) ;;
    if negb (c0 =? 45) then Ret (Some (x :: rest, o))
    else
      d <~ lift (dashes x) ;;
      if (d : bool) then Ret (Some (rest, o))
      else
        r <~ cluster (tl x) (hd_error rest) o ;;
        match r with
        | Usage => Ret None
        | Next o => options rest o
        | Ate o => match rest with [] => Bad | _ :: rest => options rest o end
        end
  end.

(** the values before the first option; EMPTYDIR is that of Makefile:2 *)
Definition start_opts (c : config) : opts :=
  mkopts c 1 true false None None (bs "30" ++ [0]) (bs "60" ++ [0]) (bs "/var/lib/tlswrapper/empty" ++ [0]) None false.

(** 512-519; None: die(100) *)
Definition timeout_parse (x : list Z) : res (option Z) :=
  '(ok, n) <- parsenum_ 1 86400 x ;; Ok (if ok =? 0 then None else Some n).

(** what is known when the options have been accepted *)
Record command := mkcommand { settings : opts; timeout : Z; hstimeout : Z; program : list (list Z) }.
(** 1174-1279 *)
Definition command_line (argv : list (list Z)) : prog (option command) :=
  c <~ lift (tls_cipher_defaults static_config) ;;
  match argv with
  | [] => Ret None
  | _ :: argv =>
    r <~ options argv (start_opts c) ;;
    match r with
    | None => Ret None
    | Some (prg, o) =>
      match prg with
      | [] => Ret None
      | _ :: _ =>
        match certfiles (cfg o) with
        | [] => Ret None
        | _ :: _ =>
          if match certuser o, anchorfn (cfg o) with Some _, None => true | _, _ => false end then Ret None
          else if match certuser o with Some _ => delayed o | None => false end then Ret None
          else
            t <~ lift (timeout_parse (timeoutstr o)) ;;
            match t with
            | None => Ret None
            | Some t =>
              h <~ lift (timeout_parse (hstimeoutstr o)) ;;
              match h with
              | None => Ret None
              | Some h => Ret (Some (mkcommand o t h prg))
              end
            end
        end
      end
    end
  end.
