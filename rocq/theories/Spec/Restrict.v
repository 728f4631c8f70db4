(** What a jailed process must have gone through. *)
From Verif.Model Require Import Base Sys.

(** A step: a system call and the result it needs; None: anything but -1. *)
Definition step : Type := (sys * option Z)%type.
Definition done (s : step) (e : event) : Prop :=
  fst e = fst s /\ match snd s with Some v => u32 (ret (snd e)) = v | None => ret (snd e) <> -1 end.
Definition missed (s : step) (e : event) : Prop :=
  fst e = fst s /\ match snd s with Some v => u32 (ret (snd e)) <> v | None => ret (snd e) = -1 end.

Definition call (nm : list Z) (args : list Z) : step := (Other nm args [], None).
Definition calls (nm : list Z) (d : list Z) : step := (Other nm [] d, None).

(** groups first, then the new root, then the user id, then limits: open files, (name the
    account to the program), processes, core files, memory inspection *)
Definition restrictions (named : bool) (dir : option (list Z)) (limits : bool) (uid gid : Z) : list step :=
  [call (bs "setgid") [gid]; (Other (bs "getgid") [] [], Some gid)] ++
  [call (if named then bs "initgroups" else bs "setgroups") [gid]] ++
  match dir with Some d => [calls (bs "chdir") d; calls (bs "chroot") (bs ".")] | None => [] end ++
  [call (bs "setuid") [uid]; (Other (bs "getuid") [] [], Some uid)] ++
  (if limits then [call (bs "setrlimit") [7; 0; 0]] else []) ++
  (if named then [calls (bs "setenv") (bs "HOME"); calls (bs "setenv") (bs "SHELL"); calls (bs "setenv") (bs "USER"); calls (bs "setenv") (bs "LOGNAME")] else []) ++
  (if limits then [call (bs "setrlimit") [6; 0; 0]; call (bs "setrlimit") [4; 0; 0]; call (bs "prctl") [4; 0]] else []).

(** One memory limit: not supported (EINVAL), already at most [m], or lowered to [m]. *)
Inductive capped (r m : Z) : trace -> Prop :=
| cap_unknown : forall a, ret a = -1 -> err a = EINVAL -> capped r m [(Other (bs "getrlimit") [r] [], a)]
| cap_low : forall a, ret a <> -1 -> u64 (nth 0 (data a) 0) <= m -> capped r m [(Other (bs "getrlimit") [r] [], a)]
| cap_set : forall a b hard, ret a <> -1 -> m < u64 (nth 0 (data a) 0) -> hard = Z.min m (u64 (nth 1 (data a) 0)) ->
    (ret b <> -1 \/ err b = EINVAL) ->
    capped r m [(Other (bs "getrlimit") [r] [], a); (Other (bs "setrlimit") [r; m; hard] [], b)].
(** A memory limit that could not be read or set, for another reason than EINVAL. *)
Inductive uncapped (r m : Z) : trace -> Prop :=
| unc_get : forall a, ret a = -1 -> err a <> EINVAL -> uncapped r m [(Other (bs "getrlimit") [r] [], a)]
| unc_set : forall a b hard, ret a <> -1 -> m < u64 (nth 0 (data a) 0) -> hard = Z.min m (u64 (nth 1 (data a) 0)) ->
    ret b = -1 -> err b <> EINVAL ->
    uncapped r m [(Other (bs "getrlimit") [r] [], a); (Other (bs "setrlimit") [r; m; hard] [], b)].
