(** Model of resolvehost_init and resolvehost_close (resolvehost.c:149-215, 272-290): the helper process and its
    end.  One run is the life of one process: fork answers 0 in the new process.  Outside calls: socketpair (the
    two descriptors in data), fork, getppid, waitpid.  Log output is omitted. *)
From Verif.Model Require Import Base Sys Conn Jail Resolve Main.

Section Lookup.
Variable fuel : nat.
Variables buf0 ip0 : list Z.    (* uninitialised: buf (257 bytes) and ip (129 bytes) of the helper *)

(** resolvehost_fd and resolvehost_pid, if they are not -1 *)
Definition resolver : Type := option (Z * Z).
(** resolvehost.c:157-202: the helper's process *)
Definition helper_main (s0 s1 : Z) : prog ending :=
  pp <~ sys1 (Other (bs "getppid") [] []) ;;
  _ <~ do (Close s1) ;;
  _ <~ fd_blocking_disable s0 ;;
  '(r, _) <~ jail None None false ;;
  if r =? -1 then Ret (Exit 111)
  else x <~ helper fuel s0 (ret pp) buf0 ip0 ;; Ret (Exit x).
(** resolvehost.c:149-214 *)
Definition resolvehost_init (k : resolver -> prog ending) : prog ending :=
  a <~ sys1 (Other (bs "socketpair") [] []) ;;
  if ret a =? -1 then k None
  else
    let s0 := nth 0 (data a) 0 in
    let s1 := nth 1 (data a) 0 in
    f <~ sys1 (Other (bs "fork") [] []) ;;
    if ret f =? -1 then _ <~ do (Close s0) ;; _ <~ do (Close s1) ;; k None
    else if ret f =? 0 then helper_main s0 s1
    else _ <~ do (Close s0) ;; k (Some (s1, ret f)).
(** resolvehost.c:272-290 *)
Definition resolvehost_close (r : resolver) : prog unit :=
  match r with
  | None => Ret tt
  | Some (fd, pid) =>
    _ <~ do (Send fd (repeat 0 257)) ;;
    _ <~ do (Close fd) ;;
    _ <~ wait fuel pid ;; Ret tt
  end.
End Lookup.
