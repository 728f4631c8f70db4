(** The TLS phase of main_tlswrapper.c.  The TLS engine (tls_engine.c, BearSSL) is outside: a
    call of it is [Other "tls_engine_..."], and its answer is arbitrary.
    - tls_engine_current_state: [ret] are the flags;
    - tls_engine_recvapp_buf, tls_engine_sendrec_buf: [data] are the bytes at the returned
      pointer, none for the null pointer;
    - tls_engine_recvrec_buf, tls_engine_sendapp_buf: [ret] is the size of the returned buffer,
      not positive for the null pointer; the bytes stored there go with the _ack call;
    - clientcrt stands for reading ctx.clientcrt.status ([ret]) and ctx.clientcrtbuf ([data]),
      which the engine writes.
    Log output is omitted, and so is the clean-up before an exit. *)
From Verif.Model Require Import Base Sys Io Fdio Str Relay Session.

(** tls.h:207-211 with the values of bearssl_ssl.h *)
Definition CLOSED : Z := 1.
Definition SENDREC : Z := 2.
Definition RECVREC : Z := 4.
Definition SENDAPP : Z := 8.
Definition RECVAPP : Z := 16.

(** The descriptors, ctx.flaghandshakedone, *flaguserreported *)
Record tsess : Type := mkts { fds : sess; shaken : bool; told_user : bool }.
Definition engine (name : list Z) : prog ans := sys1 (Other name [] []).
Definition engine_ack (name : list Z) (n : Z) (stored : list Z) : prog ans := sys1 (Other name [n] stored).
Definition current_state : prog Z := a <~ engine (bs "tls_engine_current_state") ;; Ret (ret a).
Definition flush : prog unit := _ <~ sys1 (Other (bs "tls_engine_flush") [0] []) ;; Ret tt.

Section Tls.
Variables timeout finishtimeout self : Z.
(** userfromcert is not null *)
Variable usercert : bool.

(** main_tlswrapper.c:884-900 *)
Fixpoint pending_loop (fuel : nat) (fd : Z) : prog bool :=
  match fuel with
  | O => Halt
  | S fuel =>
    '(r, e, rev) <~ jail_poll [(fd, POLLIN)] 0 ;;
    if (r =? -1) && (e =? EINTR) then pending_loop fuel fd
    else Ret (if r <=? 0 then false else negb (List.hd 0 rev =? 0))
  end.
Definition pending_now (fuel : nat) (fd : Z) : prog bool :=
  if fd =? -1 then Ret false else pending_loop fuel fd.

(** 541-546; true: die_writetopipe *)
Definition report_user (fuel : nat) (fd : Z) (s : list Z) : prog bool :=
  n <~ lift (str_len s) ;;
  c <~ pipe_write fuel fd s (n + 1) ;;
  match c with Good => Ret false | Fail _ => Ret true end.
(** tls.h:54, 560-561: the buffer with its last byte set to zero; without userfromcert nothing
    is ever stored in it (tls_profile.c:305-309).  The buffer holds bytes. *)
Definition crtbuf (d : list Z) : list Z := firstn 255 (map u8 d ++ zeros 255) ++ [0].
(** 553-577; None: exit 111 *)
Definition report_handshake (fuel : nat) (st : Z) (s : tsess) : prog (option tsess) :=
  if shaken s then Ret (Some s)
  else if negb (has st SENDAPP) then Ret (Some s)
  else if told_user s then
    _ <~ alarm timeout ;; Ret (Some (mkts (fds s) true true))
  else
    x <~ (if usercert then
            a <~ engine (bs "clientcrt") ;;
            if ret a =? 0 then Ret None
            else b <~ lift (fixname (crtbuf (data a))) ;; Ret (Some b)
          else Ret (Some (crtbuf []))) ;;
    match x with
    | None => Ret None
    | Some b =>
      bad <~ report_user fuel (childin (fds s)) b ;;
      if (bad : bool) then Ret None
      else _ <~ alarm timeout ;; Ret (Some (mkts (fds s) true true))
    end.

(** 922-935 *)
Definition tls_eof1 (st : Z) (s : sess) : prog sess :=
  if negb (open (peerin s)) && open (childin s) && negb (has st RECVAPP) then
    v <~ shut_w (childin s) ;; Ret (set_childin s v)
  else Ret s.
(** 942-948 *)
Definition tls_eof2 (fuel : nat) (st : Z) (s : sess) : prog sess :=
  if negb (open (childout s)) && open (childin s) && negb (has st RECVAPP) then
    p <~ pending_now fuel (peerin s) ;;
    if (p : bool) then Ret s else v <~ shut_w (childin s) ;; Ret (set_childin s v)
  else Ret s.
(** 953-959 *)
Definition tls_eof3 (st : Z) (s : sess) : prog sess :=
  if negb (open (childout s)) && open (peerout s) && has st CLOSED && negb (has st SENDREC) then
    v <~ shut_w (peerout s) ;; Ret (set_peerout s v)
  else Ret s.
(** 965-972 *)
Definition tls_notify (st : Z) (s : sess) : prog Z :=
  if negb (open (childout s)) && negb (open (childin s)) && negb (has st CLOSED) then
    _ <~ engine (bs "tls_engine_close") ;; _ <~ flush ;; current_state
  else Ret st.
(** 978-988 *)
Definition can_recvrec (st : Z) (s : sess) : bool :=
  has st RECVREC && open (peerin s) && (open (childin s) || has st SENDREC || open (childout s)).
Definition can_sendrec (st : Z) (s : sess) : bool := has st SENDREC && open (peerout s).
Definition can_sendapp (st : Z) (s : sess) : bool := has st SENDAPP && open (childout s) && open (peerout s).
Definition can_recvapp (st : Z) (s : sess) : bool := has st RECVAPP && open (childin s).
(** 1022-1052: watchtopeer, watchfrompeer, watchtochild, watchfromchild, watchfromselfpipe *)
Definition tls_watch (st : Z) (s : sess) : list watcher :=
  [(can_sendrec st s, peerout s, POLLOUT);
   (can_recvrec st s, peerin s, POLLIN);
   (can_recvapp st s, childin s, POLLOUT);
   (can_sendapp st s, childout s, POLLIN);
   (true, self, POLLIN)].
(** The loop ends with 0 (return) or with the code of an exit. *)
Definition tverdict : Type := nxt tsess (Z * tsess).
Definition with_fds (s : tsess) (f : sess) : tsess := mkts f (shaken s) (told_user s).
(** fd_write with the buffer of the engine, null included *)
Definition offer (fd : Z) (x : list Z) : prog (Z * Z) :=
  match x with [] => Ret (-1, EINVAL) | _ => fd_write fd x (len x) end.
Definition fetch (fd n : Z) : prog (Z * Z * list Z) :=
  if n <=? 0 then Ret (-1, EINVAL, []) else fd_read fd n n.
(** 1065-1076 *)
Definition tls_tochild (s : tsess) : prog tverdict :=
  a <~ engine (bs "tls_engine_recvapp_buf") ;;
  '(r, e) <~ offer (childin (fds s)) (data a) ;;
  if again r e then Ret (Again s)
  else if r <=? 0 then v <~ shut_w (childin (fds s)) ;; Ret (Stop (0, with_fds s (set_childin (fds s) v)))
  else _ <~ engine_ack (bs "tls_engine_recvapp_ack") r [] ;; Ret (Again s).
(** 1078-1089 *)
Definition tls_topeer (s : tsess) : prog tverdict :=
  a <~ engine (bs "tls_engine_sendrec_buf") ;;
  '(r, e) <~ offer (peerout (fds s)) (data a) ;;
  if again r e then Ret (Again s)
  else if r <=? 0 then v <~ shut_w (peerout (fds s)) ;; Ret (Stop (0, with_fds s (set_peerout (fds s) v)))
  else _ <~ engine_ack (bs "tls_engine_sendrec_ack") r [] ;; Ret (Again s).
(** 1091-1102 *)
Definition tls_frompeer (s : tsess) : prog tverdict :=
  a <~ engine (bs "tls_engine_recvrec_buf") ;;
  '(r, e, d) <~ fetch (peerin (fds s)) (ret a) ;;
  if again r e then Ret (Again s)
  else if r <=? 0 then v <~ shut_r (peerin (fds s)) ;; Ret (Again (with_fds s (set_peerin (fds s) v)))
  else _ <~ engine_ack (bs "tls_engine_recvrec_ack") r d ;; _ <~ alarm timeout ;; Ret (Again s).
(** 1104-1116 *)
Definition tls_fromchild (s : tsess) : prog tverdict :=
  a <~ engine (bs "tls_engine_sendapp_buf") ;;
  '(r, e, d) <~ fetch (childout (fds s)) (ret a) ;;
  if again r e then Ret (Again s)
  else if r <=? 0 then v <~ shut_r (childout (fds s)) ;; Ret (Again (with_fds s (set_childout (fds s) v)))
  else _ <~ engine_ack (bs "tls_engine_sendapp_ack") r d ;; _ <~ flush ;; _ <~ alarm timeout ;; Ret (Again s).
(** 1118-1122 *)
Definition tls_signal (s : tsess) : prog tverdict :=
  '(stop, f) <~ selfpipe_event finishtimeout self (fds s) ;;
  if (stop : bool) then Ret (Stop (0, with_fds s f)) else Ret (Again (with_fds s f)).
(** 907-1123 *)
Definition tls_body (fuel : nat) (s : tsess) : prog tverdict :=
  st <~ current_state ;;
  f <~ tls_eof1 st (fds s) ;;
  f <~ tls_eof2 fuel st f ;;
  f <~ tls_eof3 st f ;;
  st <~ tls_notify st f ;;
  s' <~ report_handshake fuel st (with_fds s f) ;;
  match s' with
  | None => Ret (Stop (111, with_fds s f))
  | Some s =>
    if has st CLOSED && negb (shaken s) then Ret (Stop (0, s))
    else if has st CLOSED && negb (has st SENDREC) then Ret (Stop (0, s))
    else if negb (can_recvrec st f) && negb (can_sendrec st f) && negb (can_sendapp st f) && negb (can_recvapp st f) then Ret (Stop (0, s))
    else
      h <~ watch (tls_watch st f) ;;
      match h with
      | [wtopeer; wfrompeer; wtochild; wfromchild; wself] =>
        if (wtochild : bool) then tls_tochild s
        else if (wtopeer : bool) then tls_topeer s
        else if (wfrompeer : bool) then tls_frompeer s
        else if (wfromchild : bool) then tls_fromchild s
        else if (wself : bool) then tls_signal s
        else Ret (Again s)
      | _ => Bad
      end
  end.
Definition tls_phase (fuel : nat) (s : tsess) : prog (Z * tsess) := iter fuel (tls_body fuel) s.
End Tls.
