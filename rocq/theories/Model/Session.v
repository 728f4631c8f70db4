(** The session loops of main_tlswrapper.c: signals, the cleartext phase of delayed encryption.
    Log output is omitted. *)
From Verif.Model Require Import Base Sys Io Fdio Relay.

Definition SIGCHLD : Z := 17.
Definition SIGALRM : Z := 14.
Definition SIGTERM : Z := 15.
(** main_tlswrapper.c:111-127: the byte written to the self-pipe; [sender] is si_pid when si
    is not null. *)
Definition signalbyte (child signum : Z) (sender : option Z) : Z :=
  let ch := if (signum =? SIGCHLD) && (match sender with Some p => p =? child | None => false end) then 67 else 0 in
  if signum =? SIGALRM then 65 else ch.
(** 123-126 *)
Fixpoint signalhandler (fuel : nat) (selfout child signum : Z) (sender : option Z) : prog unit :=
  match fuel with
  | O => Halt
  | S fuel =>
    a <~ sys1 (Write selfout [signalbyte child signum sender]) ;;
    if (ret a =? -1) && (err a =? EINTR) then signalhandler fuel selfout child signum sender else Ret tt
  end.

(** 80-91: the descriptors and the cleartext buffers *)
Record sess : Type := mksess {
  peerin : Z; peerout : Z; childin : Z; childout : Z; childctl : Z; childack : Z; toc : rbuf; ton : rbuf }.
Definition set_peerin s v := mksess v (peerout s) (childin s) (childout s) (childctl s) (childack s) (toc s) (ton s).
Definition set_peerout s v := mksess (peerin s) v (childin s) (childout s) (childctl s) (childack s) (toc s) (ton s).
Definition set_childin s v := mksess (peerin s) (peerout s) v (childout s) (childctl s) (childack s) (toc s) (ton s).
Definition set_childout s v := mksess (peerin s) (peerout s) (childin s) v (childctl s) (childack s) (toc s) (ton s).
Definition set_childctl s v := mksess (peerin s) (peerout s) (childin s) (childout s) v (childack s) (toc s) (ton s).
Definition set_childack s v := mksess (peerin s) (peerout s) (childin s) (childout s) (childctl s) v (toc s) (ton s).
Definition set_toc s b := mksess (peerin s) (peerout s) (childin s) (childout s) (childctl s) (childack s) b (ton s).
Definition set_ton s b := mksess (peerin s) (peerout s) (childin s) (childout s) (childctl s) (childack s) (toc s) b.

(** main_tlswrapper.c:528-532 *)
Definition consume_buffer (b : rbuf) (n : Z) : res rbuf := if n =? 0 then Ok b else consume b n.

Section Session.
Variables timeout finishtimeout self : Z.

(** main_tlswrapper.c:135-176; true: the caller terminates its loop *)
Definition selfpipe_event (s : sess) : prog (bool * sess) :=
  '(r, e, d) <~ fd_read self 1 1 ;;
  if again r e then Ret (false, s)
  else if r <=? 0 then Ret (true, s)
  else
    let ch := List.hd 0 d in
    if ch =? 67 then
      v <~ shut_w (childin s) ;;
      _ <~ alarm finishtimeout ;; Ret (false, set_childin s v)
    else if (ch =? 65) && (open (childin s) || open (childout s) || open (childctl s) || open (childack s)) then
      v <~ shut_w (childin s) ;; let s := set_childin s v in
      v <~ shut_r (childout s) ;; let s := set_childout s v in
      v <~ shut_r (childctl s) ;; let s := set_childctl s v in
      v <~ shut_w (childack s) ;; let s := set_childack s v in
      _ <~ alarm finishtimeout ;; Ret (false, s)
    else Ret (true, s).

(** ** run_cleartext_phase, main_tlswrapper.c:658-876 *)
(** 677-684 *)
Definition clear_eof (s : sess) : prog sess :=
  s <~ (if negb (open (peerin s)) && open (childin s) && (fill (toc s) =? 0) then
          v <~ shut_w (childin s) ;; Ret (set_childin s v) else Ret s) ;;
  (if negb (open (childout s)) && open (peerout s) && (fill (ton s) =? 0) then
     v <~ shut_w (peerout s) ;; Ret (set_peerout s v) else Ret s).
(** 687 *)
Definition clear_done (s : sess) : bool :=
  negb (open (peerin s)) && negb (open (childin s)) && negb (open (childout s)) && negb (open (peerout s)).
(** 696-742: watchtopeer, watchtochild, watchfrompeer, watchfromchild, watchfromchildctl, watchfromselfpipe *)
Definition clear_watch (s : sess) : list watcher :=
  [(open (peerout s) && negb (fill (ton s) =? 0), peerout s, POLLOUT);
   (negb (fill (toc s) =? 0) && open (childin s), childin s, POLLOUT);
   (open (peerin s) && (fill (toc s) <? BUFFER) && open (childin s), peerin s, POLLIN);
   (open (childout s) && (fill (ton s) <? BUFFER), childout s, POLLIN);
   (open (peerout s) && open (childctl s) && (fill (ton s) =? 0), childctl s, POLLIN);
   (true, self, POLLIN)].
(** The loop ends with the return value and the variables. *)
Definition verdict : Type := nxt sess (Z * sess).
(** 766-775 *)
Definition clear_topeer (s : sess) : prog verdict :=
  '(r, e) <~ fd_write (peerout s) (mem (ton s)) (fill (ton s)) ;;
  if again r e then Ret (Again s)
  else if r <=? 0 then v <~ shut_w (peerout s) ;; Ret (Stop (0, set_peerout s v))
  else b <~ lift (consume_buffer (ton s) r) ;; Ret (Again (set_ton s b)).
(** 778-790 *)
Definition clear_fromchild (s : sess) : prog verdict :=
  '(r, e, d) <~ fd_read (childout s) (len (mem (ton s)) - fill (ton s)) (u64 (BUFFER - fill (ton s))) ;;
  if again r e then Ret (Again s)
  else if r <=? 0 then v <~ shut_r (childout s) ;; Ret (Again (set_childout s v))
  else _ <~ alarm timeout ;; Ret (Again (set_ton s (append (ton s) r d))).
(** 797-838 *)
Definition clear_control (fuel : nat) (s : sess) : prog verdict :=
  '(r, e, d) <~ fd_read (childctl s) 2 2 ;;
  if r =? -1 then
    if (e =? EINTR) || (e =? EAGAIN) then Ret (Again s)
    else v <~ shut_r (childctl s) ;; Ret (Stop (0, set_childctl s v))
  else if r =? 0 then v <~ shut_r (childctl s) ;; Ret (Again (set_childctl s v))
  else if negb (r =? 1) then Ret (Stop (0, s))
  else if negb (List.hd 255 d =? 0) then Ret (Stop (0, s))
  else
    v <~ shut_r (childctl s) ;; let s := set_childctl s v in
    if negb (open (peerin s)) || negb (open (peerout s)) then Ret (Stop (0, s))
    else
      let s := set_toc s (mkrbuf (mem (toc s)) 0) in
      c <~ writeall fuel (childack s) [0] 1 ;;
      match c with
      | Fail _ => Ret (Stop (0, s))
      | Good => v <~ shut_w (childack s) ;; Ret (Stop (1, set_childack s v))
      end.
(** 841-850 *)
Definition clear_tochild (s : sess) : prog verdict :=
  '(r, e) <~ fd_write (childin s) (mem (toc s)) (fill (toc s)) ;;
  if again r e then Ret (Again s)
  else if r <=? 0 then v <~ shut_w (childin s) ;; Ret (Stop (0, set_childin s v))
  else b <~ lift (consume_buffer (toc s) r) ;; Ret (Again (set_toc s b)).
(** 853-865 *)
Definition clear_frompeer (s : sess) : prog verdict :=
  '(r, e, d) <~ fd_read (peerin s) (len (mem (toc s)) - fill (toc s)) (u64 (BUFFER - fill (toc s))) ;;
  if again r e then Ret (Again s)
  else if r <=? 0 then v <~ shut_r (peerin s) ;; Ret (Again (set_peerin s v))
  else _ <~ alarm timeout ;; Ret (Again (set_toc s (append (toc s) r d))).
(** 869-873 *)
Definition clear_signal (s : sess) : prog verdict :=
  '(stop, s) <~ selfpipe_event s ;; if (stop : bool) then Ret (Stop (0, s)) else Ret (Again s).
(** 663-875 *)
Definition clear_body (fuel : nat) (s : sess) : prog verdict :=
  s <~ clear_eof s ;;
  if clear_done s then Ret (Stop (0, s))
  else
    h <~ watch (clear_watch s) ;;
    match h with
    | [wtopeer; wtochild; wfrompeer; wfromchild; wctl; wself] =>
      if (wtopeer : bool) then clear_topeer s
      else if (wfromchild : bool) then clear_fromchild s
      else if (wctl : bool) then clear_control fuel s
      else if (wtochild : bool) then clear_tochild s
      else if (wfrompeer : bool) then clear_frompeer s
      else if (wself : bool) then clear_signal s
      else Ret (Again s)
    | _ => Bad
    end.
Definition cleartext (fuel : nat) (s : sess) : prog (Z * sess) :=
  iter fuel (clear_body fuel) (set_ton (set_toc s (mkrbuf (mem (toc s)) 0)) (mkrbuf (mem (ton s)) 0)).
End Session.
