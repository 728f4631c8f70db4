(** Model of main_tlswrapper_smtp.c: the SMTP session after start-up (lines 1019-1028) and
    everything it calls.

    Not modelled: option parsing and start-up (834-1017), the session alarm (the handler
    ends the process, 188-192), the wiping in cleanup() (68-78), and the text of log lines.
    Pointers passed to the log functions are still read as C strings ([logs]), so a missing
    terminator is undefined behaviour here.  log_get_id() does not change during the session. *)
From Verif.Model Require Import Base Sys Io Str Buffer Stralloc Fdio.

(** A function of this file returns, or ends the process (die, _exit). *)
Inductive out (A : Type) : Type := Go (a : A) | Exit (x : Z).
Arguments Go {A} _.
Arguments Exit {A} _.

Definition obind {A B} (p : prog (out A)) (f : A -> prog (out B)) : prog (out B) :=
  r <~ p ;; match r with Go a => f a | Exit x => Ret (Exit x) end.
Notation "x <! e ;; f" := (obind e (fun x => f))
  (at level 61, e at next level, right associativity) : prog_scope.
Notation "' p <! e ;; f" := (obind e (fun p => f))
  (at level 61, p pattern, e at next level, right associativity) : prog_scope.
Definition go {A} (p : prog A) : prog (out A) := a <~ p ;; Ret (Go a).

(** What is fixed before the session starts. *)
Record cfg : Type := mkcfg {
  crw : Z;                       (* crwtimeout *)
  logid : option (list Z);       (* log_get_id() *)
  ipstr : list Z;                (* remoteipstr *)
  greyfd : Z;                    (* greylistfd *)
  failclosed : bool;             (* flaggreyfailclosed *)
  starttls : bool;               (* flagstarttls *)
  child : Z;
  fromfd : Z;                    (* fromchild[0] *)
  tofd : Z                       (* tochild[1] *)
}.

(** Static buffers 231-240 and strings 242-247, 345. *)
Inductive bname : Type := SSin | SSout | SScin | SScout.
Inductive field : Type := Line | Cline | Mailfrom | Rcptto | Rcpttodata | Resp.
Definition beqb (a b : bname) : bool :=
  match a, b with SSin, SSin | SSout, SSout | SScin, SScin | SScout, SScout => true | _, _ => false end.
Definition feqb (a b : field) : bool :=
  match a, b with
  | Line, Line | Cline, Cline | Mailfrom, Mailfrom | Rcptto, Rcptto | Rcpttodata, Rcpttodata | Resp, Resp => true
  | _, _ => false
  end.
Record st : Type := mkst { bf : bname -> buffer; sa : field -> stralloc; rcptcount : Z }.
Definition setbf (n : bname) (x : buffer) (s : st) : st :=
  mkst (fun m => if beqb m n then x else bf s m) (sa s) (rcptcount s).
Definition setsa (f : field) (x : stralloc) (s : st) : st :=
  mkst (bf s) (fun g => if feqb g f then x else sa s g) (rcptcount s).
Definition setcount (x : Z) (s : st) : st := mkst (bf s) (sa s) x.

Definition SMTP_MAX_LINE : Z := 4096.        (* 159 *)
Definition SMTP_MAX_MAILFROM : Z := 2048.    (* 160 *)
Definition SMTP_MAX_RCPTTO : Z := 2048.      (* 161 *)
Definition SMTP_MAX_RCPTS : Z := 256.        (* 162 *)
Definition SMTP_MAX_RCPTTODATA : Z := 65536. (* 163 *)

Definition CR : Z := 13.
Definition LF : Z := 10.
Definition SP : Z := 32.

(** r->s as a pointer *)
Definition ptr (r : stralloc) : res (list Z) := match sm r with Some m => Ok m | None => UB end.

Section Smtp.
Variable fuel : nat.
Variable c : cfg.

(** ** Callbacks and buffers *)

(** Result of a callback: value, errno (and data). *)
(** 221-229 *)
Definition read_ (fd n : Z) : prog (out (Z * Z * list Z)) :=
  '(r, e, b) <~ timeoutread fuel (crw c) fd n ;;
  if r <=? 0 then Ret (Exit 111) else Ret (Go (r, e, b)).
(** 203-210 *)
Definition write_ (fd : Z) (x : list Z) (n : Z) : prog (out (Z * Z)) :=
  '(w, e) <~ timeoutwrite fuel (crw c) fd x n ;;
  if w <=? 0 then Ret (Exit 111) else Ret (Go (w, e)).
(** 388-399; log_w3 keeps errno (log.c:378, 551) *)
Definition gread (fd n : Z) : prog (out (Z * Z * list Z)) :=
  '(r, e, b) <~ timeoutread fuel (crw c) fd n ;;
  if (r <=? 0) && failclosed c then Ret (Exit 111) else Ret (Go (r, e, b)).
(** 366-376 *)
Definition gwrite (fd : Z) (x : list Z) (n : Z) : prog (out (Z * Z)) :=
  '(w, e) <~ timeoutwrite fuel (crw c) fd x n ;;
  if (w <=? 0) && failclosed c then Ret (Exit 111) else Ret (Go (w, e)).

Definition rop : Type := Z -> Z -> prog (out (Z * Z * list Z)).
Definition wop : Type := Z -> list Z -> Z -> prog (out (Z * Z)).

(** buffer.c:55-73 *)
Fixpoint oallwrite (f : nat) (op : wop) (fd : Z) (x : list Z) (xlen : Z) : prog (out rc) :=
  match f with
  | O => Halt
  | S f =>
      if 0 <? xlen then
        let n := if BUFSIZE <? xlen then BUFSIZE else xlen in
        '(w, e) <! op fd x n ;;
        if w =? -1 then
          if e =? EINTR then oallwrite f op fd x xlen else Ret (Go (Fail e))
        else oallwrite f op fd (skipn (Z.to_nat w) x) (xlen - w)
      else Ret (Go Good)
  end.
(** buffer.c:82-87 *)
Definition oflush (op : wop) (s : buffer) : prog (out (rc * buffer)) :=
  r <! oallwrite fuel op (bfd s) (bx s) (bp s) ;;
  match r with
  | Fail e => Ret (Go (Fail e, s))
  | Good => Ret (Go (Good, mkbuf (bx s) 0 (bn s) (bfd s)))
  end.
(** buffer.c:114-117 *)
Definition oput_tail (op : wop) (s : buffer) (x : list Z) (xlen : Z) : prog (out (rc * buffer)) :=
  if bn s <=? xlen then (r <! oallwrite fuel op (bfd s) x xlen ;; Ret (Go (r, s)))
  else
    d <~ lift (copyin (bx s) (bp s) x xlen) ;;
    Ret (Go (Good, mkbuf d (bp s + xlen) (bn s) (bfd s))).
(** buffer.c:98-118 *)
Definition oput (op : wop) (s : buffer) (x : list Z) (xlen : Z) : prog (out (rc * buffer)) :=
  if xlen <? 0 then Ret (Go (Fail EINVAL, s))
  else
    let n := bn s - bp s in
    if n <? xlen then
      d <~ lift (copyin (bx s) (bp s) x n) ;;
      let s1 := mkbuf d (bp s + n) (bn s) (bfd s) in
      '(r, s2) <! oflush op s1 ;;
      match r with
      | Fail e => Ret (Go (Fail e, s2))
      | Good => oput_tail op s2 (skipn (Z.to_nat n) x) (xlen - n)
      end
    else oput_tail op s x xlen.
(** buffer.c:128-134 *)
Definition oputs (op : wop) (s : buffer) (x : list Z) : prog (out (rc * buffer)) :=
  n <~ lift (str_len x) ;; oput op s x n.
(** buffer.c:145-153 *)
Definition oputflush (op : wop) (s : buffer) (x : list Z) (xlen : Z) : prog (out (rc * buffer)) :=
  if xlen <? 0 then Ret (Go (Fail EINVAL, s))
  else
    '(r, s1) <! oflush op s ;;
    match r with
    | Fail e => Ret (Go (Fail e, s1))
    | Good => r2 <! oallwrite fuel op (bfd s1) x xlen ;; Ret (Go (r2, s1))
    end.
(** buffer.c:163-169 *)
Definition oputsflush (op : wop) (s : buffer) (x : list Z) : prog (out (rc * buffer)) :=
  n <~ lift (str_len x) ;; oputflush op s x n.

(** buffer.c:189-199 *)
Fixpoint ooneread (f : nat) (op : rop) (fd : Z) (avail xlen : Z) : prog (out (Z * Z * list Z)) :=
  match f with
  | O => Halt
  | S f =>
      let n := if BUFSIZE <? xlen then BUFSIZE else xlen in
      if (n <? 0) || (avail <? n) then Bad else
      '(r, e, b) <! op fd n ;;
      if (r =? -1) && (e =? EINTR) then ooneread f op fd avail n
      else Ret (Go (r, e, b))
  end.
(** buffer.c:209-221 *)
Definition ofeed (op : rop) (s : buffer) : prog (out (Z * Z * buffer)) :=
  if negb (bp s =? 0) then Ret (Go (bp s, 0, s))
  else
    '(r, e, b) <! ooneread fuel op (bfd s) (len (bx s)) (bn s) ;;
    if r <=? 0 then Ret (Go (r, e, s))
    else
      x1 <~ lift (copyin (bx s) 0 b r) ;;
      let n := bn s - r in
      x2 <~ lift (if 0 <? n then shift_up (Z.to_nat r) n x1 else Ok x1) ;;
      Ret (Go (r, 0, mkbuf x2 r n (bfd s))).
(** buffer.c:252-265 *)
Definition oget (op : rop) (s : buffer) (xlen : Z) : prog (out (Z * Z * list Z * buffer)) :=
  if xlen <? 0 then Ret (Go (-1, EINVAL, [], s))
  else if 0 <? bp s then
    '(b, s') <~ lift (getthis s xlen) ;; Ret (Go (len b, 0, b, s'))
  else if bn s <=? xlen then
    '(r, e, b) <! ooneread fuel op (bfd s) xlen xlen ;; Ret (Go (r, e, b, s))
  else
    '(r, e, s1) <! ofeed op s ;;
    if r <=? 0 then Ret (Go (r, e, [], s1))
    else ('(b, s') <~ lift (getthis s1 xlen) ;; Ret (Go (len b, 0, b, s'))).
(** buffer.h:40-42 with the callback _read; the callers ignore the result, which is 1
    because _read never returns without data.  [hd] is the character stored in [ch]. *)
Definition ogetc (s : buffer) : prog (out (Z * buffer)) :=
  if 0 <? bp s then
    b <~ lift (ld (bx s) (Z.to_nat (bn s))) ;; Ret (Go (b, buffer_SEEK s 1))
  else
    '(r, _, b, s') <! oget read_ s 1 ;;
    match b with
    | ch :: _ => Ret (Go (ch, s'))
    | [] => Bad   (* ch would be uninitialised *)
    end.

(** ** State *)

Definition M (A : Type) : Type := st -> prog (out (st * A)).
Definition mret {A} (a : A) : M A := fun s => Ret (Go (s, a)).
Definition mbind {A B} (m : M A) (f : A -> M B) : M B := fun s => '(s', a) <! m s ;; f a s'.
Declare Scope smtp_scope.
Notation "x <- e ;; f" := (mbind e (fun x => f)) : smtp_scope.
Notation "e ;;; f" := (mbind e (fun _ => f)) (at level 61, right associativity) : smtp_scope.
Open Scope smtp_scope.

Definition mget : M st := fun s => Ret (Go (s, s)).
Definition mset (f : st -> st) : M unit := fun s => Ret (Go (f s, tt)).
Definition mlift {A} (x : res A) : M A := fun s => a <~ lift x ;; Ret (Go (s, a)).
Definition msys (k : sys) : M ans := fun s => a <~ sys1 k ;; Ret (Go (s, a)).
(** die(x) with x <> 0 (88-95) *)
Definition mdie {A} (x : Z) : M A := fun s => Ret (Exit x).

(** A stralloc call whose failure is die_nomem(). *)
Definition sado (f : field) (k : stralloc -> prog (rc * stralloc)) : M unit :=
  fun s => '(r, x) <~ k (sa s f) ;;
           match r with Good => Ret (Go (setsa f x s, tt)) | Fail _ => Ret (Exit 111) end.
(** sa->len = n *)
Definition setlen (f : field) (n : Z) : M unit :=
  mset (fun s => setsa f (mksa (sm (sa s f)) n (salloc (sa s f))) s).
Definition declen (f : field) : M unit := fun s => setlen f (slen (sa s f) - 1) s.
Definition the (f : field) : M stralloc := fun s => Ret (Go (s, sa s f)).
(** sa->s[i] *)
Definition at_ (f : field) (i : Z) : M Z :=
  x <- the f ;; p <- mlift (ptr x) ;; if i <? 0 then mlift UB else mlift (ld p (Z.to_nat i)).
(** A C string handed to the log. *)
Definition logs (f : field) : M unit := x <- the f ;; p <- mlift (ptr x) ;; _ <- mlift (str_len p) ;; mret tt.
Definition lit (x : list Z) : option (list Z) := Some (x ++ [0]).

(** Output through a buffer of the state; the results are ignored by the callers. *)
Definition putsflush (n : bname) (p : list Z) : M unit :=
  fun s => '(_, b) <! oputsflush write_ (bf s n) p ;; Ret (Go (setbf n b s, tt)).
Definition puts (n : bname) (p : list Z) : M unit :=
  fun s => '(_, b) <! oputs write_ (bf s n) p ;; Ret (Go (setbf n b s, tt)).
Definition flush (n : bname) : M unit :=
  fun s => '(_, b) <! oflush write_ (bf s n) ;; Ret (Go (setbf n b s, tt)).
Definition getc (n : bname) : M Z :=
  fun s => '(ch, b) <! ogetc (bf s n) ;; Ret (Go (setbf n b s, ch)).
(** buffer_putsflush(.., f.s) *)
Definition putsflush_of (n : bname) (f : field) : M unit :=
  x <- the f ;; p <- mlift (ptr x) ;; putsflush n p.

(** 88-108 with x = 0 and a child *)
Fixpoint waitchild (f : nat) : prog Z :=
  match f with
  | O => Halt
  | S f =>
    a <~ sys1 (Other (bs "waitpid") [child c] []) ;;
    if ret a =? -1 then
      if err a =? EINTR then waitchild f else Ret 0 (* the static status is still 0 *)
    else Ret (List.hd 0 (data a))
  end.
Definition wifexited (w : Z) : bool := Z.land w 127 =? 0.
Definition wexitstatus (w : Z) : Z := Z.land (Z.shiftr w 8) 255.
Definition die0 {A} : M A := fun s =>
  if child c =? -1 then Ret (Exit 0)
  else
    _ <~ sys1 (Close (fromfd c)) ;;
    _ <~ sys1 (Close (tofd c)) ;;
    w <~ waitchild fuel ;;
    if wifexited w then Ret (Exit (wexitstatus w)) else Ret (Exit 111).

(** 250-254 *)
Definition control_ready : M bool :=
  if starttls c then
    a <- msys (Other (bs "fstat") [5] []) ;;
    if ret a =? 0 then (b <- msys (Other (bs "fstat") [6] []) ;; mret (ret b =? 0)) else mret false
  else mret false.

(** 269-280 *)
Fixpoint discard_loop (f : nat) : M unit :=
  match f with
  | O => fun s => Halt
  | S f =>
    a <- msys (Read 0 256) ;;
    if 0 <? ret a then discard_loop f
    else if ret a =? 0 then mret tt
    else if err a =? EINTR then discard_loop f
    else if err a =? EAGAIN then mret tt
    else mdie 111
  end.
(** 262-287 *)
Definition discard_starttls_cleartext : M unit :=
  mset (fun s => setbf SSin (buffer_init 0 (bx (bf s SSin)) 8192) s) ;;;
  msys (Other (bs "fd_blocking_disable") [0] []) ;;;
  discard_loop fuel ;;;
  msys (Other (bs "fd_blocking_enable") [0] []) ;;;
  mret tt.

(** 296-304 *)
Definition catlogid (f : field) : M unit :=
  match logid c with
  | None => mret tt
  | Some id =>
    sado f (fun x => stralloc_cats x (lit (bs " ["))) ;;;
    sado f (fun x => stralloc_cats x (Some id)) ;;;
    sado f (fun x => stralloc_cats x (lit (bs "]")))
  end.

(** 311-315 *)
Definition reset0 (f : field) : M unit :=
  sado f (fun x => stralloc_copys x (lit [])) ;;;
  sado f stralloc_0 ;;;
  declen f.
(** 323-328 *)
Definition reset_transaction : M unit :=
  reset0 Mailfrom ;;; reset0 Rcptto ;;; reset0 Rcpttodata ;;; mset (setcount 0).

(** 337-343 *)
Definition line_append (f : field) (ch : Z) : M unit :=
  x <- the f ;;
  if SMTP_MAX_LINE <=? slen x then mdie 111
  else sado f (fun x => stralloc_append x (Some [ch])).

(** 505-506, 543-544, ...: if (!stralloc_0(&f)) die_nomem(); --f.len; *)
Definition zero (f : field) : M unit := sado f stralloc_0 ;;; declen f.
(** if (f.len > 0) if (f.s[f.len - 1] == ch) --f.len; *)
Definition strip (f : field) (ch : Z) : M unit :=
  x <- the f ;;
  if 0 <? slen x then (b <- at_ f (slen x - 1) ;; if b =? ch then declen f else mret tt)
  else mret tt.

(** ** Policy server *)

(** 429-436; the buffer is local here: it is initialised before every use, what it held
    before is never read.  Result: false = return 0 *)
Fixpoint answer_loop (f : nat) (g : buffer) : M bool :=
  match f with
  | O => fun s => Halt
  | S f => fun s =>
    '(r, _, b, g) <! oget gread g 1 ;;
    if negb (r =? 1) then Ret (Go (s, false))
    else
      (ch <- mlift (deref b) ;;
       x <- the Resp ;;
       if SMTP_MAX_LINE <=? slen x then mret false
       else
         sado Resp (fun x => stralloc_append x (Some [ch])) ;;;
         if ch =? LF then mret true else answer_loop f g) s
  end.
Definition gbuf : buffer := buffer_init (greyfd c) (repeat 0 (Z.to_nat 256)) 256.
(** 415-425; false = return 0 *)
Fixpoint ask_parts (l : list (list Z)) (g : buffer) : prog (out (bool * buffer)) :=
  match l with
  | [] => Ret (Go (true, g))
  | p :: l =>
    '(r, g) <! oputs gwrite g p ;;
    match r with Fail _ => Ret (Go (false, g)) | Good => ask_parts l g end
  end.
Definition ask : M bool :=
  mf <- the Mailfrom ;; rt <- the Rcptto ;;
  pm <- mlift (ptr mf) ;; pr <- mlift (ptr rt) ;;
  fun s =>
  '(ok, g) <! ask_parts [bs "request=smtpd_access_policy" ++ [LF; 0]; bs "client_address=" ++ [0]; ipstr c;
                        LF :: bs "sender=" ++ [0]; pm; LF :: bs "recipient=" ++ [0]; pr; [LF; LF; 0]] gbuf ;;
  if negb ok then Ret (Go (s, false))
  else
    '(r, _) <! oflush gwrite g ;;
    match r with Fail _ => Ret (Go (s, false)) | Good => Ret (Go (s, true)) end.
(** 409-448; None = null pointer *)
Definition greylist : M (option (list Z)) :=
  sado Resp (fun x => stralloc_copys x (lit [])) ;;;
  sent <- ask ;;
  if negb sent then mret None
  else
    ok <- answer_loop fuel gbuf ;;
    if negb ok then mret None
    else
      sado Resp stralloc_0 ;;;
      logs Resp ;;;
      x <- the Resp ;;
      p <- mlift (ptr x) ;;
      dunno <- (if 12 <=? slen x then (d <- mlift (case_diffb p 12 (bs "action=dunno" ++ [0])) ;; mret (d =? 0)) else mret false) ;;
      if (dunno : bool) then mret None
      else
        reject <- (if 13 <=? slen x then (d <- mlift (case_diffb p 13 (bs "action=reject" ++ [0])) ;; mret (d =? 0)) else mret false) ;;
        if (reject : bool) then mret (Some (bs "553 bad reputation (#5.7.1)"))
        else mret (Some (bs "450 greylisted (#4.3.0)")).

(** ** Lines *)

(** code = code * 10 + (ch - '0') on unsigned long long *)
Definition addcode (code ch : Z) : Z := u64 (u64 (code * 10) + u64 (ch - 48)).
(** buffer_GETC(&sscin, &ch); smtp_line_append(&cline, ch, ..); *)
Definition take : M Z := ch <- getc SScin ;; line_append Cline ch ;;; mret ch.
(** 483-486, 494-497: while (ch != '\n') *)
Fixpoint rest_of_line (f : nat) (ch : Z) : M unit :=
  match f with
  | O => fun s => Halt
  | S f => if ch =? LF then mret tt else (ch <- take ;; rest_of_line f ch)
  end.
(** 476-493; the result is the last ch *)
Fixpoint reply_lines (f : nat) (append : option (list Z)) (code : Z) : M Z :=
  match f with
  | O => fun s => Halt
  | S f =>
    ch <- getc SScin ;;
    (if (match append with Some _ => true | None => false end) && (code =? 250) && (ch =? SP)
     then line_append Cline 45 else line_append Cline ch) ;;;
    if negb (ch =? 45) then mret ch
    else
      rest_of_line fuel ch ;;;
      take ;;; take ;;; take ;;;
      reply_lines f append code
  end.
(** 459-522 *)
Definition smtpline (append : option (list Z)) (addlogid : bool) : M Z :=
  sado Cline (fun x => stralloc_copys x (lit [])) ;;;
  ch <- take ;; let code := u64 (ch - 48) in
  ch <- take ;; let code := addcode code ch in
  ch <- take ;; let code := addcode code ch in
  ch <- reply_lines fuel append code ;;
  rest_of_line fuel ch ;;;
  (match append with
   | Some a =>
     if code =? 250 then
       n <- mlift (str_len a) ;;
       x <- the Cline ;;
       if SMTP_MAX_LINE <? slen x + n then mdie 111
       else sado Cline (fun x => stralloc_cats x (Some a))
     else mret tt
   | None => mret tt
   end) ;;;
  zero Cline ;;;
  logs Cline ;;;
  (match logid c with
   | Some _ =>
     if addlogid then
       strip Cline LF ;;; strip Cline CR ;;;
       catlogid Cline ;;;
       sado Cline (fun x => stralloc_cats x (lit [CR; LF])) ;;;
       zero Cline ;;;
       logs Cline
     else mret tt
   | None => mret tt
   end) ;;;
  mret code.

(** 533-539 *)
Fixpoint readline_loop (f : nat) : M unit :=
  match f with
  | O => fun s => Halt
  | S f =>
    ch <- getc SSin ;;
    if ch =? LF then mret tt
    else
      let ch := if ch =? 0 then LF else ch in
      line_append Line ch ;;; readline_loop f
  end.
(** 529-546 *)
Definition readline : M unit :=
  sado Line (fun x => stralloc_copys x (lit [])) ;;;
  readline_loop fuel ;;;
  strip Line CR ;;;
  sado Line (fun x => stralloc_cats x (lit [CR; LF])) ;;;
  zero Line ;;;
  logs Line.

(** ** Commands *)

(** 581-585 *)
Definition greet : M unit := smtpline None true ;;; putsflush_of SSout Cline.
(** 594-603 *)
Definition copy (lid : bool) : M Z :=
  putsflush_of SScout Line ;;;
  code <- smtpline None lid ;;
  putsflush_of SSout Cline ;;;
  logs Line ;;; logs Cline ;;;
  mret code.
(** 608 *)
Definition smtp_default : M unit := copy false ;;; mret tt.
(** 613-616 *)
Definition smtp_quit : M unit := copy true ;;; die0.

(** 637-645 *)
Fixpoint data_loop (f : nat) : M unit :=
  match f with
  | O => fun s => Halt
  | S f =>
    readline ;;;
    x <- the Line ;; p <- mlift (ptr x) ;; puts SScout p ;;;
    strip Line LF ;;; strip Line CR ;;;
    x <- the Line ;;
    dot <- (if slen x =? 1 then (b <- at_ Line 0 ;; mret (b =? 46)) else mret false) ;;
    if (dot : bool) then mret tt else data_loop f
  end.
(** 624-655 *)
Definition smtp_data : M unit :=
  putsflush_of SScout Line ;;;
  code <- smtpline None true ;;
  putsflush_of SSout Cline ;;;
  if negb (code =? 354) then
    logs Line ;;; logs Cline ;;; logs Mailfrom ;;; logs Rcpttodata
  else
    data_loop fuel ;;;
    flush SScout ;;;
    code <- smtpline None true ;;
    putsflush_of SSout Cline ;;;
    logs Cline ;;; logs Mailfrom ;;; logs Rcpttodata ;;;
    reset_transaction.

(** 676-678: for (i = 0; i < len; ++i) if (s[i] == ' ') len = i; *)
Fixpoint cut_all (n : nat) (m : list Z) (i l : Z) : res Z :=
  match n with
  | O => Ok l
  | S n => if i <? l then bind (ld m (Z.to_nat i)) (fun b => cut_all n m (i + 1) (if b =? SP then i else l)) else Ok l
  end.
(** 708-713: the same with a break *)
Fixpoint cut_first (n : nat) (m : list Z) (i l : Z) : res Z :=
  match n with
  | O => Ok l
  | S n => if i <? l then bind (ld m (Z.to_nat i)) (fun b => if b =? SP then Ok i else cut_first n m (i + 1) l) else Ok l
  end.
(** line.len >= n && !case_diffb(line.s, n, verb) *)
Definition line_starts (n : Z) (verb : list Z) : M bool :=
  x <- the Line ;;
  if n <=? slen x then (p <- mlift (ptr x) ;; d <- mlift (case_diffb p n (verb ++ [0])) ;; mret (d =? 0))
  else mret false.
(** stralloc_copyb(&f, line.s + n, line.len - n) *)
Definition copy_line_from (f : field) (n : Z) : M unit :=
  x <- the Line ;; p <- mlift (ptr x) ;;
  if len p <? n then mlift UB
  else sado f (fun y => stralloc_copyb y (Some (skipn (Z.to_nat n) p)) (slen x - n)).
Definition cutlen (f : field) (cut : nat -> list Z -> Z -> Z -> res Z) : M unit :=
  x <- the f ;;
  if 0 <? slen x then
    p <- mlift (ptr x) ;;
    n <- mlift (cut (Z.to_nat (slen x)) p 0 (slen x)) ;; setlen f n
  else mret tt.

(** 663-689 *)
Definition smtp_mail : M unit :=
  reset_transaction ;;;
  hit <- line_starts 10 (bs "mail from:") ;;
  (if (hit : bool) then
     copy_line_from Mailfrom 10 ;;;
     strip Mailfrom LF ;;; strip Mailfrom CR ;;;
     cutlen Mailfrom cut_all ;;;
     x <- the Mailfrom ;;
     if SMTP_MAX_MAILFROM <? slen x then mdie 111
     else sado Mailfrom stralloc_0
   else mret tt) ;;;
  code <- copy true ;;
  if negb (code =? 250) then logs Mailfrom ;;; logs Cline else mret tt.

(** 700-733 *)
Definition rcpt_record : M unit :=
  hit <- line_starts 8 (bs "rcpt to:") ;;
  if (hit : bool) then
    copy_line_from Rcptto 8 ;;;
    strip Rcptto LF ;;; strip Rcptto CR ;;;
    cutlen Rcptto cut_first ;;;
    x <- the Rcptto ;;
    if SMTP_MAX_RCPTTO <? slen x then mdie 111
    else
      s <- mget ;;
      if SMTP_MAX_RCPTS <=? rcptcount s then mdie 111
      else if SMTP_MAX_RCPTTODATA <? slen (sa s Rcpttodata) + slen x + 1 then mdie 111
      else
        sado Rcpttodata (fun y => stralloc_cat y x) ;;;
        sado Rcpttodata (fun y => stralloc_cats y (lit (bs ","))) ;;;
        sado Rcptto stralloc_0 ;;;
        zero Rcpttodata ;;;
        mset (fun s => setcount (u32 (rcptcount s + 1)) s)
  else mret tt.

(** cline = msg, log id, CRLF: 738-742, 781-785, 791-795 *)
Definition say (msg : list Z) : M unit :=
  sado Cline (fun x => stralloc_copys x (lit msg)) ;;;
  catlogid Cline ;;;
  sado Cline (fun x => stralloc_cats x (lit [CR; LF])) ;;;
  sado Cline stralloc_0 ;;;
  putsflush_of SSout Cline.

(** 697-753 *)
Definition smtp_rcpt : M unit :=
  rcpt_record ;;;
  mf <- the Mailfrom ;; rt <- the Rcptto ;;
  msg <- (if negb (slen mf =? 0) && negb (slen rt =? 0) && negb (greyfd c =? -1) then greylist else mret None) ;;
  match msg with
  | Some m =>
    say m ;;;
    logs Line ;;; logs Cline ;;; logs Mailfrom ;;; logs Rcptto
  | None =>
    code <- copy true ;;
    if negb (code =? 250) then logs Mailfrom ;;; logs Rcptto ;;; logs Cline else mret tt
  end.

(** 758-767 *)
Definition smtp_ehlo : M unit :=
  putsflush_of SScout Line ;;;
  ready <- control_ready ;;
  (if (ready : bool) then smtpline (lit (bs "250 STARTTLS" ++ [CR; LF])) false else smtpline None false) ;;;
  putsflush_of SSout Cline ;;;
  logs Line ;;; logs Cline.

(** 797: ssout5 has no storage *)
Definition raise5 : M unit :=
  fun s => '(_, _) <! oputflush write_ (mkbuf [] 0 0 5) [0] 1 ;; Ret (Go (s, tt)).
(** 803: ssin6 has no storage; ack is 1 before *)
Definition wait6 : M bool :=
  fun s => '(r, _, b, _) <! oget read_ (mkbuf [] 0 0 6) 1 ;;
           Ret (Go (s, (r =? 1) && (match b with x :: _ => x =? 0 | [] => false end))).
(** 777-809 *)
Definition smtp_starttls : M unit :=
  ready <- control_ready ;;
  if negb ready then
    say (bs "502 unimplemented (#5.5.1)") ;;;
    logs Line ;;; logs Cline
  else
    say (bs "220 ready to start TLS (#2.0.0)") ;;;
    raise5 ;;;
    msys (Close 5) ;;;
    logs Line ;;; logs Cline ;;;
    discard_starttls_cleartext ;;;
    ok <- wait6 ;;
    if negb ok then mdie 111
    else
      msys (Close 6) ;;;
      putsflush SScout (bs "RSET" ++ [CR; LF; 0]) ;;;
      smtpline None true ;;;
      reset_transaction.

(** 812-820 *)
Definition smtpcommands : list (list Z * M unit) :=
  [(bs "quit", smtp_quit); (bs "data", smtp_data); (bs "mail", smtp_mail); (bs "rcpt", smtp_rcpt);
   (bs "ehlo", smtp_ehlo); (bs "starttls", smtp_starttls)].
(** 571-573 *)
Fixpoint find_command (p : list Z) (n : Z) (l : list (list Z * M unit)) : res (M unit) :=
  match l with
  | [] => Ok smtp_default
  | (verb, action) :: l =>
    bind (case_diffb p n (verb ++ [0])) (fun d => if d =? 0 then Ok action else find_command p n l)
  end.
(** 565-569 *)
Fixpoint verb_len (f : nat) (p : list Z) (n i : Z) : res Z :=
  match f with
  | O => Ok i
  | S f =>
    if i <? n then
      bind (ld p (Z.to_nat i)) (fun b => if (b =? SP) || (b =? CR) || (b =? LF) then Ok i else verb_len f p n (i + 1))
    else Ok i
  end.
(** 558-576 *)
Fixpoint commands (f : nat) : M unit :=
  match f with
  | O => fun s => Halt
  | S f =>
    readline ;;;
    x <- the Line ;; p <- mlift (ptr x) ;;
    n <- mlift (verb_len (Z.to_nat (slen x)) p (slen x) 0) ;;
    action <- mlift (find_command p n smtpcommands) ;;
    action ;;;
    commands f
  end.

(** 1019-1028 *)
Definition session : M unit := reset_transaction ;;; greet ;;; commands fuel.

(** Static storage, 231-248, 345, and the buffers set up in 953-954. *)
Definition st0 : st :=
  mkst (fun n => match n with
                 | SSin => buffer_init 0 (repeat 0 (Z.to_nat 8192)) 8192
                 | SSout => buffer_init 1 (repeat 0 (Z.to_nat 128)) 128
                 | SScin => buffer_init (fromfd c) (repeat 0 (Z.to_nat 128)) 128
                 | SScout => buffer_init (tofd c) (repeat 0 (Z.to_nat 8192)) 8192
                 end)
       (fun _ => sa_empty) 0.
(** The whole session; the result is the exit status. *)
Definition smtp : prog Z :=
  r <~ session st0 ;;
  match r with Exit x => Ret x | Go _ => Ret 111 end.
End Smtp.
