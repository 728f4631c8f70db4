(** Model of log.c: record output, number, hex and string formatting, log id. *)
From Verif.Model Require Import Base Sys Stralloc.

Definition STATICBUFSIZE : Z := 68.

(** log.c:210-211: static char buf[256]; static long long buflen *)
Record lbuf : Type := mklb { lb : list Z; lblen : Z }.

(** log.c:226-239: the write loop; [b] is the rest of the buffered bytes.
    EWOULDBLOCK = EAGAIN on Linux. *)
Fixpoint flushloop (fuel : nat) (b : list Z) (retries : Z) : prog unit :=
  match fuel with
  | O => Halt
  | S f =>
    if 0 <? len b then
      a <~ sys1 (Write 2 b) ;;
      if ret a <? 0 then
        if err a =? EINTR then flushloop f b retries
        else if err a =? EAGAIN then
          (if retries + 1 <? 64 then flushloop f b (retries + 1) else Ret tt)
        else Ret tt
      else if ret a =? 0 then Ret tt
      else flushloop f (skipn (Z.to_nat (ret a)) b) 0
    else Ret tt
  end.

(** log.c:220-241 *)
Definition flush (fuel : nat) (s : lbuf) : prog lbuf :=
  _ <~ flushloop fuel (firstn (Z.to_nat (lblen s)) (lb s)) 0 ;;
  Ret (mklb (lb s) 0).

(** log.c:250-253 *)
Definition outch (fuel : nat) (x : Z) (s : lbuf) : prog lbuf :=
  s <~ (if 256 <=? lblen s then flush fuel s else Ret s) ;;
  b <~ lift (st (lb s) (Z.to_nat (lblen s)) x) ;;
  Ret (mklb b (lblen s + 1)).

(** "0123456789abcdef"[i] *)
Definition hexdigit (i : Z) : res Z := ld (bs "0123456789abcdef" ++ [0]) (Z.to_nat i).

(** log.c:264-293 *)
Fixpoint outsescape (fuel : nat) (x : list Z) (flaglf : bool) (s : lbuf) : prog lbuf :=
  match x with
  | [] => Bad
  | c :: x' =>
    if c =? 0 then Ret s
    else
      s <~ (if c =? 10 then
              if flaglf then outch fuel 10 s
              else s <~ outch fuel 92 s ;; outch fuel 110 s
            else if c =? 13 then s <~ outch fuel 92 s ;; outch fuel 114 s
            else if c =? 9 then s <~ outch fuel 92 s ;; outch fuel 116 s
            else if (c <? 32) || (126 <? c) then
              s <~ outch fuel 92 s ;;
              s <~ outch fuel 120 s ;;
              h <~ lift (hexdigit (Z.land (Z.shiftr c 4) 15)) ;;
              s <~ outch fuel h s ;;
              l <~ lift (hexdigit (Z.land (Z.shiftr c 0) 15)) ;;
              outch fuel l s
            else outch fuel c s) ;;
      outsescape fuel x' flaglf s
  end.
(** log.c:294, for a string literal *)
Definition outs (fuel : nat) (t : list Z) (s : lbuf) : prog lbuf := outsescape fuel (t ++ [0]) true s.

(** log.c:323-326; a 64-bit number has at most 20 digits *)
Fixpoint nts_count (fuel : nat) (n1 l : Z) : res Z :=
  match fuel with
  | O => Fuel
  | S f => let n1 := n1 / 10 in if n1 =? 0 then Ok (l + 1) else nts_count f n1 (l + 1)
  end.

(** Stores through a pointer moving backwards: [*--p = c]; [p] is the offset in the buffer. *)
Definition putback (x : list Z) (p : nat) (c : Z) : res (list Z * nat) :=
  match p with
  | O => UB
  | S p' => x' <- st x p' c ;; Ok (x', p')
  end.
(** log.c:332-335 *)
Fixpoint nts_fill (fuel : nat) (x : list Z) (p : nat) (n2 : Z) : res (list Z * nat) :=
  match fuel with
  | O => Fuel
  | S f =>
    '(x, p) <- putback x p (48 + n2 mod 10) ;;
    let n2 := n2 / 10 in
    if n2 =? 0 then Ok (x, p) else nts_fill f x p n2
  end.
(** log.c:336-339; [k] is cnt - len *)
Fixpoint nts_pad (k : nat) (x : list Z) (p : nat) : res (list Z * nat) :=
  match k with
  | O => Ok (x, p)
  | S k' => '(x, p) <- putback x p 48 ;; nts_pad k' x p
  end.

(** log.c:307-343: returns the buffer and the offset of the text in it. *)
Definition numtostr (strbuf : list Z) (strbuflen n cnt : Z) : res (list Z * nat) :=
  let cnt := if strbuflen - 1 <? cnt then strbuflen - 1 else cnt in
  let n0 := if n <? 0 then u64 (- u64 n) else u64 n in
  l <- nts_count 20 n0 0 ;;
  let l := if n <? 0 then l + 1 else l in
  let p := Z.to_nat (l + (if l <? cnt then cnt - l else 0)) in
  x <- st strbuf p 0 ;;
  '(x, p) <- nts_fill 20 x p n0 ;;
  '(x, p) <- nts_pad (Z.to_nat (cnt - l)) x p ;;
  if n <? 0 then putback x p 45 else Ok (x, p).

(** log.c:351-355; numbuf is uninitialised in C, its content does not matter *)
Definition outnum (fuel : nat) (n cnt : Z) (s : lbuf) : prog lbuf :=
  '(x, p) <~ lift (numtostr (repeat 170 68) STATICBUFSIZE n cnt) ;;
  outsescape fuel (skipn p x) true s.

(** Configuration: log_level, whitelist, logname, logtime, logipstr, logid, logcolor
    (log.c:53,146-152); strings as pointers to NUL-terminated data. [estr] is e_str. *)
Record lconf : Type := mklc {
  clevel : Z; cwhite : list (list Z); cname : option (list Z); ctime : bool;
  cip : option (list Z); cid : option (list Z); ccolor : bool; cestr : Z -> list Z }.

(** memcmp(file, name, n) == 0; both objects hold at least n bytes or the read is UB *)
Fixpoint memeq (a b : list Z) (n : nat) : res bool :=
  match n with
  | O => Ok true
  | S n' => x <- deref a ;; y <- deref b ;; if x =? y then memeq (tl a) (tl b) n' else Ok false
  end.
(** strlen *)
Fixpoint cstrlen (p : list Z) : res Z :=
  match p with
  | [] => UB
  | c :: p' => if c =? 0 then Ok 0 else n <- cstrlen p' ;; Ok (n + 1)
  end.

(** log.c:135-139; a list entry is the stored name with its NUL *)
Fixpoint white_scan (w : list (list Z)) (file : list Z) (filelen : Z) : res bool :=
  match w with
  | [] => Ok false
  | nm :: w' =>
    let nlen := len nm - 1 in
    if filelen <? nlen then white_scan w' file filelen
    else b <- memeq file nm (Z.to_nat nlen) ;; if b then Ok true else white_scan w' file filelen
  end.
(** log.c:124-140 *)
Definition whitelist_match (w : list (list Z)) (file : option (list Z)) : res bool :=
  match w, file with
  | [], _ => Ok true
  | _, None => Ok true
  | _, Some f => n <- cstrlen f ;; white_scan w f n
  end.
(** log.c:68-92 (allocation succeeds) *)
Definition whitelist_add (w : list (list Z)) (name : list Z) : res (list (list Z)) :=
  n <- cstrlen name ;; Ok (firstn (Z.to_nat n + 1) name :: w).

(** log.c:396-430: name and colour of the level *)
Definition levelname (level flagerror : Z) : list Z * option (list Z) :=
  if level =? 1 then
    if flagerror =? 2 then (bs "bug", Some (bs "[95m")) else (bs "fatal", Some (bs "[91m"))
  else if level =? 2 then
    if flagerror =? 1 then (bs "error", Some (bs "[31m"))
    else if flagerror =? 2 then (bs "warning", Some (bs "[93m"))
    else (bs "info", Some (bs "[34m"))
  else if level =? 3 then (bs "debug", None)
  else if level =? 4 then (bs "tracing", None)
  else (bs "unknown", None).

(** gettimeofday + localtime, log.c:449-450: ret 0 when localtime fails; data are
    tm_year, tm_mon, tm_mday, tm_hour, tm_min, tm_sec, tv_usec *)
Definition Clock : sys := Other (bs "localtime") [] [].

(** log.c:455-468 *)
Definition outtime (fuel : nat) (d : list Z) (s : lbuf) : prog lbuf :=
  match d with
  | [year; mon; mday; hour; min; sec; usec] =>
    s <~ outnum fuel (year + 1900) 4 s ;;
    s <~ outs fuel (bs "-") s ;;
    s <~ outnum fuel (mon + 1) 2 s ;;
    s <~ outs fuel (bs "-") s ;;
    s <~ outnum fuel mday 2 s ;;
    s <~ outs fuel (bs " ") s ;;
    s <~ outnum fuel hour 2 s ;;
    s <~ outs fuel (bs ":") s ;;
    s <~ outnum fuel min 2 s ;;
    s <~ outs fuel (bs ":") s ;;
    s <~ outnum fuel sec 2 s ;;
    s <~ outs fuel (bs ".") s ;;
    s <~ outnum fuel usec 6 s ;;
    outs fuel (bs ": ") s
  | _ => Bad
  end.

(** log.c:495: for (i = 0; i < 9 && s[i]; ++i) *)
Fixpoint outfrags (n : nat) (fuel : nat) (l : list (option (list Z))) (flaglf : bool) (s : lbuf) : prog lbuf :=
  match n with
  | O => Ret s
  | S n' =>
    match l with
    | [] => Bad
    | None :: _ => Ret s
    | Some x :: l' => s <~ outsescape fuel x flaglf s ;; outfrags n' fuel l' flaglf s
    end
  end.

(** flagspace: emit the separating space once *)
Definition outspace (fuel : nat) (flagspace : bool) (s : lbuf) : prog lbuf :=
  if flagspace then Ret s else outs fuel (bs " ") s.

(** log.c:510-526; strings are pointers *)
Definition outwhere (fuel : nat) (f fce : list Z) (l : Z) (s : lbuf) : prog lbuf :=
  s <~ outs fuel (bs "{") s ;;
  s <~ outsescape fuel f true s ;;
  s <~ outs fuel (bs ":") s ;;
  s <~ outsescape fuel fce true s ;;
  s <~ outs fuel (bs ":") s ;;
  s <~ outnum fuel l 0 s ;;
  outs fuel (bs "}") s.

(** log.c:434-440 and 541-547: colour sequences *)
Definition outcolor (fuel : nat) (col : option (list Z)) (s : lbuf) : prog lbuf :=
  match col with
  | None => Ret s
  | Some t => s <~ outch fuel 27 s ;; outs fuel t s
  end.
Definition reset (col : option (list Z)) : option (list Z) :=
  match col with Some _ => Some (bs "[0m") | None => None end.
(** log.c:471-477 and 486-492 *)
Definition outpart (fuel : nat) (p : option (list Z)) (s : lbuf) : prog lbuf :=
  match p with
  | None => Ret s
  | Some n => s <~ outsescape fuel n false s ;; outs fuel (bs ": ") s
  end.
(** log.c:497-508 *)
Definition outerr (fuel : nat) (show : bool) (e : list Z) (s : lbuf) : prog lbuf :=
  if show then
    s <~ outspace fuel false s ;;
    s <~ outs fuel (bs "(") s ;;
    s <~ outsescape fuel e true s ;;
    outs fuel (bs ")") s
  else Ret s.
(** log.c:528-539 *)
Definition outid (fuel : nat) (id : option (list Z)) (sp : bool) (s : lbuf) : prog lbuf :=
  match id with
  | None => Ret s
  | Some i =>
    i0 <~ lift (deref i) ;;
    if i0 =? 0 then Ret s else
    s <~ outspace fuel sp s ;;
    s <~ outs fuel (bs "[") s ;;
    s <~ outsescape fuel i false s ;;
    outs fuel (bs "]") s
  end.

(** log.c:471-549: everything after the time; [lv] is level != 0.  flagspace is set
    exactly when an earlier suffix was printed. *)
Definition log_rest (fuel : nat) (c : lconf) (level flagerror : Z) (lv : bool) (lname : list Z) (col : option (list Z))
    (f : option (list Z)) (l : Z) (fce : option (list Z)) (frags : list (option (list Z))) (saved_errno : Z) (s : lbuf) : prog lbuf :=
  s <~ outpart fuel (if lv then cname c else None) s ;;
  s <~ (if lv then s <~ outs fuel lname s ;; outs fuel (bs ": ") s else Ret s) ;;
  s <~ outpart fuel (if lv then cip c else None) s ;;
  s <~ outfrags 9 fuel frags (negb lv) s ;;
  let showerr := lv && negb (saved_errno =? 0) && negb (flagerror =? 0) && (level <? 3) in
  s <~ outerr fuel showerr (cestr c saved_errno) s ;;
  let wh := match f, fce with
            | Some f', Some fce' => if lv && negb (l =? 0) && negb (clevel c <=? 2) then Some (f', fce') else None
            | _, _ => None
            end in
  s <~ match wh with
       | Some (f', fce') => s <~ outspace fuel showerr s ;; outwhere fuel f' fce' l s
       | None => Ret s
       end ;;
  let sp := showerr || match wh with Some _ => true | None => false end in
  s <~ outid fuel (if lv && negb (clevel c <=? 1) then cid c else None) sp s ;;
  s <~ outcolor fuel (reset col) s ;;
  outs fuel [10] s.

(** log.c:372-553; [saved_errno] is errno at entry; [l] is the line as a long long.
    The final errno = saved_errno (551) is not represented: errno is not part of the
    state of the model. *)
Definition log_9_ (fuel : nat) (c : lconf) (level flagerror : Z) (f : option (list Z)) (l : Z)
    (fce : option (list Z)) (frags : list (option (list Z))) (saved_errno : Z) (s : lbuf) : prog lbuf :=
  if clevel c <? level then Ret s else
  shown <~ (if 4 <=? level then lift (whitelist_match (cwhite c) f) else Ret true) ;;
  if negb shown then Ret s else
  let '(lname, lcolor) := levelname level flagerror in
  let lv := negb (level =? 0) in
  let col := if ccolor c then lcolor else None in
  s <~ outcolor fuel col s ;;
  s <~ (if lv && ctime c then
          a <~ sys1 Clock ;;
          if ret a =? 0 then Ret s else outtime fuel (data a) s
        else Ret s) ;;
  s <~ log_rest fuel c level flagerror lv lname col f l fce frags saved_errno s ;;
  flush fuel s.

(** log.c:161-165, 174-181, 190-197 *)
Definition log_set_level (level : Z) : Z :=
  let x := level in
  let x := if level <? 0 then 0 else x in
  if 4 <? level then 4 else x.
Definition log_inc_level (level : Z) : Z := if level <? 4 then level + 1 else level.
Definition log_dec_level (level : Z) : Z := if 0 <? level then level - 1 else level.

(** log.c:555-556: nine rotating buffers *)
Record rot : Type := mkrot { rcount : nat; rslots : list (list Z) }.
(** staticbufcounter = (staticbufcounter + 1) % 9 *)
Definition rnext (r : rot) : nat := ((rcount r + 1) mod 9)%nat.
Definition rslot (r : rot) (i : nat) : res (list Z) :=
  match nth_error (rslots r) i with Some b => Ok b | None => UB end.
Definition rput (r : rot) (i : nat) (b : list Z) : rot := mkrot i (upd (rslots r) i b).
(** A returned pointer: slot and offset; the text it points to in a given state. *)
Definition ptr : Type := (nat * nat)%type.
Definition rtext (r : rot) (p : ptr) : list Z := skipn (snd p) (nth (fst p) (rslots r) []).

(** memcpy to the start of a buffer *)
Fixpoint stl (x : list Z) (i : nat) (l : list Z) : res (list Z) :=
  match l with
  | [] => Ok x
  | c :: l' => x <- st x i c ;; stl x (S i) l'
  end.

(** log.c:585-596 *)
Fixpoint log_str_loop (s : list Z) (i : nat) (x : list Z) : res (list Z) :=
  match s with
  | [] => UB
  | c :: s' =>
    if c =? 0 then st x i 0
    else if Z.of_nat i =? STATICBUFSIZE - 4 then stl x 64 [46; 46; 46; 0]
    else x <- st x i c ;; log_str_loop s' (S i) x
  end.
(** log.c:570-597 *)
Definition log_str (r : rot) (sv : option (list Z)) : res (rot * ptr) :=
  let i := rnext r in
  x <- rslot r i ;;
  x <- match sv with
       | None => stl x 0 (bs "(null)" ++ [0])
       | Some s => log_str_loop s 0 x
       end ;;
  Ok (rput r i x, (i, 0%nat)).

(** log.c:699-702, 713-716 *)
Definition log_num0 (r : rot) (n cnt : Z) : res (rot * ptr) :=
  let i := rnext r in
  x <- rslot r i ;;
  '(x, p) <- numtostr x STATICBUFSIZE n cnt ;;
  Ok (rput r i x, (i, p)).
Definition log_num (r : rot) (n : Z) : res (rot * ptr) := log_num0 r n 0.

(** log.c:642-650 *)
Definition log_port (r : rot) (port : option (list Z)) : res (rot * ptr) :=
  let i := rnext r in
  x <- rslot r i ;;
  match port with
  | None => x <- stl x 0 (bs "(null)" ++ [0]) ;; Ok (rput r i x, (i, 0%nat))
  | Some p =>
    p0 <- ld p 0 ;; p1 <- ld p 1 ;;
    '(x, o) <- numtostr x STATICBUFSIZE (Z.lor (Z.shiftl p0 8) p1) 0 ;;
    Ok (rput r i x, (i, o))
  end.

(** log.c:733-744; [n] is ylen - i *)
Fixpoint tohex_loop (n : nat) (x : list Z) (xlen : Z) (i : nat) (y : list Z) : res (list Z) :=
  match n with
  | O => st x (2 * i) 0
  | S n' =>
    if Z.of_nat i =? (xlen - 4) / 2 then stl x (2 * i) [46; 46; 46; 0]
    else
      c <- ld y i ;;
      h <- hexdigit (Z.land (Z.shiftr c 4) 15) ;;
      x <- st x (2 * i) h ;;
      l <- hexdigit (Z.land (Z.shiftr c 0) 15) ;;
      x <- st x (2 * i + 1) l ;;
      tohex_loop n' x xlen (S i) y
  end.
(** log.c:729-745 *)
Definition tohex (x : list Z) (xlen : Z) (y : list Z) (ylen : Z) : res (list Z) :=
  if xlen <=? 4 then Ok x else tohex_loop (Z.to_nat ylen) x xlen 0 y.
(** log.c:757-769 *)
Definition log_hex (r : rot) (y : option (list Z)) (ylen : Z) : res (rot * ptr) :=
  let i := rnext r in
  x <- rslot r i ;;
  x <- match y with
       | None => stl x 0 (bs "(null)" ++ [0])
       | Some y => if ylen <=? 0 then st x 0 0 else tohex x STATICBUFSIZE y ylen
       end ;;
  Ok (rput r i x, (i, 0%nat)).

(** log.c:805: copying id into logidbuf, [id] and [i] as in the loop; returns the buffer,
    the final i and the rest of id *)
Fixpoint setid_loop (id : list Z) (i : nat) (x : list Z) : res (list Z * nat * list Z) :=
  match id with
  | [] => UB
  | c :: id' =>
    if c =? 0 then Ok (x, i, id)
    else if Z.of_nat i <? STATICBUFSIZE - 1 then
      x <- st x i c ;; setid_loop id' (S i) x
    else Ok (x, i, id)
  end.
(** log.c:805-813 *)
Definition setid (id x : list Z) : res (list Z) :=
  '(x, i, rest) <- setid_loop id 0 x ;;
  x <- st x i 0 ;;
  c <- deref rest ;;
  if negb (c =? 0) then stl x 64 [46; 46; 46; 0] else Ok x.

Definition idchars : list Z := bs "abcdefghijklmnopqrstuvwxyzABCDEFGHIJKLMNOPQRSTUVWXYZ0123456789".
