(** What a log record looks like, stated without reference to the implementation. *)
From Verif.Model Require Import Base Sys.
From Verif.Spec Require Import Num Grow.

Definition printable (c : Z) : Prop := 32 <= c <= 126.

(** Lower-case hexadecimal digit of a value below 16. *)
Definition hexof (v : Z) : Z := if v <? 10 then 48 + v else 87 + v.
(** Two digits of a byte. *)
Definition hex2 (b : Z) : list Z := [hexof (b / 16); hexof (b mod 16)].

(** How a byte is shown; [lf] tells whether newlines are kept. *)
Definition shown (lf : bool) (b : Z) : list Z :=
  match b with
  | 10 => if lf then [10] else bs "\n"
  | 13 => bs "\r"
  | 9 => bs "\t"
  | _ => if (32 <=? b) && (b <=? 126) then [b] else bs "\x" ++ hex2 b
  end.
Definition shows (lf : bool) (s : list Z) : list Z := flat_map (shown lf) s.

(** Decimal text of a number, zero padded to a total width (sign included). *)
Definition widenum (v width : Z) (t : list Z) : Prop :=
  (0 <= v /\ padded v width t) \/ (v < 0 /\ exists u, t = 45 :: u /\ padded (- v) (width - 1) u).

(** Date and time of day: year, month (0-11), day, hour, minute, second, microsecond. *)
Definition timetext (d : list Z) (t : list Z) : Prop :=
  exists y m dd h mi s u ty tm td th tmi ts tu,
  d = [y; m; dd; h; mi; s; u] /\
  widenum (y + 1900) 4 ty /\ widenum (m + 1) 2 tm /\ widenum dd 2 td /\ widenum h 2 th /\ widenum mi 2 tmi /\
  widenum s 2 ts /\ widenum u 6 tu /\
  t = ty ++ bs "-" ++ tm ++ bs "-" ++ td ++ bs " " ++ th ++ bs ":" ++ tmi ++ bs ":" ++ ts ++ bs "." ++ tu ++ bs ": ".

Definition levelword (level flagerror : Z) (w : list Z) : Prop :=
  (level = 1 /\ flagerror = 2 /\ w = bs "bug") \/
  (level = 1 /\ flagerror <> 2 /\ w = bs "fatal") \/
  (level = 2 /\ flagerror = 1 /\ w = bs "error") \/
  (level = 2 /\ flagerror = 2 /\ w = bs "warning") \/
  (level = 2 /\ flagerror <> 1 /\ flagerror <> 2 /\ w = bs "info") \/
  (level = 3 /\ w = bs "debug") \/
  (level = 4 /\ w = bs "tracing").

(** Fragments of a message up to the first missing one. *)
Fixpoint upto (l : list (option (list Z))) : list Z :=
  match l with
  | Some x :: l' => x ++ upto l'
  | _ => []
  end.

(** An optional part followed by a colon and a space. *)
Definition part (p : option (list Z)) : list Z :=
  match p with Some x => shows false x ++ bs ": " | None => [] end.

(** The body of a record of level 1 to 4:
    time: name: level: ip: message (error){file:function:line}[id].
    [tm]: broken-down time if shown; [er]: error text if shown; [wh]: source location
    if shown; [id]: identifier. *)
Definition record (level flagerror : Z) (tm : option (list Z)) (name ip : option (list Z))
    (msg : list Z) (er : option (list Z)) (wh : option (list Z * list Z * Z)) (id : list Z) (r : list Z) : Prop :=
  exists ttext lword where_,
  match tm with Some d => timetext d ttext | None => ttext = [] end /\
  levelword level flagerror lword /\
  match wh with
  | Some (f, g, l) => exists n, widenum l 0 n /\ where_ = bs "{" ++ shows true f ++ bs ":" ++ shows true g ++ bs ":" ++ n ++ bs "}"
  | None => where_ = []
  end /\
  let suffix := match er with Some e => bs "(" ++ shows true e ++ bs ")" | None => [] end ++ where_ ++
                match id with [] => [] | _ => bs "[" ++ shows false id ++ bs "]" end in
  r = ttext ++ part name ++ lword ++ bs ": " ++ part ip ++ shows false msg ++
      match suffix with [] => [] | _ => bs " " ++ suffix end.

(** Terminal colour of a level; other levels have none. *)
Definition tint (level flagerror : Z) (t : list Z) : Prop :=
  (level = 1 /\ flagerror = 2 /\ t = bs "[95m") \/
  (level = 1 /\ flagerror <> 2 /\ t = bs "[91m") \/
  (level = 2 /\ flagerror = 1 /\ t = bs "[31m") \/
  (level = 2 /\ flagerror = 2 /\ t = bs "[93m") \/
  (level = 2 /\ flagerror <> 1 /\ flagerror <> 2 /\ t = bs "[34m").
(** The bytes written for a record body. *)
Definition line (color : bool) (level flagerror : Z) (body out : list Z) : Prop :=
  if color && (level <? 3) then exists t, tint level flagerror t /\ out = 27 :: t ++ body ++ 27 :: bs "[0m" ++ [10]
  else out = body ++ [10].

(** [a] is obtained from [b] by leaving out bytes. *)
Inductive sub : list Z -> list Z -> Prop :=
| sub_nil b : sub [] b
| sub_keep x a b : sub a b -> sub (x :: a) (x :: b)
| sub_skip x a b : sub a b -> sub a (x :: b).

(** ** Inputs of a record *)
(** A pointer to a C string with a given content. *)
Definition cstr (p s : list Z) : Prop := exists rest, p = s ++ 0 :: rest /\ nonul s.
Definition ocstr (p s : option (list Z)) : Prop :=
  match p, s with Some p, Some s => cstr p s | None, None => True | _, _ => False end.

(** Which optional parts a record shows. *)
Definition err_shown (level fe e : Z) : bool := negb (e =? 0) && negb (fe =? 0) && (level <? 3).
Definition where_shown (clvl l : Z) (f g : option (list Z)) : option (list Z * list Z * Z) :=
  match f, g with Some f, Some g => if negb (l =? 0) && negb (clvl <=? 2) then Some (f, g, l) else None | _, _ => None end.
Definition id_shown (clvl : Z) (i : option (list Z)) : list Z :=
  match i with Some i => if negb (clvl <=? 1) then i else [] | None => [] end.


(** ** The environment *)
(** Answers of the clock (the only other service used while logging) in a trace. *)
Fixpoint clocks (tr : trace) : list ans :=
  match tr with
  | [] => []
  | (Other _ _ _, a) :: t => a :: clocks t
  | _ :: t => clocks t
  end.
(** The time shown: none when the conversion to local time failed. *)
Definition clocktime (l : list ans) : option (list Z) :=
  match l with a :: _ => if ret a =? 0 then None else Some (data a) | [] => None end.
(** A failed conversion, or seven values in the range of int. *)
Definition tm_ok (a : ans) : Prop :=
  ret a = 0 \/ (length (data a) = 7%nat /\ Forall (fun v => 0 <= v < 2 ^ 31 - 1901) (data a)).

(** No write to standard error is given up. *)
Definition smooth1 (e : event) : Prop :=
  match e with
  | (Write 2 _, a) => 0 < ret a \/ (ret a = -1 /\ err a = EINTR)
  | _ => True
  end.
Definition smooth (tr : trace) : Prop := Forall smooth1 tr.

(** Whether a record of a level is wanted: level not above the configured one, and a
    tracing record only from a file matching the whitelist (if there is one). *)
Definition wanted (clevel : Z) (white : list (list Z)) (level : Z) (file : option (list Z)) : Prop :=
  level <= clevel /\
  (level < 4 \/ white = [] \/ file = None \/
   exists n f u, In n white /\ file = Some f /\ f = n ++ u).

(** ** Short texts *)
(** At most 64 bytes, otherwise the first 64 and three dots. *)
Definition short (s : list Z) : list Z := if len s <=? 64 then s else firstn 64 s ++ bs "...".

(** Hexadecimal text of a byte string; at most 32 bytes of it and three dots. *)
Definition hexs (y : list Z) : list Z := flat_map hex2 y.
Definition hexshort (y : list Z) : list Z := if len y <=? 32 then hexs y else hexs (firstn 32 y) ++ bs "...".

(** Formatting requests: string, number of a width, port, byte string of a length;
    pointers, [None] for NULL. *)
Inductive fop : Type :=
| FStr (s : option (list Z)) | FNum (n cnt : Z) | FPort (p : option (list Z)) | FHex (y : option (list Z)) (n : Z).
(** Valid arguments. *)
Definition fwf (o : fop) : Prop :=
  match o with
  | FStr (Some p) => exists s, cstr p s
  | FNum n _ => in_s64 n
  | FPort (Some p) => exists p0 p1 more, p = p0 :: p1 :: more /\ is_byte p0 /\ is_byte p1
  | FHex (Some y) n => bytes y /\ n <= len y
  | _ => True
  end.
(** The text a request stands for. *)
Definition fspec (o : fop) (t : list Z) : Prop :=
  match o with
  | FStr (Some p) => exists s rest, p = s ++ 0 :: rest /\ nonul s /\ t = short s
  | FNum n cnt => widenum n (Z.min cnt 67) t
  | FPort (Some p) => exists p0 p1 more, p = p0 :: p1 :: more /\ widenum (256 * p0 + p1) (Z.min 0 67) t
  | FHex (Some y) n => exists x, (0 < n /\ len x = n /\ (exists more, y = x ++ more) \/ n <= 0 /\ x = []) /\ t = hexshort x
  | _ => t = bs "(null)"
  end.
