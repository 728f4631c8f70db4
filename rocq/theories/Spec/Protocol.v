(** The dialogue between the network process and the key process: what a request is made
    of, what work it causes, what the replies are. *)
From Verif.Model Require Import Base Sys Framed Jail.
From Verif.Spec Require Import Stream Text PemFile Curve.

(** ** Requests *)

(** The phases of the dialogue; a number is the length of a public point. *)
Inductive phase : Type := Naming | Curve | Signing (n : Z) | Peer (n : Z) | Serving.

(** What follows the messages [acc] of a request: another message, nothing (the request is
    complete), or the request is malformed. *)
Inductive want : Type := More (r : reader) | Done | Stop.
Definition shape (ph : phase) (acc : list (list Z)) : want :=
  match ph with
  | Naming => match acc with [] => More (Upto 1024) | _ => Done end
  | Curve => match acc with [] => More (Exact 1) | _ => Done end
  | Signing _ => match acc with
                 | [] => More (Exact 1)
                 | [_] => More (Exact 8)
                 | [_; mx] => if leval mx <=? 2048 then More (Upto (leval mx)) else Stop
                 | _ => Done
                 end
  | Peer n => match acc with
              | [] => More (Exact n)
              | [_] => More (Exact 32)
              | [_; _] => More (Exact 2)
              | [_; _; _] => More (Exact 2)
              | [_; _; _; _] => More (Exact 32)
              | [_; _; _; _; _] => More (Exact 32)
              | _ => Done
              end
  | Serving => match acc with
               | [] => More (Exact 1)
               | ty :: acc =>
                   if leval ty =? 0 then
                     match acc with
                     | [] => More (Exact 16)
                     | [_] => More (Exact 8)
                     | [_; n] => if leval n <=? 48 then More (Upto (leval n)) else Stop
                     | _ => Done
                     end
                   else if (leval ty =? 1) || (leval ty =? 2) then
                     match acc with
                     | [] => More (Exact 4)
                     | [_] => More (Exact 4)
                     | [_; _] => More (Upto 16709)
                     | _ => Done
                     end
                   else Stop
               end
  end.

(** Messages a reader takes. *)
Definition fits (r : reader) (m : list Z) : Prop :=
  match r with Exact n => len m = n | Upto n => len m <= n | Fresh => True end.

(** ** Work and replies *)

(** The bytes before the first NUL byte. *)
Fixpoint upto0 (l : list Z) : list Z :=
  match l with [] => [] | b :: t => if b =? 0 then [] else b :: upto0 t end.
(** The file a request names: its last byte is taken for the terminator. *)
Definition filename (m : list Z) : list Z := sanitized (upto0 (removelast m)).

(** System calls around reading one file [f] through descriptor [fd]. *)
Definition filecall (f : list Z) (c : sys) : Prop :=
  match c with
  | Read fd _ | Close fd => 2 < fd
  | Alloc _ => True
  | Other n args d => (n = bs "open_read" /\ args = [] /\ d = f) \/ In n [bs "fstat"; bs "alloc_free"; bs "randombytes"; bs "errno"]
  | _ => False
  end.
(** A file with these bytes was opened and read. *)
Definition fileread (f content : list Z) (t : trace) : Prop :=
  exists a, In (Other (bs "open_read") [] f, a) t /\ 2 < ret a /\ got (ret a) t = content.

Definition wipecall (c : sys) : Prop := match c with Other n _ _ => n = bs "randombytes" \/ n = bs "alloc_free" | _ => False end.
Definition signcall (c : sys) : Prop := match c with Other n _ _ => In n [bs "randombytes"; bs "alloc_free"; bs "seccrt_parse"; bs "do_sign"] | _ => False end.

Definition suites_prf : list (Z * Z) :=
  [(0xCCA9, 4); (0xCCA8, 4); (0xC02C, 5); (0xC030, 5); (0xC02B, 4); (0xC02F, 4); (0xC024, 5); (0xC028, 5);
   (0xC023, 4); (0xC027, 4); (0xC00A, 2); (0xC014, 2); (0xC009, 2); (0xC013, 2)].

(** The first [n] bytes an outside routine delivered, missing ones being 0. *)
Definition delivered (n : Z) (x : list Z) (y : list Z) : Prop :=
  len y = n /\ forall i, (i < length y)%nat -> nth i y 0 = u8 (nth i x 0).

Section WORK.
(** no jail wanted; the account and the directory of the jail *)
Variables (nojail : bool) (account dir : option (list Z)).

(** [work ph acc t ws ph']: the complete request [acc] caused the calls [t]; [ws] are the
    replies as they go over the pipe. *)
Inductive work : phase -> list (list Z) -> trace -> list (list Z) -> phase -> Prop :=
| w_file m t content ls P S : m <> [] -> Forall (fun e => filecall (filename m) (fst e)) t ->
    fileread (filename m) content t -> lines (content ++ [10]) ls -> split (kept ls) P S -> len (text P) < 2 ^ 63 ->
    work Naming [m] t [frame (text P)] Naming
| w_nofile m t e : m <> [] -> Forall (fun e => filecall (filename m) (fst e)) t ->
    0 <= e < 2 ^ 31 -> (exists a, In (Other (bs "errno") [] [], a) t /\ ret a = e) ->
    work Naming [m] t [le 8 ((- e) mod 2 ^ 64)] Naming
| w_nojail : nojail = true -> work Naming [[]] [] [] Curve
| w_jail t r lim : nojail = false -> runs (jail account dir true) t (Fin (r, lim)) -> r <> -1 -> work Naming [[]] t [] Curve
| w_gen c n x s r a p : sizes (leval c) = Some (len s, n, x) -> valid_scalar (leval c) s ->
    ret a = n -> delivered n (data a) p ->
    work Curve [c] [(Other (bs "randombytes") [66] [], r); (Other (bs "mulgen") [leval c] s, a)] [frame p] (Signing n)
| w_sign n h mx d t kt b g : Forall (fun e => signcall (fst e)) t -> In (Other (bs "do_sign") [kt; leval h] d, b) t ->
    ret b <= 2048 -> delivered (ret b) (data b) g -> work (Signing n) [h; mx; d] t [frame g] (Peer n)
| w_nosign n h mx d t : Forall (fun e => signcall (fst e)) t ->
    work (Signing n) [h; mx; d] t [frame []] (Peer n)
| w_peer n p sid ver cs cr sr prf a1 a2 a3 a4 c s m shared : In (leval cs, prf) suites_prf -> sizes c = Some (len s, n, m) ->
    ret a1 <> 0 -> len shared = m ->
    work (Peer n) [p; sid; ver; cs; cr; sr]
      [(Other (bs "mul") (c :: s) p, a1); (Other (bs "randombytes") [66] [], a2);
       (Other (bs "derive") [leval cs; prf] shared, a3); (Other (bs "randombytes") [133] [], a4)] [] Serving
| w_prf ty label n seed prf a p : leval ty = 0 -> In 0 label -> delivered 12 (data a) p ->
    work Serving [ty; label; n; seed] [(Other (bs "prf") [prf; len (upto0 label)] (upto0 label ++ seed), a)] [frame p] Serving
| w_undec ty rt ver m a : leval ty = 1 -> ret a = 0 ->
    work Serving [ty; rt; ver; m] [(Other (bs "decrypt") [leval rt; leval ver] m, a)] [frame [0]; frame []] Serving
| w_dec ty rt ver m a off p : leval ty = 1 -> ret a <> 0 -> off = nth 0 (data a) 0 -> -64 <= off <= 64 -> p = map u8 (skipn 1 (data a)) -> len p <= 16774 ->
    work Serving [ty; rt; ver; m] [(Other (bs "decrypt") [leval rt; leval ver] m, a)] [frame [off mod 256]; frame p] Serving
| w_enc ty rt ver m a off p : leval ty = 2 -> ret a <> 0 -> off = nth 0 (data a) 0 -> -64 <= off <= 64 -> p = map u8 (skipn 1 (data a)) -> len p <= 16774 ->
    work Serving [ty; rt; ver; m] [(Other (bs "encrypt") [leval rt; leval ver] m, a)] [frame [off mod 256]; frame p] Serving.

(** Calls during work that does not lead to a reply. *)
Definition vaincall (ph : phase) (acc : list (list Z)) (c : sys) : Prop :=
  match ph, acc with
  | Naming, [m] => m <> [] /\ filecall (filename m) c
  | Curve, [x] => c = Other (bs "randombytes") [66] [] \/ wipecall c \/ exists s, c = Other (bs "mulgen") [leval x] s
  | Signing _, _ => signcall c
  | Peer _, _ => wipecall c \/ (exists x p, c = Other (bs "mul") x p) \/ exists x p, c = Other (bs "derive") x p
  | Serving, [ty; rt; ver; m] => wipecall c \/ c = Other (bs "decrypt") [leval rt; leval ver] m \/ c = Other (bs "encrypt") [leval rt; leval ver] m
  | _, _ => wipecall c
  end.

(** ** The whole dialogue *)

(** One request with its messages and its replies on the wire. *)
Definition exchange : Type := (list (list Z) * list (list Z))%type.

Definition readcall (c : sys) : Prop := exists n, c = Read 0 n.
Definition writecall (c : sys) : Prop := (exists b, c = Write 1 b) \/ c = Poll [(1, 4)] (-1).
Definition checkcall (c : sys) : Prop := c = Other (bs "getppid") [] [].
(** Every read is made while the message is not complete. *)
Definition needed (t : trace) : Prop := forall u e v, t = u ++ e :: v -> forall m x, len m < 2 ^ 63 -> got 0 u <> frame m ++ x.

(** [dialogue ph acc tr log o]: after the messages [acc] of a request in phase [ph], the
    calls [tr] and the outcome [o] follow the protocol; [log] are the requests served, with
    their replies, of which the last ones may not have been written completely. *)
Inductive dialogue : phase -> list (list Z) -> trace -> list exchange -> outcome unit -> Prop :=
(** before a request the parent may be checked *)
| d_check ph a t log o : dialogue ph [] t log o -> dialogue ph [] ((Other (bs "getppid") [] [], a) :: t) log o
(** one more message *)
| d_message ph acc r m t t' log o : shape ph acc = More r -> fits r m -> bytes m -> got 0 t = frame m -> Forall (fun e => readcall (fst e)) t -> needed t ->
    dialogue ph (acc ++ [m]) t' log o -> dialogue ph acc (t ++ t') log o
(** no acceptable message arrives: nothing is done *)
| d_stall ph acc r t t' o : shape ph acc = More r -> Forall (fun e => readcall (fst e)) t -> Forall (fun e => wipecall (fst e)) t' -> o <> Wrong ->
    (o = Fin tt -> forall m, fits r m -> got 0 t <> frame m) -> needed t -> dialogue ph acc (t ++ t') [] o
(** a malformed request: nothing is done *)
| d_refuse ph acc t o : shape ph acc = Stop -> Forall (fun e => wipecall (fst e)) t -> o <> Wrong -> dialogue ph acc t [] o
(** work, replies *)
| d_exchange ph acc t ws ph' t1 t2 log o : shape ph acc = Done -> work ph acc t ws ph' ->
    sent 1 t1 = concat ws -> Forall (fun e => writecall (fst e)) t1 ->
    dialogue ph' [] t2 log o -> dialogue ph acc (t ++ t1 ++ t2) ((acc, ws) :: log) o
(** not all of the replies could be written *)
| d_unsaid ph acc t ws ph' t1 t2 o : shape ph acc = Done -> work ph acc t ws ph' -> is_prefix (sent 1 t1) (concat ws) ->
    Forall (fun e => writecall (fst e)) t1 -> Forall (fun e => wipecall (fst e)) t2 -> o <> Wrong -> dialogue ph acc (t ++ t1 ++ t2) [(acc, ws)] o
(** work without success *)
| d_vain ph acc t o : shape ph acc = Done -> Forall (fun e => vaincall ph acc (fst e)) t -> o <> Wrong -> dialogue ph acc t [] o
(** the jail fails *)
| d_unjailed t t' oj o : nojail = false -> runs (jail account dir true) t oj -> (forall r l, oj = Fin (r, l) -> r = -1) ->
    Forall (fun e => wipecall (fst e)) t' -> o <> Wrong -> dialogue Naming [[]] (t ++ t') [] o
(** a label without terminator *)
| d_wrong ty label n seed : leval ty = 0 -> ~ In 0 label -> dialogue Serving [ty; label; n; seed] [] [] Wrong.
End WORK.

(** ** Order of the calls *)

(** A name without "/." and "//". *)
Definition clean (f : list Z) : Prop := ~ adjacent 47 46 f /\ ~ adjacent 47 47 f.
Definition serves (c : sys) : Prop := readcall c \/ writecall c \/ checkcall c.
Definition before (c : sys) : Prop := serves c \/ exists f, filecall f c /\ clean f.
Definition keyops : list (list Z) :=
  [bs "mulgen"; bs "seccrt_parse"; bs "do_sign"; bs "mul"; bs "derive"; bs "prf"; bs "decrypt"; bs "encrypt"].
Definition keyop (c : sys) : Prop := match c with Other n _ _ => In n keyops | _ => False end.
Definition after (c : sys) : Prop := serves c \/ wipecall c \/ keyop c.

(** ** Where replies come from *)
Inductive origin (tr : trace) : list Z -> Prop :=
| o_certificate f content x t y ls P S : tr = x ++ t ++ y -> fileread f content t -> lines (content ++ [10]) ls -> split (kept ls) P S ->
    origin tr (frame (text P))
| o_errno a : In (Other (bs "errno") [] [], a) tr -> 0 <= ret a < 2 ^ 31 -> origin tr (le 8 ((- ret a) mod 2 ^ 64))
| o_point c s a p : In (Other (bs "mulgen") [c] s, a) tr -> delivered (ret a) (data a) p -> origin tr (frame p)
| o_signature kt h d a g : In (Other (bs "do_sign") [kt; h] d, a) tr -> delivered (ret a) (data a) g -> origin tr (frame g)
| o_prf x y a p : In (Other (bs "prf") x y, a) tr -> delivered 12 (data a) p -> origin tr (frame p)
| o_record n x y a : n = bs "decrypt" \/ n = bs "encrypt" -> In (Other n x y, a) tr -> ret a <> 0 -> origin tr (frame (map u8 (skipn 1 (data a))))
| o_offset n x y a : n = bs "decrypt" \/ n = bs "encrypt" -> In (Other n x y, a) tr -> ret a <> 0 -> origin tr (frame [nth 0 (data a) 0 mod 256])
| o_nothing : origin tr (frame [])
| o_zero : origin tr (frame [0]).

Definition frames (ms : list (list Z)) : list Z := concat (map frame ms).
