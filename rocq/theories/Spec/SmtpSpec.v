(** What the SMTP front end does, in terms of lines, replies and questions.

    A session is a list of acts.  [does] ties an act to the system calls that perform it,
    [command] says what one client line leads to, [follows] is the resulting order of acts. *)
From Verif.Model Require Import Base Sys.
From Verif.Spec Require Import Text Stream.

(** ** Text *)

(** Drop one trailing byte [b]. *)
Definition chop (b : Z) (x : list Z) : list Z :=
  match rev x with y :: r => if y =? b then rev r else x | [] => [] end.
(** The command line kept for a client line [x] LF: NUL becomes LF, one CR at the end is
    dropped, CR LF is added. *)
Definition norm (x : list Z) : list Z := chop 13 (map (fun b => if b =? 0 then 10 else b) x) ++ [13; 10].
(** Bytes before the first one satisfying [f]. *)
Fixpoint until (f : Z -> bool) (x : list Z) : list Z :=
  match x with [] => [] | b :: t => if f b then [] else b :: until f t end.
Definition verb (y : list Z) : list Z := until (fun b => (b =? 32) || (b =? 13) || (b =? 10)) y.
(** What a C string function sees. *)
Definition shown (x : list Z) : list Z := until (Z.eqb 0) x.
(** [p] is the beginning of [x], ignoring case. *)
Definition begins (p x : list Z) : Prop := prefix (map lower p) (map lower x).
Definition beginsb (p x : list Z) : bool :=
  (length p <=? length x)%nat && forallb (fun '(a, b) => lower a =? lower b) (combine p x).
(** Envelope address of the line [y], whose keyword takes [n] bytes. *)
Definition addr (n : nat) (y : list Z) : list Z := until (Z.eqb 32) (chop 13 (chop 10 (skipn n y))).

Inductive kind : Type := Kquit | Kdata | Kmail | Krcpt | Kehlo | Kstarttls | Kother.
(** The first verb that the given (possibly shortened, possibly empty) verb abbreviates. *)
Definition kindof (y : list Z) : kind :=
  let w := verb y in
  if beginsb w (bs "quit") then Kquit
  else if beginsb w (bs "data") then Kdata
  else if beginsb w (bs "mail") then Kmail
  else if beginsb w (bs "rcpt") then Krcpt
  else if beginsb w (bs "ehlo") then Kehlo
  else if beginsb w (bs "starttls") then Kstarttls
  else Kother.

(** ** Replies of the program *)

(** Position in a reply: three bytes of code, the separator, the rest of a line. *)
Inductive pos : Type := P0 | P1 | P2 | P3 | More | Last | Done.
Definition next (p : pos) (b : Z) : pos :=
  match p with
  | P0 => P1 | P1 => P2 | P2 => P3
  | P3 => if b =? 45 then More else if b =? 10 then Done else Last
  | More => if b =? 10 then P0 else More
  | Last => if b =? 10 then Done else Last
  | Done => Done
  end.
(** A reply: [h] up to the code of the last line, [d] the separator, [t] the rest. *)
Definition reply (h : list Z) (d : Z) (t : list Z) : Prop :=
  fold_left next h P0 = P3 /\ d <> 45 /\
  ((d = 10 /\ t = []) \/ (d <> 10 /\ exists y, t = y ++ [10] /\ ~ In 10 y)).
Definition code (h : list Z) : Z :=
  match h with a :: b :: c :: _ => 100 * (a - 48) + 10 * (b - 48) + (c - 48) | _ => -1 end.
(** The reply with STARTTLS advertised. *)
Definition advert (h : list Z) (d : Z) (t : list Z) : list Z :=
  h ++ (if d =? 32 then 45 else d) :: t ++ bs "250 STARTTLS" ++ [13; 10].

(** ** Session *)

Record setting : Type := mkset {
  id : option (list Z);     (* log id *)
  ip : list Z;              (* address of the client *)
  policy : option Z;        (* descriptor of the policy server *)
  strict : bool;            (* fail closed *)
  offers : bool;            (* STARTTLS control descriptors present at start *)
  pid : Z;                  (* process id of the program, -1: none *)
  fromprog : Z;
  toprog : Z;
  patience : Z              (* seconds for a wait for input or output *)
}.
Record env : Type := mkenv { sender : option (list Z); rcpt : option (list Z); total : Z; count : Z }.
Definition env0 : env := mkenv None None 0 0.

Inductive plan : Type :=
| Loop (e : env)                              (* expect a command *)
| Body (e : env)                              (* expect a line of a message *)
| Give (b : list Z) (p : plan)                (* to the program, at once *)
| Queue (b : list Z) (p : plan)               (* to the program, through the buffer *)
| Tell (b : list Z) (p : plan)                (* to the client *)
| Reply (k : list Z -> Z -> list Z -> plan)   (* from the program *)
| Probe (k : bool -> plan)                    (* are the control descriptors there? *)
| Ask (q : list Z) (k : option (list Z) -> plan)
| Await (k : option (list Z) -> plan)
| Raise (p : plan)                            (* request TLS *)
| Drain (p : plan)                            (* throw away clear text *)
| Ack (p : plan)                              (* TLS is on *)
| Die
| Finish.

Inductive act : Type :=
| ALine (x : list Z)
| AFlood (x : list Z)
| AReply (h : list Z) (d : Z) (t : list Z)
| ARFlood (x : list Z)
| AGive (b : list Z)
| AQueue (b : list Z)
| ATell (b : list Z)
| AProbe (r : bool)
| AAsk (q : list Z)
| ANoAsk (q : list Z)
| AAnswer (r : list Z)
| AGFlood (x : list Z)
| ANoAnswer
| ARaise
| ADrain
| AAck (x : Z).

Section Session.
Variable s : setting.

Definition idtext : list Z := match id s with Some i => bs " [" ++ i ++ bs "]" | None => [] end.
Definition tag (r : list Z) : list Z :=
  match id s with Some _ => chop 13 (chop 10 r) ++ idtext ++ [13; 10] | None => r end.
Definition message (m : list Z) : list Z := m ++ idtext ++ [13; 10].
Definition request (f t : list Z) : list Z :=
  bs "request=smtpd_access_policy" ++ [10] ++ bs "client_address=" ++ ip s ++ [10] ++
  bs "sender=" ++ f ++ [10] ++ bs "recipient=" ++ t ++ [10; 10].

(** Forward the line [y], show the reply marked with the log id, go on. *)
Definition pass (y : list Z) (k : list Z -> plan) : plan :=
  Give y (Reply (fun h d t => Tell (shown (tag (h ++ d :: t))) (k h))).

Definition mail (y : list Z) : plan :=
  if beginsb (bs "mail from:") y then
    let a := addr 10 y in
    if 2048 <? len a then Die else pass y (fun _ => Loop (mkenv (Some a) None 0 0))
  else pass y (fun _ => Loop env0).

(** Envelope after a RCPT line; None: a limit is exceeded. *)
Definition rcptenv (e : env) (y : list Z) : option env :=
  if beginsb (bs "rcpt to:") y then
    let a := addr 8 y in
    if (2048 <? len a) || (256 <=? count e) || (65536 <? total e + len a + 1) then None
    else Some (mkenv (sender e) (Some a) (total e + len a + 1) (count e + 1))
  else Some e.
Definition verdict (r : list Z) : option (list Z) :=
  if beginsb (bs "action=dunno") r then None
  else if beginsb (bs "action=reject") r then Some (bs "553 bad reputation (#5.7.1)")
  else Some (bs "450 greylisted (#4.3.0)").
Definition rcptto (e : env) (y : list Z) : plan :=
  match rcptenv e y with
  | None => Die
  | Some e =>
    let forward := pass y (fun _ => Loop e) in
    match policy s, sender e, rcpt e with
    | Some _, Some f, Some t =>
      Ask (request f t) (fun r =>
        match r with
        | None => forward
        | Some r => match verdict r with None => forward | Some m => Tell (message m) (Loop e) end
        end)
    | _, _, _ => forward
    end
  end.

Definition command (e : env) (x : list Z) : plan :=
  let y := norm x in
  match kindof y with
  | Kquit => pass y (fun _ => Finish)
  | Kdata => pass y (fun h => if code h =? 354 then Body e else Loop e)
  | Kmail => mail y
  | Krcpt => rcptto e y
  | Kehlo =>
    Give y (Probe (fun r => Reply (fun h d t =>
      if r && (code h =? 250) then
        if 4096 <? len (h ++ d :: t) + 14 then Die else Tell (shown (advert h d t)) (Loop e)
      else Tell (shown (h ++ d :: t)) (Loop e))))
  | Kstarttls =>
    Probe (fun r =>
      if r then
        Tell (message (bs "220 ready to start TLS (#2.0.0)"))
          (Raise (Drain (Ack (Give (bs "RSET" ++ [13; 10]) (Reply (fun _ _ _ => Loop env0))))))
      else Tell (message (bs "502 unimplemented (#5.5.1)")) (Loop e))
  | Kother => Give y (Reply (fun h d t => Tell (shown (h ++ d :: t)) (Loop e)))
  end.
Definition dotted (x : list Z) : bool := match chop 13 (map (fun b => if b =? 0 then 10 else b) x) with [b] => b =? 46 | _ => false end.
Definition body (e : env) (x : list Z) : plan :=
  Queue (norm x)
    (if dotted x then Give [] (Reply (fun h d t => Tell (shown (tag (h ++ d :: t))) (Loop env0))) else Body e).
Definition start : plan := Reply (fun h d t => Tell (shown (tag (h ++ d :: t))) (Loop env0)).

Definition islong (x : list Z) : Prop := len x = 4097 /\ ~ In 10 x.
Inductive step : plan -> act -> plan -> Prop :=
| s_line : forall e x, len x <= 4096 -> ~ In 10 x -> step (Loop e) (ALine x) (command e x)
| s_body : forall e x, len x <= 4096 -> ~ In 10 x -> step (Body e) (ALine x) (body e x)
| s_lflood : forall e x, islong x -> step (Loop e) (AFlood x) Die
| s_bflood : forall e x, islong x -> step (Body e) (AFlood x) Die
| s_reply : forall k h d t, reply h d t -> len (h ++ d :: t) <= 4096 -> step (Reply k) (AReply h d t) (k h d t)
| s_rflood : forall k x, len x = 4097 -> fold_left next (firstn (Z.to_nat 4096) x) P0 <> Done -> step (Reply k) (ARFlood x) Die
| s_give : forall b p, step (Give b p) (AGive b) p
| s_queue : forall b p, step (Queue b p) (AQueue b) p
| s_tell : forall b p, step (Tell b p) (ATell b) p
| s_probe : forall k r, step (Probe k) (AProbe r) (k r)
| s_ask : forall q k, step (Ask q k) (AAsk q) (Await k)
| s_noask : forall q k, strict s = false -> step (Ask q k) (ANoAsk q) (k None)
| s_answer : forall k y, ~ In 10 y -> len y < 4096 -> step (Await k) (AAnswer (y ++ [10])) (k (Some (y ++ [10])))
| s_gflood : forall k y b, ~ In 10 y -> len y = 4096 -> step (Await k) (AGFlood (y ++ [b])) (k None)
| s_noanswer : forall k, strict s = false -> step (Await k) ANoAnswer (k None)
| s_raise : forall p, step (Raise p) ARaise p
| s_drain : forall p, step (Drain p) ADrain p
| s_ack : forall p, step (Ack p) (AAck 0) p
| s_nack : forall p x, x <> 0 -> step (Ack p) (AAck x) Die.
Inductive follows : plan -> list act -> plan -> Prop :=
| f_nil : forall p, follows p [] p
| f_cons : forall p a p1 l p2, step p a p1 -> follows p1 l p2 -> follows p (a :: l) p2.

(** ** System calls *)

(** Calls that are not input or output: clock, waiting, memory. *)
Definition noise (e : event) : bool :=
  match fst e with Time => true | Select _ _ _ _ => true | Alloc _ => true | _ => false end.
Definition core (tr : trace) : trace := filter (fun e => negb (noise e)) tr.
Definition rd (fd : Z) (e : event) : Prop := exists n a, e = (Read fd n, a).
Definition wr (fd : Z) (e : event) : Prop := exists b a, e = (Write fd b, a).
Definition svc (name : list Z) (args : list Z) (e : event) : Prop := exists a, e = (Other name args [], a).

(** Bytes read ahead from the client and the program, bytes queued for the program. *)
Record view : Type := mkview { cu : list Z; ku : list Z; kp : list Z }.
Definition view0 : view := mkview [] [] [].
Definition gfd : Z := match policy s with Some g => g | None => -1 end.

Definition does (a : act) (v : view) (t : trace) (v' : view) : Prop :=
  match a with
  | ALine x => Forall (rd 0) t /\ cu v ++ got 0 t = x ++ 10 :: cu v' /\ ku v' = ku v /\ kp v' = kp v
  | AFlood x => Forall (rd 0) t /\ cu v ++ got 0 t = x ++ cu v' /\ ku v' = ku v /\ kp v' = kp v
  | AReply h d r => Forall (rd (fromprog s)) t /\ ku v ++ got (fromprog s) t = (h ++ d :: r) ++ ku v' /\ cu v' = cu v /\ kp v' = kp v
  | ARFlood x => Forall (rd (fromprog s)) t /\ ku v ++ got (fromprog s) t = x ++ ku v' /\ cu v' = cu v /\ kp v' = kp v
  | AGive b => Forall (wr (toprog s)) t /\ sent (toprog s) t = kp v ++ b /\ kp v' = [] /\ cu v' = cu v /\ ku v' = ku v
  | AQueue b => Forall (wr (toprog s)) t /\ sent (toprog s) t ++ kp v' = kp v ++ b /\ cu v' = cu v /\ ku v' = ku v
  | ATell b => Forall (wr 1) t /\ sent 1 t = b /\ v' = v
  | AProbe r => v' = v /\
      ((t = [] /\ offers s = false /\ r = false) \/
       (offers s = true /\ exists a, t = [(Other (bs "fstat") [5] [], a)] /\ ret a <> 0 /\ r = false) \/
       (offers s = true /\ exists a a', t = [(Other (bs "fstat") [5] [], a); (Other (bs "fstat") [6] [], a')] /\ ret a = 0 /\
          r = (ret a' =? 0)))
  | AAsk q => Forall (wr gfd) t /\ sent gfd t = q /\ v' = v
  | ANoAsk q => Forall (wr gfd) t /\ is_prefix (sent gfd t) q /\ v' = v
  | AAnswer r => Forall (rd gfd) t /\ is_prefix r (got gfd t) /\ v' = v
  | AGFlood x => Forall (rd gfd) t /\ is_prefix x (got gfd t) /\ v' = v
  | ANoAnswer => Forall (rd gfd) t /\ v' = v
  | ARaise => (exists w a, t = w ++ [(Close 5, a)] /\ Forall (wr 5) w /\ sent 5 w = [0]) /\ v' = v
  | ADrain => (exists e1 w e2 n a, t = e1 :: w ++ [(Read 0 n, a); e2] /\ Forall (rd 0) w /\ 0 < n /\
        (ret a = 0 \/ (ret a = -1 /\ err a = EAGAIN)) /\
        svc (bs "fd_blocking_disable") [0] e1 /\ svc (bs "fd_blocking_enable") [0] e2) /\
      cu v' = [] /\ ku v' = ku v /\ kp v' = kp v
  | AAck x => (exists w, Forall (rd 6) w /\ got 6 w = [x] /\
        if x =? 0 then exists a, t = w ++ [(Close 6, a)] else t = w) /\ v' = v
  end.
Inductive story : view -> trace -> list act -> view -> Prop :=
| st_nil : forall v, story v [] [] v
| st_cons : forall v a t1 v1 l t2 v2, does a v t1 v1 -> story v1 t2 l v2 -> story v (t1 ++ t2) (a :: l) v2.

(** Calls of an act that [p] allows and that was not completed. *)
Definition partial (p : plan) (v : view) (t : trace) : Prop :=
  match p with
  | Loop _ | Body _ => Forall (rd 0) t
  | Give b _ | Queue b _ => Forall (wr (toprog s)) t /\ is_prefix (sent (toprog s) t) (kp v ++ b)
  | Tell b _ => Forall (wr 1) t /\ is_prefix (sent 1 t) b
  | Reply _ => Forall (rd (fromprog s)) t
  | Probe _ => Forall (svc (bs "fstat") [5]) t
  | Ask q _ => Forall (wr gfd) t /\ is_prefix (sent gfd t) q
  | Await _ => Forall (rd gfd) t
  | Raise _ => Forall (wr 5) t /\ is_prefix (sent 5 t) [0]
  | Drain _ => Forall (fun e => rd 0 e \/ svc (bs "fd_blocking_disable") [0] e \/ svc (bs "fd_blocking_enable") [0] e) t
  | Ack _ => Forall (rd 6) t
  | Die => t = []
  | Finish => Forall (fun e => fst e = Close (fromprog s) \/ fst e = Close (toprog s) \/ svc (bs "waitpid") [pid s] e) t
  end.

(** Output of an act whose performance may have stopped half way. *)
Definition output (a : act) (v : view) : option (Z * list Z) :=
  match a with
  | AGive b | AQueue b => Some (toprog s, kp v ++ b)
  | ATell b => Some (1, b)
  | AAsk q | ANoAsk q => Some (gfd, q)
  | ARaise => Some (5, [0])
  | _ => None
  end.
Definition nowrite (e : event) : Prop := forall fd b, fst e <> Write fd b.
(** [t] is the beginning of act [a], or (None) calls without any output. *)
Definition begun (o : option act) (v : view) (t : trace) : Prop :=
  match o with
  | None => Forall nowrite t
  | Some a =>
    exists fd b, output a v = Some (fd, b) /\ Forall (wr fd) t /\ is_prefix (sent fd t) b
  end.

(** The calls of a run are those of the acts [l] and of the unfinished act [o]. *)
Definition told (tr : trace) (l : list act) (o : option act) : Prop :=
  exists t1 t2 v, core tr = t1 ++ t2 /\ story view0 t1 l v /\ begun o v t2.

(** Termination of the program and exit status. *)
Definition finished (t : trace) (x : Z) : Prop :=
  (pid s = -1 /\ t = [] /\ x = 0) \/
  exists c1 c2 w a, t = (Close (fromprog s), c1) :: (Close (toprog s), c2) :: w ++ [(Other (bs "waitpid") [pid s] [], a)] /\
    Forall (fun e => svc (bs "waitpid") [pid s] e /\ ret (snd e) = -1 /\ err (snd e) = EINTR) w /\
    (ret a = -1 -> err a <> EINTR) /\
    let w := if ret a =? -1 then 0 else List.hd 0 (data a) in
    x = if w mod 128 =? 0 then (w / 256) mod 256 else 111.
(** The last call before giving up: no memory, a wait that failed and was not merely interrupted, a clock that shows that
    [sec] seconds have passed since the wait began and nothing else happened, or a read or write without success. *)
Definition failed (sec : Z) (tr : trace) : Prop :=
  exists tr' e, tr = tr' ++ [e] /\
    match fst e with
    | Time => exists t1 b t2, tr' = t1 ++ (Time, b) :: t2 /\ core t2 = [] /\ ret b + 1000000 * sec <= ret (snd e)
    | Select _ _ _ _ => ret (snd e) = -1 /\ err (snd e) <> EINTR
    | Alloc _ => ret (snd e) = 0
    | _ => ret (snd e) <= 0
    end.
(** How the process ends: with 111 as planned, with the status of the program, or with 111
    because a call failed. *)
Definition ended (p : plan) (v : view) (t tr : trace) (x : Z) : Prop :=
  (p = Die /\ t = [] /\ x = 111) \/ (p = Finish /\ finished t x) \/ (x = 111 /\ failed (patience s) tr /\ partial p v t).
(** A run up to some moment (None) or up to the exit with status [x]. *)
Definition conforms (tr : trace) (x : option Z) : Prop :=
  exists t1 t2 l v p, core tr = t1 ++ t2 /\ story view0 t1 l v /\ follows start l p /\
    match x with None => partial p v t2 | Some x => ended p v t2 tr x end.
End Session.
