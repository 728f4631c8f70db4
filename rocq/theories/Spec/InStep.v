(** The two ends of the pipes between network process and key process: what each stub call
    sends and accepts, and what a conversation is. *)
From Verif.Model Require Import Base Sys Stubs.
From Verif.Spec Require Import Stream Protocol.

(** A reply to a file request: a message, or the negative error number in place of a
    length. *)
Definition wire (w : list Z) : Prop :=
  (exists m, len m < 2 ^ 63 /\ w = frame m) \/ exists v, 0 < v < 2 ^ 63 /\ w = errframe v.

(** Labels for which the key process is asked. *)
Definition finished (label : list Z) : Prop :=
  exists rest, label = bs "client finished" ++ 0 :: rest \/ label = bs "server finished" ++ 0 :: rest.

(** What the callers guarantee. *)
Definition call_ok (c : call) : Prop :=
  match c with
  | Getcert fn => exists p rest, fn = p ++ 0 :: rest /\ nonul p /\ len p < 2 ^ 62
  | Mulgen R _ => 133 <= len R
  | Dosign _ d n max => 0 <= n <= max /\ max <= 2048 /\ max <= len d
  | Mul G sid _ _ cr sr => len G < 2 ^ 62 /\ len sid < 2 ^ 62 /\ len cr < 2 ^ 62 /\ len sr < 2 ^ 62
  | Prf dst n label seed => (exists p rest, label = p ++ 0 :: rest /\ nonul p) /\ n = 12 /\ len dst = 12 /\ Forall (fun s => len s < 2 ^ 62) seed
  | Decrypt _ _ mem base n | Encrypt _ _ mem base n => 0 <= n <= 16709 /\ 0 <= base /\ base + n <= len mem
  end.

(** The requests a call is made of, each a list of messages; the last one may be answered. *)
Definition asks (c : call) (q : list (list (list Z))) : Prop :=
  match c with
  | Getcert fn => exists p rest, fn = p ++ 0 :: rest /\ nonul p /\ q = [[p ++ [0]]]
  | Mulgen _ curve => q = [[[]]; [[curve mod 256]]]
  | Dosign a d n max => q = [[[a mod 256]; le 8 max; firstn (Z.to_nat n) d]]
  | Mul G sid ver cs cr sr => q = [[G; sid; le 2 (ver mod 2 ^ 16); le 2 (cs mod 2 ^ 16); cr; sr]]
  | Prf _ _ label seed => exists p rest s, label = p ++ 0 :: rest /\ nonul p /\ finished label /\ seed = [s] /\ q = [[[0]; p ++ [0]; le 8 (len s); s]]
  | Decrypt ty v mem base n => q = [[[1]; le 4 (ty mod 2 ^ 32); le 4 (v mod 2 ^ 32); firstn (Z.to_nat n) (skipn (Z.to_nat base) mem)]]
  | Encrypt ty v mem base n => q = [[[2]; le 4 (ty mod 2 ^ 32); le 4 (v mod 2 ^ 32); firstn (Z.to_nat n) (skipn (Z.to_nat base) mem)]]
  end.

(** The position a record reply names, from a byte with sign. *)
Definition place (base o : Z) : Z := base + (if o <? 128 then o else o - 256).
Definition near (o : Z) : Prop := o <= 64 \/ 192 <= o.
Definition limit (n extra : Z) (mem : list Z) (i : Z) : Prop := 0 <= i /\ i + (n + extra) <= len mem.

(** Complete replies, and what the caller learns from them. *)
Definition answers (c : call) (ws : list (list Z)) (a : answer) : Prop :=
  match c with
  | Getcert _ => exists w, ws = [w] /\ ((exists m, len m < 2 ^ 63 /\ w = frame m) \/ exists v, 0 < v < 2 ^ 63 /\ w = errframe v /\ (v < 2 ^ 31 -> a = (- v, [])))
  | Mulgen R _ => exists p, len p <= 133 /\ ws = [frame p] /\ a = (len p, p ++ skipn (length p) R)
  | Dosign _ d _ max => exists g, len g <= max /\ ws = [frame g] /\ a = (len g, g ++ skipn (length g) d)
  | Mul _ _ _ _ _ _ => ws = [] /\ a = (1, [])
  | Prf _ _ _ _ => exists p, len p = 12 /\ ws = [frame p] /\ a = (1, p)
  | Decrypt _ _ mem base n => exists o p, near o /\ limit n 0 mem (place base o) /\ len p <= n /\ ws = [frame [o]; frame p] /\ a = (if len p =? 0 then (0, []) else (1, p))
  | Encrypt _ _ mem base n => exists o p, near o /\ limit n 85 mem (place base o) /\ len p <= n + 85 /\ ws = [frame [o]; frame p] /\ a = (1, p)
  end.

(** A reply the stub does not take: its length is wrong.  [ws] are the replies before. *)
Definition unfit (c : call) (ws : list (list Z)) (n : Z) : Prop :=
  match c with
  | Getcert _ => ws = [] /\ n = 2 ^ 63
  | Mul _ _ _ _ _ _ => False
  | Mulgen _ _ => ws = [] /\ 133 < n
  | Dosign _ _ _ max => ws = [] /\ max < n
  | Prf _ _ _ _ => ws = [] /\ n <> 12
  | Decrypt _ _ _ _ k => (ws = [] /\ n <> 1) \/ exists o, ws = [frame [o]] /\ near o /\ k < n
  | Encrypt _ _ _ _ k => (ws = [] /\ n <> 1) \/ exists o, ws = [frame [o]] /\ near o /\ k + 85 < n
  end.
(** An offset that is refused, or leaves too little room. *)
Definition astray (c : call) (o : Z) : Prop :=
  match c with
  | Decrypt _ _ mem base n => ~ near o \/ ~ limit n 0 mem (place base o)
  | Encrypt _ _ mem base n => ~ near o \/ ~ limit n 85 mem (place base o)
  | _ => False
  end.
(** After a failure encrypt overwrites more than the plain text. *)
Definition overflow (c : call) : Prop := match c with Encrypt _ _ mem base n => len mem < base + n + 85 | _ => False end.
(** Calls for which the key process is not asked. *)
Definition local (c : call) : Prop := match c with Prf _ _ label seed => ~ finished label \/ length seed <> 1%nat | _ => False end.

(** How the requests of a call appear in the log: only the last one is answered. *)
Fixpoint logged (q : list (list (list Z))) (ws : list (list Z)) : list exchange :=
  match q with
  | [] => []
  | [x] => [(x, ws)]
  | x :: q => (x, []) :: logged q ws
  end.

(** ** A conversation as the network process sees it *)
Inductive ending : Type :=
| Quit                                      (* all calls were made *)
| Lost                                      (* a call met a failing system call, or has not returned *)
| Refused (c : call) (ws : list (list Z)) (hd : list Z)     (* a reply of the wrong length: only its header was read *)
| Astray (c : call) (o : Z).                (* an offset out of range *)

Section TALK.
Variables (fuel : nat) (to from : Z).
Definition sends (q : list (list (list Z))) : list Z := concat (map frames q).

Inductive talk : client -> trace -> list exchange -> ending -> outcome unit -> Prop :=
| k_stop : talk Leave [] [] Quit (Fin tt)
| k_call c f t t' q ws a log e o : asks c q -> answers c ws a -> sent to t = sends q -> got from t = concat ws ->
    talk (f a) t' log e o -> talk (Ask c f) (t ++ t') (logged q ws ++ log) e o
| k_local c f t t' a log e o : local c -> sent to t = [] -> got from t = [] -> talk (f a) t' log e o -> talk (Ask c f) (t ++ t') log e o
| k_lost c f t t' o o' : runs (stub fuel to from c) t o' -> (o' = Cut /\ t' = []) \/ Exists hard t -> (o' = Wrong -> overflow c) -> talk (Ask c f) (t ++ t') [] Lost o
| k_refused c f t t' q ws hd o : asks c q -> sent to t = sends q -> got from t = concat ws ++ hd -> length hd = 8%nat -> unfit c ws (leval hd) ->
    talk (Ask c f) (t ++ t') [] (Refused c ws hd) o
| k_astray c f t t' q b o : asks c q -> sent to t = sends q -> got from t = frame [b] -> astray c b -> talk (Ask c f) (t ++ t') [] (Astray c b) o.

(** The order of the calls in a handshake. *)
Inductive stage : Type := SNames | SSign | SPeer | SRecords.
Definition stage_after (s : stage) (c : call) : option stage :=
  match s, c with
  | SNames, Getcert _ => Some SNames
  | SNames, Mulgen _ _ => Some SSign
  | SSign, Dosign _ _ _ _ => Some SPeer
  | SPeer, Mul _ _ _ _ _ _ => Some SRecords
  | SRecords, (Prf _ _ _ _ | Decrypt _ _ _ _ _ | Encrypt _ _ _ _ _) => Some SRecords
  | _, _ => None
  end.
Fixpoint ordered (s : stage) (cl : client) : Prop :=
  match cl with
  | Leave => True
  | Ask c f => call_ok c /\ ((local c /\ forall a, ordered s (f a)) \/ exists s', stage_after s c = Some s' /\ forall a, ordered s' (f a))
  end.
End TALK.

(** ** Agreement *)
(** An exchange without reply. *)
Definition unanswered (x : exchange) : Prop := snd x = [].
(** A reply that is longer than the stub allows. *)
Definition toolong (c : call) (n : Z) : Prop :=
  match c with Dosign _ _ _ max => max < n | Decrypt _ _ _ _ k => k < n | Encrypt _ _ _ _ k => k + 85 < n | _ => False end.
(** The offset leaves too little room in the buffer of the caller. *)
Definition noroom (c : call) (b : Z) : Prop :=
  match c with Decrypt _ _ mem base n => ~ limit n 0 mem (place base b) | Encrypt _ _ mem base n => ~ limit n 85 mem (place base b) | _ => False end.
(** The log [Ln] of the network process and the log [Lk] of the key process: the key process
    is ahead by at most what the last call asked, or the network process by requests that
    are not answered. *)
Definition agree (Ln Lk : list exchange) (e : ending) : Prop :=
  (exists more, Lk = Ln ++ more /\
     match e with
     | Quit => more = []
     | Lost => True
     | Refused c ws hd => exists q p more', asks c q /\ more = logged q (ws ++ [frame p]) ++ more' /\ hd = le 8 (len p) /\ toolong c (len p)
     | Astray c b => exists q p more', asks c q /\ more = logged q [frame [b]; frame p] ++ more' /\ noroom c b
     end) \/
  (exists more, Ln = Lk ++ more /\ Forall unanswered more /\ (e = Quit \/ e = Lost)).
