(** What client, program and policy server see of an SMTP session given as a list of acts. *)
From Verif.Model Require Import Base Sys.
From Verif.Spec Require Import Text Stream SmtpSpec.

(** The client sent the bytes given first; the acts used them up to the bytes given last. *)
Inductive takes : list act -> list Z -> list Z -> Prop :=
| tk_nil : forall b, takes [] b b
| tk_line : forall x l b r, takes l b r -> takes (ALine x :: l) (x ++ 10 :: b) r
| tk_flood : forall x l b r, takes l b r -> takes (AFlood x :: l) (x ++ b) r
| tk_drain : forall d l b r, takes l b r -> takes (ADrain :: l) (d ++ b) r
| tk_other : forall a l b r, (forall x, a <> ALine x) -> (forall x, a <> AFlood x) -> a <> ADrain ->
    takes l b r -> takes (a :: l) b r.

(** Bytes for the program, for the client. *)
Definition toprogram (a : act) : list Z := match a with AGive b | AQueue b => b | _ => [] end.
Definition toclient (a : act) : list Z := match a with ATell b => b | _ => [] end.
Definition forwarded (l : list act) : list Z := flat_map toprogram l.
Definition displayed (l : list act) : list Z := flat_map toclient l.

(** The program gets each client line at most once, before the next line is read, and apart
    from these lines only RSET. *)
Inductive relays : option (list Z) -> list act -> Prop :=
| rl_nil : forall o, relays o []
| rl_line : forall o x l, len x <= 4096 -> ~ In 10 x -> relays (Some x) l -> relays o (ALine x :: l)
| rl_give : forall x l, relays None l -> relays (Some x) (AGive (norm x) :: l)
| rl_queue : forall x l, relays None l -> relays (Some x) (AQueue (norm x) :: l)
| rl_flush : forall l, relays None l -> relays None (AGive [] :: l)
| rl_rset : forall o l, relays None l -> relays o (AGive (bs "RSET" ++ [13; 10]) :: l)
| rl_other : forall o a l, (forall x, a <> ALine x) -> (forall b, a <> AGive b) -> (forall b, a <> AQueue b) ->
    relays o l -> relays o (a :: l).

(** The descriptors of a session differ; 5 and 6 are part of it only if STARTTLS is offered. *)
Definition distinct (s : setting) : Prop :=
  ~ In (toprog s) [1; gfd s] /\ ~ In (fromprog s) [0; gfd s] /\ (offers s = true -> toprog s <> 5 /\ fromprog s <> 6) /\
  gfd s <> 0 /\ gfd s <> 1.

(** Recipients recorded since the envelope was last cleared; [o] is a client line whose
    treatment has not begun.  MAIL, the end of a message and STARTTLS clear the envelope. *)
Definition noted (r : list (list Z)) (x : list Z) : list (list Z) :=
  match kindof (norm x) with
  | Kmail => []
  | Krcpt => if beginsb (bs "rcpt to:") (norm x) then r ++ [addr 8 (norm x)] else r
  | _ => r
  end.
Fixpoint tally (r : list (list Z)) (o : option (list Z)) (l : list act) : list (list Z) :=
  match l with
  | [] => r
  | a :: l =>
    match a, o with
    | ALine x, _ => tally r (Some x) l
    | AQueue _, _ => tally r None l
    | _, Some x => tally (noted r x) None l
    | AGive [], None => tally [] None l
    | AAck _, None => tally [] None l
    | _, None => tally r None l
    end
  end.
Fixpoint volume (r : list (list Z)) : Z := match r with [] => 0 | a :: r => len a + 1 + volume r end.
Definition within (r : list (list Z)) : Prop :=
  len r <= 256 /\ volume r <= 65536 /\ Forall (fun a => len a <= 2048) r.

(** The lines of a message, forwarded. *)
Definition conveyed (xs : list (list Z)) : list act := flat_map (fun x => [ALine x; AQueue (norm x)]) xs.

(** After these acts a command is expected. *)
Definition awaits (s : setting) (l : list act) : Prop := exists e, follows s (start s) l (Loop e).

(** The act a plan is about to perform. *)
Definition pact (P : plan) : list act :=
  match P with Give b _ => [AGive b] | Queue b _ => [AQueue b] | Tell b _ => [ATell b] | _ => [] end.

(** Everything about a run in terms of acts: they follow the plan, use the bytes of the
    client in order, and account for everything sent. *)
Definition account (g : setting) (tr : trace) (l : list act) (P : plan) : Prop :=
  follows g (start g) l P /\ (exists r, takes l (got 0 tr) r) /\
  is_prefix (sent (toprog g) tr) (forwarded (l ++ pact P)) /\ is_prefix (sent 1 tr) (displayed (l ++ pact P)).

(** The line exceeds a limit, recipients [r] being recorded. *)
Definition exceeds (r : list (list Z)) (x : list Z) : Prop :=
  (kindof (norm x) = Kmail /\ beginsb (bs "mail from:") (norm x) = true /\ 2048 < len (addr 10 (norm x))) \/
  (kindof (norm x) = Krcpt /\ beginsb (bs "rcpt to:") (norm x) = true /\ ~ within (r ++ [addr 8 (norm x)])).

(** What the policy server said, or failed to say, when a recipient was let through. *)
Definition allowed (g : setting) (f t : list Z) (m : list act) : Prop :=
  (exists r, m = [AAsk (request g f t); AAnswer r] /\ verdict r = None) \/
  (exists y, m = [AAsk (request g f t); AGFlood y]) \/
  (strict g = false /\ (m = [ANoAsk (request g f t)] \/ m = [AAsk (request g f t); ANoAnswer])).
