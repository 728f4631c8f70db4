(** C94: how long the key process keeps its secrets. *)
From Verif.Model Require Import Base Sys Io Framed Pem Jail Scalar Keyjail.
From Verif.Spec Require Import Stream Flow Protocol Secrets.
From Verif.Proof Require Import Tac SysP SafeP KeyjailP SecretsP.
From Verif.Props Require Import PropKeyjail.

Section K.
Variable stream : list Z -> list Z -> nat -> Z.
Variable fuel : nat.
Variables (nojail : bool) (account dir : option (list Z)) (line0 key0 : list Z).
Notation keyjail := (tls_keyjail stream fuel nojail account dir line0 key0).

(** At every call of every run, whatever the answers: while the process talks there is no decoded key,
    no clear key file and no shared secret in its memory; it signs when the file is gone; it derives
    the keys of the session, once, when the scalar is gone; and it works for the session when nothing
    but the keys of the session is left. *)
Theorem C94_discreet : forall tr o, runs keyjail tr o -> always discreet tr.
Proof.
  intros tr o R. apply holds_always. eapply (keyjail_sp stream fuel nojail account dir line0 key0 tr o R). intros t1 e t2 _. exact Logic.I.
Qed.

(** And at the end neither the decoded key nor the file nor the key of the file is left: its overwriting
    is the last call.  If the keys of the session were derived, the scalar and the shared secret are
    gone, too. *)
Theorem C94_end : forall tr, runs keyjail tr (Fin tt) ->
  (exists t a, tr = t ++ [(Other (bs "randombytes") [32] [], a)]) /\
  private (kept tr) = false /\ file (kept tr) = false /\ filekey (kept tr) = false /\
  ((exists l d a, In (Other (bs "derive") l d, a) tr) -> kept tr = session_only).
Proof.
  intros tr R. destruct (keyjail_sp stream fuel nojail account dir line0 key0 tr _ R) as [_ H]; [intros t1 e t2 _; exact Logic.I|].
  destruct (H tt eq_refl) as (A & B & C & D & E). cbn [app] in *. repeat (split; [assumption|]). intros (l & d & a & X). apply E.
  apply in_split in X as (u & v & ->). clear. unfold kept. rewrite fold_left_app. cbn [fold_left].
  assert (G : forall (w : trace) s, derived s = true -> derived (fold_left note w s) = true).
  { induction w as [|e w IH]; intros s Hs; [exact Hs|]. cbn [fold_left]. apply IH. unfold note. destruct (fst e); try exact Hs.
    repeat match goal with |- context [if ?b then _ else _] => destruct b end; first [exact Hs|reflexivity]. }
  apply G. reflexivity.
Qed.
End K.
Print Assumptions C94_discreet.
Print Assumptions C94_end.

(** The head of tls_keyjail.c (lines 142-144) says more: "secret scalars and temporary key structures
    are overwritten".  The scalar of a client that left after the first message of the key exchange is
    not; nor is the shared secret when the cipher suite is not one of those listed. *)
Theorem C94_scalar_refuted : exists tr, runs (tls_keyjail toys 20 false None (Some (bs "/var/empty")) (zeros 65) (zeros 32)) tr (Fin tt) /\
  legal tr /\ Forall env_ok tr /\ scalar (kept tr) = true.
Proof.
  exists (fst jailed). split; [apply exec_runs with (s := jscript); vm_compute; reflexivity|]. split; [legal_by|]. split; [apply env_dec; vm_compute; reflexivity|]. vm_compute. reflexivity.
Qed.
Print Assumptions C94_scalar_refuted.
Definition odd_session : list ans :=
  [mkans 7 0 []] ++ msg [] ++ msg [29] ++ [mkans 0 0 (repeat 9 66); mkans 32 0 (repeat 3 32)] ++ wrote 32 ++
  msg [4] ++ msg (le 8 32) ++ msg (repeat 1 32) ++ [ok; ok; ok; ok] ++ [mkans 8 0 []] ++
  msg (repeat 5 32) ++ msg (zeros 32) ++ msg [3; 3] ++ msg [168; 200] ++ msg (zeros 32) ++ msg (zeros 32) ++ [mkans 1 0 (repeat 8 32); ok; ok].
Definition odd := Eval vm_compute in exec (tls_keyjail toys 20 true None None (zeros 65) (zeros 32)) odd_session.
Theorem C94_shared_refuted : exists tr, runs (tls_keyjail toys 20 true None None (zeros 65) (zeros 32)) tr (Fin tt) /\
  legal tr /\ Forall env_ok tr /\ shared (kept tr) = true.
Proof.
  exists (fst odd). split; [apply exec_runs with (s := odd_session); vm_compute; reflexivity|]. split; [legal_by|]. split; [apply env_dec; vm_compute; reflexivity|]. vm_compute. reflexivity.
Qed.
Print Assumptions C94_shared_refuted.

(** A complete session: it signs, it derives, and its memory before the signature, before the keys are
    derived, and at the end. *)
Fixpoint upon (n : list Z) (t h : trace) : list secrets :=
  match t with
  | [] => []
  | e :: t' => (match fst e with Other m _ _ => if eqs m n then [kept h] else [] | _ => [] end) ++ upon n t' (h ++ [e])
  end.
Example C94_ex : runs (tls_keyjail toys 20 true None None (zeros 65) (zeros 32)) (fst session1) (Fin tt) /\
  upon (bs "do_sign") (fst session1) [] = [mksecrets true false true false true false] /\
  upon (bs "derive") (fst session1) [] = [mksecrets false true false false false false] /\
  upon (bs "prf") (fst session1) [] = [session_only] /\
  kept (fst session1) = session_only.
Proof.
  split; [apply exec_runs with (s := session (bs "server finished" ++ [0])); vm_compute; reflexivity|].
  repeat split; vm_compute; reflexivity.
Qed.
