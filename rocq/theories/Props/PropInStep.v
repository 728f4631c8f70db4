(** C48: network process and key process stay in step.
    C70: a failing record encryption and the memory after the record. *)
From Verif.Model Require Import Base Sys Io Stubs Keyjail.
From Verif.Spec Require Import Stream Text Protocol InStep.
From Verif.Proof Require Import Tac SysP KeyjailP StubsP InStepP DialogueP.
From Verif.Props Require Import PropKeyjail.

(** The network process makes stub calls in the order of a handshake, each depending on the
    earlier answers in any way; the key process runs; what one reads from the other is a
    beginning of what the other wrote.  Then the exchanges both sides have seen are the same
    ones: every request is answered by the reply its stub reads.  The conversation of the
    network process ends because it made all its calls, because a system call failed, or
    because a reply was longer than the stub allows or points out of its buffer; in these
    cases the key process has sent exactly that reply. *)
Theorem C48_in_step : forall stream fuelk nojail account dir line0 key0 fueln to from cl trn on trk ok,
  length line0 = 65%nat -> ordered SNames cl -> legal trn -> legal trk -> Forall env_ok trk ->
  runs (client_run fueln to from cl) trn on -> runs (tls_keyjail stream fuelk nojail account dir line0 key0) trk ok ->
  is_prefix (got 0 trk) (sent to trn) -> is_prefix (got from trn) (sent 1 trk) ->
  exists Ln Lk e, talk fueln to from cl trn Ln e on /\ dialogue nojail account dir Naming [] trk Lk ok /\ agree Ln Lk e.
Proof.
  intros stream fuelk nojail account dir line0 key0 fueln to from cl trn on trk ok L0 O Ln Lk E Rn Rk P1 P2.
  destruct (client_talk _ _ _ _ _ _ _ O Ln Rn) as (logn & e & T). destruct (tls_keyjail_d _ _ _ _ _ _ _ _ _ L0 Lk E Rk) as (logk & D).
  exists logn, logk, e. split; auto. split; auto. eapply in_step; eauto.
Qed.

(** The only undefined behaviour of the encryption stub: the buffer ends less than 85 bytes
    after the plain text. *)
Theorem C70_only_short : forall fuel to from ty v mem base n t, legal t -> call_ok (Encrypt ty v mem base n) ->
  runs (encrypt fuel to from ty v mem base n) t Wrong ->
  len mem < base + n + 85 \/ exists t1 t2 b, t = t1 ++ t2 /\ got from t1 = frame [b] /\ near b /\ ~ limit n 85 mem (place base b).
Proof.
  intros fuel to from ty v mem base n t L K R.
  assert (R1 : runs (stub fuel to from (Encrypt ty v mem base n)) t Wrong). { cbn [stub]. apply runs_bind. right. left. auto. }
  destruct (Z_lt_dec (len mem) (base + n + 85)) as [|N]; auto. right.
  destruct (encrypt_wrong _ _ _ _ _ _ _ _ _ L K R) as [X|X]; [lia|exact X].
Qed.

(** ** The hypotheses are met *)
Definition step (n : Z) : list ans := match n with 0 => [mkans 8 0 []] | _ => [mkans 8 0 []; mkans n 0 []] end.
Definition netscript : list ans :=
  step 11 ++ [mkans 8 0 (le 8 (len crt)); mkans 1 0 []; mkans (len crt) 0 crt; mkans 1 0 [7]] ++
  step 0 ++ step 1 ++ msg (repeat 3 32) ++ step 1 ++ step 8 ++ step 32 ++ msg [48; 6; 2] ++
  step 32 ++ step 32 ++ step 2 ++ step 2 ++ step 32 ++ step 32 ++ [ok] ++
  step 1 ++ step 16 ++ step 8 ++ step 48 ++ msg (repeat 77 12).
Definition finished_label : list Z := bs "server finished" ++ [0].
(** The client looks at the answers. *)
Definition netclient : client :=
  Ask (Getcert (bs "d/../x.pem" ++ [0])) (fun a => if fst a =? 1 then
  Ask (Mulgen (zeros 133) 29) (fun p => if fst p =? 0 then Leave else
  Ask (Dosign 4 (repeat 1 40) 32 32) (fun s => if fst s =? 0 then Leave else
  Ask (Mul (repeat 5 32) (zeros 32) 771 52392 (zeros 32) (zeros 32)) (fun _ =>
  Ask (Prf (zeros 12) 12 (bs "key expansion" ++ [0]) [zeros 32; zeros 32]) (fun _ =>
  Ask (Prf (zeros 12) 12 finished_label [zeros 48]) (fun _ => Leave))))) else Leave).
Definition netrun := Eval vm_compute in exec (client_run 20 3 4 netclient) netscript.
Lemma nonul_dec : forall l, forallb (fun b => (0 <? b) && (b <? 256)) l = true -> nonul l.
Proof. intros l H. apply Forall_forall. intros x I. rewrite forallb_forall in H. specialize (H _ I). lia. Qed.
Lemma netclient_ordered : ordered SNames netclient.
Proof.
  assert (N : forall s, forallb (fun b => (0 <? b) && (b <? 256)) (bs s) = true -> exists p rest, bs s ++ [0] = p ++ 0 :: rest /\ nonul p).
  { intros s H. exists (bs s), []. split; auto. apply nonul_dec. auto. }
  split. { exists (bs "d/../x.pem"), []. split; auto. split; [apply nonul_dec; reflexivity|reflexivity]. }
  right. exists SNames. split; auto. intros a. cbn [ordered]. destruct (fst a =? 1); [|exact Logic.I].
  split; [vm_compute; discriminate|]. right. exists SSign. split; auto. intros p. destruct (fst p =? 0); [exact Logic.I|].
  split; [repeat split; vm_compute; discriminate|]. right. exists SPeer. split; auto. intros s. destruct (fst s =? 0); [exact Logic.I|].
  split; [cbn; repeat split; reflexivity|]. right. exists SRecords. split; auto. intros _. cbn beta.
  split; [repeat split; [apply N; reflexivity|repeat (apply Forall_cons || apply Forall_nil); reflexivity]|]. left. split; [right; discriminate|]. intros _.
  split; [repeat split; [apply N; reflexivity|repeat (apply Forall_cons || apply Forall_nil); reflexivity]|]. right. exists SRecords. split; auto. intros _. exact Logic.I.
Qed.

Example C48_ex : ordered SNames netclient /\ legal (fst netrun) /\ runs (client_run 20 3 4 netclient) (fst netrun) (Fin tt) /\
  is_prefix (got 0 (fst session1)) (sent 3 (fst netrun)) /\ is_prefix (got 4 (fst netrun)) (sent 1 (fst session1)) /\ length (got 4 (fst netrun)) = 138%nat.
Proof.
  split; [apply netclient_ordered|]. split; [legal_by|]. split; [apply exec_runs with (s := netscript); vm_compute; reflexivity|].
  split; [|split]; [exists []|exists []|]; vm_compute; reflexivity.
Qed.

(** A record of 100 bytes in a buffer with room for the tag of the largest AEAD cipher; the
    key process has gone after reading the request. *)
Definition gone : list ans := step 1 ++ step 4 ++ step 4 ++ step 100 ++ [mkans 0 0 []; ok].
Definition buffer : list Z := zeros (13 + 100 + 16).
Definition overrun := Eval vm_compute in exec (encrypt 20 3 4 23 771 buffer 13 100) gone.
Theorem C70_refuted : exists t, legal t /\ call_ok (Encrypt 23 771 buffer 13 100) /\ got 4 t = [] /\
  runs (encrypt 20 3 4 23 771 buffer 13 100) t Wrong.
Proof.
  exists (fst overrun). split; [legal_by|]. split; [repeat split; vm_compute; discriminate|]. split; [reflexivity|].
  apply exec_runs with (s := gone). vm_compute. reflexivity.
Qed.
(** With 85 bytes behind the text nothing is overrun. *)
Definition wiped := Eval vm_compute in exec (encrypt 20 3 4 23 771 (zeros (13 + 100 + 85)) 13 100) gone.
Example C70_ex : legal (fst wiped) /\ snd wiped = Fin (None, zeros (13 + 100 + 85)).
Proof. split; [legal_by|]. vm_compute. reflexivity. Qed.

Print Assumptions C48_in_step.
Print Assumptions C70_only_short.
Print Assumptions C70_refuted.
