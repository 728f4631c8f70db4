(** C99: network process and key process never wait for each other. *)
From Verif.Model Require Import Base Sys Io Stubs Keyjail.
From Verif.Spec Require Import Stream Text Protocol InStep Waits.
From Verif.Proof Require Import Tac SysP IoP FrameP DialogueP StubsP KeyjailP InStepP WaitsP DeadlockP.
From Verif.Props Require Import PropKeyjail PropInStep.

Section C99.
Variables (stream : list Z -> list Z -> nat -> Z) (fuelk : nat) (nojail : bool) (account dir : option (list Z)) (line0 key0 : list Z).
Variables (fueln : nat) (to from : Z) (cl : client).
Notation net := (client_run fueln to from cl).
Notation key := (tls_keyjail stream fuelk nojail account dir line0 key0).

(** The network process did not take a reply: it was longer than the stub allows, or points
    out of the buffer of the caller. *)
Definition declined (trn trk : trace) : Prop :=
  exists Ln Lk e ok, talk fueln to from cl trn Ln e Cut /\ dialogue nojail account dir Naming [] trk Lk ok /\ agree Ln Lk e /\
    match e with Refused _ _ _ | Astray _ _ => True | _ => False end.

Lemma declined_intro : forall trn trk log e ok, length line0 = 65%nat -> ordered SNames cl -> legal trk -> Forall env_ok trk -> runs key trk ok ->
  is_prefix (got 0 trk) (sent to trn) -> is_prefix (got from trn) (sent 1 trk) -> talk fueln to from cl trn log e Cut -> refusal e -> declined trn trk.
Proof.
  intros trn trk log e ok L0 O Lk E Rk P1 P2 T R. destruct (tls_keyjail_d _ _ _ _ _ _ _ _ _ L0 Lk E Rk) as (logk & D).
  exists log, logk, e, ok. split; auto. split; auto. split; [eapply in_step; eauto|exact R].
Qed.

(** While the network process writes a request, or waits until it can, there is nothing it has
    not read. *)
Theorem C99_nothing_unread : forall trn trk ok, length line0 = 65%nat -> ordered SNames cl -> legal trn -> legal trk -> Forall env_ok trk ->
  ~ Exists hard trn -> runs key trk ok -> is_prefix (got 0 trk) (sent to trn) -> is_prefix (got from trn) (sent 1 trk) ->
  writes_next net trn to -> sent 1 trk = got from trn \/ declined trn trk.
Proof.
  intros trn trk ok L0 O Ln Lk E NH Rk P1 P2 W.
  assert (X : exists x, writing to x /\ faces net trn x). { destruct W as [(b & W)|W]; eexists; (split; [|exact W]); [left; eauto|right; reflexivity]. }
  destruct X as (x & WX & F). destruct (client_faces _ _ _ _ _ _ _ O Ln (or_intror WX) F) as [H|[(log & e & T & R)|(t1 & t2 & log & c & s1 & s2 & -> & H1 & H2 & H3 & H4 & H5 & H6 & H7)]].
  { contradiction. }
  { right. eapply declined_intro; eauto. }
  left. destruct H7 as [((n & ->) & _)|(_ & G & q & r & A & NR & S)]. { destruct WX as [[b EW]|EW]; discriminate EW. }
  destruct (tls_keyjail_d _ _ _ _ _ _ _ _ _ L0 Lk E Rk) as (logk & D).
  pose proof (dialogue_script _ _ _ _ _ _ _ _ D Logic.I (Forall_nil _) (Nat.le_0_l _)) as SK.
  destruct (dialogue_streams _ _ _ _ _ _ _ _ D) as [(part & Q1) (u & Q2)]. unfold frames in Q1. cbn [map concat app] in Q1. cbn [kst kindof] in *.
  destruct P1 as (z & P1), P2 as (y & P2). rewrite sent_app, H5 in P1. rewrite got_app, G, H6, app_nil_r in P2 |- *.
  assert (E1 : requests logk ++ (part ++ z) = requests log ++ sent to t2) by (rewrite app_assoc, <- Q1, <- P1; auto).
  assert (E2 : replies log ++ [] ++ (y ++ u) = replies logk) by (cbn [app]; rewrite Q2, P2, <- app_assoc; auto).
  rewrite P2. destruct (agree_ok _ _ _ _ _ _ _ H1 SK E1 E2) as [(more & -> & M1 & M2 & M3)|(more & -> & M1 & M2)].
  - cbn [kst] in H2. rewrite H2 in M1. rewrite (early _ _ _ _ more (part ++ z) r H4 A H3 M1 NR) in M3; [|rewrite M2; auto].
    cbn [app] in M3. apply app_eq_nil in M3 as [-> _]. apply app_nil_r.
  - rewrite replies_app, (unanswered_replies _ M1), app_nil_r in E2. rewrite <- (app_nil_r (replies logk)) in E2 at 2. apply app_inv_head in E2. cbn [app] in E2.
    apply app_eq_nil in E2 as [-> _]. apply app_nil_r.
Qed.

(** Both at a read, both pipes empty: only after a reply was not taken. *)
Theorem C99_not_both_reading : forall trn trk, length line0 = 65%nat -> ordered SNames cl -> legal trn -> legal trk -> Forall env_ok trk ->
  ~ Exists hard trn -> got 0 trk = sent to trn -> got from trn = sent 1 trk ->
  reads_next net trn from -> reads_next key trk 0 -> declined trn trk.
Proof.
  intros trn trk L0 O Ln Lk E NH P1 P2 (n & Fn) (k & Fk).
  assert (X : talks to from (Read from n)) by (left; eauto).
  destruct (client_faces _ _ _ _ _ _ _ O Ln X Fn) as [H|[(log & e & T & R)|(t1 & t2 & log & c & s1 & s2 & -> & H1 & H2 & H3 & H4 & H5 & H6 & H7)]].
  { contradiction. }
  { eapply declined_intro; eauto; [exact (faces_runs _ _ _ _ Fk)|rewrite P1; apply is_prefix_refl|rewrite P2; apply is_prefix_refl]. }
  exfalso. destruct H7 as [(_ & q & A & S & OW)|(W & _)]. 2:{ destruct W as [[b EW]|EW]; discriminate EW. }
  set (a := mkans (-1) 4 []). destruct (faces_more _ _ _ _ a Fk) as (ok & Rk).
  assert (L2 : legal (trk ++ [(Read 0 k, a)])). { apply legal_app. split; auto. constructor; [|constructor]. left. auto. }
  assert (E2 : Forall env_ok (trk ++ [(Read 0 k, a)])). { apply Forall_app. split; auto. constructor; [|constructor]. repeat split; cbn; intros; discriminate. }
  destruct (tls_keyjail_d _ _ _ _ _ _ _ _ _ L0 L2 E2 Rk) as (logk & D).
  pose proof (dialogue_script _ _ _ _ _ _ _ _ D Logic.I (Forall_nil _) (Nat.le_0_l _)) as SK.
  destruct (dialogue_faces _ _ _ _ _ _ _ _ D trk k a eq_refl eq_refl Logic.I (Forall_nil _) (Nat.le_0_l _)) as (pk & Q1 & Q2 & ST).
  unfold frames in Q1. cbn [map concat app] in Q1. cbn [kst kindof] in *. rewrite sent_app, H5, S in P1. rewrite got_app, H6 in P2.
  assert (E3 : requests logk ++ pk = requests log ++ sends q) by (rewrite <- Q1; auto).
  assert (E4 : replies log ++ got from t2 ++ [] = replies logk) by (rewrite app_nil_r, <- Q2; auto).
  destruct (agree_ok _ _ _ _ _ _ _ H1 SK E3 E4) as [(more & -> & M1 & M2 & M3)|(more & -> & M1 & M2)].
  - rewrite app_nil_r in M3. cbn [kst] in H2. rewrite reached_app, H2 in ST. rewrite H2 in M1. eapply no_mutual; eauto.
  - rewrite requests_app, <- app_assoc in E3. apply app_inv_head in E3. apply script_app in H1 as [_ H1]. destruct more as [|[ms ws] more].
    + change (requests []) with (@nil Z) in E3. cbn [app] in E3. rewrite app_nil_r in H2. rewrite M2 in OW.
      rewrite H2 in ST. refine (no_mutual c q s1 s2 [] pk [] H4 A H3 Logic.I ST _ eq_refl OW). exact E3.
    + destruct H1 as (C1 & C2 & _). rewrite requests_cons, <- app_assoc in E3. eapply no_whole; eauto.
Qed.

(** There is no moment at which both are blocked, whatever the pipes can hold. *)
Theorem C99_no_deadlock : forall capacity trn trk request reply, 0 < capacity ->
  length line0 = 65%nat -> ordered SNames cl -> legal trn -> legal trk -> Forall env_ok trk -> ~ Exists hard trn ->
  holds (sent to trn) (got 0 trk) request -> holds (sent 1 trk) (got from trn) reply ->
  blocked capacity net trn from reply to request -> blocked capacity key trk 0 request 1 reply -> declined trn trk.
Proof.
  intros capacity trn trk request reply CP L0 O Ln Lk E NH H1 H2 [[Bn ->]|[Bn Cn]] [[Bk Ck]|[Bk Ck]]; unfold holds in *.
  - subst request. rewrite app_nil_r in *. apply C99_not_both_reading; auto.
  - change (len (@nil Z)) with 0 in Ck. lia.
  - subst request. change (len (@nil Z)) with 0 in Cn. lia.
  - assert (Rk : runs key trk Cut). { destruct Bk as [(b & F)|F]; eapply faces_runs; eauto. }
    destruct (C99_nothing_unread trn trk Cut L0 O Ln Lk E NH Rk) as [X|X]; auto; [exists request; auto|exists reply; auto|].
    rewrite H2 in X. rewrite <- (app_nil_r (got from trn)) in X at 2. apply app_inv_head in X. subst reply. change (len (@nil Z)) with 0 in Ck. lia.
Qed.
End C99.

Print Assumptions C99_nothing_unread.
Print Assumptions C99_not_both_reading.
Print Assumptions C99_no_deadlock.

(** ** The hypotheses are met *)
Fixpoint leads {R} (p : prog R) (s : list ans) : option sys :=
  match p, s with
  | Do c k, [] => Some c
  | Do c k, a :: s => leads (k a) s
  | _, _ => None
  end.
Lemma leads_faces : forall R (p : prog R) s c, leads p s = Some c -> faces p (fst (exec p s)) c.
Proof.
  induction p as [r|c' k IH| |]; intros s c H; cbn [leads] in H; try discriminate. cbn [exec faces]. destruct s as [|a s].
  - injection H as <-. auto.
  - specialize (IH _ _ _ H). destruct (exec (k a) s) as [t o]. cbn [fst] in *. right. eauto.
Qed.

(** The network process has asked for a certificate and waits; its request is in the pipe, the
    key process is at its first read: only one of them is blocked. *)
Definition askscript : list ans := step 11.
Definition asked := Eval vm_compute in exec (client_run 20 3 4 netclient) askscript.
Definition idle := Eval vm_compute in exec (tls_keyjail toys 20 true None None (zeros 65) (zeros 32)) [mkans 7 0 []].
Example C99_ex : ordered SNames netclient /\ legal (fst asked) /\ legal (fst idle) /\ Forall env_ok (fst idle) /\ ~ Exists hard (fst asked) /\
  holds (sent 3 (fst asked)) (got 0 (fst idle)) (frame (bs "d/../x.pem" ++ [0])) /\ holds (sent 1 (fst idle)) (got 4 (fst asked)) [] /\
  blocked 4096 (client_run 20 3 4 netclient) (fst asked) 4 [] 3 (frame (bs "d/../x.pem" ++ [0])) /\
  reads_next (tls_keyjail toys 20 true None None (zeros 65) (zeros 32)) (fst idle) 0.
Proof.
  split; [apply netclient_ordered|]. split; [legal_by|]. split; [legal_by|]. split; [apply env_dec; vm_compute; reflexivity|].
  split. { intros H. rewrite Exists_exists in H. destruct H as (e & I & H). cbn in I. destruct I as [<-|[<-|[]]]; cbn in H; lia. }
  split; [vm_compute; reflexivity|]. split; [vm_compute; reflexivity|]. split.
  - left. split; auto. exists 8. change (fst asked) with (fst (exec (client_run 20 3 4 netclient) askscript)). apply leads_faces. vm_compute. reflexivity.
  - exists 8. change (fst idle) with (fst (exec (tls_keyjail toys 20 true None None (zeros 65) (zeros 32)) [mkans 7 0 []])). apply leads_faces. vm_compute. reflexivity.
Qed.

(** A reply that is not taken leaves its bytes in the pipe, they are read as the next replies:
    a signature longer than allowed that looks like the beginning of a record. *)
Definition forged : list Z := frame [0] ++ le 8 200.
Definition strayscript : list ans :=
  step 11 ++ [mkans 8 0 (le 8 (len crt)); mkans 1 0 []; mkans (len crt) 0 crt; mkans 1 0 [7]] ++
  step 0 ++ step 1 ++ msg (repeat 3 32) ++ step 1 ++ step 8 ++ step 16 ++ [mkans 8 0 (le 8 (len forged))] ++
  step 32 ++ step 32 ++ step 2 ++ step 2 ++ step 32 ++ step 32 ++
  step 1 ++ step 4 ++ step 4 ++ step 200 ++
  [mkans 8 0 (le 8 1); mkans 1 0 [0]; mkans 8 0 (le 8 200); mkans 33 0 (frame [0] ++ frame (repeat 6 16))].
Definition strayclient : client :=
  Ask (Getcert (bs "d/../x.pem" ++ [0])) (fun _ => Ask (Mulgen (zeros 133) 29) (fun _ => Ask (Dosign 4 (repeat 1 40) 16 16) (fun _ =>
  Ask (Mul (repeat 5 32) (zeros 32) 771 52392 (zeros 32) (zeros 32)) (fun _ => Ask (Decrypt 23 771 (zeros 300) 13 200) (fun _ => Leave))))).
Definition straykey : list ans :=
  [mkans 7 0 []] ++ msg (bs "d/../x.pem" ++ [0]) ++ [ok; mkans 5 0 []; mkans 0 0 [1; len pemfile]; mkans 1 0 []; mkans 1 0 []; mkans (len pemfile) 0 pemfile; ok; ok; ok; ok; ok] ++ wrote (len crt) ++
  msg [] ++ msg [29] ++ [mkans 0 0 (repeat 9 66); mkans 32 0 (repeat 3 32)] ++ wrote 32 ++
  msg [4] ++ msg (le 8 16) ++ msg (repeat 1 16) ++ [mkans 2 0 []; ok; ok; mkans (len forged) 0 forged; ok; ok] ++ wrote (len forged) ++
  msg (repeat 5 32) ++ msg (zeros 32) ++ msg [3; 3] ++ msg [168; 204] ++ msg (zeros 32) ++ msg (zeros 32) ++ [mkans 1 0 (repeat 8 32); ok; ok; ok] ++
  [mkans 7 0 []] ++ msg [1] ++ msg (le 4 23) ++ msg (le 4 771) ++ msg (zeros 200) ++ [mkans 1 0 (0 :: repeat 6 16)] ++ wrote 1 ++ wrote 16 ++
  [mkans 7 0 []].
Definition strayn := Eval vm_compute in exec (client_run 20 3 4 strayclient) strayscript.
Definition strayk := Eval vm_compute in exec (tls_keyjail toys 20 true None None (zeros 65) (zeros 32)) straykey.
Lemma stray_ordered : ordered SNames strayclient.
Proof.
  split. { exists (bs "d/../x.pem"), []. split; auto. split; [apply nonul_dec; reflexivity|reflexivity]. }
  right. exists SNames. split; auto. intros _. split; [vm_compute; discriminate|]. right. exists SSign. split; auto. intros _.
  split; [repeat split; vm_compute; discriminate|]. right. exists SPeer. split; auto. intros _.
  split; [cbn; repeat split; reflexivity|]. right. exists SRecords. split; auto. intros _.
  split; [repeat split; vm_compute; discriminate|]. right. exists SRecords. split; auto. intros _. exact Logic.I.
Qed.
Lemma smooth : forall t : trace, forallb (fun e => 0 <? ret (snd e)) t = true -> ~ Exists hard t.
Proof.
  intros t H X. rewrite Exists_exists in X. destruct X as ([c a] & I & X). rewrite forallb_forall in H. specialize (H _ I). cbn [snd] in H.
  destruct c; cbn in X; try contradiction; lia.
Qed.
(** Without the exception the claim is false: here both are blocked.  The caller goes on
    after its signature was refused; BearSSL gives up the handshake at that point. *)
Theorem C99_unconditional_refuted : exists cl trn trk, ordered SNames cl /\ legal trn /\ legal trk /\ Forall env_ok trk /\ ~ Exists hard trn /\
  holds (sent 3 trn) (got 0 trk) [] /\ holds (sent 1 trk) (got 4 trn) [] /\
  blocked 65536 (client_run 20 3 4 cl) trn 4 [] 3 [] /\ blocked 65536 (tls_keyjail toys 20 true None None (zeros 65) (zeros 32)) trk 0 [] 1 [].
Proof.
  exists strayclient, (fst strayn), (fst strayk). split; [apply stray_ordered|]. split; [legal_by|]. split; [legal_by|]. split; [apply env_dec; vm_compute; reflexivity|].
  split; [apply smooth; vm_compute; reflexivity|]. split; [vm_compute; reflexivity|]. split; [vm_compute; reflexivity|]. split; left; (split; [|reflexivity]).
  - exists 167. change (fst strayn) with (fst (exec (client_run 20 3 4 strayclient) strayscript)). apply leads_faces. vm_compute. reflexivity.
  - exists 8. change (fst strayk) with (fst (exec (tls_keyjail toys 20 true None None (zeros 65) (zeros 32)) straykey)). apply leads_faces. vm_compute. reflexivity.
Qed.
Print Assumptions C99_unconditional_refuted.

(** While the request for the certificate is being written, the reply pipe is empty. *)
Definition asking := Eval vm_compute in exec (client_run 20 3 4 netclient) [mkans 8 0 []].
Example C99_writing : legal (fst asking) /\ ~ Exists hard (fst asking) /\ writes_next (client_run 20 3 4 netclient) (fst asking) 3 /\ len (sent 3 (fst asking)) = 8.
Proof.
  split; [legal_by|]. split; [apply smooth; vm_compute; reflexivity|]. split; [|vm_compute; reflexivity]. left. exists (bs "d/../x.pem" ++ [0]).
  change (fst asking) with (fst (exec (client_run 20 3 4 netclient) [mkans 8 0 []])). apply leads_faces. vm_compute. reflexivity.
Qed.
