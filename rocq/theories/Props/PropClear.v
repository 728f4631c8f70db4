(** The cleartext phase of delayed encryption, and signals. *)
From Verif.Model Require Import Base Sys Io Fdio Relay Session.
From Verif.Spec Require Import Flow Starttls.
From Verif.Proof Require Import Tac SysP PlayP WpP TcpP CurP ClearP.

Section Phase.
Variables timeout finish pi po ci co cc ck self f1 f2 : Z.
Variables m1 m2 : list Z.
Variable fuel : nat.
Hypothesis SETUP : clear_setup pi po ci co cc ck self.
(** The two static buffers have 8192 bytes each. *)
Hypothesis MEM : len m1 = 8192 /\ len m2 = 8192.
Variable tr : trace.
Variable o : outcome (Z * sess).
Hypothesis RUN : runs (cleartext timeout finish self fuel (mksess pi po ci co cc ck (mkrbuf m1 f1) (mkrbuf m2 f2))) tr o.
Hypothesis LEGAL : legal tr.

Let all : o <> Wrong /\ always (cok pi po ci co cc ck self) tr /\ (forall r, o = Fin r -> cstop pi po ci co cc ck self tr (fst r) (snd r)).
Proof. destruct MEM as [M1 M2]. apply (wp_run _ _ _ _ (wp_cleartext timeout finish pi po ci co cc ck self SETUP fuel m1 m2 f1 f2 M1 M2) _ _ RUN LEGAL). Qed.
Lemma always_weak : forall (P Q : trace -> event -> Prop) t, (forall t e, P t e -> Q t e) -> always P t -> always Q t.
Proof. intros P Q t I A t1 e t2 E. apply I. eapply A. exact E. Qed.
Lemma always_last : forall i j t, always (fun t e => cbal i j (t ++ [e])) t -> cbal i j t.
Proof. intros i j t A. destruct t as [|e t _] using rev_ind; [exists []; split; [reflexivity|rewrite len_nil; lia]|]. eapply A. reflexivity. Qed.

(** Both directions pass the bytes on unchanged and in order, at most 8192 on the way. *)
Theorem C58_streams : o <> Wrong /\ conduit [] pi ci 8192 tr /\ conduit [] co po 8192 tr.
Proof.
  destruct all as (W & A & _). split; auto. split; (split; [eapply always_weak; [|exact A]; unfold cok; tauto|apply always_last; eapply always_weak; [|exact A]; unfold cok; tauto]).
Qed.
(** The control byte is looked for only after everything read from the child is with the peer;
    after it nothing is read and only the acknowledgement is written, once. *)
Theorem C58_boundary : always (clear_boundary pi po co cc ck) tr.
Proof. destruct all as (W & A & _). eapply always_weak; [|exact A]. unfold cok. tauto. Qed.
(** Closing and waiting. *)
Theorem C58_close : always usable tr /\ always (clear_close pi po ci co cc ck self) tr.
Proof. destruct all as (W & A & _). split; (eapply always_weak; [|exact A]); unfold cok; tauto. Qed.
Theorem C58_flow : always (clear_select pi po ci co cc ck self) tr /\ always (clear_serve pi po ci co cc self) tr.
Proof. destruct all as (W & A & _). split; (eapply always_weak; [|exact A]); unfold cok; tauto. Qed.
(** Entering the TLS phase: no cleartext is left in the buffers. *)
Theorem C58_tls : forall s, o = Fin (1, s) -> clear_tls pi po co cc ck tr /\ fill (toc s) = 0 /\ fill (ton s) = 0 /\ peerin s = pi /\ peerout s = po /\
  (childin s = ci /\ ~ closed ci tr \/ childin s = -1 /\ closed ci tr) /\ (childout s = co /\ ~ closed co tr \/ childout s = -1 /\ closed co tr).
Proof.
  destruct all as (W & _ & F). intros s E. destruct (F _ E) as (b1 & b2 & S & [(_ & T & L1 & L2)|(R & _)]); [|discriminate R]. cbn [snd] in S. subst s. split; auto. split; auto. split; auto. destruct T as (_ & _ & _ & N1 & N2 & _).
  split; [apply cur_is; auto|]. split; [apply cur_is; auto|]. cbn [childin childout here]. split; unfold cur.
  - destruct (closedb ci tr) eqn:C; [right; split; auto; apply closedb_iff; auto|left; split; auto; rewrite <- closedb_iff; congruence].
  - destruct (closedb co tr) eqn:C; [right; split; auto; apply closedb_iff; auto|left; split; auto; rewrite <- closedb_iff; congruence].
Qed.
(** Without TLS: no acknowledgement was sent. *)
Theorem C58_over : forall r s, o = Fin (r, s) -> r <> 1 -> r = 0 /\ sent ck tr = [] /\ clear_over pi po ci co cc self tr.
Proof. destruct all as (W & _ & F). intros r s E N. destruct (F _ E) as (b1 & b2 & S & [(R & _)|R]); [contradiction|]. exact R. Qed.

(** Whatever signals arrive, the output of the child is waited for as long as its end has not
    been seen and the timer has not expired. *)
Theorem C62_output : always (fun t e => forall n rd wr us, fst e = Select n rd wr us -> ~ eof co t -> ~ told self 65 t -> room co po t -> In co rd) tr.
Proof.
  intros t1 e t2 E n rd wr us C NE NT RO. destruct all as (_ & A & _). pose proof (A t1 e t2 E) as (_ & _ & _ & _ & _ & SE & _). unfold clear_select in SE. rewrite C in SE.
  destruct SE as (_ & _ & _ & SE & _). apply SE. split; auto. intros (a & I). apply in_split in I as (u1 & u2 & I).
  assert (E2 : tr = u1 ++ (Close co, a) :: (u2 ++ e :: t2)) by (rewrite E, I, <- app_assoc; reflexivity).
  pose proof (A _ _ _ E2) as (_ & _ & _ & CL & _). unfold clear_close in CL. cbn [fst] in CL.
  assert (R : eof co u1 \/ told self 65 u1).
  { destruct SETUP as [ND _]. unfold clear_reason in CL.
    assert (N : co <> pi /\ co <> po /\ co <> ci /\ co <> cc /\ co <> ck) by (split; [|split; [|split; [|split]]]; [apply (n_co_pi pi po ci co cc ck self)|apply (n_co_po pi po ci co cc ck self)|apply (n_co_ci pi po ci co cc ck self)|apply (n_co_cc pi po ci co cc ck self)|apply (n_co_ck pi po ci co cc ck self)]; exact SETUP). tauto. }
  destruct R as [R|R].
  - apply NE. rewrite I. apply eof_app. auto.
  - apply NT. unfold told in *. rewrite I, got_app. apply in_or_app. auto.
Qed.
End Phase.
Print Assumptions C58_streams. Print Assumptions C58_boundary. Print Assumptions C58_close. Print Assumptions C58_flow. Print Assumptions C58_tls. Print Assumptions C58_over.
Print Assumptions C62_output.

(** ** Signals *)
(** The byte for a signal: C for the end of the wrapped program, A for the timer, zero for
    anything else, another child included. *)
Theorem C62_byte : forall child signum sender, let b := signalbyte child signum sender in
  (b = 65 <-> signum = 14) /\ (b = 67 <-> signum = 17 /\ sender = Some child) /\ (b <> 65 -> b <> 67 -> b = 0).
Proof.
  intros child signum sender b. unfold b, signalbyte, SIGALRM, SIGCHLD. destruct (Z.eqb_spec signum 14) as [->|N].
  - cbn [Z.eqb Pos.eqb]. split; [tauto|]. split; [|lia]. split; [discriminate|]. intros []; discriminate.
  - split; [split; [|contradiction]; destruct (_ && _); discriminate|]. destruct (Z.eqb_spec signum 17) as [->|M]; cbn [andb].
    + destruct sender as [p|]; [destruct (Z.eqb_spec p child) as [->|P]|]; split; try lia; split; try discriminate; auto; intros [_ H]; congruence.
    + split; [|lia]. split; [discriminate|]. intros []; contradiction.
Qed.
(** The handler writes that byte, again after an interruption, and nothing else. *)
Theorem C62_handler : forall fuel selfout child signum sender tr o,
  runs (signalhandler fuel selfout child signum sender) tr o ->
  o <> Wrong /\ (forall e, In e tr -> fst e = Write selfout [signalbyte child signum sender]) /\
  (o = Fin tt -> exists t a, tr = t ++ [(Write selfout [signalbyte child signum sender], a)] /\ ~ (ret a = -1 /\ err a = EINTR) /\
     forall c x, In (c, x) t -> ret x = -1 /\ err x = EINTR).
Proof.
  induction fuel as [|fuel IH]; intros selfout child signum sender tr o R; cbn [signalhandler] in R.
  - destruct R as [-> ->]. split; [discriminate|]. split; [intros e []|discriminate].
  - unfold sys1 in R. cbn [pbind] in R. destruct R as [[-> ->]|(a & t & -> & R)]; [split; [discriminate|]; split; [intros e []|discriminate]|]. cbn [pbind] in R.
    destruct ((ret a =? -1) && (err a =? EINTR)) eqn:E.
    + apply IH in R as (W & C & F). split; auto. split.
      * intros e [<-|I]; [reflexivity|apply C; auto].
      * intros O. destruct (F O) as (u & b & -> & N & P). exists ((Write selfout [signalbyte child signum sender], a) :: u), b. split; [reflexivity|]. split; auto.
        intros c x [I|I]; [injection I as <- <-; lia|eauto].
    + destruct R as [-> ->]. split; [discriminate|]. split; [intros e [<-|[]]; reflexivity|]. intros _. exists [], a. split; [reflexivity|]. split; [lia|]. intros c x [].
Qed.
(** What the relay loops do when the self-pipe is readable: after C the input of the child is
    closed and the finish timer started; after A, while a descriptor of the child is open, all of
    them are closed and the timer started; everything else ends the loop. *)
Definition some_open (s : sess) : Prop := exists f, In f [childin s; childout s; childctl s; childack s] /\ f <> -1.
Definition alarmed (finish : Z) (tr : trace) : Prop := exists t a, tr = t ++ [(Other (bs "alarm") [finish] [], a)].
Definition event_spec (finish self : Z) (s : sess) (tr : trace) (x : bool * sess) : Prop :=
  let (stop, s') := x in
  exists a rest, tr = (Read self 1, a) :: rest /\
    (peerin s' = peerin s /\ peerout s' = peerout s /\ toc s' = toc s /\ ton s' = ton s) /\
    (soft a -> stop = false /\ s' = s /\ rest = []) /\
    (ret a <= 0 -> ~ soft a -> stop = true /\ s' = s /\ rest = []) /\
    (data a = [67] -> stop = false /\ childin s' = -1 /\ childout s' = childout s /\ childctl s' = childctl s /\ childack s' = childack s /\
       (forall f, closed f rest <-> f <> -1 /\ f = childin s) /\ alarmed finish rest) /\
    (data a = [65] -> some_open s -> stop = false /\ childin s' = -1 /\ childout s' = -1 /\ childctl s' = -1 /\ childack s' = -1 /\
       (forall f, closed f rest <-> f <> -1 /\ In f [childin s; childout s; childctl s; childack s]) /\ alarmed finish rest) /\
    (0 < ret a -> data a <> [67] -> (data a = [65] -> ~ some_open s) -> stop = true /\ s' = s /\ rest = []).
Lemma ev_shut_w : forall t v, wp (fun _ _ => True) t (shut_w v) (fun t' x => x = -1 /\ exists u, t' = t ++ u /\ forall f, closed f u <-> f <> -1 /\ f = v).
Proof.
  intros t v. apply wp_shut_w.
  - intros ->. split; auto. exists []. split; [rewrite app_nil_r; auto|]. intros f. split; [intros (a & [])|tauto].
  - intros N a b. split; [exact I|]. split; [exact I|]. split; auto. exists [(Shutdown v 1, a); (Close v, b)]. split; auto. intros f. split.
    + intros (x & [C|[C|[]]]); [discriminate|]. injection C as -> _. auto.
    + intros [_ ->]. exists b. right. left. auto.
Qed.
Lemma ev_shut_r : forall t v, wp (fun _ _ => True) t (shut_r v) (fun t' x => x = -1 /\ exists u, t' = t ++ u /\ forall f, closed f u <-> f <> -1 /\ f = v).
Proof.
  intros t v. apply wp_shut_r.
  - intros ->. split; auto. exists []. split; [rewrite app_nil_r; auto|]. intros f. split; [intros (a & [])|tauto].
  - intros N a b. split; [exact I|]. split; [exact I|]. split; auto. exists [(Shutdown v 0, a); (Close v, b)]. split; auto. intros f. split.
    + intros (x & [C|[C|[]]]); [discriminate|]. injection C as -> _. auto.
    + intros [_ ->]. exists b. right. left. auto.
Qed.
Lemma open_some : forall s, open (childin s) || open (childout s) || open (childctl s) || open (childack s) = true <-> some_open s.
Proof.
  intros s. unfold some_open, open. rewrite !orb_true_iff, !negb_true_iff, !Z.eqb_neq. cbn [In]. split.
  - intros [[[H|H]|H]|H]; [exists (childin s)|exists (childout s)|exists (childctl s)|exists (childack s)]; tauto.
  - intros (f & [<-|[<-|[<-|[<-|[]]]]] & N); tauto.
Qed.
Lemma wp_event : forall finish self s, wp (fun _ _ => True) [] (selfpipe_event finish self s) (event_spec finish self s).
Proof.
  intros finish self s. unfold selfpipe_event.
  eapply wp_bind with (M := fun t x => exists a, t = [(Read self 1, a)] /\ x = (ret a, err a, data a) /\ sys_ok (Read self 1, a)).
  { apply wp_read; [unfold CHUNK; lia|lia|]. intros a SO. split; [exact I|]. exists a. auto. }
  intros t x (a & -> & -> & SO). set (r := (Read self 1, a)).
  destruct (again (ret a) (err a)) eqn:AG.
  { assert (S : soft a) by (unfold again in AG; unfold soft; lia). pose proof (again_ret _ _ AG) as R. apply wp_ret. exists a, []. split; auto. split; auto. split; auto. split; [tauto|]. rewrite (read_none self 1 a SO) by lia. split; [discriminate|]. split; [discriminate|lia]. }
  assert (S : ~ soft a) by (unfold again in AG; unfold soft; lia).
  destruct (Z.leb_spec (ret a) 0) as [L|L].
  { apply wp_ret. exists a, []. split; auto. split; auto. split; [tauto|]. split; auto. rewrite (read_none self 1 a SO) by lia. split; [discriminate|]. split; [discriminate|lia]. }
  cbn [sys_ok] in SO. destruct SO as [[Z0 _]|(Z1 & Z0 & _)]; [lia|].
  destruct (data a) as [|ch d] eqn:DA; [rewrite len_nil in Z0; lia|]. rewrite len_cons in Z0. assert (d = []) by (destruct d as [|y d]; auto; rewrite len_cons in Z0; pose proof (len_nonneg _ d); lia). subst d. cbn [List.hd].
  assert (AL : forall f u x, closed f (u ++ [(Other (bs "alarm") [finish] [], x)]) <-> closed f u) by (intros; apply closed_snoc; discriminate).
  destruct (Z.eqb_spec ch 67) as [->|N67].
  { eapply wp_bind; [apply ev_shut_w|]. cbn beta. intros t v (-> & u & -> & U). eapply wp_bind with (M := fun t _ => exists x, t = ([r] ++ u) ++ [(Other (bs "alarm") [finish] [], x)]); [apply wp_alarm; intros x; split; [exact I|eauto]|].
    cbn beta. intros t _ (x & ->). apply wp_ret. exists a, (u ++ [(Other (bs "alarm") [finish] [], x)]). split; [reflexivity|]. split; [auto|]. split; [tauto|]. split; [lia|].
    split; [|rewrite DA; split; [discriminate|intros _ W; destruct W; reflexivity]]. intros _. cbn [set_childin childin childout childctl childack]. repeat (split; [solve [auto]|]). split; [intros f; rewrite AL; apply U|]. exists u, x. auto. }
  destruct (Z.eqb_spec ch 65) as [->|N65]; cbn [andb].
  2:{ apply wp_ret. exists a, []. split; auto. split; auto. split; [tauto|]. split; [lia|]. rewrite DA. split; [intros W; injection W as ->; contradiction|]. split; [intros W; injection W as ->; contradiction|]. auto. }
  pose proof (open_some s) as OS. destruct (open (childin s) || open (childout s) || open (childctl s) || open (childack s)).
  2:{ apply wp_ret. exists a, []. split; auto. split; auto. split; [tauto|]. split; [lia|]. rewrite DA. split; [discriminate|]. split; [|auto]. intros _ W. apply OS in W. discriminate. }
  pose proof (proj1 OS eq_refl) as SO. clear OS.
  eapply wp_bind; [apply ev_shut_w|]. cbn beta. intros t v (-> & u1 & -> & U1). cbv zeta. cbn [set_childin set_childout set_childctl set_childack childin childout childctl childack peerin peerout toc ton].
  eapply wp_bind; [apply ev_shut_r|]. cbn beta. intros t v (-> & u2 & -> & U2). cbn [set_childin set_childout set_childctl set_childack childin childout childctl childack peerin peerout toc ton].
  eapply wp_bind; [apply ev_shut_r|]. cbn beta. intros t v (-> & u3 & -> & U3). cbn [set_childin set_childout set_childctl set_childack childin childout childctl childack peerin peerout toc ton].
  eapply wp_bind; [apply ev_shut_w|]. cbn beta. intros t v (-> & u4 & -> & U4).
  eapply wp_bind with (M := fun t _ => exists x, t = (((([r] ++ u1) ++ u2) ++ u3) ++ u4) ++ [(Other (bs "alarm") [finish] [], x)]); [apply wp_alarm; intros x; split; [exact I|eauto]|].
  cbn beta. intros t _ (x & ->). apply wp_ret. exists a, ((((u1 ++ u2) ++ u3) ++ u4) ++ [(Other (bs "alarm") [finish] [], x)]). split; [rewrite <- !app_assoc; reflexivity|]. split; [auto|]. split; [tauto|]. split; [lia|].
  rewrite DA. split; [discriminate|]. split; [|intros _ _ W; destruct (W eq_refl SO)]. intros _ _. cbn [set_childin set_childout set_childctl set_childack childin childout childctl childack].
  repeat (split; [solve [auto]|]). split; [|exists (((u1 ++ u2) ++ u3) ++ u4), x; auto]. intros f. rewrite AL, !closed_app, U1, U2, U3, U4. cbn [In]. clear. intuition.
Qed.
Theorem C62_event : forall finish self s tr o, runs (selfpipe_event finish self s) tr o -> legal tr ->
  o <> Wrong /\ forall x, o = Fin x -> event_spec finish self s tr x.
Proof. intros finish self s tr o R L. destruct (wp_run _ _ _ _ (wp_event finish self s) _ _ R L) as (W & _ & F). auto. Qed.
Print Assumptions C62_byte. Print Assumptions C62_handler. Print Assumptions C62_event.

(** ** A session: the banner, one command, STARTTLS; the byte after it is dropped. *)
Definition buf : list Z := repeat 0 (Z.to_nat 8192).
Definition start : sess := mksess 0 1 4 3 5 6 (mkrbuf buf 0) (mkrbuf buf 0).
Definition script : list ans :=
  [ready [3]; rd (bs "220 hi"); ok 0 (* alarm *); ready [-2]; ok 4; ready [-2]; ok 2;
   ready [0]; rd (bs "STARTTLS"); ok 0; ready [-5]; ok 8; ready [0]; rd (bs "x"); ok 0;
   ready [3]; rd (bs "220 go"); ok 0; ready [5; -2]; ok 6; ready [5; -5]; rd [0]; ok 0; ok 0; later; ok 0; ok 1; ok 0; ok 0].
Definition run_ok (tr : trace) (o : outcome (Z * sess)) : bool :=
  match o with Fin (r, s) => (r =? 1) && (fill (toc s) =? 0) | _ => false end &&
  same (sent 1 tr) (bs "220 hi220 go") && same (sent 4 tr) (bs "STARTTLS") && same (got 0 tr) (bs "STARTTLSx") && same (sent 6 tr) [0].
Example ex_starttls : clear_setup 0 1 4 3 5 6 7 /\ (len buf = 8192) /\
  exists tr s, runs (cleartext 60 10 7 (Z.to_nat 40) start) tr (Fin (1, s)) /\ legal tr /\
    sent 1 tr = bs "220 hi220 go" /\ sent 4 tr = bs "STARTTLS" /\ got 0 tr = bs "STARTTLSx" /\ sent 6 tr = [0].
Proof.
  split. { split; [repeat constructor; cbn; lia|]. repeat apply Forall_cons; [lia..|apply Forall_nil]. }
  split; [reflexivity|].
  destruct (follow_show _ script (cleartext 60 10 7 (Z.to_nat 40) start) run_ok) as (tr & o & R & L & Q); [vm_compute; reflexivity|].
  unfold run_ok in Q. rewrite !andb_true_iff in Q. destruct Q as [[[[Q1 Q2] Q3] Q4] Q5]. destruct o as [[r s]| |]; try discriminate.
  assert (r = 1) by lia. subst r. exists tr, s. split; auto. split; auto. split; [apply same_true; auto|]. split; [apply same_true; auto|]. split; apply same_true; auto.
Qed.
(** The child ends: its input is closed, the rest of its output still goes out. *)
Definition script2 : list ans := [ready [7]; rd [67]; ok 0; ok 0; ok 0; ready [3]; rd (bs "bye"); ok 0; ready [3; -2]; ok 3; ready [3]; rd []; ok 0; ok 0; ok 0; ok 0; ready [0; 7]; rd [65]; ok 0; ok 0; ok 0; ok 0; ok 0; ready [7]; rd [65]].
Definition run_ok2 (tr : trace) (o : outcome (Z * sess)) : bool :=
  match o with Fin (r, s) => (r =? 0) && (peerout s =? -1) | _ => false end && same (sent 1 tr) (bs "bye") && same (got 7 tr) [67; 65; 65].
Example ex_child_ends : exists tr s, runs (cleartext 60 10 7 (Z.to_nat 40) start) tr (Fin (0, s)) /\ legal tr /\ sent 1 tr = bs "bye" /\ got 7 tr = [67; 65; 65].
Proof.
  destruct (follow_show _ script2 (cleartext 60 10 7 (Z.to_nat 40) start) run_ok2) as (tr & o & R & L & Q); [vm_compute; reflexivity|].
  unfold run_ok2 in Q. rewrite !andb_true_iff in Q. destruct Q as [[Q1 Q2] Q3]. destruct o as [[r s]| |]; try discriminate.
  assert (r = 0) by lia. subst r. exists tr, s. split; auto. split; auto. split; apply same_true; auto.
Qed.
