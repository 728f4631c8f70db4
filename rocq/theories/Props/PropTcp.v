(** The TCP relay. *)
From Verif.Model Require Import Base Sys Relay.
From Verif.Spec Require Import Flow.
From Verif.Proof Require Import Tac SysP SmtpIoP PlayP WpP TcpP.

Section Relay.
Variables timeout ri ro self : Z.
Variable h : list Z.
Variable fuel : nat.
Hypothesis SETUP : tcp_setup ri ro self h.
Variable tr : trace.
Variable o : outcome Z.
Hypothesis RUN : runs (tcp_relay timeout self fuel ri ro h) tr o.
Hypothesis LEGAL : legal tr.

Let all : o <> Wrong /\ always (tok ri ro self h) tr /\ (forall r, o = Fin r -> r = 0 /\ finished ri ro self h tr /\ closed ri tr /\ closed ro tr).
Proof. destruct SETUP as (A & B & C). apply (wp_run _ _ _ _ (wp_relay timeout ri ro self h A B C fuel) _ _ RUN LEGAL). Qed.

Lemma always_impl : forall (P Q : trace -> event -> Prop) t, (forall t e, P t e -> Q t e) -> always P t -> always Q t.
Proof. intros P Q t I A t1 e t2 E. apply I. eapply A. exact E. Qed.
Lemma always_bal : forall g i j t, always (fun t e => exists p, g ++ got i (t ++ [e]) = sent j (t ++ [e]) ++ p /\ len p <= 8192) t -> len g <= 8192 ->
  exists p, g ++ got i t = sent j t ++ p /\ len p <= 8192.
Proof.
  intros g i j t A G. destruct t as [|e t _] using rev_ind; [exists g; split; [cbn; apply app_nil_r|auto]|]. eapply A. reflexivity.
Qed.

(** Both directions pass the bytes on unchanged and in order (the PROXY header first), with at
    most 8192 bytes on the way; every write offers all of those, every read asks for what is
    free.  The relay is free of undefined behaviour. *)
Theorem C56_streams : o <> Wrong /\ conduit h 0 ro 8192 tr /\ conduit [] ri 1 8192 tr.
Proof.
  destruct all as (W & A & _). split; auto. split; (split; [eapply always_impl; [|exact A]; unfold tok; tauto|apply always_bal]).
  - eapply always_impl; [|exact A]. unfold tok. intros t e H. apply H.
  - apply SETUP.
  - eapply always_impl; [|exact A]. unfold tok. intros t e H. apply H.
  - rewrite len_nil. lia.
Qed.
(** Descriptors are closed once, not used afterwards, and only for the reasons given. *)
Theorem C57_close : always usable tr /\ always (tcp_close ri ro self h) tr.
Proof. destruct all as (W & A & _). split; (eapply always_impl; [|exact A]); unfold tok; tauto. Qed.
(** End of file is passed on before the next wait, every direction that is alive is waited for,
    and what is ready is served. *)
Theorem C57_flow : always (tcp_select ri ro self h) tr /\ always (tcp_serve ri ro) tr.
Proof. destruct all as (W & A & _). split; (eapply always_impl; [|exact A]); unfold tok; tauto. Qed.
(** How the relay ends. *)
Theorem C57_end : forall r, o = Fin r -> r = 0 /\ tcp_end ri ro self h tr /\ closed ri tr /\ closed ro tr.
Proof. destruct all as (W & _ & F). exact F. Qed.
End Relay.
Print Assumptions C56_streams. Print Assumptions C57_close. Print Assumptions C57_flow. Print Assumptions C57_end.

(** A request and an answer through the relay, with a PROXY header, EAGAIN and half close. *)
Definition steps : nat := Z.to_nat 400.
Lemma shown_tcp : forall w h (Q : trace -> outcome Z -> bool),
  (let '(tr, o) := play steps w (tcp_relay 60 9 steps 5 6 h) in forallb sys_okb tr && forallb clock_okb tr && Q tr o) = true ->
  exists tr o, runs (tcp_relay 60 9 steps 5 6 h) tr o /\ legal tr /\ Q tr o = true.
Proof. intros w h Q H. apply play_show in H as (tr & o & A & [B _] & C). eauto. Qed.
Example ex_relay : tcp_setup 5 6 9 (bs "PROXY x") /\
  exists tr, runs (tcp_relay 60 9 steps 5 6 (bs "PROXY x")) tr (Fin 0) /\ legal tr /\
    sent 6 tr = bs "PROXY xGET /" /\ sent 1 tr = bs "200 hello" /\ eof 0 tr /\ eof 5 tr.
Proof.
  split.
  { split; [|split; [lia|unfold len; cbn; lia]]. repeat constructor; cbn; lia. }
  destruct (shown_tcp [(0, [bs "GET"; []; bs " /"]); (5, [[]; bs "200 "; bs "hello"])] (bs "PROXY x")
    (fun tr o => exits 0 o && same (sent 6 tr) (bs "PROXY xGET /") && same (sent 1 tr) (bs "200 hello") &&
       existsb (fun e => match e with (Read g _, a) => (g =? 0) && (ret a =? 0) | _ => false end) tr && existsb (fun e => match e with (Read g _, a) => (g =? 5) && (ret a =? 0) | _ => false end) tr)) as (tr & o & R & F & Q).
  { vm_compute. reflexivity. }
  rewrite !andb_true_iff in Q. destruct Q as [[[[Q1 Q2] Q3] Q4] Q5]. apply exits_true in Q1. subst o. exists tr. split; auto. split; auto.
  split; [apply same_true; auto|]. split; [apply same_true; auto|].
  assert (E : forall f, existsb (fun e => match e with (Read g _, a) => (g =? f) && (ret a =? 0) | _ => false end) tr = true -> eof f tr).
  { intros f X. apply existsb_exists in X as ([c a] & I & X). destruct c as [g n| | | | | | | |]; try discriminate. exists n, a. replace g with f in I by lia. split; auto. split; [lia|]. intros [S _]. lia. }
  split; apply E; auto.
Qed.
