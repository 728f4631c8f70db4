(** C104: which answer of the policy server decides about a recipient. *)
From Verif.Model Require Import Base Sys Buffer Stralloc Smtp.
From Verif.Spec Require Import Text Stream SmtpView.
From Verif.Proof Require Import Tac SysP CallsP IoP SmtpIoP SmtpStP SmtpP SmtpSessP SmtpViewP SmtpFactsP PlayP.
From Verif.Spec Require Import SmtpSpec.
From Verif.Props Require Import PropSmtp.

(** An answer of the policy server, as the protocol has it: a line and an empty line. *)
Definition full (y : list Z) : list Z := y ++ [10; 10].

Lemma story_split : forall g v t l1 l2 v', story g v t (l1 ++ l2) v' -> exists ta tb w, t = ta ++ tb /\ story g v ta l1 w /\ story g w tb l2 v'.
Proof.
  intros g v t l1. revert v t. induction l1 as [|a l1 IH]; intros v t l2 v' H; [exists [], t, v; split; auto; split; auto; constructor|]. cbn [app] in H. inversion H as [|? ? t1 v1 ? t2 ? D S]; subst.
  destruct (IH _ _ _ _ S) as (ta & tb & w & -> & A & B). exists (t1 ++ ta), tb, w. rewrite app_assoc. split; auto. split; auto. econstructor; eauto.
Qed.
Lemma first_line : forall a b u v, ~ In 10 a -> ~ In 10 b -> a ++ 10 :: u = b ++ 10 :: v -> a = b.
Proof.
  induction a as [|x a IH]; intros [|y b] u v A B E; [reflexivity| | |]; cbn [app] in E.
  - injection E as E _. destruct B. left. auto.
  - injection E as E _. destruct A. left. auto.
  - injection E as -> E. f_equal. eapply IH; eauto; intros X; [apply A|apply B]; right; exact X.
Qed.

(** In the session [g] with the calls [tr], the line that decides about a recipient was read after the question had been sent
    as a whole.  If all of the earlier answers, and no more, had been read by then, it is the answer to this question. *)
Definition decided (g : setting) (fd : Z) (tr : trace) : Prop :=
  exists l P, account g tr l P /\
    forall l1 q r l2, l = l1 ++ AAsk q :: AAnswer r :: l2 ->
      exists t1 tq ta t2, core tr = t1 ++ tq ++ ta ++ t2 /\ Forall (wr fd) tq /\ sent fd tq = q /\ Forall (rd fd) ta /\ is_prefix r (got fd ta) /\
        forall ys n, Forall (fun y => ~ In 10 y) ys -> is_prefix (got fd tr) (concat (map full ys)) -> got fd t1 = concat (map full (firstn n ys)) ->
          exists y, nth_error ys n = Some y /\ r = y ++ [10].
Lemma conforms_decided : forall g tr x fd, distinct g -> conforms g tr x -> policy g = Some fd -> decided g fd tr.
Proof.
  intros g tr x fd D CF PF. destruct CF as (t1 & t2 & l & v & P & C & S & FO & H).
  assert (AC : account g tr l P).
  {
    pose proof (story_client g D _ _ _ _ S) as SC. destruct (tlsp_story g _ _ _ _ S _ _ FO (tlsp_start g)) as [TP RA].
    assert (RP : forall p, P = Raise p -> offers g = true) by (intros p ->; inversion TP; assumption). pose proof (story_prog g D _ _ _ _ S RA) as SP. pose proof (story_tell g D _ _ _ _ S) as ST. cbn [view0 cu kp app] in SC, SP.
    assert (X : is_prefix (sent (toprog g) t2) (kp v ++ forwarded (pact P)) /\ is_prefix (sent 1 t2) (displayed (pact P))).
    { destruct x as [x|].
      - destruct H as [(-> & -> & _)|[(-> & H)|(_ & _ & H)]]; [split; apply prefix_nil|rewrite !(finished_sent _ _ _ _ H); split; apply prefix_nil|].
        split; [apply partial_prog; auto|eapply partial_tell; eauto].
      - split; [apply partial_prog; auto|eapply partial_tell; eauto]. }
    destruct X as (X1 & X2). split; auto. rewrite <- !(sent_core _ tr), <- (got_core _ tr), C, !got_app, !sent_app.
    split; [eexists; apply takes_app; exact SC|]. unfold forwarded, displayed in *. rewrite !flat_map_app. split.
    - rewrite <- SP, <- app_assoc. apply is_prefix_app2. auto.
    - rewrite ST. apply is_prefix_app2. auto. }
  exists l, P. split; [exact AC|]. intros l1 q r l2 ->.
  destruct (story_split _ _ _ _ _ _ S) as (u1 & u2 & w & -> & _ & S2). inversion S2 as [|? ? tq v1 ? u3 ? DQ S3]; subst. inversion S3 as [|? ? ta v2 ? u4 ? DA _]; subst.
  cbn [does] in DQ, DA. assert (G : gfd g = fd) by (unfold gfd; rewrite PF; reflexivity). rewrite G in DQ, DA. destruct DQ as (Q1 & Q2 & _). destruct DA as (A1 & A2 & _).
  exists u1, tq, ta, (u4 ++ t2). split; [rewrite C, <- !app_assoc; reflexivity|]. split; [exact Q1|]. split; [exact Q2|]. split; [exact A1|]. split; [exact A2|].
  intros ys n NL PR E1. assert (RL : exists z, r = z ++ [10] /\ ~ In 10 z).
  { apply follows_split in FO as (P1 & _ & FO). inversion FO as [|? ? P2 ? ? _ FO2]; subst. inversion FO2 as [|? ? P3 ? ? ST _]; subst. inversion ST; subst. eauto. }
  destruct RL as (z & -> & NZ). rewrite <- (got_core fd tr), C, !got_app, (wr_got fd fd tq Q1), E1 in PR. destruct A2 as (u & A2). rewrite A2 in PR. destruct PR as (x0 & PR).
  rewrite <- (firstn_skipn n ys) in PR at 1. rewrite map_app, concat_app, <- !app_assoc in PR. apply app_inv_head in PR. cbn [app] in PR.
  destruct (skipn n ys) as [|y rest] eqn:E; [cbn [map concat] in PR; destruct z; discriminate|]. exists y.
  assert (NT : nth_error ys n = Some y).
  { rewrite <- (firstn_skipn n ys), E. rewrite nth_error_app2; rewrite firstn_length; assert (length (skipn n ys) <> 0)%nat by (rewrite E; discriminate); rewrite skipn_length in *; [|lia]. replace (n - Nat.min n (length ys))%nat with 0%nat by lia. reflexivity. }
  split; [exact NT|]. f_equal. symmetry. cbn [map concat] in PR. unfold full in PR. rewrite <- !app_assoc in PR. cbn [app] in PR. eapply first_line; [| |exact PR]; [|exact NZ].
  apply nth_error_In in NT. rewrite Forall_forall in NL. auto.
Qed.

Section Answers.
Variable fuel : nat.
Variable c : cfg.
Variable g : setting.
Hypothesis SU : setup c g.
Hypothesis D : distinct g.

Theorem C104_own : forall tr o fd, runs (smtp fuel c) tr o -> fine tr -> policy g = Some fd -> decided g fd tr.
Proof. intros tr o fd R F PF. destruct (conf fuel c g SU tr o R F) as (_ & CF). eapply conforms_decided; eauto. Qed.
End Answers.
Print Assumptions C104_own.

(** Two recipients, one let through, one refused; each answer is read as a whole. *)
Definition ask3 (t : list Z) : list Z :=
  bs "request=smtpd_access_policy" ++ [10] ++ bs "client_address=192.0.2.1" ++ [10] ++ bs "sender=<s@a>" ++ [10] ++ bs "recipient=" ++ t ++ [10; 10].
Definition mail1 : list Z := crlf (bs "MAIL FROM:<s@a>").
Definition to (t : list Z) : list Z := crlf (bs "RCPT TO:" ++ t).
Example ex_answers : setup (c1 7 true) (g1 (Some 7) true) /\ distinct (g1 (Some 7) true) /\ policy (g1 (Some 7) true) = Some 7 /\ exists tr, runs (smtp budget (c1 7 true)) tr (Fin 111) /\ fine tr /\
  sent 7 tr = ask3 (bs "<t@b>") ++ ask3 (bs "<u@b>") /\ got 7 tr = concat (map full [bs "action=dunno"; bs "action=reject"]) /\ sent 8 tr = mail1 ++ to (bs "<t@b>").
Proof.
  split; [apply ex_setup|]. split; [apply ex_setup|]. split; [reflexivity|].
  destruct (shown_run [mail1; to (bs "<t@b>"); to (bs "<u@b>")] (hello ++ [crlf (bs "250 ok"); crlf (bs "250 ok")]) [full (bs "action=dunno"); full (bs "action=reject")] true
    (fun tr o => exits 111 o && same (sent 7 tr) (ask3 (bs "<t@b>") ++ ask3 (bs "<u@b>")) && same (got 7 tr) (concat (map full [bs "action=dunno"; bs "action=reject"])) && same (sent 8 tr) (mail1 ++ to (bs "<t@b>")))) as (tr & o & R & F & Q).
  { vm_compute. reflexivity. }
  rewrite !andb_true_iff in Q. destruct Q as [[[Q1 Q2] Q3] Q4]. apply exits_true in Q1. subst o. apply same_true in Q2, Q3, Q4. exists tr. auto 10.
Qed.
(** "A recipient that the policy server rejects is not passed on": the empty line of the first answer comes later than its first
    line and is taken for the second answer, and the second answer for the third, which would have been a rejection. *)
Theorem C104_own_refuted : exists tr, runs (smtp budget (c1 7 true)) tr (Fin 111) /\ fine tr /\
  sent 7 tr = ask3 (bs "<t@b>") ++ ask3 (bs "<u@b>") ++ ask3 (bs "<v@b>") /\
  is_prefix (got 7 tr) (concat (map full [bs "action=dunno"; bs "action=dunno"; bs "action=reject"])) /\
  sent 8 tr = mail1 ++ to (bs "<t@b>") ++ to (bs "<v@b>").
Proof.
  destruct (shown_run [mail1; to (bs "<t@b>"); to (bs "<u@b>"); to (bs "<v@b>")] (hello ++ [crlf (bs "250 ok"); crlf (bs "250 ok"); crlf (bs "250 ok")]) [bs "action=dunno" ++ [10]; [10]; full (bs "action=dunno"); full (bs "action=reject")] true
    (fun tr o => exits 111 o && same (sent 7 tr) (ask3 (bs "<t@b>") ++ ask3 (bs "<u@b>") ++ ask3 (bs "<v@b>")) && same (got 7 tr) (concat (map full [bs "action=dunno"; bs "action=dunno"])) && same (sent 8 tr) (mail1 ++ to (bs "<t@b>") ++ to (bs "<v@b>")))) as (tr & o & R & F & Q).
  { vm_compute. reflexivity. }
  rewrite !andb_true_iff in Q. destruct Q as [[[Q1 Q2] Q3] Q4]. apply exits_true in Q1. subst o. apply same_true in Q2, Q3, Q4. exists tr. split; [exact R|]. split; [exact F|]. split; [exact Q2|]. split; [|exact Q4].
  rewrite Q3. exists (full (bs "action=reject")). reflexivity.
Qed.
Print Assumptions C104_own_refuted.
