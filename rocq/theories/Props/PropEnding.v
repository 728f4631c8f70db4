(** C100: what the log says about the end of a TLS connection. *)
From Verif.Model Require Import Base Sys Io Str Fdio Relay Session Tlsphase Ending.
From Verif.Spec Require Import Farewell.
From Verif.Proof Require Import Tac SysP CallsP PerformP ConfigP OptionsP SafeP MainCallsP DescP ToldP.

(** ** Calls after which the last word of the engine is what it was *)
Definition nostate (c : sys) : Prop := match c with Other n _ _ => n <> bs "tls_engine_current_state" | _ => True end.
Lemma last_app : forall a b, last_state (a ++ b) = match last_state b with Some x => Some x | None => last_state a end.
Proof. induction a as [|e a IH]; intros b; cbn [app last_state]; [destruct (last_state b); reflexivity|]. rewrite IH. destruct (last_state b); reflexivity. Qed.
Lemma last_none : forall t, Forall (fun e => nostate (fst e)) t -> last_state t = None.
Proof.
  intros t H. induction H as [|[c a] t N H IH]; cbn [last_state]; [reflexivity|]. rewrite IH. unfold state_said. cbn [fst] in *. destruct c; auto.
  destruct (list_eq_dec _ _ _); [contradiction|reflexivity].
Qed.
Lemma last_in : forall t st, last_state t = Some st -> exists e, In e t /\ state_said e = Some st.
Proof.
  induction t as [|e t IH]; intros st H; cbn [last_state] in H; [discriminate|]. destruct (last_state t) as [x|] eqn:E.
  - injection H as ->. destruct (IH st eq_refl) as (y & I & S). exists y. split; [right; exact I|exact S].
  - exists e. split; [left; reflexivity|exact H].
Qed.
Ltac mute := repeat (calls1 || (progress cbv zeta)); try exact Logic.I; try (cbn [nostate]; discriminate).
Lemma writeall_nostate : forall f fd x n, calls nostate (writeall f fd x n).
Proof. induction f; intros; cbn [writeall]; mute; auto. Qed.
Lemma pipe_write_nostate : forall f fd x n, calls nostate (pipe_write f fd x n).
Proof. intros. eapply calls_weak; [apply pipe_write_calls|]. intros c [[b ->]| ->]; exact Logic.I. Qed.
Lemma report_nostate : forall t u n st s, calls nostate (report_handshake t u n st s).
Proof. intros. unfold report_handshake, report_user, engine, alarm. mute; auto using pipe_write_nostate. Qed.

(** ** A round of the loop *)
Lemma fin_bind : forall A B (p : prog A) (f : A -> prog B) tr r, runs (pbind p f) tr (Fin r) ->
  exists a t1 t2, tr = t1 ++ t2 /\ runs p t1 (Fin a) /\ runs (f a) t2 (Fin r).
Proof. intros A B p f tr r R. apply runs_bind in R as [(a & t1 & t2 & E & R1 & R2)|[[_ E]|[_ E]]]; [|discriminate..]. exists a, t1, t2. auto. Qed.
Ltac fb R a t R1 := apply fin_bind in R as (a & t & ?u & -> & R1 & R).
Ltac fr R := destruct R as [-> R]; injection R as ->.

Lemma state_runs : forall t st, runs current_state t (Fin st) -> last_state t = Some st.
Proof.
  intros t st R. unfold current_state, engine in R. fb R a t1 R1. destruct R1 as [[_ E]|(b & t2 & -> & R1)]; [discriminate|]. fr R1. fr R. reflexivity.
Qed.
Definition keeps (f g : sess) : Prop := peerin g = peerin f /\ childout g = childout f.
Lemma eof1_runs : forall st f t g, runs (tls_eof1 st f) t (Fin g) -> keeps f g /\ peerout g = peerout f /\
  (childin g = childin f \/ childin g = -1) /\ (open (peerin g) = false -> has st RECVAPP = false -> open (childin g) = false).
Proof.
  intros st f t g R. unfold tls_eof1 in R. destruct (negb (open (peerin f)) && open (childin f) && negb (has st RECVAPP)) eqn:E.
  - fb R v t1 R1. fr R. apply shut_w_gives in R1. subst v. cbn. unfold keeps. auto.
  - fr R. unfold keeps. repeat split; auto. intros A B. rewrite A, B in E. destruct (open (childin f)); [discriminate|reflexivity].
Qed.
Lemma eof2_runs : forall n st f t g, runs (tls_eof2 n st f) t (Fin g) -> keeps f g /\ peerout g = peerout f /\
  (childin g = childin f \/ childin g = -1) /\ (open (childout g) = false -> open (peerin g) = false -> has st RECVAPP = false -> open (childin g) = false).
Proof.
  intros n st f t g R. unfold tls_eof2 in R. destruct (negb (open (childout f)) && open (childin f) && negb (has st RECVAPP)) eqn:E.
  - fb R b t1 R1. destruct b.
    + fr R. unfold keeps. repeat split; auto. intros _ A _. unfold pending_now in R1. unfold open in A. destruct (peerin f =? -1); [|discriminate]. destruct R1 as [_ R1]. discriminate.
    + fb R v t2 R2. fr R. apply shut_w_gives in R2. subst v. cbn. unfold keeps. auto.
  - fr R. unfold keeps. repeat split; auto. intros A _ B. rewrite A, B in E. destruct (open (childin f)); [discriminate|reflexivity].
Qed.
Lemma eof3_runs : forall st f t g, runs (tls_eof3 st f) t (Fin g) -> keeps f g /\ childin g = childin f /\
  (peerout g = peerout f \/ (has st CLOSED = true /\ has st SENDREC = false)).
Proof.
  intros st f t g R. unfold tls_eof3 in R. destruct (negb (open (childout f)) && open (peerout f) && has st CLOSED && negb (has st SENDREC)) eqn:E.
  - fb R v t1 R1. fr R. cbn. unfold keeps. repeat split; auto. right. rewrite !andb_true_iff, !negb_true_iff in E. tauto.
  - fr R. unfold keeps. auto.
Qed.
Lemma notify_runs : forall st f t st', runs (tls_notify st f) t (Fin st') ->
  (st' = st /\ t = [] /\ (open (childout f) = true \/ open (childin f) = true \/ has st CLOSED = true)) \/
  (open (childout f) = false /\ open (childin f) = false /\ has st CLOSED = false /\ last_state t = Some st' /\
   exists e r, t = e :: r /\ call_of (bs "tls_engine_close") e /\ last_state r = Some st').
Proof.
  intros st f t st' R. unfold tls_notify in R. destruct (negb (open (childout f)) && negb (open (childin f)) && negb (has st CLOSED)) eqn:E.
  - right. rewrite !andb_true_iff, !negb_true_iff in E. destruct E as [[E1 E2] E3]. repeat split; auto;
    unfold engine in R; fb R a t1 R1; destruct R1 as [[_ X]|(b & t2 & -> & R1)]; try discriminate; fr R1; fb R c t3 R3; apply state_runs in R.
    + rewrite !last_app, R. reflexivity.
    + exists (Other (bs "tls_engine_close") [] [], b), (t3 ++ u0). split; [reflexivity|]. split; [do 2 eexists; reflexivity|]. rewrite last_app, R. reflexivity.
  - left. fr R. repeat split; auto. destruct (open (childout f)); auto. destruct (open (childin f)); auto. destruct (has st CLOSED); auto.
Qed.
Lemma report_runs : forall t u n st s tr x, runs (report_handshake t u n st s) tr (Fin x) ->
  match x with Some s' => fds s' = fds s /\ (shaken s = true -> shaken s' = true) | None => True end.
Proof.
  intros t u n st s tr x R. unfold report_handshake in R. destruct (shaken s) eqn:S; [fr R; auto|]. destruct (negb _); [fr R; split; auto; congruence|].
  destruct (told_user s). { fb R y t1 R1. fr R. cbn. auto. }
  fb R y t1 R1. destruct y as [b|]; [|fr R; exact Logic.I]. fb R z t2 R2. destruct z; [fr R; exact Logic.I|]. fb R w t3 R3. fr R. cbn. auto.
Qed.

Notation quietly := (mksum (bs "finished") (bs "close_notify sent, not waiting for peer") []).
Notation last_error := (Other (bs "br_ssl_engine_last_error") [] []).
(** the engine was asked for bytes to pass on, gave none, or the write to [fd] failed *)
Definition refused (name : list Z) (fd : Z) (tr : trace) : Prop :=
  exists h b r, tr = h ++ (Other name [] [], b) :: r /\
    (data b = [] \/ exists x a q, r = (Write fd x, a) :: q /\ ret a <= 0 /\ ~ (ret a = -1 /\ (err a = EINTR \/ err a = EAGAIN))).
Lemma refused_app : forall h n fd tr, refused n fd tr -> refused n fd (h ++ tr).
Proof. intros h n fd tr (g & b & r & -> & H). exists (h ++ g), b, r. split; [apply app_assoc|exact H]. Qed.
Section Ends.
Variables self po : Z.
(** the ways in which the phase returns *)
Inductive ends (tr : trace) (s : tsess) : summary -> Prop :=
| e_failed : forall st h a, last_state tr = Some st -> flag st CLOSED -> shaken s = false -> tr = h ++ [(last_error, a)] ->
    ends tr s (mksum (bs "handshake failed") (fst (reason_of false (ret a))) (snd (reason_of false (ret a))))
| e_closed : forall st h a, last_state tr = Some st -> flag st CLOSED -> ~ flag st SENDREC -> shaken s = true -> tr = h ++ [(last_error, a)] ->
    ends tr s (mksum (bs "finished") (fst (reason_of true (ret a))) (snd (reason_of true (ret a))))
| e_notified : forall st h e r, last_state tr = Some st -> ~ flag st CLOSED -> ~ flag st SENDREC ->
    childin (fds s) = -1 -> childout (fds s) = -1 -> tr = h ++ e :: r -> call_of (bs "tls_engine_close") e -> last_state r = Some st -> ends tr s quietly
| e_left : forall st, last_state tr = Some st -> ~ flag st CLOSED -> ~ flag st SENDREC -> ~ flag st SENDAPP ->
    childout (fds s) <> -1 -> (peerin (fds s) = -1 \/ (~ flag st RECVREC /\ (~ flag st RECVAPP \/ childin (fds s) = -1))) -> ends tr s quietly
| e_stuck : forall st, last_state tr = Some st -> ~ flag st CLOSED -> ~ flag st SENDREC -> ~ flag st RECVREC -> ~ flag st RECVAPP -> ends tr s quietly
| e_child : forall fd, childin (fds s) = -1 -> refused (bs "tls_engine_recvapp_buf") fd tr -> ends tr s (bare (bs "write to child failed"))
| e_net : peerout (fds s) = -1 -> refused (bs "tls_engine_sendrec_buf") po tr -> ends tr s (bare (bs "write to network failed"))
| e_signal : forall h a, tr = h ++ [(Read self 1, a)] -> ends tr s (bare (bs "signal")).
Lemma ends_app : forall h tr s m, ends tr s m -> ends (h ++ tr) s m.
Proof.
  intros h tr s m E.
  assert (L : forall st, last_state tr = Some st -> last_state (h ++ tr) = Some st) by (intros st H; rewrite last_app, H; reflexivity).
  destruct E.
  - subst tr. eapply (e_failed _ _ st (h ++ h0)); auto. apply app_assoc.
  - subst tr. eapply (e_closed _ _ st (h ++ h0)); auto. apply app_assoc.
  - subst tr. eapply (e_notified _ _ st (h ++ h0)); eauto. apply app_assoc.
  - eapply e_left; eauto.
  - eapply e_stuck; eauto.
  - eapply e_child; eauto using refused_app.
  - eapply e_net; eauto using refused_app.
  - subst tr. eapply e_signal. apply app_assoc.
Qed.
End Ends.
Lemma has_flag : forall st b, has st b = true <-> flag st b.
Proof. intros st b. unfold has, flag. rewrite negb_true_iff, Z.eqb_neq. tauto. Qed.
Lemma has_noflag : forall st b, has st b = false <-> ~ flag st b.
Proof. intros st b. rewrite <- has_flag. destruct (has st b); split; intros H; congruence. Qed.
Lemma shut_false : forall v, open v = false <-> v = -1.
Proof. intros v. unfold open. rewrite negb_false_iff, Z.eqb_eq. tauto. Qed.
Lemma open_true : forall v, open v = true <-> v <> -1.
Proof. intros v. unfold open. rewrite negb_true_iff, Z.eqb_neq. tauto. Qed.

Section Phase.
Variables timeout finish self : Z.
Variable uc : bool.
Variable n : nat.
Variable po : Z.
Hypothesis PO0 : open po = true.
Definition good (v : sverdict) (tr : trace) : Prop :=
  match v with
  | Again s => peerout (fds s) = po
  | Stop (c, s, m) => (c = 111 /\ m = unset) \/ (c = 0 /\ ends self po tr s m)
  end.
Lemma reason_runs : forall d t x, runs (close_reason d) t (Fin x) -> exists a, t = [(last_error, a)] /\ x = reason_of d (ret a).
Proof. intros d t x R. unfold close_reason, engine in R. fb R a t1 R1. destruct R1 as [[_ E]|(b & t2 & -> & R1)]; [discriminate|]. fr R1. fr R. eexists. split; reflexivity. Qed.
Lemma selfpipe_peerout : forall s t x, runs (selfpipe_event finish self s) t (Fin x) -> peerout (snd x) = peerout s.
Proof.
  intros s t x R. unfold selfpipe_event in R. fb R a t1 R1. destruct a as [[r e] d]. destruct (again r e); [fr R; reflexivity|]. destruct (r <=? 0); [fr R; reflexivity|]. cbv zeta in R.
  destruct (_ =? 67). { fb R v t2 R2. fb R w t3 R3. fr R. reflexivity. }
  destruct (_ && _); [|fr R; reflexivity]. fb R v t2 R2. fb R w t3 R3. fb R x1 t4 R4. fb R x2 t5 R5. fb R x3 t6 R6. fr R. reflexivity.
Qed.
Lemma shut_w_nostate : forall v, calls nostate (shut_w v).
Proof. intros v. eapply calls_weak; [apply (shut_w_silent 0)|]. intros c. destruct c; cbn [silent noengine nostate]; auto. intros [H _]. apply engine_names in H. tauto. Qed.
Lemma pending_nostate : forall k fd, calls nostate (pending_loop k fd).
Proof. induction k as [|k IH]; intros; cbn [pending_loop]; unfold jail_poll; mute; auto. Qed.
Lemma eof1_nostate : forall z f, calls nostate (tls_eof1 z f).
Proof. intros. unfold tls_eof1. mute; auto using shut_w_nostate. Qed.
Lemma eof2_nostate : forall k z f, calls nostate (tls_eof2 k z f).
Proof. intros. unfold tls_eof2, pending_now. mute; auto using shut_w_nostate, pending_nostate. Qed.
Lemma eof3_nostate : forall z f, calls nostate (tls_eof3 z f).
Proof. intros. unfold tls_eof3. mute; auto using shut_w_nostate. Qed.
Ltac word R L := let N := fresh in pose proof (use_calls _ _ _ _ _ R L) as N; apply last_none in N.
Lemma because_runs : forall m p t v, runs (because m p) t (Fin v) -> exists x, runs p t (Fin x) /\ v = match x with Again s => Again s | Stop (c, s) => Stop (c, s, m) end.
Proof. intros m p t v R. unfold because in R. fb R x t1 R1. fr R. exists x. rewrite app_nil_r. auto. Qed.

Lemma selfpipe_stop : forall s t x, runs (selfpipe_event finish self s) t (Fin x) -> fst x = true -> exists a, t = [(Read self 1, a)].
Proof.
  intros s t x R X. unfold selfpipe_event in R. fb R y t1 R1. unfold fd_read in R1. cbn in R1. destruct R1 as [[_ E]|(b & t2 & -> & -> & R1)]; [discriminate|]. injection R1 as ->. exists b.
  destruct (again _ _); [fr R; discriminate|]. destruct (_ <=? 0); [fr R; reflexivity|]. cbv zeta in R.
  destruct (_ =? 67). { fb R v t3 R3. fb R w t4 R4. fr R. discriminate. }
  destruct (_ && _); [|fr R; reflexivity]. fb R v t2 R2. fb R w t3 R3. fb R x1 t4 R4. fb R x2 t5 R5. fb R x3 t6 R6. fr R. discriminate.
Qed.
Lemma refused_here : forall name fd t8 a t9 r e w, runs (engine name) t8 (Fin a) -> runs (offer fd (data a)) t9 (Fin (r, e)) -> again r e = false -> (r <=? 0) = true ->
  refused name fd (t8 ++ t9 ++ w).
Proof.
  intros name fd t8 a t9 r e w R8 R9 AG LE. unfold engine in R8. destruct R8 as [[_ E]|(b & t2 & -> & R8)]; [discriminate|]. fr R8. exists [], b, (t9 ++ w). split; [reflexivity|].
  unfold offer in R9. destruct (data b) as [|y d] eqn:D; [left; reflexivity|]. right. unfold fd_write in R9. pose proof (len_nonneg _ (y :: d)) as LN. replace (len (y :: d) <? 0) with false in R9 by lia. cbv zeta in R9.
  match type of R9 with runs (if ?g then _ else _) _ _ => destruct g end; [destruct R9 as [_ R9]; discriminate|].
  all: apply fin_bind in R9 as (c & t1 & t2 & -> & R1 & R9); destruct R1 as [[_ E]|(g & t3 & -> & R1)]; [discriminate|]; fr R1; destruct R9 as [-> R9]; injection R9 as -> ->.
  all: do 3 eexists; split; [reflexivity|]; split; [lia|]; unfold again in AG; intros [X Y]; rewrite X in AG; destruct Y as [Y|Y]; rewrite Y in AG; discriminate.
Qed.
Lemma body_good : forall s tr v, peerout (fds s) = po -> runs (said_body timeout finish self uc n s) tr (Fin v) -> good v tr.
Proof.
  intros s tr v P R. unfold said_body in R.
  fb R z t1 R1. apply state_runs in R1. fb R f1 t2 R2. word R2 (eof1_nostate z (fds s)). apply eof1_runs in R2 as ([A1 A2] & A3 & A4 & A5).
  fb R f2 t3 R3. word R3 (eof2_nostate n z f1). apply eof2_runs in R3 as ([B1 B2] & B3 & B4 & B5).
  fb R f3 t4 R4. word R4 (eof3_nostate z f2). apply eof3_runs in R4 as ([C1 C2] & C3 & C4).
  fb R z' t5 R5. apply notify_runs in R5. fb R x t6 R6. pose proof (use_calls _ _ _ _ _ R6 (report_nostate _ _ _ _ _)) as N6. apply last_none in N6. apply report_runs in R6.
  destruct x as [s1|]; [|fr R; left; auto]. destruct R6 as [F _]. cbn [with_fds fds] in F.
  assert (LS : forall w, last_state w = None -> last_state (t1 ++ t2 ++ t3 ++ t4 ++ t5 ++ t6 ++ w) = Some z').
  { intros w W. rewrite !last_app, W, N6. destruct R5 as [(-> & -> & _)|(_ & _ & _ & L & _)]; [|rewrite L; reflexivity]. cbn [last_state]. rewrite H, H0, H1. exact R1. }
  assert (PO : has z' CLOSED && negb (has z' SENDREC) = false -> peerout f3 = po).
  { intros E. destruct C4 as [C4|[C4 C5]]; [rewrite C4, B3, A3; exact P|]. destruct R5 as [(-> & _)|(_ & _ & X & _)]; [|congruence]. rewrite C4, C5 in E. discriminate. }
  destruct (has z' CLOSED && negb (shaken s1)) eqn:E1.
  { fb R y t7 R7. apply reason_runs in R7 as (a & -> & ->). destruct (reason_of (shaken s1) (ret a)) as [d l] eqn:RE. fr R. right. split; [reflexivity|].
    apply andb_true_iff in E1 as [E1 E2]. apply negb_true_iff in E2. rewrite E2 in RE.
    replace d with (fst (reason_of false (ret a))) by (rewrite RE; reflexivity). replace l with (snd (reason_of false (ret a))) by (rewrite RE; reflexivity).
    rewrite app_nil_r. eapply (e_failed _ _ _ _ z' (t1 ++ t2 ++ t3 ++ t4 ++ t5 ++ t6) a); [apply LS; reflexivity|apply has_flag; exact E1|exact E2|rewrite !app_assoc; reflexivity]. }
  destruct (has z' CLOSED && negb (has z' SENDREC)) eqn:E2.
  { fb R y t7 R7. apply reason_runs in R7 as (a & -> & ->). destruct (reason_of (shaken s1) (ret a)) as [d l] eqn:RE. fr R. right. split; [reflexivity|].
    apply andb_true_iff in E2 as [E2 E3]. apply negb_true_iff in E3. rewrite E2 in E1. cbn [andb] in E1. apply negb_false_iff in E1. rewrite E1 in RE.
    replace d with (fst (reason_of true (ret a))) by (rewrite RE; reflexivity). replace l with (snd (reason_of true (ret a))) by (rewrite RE; reflexivity).
    rewrite app_nil_r. eapply (e_closed _ _ _ _ z' (t1 ++ t2 ++ t3 ++ t4 ++ t5 ++ t6) a); [apply LS; reflexivity|apply has_flag; exact E2|apply has_noflag; exact E3|exact E1|rewrite !app_assoc; reflexivity]. }
  specialize (PO eq_refl). subst f3.
  destruct (negb _ && _ && _ && _) eqn:E3.
  { fr R. right. split; [reflexivity|]. rewrite !andb_true_iff, !negb_true_iff in E3. destruct E3 as [[[D1 D2] D3] D4].
    unfold can_recvrec in D1. unfold can_sendrec in D2. unfold can_sendapp in D3. unfold can_recvapp in D4. rewrite PO, PO0, ?andb_true_r in D2, D3. rewrite D2 in *.
    rewrite andb_true_r in E2.
    pose proof (LS [] eq_refl) as L0.
    destruct (open (childout (fds s1))) eqn:CO.
    - rewrite andb_true_r in D3. rewrite orb_true_r, andb_true_r in D1. eapply (e_left _ _ _ _ z'); try apply has_noflag; auto.
      + apply open_true. exact CO.
      + destruct (open (peerin (fds s1))) eqn:PI; [|left; apply shut_false; exact PI]. right. rewrite andb_true_r in D1. split; [apply has_noflag; exact D1|].
        destruct (open (childin (fds s1))) eqn:CI; [left; apply has_noflag; rewrite andb_true_r in D4; exact D4|right; apply shut_false; exact CI].
    - destruct (open (childin (fds s1))) eqn:CI.
      + rewrite andb_true_r in D4. destruct R5 as [(-> & -> & _)|(_ & X & _)]; [|congruence].
        assert (PI : open (peerin (fds s1)) = true).
        { destruct (open (peerin (fds s1))) eqn:PI; auto. rewrite C1 in PI. rewrite C2 in CO. rewrite C3 in CI. rewrite (B5 CO PI D4) in CI. discriminate. }
        rewrite PI in D1. cbn [orb] in D1. rewrite !andb_true_r in D1. eapply (e_stuck _ _ _ _ z); try apply has_noflag; auto.
      + destruct R5 as [(-> & -> & [X|[X|X]])|(_ & _ & _ & _ & e & r & -> & CL & LR)]; try congruence.
        eapply (e_notified _ _ _ _ z' (t1 ++ t2 ++ t3 ++ t4) e (r ++ t6)); try (apply has_noflag; assumption); try (apply shut_false; assumption); auto.
        * rewrite !app_nil_r. cbn [app]. rewrite <- !app_assoc. reflexivity.
        * rewrite last_app, N6. exact LR. }
  clear E1 E2 E3 A5 B5 C4 R5 LS.
  fb R h t7 R7. destruct h as [|h1 [|h2 [|h3 [|h4 [|h5 [|]]]]]]; try (destruct R as [_ R]; discriminate).
  destruct h3. { apply because_runs in R as (x & R & ->). unfold tls_tochild in R. fb R a t8 R8. fb R y t9 R9. destruct y as [r e]. destruct (again r e) eqn:AG; [fr R; exact PO|].
    destruct (r <=? 0) eqn:LE; fb R w t10 R10; fr R; [|exact PO]. apply shut_w_gives in R10. right. split; [reflexivity|].
    eapply e_child; [cbn; auto|]. do 7 apply refused_app. eapply refused_here; eassumption. }
  destruct h1. { apply because_runs in R as (x & R & ->). unfold tls_topeer in R. fb R a t8 R8. fb R y t9 R9. destruct y as [r e]. destruct (again r e) eqn:AG; [fr R; exact PO|].
    destruct (r <=? 0) eqn:LE; fb R w t10 R10; fr R; [|exact PO]. apply shut_w_gives in R10. right. split; [reflexivity|].
    eapply e_net; [cbn; auto|]. do 7 apply refused_app. rewrite PO in R9. eapply refused_here; eassumption. }
  destruct h2. { apply because_runs in R as (x & R & ->). unfold tls_frompeer in R. fb R a t8 R8. fb R y t9 R9. destruct y as [[r e] d]. destruct (again r e); [fr R; exact PO|].
    destruct (_ <=? _); fb R w t10 R10; [fr R; exact PO|]. fb R k t11 R11. fr R. exact PO. }
  destruct h4. { apply because_runs in R as (x & R & ->). unfold tls_fromchild in R. fb R a t8 R8. fb R y t9 R9. destruct y as [[r e] d]. destruct (again r e); [fr R; exact PO|].
    destruct (_ <=? _); fb R w t10 R10; [fr R; exact PO|]. fb R k t11 R11. fb R j t12 R12. fr R. exact PO. }
  destruct h5; [|fr R; exact PO]. apply because_runs in R as (x & R & ->). unfold tls_signal in R. fb R a t8 R8. pose proof (selfpipe_stop _ _ _ R8) as ST. apply selfpipe_peerout in R8. destruct a as [b f]. cbn [snd] in R8.
  destruct b; fr R; [right; split; [reflexivity|]; destruct (ST eq_refl) as [a ->]; rewrite app_nil_r, !app_assoc; eapply e_signal; reflexivity|]. cbn. rewrite R8. exact PO.
Qed.
Lemma iter_good : forall k s tr c s' m, peerout (fds s) = po -> runs (iter k (said_body timeout finish self uc n) s) tr (Fin (c, s', m)) ->
  (c = 111 /\ m = unset) \/ (c = 0 /\ ends self po tr s' m).
Proof.
  induction k as [|k IH]; intros s tr c s' m P R; cbn [iter] in R; [destruct R as [_ R]; discriminate|]. fb R v t1 R1. pose proof (body_good _ _ _ P R1) as G. destruct v as [s1|r].
  - destruct (IH _ _ _ _ _ G R) as [X|[X E]]; [left; exact X|right]. split; [exact X|apply ends_app; exact E].
  - destruct R as [-> R]. injection R as <-. rewrite app_nil_r. exact G.
Qed.
Lemma phase_ends : forall s tr c s' m, peerout (fds s) = po -> runs (said_phase timeout finish self uc n s) tr (Fin (c, s', m)) ->
  (c = 111 /\ m = unset) \/ (c = 0 /\ ends self po tr s' m).
Proof. intros. eapply iter_good; eauto. Qed.
End Phase.

(** ** The phase with and without the texts *)
Lemma bind_fin : forall A B (p : prog A) (f : A -> prog B) t1 t2 a o, runs p t1 (Fin a) -> runs (f a) t2 o -> runs (pbind p f) (t1 ++ t2) o.
Proof. intros. apply runs_bind. left. exists a, t1, t2. auto. Qed.
Definition forget (v : sverdict) : tverdict := match v with Again s => Again s | Stop (c, s, _) => Stop (c, s) end.
Definition extra (v : sverdict) (q : trace) : Prop := match v with Again _ => q = [] | Stop _ => q = [] \/ exists a, q = [(last_error, a)] end.
Section Same.
Variables timeout finish self : Z.
Variable uc : bool.
Variable n : nat.
Ltac thru R := let a := fresh "x" in let t := fresh "t" in let R1 := fresh "R" in fb R a t R1.
Ltac via := eapply bind_fin; [eassumption|].
Lemma because_same : forall m p t v, runs (because m p) t (Fin v) -> runs p t (Fin (forget v)).
Proof. intros m p t v R. apply because_runs in R as (x & R & ->). destruct x as [s|[c s]]; exact R. Qed.
Lemma because_back : forall m p t w, runs p t (Fin w) -> exists v, forget v = w /\ extra v [] /\ runs (because m p) t (Fin v).
Proof.
  intros m p t w R. unfold because. exists (match w with Again s => Again s | Stop (c, s) => Stop (c, s, m) end). split; [destruct w as [s|[c s]]; reflexivity|]. split; [destruct w as [s|[c s]]; cbn; auto|].
  rewrite <- (app_nil_r t). eapply bind_fin; [exact R|]. split; reflexivity.
Qed.
Lemma body_same : forall s tr v, runs (said_body timeout finish self uc n s) tr (Fin v) ->
  exists t q, tr = t ++ q /\ extra v q /\ runs (tls_body timeout finish self uc n s) t (Fin (forget v)).
Proof.
  intros s tr v R. unfold said_body in R. fb R z t1 R1. fb R f1 t2 R2. fb R f2 t3 R3. fb R f3 t4 R4. fb R z' t5 R5. fb R x t6 R6. match type of R with runs _ ?w _ => rename w into rest end.
  assert (K : exists t q, rest = t ++ q /\ extra v q /\ runs (match x with
    | None => Ret (Stop (111, with_fds s f3))
    | Some s =>
      if has z' CLOSED && negb (shaken s) then Ret (Stop (0, s))
      else if has z' CLOSED && negb (has z' SENDREC) then Ret (Stop (0, s))
      else if negb (can_recvrec z' f3) && negb (can_sendrec z' f3) && negb (can_sendapp z' f3) && negb (can_recvapp z' f3) then Ret (Stop (0, s))
      else h <~ watch (tls_watch self z' f3) ;;
        match h with
        | [wtopeer; wfrompeer; wtochild; wfromchild; wself] =>
          if (wtochild : bool) then tls_tochild s else if (wtopeer : bool) then tls_topeer s else if (wfrompeer : bool) then tls_frompeer timeout s
          else if (wfromchild : bool) then tls_fromchild timeout s else if (wself : bool) then tls_signal finish self s else Ret (Again s)
        | _ => Bad
        end
    end) t (Fin (forget v))).
  { clear R1 R2 R3 R4 R5 R6. destruct x as [s1|]. 2:{ fr R. exists [], []. repeat split. left. reflexivity. }
    destruct (_ && _). { fb R y t7 R7. apply reason_runs in R7 as (a & -> & ->). destruct (reason_of _ _). fr R. exists [], [(last_error, a)]. repeat split. right. eauto. }
    destruct (_ && _). { fb R y t7 R7. apply reason_runs in R7 as (a & -> & ->). destruct (reason_of _ _). fr R. exists [], [(last_error, a)]. repeat split. right. eauto. }
    destruct (_ && _). { fr R. exists [], []. repeat split. left. reflexivity. }
    fb R h t7 R7. match type of R with runs _ ?w _ => rename w into last end. exists (t7 ++ last), []. rewrite app_nil_r. split; [reflexivity|]. split; [destruct v; cbn; auto|]. via.
    destruct h as [|h1 [|h2 [|h3 [|h4 [|h5 [|]]]]]]; try (destruct R as [_ R]; discriminate).
    destruct h3; [eapply because_same; exact R|]. destruct h1; [eapply because_same; exact R|]. destruct h2; [eapply because_same; exact R|]. destruct h4; [eapply because_same; exact R|].
    destruct h5; [eapply because_same; exact R|]. fr R. split; reflexivity. }
  destruct K as (t & q & -> & X & K). exists (t1 ++ t2 ++ t3 ++ t4 ++ t5 ++ t6 ++ t), q. split; [rewrite <- !app_assoc; reflexivity|]. split; [exact X|]. unfold tls_body. do 6 via. exact K.
Qed.
Lemma reason_zero : forall d, runs (close_reason d) [(last_error, mkans 0 0 [])] (Fin (bs "TLS closed normally", [])).
Proof. intros d. unfold close_reason, engine. cbn [pbind sys1 runs]. right. do 2 eexists. split; [reflexivity|]. split; reflexivity. Qed.
Lemma body_back : forall s t w, runs (tls_body timeout finish self uc n s) t (Fin w) ->
  exists q v, forget v = w /\ extra v q /\ runs (said_body timeout finish self uc n s) (t ++ q) (Fin v).
Proof.
  intros s t w R. unfold tls_body in R. fb R z t1 R1. fb R f1 t2 R2. fb R f2 t3 R3. fb R f3 t4 R4. fb R z' t5 R5. fb R x t6 R6. match type of R with runs _ ?w _ => rename w into rest end. unfold said_body.
  match goal with |- exists q v, _ /\ _ /\ runs (pbind _ (fun st => pbind _ (fun f => pbind _ (fun f0 => pbind _ (fun f1 => pbind _ (fun st0 => pbind _ (@?K st f f0 f1 st0))))))) _ _ =>
    assert (G : exists q v, forget v = w /\ extra v q /\ runs (K z f1 f2 f3 z' x) (rest ++ q) (Fin v)) end.
  { clear R1 R2 R3 R4 R5 R6. cbn beta. destruct x as [s1|]. 2:{ fr R. exists []. exists (Stop (111, with_fds s f3, unset)). split; [reflexivity|]. split; [left; reflexivity|]. split; reflexivity. }
    destruct (_ && _).
    { fr R. exists [(last_error, mkans 0 0 [])]. exists (Stop (0, s1, mksum (bs "handshake failed") (bs "TLS closed normally") [])). split; [reflexivity|]. split; [right; eauto|].
      eapply (bind_fin _ _ _ _ [(last_error, mkans 0 0 [])] []); [apply reason_zero|]. split; reflexivity. }
    destruct (_ && _).
    { fr R. exists [(last_error, mkans 0 0 [])]. exists (Stop (0, s1, mksum (bs "finished") (bs "TLS closed normally") [])). split; [reflexivity|]. split; [right; eauto|].
      eapply (bind_fin _ _ _ _ [(last_error, mkans 0 0 [])] []); [apply reason_zero|]. split; reflexivity. }
    destruct (_ && _). { fr R. exists []. eexists (Stop (0, s1, quietly)). split; [reflexivity|]. split; [left; reflexivity|]. split; reflexivity. }
    fb R h t7 R7. match type of R with runs _ ?w _ => rename w into last end. exists [].
    assert (D : forall m p, runs p last (Fin w) -> (exists v, forget v = w /\ extra v [] /\ runs (because m p) last (Fin v))) by (intros; apply because_back; assumption).
    destruct h as [|h1 [|h2 [|h3 [|h4 [|h5 [|]]]]]]; try (destruct R as [_ R]; discriminate).
    rewrite app_nil_r.
    destruct h3; [apply (D (bare (bs "write to child failed"))) in R as (v & V1 & V2 & V3); exists v; split; [exact V1|]; split; [exact V2|]; via; exact V3|].
    destruct h1; [apply (D (bare (bs "write to network failed"))) in R as (v & V1 & V2 & V3); exists v; split; [exact V1|]; split; [exact V2|]; via; exact V3|].
    destruct h2; [apply (D unset) in R as (v & V1 & V2 & V3); exists v; split; [exact V1|]; split; [exact V2|]; via; exact V3|].
    destruct h4; [apply (D unset) in R as (v & V1 & V2 & V3); exists v; split; [exact V1|]; split; [exact V2|]; via; exact V3|].
    destruct h5; [apply (D (bare (bs "signal"))) in R as (v & V1 & V2 & V3); exists v; split; [exact V1|]; split; [exact V2|]; via; exact V3|].
    fr R. exists (Again s1). split; [reflexivity|]. split; [reflexivity|]. via. split; reflexivity. }
  destruct G as (q & v & V1 & V2 & V3). exists q, v. split; [exact V1|]. split; [exact V2|]. rewrite <- !app_assoc. do 6 via. exact V3.
Qed.
Lemma iter_same : forall k s tr c s' m, runs (iter k (said_body timeout finish self uc n) s) tr (Fin (c, s', m)) ->
  exists t q, tr = t ++ q /\ (q = [] \/ exists a, q = [(last_error, a)]) /\ runs (iter k (tls_body timeout finish self uc n) s) t (Fin (c, s')).
Proof.
  induction k as [|k IH]; intros s tr c s' m R; cbn [iter] in *; [destruct R as [_ R]; discriminate|]. fb R v t1 R1. apply body_same in R1 as (t & q & -> & X & R1). destruct v as [s1|r].
  - cbn in X. subst q. apply IH in R as (t' & q' & -> & Y & R). exists (t ++ t'), q'. rewrite app_nil_r, app_assoc. split; [reflexivity|]. split; [exact Y|]. via. exact R.
  - destruct R as [-> R]. injection R as <-. exists t, q. rewrite app_nil_r. split; [reflexivity|]. split; [exact X|]. rewrite <- (app_nil_r t). via. split; reflexivity.
Qed.
Lemma iter_back : forall k s t c s', runs (iter k (tls_body timeout finish self uc n) s) t (Fin (c, s')) ->
  exists q m, (q = [] \/ exists a, q = [(last_error, a)]) /\ runs (iter k (said_body timeout finish self uc n) s) (t ++ q) (Fin (c, s', m)).
Proof.
  induction k as [|k IH]; intros s t c s' R; cbn [iter] in *; [destruct R as [_ R]; discriminate|]. fb R w t1 R1. apply body_back in R1 as (q & v & <- & X & R1). destruct v as [s1|[[c1 s2] m]].
  - cbn in X. subst q. rewrite app_nil_r in R1. cbn [forget] in R. apply IH in R as (q' & m & Y & R). exists q', m. split; [exact Y|]. rewrite <- app_assoc. via. exact R.
  - cbn [forget] in R. destruct R as [-> R]. injection R as <- <-. exists q, m. split; [exact X|]. rewrite app_nil_r, <- (app_nil_r (t1 ++ q)). via. split; reflexivity.
Qed.
End Same.

(** ** The texts *)
Definition texts : list (list Z) := bs "TLS closed normally" :: bs "unknown" :: bs "unknown_alert" :: map snd errors ++ map snd alerts.
Lemma lookup_in : forall t o k, lookup t o k = o \/ In (k, lookup t o k) t.
Proof. induction t as [|[i s] t IH]; intros o k; cbn [lookup]; [auto|]. destruct (Z.eqb_spec i k); [subst; right; left; reflexivity|]. destruct (IH o k); [auto|right; right; assumption]. Qed.
Lemma reason_texts : forall d e, In (fst (reason_of d e)) texts.
Proof.
  assert (A : forall k, In (tls_alert_str k) texts).
  { intros k. unfold tls_alert_str. destruct (lookup_in alerts (bs "unknown_alert") k) as [-> |H]; [right; right; left; reflexivity|]. apply (in_map snd) in H. do 3 right. apply in_or_app. right. exact H. }
  assert (B : forall k, In (tls_error_str k) texts).
  { intros k. unfold tls_error_str. destruct (lookup_in errors (bs "unknown") k) as [-> |H]; [right; left; reflexivity|]. apply (in_map snd) in H. do 3 right. apply in_or_app. left. exact H. }
  intros d e. unfold reason_of. destruct (e =? 0); [left; reflexivity|]. destruct (_ <=? _); [apply A|]. destruct (_ <=? _); [apply A|apply B].
Qed.
Definition eqs (x y : list Z) : bool := if list_eq_dec Z.eq_dec x y then true else false.
Lemma eqs_true : forall x y, eqs x y = true <-> x = y.
Proof. intros x y. unfold eqs. destruct (list_eq_dec _ _ _); split; intros; congruence. Qed.
Fixpoint distinct (l : list (list Z)) : bool := match l with [] => true | x :: l => negb (existsb (eqs x) l) && distinct l end.
Lemma distinct_nodup : forall l, distinct l = true -> NoDup l.
Proof.
  induction l as [|x l IH]; intros H; [constructor|]. cbn [distinct] in H. apply andb_true_iff in H as [H1 H2]. constructor; [|auto]. intros I. apply negb_true_iff in H1.
  assert (existsb (eqs x) l = true) by (apply existsb_exists; exists x; split; [exact I|apply eqs_true; reflexivity]). congruence.
Qed.
Lemma texts_distinct : NoDup (bs "TLS closed normally" :: bs "close_notify sent, not waiting for peer" :: bs "unknown" :: bs "unknown_alert" :: map snd errors ++ map snd alerts).
Proof. apply distinct_nodup. vm_compute. reflexivity. Qed.
Lemma texts_quiet : ~ In (bs "close_notify sent, not waiting for peer") texts.
Proof.
  pose proof texts_distinct as N. inversion N as [|? ? N1 N2]; subst. inversion N2 as [|? ? N3 N4]; subst. unfold texts. intros [E|I]; [|exact (N3 I)]. discriminate E.
Qed.
Lemma nodup_snd : forall (t : list (Z * list Z)) i j x, NoDup (map snd t) -> In (i, x) t -> In (j, x) t -> i = j.
Proof.
  induction t as [|[k y] t IH]; intros i j x N I J; [destruct I|]. cbn [map snd] in N. inversion N as [|? ? N1 N2]; subst.
  destruct I as [I|I], J as [J|J].
  - congruence.
  - injection I as -> ->. destruct N1. apply (in_map snd) in J. exact J.
  - injection J as -> ->. destruct N1. apply (in_map snd) in I. exact I.
  - eapply IH; eauto.
Qed.
Lemma lookup_inj : forall t o i j, NoDup (map snd t) -> lookup t o i = lookup t o j -> i = j \/ lookup t o i = o.
Proof.
  intros t o i j N E. destruct (lookup_in t o i) as [A|A]; [auto|]. destruct (lookup_in t o j) as [B|B]; [right; congruence|]. left. rewrite <- E in B. eapply nodup_snd; eauto.
Qed.
Lemma errors_distinct : NoDup (map snd errors).
Proof. apply distinct_nodup. vm_compute. reflexivity. Qed.
Lemma alerts_distinct : NoDup (map snd alerts).
Proof. apply distinct_nodup. vm_compute. reflexivity. Qed.

(** The text for an error of the engine: it says "closed normally" only of an error-free end, it
    has the registered name of an alert, and it tells errors and alerts apart as far as they are
    known.  After the handshake one more line says who sent the alert. *)
Theorem C100_told : forall d e,
  (fst (reason_of d e) = bs "TLS closed normally" <-> e = 0) /\
  (forall a nm, In (a, nm) alert_names -> fst (reason_of d (256 + a)) = nm /\ fst (reason_of d (512 + a)) = nm) /\
  (forall e', 0 < e < 256 -> 0 < e' < 256 -> fst (reason_of d e) = fst (reason_of d e') -> e = e' \/ fst (reason_of d e) = bs "unknown") /\
  (forall a b x y, 0 <= a < 256 -> 0 <= b < 256 -> (x = 256 \/ x = 512) -> (y = 256 \/ y = 512) ->
     fst (reason_of d (x + a)) = fst (reason_of d (y + b)) -> a = b \/ fst (reason_of d (x + a)) = bs "unknown_alert") /\
  snd (reason_of d e) =
    (if d then if e =? 0 then [] else
       [(if e <? 256 then bs "TLS error: " else if e <? 512 then bs "TLS received alert: " else bs "TLS sent alert: ") ++ fst (reason_of d e)]
     else []).
Proof.
  intros d e.
  assert (AL : forall a x, 0 <= a < 256 -> x = 256 \/ x = 512 -> fst (reason_of d (x + a)) = tls_alert_str a).
  { intros a x A X. unfold reason_of, SEND_FATAL_ALERT, RECV_FATAL_ALERT. replace (x + a =? 0) with false by lia. destruct X as [-> | ->].
    - replace (512 <=? 256 + a) with false by lia. replace (256 <=? 256 + a) with true by lia. cbn [fst]. f_equal. lia.
    - replace (512 <=? 512 + a) with true by lia. cbn [fst]. f_equal. lia. }
  assert (ER : forall k, 0 < k < 256 -> fst (reason_of d k) = tls_error_str k).
  { intros k K. unfold reason_of, SEND_FATAL_ALERT, RECV_FATAL_ALERT. replace (k =? 0) with false by lia. replace (512 <=? k) with false by lia. replace (256 <=? k) with false by lia. reflexivity. }
  pose proof texts_distinct as N. apply NoDup_cons_iff in N as [N1 _].
  split; [|split; [|split; [|split]]].
  - split; [|intros ->; reflexivity]. intros H. destruct (Z.eqb_spec e 0); [assumption|]. exfalso. apply N1. right. rewrite <- H. unfold reason_of. replace (e =? 0) with false by lia.
    assert (A : forall k, In (tls_alert_str k) (bs "unknown" :: bs "unknown_alert" :: map snd errors ++ map snd alerts)).
    { intros k. unfold tls_alert_str. destruct (lookup_in alerts (bs "unknown_alert") k) as [-> |I]; [right; left; reflexivity|]. apply (in_map snd) in I. do 2 right. apply in_or_app. right. exact I. }
    destruct (_ <=? _); [apply A|]. destruct (_ <=? _); [apply A|]. cbn [fst]. unfold tls_error_str. destruct (lookup_in errors (bs "unknown") e) as [-> |I]; [left; reflexivity|]. apply (in_map snd) in I. do 2 right. apply in_or_app. left. exact I.
  - intros a nm I.
    assert (F : forallb (fun x => (0 <=? fst x) && (fst x <? 256) && eqs (tls_alert_str (fst x)) (snd x)) alert_names = true) by (vm_compute; reflexivity).
    rewrite forallb_forall in F. specialize (F _ I). cbn [fst snd] in F. rewrite !andb_true_iff, eqs_true, Z.leb_le, Z.ltb_lt in F. destruct F as [[F1 F2] F3]. rewrite !AL by auto. auto.
  - intros e' H1 H2. rewrite !ER by assumption. apply lookup_inj, errors_distinct.
  - intros a b x y A B X Y. rewrite !AL by assumption. apply lookup_inj, alerts_distinct.
  - unfold reason_of, SEND_FATAL_ALERT, RECV_FATAL_ALERT. destruct (Z.eqb_spec e 0); [destruct d; reflexivity|]. destruct (Z.leb_spec 512 e).
    + replace (e <? 256) with false by lia. replace (e <? 512) with false by lia. destruct d; reflexivity.
    + destruct (Z.leb_spec 256 e); [replace (e <? 256) with false by lia; replace (e <? 512) with true by lia|replace (e <? 256) with true by lia]; destruct d; reflexivity.
Qed.
Print Assumptions C100_told.
Example ex_told : reason_of true (512 + 48) = (bs "unknown_ca", [bs "TLS sent alert: unknown_ca"]) /\ fst (reason_of false 54) = bs "Certificate is expired or not yet valid.".
Proof. split; vm_compute; reflexivity. Qed.

(** ** The theorems about the phase *)
(** The phase with the texts is the phase of the other properties, with at most one more question to
    the engine, at the end. *)
Theorem C100_same : forall timeout finish self uc n s,
  (forall tr c s' m, runs (said_phase timeout finish self uc n s) tr (Fin (c, s', m)) ->
     exists t q, tr = t ++ q /\ (q = [] \/ exists a, q = [(last_error, a)]) /\ runs (tls_phase timeout finish self uc n s) t (Fin (c, s'))) /\
  (forall t c s', runs (tls_phase timeout finish self uc n s) t (Fin (c, s')) ->
     exists q m, (q = [] \/ exists a, q = [(last_error, a)]) /\ runs (said_phase timeout finish self uc n s) (t ++ q) (Fin (c, s', m))).
Proof. intros. split; intros; [eapply iter_same; eassumption|eapply iter_back; eassumption]. Qed.
Print Assumptions C100_same.

(** Every return of the phase has a reason, and it is the true one. *)
Theorem C100_reason : forall timeout finish self uc n s tr s' m, peerout (fds s) <> -1 ->
  runs (said_phase timeout finish self uc n s) tr (Fin (0, s', m)) ->
  (exists z h a, last_state tr = Some z /\ flag z 1 /\ tr = h ++ [(last_error, a)] /\
     ((shaken s' = false /\ reason m = bs "handshake failed" /\ detail m = fst (reason_of false (ret a)) /\ lines m = []) \/
      (shaken s' = true /\ ~ flag z 2 /\ reason m = bs "finished" /\ detail m = fst (reason_of true (ret a)) /\ (lines m = [] <-> ret a = 0)))) \/
  (exists z, last_state tr = Some z /\ ~ flag z 1 /\ ~ flag z 2 /\ m = mksum (bs "finished") (bs "close_notify sent, not waiting for peer") []) \/
  (m = mksum (bs "write to child failed") [] [] /\ childin (fds s') = -1 /\ exists fd, refused (bs "tls_engine_recvapp_buf") fd tr) \/
  (m = mksum (bs "write to network failed") [] [] /\ peerout (fds s') = -1 /\ refused (bs "tls_engine_sendrec_buf") (peerout (fds s)) tr) \/
  (m = mksum (bs "signal") [] [] /\ exists h a, tr = h ++ [(Read self 1, a)]).
Proof.
  intros timeout finish self uc n s tr s' m P R. apply open_true in P. destruct (phase_ends _ _ _ _ _ _ P _ _ _ _ _ eq_refl R) as [[X _]|[_ E]]; [discriminate|]. destruct E.
  - left. exists st, h, a. split; [assumption|]. split; [assumption|]. split; [assumption|]. left. cbn. repeat split; auto. destruct (C100_told false (ret a)) as (_ & _ & _ & _ & L). exact L.
  - left. exists st, h, a. split; [assumption|]. split; [assumption|]. split; [assumption|]. right. cbn [reason detail lines]. repeat split; auto.
    + destruct (C100_told true (ret a)) as (_ & _ & _ & _ & L). rewrite L. destruct (Z.eqb_spec (ret a) 0); [auto|discriminate].
    + intros Z0. destruct (C100_told true (ret a)) as (_ & _ & _ & _ & L). rewrite L, Z0. reflexivity.
  - right. left. exists st. auto.
  - right. left. exists st. auto.
  - right. left. exists st. auto.
  - right. right. left. eauto.
  - do 3 right. left. auto.
  - do 4 right. eauto.
Qed.
Print Assumptions C100_reason.

(** "close_notify sent, not waiting for peer": either the program had closed both directions, the
    engine was asked to close after that and had nothing left to send; or the program had not
    closed its output, the engine did not take any, and the peer was gone or the program did not
    take the plaintext at hand. *)
Theorem C100_notified : forall timeout finish self uc n s tr s' l, peerout (fds s) <> -1 -> alive tr ->
  runs (said_phase timeout finish self uc n s) tr (Fin (0, s', mksum (bs "finished") (bs "close_notify sent, not waiting for peer") l)) ->
  exists z, last_state tr = Some z /\ ~ flag z 1 /\ ~ flag z 2 /\
    ((childin (fds s') = -1 /\ childout (fds s') = -1 /\
      exists h e r, tr = h ++ e :: r /\ call_of (bs "tls_engine_close") e /\ last_state r = Some z) \/
     (childout (fds s') <> -1 /\ ~ flag z 8 /\ (peerin (fds s') = -1 \/ (flag z 16 /\ childin (fds s') = -1)))).
Proof.
  intros timeout finish self uc n s tr s' l P AL R. apply open_true in P. destruct (phase_ends _ _ _ _ _ _ P _ _ _ _ _ eq_refl R) as [[X _]|[_ E]]; [discriminate|].
  remember (mksum _ _ l) as m eqn:M.
  assert (LIVE : forall z, last_state tr = Some z -> flag z 1 \/ flag z 2 \/ flag z 4 \/ flag z 16).
  { intros z L. apply last_in in L as (e & I & S). exact (AL e z I S). }
  destruct E; try discriminate M.
  - exfalso. injection M as M _. apply texts_quiet. rewrite <- M. apply reason_texts.
  - exists st. repeat split; auto. left. repeat split; auto. eauto 8.
  - exists st. repeat split; auto. right. repeat split; auto.
    destruct H4 as [G|[G1 G2]]; [left; exact G|]. right.
    destruct (LIVE _ ltac:(eassumption)) as [F|[F|[F|F]]]; try contradiction. split; [exact F|]. destruct G2; [contradiction|assumption].
  - exfalso. destruct (LIVE _ ltac:(eassumption)) as [F|[F|[F|F]]]; contradiction.
Qed.
Print Assumptions C100_notified.

Definition a0 (r : Z) : ans := mkans r 0 [].
Definition up : tsess := mkts (mksess 0 1 5 6 (-1) (-1) empty empty) true true.
Definition early : tsess := mkts (mksess 0 1 5 6 (-1) (-1) empty empty) false false.
Definition silentb (tr : trace) : bool := forallb (fun e => match state_said e with Some z => has z 1 || has z 2 || has z 4 || has z 16 | None => true end) tr.
Lemma alive_dec : forall tr, silentb tr = true -> alive tr.
Proof.
  intros tr H e z I S. unfold silentb in H. rewrite forallb_forall in H. specialize (H e I). rewrite S in H. rewrite !orb_true_iff in H. rewrite <- !has_flag. tauto.
Qed.
(** The program ends its output; the closing record is sent; the peer is not waited for. *)
Definition goodbye : list ans :=
  [a0 12; mkans 1 0 [6]; a0 100; a0 0; a0 0; a0 0;
   a0 12; a0 0; a0 0; a0 0; a0 0; a0 0; a0 6; mkans 1 0 [-2]; mkans 0 0 [21; 3; 3]; a0 3; a0 0;
   a0 4; a0 0; a0 0; a0 4].
Example ex_notified : exists tr s', runs (said_phase 60 1 9 false 9 up) tr (Fin (0, s', mksum (bs "finished") (bs "close_notify sent, not waiting for peer") [])) /\
  alive tr /\ legal tr /\ childout (fds s') = -1 /\ sent 1 tr = [21; 3; 3].
Proof.
  destruct (exec (said_phase 60 1 9 false 9 up) goodbye) as [tr o] eqn:E. pose proof (exec_runs _ _ _ _ _ E) as R. vm_compute in E. injection E as <- <-.
  do 2 eexists. split; [exact R|]. split; [apply alive_dec; vm_compute; reflexivity|]. split; [legal_by|]. split; vm_compute; reflexivity.
Qed.
(** Before the handshake is over the peer goes away: the line says that close_notify was sent, but
    nothing was sent and the engine was not asked to close. *)
Theorem C100_notified_refuted : exists timeout finish self n tr s',
  runs (said_phase timeout finish self false n early) tr (Fin (0, s', mksum (bs "finished") (bs "close_notify sent, not waiting for peer") [])) /\
  alive tr /\ legal tr /\ shaken s' = false /\ sent 1 tr = [] /\ ~ asked_close tr.
Proof.
  destruct (exec (said_phase 60 1 9 false 9 early) [a0 4; mkans 1 0 [0]; a0 100; a0 0; a0 0; a0 0; a0 4; a0 0; a0 0]) as [tr o] eqn:E.
  pose proof (exec_runs _ _ _ _ _ E) as R. vm_compute in E. injection E as <- <-.
  exists 60, 1, 9, 9%nat. do 2 eexists. split; [exact R|]. split; [apply alive_dec; vm_compute; reflexivity|]. split; [legal_by|]. split; [reflexivity|]. split; [reflexivity|].
  intros (e & I & l & d & C). cbn [In] in I. repeat (destruct I as [<- |I]; [discriminate C|]). exact I.
Qed.
Print Assumptions C100_notified_refuted.
(** Before the handshake is over nothing in the log tells an alert that was sent from one that was
    received. *)
Theorem C100_direction_refuted : exists timeout finish self n tr1 tr2 h1 h2 a1 a2 s1 s2 m,
  runs (said_phase timeout finish self false n early) tr1 (Fin (0, s1, m)) /\ runs (said_phase timeout finish self false n early) tr2 (Fin (0, s2, m)) /\
  tr1 = h1 ++ [(last_error, a1)] /\ tr2 = h2 ++ [(last_error, a2)] /\ 256 <= ret a1 < 512 /\ 512 <= ret a2 /\ phase_line m = bs "tls phase: handshake failed, handshake_failure".
Proof.
  destruct (exec (said_phase 60 1 9 false 9 early) [a0 1; a0 (256 + 40)]) as [tr1 o1] eqn:E1. pose proof (exec_runs _ _ _ _ _ E1) as R1. vm_compute in E1. injection E1 as <- <-.
  destruct (exec (said_phase 60 1 9 false 9 early) [a0 1; a0 (512 + 40)]) as [tr2 o2] eqn:E2. pose proof (exec_runs _ _ _ _ _ E2) as R2. vm_compute in E2. injection E2 as <- <-.
  exists 60, 1, 9, 9%nat. do 2 eexists. do 2 eexists ([_]). do 5 eexists. split; [exact R1|]. split; [exact R2|]. split; [reflexivity|]. split; [reflexivity|]. split; [cbn; lia|]. split; [cbn; lia|]. vm_compute. reflexivity.
Qed.
Print Assumptions C100_direction_refuted.
(** An end after the handshake: the alert of the peer gets its line. *)
Example ex_reason : exists tr s', runs (said_phase 60 1 9 false 9 up) tr (Fin (0, s', mksum (bs "finished") (bs "bad_certificate") [bs "TLS received alert: bad_certificate"])).
Proof.
  destruct (exec (said_phase 60 1 9 false 9 up) [a0 1; a0 298]) as [tr o] eqn:E. pose proof (exec_runs _ _ _ _ _ E) as R. vm_compute in E. injection E as <- <-. do 2 eexists. exact R.
Qed.
