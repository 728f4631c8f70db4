(** When the TLS engine is used. *)
From Verif.Model Require Import Base Sys Io Str Inet Config Parsenum Fdio Buffer Relay Session Tlsphase Jail Pem Keyjail Proxy Conninfo Options Profile Main.
From Verif.Spec Require Import Text Settings Cmdline Flow Restrict Process Engine.
From Verif.Proof Require Import Tac SysP CallsP StrP ConfigP OptionsP SafeP MainCallsP MainP ChildP QuitP ProfileP.
From Verif.Props Require Import PropOptions.

(** ** No use of the engine before that *)
Definition idle (c : sys) : Prop := engine_call c = false.
Definition unset (c : sys) : Prop := setup c = false.
Ltac idle1 := repeat (calls1 || (progress cbv zeta)); try exact eq_refl.
Lemma writeall_idle : forall f fd x n, calls idle (writeall f fd x n).
Proof. induction f; intros; cbn [writeall]; idle1; auto. Qed.
Lemma readall_idle : forall f fd x n, calls idle (readall f fd x n).
Proof. induction f; intros; cbn [readall]; idle1; auto. Qed.
Lemma pipe_write_idle : forall f fd x n, calls idle (pipe_write f fd x n).
Proof. intros. unfold pipe_write. idle1; apply writeall_idle. Qed.
Lemma readalloc_idle : forall f fd, calls idle (pipe_readalloc f fd).
Proof. intros. unfold pipe_readalloc. idle1; apply readall_idle. Qed.
Lemma jail_idle : forall a d l, calls idle (jail a d l).
Proof. intros. unfold jail, jail_main, must, mustbe, when, jail_limit_memory. destruct a, d, l; idle1. Qed.
Lemma shut_r_idle : forall v, calls idle (shut_r v).
Proof. intros. unfold shut_r, fd_close_read, fd_close_, tryshutdown, tryclose. idle1. Qed.
Lemma shut_w_idle : forall v, calls idle (shut_w v).
Proof. intros. unfold shut_w, fd_close_write, fd_close_, tryshutdown, tryclose. idle1. Qed.
Lemma report_idle : forall fuel fd s, calls idle (report_user fuel fd s).
Proof. intros. unfold report_user. idle1; apply pipe_write_idle. Qed.
Lemma watch_idle : forall ws, calls idle (watch ws).
Proof. intros. unfold watch, jail_poll. idle1. Qed.
Lemma selfpipe_idle : forall f self s, calls idle (selfpipe_event f self s).
Proof. intros. unfold selfpipe_event, fd_read, alarm. idle1; auto using shut_r_idle, shut_w_idle. Qed.
Create HintDb idle.
#[export] Hint Resolve writeall_idle readall_idle pipe_write_idle readalloc_idle jail_idle shut_r_idle shut_w_idle report_idle watch_idle selfpipe_idle : idle.
Lemma cleartext_idle : forall t f self fuel s, calls idle (cleartext t f self fuel s).
Proof.
  intros. unfold cleartext. apply iter_calls. clear s. intros s. unfold clear_body, clear_eof, clear_topeer, clear_fromchild, clear_control, clear_tochild, clear_frompeer, clear_signal, fd_read, fd_write, alarm.
  idle1; auto with idle.
Qed.
Lemma proxy_idle : forall f I fd o, calls idle (proxyprotocol_v1_get f I fd o).
Proof.
  intros. assert (O : forall f fd a n, calls idle (oneread f fd a n)) by (induction f0; intros; cbn [oneread]; idle1; auto).
  assert (G : forall f b, calls idle (buffer_GETC f b)) by (intros; unfold buffer_GETC, buffer_get, buffer_feed; idle1; auto).
  assert (P : forall f k b n l, calls idle (pp_read f k b n l)) by (intros f0 k; induction k as [|k IH]; intros; cbn [pp_read]; idle1; auto).
  unfold proxyprotocol_v1_get. cbv zeta. apply calls_bind; [apply P|intros; idle1].
Qed.
Lemma connection_idle : forall I e, calls idle (connection I e).
Proof. intros. unfold connection, socket_name. idle1. Qed.
Lemma blocking_idle : forall fd b, calls idle (blocking fd b).
Proof. intros. unfold blocking, do. idle1. Qed.
Lemma finish_idle : forall fuel c k f t s, calls idle (finish fuel c k f t s).
Proof.
  intros. assert (W : forall n p, calls idle (wait n p)) by (induction n; intros p; cbn [wait]; idle1; auto).
  unfold finish, signal, alarm, do. idle1; auto with idle.
Qed.
Lemma init_idle : forall o n, calls idle (init_tls o n).
Proof. intros. unfold init_tls, tls_profile, client_certificates, br, randombytes. apply calls_bind; [apply calls_lift|]. intros x. idle1. Qed.
(** and no new settings while it is used *)
Lemma tls_phase_unset : forall t f self u fuel s, calls unset (tls_phase t f self u fuel s).
Proof.
  intros. assert (W : forall f fd x n, calls unset (writeall f fd x n)) by (induction f0; intros; cbn [writeall]; idle1; auto).
  assert (P : forall f fd x n, calls unset (pipe_write f fd x n)) by (intros; unfold pipe_write; idle1; auto).
  assert (SR : forall v, calls unset (shut_r v)) by (intros; unfold shut_r, fd_close_read, fd_close_, tryshutdown, tryclose; idle1).
  assert (SW : forall v, calls unset (shut_w v)) by (intros; unfold shut_w, fd_close_write, fd_close_, tryshutdown, tryclose; idle1).
  assert (PN : forall fuel fd, calls unset (pending_now fuel fd)).
  { intros. unfold pending_now. idle1. induction fuel0 as [|fuel0 IH]; cbn [pending_loop]; unfold jail_poll; idle1; auto. }
  unfold tls_phase. apply iter_calls. clear s. intros s.
  unfold tls_body, tls_eof1, tls_eof2, tls_eof3, tls_notify, report_handshake, tls_tochild, tls_topeer, tls_frompeer, tls_fromchild, tls_signal, offer, fetch, engine, engine_ack, report_user, current_state, flush, watch, jail_poll, selfpipe_event, fd_read, fd_write, alarm, engine.
  idle1; auto.
Qed.

(** ** The whole process *)
Definition uses (l : list item) (t : trace) (e : event) : Prop := engine_call (fst e) = true -> engine_for l t.
Definition good (l : list item) (J : trace -> Prop) {R} (p : prog R) : Prop :=
  forall (h tr : trace) out, J h -> runs p tr out -> original tr -> plausible tr -> holds (uses l) h tr.
Definition grows (J : trace -> Prop) : Prop := forall t u : trace, J t -> J (t ++ u).
Lemma anchors_grows : forall l n, grows (anchors l n).
Proof. intros l n t u. unfold anchors. destruct (args 97 l); [auto|]. intros (pem & a & I & H). exists pem, a. split; [apply in_or_app; auto|exact H]. Qed.
Lemma idle_holds : forall l (h t : trace), Forall (fun e => idle (fst e)) t -> holds (uses l) h t.
Proof. intros l h t F t1 e t2 -> U. apply Forall_app in F as [_ F]. inversion F as [|? ? X]. unfold idle in X. congruence. Qed.
Lemma good_idle : forall l J R (p : prog R), calls idle p -> good l J p.
Proof. intros l J R p C h tr out _ RU _ _. apply idle_holds. exact (C _ _ RU). Qed.
Lemma good_bind : forall l J S R (p : prog S) (k : S -> prog R), grows J -> calls idle p -> (forall a, good l J (k a)) -> good l J (pbind p k).
Proof.
  intros l J S R p k G C K h tr out JH RU O P. apply runs_bind in RU as [(a & t1 & t2 & -> & R1 & R2)|[[R1 ->]|[R1 ->]]]; [|apply idle_holds; exact (C _ _ R1)..].
  apply original_app in O as [_ O]. apply plausible_app in P as [_ P]. apply holds_app. split; [apply idle_holds; exact (C _ _ R1)|]. eapply K; eauto.
Qed.
Lemma good_ret : forall l J R (r : R), good l J (Ret r).
Proof. intros. apply good_idle. apply calls_ret. Qed.
Section Uses.
Variable I : inet.
Variable stream : list Z -> list Z -> nat -> Z.
Variable fuel : nat.
Variables junk portbuf line0 key0 : list Z.
Variable env : environment.
Variable nojail : bool.
Variable l : list item.
Variable cmd : command.
Hypothesis SET : sets l (settings cmd).
Hypothesis ATT : attributes l.

Lemma need_good : forall J p (k : prog ending), grows J -> calls idle p -> good l J k -> good l J (need p k).
Proof. intros J p k G C K. unfold need. apply good_bind; auto. intros [|e]; [exact K|apply good_ret]. Qed.
Lemma sigaction_good : forall J n (k : prog ending), grows J -> good l J k -> good l J (sigaction n k).
Proof. intros J n k G K. unfold sigaction. apply good_bind; auto; [idle1|]. intros a. destruct (_ =? _); [apply good_ret|exact K]. Qed.
Lemma relay_good : forall n self s fin, (forall s, good l (anchors l n) (fin s)) -> good l (anchors l n) (relay fuel cmd n self s fin).
Proof.
  intros n self s fin FIN. pose proof (anchors_grows l n) as G. unfold relay. cbv zeta. do 2 (apply good_bind; [exact G|apply blocking_idle|intros _]).
  assert (T : forall s, good l (anchors l n) (_ <~ init_tls (settings cmd) n ;;
    '(r, t) <~ tls_phase (timeout cmd) 1 self (match certuser (settings cmd) with Some _ => true | None => false end) fuel (mkts s false (delayed (settings cmd))) ;;
    if r =? 0 then fin (fds t) else Ret (Exit r))).
  { clear s. intros s h tr out JH RU O P. apply runs_bind in RU as [(a & t1 & t2 & -> & R1 & R2)|[[R1 ->]|[R1 ->]]]; [|apply idle_holds; exact (init_idle _ _ _ _ R1)..].
    apply original_app in O as [_ O]. apply plausible_app in P as [P1 P2]. apply holds_app. split; [apply idle_holds; exact (init_idle _ _ _ _ R1)|].
    pose proof (profile_engine _ _ _ _ _ _ SET ATT JH R1 P1) as E.
    assert (TH : forall (t : trace) o, runs (tls_phase (timeout cmd) 1 self (match certuser (settings cmd) with Some _ => true | None => false end) fuel (mkts s false (delayed (settings cmd)))) t o -> holds (uses l) (h ++ t1) t).
    { intros t o RU. pose proof (tls_phase_unset _ _ _ _ _ _ _ _ RU) as F. intros u1 e u2 -> _. apply engine_more; [|exact E]. apply Forall_app in F as [F _]. exact F. }
    apply runs_bind in R2 as [([r s1] & u1 & u2 & -> & R2 & R3)|[[R2 ->]|[R2 ->]]]; [|eapply TH; exact R2..].
    apply holds_app. split; [eapply TH; exact R2|]. apply original_app in O as [_ O]. apply plausible_app in P2 as [_ P2]. destruct (r =? 0); [|destruct R3 as [-> _]; apply holds_nil]. eapply FIN; eauto. }
  destruct (delayed (settings cmd)).
  - apply good_bind; [exact G|apply report_idle|]. intros [|]; [apply good_ret|]. apply sigaction_good; [exact G|]. apply good_bind; [exact G|unfold alarm; idle1|intros _].
    apply good_bind; [exact G|apply cleartext_idle|]. intros [r s1]. destruct (r =? 0); [apply FIN|]. apply good_bind; [exact G|unfold alarm; idle1|intros _]. apply T.
  - apply good_bind; [exact G|apply shut_r_idle|intros v]. apply good_bind; [exact G|apply shut_w_idle|intros w]. apply sigaction_good; [exact G|]. apply T.
Qed.
Definition always_true (t : trace) : Prop := True.
Lemma true_grows : grows always_true.
Proof. intros t u _. exact Logic.I. Qed.
Lemma anchor_good : forall fk tk k, (forall n, good l (anchors l n) (k n)) -> good l always_true (anchor fuel (anchorfn (cfg (settings cmd))) fk tk k).
Proof.
  intros fk tk k K. pose proof true_grows as G. pose proof (s_anchor _ _ SET) as SA. unfold anchor. destruct (anchorfn _) as [fn|].
  - apply good_bind; [exact G|apply calls_lift|intros x]. apply good_bind; [exact G|apply calls_lift|intros n]. apply need_good; [exact G|apply pipe_write_idle|]. apply good_bind; [exact G|apply readalloc_idle|].
    intros [e|pem]; [apply good_ret|]. intros h tr out _ RU O P. apply runs_bind in RU as [(a & t1 & t2 & -> & R1 & R2)|[[R1 ->]|[R1 ->]]].
    + apply runs_sys1 in R1 as [[_ E]|(b & -> & E)]; [discriminate|]. injection E as ->. apply original_app in O as [_ O]. apply plausible_app in P as [P1 P2]. apply holds_app. split; [apply idle_holds; repeat constructor|].
      destruct (Z.eqb_spec (ret b) 0) as [E|E]; [destruct R2 as [-> _]; apply holds_nil|]. eapply K; [|exact R2|exact O|exact P2]. unfold anchors. rewrite SA. exists pem, b. split; [apply in_or_app; right; left; reflexivity|].
      split; [exact E|]. split; [reflexivity|]. apply (proj2 P1 pem); [left; reflexivity|exact E].
    + apply runs_sys1 in R1 as [[_ E]|(b & _ & E)]; discriminate.
    + apply runs_sys1 in R1 as [[-> _]|(b & _ & E)]; [apply holds_nil|discriminate].
  - intros h tr out _ RU. apply (K 0 h tr out); auto. unfold anchors. rewrite SA. reflexivity.
Qed.
Lemma jailed_good : forall p child key fk tk self, good l always_true (jailed_main I fuel env nojail cmd p child key fk tk self).
Proof.
  intros. pose proof true_grows as G. unfold jailed_main. cbv zeta. apply good_bind; [exact G|apply calls_lift|intros acc]. apply good_bind; [exact G|apply calls_lift|intros dir].
  apply good_bind; [exact G|destruct nojail; [idle1|apply jail_idle]|]. intros r. destruct (_ =? -1); [apply good_ret|]. apply anchor_good. intros n. pose proof (anchors_grows l n) as A.
  assert (TE : forall i, good l (anchors l n) (tell fuel (toc_w p) i (relay fuel cmd n self (mksess 0 1 (toc_w p) (fromc_r p) (fromctl_r p) (toctl_w p) empty empty) (finish fuel child key fk tk)))).
  { intros i. unfold tell. do 4 (apply need_good; [exact A|apply pipe_write_idle|]). apply relay_good. intros s. apply good_idle, finish_idle. }
  unfold peer_info. cbn [childin]. destruct (ppin _).
  - apply good_bind; [exact A|apply proxy_idle|]. intros [q e]. destruct (_ =? _); [apply good_ret|apply TE].
  - apply good_bind; [exact A|apply connection_idle|]. intros i. apply TE.
Qed.
Lemma pipe_good : forall k, (forall r w, good l always_true (k r w)) -> good l always_true (open_pipe k).
Proof.
  intros k K. pose proof true_grows as G. unfold open_pipe. apply good_bind; [exact G|idle1|]. intros a. destruct (_ =? _); [apply good_ret|]. cbv zeta.
  repeat (apply good_bind; [exact G|unfold blocking, do; idle1|intros ?]). apply K.
Qed.
Lemma fork_good : forall (k0 : prog ending) k, (forall f, good l always_true (k f)) ->
  good l always_true (f <~ sys1 (Other (bs "fork") [] []) ;; if ret f =? -1 then Ret (Exit 111) else if ret f =? 0 then k0 else k f).
Proof.
  intros k0 k K h tr out _ RU O P. apply runs_bind in RU as [(a & t1 & t2 & -> & R1 & R2)|[[R1 ->]|[R1 ->]]].
  - apply runs_sys1 in R1 as [[_ E]|(b & -> & E)]; [discriminate|]. injection E as ->. apply holds_app. split; [apply idle_holds; repeat constructor|].
    destruct (ret b =? -1); [destruct R2 as [-> _]; apply holds_nil|]. apply plausible_app in P as [_ P]. destruct (Z.eqb_spec (ret b) 0) as [E|E]; [exfalso; apply O; left; exact E|].
    apply original_app in O as [_ O]. eapply K; eauto. exact Logic.I.
  - apply runs_sys1 in R1 as [[_ E]|(b & _ & E)]; discriminate.
  - apply runs_sys1 in R1 as [[-> _]|(b & _ & E)]; [apply holds_nil|discriminate].
Qed.
Lemma start_good : good l always_true (start_child I stream fuel junk portbuf line0 key0 env nojail cmd).
Proof.
  pose proof true_grows as G. unfold start_child. apply good_bind; [exact G|unfold alarm; idle1|intros _].
  match goal with |- good _ _ (_ ?k) => assert (K : good l always_true k) end.
  { apply pipe_good. intros t0 t1. apply pipe_good. intros f0 f1. apply pipe_good. intros c0 c1. apply pipe_good. intros k0 k1. cbv zeta. apply fork_good. intros f.
    unfold parent_main. do 9 (apply good_bind; [exact G|unfold blocking, do, randombytes; idle1|intros ?]). apply pipe_good. intros fr fw. apply pipe_good. intros kr kw. apply fork_good. intros g.
    do 4 (apply good_bind; [exact G|unfold blocking, do; idle1|intros ?]). apply pipe_good. intros sr sw. apply jailed_good. }
  destruct (delayed (settings cmd)); [|exact K]. unfold reserve.
  apply good_bind; [exact G|idle1|]. intros a. destruct (negb _); [apply good_ret|]. apply good_bind; [exact G|idle1|]. intros b. destruct (negb _); [apply good_ret|].
  generalize fuel at 1. intros n. induction n as [|n IH]; cbn [devnull]; [apply good_idle; idle1|]. apply good_bind; [exact G|idle1|]. intros c. destruct (_ =? _); [apply good_ret|]. destruct (6 <? _); [apply good_bind; [exact G|unfold do; idle1|intros _]; exact K|exact IH].
Qed.
End Uses.
