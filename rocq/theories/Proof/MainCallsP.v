(** Which system calls the parts of the main program make. *)
From Verif.Model Require Import Base Sys Io Str Inet Config Parsenum Fdio Buffer Relay Session Tlsphase Jail Pem Scalar Framed Keyjail Proxy Conninfo Options Profile Main.
From Verif.Spec Require Import Flow Process.
From Verif.Proof Require Import Tac SysP CallsP SafeP.

(** neither a new process nor a wait for one *)
Definition plain (c : sys) : Prop := match c with Other n _ _ => n <> bs "fork" /\ n <> bs "waitpid" | _ => True end.
(** moreover no program is executed and no descriptor gets a new meaning *)
Definition mild (c : sys) : Prop :=
  match c with
  | Other n args _ => (n <> bs "fork" /\ n <> bs "waitpid" /\ n <> bs "execvp") /\ n <> bs "pipe" /\ n <> bs "open" /\ n <> bs "open_read" /\ n <> bs "dup" /\ (n = bs "fcntl" -> (nth 1 args 0 =? 2) = false)
  | _ => True
  end.
(** no transfer *)
Definition still (c : sys) : Prop := match c with Read _ _ | Write _ _ | Poll _ _ | Select _ _ _ _ | Shutdown _ _ => False | _ => True end.
Definition local (c : sys) : Prop := plain c /\ still c.
Ltac here := repeat split; discriminate.
Ltac steps := repeat (calls1 || (cbv zeta)); try here; try exact I.

Lemma writeall_mild : forall f fd x n, calls mild (writeall f fd x n).
Proof. induction f; intros; cbn [writeall]; steps; auto. Qed.
Lemma readall_mild : forall f fd x n, calls mild (readall f fd x n).
Proof. induction f; intros; cbn [readall]; steps; auto. Qed.
Lemma pipe_write_mild : forall f fd x n, calls mild (pipe_write f fd x n).
Proof. intros. unfold pipe_write. steps; apply writeall_mild. Qed.
Lemma pipe_readalloc_mild : forall f fd, calls mild (pipe_readalloc f fd).
Proof. intros. unfold pipe_readalloc. steps; apply readall_mild. Qed.
Lemma jail_local : forall a d l, calls local (jail a d l).
Proof. intros. unfold jail, jail_main, must, mustbe, when, jail_limit_memory. destruct a, d, l; steps. Qed.
Lemma weak_plain : forall R (p : prog R), calls local p -> calls plain p.
Proof. intros R p C. eapply calls_weak; [exact C|]. intros c [H _]. exact H. Qed.
Lemma iter_calls : forall P S R (body : S -> prog (nxt S R)), (forall s, calls P (body s)) -> forall fuel s, calls P (iter fuel body s).
Proof. intros P S R body H. induction fuel; intros s; cbn [iter]; steps; auto. Qed.
Lemma shut_r_mild : forall v, calls mild (shut_r v).
Proof. intros. unfold shut_r, fd_close_read, fd_close_, tryshutdown, tryclose. steps. Qed.
Lemma shut_w_mild : forall v, calls mild (shut_w v).
Proof. intros. unfold shut_w, fd_close_write, fd_close_, tryshutdown, tryclose. steps. Qed.
Lemma fd_read_mild : forall f r n, calls mild (fd_read f r n).
Proof. intros. unfold fd_read. steps. Qed.
Lemma fd_write_mild : forall f x n, calls mild (fd_write f x n).
Proof. intros. unfold fd_write. steps. Qed.
Lemma jail_poll_mild : forall x ms, calls mild (jail_poll x ms).
Proof. intros. unfold jail_poll. steps. Qed.
Lemma watch_mild : forall ws, calls mild (watch ws).
Proof. intros. unfold watch. steps. apply jail_poll_mild. Qed.
Lemma alarm_mild : forall t, calls mild (alarm t).
Proof. intros. unfold alarm. steps. Qed.
Create HintDb mild.
#[export] Hint Resolve writeall_mild readall_mild pipe_write_mild pipe_readalloc_mild shut_r_mild shut_w_mild fd_read_mild fd_write_mild jail_poll_mild watch_mild alarm_mild : mild.
Lemma selfpipe_mild : forall f self s, calls mild (selfpipe_event f self s).
Proof. intros. unfold selfpipe_event. steps; auto with mild. Qed.
#[export] Hint Resolve selfpipe_mild : mild.
Lemma cleartext_mild : forall t f self fuel s, calls mild (cleartext t f self fuel s).
Proof.
  intros. unfold cleartext. apply iter_calls. clear s. intros s. unfold clear_body, clear_eof, clear_topeer, clear_fromchild, clear_control, clear_tochild, clear_frompeer, clear_signal.
  repeat (calls1 || (progress cbv zeta)); auto with mild.
Qed.
Lemma pending_mild : forall fuel fd, calls mild (pending_now fuel fd).
Proof. intros. unfold pending_now. steps. induction fuel as [|fuel IH]; cbn [pending_loop]; steps; auto with mild. Qed.
Lemma current_mild : calls mild current_state.
Proof. unfold current_state, engine. steps. Qed.
Lemma flush_mild : calls mild flush.
Proof. unfold flush. steps. Qed.
Lemma report_user_mild : forall fuel fd s, calls mild (report_user fuel fd s).
Proof. intros. unfold report_user. steps; auto with mild. Qed.
#[export] Hint Resolve pending_mild current_mild flush_mild report_user_mild : mild.
Lemma tls_phase_mild : forall t f self u fuel s, calls mild (tls_phase t f self u fuel s).
Proof.
  intros. unfold tls_phase. apply iter_calls. clear s. intros s.
  unfold tls_body, tls_eof1, tls_eof2, tls_eof3, tls_notify, report_handshake, tls_tochild, tls_topeer, tls_frompeer, tls_fromchild, tls_signal, offer, fetch, engine, engine_ack.
  repeat (calls1 || (progress cbv zeta)); auto with mild; here.
Qed.
Lemma oneread_mild : forall f fd a n, calls mild (oneread f fd a n).
Proof. induction f; intros; cbn [oneread]; steps; auto. Qed.
#[export] Hint Resolve oneread_mild : mild.
Lemma getc_mild : forall f b, calls mild (buffer_GETC f b).
Proof. intros. unfold buffer_GETC, buffer_get, buffer_feed. repeat (calls1 || (progress cbv zeta)); auto with mild. Qed.
#[export] Hint Resolve getc_mild : mild.
Lemma pp_read_mild : forall f k b n l, calls mild (pp_read f k b n l).
Proof. intros f k. induction k as [|k IH]; intros; cbn [pp_read]; steps; auto with mild. Qed.
Lemma proxy_mild : forall f I fd o, calls mild (proxyprotocol_v1_get f I fd o).
Proof. intros. unfold proxyprotocol_v1_get. cbv zeta. apply calls_bind; [apply pp_read_mild|intros; steps]. Qed.
Lemma connection_mild : forall I e, calls mild (connection I e).
Proof. intros. unfold connection, socket_name. steps. Qed.
Lemma jail_mild : forall a d l, calls mild (jail a d l).
Proof. intros. unfold jail, jail_main, must, mustbe, when, jail_limit_memory. destruct a, d, l; steps. Qed.
Lemma blocking_mild : forall fd b, calls mild (blocking fd b).
Proof.
  intros. unfold blocking, do. repeat calls1; (split; [here|]); (split; [discriminate|]; split; [discriminate|]; split; [discriminate|]; split; [discriminate|]; intros _; reflexivity).
Qed.
Lemma mild_plain : forall R (p : prog R), calls mild p -> calls plain p.
Proof. intros R p C. eapply calls_weak; [exact C|]. intros [] H; try exact I. cbn in *. tauto. Qed.
Create HintDb plain.
#[export] Hint Extern 1 (calls plain _) => apply mild_plain; solve [auto with mild] : plain.
Lemma tls_phase_plain : forall t f self u fuel s, calls plain (tls_phase t f self u fuel s).
Proof. intros. apply mild_plain, tls_phase_mild. Qed.
Lemma cleartext_plain : forall t f self fuel s, calls plain (cleartext t f self fuel s).
Proof. intros. apply mild_plain, cleartext_mild. Qed.
Lemma proxy_plain : forall f I fd o, calls plain (proxyprotocol_v1_get f I fd o).
Proof. intros. apply mild_plain, proxy_mild. Qed.
Lemma connection_plain : forall I e, calls plain (connection I e).
Proof. intros. apply mild_plain, connection_mild. Qed.
Lemma options_local : forall argv o, calls local (options argv o).
Proof.
  assert (SO : forall c x o, calls local (set_option c x o)).
  { intros. unfold set_option, statted, configured. repeat (calls1 || (progress cbv zeta)); here. }
  assert (CL : forall x next o, calls local (cluster x next o)).
  { intros x. induction x as [|c x IH]; intros; cbn [cluster]; repeat (calls1 || (progress cbv zeta)); auto. }
  fix IH 1. intros argv o. destruct argv as [|x argv]; cbn [options]; repeat (calls1 || (progress cbv zeta)); auto.
Qed.
Lemma command_local : forall argv, calls local (command_line argv).
Proof. intros. unfold command_line. repeat (calls1 || (progress cbv zeta)); apply options_local. Qed.
Lemma blocking_local : forall fd b, calls local (blocking fd b).
Proof. intros. unfold blocking, do. steps. Qed.
Lemma random_local : forall n, calls local (randombytes n).
Proof. intros. unfold randombytes. steps. Qed.
Lemma init_mild : forall o n, calls mild (init_tls o n).
Proof. intros. unfold init_tls, tls_profile, client_certificates, br, randombytes. steps. Qed.
Lemma init_local : forall o n, calls local (init_tls o n).
Proof. intros. unfold init_tls, tls_profile, client_certificates, br, randombytes. steps. Qed.
#[export] Hint Resolve init_mild : mild.
