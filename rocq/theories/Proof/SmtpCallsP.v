(** The calls of an SMTP session. *)
From Verif.Model Require Import Base Sys Io Str Buffer Stralloc Fdio Smtp.
From Verif.Proof Require Import Tac SysP CallsP.

(** neither a new process nor a connection nor a descriptor *)
Definition session_call (c : sys) : Prop :=
  match c with
  | Other n _ _ => In n [bs "waitpid"; bs "fstat"; bs "fd_blocking_disable"; bs "fd_blocking_enable"]
  | Shutdown _ _ => False
  | _ => True
  end.
Notation sc := (calls session_call).
Lemma sc_obind : forall A B (p : prog (out A)) (f : A -> prog (out B)), sc p -> (forall a, sc (f a)) -> sc (obind p f).
Proof. intros A B p f P F. unfold obind. apply calls_bind; auto. intros [a|x]; [apply F|apply calls_ret]. Qed.
Definition mc {A} (m : M A) : Prop := forall s, sc (m s).
Lemma mc_bind : forall A B (m : M A) (f : A -> M B), mc m -> (forall a, mc (f a)) -> mc (mbind m f).
Proof. intros A B m f P F s. unfold mbind. apply sc_obind; [apply P|]. intros [s' a]. apply F. Qed.
Lemma mc_lift : forall A B (x : res A) (f : A -> M B), (forall a, x = Ok a -> mc (f a)) -> mc (mbind (mlift x) f).
Proof.
  intros A B x f F s. unfold mbind, mlift, obind. destruct x; cbn [lift pbind]; [|apply calls_bad|apply calls_halt]. apply F. reflexivity.
Qed.
Lemma mc_ret : forall A (a : A), mc (mret a). Proof. intros A a s. apply calls_ret. Qed.
Lemma mc_get : mc mget. Proof. intros s. apply calls_ret. Qed.
Lemma mc_set : forall f, mc (mset f). Proof. intros f s. apply calls_ret. Qed.
Lemma mc_mlift : forall A (x : res A), mc (mlift x). Proof. intros A x s. unfold mlift. apply calls_bind; [apply calls_lift|intros; apply calls_ret]. Qed.
Lemma mc_sys : forall k, session_call k -> mc (msys k). Proof. intros k H s. unfold msys. apply calls_bind; [apply calls_sys1; exact H|intros; apply calls_ret]. Qed.
Lemma mc_die : forall A x, mc (@mdie A x). Proof. intros A x s. apply calls_ret. Qed.
Lemma mc_halt : forall A, mc (fun s : st => @Halt (out (st * A))). Proof. intros A s. apply calls_halt. Qed.
Lemma mc_the : forall f, mc (the f). Proof. intros f s. apply calls_ret. Qed.
Lemma mc_setlen : forall f n, mc (setlen f n). Proof. intros. apply mc_set. Qed.
Lemma mc_declen : forall f, mc (declen f). Proof. intros f s. apply mc_setlen. Qed.
Lemma mc_sado : forall f k, (forall x, calls allocs (k x)) -> mc (sado f k).
Proof.
  intros f k H s. unfold sado. apply calls_bind; [|intros [[] ?]; apply calls_ret]. eapply calls_weak; [apply H|]. intros c (n & ->). exact I.
Qed.
Lemma copyb_calls : forall r x n, calls allocs (stralloc_copyb r x n).
Proof. intros. unfold stralloc_copyb. repeat calls1; apply catb_calls. Qed.
Lemma copys_calls : forall r x, calls allocs (stralloc_copys r x).
Proof. intros. unfold stralloc_copys. repeat calls1; apply cats_calls. Qed.
Lemma append_calls : forall r x, calls allocs (stralloc_append r x).
Proof. intros. unfold stralloc_append. repeat calls1; apply catb_calls. Qed.
Lemma zero_calls : forall r, calls allocs (stralloc_0 r).
Proof. intros. unfold stralloc_0. repeat calls1; apply append_calls. Qed.
Lemma cat_calls : forall r x, calls allocs (stralloc_cat r x).
Proof. intros. unfold stralloc_cat. repeat calls1; apply catb_calls. Qed.
#[local] Hint Resolve catb_calls cats_calls copyb_calls copys_calls append_calls zero_calls cat_calls : sado.
Ltac mcs := repeat (cbn beta iota zeta || match goal with
  | |- mc (mbind (mlift _) _) => apply mc_lift; intros
  | |- mc (mbind _ _) => apply mc_bind; [|intros]
  | |- mc (mret _) => apply mc_ret
  | |- mc mget => apply mc_get
  | |- mc (mset _) => apply mc_set
  | |- mc (mlift _) => apply mc_mlift
  | |- mc (msys _) => apply mc_sys; cbn; auto 10
  | |- mc (mdie _) => apply mc_die
  | |- mc (fun _ => Halt) => apply mc_halt
  | |- mc (the _) => apply mc_the
  | |- mc (setlen _ _) => apply mc_setlen
  | |- mc (declen _) => apply mc_declen
  | |- mc (sado _ _) => apply mc_sado; intros; cbn beta; solve [auto with sado]
  | |- mc (match ?x with _ => _ end) => destruct x
  end).
Section Smtp.
Variable fuel : nat.
Variable c : cfg.
Definition rcalls (op : rop) : Prop := forall fd n, sc (op fd n).
Definition wcalls (op : wop) : Prop := forall fd x n, sc (op fd x n).
Ltac oc := repeat (cbn beta iota zeta || match goal with |- sc (obind _ _) => apply sc_obind; [|intros] | |- sc (match ?x with _ => _ end) => destruct x end || calls1).
Lemma wait_sc : forall f rd fd d, sc (timeout_wait f rd fd d).
Proof. induction f; intros; cbn [timeout_wait]; [apply calls_halt|]. apply calls_bind; [apply calls_sys1; exact I|intros]. destruct rd; repeat calls1; auto; exact I. Qed.
Lemma read_sc : forall t fd n, sc (timeoutread fuel t fd n).
Proof. intros. unfold timeoutread. repeat calls1; try exact I. apply wait_sc. Qed.
Lemma write_sc : forall t fd x n, sc (timeoutwrite fuel t fd x n).
Proof. intros. unfold timeoutwrite. repeat calls1; try exact I. apply wait_sc. Qed.
Lemma rd_sc : rcalls (read_ fuel c). Proof. intros fd n. unfold read_. apply calls_bind; [apply read_sc|intros]. oc. Qed.
Lemma gr_sc : rcalls (gread fuel c). Proof. intros fd n. unfold gread. apply calls_bind; [apply read_sc|intros]. oc. Qed.
Lemma wr_sc : wcalls (write_ fuel c). Proof. intros fd x n. unfold write_. apply calls_bind; [apply write_sc|intros]. oc. Qed.
Lemma gw_sc : wcalls (gwrite fuel c). Proof. intros fd x n. unfold gwrite. apply calls_bind; [apply write_sc|intros]. oc. Qed.
Lemma allwrite_sc : forall op, wcalls op -> forall f fd x n, sc (oallwrite f op fd x n).
Proof. intros op H. induction f; intros; cbn [oallwrite]; oc; auto; apply H. Qed.
Lemma flush_sc : forall op, wcalls op -> forall s, sc (oflush fuel op s).
Proof. intros. unfold oflush. oc. apply allwrite_sc. auto. Qed.
Lemma tail_sc : forall op, wcalls op -> forall s x n, sc (oput_tail fuel op s x n).
Proof. intros. unfold oput_tail. oc. apply allwrite_sc. auto. Qed.
Lemma put_sc : forall op, wcalls op -> forall s x n, sc (oput fuel op s x n).
Proof. intros. unfold oput. oc; auto using flush_sc, tail_sc. Qed.
Lemma puts_sc : forall op, wcalls op -> forall s x, sc (oputs fuel op s x).
Proof. intros. unfold oputs. oc. apply put_sc. auto. Qed.
Lemma putflush_sc : forall op, wcalls op -> forall s x n, sc (oputflush fuel op s x n).
Proof. intros. unfold oputflush. oc; auto using flush_sc, allwrite_sc. Qed.
Lemma putsflush_sc : forall op, wcalls op -> forall s x, sc (oputsflush fuel op s x).
Proof. intros. unfold oputsflush. oc. apply putflush_sc. auto. Qed.
Lemma oneread_sc : forall op, rcalls op -> forall f fd a n, sc (ooneread f op fd a n).
Proof. intros op H. induction f; intros; cbn [ooneread]; oc; auto; apply H. Qed.
Lemma feed_sc : forall op, rcalls op -> forall s, sc (ofeed fuel op s).
Proof. intros. unfold ofeed. oc. apply oneread_sc. auto. Qed.
Lemma get_sc : forall op, rcalls op -> forall s n, sc (oget fuel op s n).
Proof. intros. unfold oget. oc; auto using oneread_sc, feed_sc. Qed.
Lemma getc_sc : forall s, sc (ogetc fuel c s).
Proof. intros. unfold ogetc. oc. apply get_sc. apply rd_sc. Qed.
Lemma mc_putsflush : forall n p, mc (putsflush fuel c n p). Proof. intros n p s. unfold putsflush. oc. apply putsflush_sc. apply wr_sc. Qed.
Lemma mc_puts : forall n p, mc (puts fuel c n p). Proof. intros n p s. unfold puts. oc. apply puts_sc. apply wr_sc. Qed.
Lemma mc_flush : forall n, mc (flush fuel c n). Proof. intros n s. unfold flush. oc. apply flush_sc. apply wr_sc. Qed.
Lemma mc_getc : forall n, mc (getc fuel c n). Proof. intros n s. unfold getc. oc. apply getc_sc. Qed.
Lemma mc_at : forall f i, mc (at_ f i). Proof. intros. unfold at_. mcs. Qed.
Lemma mc_logs : forall f, mc (logs f). Proof. intros. unfold logs. mcs. Qed.
Lemma mc_puts_of : forall n f, mc (putsflush_of fuel c n f). Proof. intros. unfold putsflush_of. mcs. apply mc_putsflush. Qed.
Lemma waitchild_sc : forall f, sc (waitchild c f).
Proof. induction f; cbn [waitchild]; repeat calls1; auto. cbn. auto. Qed.
Lemma mc_die0 : forall A, mc (@die0 fuel c A).
Proof. intros A s. unfold die0. repeat calls1; try exact I. apply waitchild_sc. Qed.
Lemma mc_control : mc (control_ready c). Proof. unfold control_ready. mcs. Qed.
Lemma mc_discard : forall f, mc (discard_loop f). Proof. induction f; cbn [discard_loop]; mcs; auto. Qed.
Lemma mc_cleartext : mc (discard_starttls_cleartext fuel). Proof. unfold discard_starttls_cleartext. mcs. apply mc_discard. Qed.
Lemma mc_catlogid : forall f, mc (catlogid c f). Proof. intros. unfold catlogid. mcs. Qed.
Lemma mc_reset0 : forall f, mc (reset0 f). Proof. intros. unfold reset0. mcs. Qed.
Lemma mc_reset : mc reset_transaction. Proof. unfold reset_transaction. mcs; apply mc_reset0. Qed.
Lemma mc_append : forall f ch, mc (line_append f ch). Proof. intros. unfold line_append. mcs. Qed.
Lemma mc_zero : forall f, mc (zero f). Proof. intros. unfold zero. mcs. Qed.
Lemma mc_strip : forall f ch, mc (strip f ch). Proof. intros. unfold strip. mcs. apply mc_at. Qed.
Lemma mc_answer : forall f g, mc (answer_loop fuel c f g).
Proof.
  induction f; intros g; cbn [answer_loop]; mcs. intros s. oc; [apply get_sc; apply gr_sc|].
  match goal with |- sc (?m ?s) => assert (X : mc m); [|apply X] end. mcs. apply IHf.
Qed.
Lemma parts_sc : forall l g, sc (ask_parts fuel c l g).
Proof. induction l; intros; cbn [ask_parts]; oc; auto. apply puts_sc. apply gw_sc. Qed.
Lemma mc_ask : mc (ask fuel c).
Proof. unfold ask. mcs. intros s. oc; [apply parts_sc|apply flush_sc; apply gw_sc]. Qed.
Lemma mc_greylist : mc (greylist fuel c). Proof. unfold greylist. mcs; auto using mc_ask, mc_answer, mc_logs. Qed.
Lemma mc_take : mc (take fuel c). Proof. unfold take. mcs; auto using mc_getc, mc_append. Qed.
Lemma mc_rest : forall f ch, mc (rest_of_line fuel c f ch). Proof. induction f; intros; cbn [rest_of_line]; mcs; auto using mc_take. Qed.
Lemma mc_lines : forall f a k, mc (reply_lines fuel c f a k).
Proof. induction f; intros; cbn [reply_lines]; mcs; auto using mc_take, mc_getc, mc_append, mc_rest. Qed.
Lemma mc_line : forall a l, mc (smtpline fuel c a l).
Proof. intros. unfold smtpline. mcs; auto using mc_take, mc_lines, mc_rest, mc_zero, mc_logs, mc_strip, mc_catlogid. Qed.
Lemma mc_readline_loop : forall f, mc (readline_loop fuel c f). Proof. induction f; cbn [readline_loop]; mcs; auto using mc_getc, mc_append. Qed.
Lemma mc_readline : mc (readline fuel c). Proof. unfold readline. mcs; auto using mc_readline_loop, mc_strip, mc_zero, mc_logs. Qed.
Lemma mc_copy : forall l, mc (copy fuel c l). Proof. intros. unfold copy. mcs; auto using mc_puts_of, mc_line, mc_logs. Qed.
Lemma mc_data_loop : forall f, mc (data_loop fuel c f). Proof. induction f; cbn [data_loop]; mcs; auto using mc_readline, mc_puts, mc_strip, mc_at. Qed.
Lemma mc_starts : forall n v, mc (line_starts n v). Proof. intros. unfold line_starts. mcs. Qed.
Lemma mc_from : forall f n, mc (copy_line_from f n). Proof. intros. unfold copy_line_from. mcs. Qed.
Lemma mc_cutlen : forall f k, mc (cutlen f k). Proof. intros. unfold cutlen. mcs. Qed.
Lemma mc_say : forall m, mc (say fuel c m). Proof. intros. unfold say. mcs; auto using mc_catlogid, mc_puts_of. Qed.
#[local] Hint Resolve mc_putsflush mc_puts mc_flush mc_logs mc_puts_of mc_die0 mc_control mc_cleartext mc_reset mc_zero mc_strip mc_greylist mc_line mc_readline mc_copy mc_data_loop mc_starts mc_from mc_cutlen mc_say : mc.
Lemma mc_raise : mc (raise5 fuel c). Proof. intros s. unfold raise5. oc. apply putflush_sc. apply wr_sc. Qed.
Lemma mc_wait6 : mc (wait6 fuel c). Proof. intros s. unfold wait6. oc. apply get_sc. apply rd_sc. Qed.
Lemma mc_record : mc rcpt_record. Proof. unfold rcpt_record. mcs; auto with mc. Qed.
Lemma mc_commands : Forall (fun x => mc (snd x)) (smtpcommands fuel c).
Proof.
  repeat constructor; cbn [snd].
  - unfold smtp_quit. mcs; auto with mc.
  - unfold smtp_data. mcs; auto with mc.
  - unfold smtp_mail. mcs; auto with mc.
  - unfold smtp_rcpt. mcs; auto using mc_record with mc.
  - unfold smtp_ehlo. mcs; auto with mc.
  - unfold smtp_starttls. mcs; auto using mc_raise, mc_wait6 with mc.
Qed.
Lemma mc_find : forall p n l m, Forall (fun x => mc (snd x)) l -> find_command fuel c p n l = Ok m -> mc m.
Proof.
  intros p n l m F. induction F as [|[v k] l H F IH]; cbn [find_command]; intros E.
  - injection E as <-. unfold smtp_default. mcs. auto with mc.
  - destruct (case_diffb p n (v ++ [0])) as [d| |]; try discriminate. cbn [bind] in E. destruct (d =? 0); [injection E as <-; exact H|auto].
Qed.
Lemma mc_loop : forall f, mc (commands fuel c f).
Proof. induction f; cbn [commands]; mcs; auto with mc. eapply mc_find; [apply mc_commands|eassumption]. Qed.
Lemma smtp_calls : sc (smtp fuel c).
Proof.
  unfold smtp. apply calls_bind; [|intros []; apply calls_ret]. unfold session. match goal with |- sc (?m ?s) => assert (X : mc m); [|apply X] end.
  mcs; auto using mc_loop with mc. unfold greet. mcs; auto with mc.
Qed.
End Smtp.
