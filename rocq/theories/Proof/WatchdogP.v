(** The alarm clock of the wrapper. *)
From Verif.Model Require Import Base Sys Io Str Inet Config Parsenum Fdio Buffer Relay Session Tlsphase Jail Pem Keyjail Proxy Conninfo Options Profile Main.
From Verif.Spec Require Import Text Flow Process Watchdog.
From Verif.Proof Require Import Tac SysP CallsP StrP ConfigP OptionsP SafeP MainCallsP.

Lemma seen_app : forall (t : trace) e, seen (t ++ [e]) = look (seen t) e.
Proof. intros. unfold seen. rewrite fold_left_app. reflexivity. Qed.
Lemma named_true : forall n m, named n m = true -> n = m.
Proof. intros n m. unfold named. destruct (list_eq_dec _ _ _); [auto|discriminate]. Qed.
Lemma named_not : forall n m, n <> m -> named n m = false.
Proof. intros n m. unfold named. destruct (list_eq_dec _ _ _); [contradiction|auto]. Qed.

(** calls that do not matter here, with the handler in place and before *)
Definition quiet (c : sys) : Prop :=
  match c with
  | Read _ _ | Select _ _ _ None => False
  | Other m _ _ => m <> bs "alarm" /\ m <> bs "sigaction" /\ m <> bs "signal" /\ m <> bs "pipe" /\ m <> bs "fork"
  | _ => True
  end.
Definition early (c : sys) : Prop :=
  match c with Other m _ _ => m <> bs "alarm" /\ m <> bs "sigaction" /\ m <> bs "signal" /\ m <> bs "pipe" /\ m <> bs "fork" | _ => True end.
Definition last_call (c : sys) : Prop :=
  match c with Shutdown _ _ | Close _ => True | Other m _ _ => m = bs "waitpid" | _ => False end.
Lemma quiet_early : forall c, quiet c -> early c.
Proof. intros c. unfold quiet, early. destruct c; auto. Qed.
Lemma look_early : forall w e, early (fst e) -> action w <> 2 -> look w e = w.
Proof.
  intros w [c a] Q A. destruct c; cbn [fst early] in Q; try reflexivity.
  - unfold look. rewrite (proj2 (Z.eqb_neq (action w) 2) A). reflexivity.
  - destruct Q as (Q1 & Q2 & Q3 & Q4 & _). unfold look. rewrite !named_not by auto. reflexivity.
Qed.
Lemma look_quiet : forall w e, quiet (fst e) -> look w e = w.
Proof.
  intros w [c a] Q. destruct c; cbn [fst quiet] in Q; try reflexivity; try contradiction.
  destruct Q as (Q1 & Q2 & Q3 & Q4 & _). unfold look. rewrite !named_not by auto. reflexivity.
Qed.
Lemma look_last : forall w e, last_call (fst e) -> look w e = w.
Proof.
  intros w [c a] Q. destruct c; cbn [fst last_call] in Q; try reflexivity; try contradiction. subst. reflexivity.
Qed.

Ltac quiet1 := repeat (calls1 || (progress cbv zeta)); try exact Logic.I; try (cbn [quiet]; repeat split; discriminate).
Ltac jj := split; [|split; [|split]].
Ltac parts := split; [intro; lia|split; [lia|split; [|intro; lia]]].
Section Clock.
Variables th hh : Z.
Hypothesis TH : 1 <= th.
Hypothesis HH : 1 <= hh.
Definition parent (t : trace) (e : event) : Prop :=
  (calling (bs "fork") e = true -> ret (snd e) <> 0) /\ (calling (bs "pipe") e = true -> ret (snd e) <> -1 -> 0 <= nth 0 (data (snd e)) 0).
Notation OK := (guarded th hh).

(** ** with the handler in place *)
Variable self : Z.
Definition ticks (t : trace) : Prop := due (seen t) = false /\ exists n, clk (seen t) = Running n /\ In n [th; hh; 1].
Definition J (b : bool) (k : Z) (t : trace) : Prop :=
  action (seen t) = 2 /\ newest (seen t) = self /\ (b = true -> ticks t) /\ rearmed (seen t) <= fed (seen t) + k.
Lemma J_weak : forall b k k' t, J b k t -> k <= k' -> J b k' t.
Proof. intros b k k' t (H1 & H2 & H3 & H4) L. jj; auto. lia. Qed.
Lemma J_clock : forall b k t, J b k t -> J false k t.
Proof. intros b k t (H1 & H2 & H3 & H4). jj; auto. discriminate. Qed.
Lemma quiet_ok : forall t e, action (seen t) = 2 -> quiet (fst e) -> OK t e.
Proof.
  intros t [c a] A Q. unfold guarded. cbn [fst] in *. rewrite A. parts.
  - intros _. unfold quiet in Q. destruct c as [| | | | |? ? ? [?|]| | |]; try exact Logic.I; [destruct Q|]. intros E. destruct Q as [Q _]. contradiction.
Qed.
Lemma quietly : forall R (p : prog R) b k t, calls quiet p -> J b k t -> sp parent OK t p (fun t _ => J b k t).
Proof.
  intros R p b k t C H. apply (sp_quiet _ _ _ quiet); auto. intros u e HU Q _. split; [apply quiet_ok; auto; apply HU|].
  unfold J, ticks. rewrite seen_app, look_quiet by auto. exact HU.
Qed.
Lemma sp_then : forall R S (p : prog R) (f : R -> prog S) b k t Q, calls quiet p -> J b k t -> (forall u x, J b k u -> sp parent OK u (f x) Q) -> sp parent OK t (pbind p f) Q.
Proof. intros R S p f b k t Q C H K. eapply sp_bind; [apply (quietly _ p b k t C H)|]. intros u x HU. auto. Qed.
Lemma sp_alarm : forall S (f : unit -> prog S) b k t n Q, In n [th; hh; 1] -> k <= 1 -> J b k t -> (forall u, J true (k + 1) u -> sp parent OK u (f tt) Q) ->
  sp parent OK t (pbind (alarm n) f) Q.
Proof.
  intros S f b k t n Q N K H F. unfold alarm. unfold sys1. cbn [pbind]. apply sp_do. intros a _. destruct H as (H1 & H2 & H3 & H4). split.
  - unfold guarded. cbn [fst]. rewrite H1. parts. intros _ _. split; [exists n; auto|]. lia.
  - apply F. unfold J, ticks. rewrite seen_app. unfold look. cbn [named]. change (named (bs "alarm") (bs "alarm")) with true. cbv iota. cbn [clk action newest rearmed fed due hd]. rewrite H1.
    assert (n <> 0) by (cbn [In] in N; lia). rewrite (proj2 (Z.eqb_neq n 0)) by auto. change (2 =? 2) with true. cbv iota. jj; auto; [intros _; split; [reflexivity|exists n; auto]|lia].
Qed.
Lemma sp_read : forall S fd room n (f : Z * Z * list Z -> prog S) k t Q, J true k t ->
  (forall u r e d, r <= 0 -> J true k u -> sp parent OK u (f (r, e, d)) Q) ->
  (forall u r e d, 0 < r -> J false (k - 1) u -> sp parent OK u (f (r, e, d)) Q) ->
  sp parent OK t (pbind (fd_read fd room n) f) Q.
Proof.
  intros S fd room n f k t Q H F1 F2. unfold fd_read. destruct (n <? 0); [cbn [pbind]; apply F1; auto; lia|]. cbv zeta. destruct (room <? _); [apply sp_bad|].
  unfold sys1. cbn [pbind]. apply sp_do. intros a _. split.
  - unfold guarded. destruct H as (H1 & _). rewrite H1. parts. intros _. exact Logic.I.
  - destruct H as (H1 & H2 & H3 & H4). destruct (Z.leb_spec (ret a) 0) as [L|L].
    + apply F1; auto. unfold J, ticks. rewrite seen_app. unfold look. rewrite (proj2 (Z.ltb_ge 0 (ret a))) by lia. rewrite andb_false_r. jj; auto.
    + apply F2; auto. unfold J, ticks. rewrite seen_app. unfold look. rewrite (proj2 (Z.ltb_lt 0 (ret a))) by lia. rewrite H1. change (2 =? 2) with true. cbn [andb clk action newest rearmed fed due]. jj; auto; [discriminate|lia].
Qed.
Lemma again_neg : forall r e, again r e = true -> r = -1.
Proof. intros r e. unfold again. destruct (Z.eqb_spec r (-1)); [auto|discriminate]. Qed.

Lemma writeall_quiet : forall f fd x n, calls quiet (writeall f fd x n).
Proof. induction f; intros; cbn [writeall]; quiet1; auto. Qed.
Lemma pipe_write_quiet : forall f fd x n, calls quiet (pipe_write f fd x n).
Proof. intros. unfold pipe_write. quiet1; apply writeall_quiet. Qed.
Lemma shut_r_quiet : forall v, calls quiet (shut_r v).
Proof. intros. unfold shut_r, fd_close_read, fd_close_, tryshutdown, tryclose. quiet1. Qed.
Lemma shut_w_quiet : forall v, calls quiet (shut_w v).
Proof. intros. unfold shut_w, fd_close_write, fd_close_, tryshutdown, tryclose. quiet1. Qed.
Lemma report_quiet : forall fuel fd s, calls quiet (report_user fuel fd s).
Proof. intros. unfold report_user. quiet1; apply pipe_write_quiet. Qed.
Lemma write_quiet : forall fd x n, calls quiet (fd_write fd x n).
Proof. intros. unfold fd_write. quiet1. Qed.
Lemma pending_quiet : forall fuel fd, calls quiet (pending_now fuel fd).
Proof. intros. unfold pending_now. quiet1. induction fuel as [|fuel IH]; cbn [pending_loop]; unfold jail_poll; quiet1; auto. Qed.
Lemma offer_quiet : forall fd x, calls quiet (offer fd x).
Proof. intros. unfold offer. quiet1. apply write_quiet. Qed.
Lemma lift_quiet : forall R (x : res R), calls quiet (lift x).
Proof. intros. apply calls_lift. Qed.
Lemma engine_quiet : forall n, (n <> bs "alarm" /\ n <> bs "sigaction" /\ n <> bs "signal" /\ n <> bs "pipe" /\ n <> bs "fork") -> calls quiet (engine n).
Proof. intros n H. unfold engine. apply calls_sys1. exact H. Qed.

(** waiting *)
Hypothesis SELF : 0 <= self.
Lemma jp_sets_rd : forall x n rd wr n' rd' wr', jp_sets x n rd wr = Some (n', rd', wr') ->
  (forall f, In f rd -> In f rd') /\ (forall f, 0 <= f -> In (f, POLLIN) x -> In f rd').
Proof.
  induction x as [|[fd ev] x IH]; intros n rd wr n' rd' wr' E; cbn [jp_sets] in E.
  - injection E as _ -> _. split; auto. intros f _ [].
  - destruct (Z.ltb_spec fd 0) as [L|L].
    + destruct (IH _ _ _ _ _ _ E) as [I1 I2]. split; auto. intros f F [X|X]; auto. injection X as <- _. lia.
    + destruct (FD_SETSIZE <=? fd); [discriminate|]. cbv zeta in E. destruct (IH _ _ _ _ _ _ E) as [I1 I2]. split.
      * intros f F. apply I1. destruct (has ev POLLIN); [right|]; exact F.
      * intros f F [X|X]; auto. injection X as -> ->. apply I1. left. reflexivity.
Qed.
Lemma polled_in : forall ws f, In (true, f, POLLIN) ws -> In (f, POLLIN) (polled ws).
Proof.
  induction ws as [|[[c fd] ev] ws IH]; intros f I; [destruct I|]. cbn [polled]. destruct I as [X|X].
  - injection X as -> -> ->. left. reflexivity.
  - destruct c; [right|]; auto.
Qed.
Lemma sp_watch : forall S ws (f : list bool -> prog S) k t Q, In (true, self, POLLIN) ws -> J true k t -> (forall u x, J true k u -> sp parent OK u (f x) Q) ->
  sp parent OK t (pbind (watch ws) f) Q.
Proof.
  intros S ws f k t Q W H F. eapply sp_bind with (M := fun u _ => J true k u); [|intros u x HU; auto]. unfold watch. eapply sp_bind with (M := fun u _ => J true k u); [|intros u [[r e] rv] HU; destruct (r <? 0); apply sp_ret; exact HU].
  unfold jail_poll. cbv zeta. destruct (jp_sets _ _ _ _) as [[[n rd] wr]|] eqn:E; [|apply sp_ret; exact H]. apply jp_sets_rd in E as [_ E]. specialize (E self SELF (polled_in _ _ W)).
  eapply sp_bind with (M := fun u _ => J true k u).
  - apply sp_sys1. intros a _. split.
    + unfold guarded. destruct H as (H1 & H2 & H3 & H4). rewrite H1, H2. cbn [fst]. parts. intros _. split; [exact E|]. exact (H3 eq_refl).
    + unfold J, ticks. rewrite seen_app. exact H.
  - intros u a HU. destruct (_ <=? 0); [apply sp_ret; exact HU|]. destruct (jp_result _ _ _) as [[r l]|]; apply sp_ret; exact HU.
Qed.

Create HintDb quiet.
Hint Resolve writeall_quiet pipe_write_quiet shut_r_quiet shut_w_quiet report_quiet write_quiet pending_quiet offer_quiet lift_quiet calls_ret : quiet.
Ltac q := solve [auto with quiet | quiet1; auto with quiet].
Ltac next := match goal with
  | H : J ?b ?k ?t |- sp _ _ ?t (Ret _) _ => apply sp_ret
  | H : J ?b ?k ?t |- sp _ _ ?t Bad _ => apply sp_bad
  | H : J ?b ?k ?t |- sp _ _ ?t Halt _ => apply sp_halt
  | H : J ?b ?k ?t |- sp _ _ ?t (pbind (alarm _) _) _ => eapply sp_alarm; [|..|exact H|]; [cbn [In]; tauto|try lia|clear H; intros ? H]
  | H : J ?b ?k ?t |- sp _ _ ?t (pbind (fd_read _ _ _) _) _ => eapply sp_read; [exact H|clear H; intros ? ? ? ? ? H|clear H; intros ? ? ? ? ? H]
  | H : J ?b ?k ?t |- sp _ _ ?t (pbind (watch _) _) _ => eapply sp_watch; [cbn [In clear_watch tls_watch]; tauto|exact H|clear H; intros ? ? H]
  | H : J ?b ?k ?t |- sp _ _ ?t (if ?c then _ else _) _ => destruct c eqn:?
  | H : J ?b ?k ?t |- sp _ _ ?t (match ?x with _ => _ end) _ => destruct x eqn:?
  | H : J ?b ?k ?t |- sp _ _ ?t (pbind (pbind _ _) _) _ => fail 1
  | H : J ?b ?k ?t |- sp _ _ ?t (pbind _ _) _ => eapply sp_then; [|exact H|clear H; intros ? ? H]; [q|]
  end.
Ltac off := try (exfalso; match goal with
  | E : again ?r ?e = true |- _ => apply again_neg in E; lia
  | E : (?r <=? 0) = true |- _ => apply Z.leb_le in E; lia
  | E : (?r <=? 0) = false |- _ => apply Z.leb_gt in E; lia
  | E : (?r =? -1) = true |- _ => apply Z.eqb_eq in E; lia
  | E : (?r =? 0) = true |- _ => apply Z.eqb_eq in E; lia end).
(** 135-176 *)
Lemma selfpipe_sp : forall s k t, k <= 2 -> J true k t -> sp parent OK t (selfpipe_event 1 self s) (fun u x => J (negb (fst x)) k u).
Proof.
  intros s k t K H. unfold selfpipe_event. next.
  - destruct (again r e); [apply sp_ret; exact H|]. destruct (Z.leb_spec r 0); [|lia]. apply sp_ret. eapply J_clock; exact H.
  - destruct (again r e) eqn:AG; off. destruct (Z.leb_spec r 0); [lia|]. cbv zeta.
    destruct (_ =? 67); [repeat next; eapply J_weak; [exact H|lia]|]. destruct (_ && _); [repeat (next || cbv zeta); eapply J_weak; [exact H|lia]|].
    apply sp_ret. eapply J_weak; [exact H|lia].
Qed.
Lemma iter_sp : forall S R (body : S -> prog (nxt S R)) (I : S -> trace -> Prop) (E : R -> trace -> Prop),
  (forall s t, I s t -> sp parent OK t (body s) (fun u x => match x with Again s => I s u | Stop r => E r u end)) ->
  forall fuel s t, I s t -> sp parent OK t (iter fuel body s) (fun u r => E r u).
Proof.
  intros S R body I E B. induction fuel as [|fuel IH]; intros s t H; cbn [iter]; [apply sp_halt|]. eapply sp_bind; [apply B; exact H|]. cbn beta. intros u [s1|r] HU; [apply IH; exact HU|apply sp_ret; exact HU].
Qed.

(** ** the cleartext phase *)
Definition clear_post (k : Z) (u : trace) (x : verdict) : Prop :=
  match x with Again _ => J true k u | Stop (r, _) => J false (if r =? 0 then k else k - 1) u end.
Ltac fin := cbn [clear_post]; repeat match goal with |- context [?a =? ?b] => change (a =? b) with true || change (a =? b) with false end; cbv iota; eauto using J_clock, J_weak.
Lemma eof_sp : forall s k t, J true k t -> sp parent OK t (clear_eof s) (fun u _ => J true k u).
Proof. intros s k t H. unfold clear_eof. apply quietly; [q|exact H]. Qed.
Lemma clear_sp : forall fuel s k t, k <= 2 -> J true k t -> sp parent OK t (clear_body th 1 self fuel s) (clear_post k).
Proof.
  intros fuel s k t K H. unfold clear_body. eapply sp_bind; [apply eof_sp; exact H|]. clear t H s. intros t s H. cbn beta in H.
  destruct (clear_done s); [next; fin|]. next. destruct x as [|w1 [|w2 [|w3 [|w4 [|w5 [|w6 [|]]]]]]]; try apply sp_bad.
  destruct w1; [|destruct w4; [|destruct w5; [|destruct w2; [|destruct w3; [|destruct w6]]]]].
  - unfold clear_topeer. repeat next; fin.
  - unfold clear_fromchild. next; repeat next; off; fin. replace k with (k - 1 + 1) by lia. exact H.
  - unfold clear_control. next; repeat (next || cbv zeta); off; fin; try (eapply J_clock, J_weak; [exact H|lia]).
    all: try (exfalso; match goal with E : negb (?r =? 1) = false |- _ => destruct (Z.eqb_spec r 1); [lia|discriminate] end).
  - unfold clear_tochild. repeat next; fin.
  - unfold clear_frompeer. next; repeat next; off; fin. replace k with (k - 1 + 1) by lia. exact H.
  - unfold clear_signal. eapply sp_bind; [apply selfpipe_sp; [exact K|exact H]|]. intros u' [[|] s1] HU; cbn [fst negb] in HU; apply sp_ret; fin.
  - next. fin.
Qed.
Lemma cleartext_sp : forall fuel s k t, k <= 2 -> J true k t -> sp parent OK t (cleartext th 1 self fuel s) (fun u x => J false (if fst x =? 0 then k else k - 1) u).
Proof.
  intros fuel s k t K H. unfold cleartext. eapply sp_conseq; [apply (iter_sp _ _ _ (fun _ u => J true k u) (fun x u => J false (if fst x =? 0 then k else k - 1) u)); [|exact H]|].
  - clear t s H. intros s t H. eapply sp_conseq; [apply clear_sp; [exact K|exact H]|]. intros u [s1|[r s1]] HU; exact HU.
  - auto.
Qed.
(** ** the TLS phase *)
Lemma engine_ack_quiet : forall m n d, (m <> bs "alarm" /\ m <> bs "sigaction" /\ m <> bs "signal" /\ m <> bs "pipe" /\ m <> bs "fork") -> calls quiet (engine_ack m n d).
Proof. intros m n d H. unfold engine_ack. apply calls_sys1. exact H. Qed.
Lemma current_quiet : calls quiet current_state.
Proof. unfold current_state, engine. quiet1. Qed.
Lemma flush_quiet : calls quiet flush.
Proof. unfold flush. quiet1. Qed.
Hint Resolve current_quiet flush_quiet : quiet.
Hint Extern 2 (calls quiet (engine _)) => apply engine_quiet; repeat split; discriminate : quiet.
Hint Extern 2 (calls quiet (engine_ack _ _ _)) => apply engine_ack_quiet; repeat split; discriminate : quiet.
Lemma eof1_quiet : forall st s, calls quiet (tls_eof1 st s).
Proof. intros. unfold tls_eof1. q. Qed.
Lemma eof2_quiet : forall fuel st s, calls quiet (tls_eof2 fuel st s).
Proof. intros. unfold tls_eof2. q. Qed.
Lemma eof3_quiet : forall st s, calls quiet (tls_eof3 st s).
Proof. intros. unfold tls_eof3. q. Qed.
Lemma notify_quiet : forall st s, calls quiet (tls_notify st s).
Proof. intros. unfold tls_notify. q. Qed.
Hint Resolve eof1_quiet eof2_quiet eof3_quiet notify_quiet : quiet.
Variable usercert : bool.
Variable k0 : Z.
Hypothesis K0 : 0 <= k0 <= 1.
Definition credit (b : bool) : Z := k0 + if b then 1 else 0.
Definition L (s : tsess) (t : trace) : Prop := J true (credit (shaken s)) t.
Lemma credit_le : forall b, k0 <= credit b <= 2.
Proof. intros []; unfold credit; lia. Qed.
Lemma handshake_sp : forall fuel st s t, L s t -> sp parent OK t (report_handshake th usercert fuel st s) (fun u x => match x with Some s' => L s' u | None => True end).
Proof.
  intros fuel st s t H. unfold report_handshake. unfold L in H. destruct (shaken s) eqn:SH; [apply sp_ret; unfold L; rewrite SH; exact H|]. destruct (negb _); [apply sp_ret; unfold L; rewrite SH; exact H|].
  assert (E : credit false <= 1) by (unfold credit; lia). assert (F : credit true = credit false + 1) by (unfold credit; lia).
  destruct (told_user s).
  - next. next. unfold L. cbn [shaken]. rewrite F. exact H.
  - eapply sp_then; [|exact H|clear H; intros ? ? H]; [q|]. next; [|next; exact Logic.I]. next. next; [next; exact Logic.I|]. next. next. unfold L. cbn [shaken]. rewrite F. exact H.
Qed.
Definition tls_post (u : trace) (x : tverdict) : Prop := match x with Again s => L s u | Stop (r, s) => r = 0 -> J false 2 u end.
Lemma done_L : forall b k u, J b k u -> k <= 2 -> J false 2 u.
Proof. intros b k u H E. eapply J_clock, J_weak; eauto. Qed.
Lemma fetch_sp : forall S fd n (f : Z * Z * list Z -> prog S) k t Q, J true k t ->
  (forall u r e d, r <= 0 -> J true k u -> sp parent OK u (f (r, e, d)) Q) ->
  (forall u r e d, 0 < r -> J false (k - 1) u -> sp parent OK u (f (r, e, d)) Q) ->
  sp parent OK t (pbind (fetch fd n) f) Q.
Proof. intros S fd n f k t Q H F1 F2. unfold fetch. destruct (n <=? 0); [cbn [pbind]; apply F1; [lia|exact H]|]. eapply sp_read; eauto. Qed.
Lemma tls_sp : forall fuel s t, L s t -> sp parent OK t (tls_body th 1 self usercert fuel s) tls_post.
Proof.
  intros fuel s t H. unfold tls_body. unfold L in H. pose proof (credit_le (shaken s)) as CR. do 5 next.
  eapply sp_bind; [apply handshake_sp; exact H|]. clear H CR. intros u' [s'|] H; [|apply sp_ret; cbn [tls_post]; discriminate]. clear s. rename s' into s. unfold L in H. pose proof (credit_le (shaken s)) as CR.
  set (k := credit (shaken s)) in *. assert (PK : forall v, J true k v -> tls_post v (Again s)) by (intros v HV; exact HV).
  assert (PF : forall v f, J true k v -> tls_post v (Again (with_fds s f))) by (intros v f HV; exact HV).
  assert (PS : forall v b r f k', J b k' v -> k' <= 2 -> tls_post v (Stop (r, f))) by (intros v b r f k' HV E _; eapply done_L; eauto).
  destruct (_ && _); [apply sp_ret; eapply PS; [exact H|lia]|]. destruct (_ && _); [apply sp_ret; eapply PS; [exact H|lia]|]. destruct (_ && _); [apply sp_ret; eapply PS; [exact H|lia]|].
  next. match goal with |- sp _ _ _ (match ?h with _ => _ end) _ => destruct h as [|w1 [|w2 [|w3 [|w4 [|w5 [|]]]]]]; try apply sp_bad end.
  destruct w3; [|destruct w1; [|destruct w2; [|destruct w4; [|destruct w5]]]].
  - unfold tls_tochild. next. next. next. next; [next; apply PK, H|]. next; next; next; [eapply PS; [exact H|lia]|apply PK, H].
  - unfold tls_topeer. next. next. next. next; [next; apply PK, H|]. next; next; next; [eapply PS; [exact H|lia]|apply PK, H].
  - unfold tls_frompeer. next. eapply fetch_sp; [exact H|clear H; intros ? ? ? ? ? H..]; next; off; try (next; apply PK, H); next; off.
    + next. next. apply PF, H.
    + next. next. next. apply PK. replace k with (k - 1 + 1) by lia. exact H.
  - unfold tls_fromchild. next. eapply fetch_sp; [exact H|clear H; intros ? ? ? ? ? H..]; next; off; try (next; apply PK, H); next; off.
    + next. next. apply PF, H.
    + next. next. next. next. apply PK. replace k with (k - 1 + 1) by lia. exact H.
  - unfold tls_signal. eapply sp_bind; [apply selfpipe_sp; [|exact H]; lia|]. intros v [[|] f] HV; cbn [fst negb] in HV; apply sp_ret; [eapply PS; [exact HV|lia]|apply PF, HV].
  - next. apply PK, H.
Qed.
Lemma phase_sp : forall fuel s t, L s t -> sp parent OK t (tls_phase th 1 self usercert fuel s) (fun u x => fst x = 0 -> J false 2 u).
Proof.
  intros fuel s t H. unfold tls_phase. eapply sp_conseq; [apply (iter_sp _ _ _ L (fun x u => fst x = 0 -> J false 2 u)); [|exact H]|auto].
  clear t s H. intros s t H. eapply sp_conseq; [apply tls_sp; exact H|]. intros u [s1|[r s1]] HU; exact HU.
Qed.
End Clock.

(** ** Before the handler, and the end *)
Ltac early1 := repeat (calls1 || (progress cbv zeta)); try exact Logic.I; try (cbn [early]; repeat split; discriminate).
Lemma writeall_early : forall f fd x n, calls early (writeall f fd x n).
Proof. induction f; intros; cbn [writeall]; early1; auto. Qed.
Lemma readall_early : forall f fd x n, calls early (readall f fd x n).
Proof. induction f; intros; cbn [readall]; early1; auto. Qed.
Lemma pipe_write_early : forall f fd x n, calls early (pipe_write f fd x n).
Proof. intros. unfold pipe_write. early1; apply writeall_early. Qed.
Lemma readalloc_early : forall f fd, calls early (pipe_readalloc f fd).
Proof. intros. unfold pipe_readalloc. early1; apply readall_early. Qed.
Lemma jail_early : forall a d l, calls early (jail a d l).
Proof. intros. unfold jail, jail_main, must, mustbe, when, jail_limit_memory. destruct a, d, l; early1. Qed.
Lemma shut_r_early : forall v, calls early (shut_r v).
Proof. intros. unfold shut_r, fd_close_read, fd_close_, tryshutdown, tryclose. early1. Qed.
Lemma shut_w_early : forall v, calls early (shut_w v).
Proof. intros. unfold shut_w, fd_close_write, fd_close_, tryshutdown, tryclose. early1. Qed.
Lemma report_early : forall fuel fd s, calls early (report_user fuel fd s).
Proof. intros. unfold report_user. early1; apply pipe_write_early. Qed.
Lemma proxy_early : forall f I fd o, calls early (proxyprotocol_v1_get f I fd o).
Proof.
  intros. assert (O : forall f fd a n, calls early (oneread f fd a n)) by (induction f0; intros; cbn [oneread]; early1; auto).
  assert (G : forall f b, calls early (buffer_GETC f b)) by (intros; unfold buffer_GETC, buffer_get, buffer_feed; early1; auto).
  assert (P : forall f k b n l, calls early (pp_read f k b n l)) by (intros f0 k; induction k as [|k IH]; intros; cbn [pp_read]; early1; auto).
  unfold proxyprotocol_v1_get. cbv zeta. apply calls_bind; [apply P|intros; early1].
Qed.
Lemma connection_early : forall I e, calls early (connection I e).
Proof. intros. unfold connection, socket_name. early1. Qed.
Lemma blocking_early : forall fd b, calls early (blocking fd b).
Proof. intros. unfold blocking, do. early1. Qed.
Lemma random_early : forall n, calls early (randombytes n).
Proof. intros. unfold randombytes. early1. Qed.
Lemma init_quiet : forall o n, calls quiet (init_tls o n).
Proof. intros. unfold init_tls, tls_profile, client_certificates, br, randombytes. apply calls_bind; [apply calls_lift|]. intros x. quiet1. Qed.
Lemma close_early : forall fd, calls early (do (Close fd)).
Proof. intros. unfold do. early1. Qed.
Lemma shut_r_last : forall v, calls last_call (shut_r v).
Proof. intros. unfold shut_r, fd_close_read, fd_close_, tryshutdown, tryclose. repeat calls1; try exact Logic.I. Qed.
Lemma shut_w_last : forall v, calls last_call (shut_w v).
Proof. intros. unfold shut_w, fd_close_write, fd_close_, tryshutdown, tryclose. repeat calls1; try exact Logic.I. Qed.
Lemma wait_last : forall n p, calls last_call (wait n p).
Proof. induction n; intros p; cbn [wait]; repeat calls1; try exact eq_refl; auto. Qed.
Create HintDb early.
#[export] Hint Resolve writeall_early readall_early pipe_write_early readalloc_early jail_early shut_r_early shut_w_early report_early proxy_early connection_early blocking_early random_early close_early calls_lift calls_ret : early.

Section Boot.
Variable I : inet.
Variable stream : list Z -> list Z -> nat -> Z.
Variable fuel : nat.
Variables junk portbuf line0 key0 : list Z.
Variable env : environment.
Variable nojail : bool.
Variable cmd : command.
Hypothesis TH : 1 <= timeout cmd.
Hypothesis HH : 1 <= hstimeout cmd.
Notation th := (timeout cmd).
Notation hh := (hstimeout cmd).
Notation OK := (guarded (timeout cmd) (hstimeout cmd)).
Definition any {R} (t : trace) (x : R) : Prop := True.
Definition B (v : Z) (t : trace) : Prop := clk (seen t) = Running hh /\ action (seen t) = 0 /\ newest (seen t) = v.
Lemma B_ok : forall v t e, B v t -> OK t e.
Proof. intros v t e (H1 & H2 & H3). unfold guarded. rewrite H2. split; [intros _; right; exact H1|]. split; [lia|]. split; intros; lia. Qed.
Lemma sp_early : forall R S (p : prog R) (f : R -> prog S) v t Q, calls early p -> B v t -> (forall u x, B v u -> sp parent OK u (f x) Q) -> sp parent OK t (pbind p f) Q.
Proof.
  intros R S p f v t Q C H K. eapply sp_bind with (M := fun u _ => B v u); [|intros u x HU; auto].
  apply (sp_quiet _ _ _ early); auto. intros u e HU E _. split; [eapply B_ok; exact HU|]. unfold B. destruct HU as (H1 & H2 & H3). rewrite seen_app, look_early by (auto; lia). auto.
Qed.
Ltac e := solve [auto with early | early1; auto with early].
Ltac go := match goal with
  | H : B ?v ?t |- sp _ _ ?t (Ret _) _ => apply sp_ret; exact Logic.I
  | H : B ?v ?t |- sp _ _ ?t (if ?c then _ else _) _ => destruct c eqn:?
  | H : B ?v ?t |- sp _ _ ?t (match ?x with _ => _ end) _ => destruct x eqn:?
  | H : B ?v ?t |- sp _ _ ?t (need _ _) _ => unfold need
  | H : B ?v ?t |- sp _ _ ?t (pbind _ _) _ => eapply sp_early; [|exact H|clear H; intros ? ? H]; [e|]
  end.
Lemma pipe_sp : forall k v t, B v t -> (forall u r w, 0 <= r -> B r u -> sp parent OK u (k r w) any) -> sp parent OK t (open_pipe k) any.
Proof.
  intros k v t H K. unfold open_pipe, sys1. cbn [pbind]. apply sp_do. intros a [_ PA]. split; [eapply B_ok; exact H|]. destruct (Z.eqb_spec (ret a) (-1)) as [E|E]; [apply sp_ret; exact Logic.I|]. cbv zeta.
  specialize (PA eq_refl E). cbn [snd] in PA. set (r := nth 0 (data a) 0) in *.
  assert (H' : B r (t ++ [(Other (bs "pipe") [] [], a)])).
  { destruct H as (H1 & H2 & H3). unfold B. rewrite seen_app. unfold look. change (named (bs "pipe") (bs "alarm")) with false. change (named (bs "pipe") (bs "sigaction")) with false. change (named (bs "pipe") (bs "signal")) with false. change (named (bs "pipe") (bs "pipe")) with true.
    rewrite (proj2 (Z.eqb_neq _ _) E). cbn [andb negb clk action newest]. auto. }
  clear H. rename H' into H. do 4 (eapply sp_early; [|exact H|clear H; intros ? ? H]; [unfold do; e|]). apply K; auto.
Qed.
Lemma fork_sp : forall (k : ans -> prog ending) v t, B v t -> (forall u a, ret a <> 0 -> B v u -> sp parent OK u (k a) any) -> sp parent OK t (pbind (sys1 (Other (bs "fork") [] [])) k) any.
Proof.
  intros k v t H K. unfold sys1. cbn [pbind]. apply sp_do. intros a [PA _]. split; [eapply B_ok; exact H|]. apply K; [exact (PA eq_refl)|].
  unfold B. rewrite seen_app. exact H.
Qed.
(** the end: 1495-1541 *)
Lemma sp_last : forall R S (p : prog R) (f : R -> prog S) t Q, calls last_call p -> action (seen t) = 3 -> (forall u x, action (seen u) = 3 -> sp parent OK u (f x) Q) -> sp parent OK t (pbind p f) Q.
Proof.
  intros R S p f t Q C H K. eapply sp_bind with (M := fun u _ => action (seen u) = 3); [|intros u x HU; auto].
  apply (sp_quiet _ _ _ last_call); auto. intros u e HU E _. split; [|rewrite seen_app, look_last; auto].
  unfold guarded. rewrite HU. split; [intro; lia|]. split; [lia|]. split; [intro; lia|]. intros _. unfold last_call in E. destruct (fst e); auto.
Qed.
Lemma finish_sp : forall child key fk tk s self k t, J th hh self false k t -> sp parent OK t (finish fuel child key fk tk s) any.
Proof.
  intros child key fk tk s self k t (H1 & H2 & _). unfold finish, signal, do. unfold sys1. cbn [pbind]. apply sp_do. intros a _. split; [|apply sp_do; intros b _; split].
  - unfold guarded. rewrite H1. split; [intro; lia|]. split; [lia|]. split; [intros _; cbn [fst]; intro E; discriminate E|intro; lia].
  - assert (X : seen (t ++ [(Other (bs "signal") [SIGCHLD; DFL] [], a)]) = seen t) by (rewrite seen_app; reflexivity). unfold guarded. rewrite X, H1. split; [intro; lia|]. split; [lia|]. split; [intros _; cbn [fst]; intro E; discriminate E|intro; lia].
  - set (u := (t ++ _) ++ _). assert (X : action (seen u) = 3) by (unfold u; rewrite !seen_app; reflexivity). clearbody u.
    assert (D : forall fd S (f : unit -> prog S) u Q, action (seen u) = 3 -> (forall u, action (seen u) = 3 -> sp parent OK u (f tt) Q) -> sp parent OK u (Do (Close fd) (fun _ => f tt)) Q).
    { intros fd S f v Q HV K. apply (sp_last _ _ (do (Close fd)) (fun _ => f tt)); auto. unfold do. repeat calls1. exact Logic.I. }
    repeat (first [eapply sp_last; [|exact X|clear X; intros ? ? X]; [solve [apply shut_r_last|apply shut_w_last|apply wait_last]|]|eapply (D _ _ (fun _ => _)); [exact X|clear X; intros ? X]]). apply sp_ret. exact Logic.I.
Qed.
Lemma handler_sp : forall k v t, B v t -> (forall u, J th hh v true 0 u -> sp parent OK u k any) -> sp parent OK t (sigaction SIGALRM k) any.
Proof.
  intros k v t H K. unfold sigaction, sys1. cbn [pbind]. apply sp_do. intros a _. split; [eapply B_ok; exact H|]. destruct (Z.eqb_spec (ret a) (-1)) as [E|E]; [apply sp_ret; exact Logic.I|].
  apply K. destruct H as (H1 & H2 & H3). unfold J, ticks. rewrite seen_app. unfold look. change (named (bs "sigaction") (bs "alarm")) with false. change (named (bs "sigaction") (bs "sigaction")) with true. cbn [hd]. change (SIGALRM =? 14) with true.
  rewrite (proj2 (Z.eqb_neq _ _) E). cbn [andb negb clk action newest rearmed fed due]. jj; auto; [|lia]. intros _. split; [reflexivity|]. exists hh. split; auto. cbn [In]. auto.
Qed.
(** 1445-1493 *)
Lemma relay_sp : forall n self s fin t, 0 <= self -> B self t -> (forall s k u, J th hh self false k u -> sp parent OK u (fin s) any) -> sp parent OK t (relay fuel cmd n self s fin) any.
Proof.
  intros n self s fin t SELF H F. unfold relay. cbv zeta. do 2 go. set (uc := match certuser _ with Some _ => true | None => false end).
  assert (T : forall s k0 u, 0 <= k0 <= 1 -> J th hh self true k0 u -> sp parent OK u (_ <~ init_tls (settings cmd) n ;;
    '(r, t) <~ tls_phase th 1 self uc fuel (mkts s false (delayed (settings cmd))) ;; if r =? 0 then fin (fds t) else Ret (Exit r)) any).
  { intros s1 k0 v K0 HV. eapply sp_then; [apply init_quiet|exact HV|]. clear v HV. intros v _ HV. eapply sp_bind.
    - eapply phase_sp with (k0 := k0); eauto. unfold L, credit. cbn [shaken]. rewrite Z.add_0_r. exact HV.
    - intros w [r s2] HW. cbn [fst] in HW. destruct (Z.eqb_spec r 0); [|apply sp_ret; exact Logic.I]. eapply F. apply HW. assumption. }
  destruct (delayed (settings cmd)).
  - go. go; [go|]. eapply handler_sp; [exact H|]. clear H. intros v H. eapply sp_alarm; [|..|exact H|]; auto; [left; reflexivity|lia|]. clear v H. intros v H.
    eapply sp_bind; [eapply cleartext_sp; eauto; lia|]. intros w [r s1] HW. cbn [fst] in HW. destruct (r =? 0).
    + eapply F. exact HW.
    + eapply sp_alarm; [..|exact HW|]; auto; [right; left; reflexivity|lia|]. intros w2 HW2. eapply T; [|exact HW2]. lia.
  - go. go. eapply handler_sp; [exact H|]. clear H. intros v H. eapply T; [|exact H]. lia.
Qed.
Lemma jailed_sp : forall p child key fk tk self t, 0 <= self -> B self t -> sp parent OK t (jailed_main I fuel env nojail cmd p child key fk tk self) any.
Proof.
  intros p child key fk tk self t SELF H. unfold jailed_main. cbv zeta. go. go. go. go; [go|].
  assert (TE : forall i n u, B self u -> sp parent OK u (tell fuel (toc_w p) i (relay fuel cmd n self (mksess 0 1 (toc_w p) (fromc_r p) (fromctl_r p) (toctl_w p) empty empty) (finish fuel child key fk tk))) any).
  { clear H. intros i n v H. unfold tell, need. do 4 (go; go; [|go]). apply relay_sp; auto. intros. eapply finish_sp; eauto. }
  assert (PE : forall n v, B self v -> sp parent OK v (peer_info I fuel env (ppin (settings cmd)) (fun i => tell fuel (toc_w p) i (relay fuel cmd n self (mksess 0 1 (toc_w p) (fromc_r p) (fromctl_r p) (toctl_w p) empty empty) (finish fuel child key fk tk)))) any).
  { clear H. intros n v H. unfold peer_info. go; go; [go; go; [go|]|]; apply TE, H. }
  unfold anchor. go.
  - go. go. unfold need. go. go; [|go]. go. go; [go|]. go. go; [go|]. apply PE, H.
  - apply PE, H.
Qed.
Lemma parent_sp : forall p child v t, B v t -> sp parent OK t (parent_main I stream fuel line0 key0 env nojail cmd p child) any.
Proof.
  intros p child v t H. unfold parent_main. do 9 go. eapply pipe_sp; [exact H|]. clear v H. intros ? r w _ H. eapply pipe_sp; [exact H|]. clear H. intros ? r1 w1 _ H.
  eapply fork_sp; [exact H|]. clear H. intros ? a PA H. go; [go|]. rewrite (proj2 (Z.eqb_neq _ _) PA). do 4 go. eapply pipe_sp; [exact H|]. intros. apply jailed_sp; auto.
Qed.
Lemma devnull_sp : forall k n v t, B v t -> (forall u v, B v u -> sp parent OK u k any) -> sp parent OK t (devnull n k) any.
Proof.
  intros k n v t H K. revert v t H. induction n as [|n IH]; intros v t H; cbn [devnull]; [apply sp_halt|]. go. go; [go|]. go; [|eapply IH; exact H]. go. eapply K; exact H.
Qed.
(** from the first call of 1283 *)
Lemma start_sp : forall t, clk (seen t) = Running 10 -> action (seen t) = 0 -> sp parent OK t (start_child I stream fuel junk portbuf line0 key0 env nojail cmd) any.
Proof.
  intros t C A. unfold start_child, alarm, sys1. cbn [pbind]. apply sp_do. intros a _. split.
  { unfold guarded. rewrite A. split; [left; auto|]. split; [lia|]. split; intro; lia. }
  assert (H : B (newest (seen t)) (t ++ [(Other (bs "alarm") [hh] [], a)])).
  { unfold B. rewrite seen_app. unfold look. change (named (bs "alarm") (bs "alarm")) with true. cbv iota. cbn [clk action newest hd]. rewrite (proj2 (Z.eqb_neq hh 0)) by lia. auto. }
  set (v := newest _) in *. clearbody v. set (t1 := t ++ _) in *. clearbody t1. clear t C A a.
  assert (P : forall u v, B v u -> sp parent OK u (open_pipe (fun t0 t1 => open_pipe (fun f0 f1 => open_pipe (fun c0 c1 => open_pipe (fun k0 k1 =>
    let p := mkpipes t0 t1 f0 f1 c0 c1 k0 k1 in
    f <~ sys1 (Other (bs "fork") [] []) ;;
    if ret f =? -1 then Ret (Exit 111) else if ret f =? 0 then child_main I fuel junk portbuf cmd p else parent_main I stream fuel line0 key0 env nojail cmd p (ret f)))))) any).
  { clear v t1 H. intros u v H. do 4 (eapply pipe_sp; [exact H|]; clear v H || clear H; intros ? ? ? _ H). cbv zeta. eapply fork_sp; [exact H|]. clear H. intros ? a PA H. go; [go|]. rewrite (proj2 (Z.eqb_neq _ _) PA). eapply parent_sp; exact H. }
  destruct (delayed (settings cmd)).
  - unfold reserve. go. go; [go|]. go. go; [go|]. eapply devnull_sp; [exact H|exact P].
  - eapply P; exact H.
Qed.
End Boot.
