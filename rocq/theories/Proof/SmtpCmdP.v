(** Commands of the SMTP front end. *)
From Verif.Model Require Import Base Sys Io Str Buffer Stralloc Fdio Smtp.
From Verif.Spec Require Import Text Stream Waiting SmtpSpec.
From Verif.Proof Require Import Tac SysP CallsP IoP HostportP StrP FrameP BufferP StrallocP FdioP SmtpIoP SmtpStP SmtpP SmtpReplyP.
From Verif.Spec Require Import SmtpSpec.

(** ** Comparing keywords *)
Lemma beginsb_nil : forall x, beginsb [] x = true.
Proof. reflexivity. Qed.
Lemma beginsb_cons : forall a p b x, beginsb (a :: p) (b :: x) = (lower a =? lower b) && beginsb p x.
Proof. intros. unfold beginsb. cbn [length combine forallb Nat.leb]. destruct (lower a =? lower b); [reflexivity|]. rewrite andb_false_r. reflexivity. Qed.
Lemma beginsb_short : forall a p, beginsb (a :: p) [] = false.
Proof. reflexivity. Qed.
Lemma beginsb_sym : forall p q r, length p = length q -> beginsb p (q ++ r) = beginsb q p.
Proof.
  induction p as [|a p IH]; intros [|b q] r L; cbn [length] in L; try lia; [reflexivity|]. cbn [app]. rewrite !beginsb_cons, (Z.eqb_sym (lower b)), IH by lia. reflexivity.
Qed.
Lemma beginsb_long : forall p x, (length x < length p)%nat -> beginsb p x = false.
Proof. intros p x L. unfold beginsb. destruct (Nat.leb_spec (length p) (length x)); [lia|reflexivity]. Qed.

Lemma diffb_ok : forall w v ra rb, bytes w -> nonul v -> (nonul w \/ (length w <= length v)%nat) ->
  exists d, case_diffb_loop (length w) (w ++ ra) (v ++ 0 :: rb) = Ok d /\ (d =? 0) = beginsb w v.
Proof.
  induction w as [|a w IH]; intros v ra rb BW NV H; [exists 0; auto|]. apply Forall_cons_iff in BW as [Ba BW]. cbn [length case_diffb_loop app deref bind].
  destruct v as [|b v].
  - destruct H as [H|H]; [|cbn [length] in H; lia]. apply Forall_cons_iff in H as [H _]. cbn [app deref bind]. rewrite case_norm_lower by auto. change (case_norm 0) with 0.
    pose proof (lower0 a H). destruct (Z.eqb_spec (lower a) 0); [lia|]. cbn [negb]. eexists. split; [reflexivity|]. rewrite beginsb_short. lia.
  - apply Forall_cons_iff in NV as [Nb NV]. cbn [app deref bind tl]. rewrite !case_norm_lower by (auto; apply nonul_byte; auto). rewrite beginsb_cons.
    destruct (Z.eqb_spec (lower a) (lower b)); cbn [negb andb].
    + apply IH; auto. destruct H as [H|H]; [left; apply Forall_cons_iff in H; tauto|right; cbn [length] in H; lia].
    + eexists. split; [reflexivity|]. lia.
Qed.
(** the text [x] against a keyword *)
Lemma keyword_ok : forall k x rest n, nonul k -> bytes x -> n = len k -> n <= len x ->
  exists d, case_diffb (x ++ rest) n (k ++ [0]) = Ok d /\ (d =? 0) = beginsb k x.
Proof.
  intros k x rest n NK BX -> L. unfold case_diffb, len in *. rewrite Nat2Z.id.
  assert (LF : length (firstn (length k) x) = length k) by (rewrite firstn_length; lia).
  destruct (diffb_ok (firstn (length k) x) k (skipn (length k) x ++ rest) []) as (d & E & D); auto.
  - apply Forall_forall. intros b Hb. eapply Forall_forall; [exact BX|]. rewrite <- (firstn_skipn (length k) x). apply in_or_app. auto.
  - right. lia.
  - rewrite LF, app_assoc, firstn_skipn in E. exists d. split; auto. rewrite D, <- (beginsb_sym k _ (skipn (length k) x)), firstn_skipn by auto. reflexivity.
Qed.

(** ** Scanning *)
Lemma until_cons_stop : forall f b x, f b = true -> until f (b :: x) = [].
Proof. intros. cbn. rewrite H. reflexivity. Qed.
Lemma scan_ld : forall (pre : list Z) b x rest, ld (pre ++ (b :: x) ++ rest) (length pre) = Ok b.
Proof. intros. unfold ld. rewrite nth_error_app2, Nat.sub_diag by lia. reflexivity. Qed.
Lemma verb_len_ok : forall x pre rest f n, n = len pre + len x -> (length x <= f)%nat ->
  verb_len f (pre ++ x ++ rest) n (len pre) = Ok (len pre + len (verb x)).
Proof.
  induction x as [|b x IH]; intros pre rest f n E F; unfold verb; cbn [until].
  - rewrite len_nil in *. rewrite !Z.add_0_r in *. subst n. destruct f; cbn [verb_len]; [reflexivity|]. rewrite Z.ltb_irrefl. reflexivity.
  - destruct f as [|f]; cbn [length] in F; [lia|]. cbn [verb_len]. rewrite len_cons in E. pose proof (len_nonneg _ x). destruct (Z.ltb_spec (len pre) n); [|lia].
    unfold len at 1. rewrite Nat2Z.id, scan_ld. cbn [bind]. unfold SP, CR, LF. destruct ((b =? 32) || (b =? 13) || (b =? 10)).
    + rewrite len_nil, Z.add_0_r. reflexivity.
    + specialize (IH (pre ++ [b]) rest f n). rewrite len_app, <- app_assoc in IH. change (len [b]) with 1 in IH. cbn [app] in *. rewrite IH by lia. unfold verb. rewrite len_cons. f_equal. lia.
Qed.
Lemma cut_first_ok : forall x pre rest f l, l = len pre + len x -> (length x <= f)%nat ->
  cut_first f (pre ++ x ++ rest) (len pre) l = Ok (len pre + len (until (Z.eqb 32) x)).
Proof.
  induction x as [|b x IH]; intros pre rest f n E F; cbn [until].
  - rewrite len_nil in *. rewrite !Z.add_0_r in *. subst n. destruct f; cbn [cut_first]; [reflexivity|]. rewrite Z.ltb_irrefl. reflexivity.
  - destruct f as [|f]; cbn [length] in F; [lia|]. cbn [cut_first]. rewrite len_cons in E. pose proof (len_nonneg _ x). destruct (Z.ltb_spec (len pre) n); [|lia].
    unfold len at 1. rewrite Nat2Z.id, scan_ld. cbn [bind]. unfold SP. rewrite (Z.eqb_sym b). destruct (32 =? b).
    + rewrite len_nil, Z.add_0_r. reflexivity.
    + specialize (IH (pre ++ [b]) rest f n). rewrite len_app, <- app_assoc in IH. change (len [b]) with 1 in IH. cbn [app] in *. rewrite IH by lia. rewrite len_cons. f_equal. lia.
Qed.
Lemma cut_all_end : forall f m i l, l <= i -> cut_all f m i l = Ok l.
Proof. intros [|f] m i l H; cbn [cut_all]; [reflexivity|]. destruct (Z.ltb_spec i l); [lia|reflexivity]. Qed.
Lemma cut_all_ok : forall x pre rest f l, l = len pre + len x -> (length x <= f)%nat ->
  cut_all f (pre ++ x ++ rest) (len pre) l = Ok (len pre + len (until (Z.eqb 32) x)).
Proof.
  induction x as [|b x IH]; intros pre rest f n E F; cbn [until].
  - rewrite len_nil in *. rewrite !Z.add_0_r in *. subst n. destruct f; cbn [cut_all]; [reflexivity|]. rewrite Z.ltb_irrefl. reflexivity.
  - destruct f as [|f]; cbn [length] in F; [lia|]. cbn [cut_all]. rewrite len_cons in E. pose proof (len_nonneg _ x). destruct (Z.ltb_spec (len pre) n); [|lia].
    unfold len at 1. rewrite Nat2Z.id, scan_ld. cbn [bind]. unfold SP. rewrite (Z.eqb_sym b). destruct (32 =? b).
    + rewrite cut_all_end by lia. rewrite len_nil, Z.add_0_r. reflexivity.
    + specialize (IH (pre ++ [b]) rest f n). rewrite len_app, <- app_assoc in IH. change (len [b]) with 1 in IH. cbn [app] in *. rewrite IH by lia. rewrite len_cons. f_equal. lia.
Qed.

(** ** String operations of the commands *)
Definition LN (s : st) (y : list Z) : Prop := content (sa s Line) = y /\ zterm (sa s Line) y.
Lemma LN_eq : forall s s' y, sa s' Line = sa s Line -> LN s y -> LN s' y.
Proof. intros s s' y E [A B]. split; rewrite E; auto. Qed.

Lemma still_reset0 : forall f s, sinv (sa s f) -> still (reset0 f) s (fun _ s' => now f [] s s' /\ zterm (sa s' f) []).
Proof.
  intros f s I. unfold reset0. eapply still_bind; [apply still_copys0; auto|]. cbn beta. intros _ s1 N1. pose proof N1 as (_ & I1 & C1).
  eapply still_weak; [apply (still_zero f s1); auto; rewrite C1; reflexivity|]. cbn beta. rewrite C1. intros _ s2 [N2 Z2]. split; auto. eapply now_trans; eauto.
Qed.
Lemma now_other : forall f x s s' h, now f x s s' -> h <> f -> sa s' h = sa s h.
Proof. intros f x s s' h ((_ & H & _) & _) N. auto. Qed.
Lemma now_bf : forall f x s s', now f x s s' -> bf s' = bf s.
Proof. intros f x s s' ((H & _) & _). auto. Qed.
Lemma now_count : forall f x s s', now f x s s' -> rcptcount s' = rcptcount s.
Proof. intros f x s s' ((_ & _ & H) & _). auto. Qed.
Lemma now_content : forall f x s s', now f x s s' -> content (sa s' f) = x.
Proof. intros f x s s' (_ & _ & H). auto. Qed.
Lemma now_slen : forall f x s s', now f x s s' -> slen (sa s' f) = len x.
Proof. intros f x s s' (_ & I & H). rewrite <- content_len by auto. congruence. Qed.

Lemma still_line_starts : forall n k s y, sinv (sa s Line) -> LN s y -> bytes y -> nonul k -> n = len k ->
  still (line_starts n k) s (fun b s' => b = beginsb k y /\ s' = s).
Proof.
  intros n k s y I [C (p & E & rest & ->)] B N ->. unfold line_starts.
  eapply still_bind; [apply still_the with (Q := fun a s' => a = sa s Line /\ s' = s); auto|]. intros a s' [-> ->].
  assert (L : slen (sa s Line) = len y) by (rewrite <- content_len by auto; congruence). rewrite L.
  destruct (Z.leb_spec (len k) (len y)) as [LE|LE].
  - eapply still_bind; [eapply still_ptr with (Q := fun p s' => p = _ /\ s' = s); eauto|]. intros a s' [-> ->].
    destruct (keyword_ok k y (0 :: rest) (len k)) as (d & D1 & D2); auto.
    eapply still_bind; [eapply still_lift with (Q := fun x s' => x = d /\ s' = s); [exact D1|auto]|]. intros a s' [-> ->]. apply still_ret. auto.
  - apply still_ret. split; auto. symmetry. apply beginsb_long. unfold len in LE. lia.
Qed.

Lemma beginsb_len : forall k y, beginsb k y = true -> len k <= len y.
Proof. intros k y H. unfold beginsb in H. apply andb_true_iff in H as [H _]. apply Nat.leb_le in H. unfold len. lia. Qed.
Lemma still_copy_line_from : forall f n s y, sinv (sa s Line) -> sinv (sa s f) -> LN s y -> 0 <= n <= len y -> small y ->
  still (copy_line_from f n) s (fun _ s' => now f (skipn (Z.to_nat n) y) s s').
Proof.
  intros f n s y I J [C (p & E & rest & ->)] N S. unfold copy_line_from.
  eapply still_bind; [apply still_the with (Q := fun a s' => a = sa s Line /\ s' = s); auto|]. intros a s' [-> ->].
  eapply still_bind; [eapply still_ptr with (Q := fun p s' => p = _ /\ s' = s); eauto|]. intros a s' [-> ->].
  assert (L : slen (sa s Line) = len y) by (rewrite <- content_len by auto; congruence).
  rewrite len_app, len_cons. pose proof (len_nonneg _ rest). destruct (Z.ltb_spec (len y + (len rest + 1)) n); [lia|].
  rewrite skipn_app. replace (Z.to_nat n - length y)%nat with O by (unfold len in N; lia). cbn [skipn].
  apply still_copyb; auto.
  - rewrite L. unfold len in *. rewrite skipn_length. lia.
  - unfold small, len in *. rewrite skipn_length. lia.
Qed.
Lemma len_skipn_le : forall n (x : list Z), len (skipn n x) <= len x.
Proof. intros. unfold len. rewrite skipn_length. lia. Qed.

Lemma still_cutlen : forall f cut s x, sinv (sa s f) -> content (sa s f) = x ->
  (forall x pre rest f l, l = len pre + len x -> (length x <= f)%nat -> cut f (pre ++ x ++ rest) (len pre) l = Ok (len pre + len (until (Z.eqb 32) x))) ->
  still (cutlen f cut) s (fun _ s' => now f (until (Z.eqb 32) x) s s' /\ sm (sa s' f) = sm (sa s f)).
Proof.
  intros f cut s x I C H. unfold cutlen.
  eapply still_bind; [apply still_the with (Q := fun a s' => a = sa s f /\ s' = s); auto|]. intros a s' [-> ->].
  assert (L : slen (sa s f) = len x) by (rewrite <- content_len by auto; congruence). rewrite L.
  destruct (Z.ltb_spec 0 (len x)) as [P|P].
  - destruct (content_mem _ _ I C) as [rest E]; [intros ->; rewrite len_nil in P; lia|].
    eapply still_bind; [eapply still_ptr with (Q := fun p s' => p = _ /\ s' = s); eauto|]. intros a s' [-> ->].
    specialize (H x [] rest (Z.to_nat (len x)) (len x)). rewrite len_nil, Z.add_0_l in H. cbn [app] in H.
    eapply still_bind; [eapply still_lift with (Q := fun n s' => n = len (until (Z.eqb 32) x) /\ s' = s); [apply H; [lia|unfold len; lia]|auto]|]. intros a s' [-> ->].
    pose proof (until_len (Z.eqb 32) x). pose proof (len_nonneg _ (until (Z.eqb 32) x)).
    eapply still_weak; [apply still_setlen; auto; lia|]. cbn beta. intros _ s' [N SM]. split; auto. rewrite C in N.
    destruct (until_app (Z.eqb 32) x) as [r Er]. rewrite Er in N at 2. unfold len in N. rewrite Nat2Z.id, firstn_app_exact in N. exact N.
  - apply still_ret. assert (x = []) as -> by (destruct x; auto; rewrite len_cons in P; pose proof (len_nonneg _ x); lia). split; auto. split; [apply frame1_refl|]. auto.
Qed.

Section Run.
Variable fuel : nat.
Variable c : cfg.
Variable g : setting.
Hypothesis SU : setup c g.
Lemma failed_g : forall tr, failed (crw c) tr -> failed (patience g) tr.
Proof. intros tr. destruct SU as ((_ & ->) & _). auto. Qed.
Local Hint Resolve failed_g : core.

Lemma W_sa : forall s s' v e, bf s' = bf s -> sa s' = sa s -> rcptcount s' = rcptcount s -> W g s v e -> W g s' v e.
Proof. intros s s' v e A B C (X & Y & Z). split; [eapply bufs_eq; eauto|]. split; [eapply strs_eq; eauto|]. apply (envs_eq s); auto. intros. rewrite B. auto. Qed.

Lemma still_reset_raw : forall s v, bufs g s v -> strs s -> still reset_transaction s (fun _ s' => W g s' v env0 /\ (forall f, scratch f -> sa s' f = sa s f)).
Proof.
  intros s v B S. unfold reset_transaction.
  eapply still_bind; [apply still_reset0; apply S|]. cbn beta. intros _ s1 [N1 Z1]. pose proof (strs_now _ _ _ _ N1 S) as S1.
  eapply still_bind; [apply still_reset0; apply S1|]. cbn beta. intros _ s2 [N2 Z2]. pose proof (strs_now _ _ _ _ N2 S1) as S2.
  eapply still_bind; [apply still_reset0; apply S2|]. cbn beta. intros _ s3 [N3 Z3]. pose proof (strs_now _ _ _ _ N3 S2) as S3.
  apply still_set. split.
  - split; [apply (bufs_eq g s); auto; cbn; rewrite (now_bf _ _ _ _ N3), (now_bf _ _ _ _ N2), (now_bf _ _ _ _ N1); auto|]. split; [exact S3|].
    unfold envs, env0. cbn [sender rcpt total count holds setcount sa rcptcount].
    rewrite (now_other _ _ _ _ Mailfrom N3), (now_other _ _ _ _ Mailfrom N2), (now_other _ _ _ _ Rcptto N3) by discriminate.
    rewrite (now_content _ _ _ _ N1), (now_content _ _ _ _ N2), (now_slen _ _ _ _ N3). rewrite len_nil. repeat (split; auto); try lia. eexists; eauto.
  - intros f SC. cbn [setcount sa]. assert (f <> Mailfrom /\ f <> Rcptto /\ f <> Rcpttodata) as (Q1 & Q2 & Q3) by (destruct SC as [->|[->| ->]]; repeat split; discriminate).
    rewrite (now_other _ _ _ _ f N3), (now_other _ _ _ _ f N2), (now_other _ _ _ _ f N1); auto.
Qed.

Lemma still_reset : forall s v e, W g s v e -> still reset_transaction s (fun _ s' => W g s' v env0 /\ (forall f, scratch f -> sa s' f = sa s f)).
Proof. intros s v e (B & S & _). apply still_reset_raw; auto. Qed.

Lemma zterm_mail : forall s v e, W g s v e -> exists x, zterm (sa s Mailfrom) x.
Proof.
  intros s v e (_ & S & E & _). unfold holds in E. destruct (sender e) as [a|]; [|exists []; tauto]. exists a. apply zterm_content; [apply S|tauto].
Qed.
Lemma zterm_rcpt : forall s v e, W g s v e -> exists x, zterm (sa s Rcptto) x.
Proof.
  intros s v e (_ & S & _ & E & _). unfold holds in E. destruct (rcpt e) as [a|]; [|exists []; tauto]. exists a. apply zterm_content; [apply S|tauto].
Qed.
Lemma zterm_data : forall s v e, W g s v e -> exists x, zterm (sa s Rcpttodata) x.
Proof. intros s v e (_ & _ & _ & _ & (_ & E) & _). exact E. Qed.
Lemma sim_logs : forall f s v P x, zterm (sa s f) x -> sim g (logs f) s v P (fun _ s' v' P' => s' = s /\ v' = v /\ P' = P).
Proof. intros f s v P x Z. eapply sim_weak; [apply sim_still; eapply still_logs; exact Z|]. auto. Qed.

(** ** Forwarding a line *)
Lemma sim_copy : forall lid k s v e y, W g s v e -> LN s y -> nonul y ->
  sim g (copy fuel c lid) s v (Give y (Reply (fun h d t => Tell (shown (if lid then tag g (h ++ d :: t) else h ++ d :: t)) (k h))))
    (fun cd s' v' P' => exists h, P' = k h /\ bytes h /\ (3 <= length h)%nat /\ cd = u64 (code h) /\ W g s' v' e /\ keepc s s' /\ exists z, zterm (sa s' Cline) z).
Proof.
  intros lid k s v e y H [C Z] N. unfold copy.
  eapply sim_bind; [pose proof (sim_give_of fuel c g SU Line y s v e (Reply (fun h d t => Tell (shown (if lid then tag g (h ++ d :: t) else h ++ d :: t)) (k h))) H Z) as Q; rewrite shown_nonul in Q by auto; exact Q|].
  cbn beta. intros _ s1 v1 P1 (-> & H1 & A1).
  eapply sim_bind; [apply (sim_reply fuel c g SU false lid) with (e := e); [exact H1|discriminate]|].
  cbn beta. intros cd s2 v2 P2 (h & d & t & -> & BH & RP & L3 & -> & H2 & K2 & Z2 & _). cbn [plain andb] in Z2. 
  eapply sim_bind; [eapply sim_tell_of with (f := Cline); [exact SU|exact H2|exact Z2]|].
  cbn beta. intros _ s3 v3 P3 (-> & H3 & A3).
  assert (ZL : zterm (sa s3 Line) y) by (rewrite A3, (K2 Line), A1 by discriminate; auto).
  assert (ZC : zterm (sa s3 Cline) (plain g false lid h d t)) by (rewrite A3; exact Z2).
  eapply sim_sbind; [eapply still_logs; exact ZL|]. intros _ s4 ->. eapply sim_sbind; [eapply still_logs; exact ZC|]. intros _ s4 ->.
  apply sim_ret. exists h. split; auto. split; auto. split; auto. split; auto. split; auto. split; [|eauto]. intros f Hf. rewrite A3, (K2 f), A1 by auto. reflexivity.
Qed.
Lemma sim_pass : forall k s v e y, W g s v e -> LN s y -> nonul y ->
  sim g (copy fuel c true) s v (pass g y k)
    (fun cd s' v' P' => exists h, P' = k h /\ bytes h /\ (3 <= length h)%nat /\ cd = u64 (code h) /\ W g s' v' e /\ keepc s s' /\ exists z, zterm (sa s' Cline) z).
Proof. intros. apply (sim_copy true); auto. Qed.

(** ** QUIT, other commands, the greeting *)
Definition next_loop (s : st) (v : view) (P : plan) : Prop := exists e, P = Loop e /\ W g s v e.
Lemma sim_default : forall s v e y, W g s v e -> LN s y -> nonul y ->
  sim g (smtp_default fuel c) s v (Give y (Reply (fun h d t => Tell (shown (h ++ d :: t)) (Loop e)))) (fun _ s' v' P' => next_loop s' v' P').
Proof.
  intros s v e y H L N. unfold smtp_default. eapply sim_bind; [apply (sim_copy false (fun _ => Loop e)); eauto|]. cbn beta. intros cd s1 v1 P1 (h & -> & _ & _ & _ & H1 & _).
  apply sim_ret. exists e. auto.
Qed.
Lemma pid_eq : child c = pid g.
Proof. destruct SU as (_ & _ & _ & _ & _ & _ & H & _). exact H. Qed.

Lemma waitchild_ok : forall f tr o, runs (waitchild c f) tr o ->
  core tr = tr /\
  match o with
  | Wrong => False
  | Cut => Forall (svc (bs "waitpid") [pid g]) tr
  | Fin w => exists t a, tr = t ++ [(Other (bs "waitpid") [pid g] [], a)] /\
      Forall (fun e => svc (bs "waitpid") [pid g] e /\ ret (snd e) = -1 /\ err (snd e) = EINTR) t /\ (ret a = -1 -> err a <> EINTR) /\
      w = if ret a =? -1 then 0 else List.hd 0 (data a)
  end.
Proof.
  rewrite <- pid_eq. induction f as [|f IH]; intros tr o R; cbn [waitchild] in R.
  { destruct R as [-> ->]. split; [reflexivity|constructor]. }
  destruct R as [[-> ->]|(a & t & -> & R)]; [split; [reflexivity|constructor]|]. cbn [pbind] in R.
  change (core ((Other (bs "waitpid") [child c] [], a) :: t)) with ((Other (bs "waitpid") [child c] [], a) :: core t).
  destruct (Z.eqb_spec (ret a) (-1)) as [E|E].
  - destruct (Z.eqb_spec (err a) EINTR) as [E2|E2].
    + specialize (IH _ _ R) as [-> I2]. split; auto. destruct o as [w| |]; auto.
      * destruct I2 as (t' & b & -> & I3 & I4). exists ((Other (bs "waitpid") [child c] [], a) :: t'), b. split; [reflexivity|]. split; [|exact I4]. constructor; auto. split; [eexists; reflexivity|]. auto.
      * constructor; auto. eexists; reflexivity.
    + destruct R as [-> ->]. split; [reflexivity|]. exists [], a. split; [reflexivity|]. split; [constructor|]. rewrite E. auto.
  - destruct R as [-> ->]. split; [reflexivity|]. exists [], a. split; [reflexivity|]. split; [constructor|]. split; [congruence|]. destruct (Z.eqb_spec (ret a) (-1)); congruence.
Qed.

Lemma wif_eq : forall w, wifexited w = (w mod 128 =? 0).
Proof. intros. unfold wifexited. change 127 with (Z.ones 7). rewrite Z.land_ones by lia. reflexivity. Qed.
Lemma wex_eq : forall w, wexitstatus w = (w / 256) mod 256.
Proof. intros. unfold wexitstatus. change 255 with (Z.ones 8). rewrite Z.land_ones, Z.shiftr_div_pow2 by lia. reflexivity. Qed.

Lemma sim_finish : forall A s v (Q : A -> st -> view -> plan -> Prop), sim g (die0 fuel c) s v Finish Q.
Proof.
  intros A s v Q tr o R F. unfold die0 in R. rewrite pid_eq, (proj1 (from_eq c g SU)), (proj1 (to_eq c g SU)) in R.
  destruct (Z.eqb_spec (pid g) (-1)) as [E|E].
  { destruct R as [-> ->]. exists [], [], [], v, Finish. split; auto. split; [constructor|]. split; [constructor|]. right. left. split; auto. left. auto. }
  assert (X : exists t2, core tr = t2 /\ match o with Wrong => False | Cut => partial g Finish v t2 | Fin (Exit x) => ended g Finish v t2 tr x | Fin (Go _) => False end).
  2:{ destruct X as (t2 & E2 & X). exists [], t2, [], v, Finish. split; auto. split; [constructor|]. split; [constructor|]. destruct o as [[[s' a]|x]| |]; auto. destruct X. }
  destruct R as [[-> ->]|(a & t & -> & R)]. { exists []. split; auto. constructor. } cbn [pbind] in R.
  destruct R as [[-> ->]|(b & t' & -> & R)]. { eexists. split; [reflexivity|]. constructor; [left; reflexivity|constructor]. } cbn [pbind] in R.
  change (core ((Close (fromprog g), a) :: (Close (toprog g), b) :: t')) with ((Close (fromprog g), a) :: (Close (toprog g), b) :: core t').
  eexists. split; [reflexivity|].
  apply runs_bind in R as [(w & t1 & t2 & -> & R1 & R2)|[[R1 ->]|[R1 ->]]].
  - destruct (waitchild_ok _ _ _ R1) as (C1 & t3 & x & -> & H1 & H2 & H3).
    assert (o = Fin (Exit (if wifexited w then wexitstatus w else 111)) /\ t2 = []) as [-> ->] by (destruct (wifexited w); destruct R2 as [-> ->]; auto).
    rewrite app_nil_r, C1. right. left. split; auto. right. exists a, b, t3, x. split; [reflexivity|]. split; auto. split; auto. rewrite <- H3, wif_eq, wex_eq. reflexivity.
  - destruct (waitchild_ok _ _ _ R1) as (_ & []).
  - destruct (waitchild_ok _ _ _ R1) as (C1 & H1). rewrite C1. constructor; [left; reflexivity|]. constructor; [right; left; reflexivity|].
    eapply Forall_impl; [|exact H1]. intros e He. right. right. exact He.
Qed.
Lemma sim_quit : forall s v e y Q, W g s v e -> LN s y -> nonul y -> sim g (smtp_quit fuel c) s v (pass g y (fun _ => Finish)) Q.
Proof.
  intros s v e y Q H L N. unfold smtp_quit. eapply sim_bind; [apply (sim_pass (fun _ => Finish)); eauto|]. cbn beta. intros cd s1 v1 P1 (h & -> & _). apply sim_finish.
Qed.
Lemma sim_greet : forall s v e k, W g s v e ->
  sim g (greet fuel c) s v (Reply (fun h d t => Tell (shown (tag g (h ++ d :: t))) (k h))) (fun _ s' v' P' => exists h, P' = k h /\ W g s' v' e).
Proof.
  intros s v e k H. unfold greet.
  eapply sim_bind; [apply (sim_reply fuel c g SU false true) with (e := e); [exact H|discriminate]|].
  cbn beta. intros cd s2 v2 P2 (h & d & t & -> & BH & RP & L3 & -> & H2 & K2 & Z2 & _). cbn [plain andb] in Z2.
  eapply sim_weak; [eapply sim_tell_of with (f := Cline); [exact SU|exact H2|exact Z2]|]. cbn beta. intros _ s3 v3 P3 (-> & H3 & A3). eauto.
Qed.
End Run.
