(** The policy server. *)
From Verif.Model Require Import Base Sys Io Str Buffer Stralloc Fdio Smtp.
From Verif.Spec Require Import Text Stream Waiting SmtpSpec.
From Verif.Proof Require Import Tac SysP CallsP IoP HostportP StrP FrameP BufferP StrallocP FdioP SmtpIoP SmtpStP SmtpP SmtpReplyP SmtpCmdP SmtpTalkP.
From Verif.Spec Require Import SmtpSpec.

Section Run.
Variable fuel : nat.
Variable c : cfg.
Variable g : setting.
Hypothesis SU : setup c g.
Lemma failed_g : forall tr, failed (crw c) tr -> failed (patience g) tr.
Proof. intros tr. destruct SU as ((_ & ->) & _). auto. Qed.
Local Hint Resolve failed_g : core.

Lemma strict_eq : failclosed c = strict g.
Proof. destruct SU as (_ & _ & _ & _ & H & _). exact H. Qed.
Lemma policy_eq : forall d, policy g = Some d -> greyfd c = gfd g /\ fdok (gfd g).
Proof. intros d E. destruct SU as (_ & _ & _ & H & _). unfold gfd. rewrite E in *. destruct H as [-> H]. auto. Qed.
Lemma policy_none : policy g = None -> greyfd c = -1.
Proof. intros E. destruct SU as (_ & _ & _ & H & _). rewrite E in H. exact H. Qed.

Lemma ask_parts_ok : forall l xs b tr o, Forall2 (fun p x => cstring p x /\ nonul x) l xs -> winv b -> bfd b = gfd g -> fdok (gfd g) ->
  runs (ask_parts fuel c l b) tr o -> fine tr ->
  Forall (wr (gfd g)) (core tr) /\
  match o with
  | Wrong => False
  | Cut => is_prefix (sent (gfd g) tr) (pending b ++ concat xs)
  | Fin (Exit y) => y = 111 /\ failed (crw c) tr /\ is_prefix (sent (gfd g) tr) (pending b ++ concat xs)
  | Fin (Go (true, b')) => sent (gfd g) tr ++ pending b' = pending b ++ concat xs /\ winv b' /\ bfd b' = gfd g
  | Fin (Go (false, _)) => strict g = false /\ is_prefix (sent (gfd g) tr) (pending b ++ concat xs)
  end.
Proof.
  intros l xs b tr o F2. revert b tr o. induction F2 as [|p x l xs [(rest & ->) N] F2 IH]; intros b tr o WI BF FD R F; cbn [ask_parts] in R.
  { destruct R as [-> ->]. split; [constructor|]. cbn [sent app concat]. rewrite app_nil_r. auto. }
  cbn [concat]. rewrite app_assoc.
  assert (OP : forall tr o, runs (oputs fuel (gwrite fuel c) b (x ++ 0 :: rest)) tr o -> fine tr -> opost c (strict g) b (pending b ++ x) tr o).
  { intros tr0 o0 R0 F0. unfold oputs in R0. rewrite str_len_ok in R0 by auto. cbn [lift pbind] in R0. rewrite <- strict_eq.
    apply (oput_ok fuel c _ _ (gwrite_spec fuel c (T c g SU)) b x (0 :: rest)); auto. rewrite BF. auto. }
  apply runs_obind in R as [([r b1] & t1 & t2 & -> & R1 & R2)|[(y & R1 & ->)|[[R1 ->]|[R1 ->]]]].
  - apply fine_app in F as [F1 F3]. destruct (OP _ _ R1 F1) as [O1 O2]. rewrite BF in *. destruct r as [|er].
    + destruct O2 as (O2 & O3 & O4 & O5). destruct (IH _ _ _ O3 O5 FD R2 F3) as [I1 I2]. rewrite core_app, Forall_app, sent_app. split; auto. rewrite <- O2.
      destruct o as [[[[|] b']|y]| |]; auto.
      * destruct I2 as (I2 & I3). rewrite <- !app_assoc, I2. auto.
      * destruct I2 as (I2 & I3). split; auto. rewrite <- app_assoc. apply is_prefix_app2. auto.
      * destruct I2 as (-> & I2 & I3). split; auto. split; [apply failed_app; auto|]. rewrite <- app_assoc. apply is_prefix_app2. auto.
      * rewrite <- app_assoc. apply is_prefix_app2. auto.
    + destruct R2 as [-> ->]. rewrite app_nil_r. split; auto. destruct O2 as (O2 & O3). split; auto. apply is_prefix_app. auto.
  - destruct (OP _ _ R1 F) as [O1 O2]. rewrite BF in *. split; auto. destruct O2 as (-> & O2 & O3). split; auto. split; auto. apply is_prefix_app. auto.
  - destruct (OP _ _ R1 F) as [O1 []].
  - destruct (OP _ _ R1 F) as [O1 O2]. rewrite BF in *. split; auto. apply is_prefix_app. auto.
Qed.

Lemma gbuf_w : winv (gbuf c) /\ pending (gbuf c) = [] /\ rinv 256 (gbuf c) /\ window (gbuf c) = [] /\ bfd (gbuf c) = greyfd c.
Proof.
  unfold gbuf, buffer_init. change (256 <? 0) with false. cbn iota. unfold winv, pending, rinv, window. cbn [bp bn bx bfd].
  match goal with |- context [repeat 0 ?n] => assert (L : len (repeat 0 n) = 256) by (unfold len; rewrite repeat_length; lia) end. rewrite L. repeat split; try lia.
Qed.

Lemma sim_ask : forall k s v e f t d, W g s v e -> sender e = Some f -> rcpt e = Some t -> policy g = Some d ->
  sim g (ask fuel c) s v (Ask (request g f t) k) (fun r s' v' P' => s' = s /\ v' = v /\ ((r = true /\ P' = Await k) \/ (r = false /\ P' = k None))).
Proof.
  intros k s v e f t d (B & S & E) EF ET PO. destruct (policy_eq _ PO) as [GE FD]. destruct E as (E1 & E2 & _). rewrite EF in E1. rewrite ET in E2. cbn [holds] in *.
  destruct E1 as (C1 & N1 & _). destruct E2 as (C2 & N2 & _).
  destruct (zterm_content _ _ (S Mailfrom) C1) as (pm & M1 & Z1). destruct (zterm_content _ _ (S Rcptto) C2) as (pr & M2 & Z2).
  destruct SU as (_ & _ & (ZI & NI & LI) & _).
  unfold ask.
  eapply sim_sbind; [apply still_the with (Q := fun a s' => a = sa s Mailfrom /\ s' = s); auto|]. intros a s' [-> ->].
  eapply sim_sbind; [apply still_the with (Q := fun a s' => a = sa s Rcptto /\ s' = s); auto|]. intros a s' [-> ->].
  eapply sim_sbind; [eapply still_ptr with (Q := fun q s' => q = pm /\ s' = s); eauto|]. intros a s' [-> ->].
  eapply sim_sbind; [eapply still_ptr with (Q := fun q s' => q = pr /\ s' = s); eauto|]. intros a s' [-> ->].
  intros tr o R F. set (l := [_; _; _; _; _; _; _; _]) in R.
  set (xs := [bs "request=smtpd_access_policy" ++ [10]; bs "client_address="; ip g; 10 :: bs "sender="; f; 10 :: bs "recipient="; t; [10; 10]]).
  assert (F2 : Forall2 (fun p x => cstring p x /\ nonul x) l xs).
  { unfold l, xs, LF. repeat apply Forall2_cons; try apply Forall2_nil; split; auto; try (exists []; reflexivity); try (cbn; nn). }
  assert (Q : concat xs = request g f t).
  { unfold xs, request. cbn [concat]. rewrite <- !app_assoc. reflexivity. }
  destruct gbuf_w as (W1 & W2 & _ & _ & W5). rewrite GE in W5.
  assert (STOP : forall t2, Forall (wr (gfd g)) t2 -> is_prefix (sent (gfd g) t2) (request g f t) -> partial g (Ask (request g f t) k) v t2) by (intros; cbn; auto).
  assert (SKIP : forall tr0, Forall (wr (gfd g)) (core tr0) -> is_prefix (sent (gfd g) tr0) (request g f t) -> strict g = false -> 
     exists t1 t2 l0 v' P', core tr0 = t1 ++ t2 /\ story g v t1 l0 v' /\ follows g (Ask (request g f t) k) l0 P' /\ t2 = [] /\ v' = v /\ P' = k None).
  { intros tr0 A1 A2 A3. exists (core tr0), [], [ANoAsk (request g f t)], v, (k None). rewrite app_nil_r. split; auto. split; [apply story1; cbn [does]; rewrite sent_core; auto|].
    split; [apply follows1; constructor; auto|]. auto. }
  assert (DONE : forall tr0, Forall (wr (gfd g)) (core tr0) -> sent (gfd g) tr0 = request g f t -> 
     exists t1 t2 l0 v' P', core tr0 = t1 ++ t2 /\ story g v t1 l0 v' /\ follows g (Ask (request g f t) k) l0 P' /\ t2 = [] /\ v' = v /\ P' = Await k).
  { intros tr0 A1 A2. exists (core tr0), [], [AAsk (request g f t)], v, (Await k). rewrite app_nil_r. split; auto. split; [apply story1; cbn [does]; rewrite sent_core; auto|].
    split; [apply follows1; constructor; auto|]. auto. }
  apply runs_obind in R as [([ok b1] & t1 & t2 & -> & R1 & R2)|[(y & R1 & ->)|[[R1 ->]|[R1 ->]]]].
  - apply fine_app in F as [F1 F3]. destruct (ask_parts_ok _ _ _ _ _ F2 W1 W5 FD R1 F1) as [O1 O2]. rewrite W2, Q in O2. cbn [app] in O2. destruct ok; cbn [negb] in R2.
    + destruct O2 as (O2 & O3 & O4).
      apply runs_obind in R2 as [([r b2] & u1 & u2 & -> & R3 & R4)|[(y & R3 & ->)|[[R3 ->]|[R3 ->]]]].
      * apply fine_app in F3 as [F3 F4]. destruct (oflush_ok fuel c _ _ (gwrite_spec fuel c (T c g SU)) _ _ _ R3 F3 O3) as [[P1' P2'] P3']; [rewrite O4; auto|]. rewrite O4 in *.
        destruct r as [|er].
        -- destruct R4 as [-> ->]. rewrite app_nil_r. destruct P2' as (P2' & _). rewrite (P3' _ eq_refl) in P2'. unfold pending at 1 in P2'. cbn [bp bx] in P2'. change (Z.to_nat 0) with O in P2'. cbn [firstn] in P2'. rewrite app_nil_r in P2'.
           destruct (DONE (t1 ++ u1)) as (w1 & w2 & l0 & v' & P' & D1 & D2 & D3 & -> & -> & ->).
           { rewrite core_app. apply Forall_app. auto. } { rewrite sent_app, P2'. exact O2. }
           exists w1, [], l0, v, (Await k). repeat (split; auto).
        -- destruct R4 as [-> ->]. rewrite app_nil_r. destruct P2' as (P2' & P4'). rewrite strict_eq in P2'.
           destruct (SKIP (t1 ++ u1)) as (w1 & w2 & l0 & v' & P' & D1 & D2 & D3 & -> & -> & ->); auto.
           { rewrite core_app. apply Forall_app. auto. } { rewrite sent_app, <- O2. apply is_prefix_app2. auto. }
           exists w1, [], l0, v, (k None). repeat (split; auto).
      * destruct (oflush_ok fuel c _ _ (gwrite_spec fuel c (T c g SU)) _ _ _ R3 F3 O3) as [[P1' (-> & P2' & P4')] P3']; [rewrite O4; auto|]. rewrite O4 in *.
        exists [], (core (t1 ++ t2)), [], v, (Ask (request g f t) k). split; auto. split; [constructor|]. split; [constructor|]. right. right. split; auto. split; [apply failed_app; auto|].
        apply STOP; [rewrite core_app; apply Forall_app; auto|]. rewrite sent_core, sent_app, <- O2. apply is_prefix_app2. auto.
      * destruct (oflush_ok fuel c _ _ (gwrite_spec fuel c (T c g SU)) _ _ _ R3 F3 O3) as [[P1' []] P3']. rewrite O4; auto.
      * destruct (oflush_ok fuel c _ _ (gwrite_spec fuel c (T c g SU)) _ _ _ R3 F3 O3) as [[P1' P2'] P3']; [rewrite O4; auto|]. rewrite O4 in *.
        exists [], (core (t1 ++ t2)), [], v, (Ask (request g f t) k). split; auto. split; [constructor|]. split; [constructor|].
        apply STOP; [rewrite core_app; apply Forall_app; auto|]. rewrite sent_core, sent_app, <- O2. apply is_prefix_app2. auto.
    + destruct R2 as [-> ->]. rewrite app_nil_r. destruct O2 as [O2 O3]. destruct (SKIP t1) as (w1 & w2 & l0 & v' & P' & D1 & D2 & D3 & -> & -> & ->); auto.
      exists w1, [], l0, v, (k None). repeat (split; auto).
  - destruct (ask_parts_ok _ _ _ _ _ F2 W1 W5 FD R1 F) as [O1 (-> & O2 & O3)]. rewrite W2, Q in O3. cbn [app] in O3.
    exists [], (core tr), [], v, (Ask (request g f t) k). split; auto. split; [constructor|]. split; [constructor|]. right. right. split; auto. split; auto. apply STOP; auto. rewrite sent_core. auto.
  - destruct (ask_parts_ok _ _ _ _ _ F2 W1 W5 FD R1 F) as [O1 []].
  - destruct (ask_parts_ok _ _ _ _ _ F2 W1 W5 FD R1 F) as [O1 O2]. rewrite W2, Q in O2. cbn [app] in O2.
    exists [], (core tr), [], v, (Ask (request g f t) k). split; auto. split; [constructor|]. split; [constructor|]. apply STOP; auto. rewrite sent_core. auto.
Qed.

Lemma answer_ok : forall f s b y0 tr o, strs s -> content (sa s Resp) = y0 -> ~ In 10 y0 -> len y0 <= 4096 ->
  rinv 256 b -> bfd b = gfd g -> bytes (window b) -> fdok (gfd g) -> runs (answer_loop fuel c f b s) tr o -> fine tr ->
  Forall (rd (gfd g)) (core tr) /\
  match o with
  | Wrong => False
  | Cut => True
  | Fin (Exit y) => y = 111 /\ failed (crw c) tr
  | Fin (Go (s', true)) => exists y u, window b ++ got (gfd g) tr = y ++ 10 :: u /\ ~ In 10 y /\ len (y0 ++ y) < 4096 /\ now Resp ((y0 ++ y) ++ [10]) s s'
  | Fin (Go (s', false)) => (exists z, now Resp z s s') /\
      (strict g = false \/ exists y ch u, window b ++ got (gfd g) tr = y ++ ch :: u /\ ~ In 10 y /\ len (y0 ++ y) = 4096)
  end.
Proof.
  induction f as [|f IH]; intros s b y0 tr o S C NI L RI BF BW FD R F; cbn [answer_loop] in R.
  { destruct R as [-> ->]. split; [constructor|auto]. }
  assert (OG : forall tr o, runs (oget fuel (gread fuel c) b 1) tr o -> fine tr -> _) by (intros tr0 o0 R0 F0; exact (oget1_ok fuel c _ _ (gread_spec fuel c (T c g SU)) 256 b tr0 o0 R0 F0 RI ltac:(lia) ltac:(rewrite BF; exact FD) BW)).
  cbn beta in OG. rewrite BF in OG.
  apply runs_obind in R as [([[[r e] x] b1] & t1 & t2 & -> & R1 & R2)|[(y & R1 & ->)|[[R1 ->]|[R1 ->]]]].
  2:{ destruct (OG _ _ R1 F) as (O1 & -> & O2 & _). auto. }
  2:{ destruct (OG _ _ R1 F) as (O1 & []). }
  2:{ destruct (OG _ _ R1 F) as (O1 & _). auto. }
  apply fine_app in F as [F1 F2]. destruct (OG _ _ R1 F1) as (O1 & O2 & O3 & O4 & O5). rewrite core_app, Forall_app, got_app, app_assoc, O4.
  destruct O5 as [(-> & ch & ->)|(NR & ST)].
  2:{ destruct (Z.eqb_spec r 1); [congruence|]. cbn [negb] in R2. destruct R2 as [-> ->]. split; [split; [auto|constructor]|]. split; [|left; rewrite <- strict_eq; auto]. exists y0. split; [apply frame1_refl|]. auto. }
  change (negb (1 =? 1)) with false in R2. cbn iota in R2. unfold mbind at 1 in R2. cbn [mlift deref lift pbind obind] in R2. unfold mbind at 1 in R2. cbn [the obind pbind] in R2.
  assert (SL : slen (sa s Resp) = len y0) by (rewrite <- content_len by apply S; congruence). rewrite SL in R2. unfold SMTP_MAX_LINE in R2. cbn [app].
  assert (BW1 : bytes (window b1)). { assert (Q : bytes (window b ++ got (gfd g) t1)) by (apply Forall_app; split; [exact BW|apply got_bytes, F1]). rewrite O4 in Q. apply Forall_app in Q. tauto. }
  destruct (Z.leb_spec 4096 (len y0)) as [FU|FU].
  { destruct R2 as [-> ->]. split; [split; [auto|constructor]|]. split; [exists y0; split; [apply frame1_refl|auto]|]. right. exists [], ch, (window b1). cbn [got app]. rewrite !app_nil_r. split; auto. split; auto. lia. }
  assert (AP : still (sado Resp (fun x => stralloc_append x (Some [ch]))) s (fun _ s' => now Resp (y0 ++ [ch]) s s')).
  { rewrite <- C. apply still_append; [apply S|rewrite C; unfold small; lia]. }
  unfold mbind in R2. apply runs_obind in R2 as [([s1 q] & t3 & t4 & -> & R3 & R4)|[(y & R3 & ->)|[[R3 ->]|[R3 ->]]]].
  - apply fine_app in F2 as [F3 F4]. destruct (AP _ _ R3 F3) as [C3 N3]. rewrite core_app, C3, got_app, <- (got_core _ t3), C3. cbn [app got].
    unfold LF in R4. destruct (Z.eqb_spec ch 10) as [->|NL].
    + destruct R4 as [-> ->]. split; [split; [auto|constructor]|]. exists [], (window b1). cbn [got app]. rewrite !app_nil_r. split; auto.
    + assert (N0 : ~ In 10 (y0 ++ [ch])) by (intros Q; apply in_app_iff in Q as [Q|[Q|[]]]; auto).
      assert (LL : len (y0 ++ [ch]) <= 4096) by (rewrite len_app; change (len [ch]) with 1; lia).
      destruct (IH s1 b1 (y0 ++ [ch]) t4 o (strs_now _ _ _ _ N3 S) (now_content _ _ _ _ N3) N0 LL O2 ltac:(congruence) BW1 FD R4 F4) as [I1 I2]. split; auto.
      destruct o as [[[s2 [|]]|y]| |]; auto.
      * destruct I2 as (y & u & I2 & I3 & I4 & I5). exists (ch :: y), u. rewrite I2. rewrite <- app_assoc in *. cbn [app] in *. split; auto. split; [intros [Q|Q]; auto|]. split; auto.
        eapply now_trans; eauto. rewrite <- app_assoc in *. exact I5.
      * destruct I2 as ((z & I2) & I3). split; [exists z; eapply now_trans; eauto|]. destruct I3 as [I3|(y & ch2 & u & I3 & I4 & I5)]; [left; auto|right].
        exists (ch :: y), ch2, u. rewrite I3. rewrite <- app_assoc in I5. cbn [app] in *. split; auto. split; auto. intros [Q|Q]; auto.
      * destruct I2 as [-> I2]. split; auto. apply failed_app, failed_app. auto.
  - destruct (AP _ _ R3 F2) as [C3 [-> N3]]. rewrite C3. split; [split; [auto|constructor]|]. split; auto. apply failed_app. auto.
  - destruct (AP _ _ R3 F2) as [C3 []].
  - destruct (AP _ _ R3 F2) as [C3 _]. rewrite C3. split; [split; [auto|constructor]|]. auto.
Qed.

Definition keepr (s s' : st) : Prop := forall f, f <> Resp -> sa s' f = sa s f.
Lemma keepr_now : forall x a b, now Resp x a b -> keepr a b.
Proof. intros x a b ((_ & H & _) & _). exact H. Qed.
Lemma sc_Resp : scratch Resp. Proof. right. right. reflexivity. Qed.

Lemma sim_answer : forall k s v e d, W g s v e -> content (sa s Resp) = [] -> policy g = Some d ->
  sim g (answer_loop fuel c fuel (gbuf c)) s v (Await k) (fun r s' v' P' => v' = v /\ W g s' v e /\ keepr s s' /\
    ((r = true /\ exists y, bytes y /\ len y < 4096 /\ P' = k (Some (y ++ [10])) /\ content (sa s' Resp) = y ++ [10]) \/ (r = false /\ P' = k None))).
Proof.
  intros k s v e d H C PO tr o R F. destruct (policy_eq _ PO) as [GE FD]. destruct gbuf_w as (_ & _ & W3 & W4 & W5). rewrite GE in W5. pose proof H as (B & S & E).
  destruct (answer_ok _ _ _ [] _ _ S C ltac:(auto) ltac:(rewrite len_nil; lia) W3 W5 ltac:(rewrite W4; constructor) FD R F) as [A1 A2]. rewrite W4 in A2. cbn [app] in A2.
  assert (BG : bytes (got (gfd g) tr)) by (apply got_bytes, F).
  destruct o as [[[s' [|]]|y]| |].
  - destruct A2 as (y & u & A2 & A3 & A4 & A5). exists (core tr), [], [AAnswer (y ++ [10])], v, (k (Some (y ++ [10]))). rewrite app_nil_r. split; auto.
    split; [apply story1; cbn [does]; rewrite got_core; split; auto; split; auto; exists u; rewrite A2, <- app_assoc; reflexivity|].
    split; [apply follows1; constructor; auto|]. split; auto. split; auto. split; [eapply W_now; eauto; apply sc_Resp|]. split; [eapply keepr_now; eauto|]. left. split; auto.
    exists y. rewrite A2 in BG. apply Forall_app in BG as [BG _]. split; auto. split; auto. split; auto. apply (now_content _ _ _ _ A5).
  - destruct A2 as ((z & A2) & A3). destruct A3 as [A3|(y & ch & u & A3 & A4 & A5)].
    + exists (core tr), [], [ANoAnswer], v, (k None). rewrite app_nil_r. split; auto. split; [apply story1; cbn [does]; auto|]. split; [apply follows1; constructor; auto|]. split; auto.
      split; auto. split; [eapply W_now; eauto; apply sc_Resp|]. split; [eapply keepr_now; eauto|]. right. auto.
    + exists (core tr), [], [AGFlood (y ++ [ch])], v, (k None). rewrite app_nil_r. split; auto.
      split; [apply story1; cbn [does]; rewrite got_core; split; auto; split; auto; exists u; rewrite A3, <- app_assoc; reflexivity|].
      split; [apply follows1; constructor; auto|]. split; auto. split; auto. split; [eapply W_now; eauto; apply sc_Resp|]. split; [eapply keepr_now; eauto|]. right. auto.
  - destruct A2 as [-> A2]. exists [], (core tr), [], v, (Await k). split; auto. split; [constructor|]. split; [constructor|]. right. right. auto.
  - destruct A2.
  - exists [], (core tr), [], v, (Await k). split; auto. split; [constructor|]. split; [constructor|]. auto.
Qed.

Lemma beginsb_zero : forall k r, nonul k -> beginsb k (r ++ [0]) = beginsb k r.
Proof.
  induction k as [|a k IH]; intros r N; [reflexivity|]. apply Forall_cons_iff in N as [Na N]. destruct r as [|b r].
  - cbn [app]. rewrite beginsb_cons, beginsb_short. change (lower 0) with 0. pose proof (lower0 a Na). destruct (Z.eqb_spec (lower a) 0); [lia|reflexivity].
  - cbn [app]. rewrite !beginsb_cons, IH; auto.
Qed.
Lemma still_word : forall n k s r, sinv (sa s Resp) -> content (sa s Resp) = r ++ [0] -> bytes r -> nonul k -> n = len k ->
  forall p rest, p = (r ++ [0]) ++ rest ->
  still (if n <=? slen (sa s Resp) then mbind (mlift (case_diffb p n (k ++ [0]))) (fun d => mret (d =? 0)) else mret false) s (fun b s' => b = beginsb k r /\ s' = s).
Proof.
  intros n k s r I C B N -> p rest ->. assert (SL : slen (sa s Resp) = len (r ++ [0])) by (rewrite <- content_len by auto; congruence). rewrite SL, <- (beginsb_zero k r N).
  destruct (Z.leb_spec (len k) (len (r ++ [0]))) as [LE|LE].
  - destruct (keyword_ok k (r ++ [0]) rest (len k)) as (d & D1 & D2); auto. { apply Forall_app. split; [exact B|constructor; [unfold is_byte; lia|constructor]]. }
    eapply still_bind; [eapply still_lift with (Q := fun x s' => x = d /\ s' = s); [exact D1|auto]|]. intros a s' [-> ->]. apply still_ret. auto.
  - apply still_ret. split; auto. symmetry. apply beginsb_long. unfold len in LE. lia.
Qed.

Lemma sim_greylist : forall k s v e f t d, W g s v e -> sender e = Some f -> rcpt e = Some t -> policy g = Some d ->
  sim g (greylist fuel c) s v (Ask (request g f t) k) (fun m s' v' P' => exists r, P' = k r /\ v' = v /\ W g s' v e /\ keepr s s' /\
    m = match r with None => None | Some r => verdict r end).
Proof.
  intros k s v e f t d H EF ET PO. unfold greylist.
  eapply sim_sbind; [apply still_copys0; apply H|]. cbn beta. intros _ s1 N1. pose proof (keepr_now _ _ _ N1) as K1. apply (W_now g) with (v := v) (e := e) in N1 as H1; auto; [|apply sc_Resp]. destruct N1 as (_ & _ & C1).
  eapply sim_bind; [eapply sim_ask; eauto|]. cbn beta. intros r s2 v2 P2 (-> & -> & [[-> ->]|[-> ->]]); cbn [negb].
  2:{ apply sim_ret. exists None. auto. }
  eapply sim_bind; [eapply sim_answer; eauto|]. cbn beta. intros r s3 v3 P3 (-> & H3 & K3 & [(-> & y & BY & LY & -> & C3)|[-> ->]]); cbn [negb].
  2:{ apply sim_ret. exists None. split; auto. split; auto. split; auto. split; auto. intros h Hh. rewrite (K3 h), (K1 h); auto. }
  set (r := y ++ [10]) in *.
  assert (BR : bytes r) by (apply Forall_app; split; [exact BY|constructor; [unfold is_byte; lia|constructor]]).
  eapply sim_sbind; [apply still_0; [apply H3|rewrite C3; unfold r, small; rewrite len_app; change (len [10]) with 1; lia]|].
  cbn beta. intros _ s4 N4. rewrite C3 in N4. pose proof (keepr_now _ _ _ N4) as K4. apply (W_now g) with (v := v) (e := e) in N4 as H4; auto; [|apply sc_Resp]. destruct N4 as (_ & I4 & C4).
  eapply sim_sbind; [eapply still_logs; apply zterm_content; [exact I4|exact C4]|]. intros _ s5 ->.
  eapply sim_sbind; [apply still_the with (Q := fun a s' => a = sa s4 Resp /\ s' = s4); auto|]. intros a s5 [-> ->].
  destruct (content_mem _ _ I4 C4) as [rest M4]; [destruct r; discriminate|].
  eapply sim_sbind; [eapply still_ptr with (Q := fun q s' => q = _ /\ s' = s4); eauto|]. intros a s5 [-> ->].
  assert (K : keepr s s4) by (intros h Hh; rewrite (K4 h), (K3 h), (K1 h); auto).
  eapply sim_sbind; [eapply (still_word 12 (bs "action=dunno")); [exact I4|exact C4|exact BR|cbn; nn|reflexivity|reflexivity]|]. cbn beta. intros b s5 [-> ->].
  assert (V : forall m, m = verdict r -> exists r0 : option (list Z), k (Some r) = k r0 /\ v = v /\ W g s4 v e /\ keepr s s4 /\ m = match r0 with None => None | Some r => verdict r end) by (intros m ->; exists (Some r); auto).
  unfold verdict in V. destruct (beginsb (bs "action=dunno") r); [apply sim_ret; auto|].
  eapply sim_sbind; [eapply (still_word 13 (bs "action=reject")); [exact I4|exact C4|exact BR|cbn; nn|reflexivity|reflexivity]|]. cbn beta. intros b s5 [-> ->].
  destruct (beginsb (bs "action=reject") r); apply sim_ret; auto.
Qed.

Lemma LN_keepr : forall s s' y, keepr s s' -> LN s y -> LN s' y.
Proof. intros s s' y K. apply LN_eq. apply K. discriminate. Qed.
Lemma holds_len : forall r x, sinv r -> holds r x -> (slen r =? 0) = match x with None => true | Some _ => false end.
Proof.
  intros r x I H. rewrite <- content_len by auto. destruct x as [a|]; destruct H as [H _]; rewrite H; [|reflexivity].
  rewrite len_app. change (len [0]) with 1. pose proof (len_nonneg _ a). apply Z.eqb_neq. lia.
Qed.

Lemma verdict_ok : forall r m, verdict r = Some m -> nonul m /\ len m <= 1000.
Proof.
  intros r m. unfold verdict. destruct (beginsb _ r); [discriminate|]. destruct (beginsb _ r); intros [= <-]; (split; [cbn; nn|unfold len; cbn; lia]).
Qed.

Lemma sim_rcpt : forall s v e y, W g s v e -> LN s y -> nonul y -> len y <= 5000 -> (exists z, y = z ++ [10]) ->
  sim g (smtp_rcpt fuel c) s v (rcptto g e y) (fun _ s' v' P' => next_loop g s' v' P').
Proof.
  intros s v e y H L N LY CRLF. unfold smtp_rcpt, rcptto.
  set (forward := fun e : env => pass g y (fun _ => Loop e)).
  set (after := fun (e : env) (r : option (list Z)) => match r with None => forward e | Some r => match verdict r with None => forward e | Some m => Tell (message g m) (Loop e) end end).
  set (K := fun e : env => match policy g, sender e, rcpt e with Some _, Some f, Some t => Ask (request g f t) (after e) | _, _, _ => forward e end).
  match goal with |- sim g ?m s v _ ?Q => change (sim g m s v (match rcptenv e y with None => Die | Some e' => K e' end) Q) end.
  eapply sim_bind; [apply (sim_record fuel g s v e y K); auto|]. cbn beta. intros _ s1 v1 P1 (e1 & -> & -> & H1 & L1). clear H.
  eapply sim_sbind; [apply still_the with (Q := fun x s' => x = sa s1 Mailfrom /\ s' = s1); auto|]. intros x s2 [-> ->].
  eapply sim_sbind; [apply still_the with (Q := fun x s' => x = sa s1 Rcptto /\ s' = s1); auto|]. intros x s2 [-> ->].
  pose proof H1 as (_ & S1 & E1 & E2 & _). rewrite (holds_len _ _ (S1 _) E1), (holds_len _ _ (S1 _) E2).
  apply sim_bind with (Q := fun m s' v' P' => W g s' v' e1 /\ LN s' y /\ ((m = None /\ P' = forward e1) \/ (exists r q, m = Some q /\ verdict r = Some q /\ P' = Tell (message g q) (Loop e1)))).
  - assert (FW : K e1 = forward e1 -> sim g (mret None) s1 v (K e1) (fun m s' v' P' => W g s' v' e1 /\ LN s' y /\ ((m = None /\ P' = forward e1) \/ (exists r q, m = Some q /\ verdict r = Some q /\ P' = Tell (message g q) (Loop e1))))).
    { intros ->. apply sim_ret. auto. }
    unfold K in *. destruct (policy g) as [d|] eqn:PO.
    2:{ rewrite (policy_none PO). rewrite andb_false_r. apply FW. reflexivity. }
    destruct (policy_eq _ PO) as [GE FD]. rewrite GE.
    destruct (sender e1) as [fr|] eqn:EF; cbn [negb andb]; [|apply FW; reflexivity]. destruct (rcpt e1) as [t|] eqn:ET; cbn [negb andb]; [|apply FW; reflexivity].
    destruct (Z.eqb_spec (gfd g) (-1)) as [Q|_]; [destruct FD; lia|]. cbn [negb].
    eapply sim_weak; [eapply sim_greylist; eauto|]. cbn beta. intros m s2 v2 P2 (r & -> & -> & H2 & K2 & ->). split; auto. split; [eapply LN_keepr; eauto|].
    unfold after. destruct r as [r|]; [|auto]. destruct (verdict r) as [q|] eqn:V; [right; exists r, q; auto|left; auto].
  - cbn beta. intros m s2 v2 P2 (H2 & L2 & [[-> ->]|(r & q & -> & V & ->)]).
    + eapply sim_bind; [apply (sim_pass fuel c g SU (fun _ => Loop e1)); eauto|]. cbn beta. intros cd s3 v3 P3 (h & -> & _ & _ & _ & H3 & _ & z & Z3).
      assert (DN : next_loop g s3 v3 (Loop e1)) by (exists e1; auto).
      destruct (cd =? 250); cbn [negb]; [apply sim_ret; auto|].
      destruct (zterm_mail g _ _ _ H3) as [m3 M3]. destruct (zterm_rcpt g _ _ _ H3) as [r3 R3].
      eapply sim_sbind; [eapply still_logs; eauto|]. intros _ s4 ->. eapply sim_sbind; [eapply still_logs; eauto|]. intros _ s4 ->.
      eapply sim_weak; [eapply sim_logs; eauto|]. cbn beta. intros _ s4 v4 P4 (-> & -> & ->). auto.
    + destruct (verdict_ok _ _ V) as [NQ LQ].
      eapply sim_bind; [eapply (sim_say fuel c g SU q); eauto|]. cbn beta. intros _ s3 v3 P3 (-> & H3 & K3 & Z3).
      destruct (zterm_mail g _ _ _ H3) as [m3 M3]. destruct (zterm_rcpt g _ _ _ H3) as [r3 R3].
      assert (L3 : LN s3 y) by (apply (LN_eq s2); auto; apply K3; discriminate). destruct L3 as [_ L3].
      eapply sim_sbind; [eapply still_logs; exact L3|]. intros _ s4 ->. eapply sim_sbind; [eapply still_logs; eauto|]. intros _ s4 ->.
      eapply sim_sbind; [eapply still_logs; eauto|]. intros _ s4 ->.
      eapply sim_weak; [eapply sim_logs; eauto|]. cbn beta. intros _ s4 v4 P4 (-> & -> & ->). exists e1. auto.
Qed.
End Run.
