(** DATA, STARTTLS, the dispatch of commands, the session. *)
From Verif.Model Require Import Base Sys Io Str Buffer Stralloc Fdio Smtp.
From Verif.Spec Require Import Text Stream Waiting SmtpSpec.
From Verif.Proof Require Import Tac SysP CallsP IoP HostportP StrP FrameP BufferP StrallocP FdioP SmtpIoP SmtpStP SmtpP SmtpReplyP SmtpCmdP SmtpTalkP SmtpPolicyP.
From Verif.Spec Require Import SmtpSpec.

Section Run.
Variable fuel : nat.
Variable c : cfg.
Variable g : setting.
Hypothesis SU : setup c g.
Lemma failed_g : forall tr, failed (crw c) tr -> failed (patience g) tr.
Proof. intros tr. destruct SU as ((_ & ->) & _). auto. Qed.
Local Hint Resolve failed_g : core.

(** ** DATA *)
Lemma code_354 : forall h, bytes h -> (3 <= length h)%nat -> (u64 (code h) =? 354) = (code h =? 354).
Proof.
  intros [|a [|b [|d h]]] B L; cbn [length] in L; try lia. cbn [code].
  apply Forall_cons_iff in B as [Ba B]. apply Forall_cons_iff in B as [Bb B]. apply Forall_cons_iff in B as [Bd B]. unfold is_byte in *.
  unfold u64, two64. set (z := 100 * (a - 48) + 10 * (b - 48) + (d - 48)).
  assert (-5328 <= z <= 30000) by (unfold z; lia). destruct (Z.eqb_spec z 354) as [->|NE]; [reflexivity|]. apply Z.eqb_neq. intros Q.
  destruct (Z.ltb_spec z 0).
  - rewrite <- (Z.mod_add z 1) in Q by lia. rewrite Z.mod_small in Q by lia. lia.
  - rewrite Z.mod_small in Q by lia. lia.
Qed.

Definition bodyend (P : plan) : Prop := P = Give [] (Reply (fun h d t => Tell (shown (tag g (h ++ d :: t))) (Loop env0))).

Lemma sim_data_loop : forall f s v e, W g s v e -> sim g (data_loop fuel c f) s v (Body e) (fun _ s' v' P' => bodyend P' /\ W g s' v' e).
Proof.
  induction f as [|f IH]; intros s v e H; cbn [data_loop].
  { intros tr o [-> ->] F. exists [], [], [], v, (Body e). split; auto. split; [constructor|]. split; [constructor|]. apply partial_nil. }
  eapply sim_bind; [apply (sim_hear fuel c g SU (Body e) (body g e)) with (e := e); [exact H|constructor; auto|constructor; auto|intros; cbn [partial]; auto]|].
  cbn beta. intros _ s1 v1 P1 (x & -> & BX & LX & NX & H1 & C1 & (p & E1 & Z1)).
  eapply sim_sbind; [apply still_the with (Q := fun a s' => a = sa s1 Line /\ s' = s1); auto|]. intros a s2 [-> ->].
  eapply sim_sbind; [eapply still_ptr with (Q := fun q s' => q = p /\ s' = s1); eauto|]. intros a s2 [-> ->].
  unfold body. pose proof (norm_nonul x BX) as NN.
  eapply sim_bind; [rewrite <- (shown_nonul (norm x)) at 1 by auto; eapply (sim_queue fuel c g SU p (norm x)); eauto|].
  cbn beta. intros _ s2 v2 P2 (-> & H2 & A2). assert (C2 : content (sa s2 Line) = norm x) by (rewrite A2; auto).
  eapply sim_sbind; [eapply still_strip; [apply H2|exact C2]|]. cbn beta. intros _ s3 N3. apply (W_now g) with (v := v2) (e := e) in N3 as H3; auto; [|left; auto]. destruct N3 as (_ & _ & C3).
  eapply sim_sbind; [eapply still_strip; [apply H3|exact C3]|]. cbn beta. intros _ s4 N4. apply (W_now g) with (v := v2) (e := e) in N4 as H4; auto; [|left; auto]. destruct N4 as (_ & I4 & C4).
  unfold LF, CR in C4. rewrite norm_chop in C4.
  eapply sim_sbind; [apply still_the with (Q := fun a s' => a = sa s4 Line /\ s' = s4); auto|]. intros a s5 [-> ->].
  set (z := chop 13 (map (fun b => if b =? 0 then 10 else b) x)) in *.
  assert (SL : slen (sa s4 Line) = len z) by (rewrite <- content_len by auto; congruence).
  eapply sim_sbind with (Q := fun b s' => b = dotted x /\ s' = s4).
  - rewrite SL. unfold dotted. fold z. destruct z as [|b [|b2 z']] eqn:EZ.
    + change (len (@nil Z) =? 1) with false. apply still_ret. auto.
    + change (len [b] =? 1) with true. eapply still_bind; [eapply (still_at Line 0); [exact I4|exact C4|lia|reflexivity]|]. cbn beta. intros a s5 [-> ->]. apply still_ret. auto.
    + rewrite !len_cons. pose proof (len_nonneg _ z'). destruct (Z.eqb_spec (len z' + 1 + 1) 1); [lia|]. apply still_ret. auto.
  - cbn beta. intros b s5 [-> ->]. destruct (dotted x).
    + apply sim_ret. split; [reflexivity|auto].
    + apply IH. auto.
Qed.

Lemma sim_data : forall s v e y, W g s v e -> LN s y -> nonul y ->
  sim g (smtp_data fuel c) s v (pass g y (fun h => if code h =? 354 then Body e else Loop e)) (fun _ s' v' P' => next_loop g s' v' P').
Proof.
  intros s v e y H [C Z] N. unfold smtp_data, pass. set (k := fun h => if code h =? 354 then Body e else Loop e).
  eapply sim_bind; [pose proof (sim_give_of fuel c g SU Line y s v e (Reply (fun h d t => Tell (shown (tag g (h ++ d :: t))) (k h))) H Z) as Q; rewrite shown_nonul in Q by auto; exact Q|].
  cbn beta. intros _ s1 v1 P1 (-> & H1 & A1).
  eapply sim_bind; [apply (sim_reply fuel c g SU false true) with (e := e); [exact H1|discriminate]|].
  cbn beta. intros cd s2 v2 P2 (h & d & t & -> & BH & RP & L3 & -> & H2 & K2 & Z2 & _). cbn [plain andb] in Z2.
  eapply sim_bind; [eapply sim_tell_of with (f := Cline); [exact SU|exact H2|exact Z2]|].
  cbn beta. intros _ s3 v3 P3 (-> & H3 & A3). unfold k. rewrite code_354 by auto.
  destruct (zterm_mail g _ _ _ H3) as [m3 M3]. destruct (zterm_data g _ _ _ H3) as [r3 R3].
  destruct (code h =? 354); cbn [negb].
  - eapply sim_bind; [apply sim_data_loop with (e := e); auto|]. cbn beta. intros _ s4 v4 P4 (-> & H4).
    eapply sim_bind; [apply (sim_flush fuel c g SU) with (e := e); auto|]. cbn beta. intros _ s5 v5 P5 (-> & H5 & A5).
    eapply sim_bind; [apply (sim_reply fuel c g SU false true) with (e := e); [exact H5|discriminate]|].
    cbn beta. intros cd s6 v6 P6 (h6 & d6 & t6 & -> & BH6 & RP6 & L6 & -> & H6 & K6 & Z6 & _). cbn [plain andb] in Z6.
    eapply sim_bind; [eapply sim_tell_of with (f := Cline); [exact SU|exact H6|exact Z6]|].
    cbn beta. intros _ s7 v7 P7 (-> & H7 & A7).
    destruct (zterm_mail g _ _ _ H7) as [m7 M7]. destruct (zterm_data g _ _ _ H7) as [r7 R7].
    eapply sim_sbind; [eapply still_logs; rewrite A7; exact Z6|]. intros _ s8 ->. eapply sim_sbind; [eapply still_logs; eauto|]. intros _ s8 ->. eapply sim_sbind; [eapply still_logs; eauto|]. intros _ s8 ->.
    eapply sim_weak; [apply sim_still; eapply (still_reset g); eauto|]. cbn beta. intros _ s8 v8 P8 ([H8 _] & -> & ->). exists env0. auto.
  - eapply sim_sbind; [eapply still_logs; rewrite A3, (K2 Line), A1 by discriminate; exact Z|]. intros _ s4 ->.
    eapply sim_sbind; [eapply still_logs; rewrite A3; exact Z2|]. intros _ s4 ->. eapply sim_sbind; [eapply still_logs; eauto|]. intros _ s4 ->.
    eapply sim_weak; [eapply sim_logs; eauto|]. cbn beta. intros _ s4 v4 P4 (-> & -> & ->). exists e. auto.
Qed.

(** ** STARTTLS *)
Lemma sim_raise : forall B (k : ans -> M B) s v p Q, (forall a, sim g (k a) s v p Q) ->
  sim g (mbind (raise5 fuel c) (fun _ => mbind (msys (Close 5)) k)) s v (Raise p) Q.
Proof.
  intros B k s v p Q K tr o R F. unfold mbind at 1, raise5 in R.
  assert (PF : forall tr o, runs (oputflush fuel (write_ fuel c) (mkbuf [] 0 0 5) [0] 1) tr o -> fine tr ->
    Forall (wr 5) (core tr) /\ match o with Wrong => False | Cut => is_prefix (sent 5 tr) [0] | Fin (Exit y) => y = 111 /\ failed (crw c) tr /\ is_prefix (sent 5 tr) [0]
      | Fin (Go _) => sent 5 tr = [0] end).
  { intros tr0 o0 R0 F0. destruct (oputflush_ok fuel c _ _ (write_spec fuel c (T c g SU)) (mkbuf [] 0 0 5) [0] [] _ _ R0 F0) as [[Y1 Y2] Y3]; [unfold winv; cbn [bp bn bx]; rewrite len_nil; lia|unfold fdok; cbn [bfd]; lia|].
    cbn [bfd] in *. change (pending (mkbuf [] 0 0 5) ++ [0]) with [0] in Y2. split; auto. destruct o0 as [[[[|er] b]|y]| |]; auto.
    - destruct Y2 as (Y2 & _). rewrite pending_0, app_nil_r in Y2 by (apply Y3; reflexivity). auto.
    - destruct Y2. discriminate. }
  apply runs_obind in R as [([s1 q] & t1 & t2 & -> & R1 & R2)|[(y & R1 & ->)|[[R1 ->]|[R1 ->]]]];
    (apply runs_obind in R1 as [([r b] & u1 & u2 & X & Q1 & Q2)|[(y' & Q1 & X)|[[Q1 X]|[Q1 X]]]]; try discriminate X; [..]).
  - subst t1. destruct Q2 as [-> Q2]. injection Q2 as -> ->. rewrite app_nil_r in *. apply fine_app in F as [F1 F2]. destruct (PF _ _ Q1 F1) as [Y1 Y2].
    unfold mbind, msys in R2. cbn [obind pbind sys1] in R2. destruct R2 as [[-> ->]|(a & t & -> & R2)].
    + exists [], (core u1), [], v, (Raise p). rewrite app_nil_r. split; auto. split; [constructor|]. split; [constructor|]. cbn [partial]. rewrite sent_core, Y2. split; auto. exists []. reflexivity.
    + cbn [pbind] in R2. apply (fine_app [_]) in F2 as [_ F2]. destruct (K a _ _ R2 F2) as (w1 & w2 & l & v' & P' & C & S & FO & E).
      exists (core u1 ++ [(Close 5, a)] ++ w1), w2, (ARaise :: l), v', P'. split.
      { rewrite core_app. change (core ((Close 5, a) :: t)) with ([(Close 5, a)] ++ core t). rewrite C, !app_assoc. reflexivity. }
      split. { rewrite app_assoc. econstructor; [|exact S]. cbn [does]. split; auto. exists (core u1), a. rewrite sent_core. auto. }
      split. { econstructor; [constructor|exact FO]. }
      destruct o as [[[s' x]|x]| |]; auto. apply ended_app. apply (ended_app g _ _ _ [_]). auto.
  - destruct Q2 as [_ Q2]. discriminate.
  - injection X as ->. destruct (PF _ _ Q1 F) as (Y1 & -> & Y2 & Y3). exists [], (core tr), [], v, (Raise p). split; auto. split; [constructor|]. split; [constructor|].
    right. right. split; auto. split; auto. cbn [partial]. rewrite sent_core. auto.
  - destruct Q2 as [_ Q2]. discriminate.
  - destruct (PF _ _ Q1 F) as (Y1 & []).
  - destruct Q2 as [_ Q2]. discriminate.
  - destruct (PF _ _ Q1 F) as (Y1 & Y2). exists [], (core tr), [], v, (Raise p). split; auto. split; [constructor|]. split; [constructor|]. cbn [partial]. rewrite sent_core. auto.
Qed.

Lemma discard_loop_ok : forall f s tr o, runs (discard_loop f s) tr o -> fine tr ->
  core tr = tr /\
  match o with
  | Wrong => False
  | Cut => Forall (rd 0) tr
  | Fin (Exit y) => y = 111 /\ failed (crw c) tr /\ Forall (rd 0) tr
  | Fin (Go (s', _)) => s' = s /\ exists w n a, tr = w ++ [(Read 0 n, a)] /\ Forall (rd 0) w /\ 0 < n /\ (ret a = 0 \/ (ret a = -1 /\ err a = EAGAIN))
  end.
Proof.
  induction f as [|f IH]; intros s tr o R F; cbn [discard_loop] in R.
  { destruct R as [-> ->]. split; [reflexivity|constructor]. }
  unfold mbind, msys in R. cbn [obind pbind sys1] in R. destruct R as [[-> ->]|(a & t & -> & R)]; [split; [reflexivity|constructor]|]. cbn [pbind] in R.
  change (core ((Read 0 256, a) :: t)) with ((Read 0 256, a) :: core t).
  pose proof F as F'. apply (fine_app [_]) in F' as [F1 F2]. destruct F1 as [F1 _]. apply legal_cons in F1 as [A _]. cbn [sys_ok] in A.
  assert (RD : rd 0 (Read 0 256, a)) by (exists 256, a; auto).
  assert (AG : runs (discard_loop f s) t o -> (Read 0 256, a) :: core t = (Read 0 256, a) :: t /\
    match o with Wrong => False | Cut => Forall (rd 0) ((Read 0 256, a) :: t) | Fin (Exit y) => y = 111 /\ failed (crw c) ((Read 0 256, a) :: t) /\ Forall (rd 0) ((Read 0 256, a) :: t)
    | Fin (Go (s', _)) => s' = s /\ exists w n a0, (Read 0 256, a) :: t = w ++ [(Read 0 n, a0)] /\ Forall (rd 0) w /\ 0 < n /\ (ret a0 = 0 \/ (ret a0 = -1 /\ err a0 = EAGAIN)) end).
  { intros R'. destruct (IH _ _ _ R' F2) as [-> I2]. split; auto. destruct o as [[[s' q]|y]| |]; auto.
    - destruct I2 as (-> & w & n & b & -> & I3 & I4). split; auto. exists ((Read 0 256, a) :: w), n, b. split; [reflexivity|]. split; auto.
    - destruct I2 as (-> & I2 & I3). split; auto. split; auto. apply (failed_app [_]). auto. }
  destruct (Z.ltb_spec 0 (ret a)) as [P|P]; [auto|].
  destruct (Z.eqb_spec (ret a) 0) as [E|E].
  { destruct R as [-> ->]. split; [reflexivity|]. split; auto. exists [], 256, a. split; [reflexivity|]. split; [constructor|]. split; [lia|auto]. }
  destruct (Z.eqb_spec (err a) EINTR) as [E2|E2]; [auto|].
  destruct (Z.eqb_spec (err a) EAGAIN) as [E3|E3].
  { destruct R as [-> ->]. split; [reflexivity|]. split; auto. exists [], 256, a. split; [reflexivity|]. split; [constructor|]. split; [lia|]. right. split; [lia|auto]. }
  destruct R as [-> ->]. split; [reflexivity|]. split; auto. split; [|constructor; auto]. exists [], (Read 0 256, a). split; [reflexivity|]. cbn. lia.
Qed.

Lemma sim_discard : forall s v e p, W g s v e ->
  sim g (discard_starttls_cleartext fuel) s v (Drain p) (fun _ s' v' P' => P' = p /\ W g s' v' e /\ sa s' = sa s).
Proof.
  intros s v e p H. unfold discard_starttls_cleartext.
  set (s1 := setbf SSin (buffer_init 0 (bx (bf s SSin)) 8192) s). set (v1 := mkview [] (ku v) (kp v)).
  assert (H1 : W g s1 v1 e).
  { pose proof H as ((B & BO & BK & BC) & S & E). split; auto. unfold bufs, s1, v1. cbn [bf setbf beqb cu ku kp]. destruct B as ((R1 & R2 & R3 & R4) & B2 & B3 & B4).
    split; [|auto]. split; [unfold rinv, buffer_init; change (8192 <? 0) with false; cbn [bp bn bx]; lia|]. split; auto. split; [reflexivity|constructor]. }
  eapply sim_sbind with (Q := fun _ s' => s' = s1); [apply still_set; reflexivity|]. intros _ s2 ->.
  intros tr o R F. unfold mbind, msys in R. cbn [obind pbind sys1] in R.
  set (part := fun t => exists t1 t2 l v' P', t = t1 ++ t2 /\ story g v t1 l v' /\ follows g (Drain p) l P' /\ partial g P' v' t2).
  assert (PT : forall t, Forall (fun e => rd 0 e \/ svc (bs "fd_blocking_disable") [0] e \/ svc (bs "fd_blocking_enable") [0] e) t -> part t).
  { intros t H2. exists [], t, [], v, (Drain p). split; auto. split; [constructor|]. split; [constructor|]. exact H2. }
  destruct R as [[-> ->]|(a & t & -> & R)]; [apply (PT []); constructor|]. cbn [pbind] in R.
  change (core ((Other (bs "fd_blocking_disable") [0] [], a) :: t)) with ((Other (bs "fd_blocking_disable") [0] [], a) :: core t).
  assert (S1 : svc (bs "fd_blocking_disable") [0] (Other (bs "fd_blocking_disable") [0] [], a)) by (eexists; reflexivity).
  apply (fine_app [_]) in F as [_ F]. 
  apply runs_obind in R as [([s2 q] & t1 & t2 & -> & R1 & R2)|[(y & R1 & ->)|[[R1 ->]|[R1 ->]]]].
  - apply fine_app in F as [F1 F2]. destruct (discard_loop_ok _ _ _ _ R1 F1) as (C1 & -> & w & n & b & -> & D1 & D2 & D3). cbn [obind pbind sys1] in R2.
    destruct R2 as [[-> ->]|(b2 & t' & -> & R2)].
    + rewrite app_nil_r, C1. apply PT. constructor; [auto|]. apply Forall_app. split; [eapply Forall_impl; [|exact D1]; auto|]. constructor; [|constructor]. left. exists n, b. auto.
    + cbn [pbind obind] in R2. destruct R2 as [-> ->]. rewrite core_app, C1.
      eexists _, [], [ADrain], v1, p. rewrite app_nil_r. split; [reflexivity|]. split; [apply story1; cbn [does]|].
      { split; [|auto]. exists (Other (bs "fd_blocking_disable") [0] [], a), w, (Other (bs "fd_blocking_enable") [0] [], b2), n, b.
        split; [rewrite <- app_assoc; reflexivity|]. split; auto. split; auto. split; auto. split; auto. eexists. reflexivity. }
      split; [apply follows1; constructor|]. auto.
  - destruct (discard_loop_ok _ _ _ _ R1 F) as (C1 & -> & D1 & D2). rewrite C1. eexists [], _, [], v, (Drain p). split; [reflexivity|]. split; [constructor|]. split; [constructor|].
    right. right. split; auto. split; [apply (failed_app [_]); auto|]. cbn [partial]. constructor; [auto|]. eapply Forall_impl; [|exact D2]; auto.
  - destruct (discard_loop_ok _ _ _ _ R1 F) as (C1 & []).
  - destruct (discard_loop_ok _ _ _ _ R1 F) as (C1 & D2). rewrite C1. apply PT. constructor; [auto|]. eapply Forall_impl; [|exact D2]; auto.
Qed.

Lemma sim_wait : forall B (k : ans -> M B) s v p Q, (forall a, sim g (k a) s v p Q) ->
  sim g (mbind (wait6 fuel c) (fun ok => if negb ok then mdie 111 else mbind (msys (Close 6)) k)) s v (Ack p) Q.
Proof.
  intros B k s v p Q K tr o R F. unfold mbind at 1, wait6 in R.
  assert (GE : forall tr o, runs (oget fuel (read_ fuel c) (mkbuf [] 0 0 6) 1) tr o -> fine tr ->
    Forall (rd 6) (core tr) /\ match o with Wrong => False | Cut => True | Fin (Exit y) => y = 111 /\ failed (crw c) tr
      | Fin (Go (r, _, b, _)) => exists x, r = 1 /\ b = [x] /\ got 6 tr = [x] end).
  { intros tr0 o0 R0 F0. unfold oget in R0. cbn [bp bn bfd] in R0. change (1 <? 0) with false in R0. change (0 <? 0) with false in R0. change (0 <=? 1) with true in R0. cbn iota in R0.
    apply runs_obind in R0 as [([[r e] b] & t1 & t2 & -> & R1 & R2)|[(y & R1 & ->)|[[R1 ->]|[R1 ->]]]].
    - apply fine_app in F0 as [F1 F2]. destruct (ooneread_ok c _ _ (read_spec fuel c (T c g SU)) _ _ _ _ _ _ R1 F1) as (O1 & O2 & O3 & O4 & O5 & O6); [lia|unfold fdok; lia|].
      destruct R2 as [-> ->]. rewrite app_nil_r. split; auto. specialize (O6 eq_refl). destruct b as [|x [|x2 b]]; [rewrite len_nil in O3; lia| |rewrite !len_cons in O3; pose proof (len_nonneg _ b); lia].
      exists x. split; [lia|]. auto.
    - destruct (ooneread_ok c _ _ (read_spec fuel c (T c g SU)) _ _ _ _ _ _ R1 F0) as (O1 & O2 & O3 & _); [lia|unfold fdok; lia|]. auto.
    - destruct (ooneread_ok c _ _ (read_spec fuel c (T c g SU)) _ _ _ _ _ _ R1 F0) as (O1 & []); [lia|unfold fdok; lia].
    - destruct (ooneread_ok c _ _ (read_spec fuel c (T c g SU)) _ _ _ _ _ _ R1 F0) as (O1 & _); [lia|unfold fdok; lia|]. auto. }
  apply runs_obind in R as [([s1 q] & t1 & t2 & -> & R1 & R2)|[(y & R1 & ->)|[[R1 ->]|[R1 ->]]]];
    (apply runs_obind in R1 as [([[[r e] b] b'] & u1 & u2 & X & Q1 & Q2)|[(y' & Q1 & X)|[[Q1 X]|[Q1 X]]]]; try discriminate X; [..]).
  - subst t1. destruct Q2 as [-> Q2]. injection Q2 as -> ->. rewrite app_nil_r in *. apply fine_app in F as [F1 F2]. destruct (GE _ _ Q1 F1) as (Y1 & x & -> & -> & Y2).
    change (1 =? 1) with true in R2. cbn [andb] in R2. destruct (Z.eqb_spec x 0) as [->|NZ]; cbn [negb] in R2.
    + unfold mbind, msys in R2. cbn [obind pbind sys1] in R2. destruct R2 as [[-> ->]|(a & t & -> & R2)].
      * exists [], (core u1), [], v, (Ack p). rewrite app_nil_r. split; auto. split; [constructor|]. split; [constructor|]. auto.
      * cbn [pbind] in R2. apply (fine_app [_]) in F2 as [_ F2]. destruct (K a _ _ R2 F2) as (w1 & w2 & l & v' & P' & C & S & FO & E).
        exists (core u1 ++ [(Close 6, a)] ++ w1), w2, (AAck 0 :: l), v', P'. split.
        { rewrite core_app. change (core ((Close 6, a) :: t)) with ([(Close 6, a)] ++ core t). rewrite C, !app_assoc. reflexivity. }
        split. { rewrite app_assoc. econstructor; [|exact S]. cbn [does]. split; auto. exists (core u1). rewrite got_core. split; auto. split; auto. change (0 =? 0) with true. cbn iota. exists a. auto. }
        split. { econstructor; [constructor|exact FO]. }
        destruct o as [[[s' x]|x]| |]; auto. apply ended_app. apply (ended_app g _ _ _ [_]). auto.
    + destruct R2 as [-> ->]. rewrite app_nil_r. exists (core u1), [], [AAck x], v, Die. rewrite app_nil_r. split; auto.
      split; [apply story1; cbn [does]; split; auto; exists (core u1); rewrite got_core; split; auto; split; auto; destruct (Z.eqb_spec x 0); [congruence|auto]|].
      split; [apply follows1; constructor; auto|]. left. auto.
  - destruct Q2 as [_ Q2]. discriminate.
  - injection X as ->. destruct (GE _ _ Q1 F) as (Y1 & -> & Y2). exists [], (core tr), [], v, (Ack p). split; auto. split; [constructor|]. split; [constructor|].
    right. right. auto.
  - destruct Q2 as [_ Q2]. discriminate.
  - destruct (GE _ _ Q1 F) as (Y1 & []).
  - destruct Q2 as [_ Q2]. discriminate.
  - destruct (GE _ _ Q1 F) as (Y1 & Y2). exists [], (core tr), [], v, (Ack p). split; auto. split; [constructor|]. split; [constructor|]. auto.
Qed.

Lemma sim_starttls : forall s v e y, W g s v e -> LN s y ->
  sim g (smtp_starttls fuel c) s v (Probe (fun r =>
      if r then
        Tell (message g (bs "220 ready to start TLS (#2.0.0)"))
          (Raise (Drain (Ack (Give (bs "RSET" ++ [13; 10]) (Reply (fun _ _ _ => Loop env0))))))
      else Tell (message g (bs "502 unimplemented (#5.5.1)")) (Loop e))) (fun _ s' v' P' => next_loop g s' v' P').
Proof.
  intros s v e y H L. unfold smtp_starttls.
  eapply sim_bind; [apply (sim_probe c g SU)|]. cbn beta. intros r s1 v1 P1 (-> & -> & ->). destruct r; cbn [negb].
  - eapply sim_bind; [eapply (sim_say fuel c g SU); [exact H|cbn; nn|unfold len; cbn; lia]|]. cbn beta. intros _ s1 v1 P1 (-> & H1 & K1 & Z1).
    assert (L1 : LN s1 y) by (apply (LN_eq s); auto; apply K1; discriminate). destruct L1 as [_ L1].
    apply sim_raise. intros _.
    eapply sim_sbind; [eapply still_logs; exact L1|]. intros _ s2 ->. eapply sim_sbind; [eapply still_logs; exact Z1|]. intros _ s2 ->.
    eapply sim_bind; [apply sim_discard; exact H1|]. cbn beta. intros _ s2 v2 P2 (-> & H2 & _).
    apply sim_wait. intros _.
    eapply sim_bind; [apply (sim_give fuel c g SU (bs "RSET" ++ [13; 10; 0]) (bs "RSET" ++ [13; 10])); [exact H2|exists []; reflexivity]|]. cbn beta. intros _ s3 v3 P3 (-> & H3 & _).
    eapply sim_bind; [apply (sim_reply fuel c g SU false true) with (e := e); [exact H3|discriminate]|].
    cbn beta. intros cd s6 v6 P6 (h6 & d6 & t6 & -> & BH6 & RP6 & L6 & -> & H6 & K6 & Z6 & _).
    eapply sim_weak; [apply sim_still; eapply (still_reset g); eauto|]. cbn beta. intros _ s8 v8 P8 ([H8 _] & -> & ->). exists env0. auto.
  - eapply sim_bind; [eapply (sim_say fuel c g SU); [exact H|cbn; nn|unfold len; cbn; lia]|]. cbn beta. intros _ s1 v1 P1 (-> & H1 & K1 & Z1).
    assert (L1 : LN s1 y) by (apply (LN_eq s); auto; apply K1; discriminate). destruct L1 as [_ L1].
    eapply sim_sbind; [eapply still_logs; exact L1|]. intros _ s2 ->. 
    eapply sim_weak; [eapply sim_logs; eauto|]. cbn beta. intros _ s4 v4 P4 (-> & -> & ->). exists e. auto.
Qed.

(** ** Dispatch *)
Definition handler (k : kind) : M unit :=
  match k with
  | Kquit => smtp_quit fuel c | Kdata => smtp_data fuel c | Kmail => smtp_mail fuel c | Krcpt => smtp_rcpt fuel c
  | Kehlo => smtp_ehlo fuel c | Kstarttls => smtp_starttls fuel c | Kother => smtp_default fuel c
  end.
Lemma find_ok : forall y rest, nonul y -> find_command fuel c (y ++ rest) (len (verb y)) (smtpcommands fuel c) = Ok (handler (kindof y)).
Proof.
  intros y rest N. destruct (until_app (fun b => (b =? 32) || (b =? 13) || (b =? 10)) y) as [r E]. fold (verb y) in E.
  assert (NV : nonul (verb y)) by (apply until_Forall; auto).
  assert (CD : forall v, nonul v -> exists d, case_diffb (y ++ rest) (len (verb y)) (v ++ [0]) = Ok d /\ (d =? 0) = beginsb (verb y) v).
  { intros v NW. unfold case_diffb, len. rewrite Nat2Z.id. replace (y ++ rest) with (verb y ++ r ++ rest) by (rewrite app_assoc, <- E; reflexivity). apply diffb_ok; auto. apply nonul_bytes; auto. }
  unfold smtpcommands, kindof. cbn [find_command].
  destruct (CD (bs "quit")) as (d1 & -> & D1); [cbn; nn|]. destruct (CD (bs "data")) as (d2 & -> & D2); [cbn; nn|]. destruct (CD (bs "mail")) as (d3 & -> & D3); [cbn; nn|].
  destruct (CD (bs "rcpt")) as (d4 & -> & D4); [cbn; nn|]. destruct (CD (bs "ehlo")) as (d5 & -> & D5); [cbn; nn|]. destruct (CD (bs "starttls")) as (d6 & -> & D6); [cbn; nn|].
  cbn [bind]. rewrite D1, D2, D3, D4, D5, D6.
  destruct (beginsb (verb y) (bs "quit")); [reflexivity|]. destruct (beginsb (verb y) (bs "data")); [reflexivity|]. destruct (beginsb (verb y) (bs "mail")); [reflexivity|].
  destruct (beginsb (verb y) (bs "rcpt")); [reflexivity|]. destruct (beginsb (verb y) (bs "ehlo")); [reflexivity|]. destruct (beginsb (verb y) (bs "starttls")); reflexivity.
Qed.

Lemma norm_end : forall x, exists z, norm x = z ++ [10].
Proof. intros x. unfold norm. eexists (_ ++ [13]). rewrite <- app_assoc. reflexivity. Qed.

Lemma sim_commands : forall f s v e (Q : unit -> st -> view -> plan -> Prop), W g s v e -> sim g (commands fuel c f) s v (Loop e) Q.
Proof.
  induction f as [|f IH]; intros s v e Q H; cbn [commands].
  { intros tr o [-> ->] F. exists [], [], [], v, (Loop e). split; auto. split; [constructor|]. split; [constructor|]. apply partial_nil. }
  eapply sim_bind; [apply (sim_hear fuel c g SU (Loop e) (command g e)) with (e := e); [exact H|constructor; auto|constructor; auto|intros; cbn [partial]; auto]|].
  cbn beta. intros _ s1 v1 P1 (x & -> & BX & LX & NX & H1 & C1 & Z1).
  eapply sim_sbind; [apply still_the with (Q := fun a s' => a = sa s1 Line /\ s' = s1); auto|]. intros a s2 [-> ->].
  pose proof H1 as (_ & S1 & _).
  destruct (content_mem _ _ (S1 Line) C1) as [rest E1]; [unfold norm; destruct (chop 13 _); discriminate|].
  eapply sim_sbind; [eapply still_ptr with (Q := fun q s' => q = _ /\ s' = s1); [exact E1|auto]|]. intros a s2 [-> ->].
  assert (SL : slen (sa s1 Line) = len (norm x)) by (rewrite <- content_len by auto; congruence). rewrite SL.
  pose proof (verb_len_ok (norm x) [] rest (Z.to_nat (len (norm x))) (len (norm x))) as VL. cbn [app] in VL. change (len (@nil Z)) with 0 in VL. rewrite !Z.add_0_l in VL.
  eapply sim_sbind; [eapply still_lift with (Q := fun a s' => a = len (verb (norm x)) /\ s' = s1); [apply VL; [reflexivity|unfold len; lia]|auto]|]. intros a s2 [-> ->].
  pose proof (norm_nonul x BX) as NN. pose proof (norm_len x LX) as NL. pose proof (norm_end x) as NE.
  eapply sim_sbind; [eapply still_lift with (Q := fun a s' => a = handler (kindof (norm x)) /\ s' = s1); [apply find_ok; auto|auto]|]. intros a s2 [-> ->].
  assert (L : LN s1 (norm x)) by (split; auto).
  assert (HD : sim g (handler (kindof (norm x))) s1 v1 (command g e x) (fun _ s' v' P' => next_loop g s' v' P')).
  { unfold command. destruct (kindof (norm x)); cbn [handler].
    - eapply sim_quit; eauto.
    - eapply sim_data; eauto.
    - eapply sim_mail; eauto. lia.
    - eapply sim_rcpt; eauto. lia.
    - eapply sim_ehlo; eauto.
    - eapply sim_starttls; eauto.
    - eapply sim_default; eauto. }
  eapply sim_bind; [exact HD|]. cbn beta. intros _ s3 v3 P3 (e3 & -> & H3). apply IH. auto.
Qed.

(** ** The session *)
Lemma init_bufs : bufs g (st0 c) view0 /\ strs (st0 c).
Proof.
  destruct SU as (_ & _ & _ & _ & _ & _ & _ & (FE & _) & (TE & _)).
  assert (LR : forall n, 0 <= n -> len (repeat 0 (Z.to_nat n)) = n) by (intros n P; unfold len; rewrite repeat_length; lia).
  split; [|intros f; split; cbn; lia].
  pose proof (LR 8192 ltac:(lia)) as LA. pose proof (LR 128 ltac:(lia)) as LB. clear LR.
  assert (GEN : forall m8 m1, len m8 = 8192 -> len m1 = 128 -> bufs g (mkst (fun n => match n with
                 | SSin => buffer_init 0 m8 8192 | SSout => buffer_init 1 m1 128
                 | SScin => buffer_init (fromfd c) m1 128 | SScout => buffer_init (tofd c) m8 8192 end) (fun _ => sa_empty) 0) view0).
  { clear LA LB. intros m8 m1 LA LB. unfold bufs, buffer_init, rinv, winv, window, pending. change (8192 <? 0) with false. change (128 <? 0) with false. cbn [bf cu ku kp view0 bx bp bn bfd]. rewrite LA, LB.
    repeat split; auto; try lia; try constructor. }
  exact (GEN _ _ LA LB).
Qed.

Lemma sim_session : forall Q, sim g (session fuel c) (st0 c) view0 (start g) Q.
Proof.
  intros Q. destruct init_bufs as [B S]. unfold session.
  eapply sim_sbind; [eapply (still_reset_raw g); eauto|]. cbn beta. intros _ s1 [H1 _].
  eapply sim_bind; [apply (sim_greet fuel c g SU s1 view0 env0 (fun _ => Loop env0)); exact H1|]. cbn beta. intros _ s2 v2 P2 (h & -> & H2).
  apply sim_commands. auto.
Qed.

Lemma smtp_conforms : forall tr o, runs (smtp fuel c) tr o -> fine tr ->
  o <> Wrong /\ (forall x, o = Fin x -> conforms g tr (Some x)) /\ (o = Cut -> conforms g tr None).
Proof.
  intros tr o R F. unfold smtp in R.
  apply runs_bind in R as [(r & t1 & t2 & -> & R1 & R2)|[[R1 ->]|[R1 ->]]].
  - apply fine_app in F as [F1 F2]. destruct (sim_session (fun _ _ _ _ => False) _ _ R1 F1) as (w1 & w2 & l & v & P & C & ST & FO & E).
    destruct r as [[s' a]|x]; [tauto|]. destruct R2 as [-> ->]. rewrite app_nil_r. split; [discriminate|]. split; [|discriminate]. intros y [= <-]. exists w1, w2, l, v, P. auto.
  - destruct (sim_session (fun _ _ _ _ => False) _ _ R1 F) as (w1 & w2 & l & v & P & C & ST & FO & []).
  - destruct (sim_session (fun _ _ _ _ => False) _ _ R1 F) as (w1 & w2 & l & v & P & C & ST & FO & E).
    split; [discriminate|]. split; [discriminate|]. intros _. exists w1, w2, l, v, P. auto.
Qed.
End Run.
