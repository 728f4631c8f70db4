(** MAIL, RCPT, DATA, EHLO, STARTTLS, the policy server, the session. *)
From Verif.Model Require Import Base Sys Io Str Buffer Stralloc Fdio Smtp.
From Verif.Spec Require Import Text Stream Waiting SmtpSpec.
From Verif.Proof Require Import Tac SysP CallsP IoP HostportP StrP FrameP BufferP StrallocP FdioP SmtpIoP SmtpStP SmtpP SmtpReplyP SmtpCmdP.
From Verif.Spec Require Import SmtpSpec.

Lemma norm_chop : forall x, chop 13 (chop 10 (norm x)) = chop 13 (map (fun b => if b =? 0 then 10 else b) x).
Proof.
  intros x. unfold norm. set (z := chop 13 (map _ x)). replace (z ++ [13; 10]) with ((z ++ [13]) ++ [10]) by (rewrite <- app_assoc; reflexivity).
  rewrite (chop_snoc 10). change (10 =? 10) with true. cbn iota. rewrite chop_snoc. reflexivity.
Qed.
Lemma nonul_bytes : forall x, nonul x -> bytes x.
Proof. intros x H. eapply Forall_impl; [|exact H]. cbn beta. unfold is_byte. lia. Qed.
Lemma nonul_skipn : forall n x, nonul x -> nonul (skipn n x).
Proof. intros n x H. unfold nonul in *. rewrite <- (firstn_skipn n x) in H. apply Forall_app in H. tauto. Qed.
Lemma until_Forall : forall (P : Z -> Prop) f x, Forall P x -> Forall P (until f x).
Proof. intros P f x H. induction H; cbn [until]; [constructor|]. destruct (f x); constructor; auto. Qed.
Lemma addr_nonul : forall n y, nonul y -> nonul (addr n y).
Proof. intros. apply until_Forall. apply chop_Forall, chop_Forall. apply nonul_skipn. auto. Qed.

Section Run.
Variable fuel : nat.
Variable c : cfg.
Variable g : setting.
Hypothesis SU : setup c g.

(** ** Messages of the front end *)
Lemma sim_say : forall m s v e K, W g s v e -> nonul m -> len m <= 1000 ->
  sim g (say fuel c m) s v (Tell (message g m) K) (fun _ s' v' P' => P' = K /\ W g s' v' e /\ keepc s s' /\ zterm (sa s' Cline) (message g m)).
Proof.
  intros m s v e K H N L. unfold say. pose proof (idtext_len c g SU) as IL.
  eapply sim_sbind; [apply still_setlit; [apply H|exact N|unfold small; lia]|]. cbn beta. intros _ s1 N1. pose proof (keepc_now _ _ _ N1) as K1. apply (W_now g) with (v := v) (e := e) in N1 as H1; auto; [|apply sc_Cline]. destruct N1 as (_ & _ & C1).
  eapply sim_sbind; [apply (still_catlogid c g SU); [apply H1|rewrite C1; lia]|]. cbn beta. intros _ s2 N2. pose proof (keepc_now _ _ _ N2) as K2. apply (W_now g) with (v := v) (e := e) in N2 as H2; auto; [|apply sc_Cline]. destruct N2 as (_ & _ & C2). rewrite C1 in C2.
  assert (L2 : len (content (sa s2 Cline)) <= 1000 + 2 ^ 32 + 3) by (rewrite C2, len_app; lia).
  eapply sim_sbind; [apply still_lit; [apply H2|unfold CR, LF; nn|unfold small; lia|reflexivity]|]. cbn beta. intros _ s3 N3. pose proof (keepc_now _ _ _ N3) as K3. apply (W_now g) with (v := v) (e := e) in N3 as H3; auto; [|apply sc_Cline]. destruct N3 as (_ & _ & C3). rewrite C2 in C3.
  assert (C3' : content (sa s3 Cline) = message g m) by (rewrite C3; unfold message; rewrite <- app_assoc; reflexivity).
  eapply sim_sbind; [apply still_0; [apply H3|unfold small; rewrite C3, len_app, <- C2; change (len [CR; LF]) with 2; lia]|]. cbn beta. intros _ s4 N4. pose proof (keepc_now _ _ _ N4) as K4. apply (W_now g) with (v := v) (e := e) in N4 as H4; auto; [|apply sc_Cline]. destruct N4 as (_ & I4 & C4). rewrite C3' in C4.
  pose proof (zterm_content _ _ I4 C4) as Z4.
  assert (NM : nonul (message g m)).
  { unfold message. apply Forall_app. split; [exact N|]. apply Forall_app. split; [|nn]. unfold idtext. destruct (id_cases c g SU) as [[_ ->]|(q & i & _ & -> & _ & NI & _)]; [constructor|].
    apply Forall_app. split; [cbn; nn|]. apply Forall_app. split; [exact NI|cbn; nn]. }
  pose proof (sim_tell_of fuel c g SU Cline _ s4 v e K H4 Z4) as Q. rewrite (shown_nonul _ NM) in Q. eapply sim_weak; [exact Q|]. cbn beta. intros _ s5 v5 P5 (-> & H5 & A5).
  split; auto. split; auto. split; [|rewrite A5; auto]. intros f Hf. rewrite A5, (K4 f), (K3 f), (K2 f), (K1 f); auto.
Qed.

(** ** Control descriptors *)
Lemma sim_probe : forall k s v, sim g (control_ready c) s v (Probe k) (fun r s' v' P' => P' = k r /\ s' = s /\ v' = v).
Proof.
  intros k s v tr o R F. assert (ST : starttls c = offers g) by (destruct SU as (_ & _ & _ & _ & _ & H & _); exact H).
  unfold control_ready in R. rewrite ST in R. destruct (offers g) eqn:OF.
  2:{ destruct R as [-> ->]. exists [], [], [AProbe false], v, (k false). split; auto. split; [apply (story1 g _ _ []); cbn [does]; auto|]. split; [apply follows1; constructor|]. auto. }
  unfold mbind, msys in R. cbn [obind pbind sys1] in R. destruct R as [[-> ->]|(a & t & -> & R)].
  { exists [], [], [], v, (Probe k). split; auto. split; [constructor|]. split; [constructor|]. constructor. }
  cbn [pbind] in R. destruct (Z.eqb_spec (ret a) 0) as [E|E].
  - cbn [mbind msys obind pbind sys1] in R. destruct R as [[-> ->]|(b & t' & -> & R)].
    { eexists [], _, [], v, (Probe k). split; [reflexivity|]. split; [constructor|]. split; [constructor|]. constructor; [eexists; reflexivity|constructor]. }
    cbn [pbind] in R. destruct R as [-> ->]. eexists [_; _], [], [AProbe (ret b =? 0)], v, (k (ret b =? 0)). split; [reflexivity|]. split.
    { apply story1. cbn [does]. split; auto. right. right. split; auto. exists a, b. auto. }
    split; [apply follows1; constructor|]. auto.
  - destruct R as [-> ->]. eexists [_], [], [AProbe false], v, (k false). split; [reflexivity|]. split.
    { apply story1. cbn [does]. split; auto. right. left. split; auto. exists a. auto. }
    split; [apply follows1; constructor|]. auto.
Qed.

(** ** EHLO *)
Lemma sim_ehlo : forall s v e y, W g s v e -> LN s y -> nonul y ->
  sim g (smtp_ehlo fuel c) s v (Give y (Probe (fun r => Reply (fun h d t =>
      if r && (code h =? 250) then
        if 4096 <? len (h ++ d :: t) + 14 then Die else Tell (shown (advert h d t)) (Loop e)
      else Tell (shown (h ++ d :: t)) (Loop e))))) (fun _ s' v' P' => next_loop g s' v' P').
Proof.
  intros s v e y H [C Z] N. unfold smtp_ehlo.
  set (K := Probe _). eapply sim_bind; [pose proof (sim_give_of fuel c g SU Line y s v e K H Z) as Q; rewrite shown_nonul in Q by auto; exact Q|].
  cbn beta. intros _ s1 v1 P1 (-> & H1 & A1). unfold K. clear K.
  eapply sim_bind; [apply sim_probe|]. cbn beta. intros r s2 v2 P2 (-> & -> & ->).
  set (k := fun h d t => _).
  replace (if r then smtpline fuel c (lit (bs "250 STARTTLS" ++ [CR; LF])) false else smtpline fuel c None false) with (smtpline fuel c (app250 r) false) by (destruct r; reflexivity).
  eapply sim_bind; [apply (sim_reply fuel c g SU r false k s1 v1 e H1)|].
  { intros -> h d t E1 E2. unfold k. rewrite E1. change (250 =? 250) with true. cbn [andb]. destruct (Z.ltb_spec 4096 (len (h ++ d :: t) + 14)); [reflexivity|lia]. }
  cbn beta. intros cd s3 v3 P3 (h & d & t & -> & BH & RP & L3 & -> & H3 & K3 & Z3 & BIG). cbn [plain] in Z3.
  assert (KE : k h d t = Tell (shown (plain g r false h d t)) (Loop e)).
  { unfold k, plain. destruct (r && (code h =? 250)); [|reflexivity]. specialize (BIG eq_refl). destruct (Z.ltb_spec 4096 (len (h ++ d :: t) + 14)); [lia|reflexivity]. }
  rewrite KE. eapply sim_bind; [eapply sim_tell_of with (f := Cline); [exact SU|exact H3|exact Z3]|].
  cbn beta. intros _ s4 v4 P4 (-> & H4 & A4).
  assert (ZL : zterm (sa s4 Line) y) by (rewrite A4, (K3 Line), A1 by discriminate; auto).
  eapply sim_sbind; [eapply still_logs; exact ZL|]. intros _ s5 ->.
  eapply sim_weak; [eapply sim_logs with (f := Cline); rewrite A4; exact Z3|]. cbn beta. intros _ s6 v6 P6 (-> & -> & ->). exists e. auto.
Qed.

(** ** MAIL *)
Lemma W_mail : forall s s' v e a, W g s v e -> now Mailfrom (a ++ [0]) s s' -> nonul a -> len a <= 2048 ->
  W g s' v (mkenv (Some a) (rcpt e) (total e) (count e)).
Proof.
  intros s s' v e a (B & S & E) N NA LA. split; [eapply bufs_eq; [eapply now_bf; eauto|auto]|]. split; [eapply strs_now; eauto|].
  unfold envs in *. cbn [sender rcpt total count]. rewrite (now_other _ _ _ _ Rcptto N), (now_other _ _ _ _ Rcpttodata N), (now_count _ _ _ _ N) by discriminate.
  split; [|tauto]. cbn [holds]. rewrite (now_content _ _ _ _ N). auto.
Qed.
Lemma keyword_short : forall k y, beginsb k y = true -> lower (List.last k 0) <> 10 -> (exists z, y = z ++ [10]) -> len k < len y.
Proof.
  intros k y B L (z & ->). pose proof (beginsb_len _ _ B) as BL. rewrite len_app in *. change (len [10]) with 1 in *. assert (len k <> len z + 1); [|lia]. intros E.
  destruct k as [|a k _] using rev_ind; [rewrite len_nil in E; pose proof (len_nonneg _ z); lia|]. rewrite last_last in L. rewrite len_app in E. change (len [a]) with 1 in E.
  assert (EL : length k = length z) by (unfold len in E; lia). unfold beginsb in B. apply andb_true_iff in B as [_ B].
  replace (combine (k ++ [a]) (z ++ [10])) with (combine k z ++ [(a, 10)]) in B. { rewrite forallb_app in B. cbn [forallb] in B. apply andb_true_iff in B as [_ B]. apply L. change (lower 10) with 10 in B. lia. }
  clear - EL. revert z EL. induction k as [|b k IH]; intros [|d z] EL; cbn [length] in EL; try lia; [reflexivity|]. cbn [app combine]. rewrite <- IH by lia. reflexivity.
Qed.

Lemma sim_addr : forall A f n cut (m : M A) s v P Q y, sinv (sa s Line) -> sinv (sa s f) -> LN s y -> 0 <= n < len y -> small y ->
  (forall x pre rest f l, l = len pre + len x -> (length x <= f)%nat -> cut f (pre ++ x ++ rest) (len pre) l = Ok (len pre + len (until (Z.eqb 32) x))) ->
  (forall s', now f (addr (Z.to_nat n) y) s s' -> sm (sa s' f) <> None -> sim g m s' v P Q) ->
  sim g (mbind (copy_line_from f n) (fun _ => mbind (strip f LF) (fun _ => mbind (strip f CR) (fun _ => mbind (cutlen f cut) (fun _ => m))))) s v P Q.
Proof.
  intros A f n cut m s v P Q y I J L N S CUT H.
  eapply sim_sbind; [apply still_copy_line_from; eauto; lia|]. cbn beta. intros _ s1 N1. pose proof N1 as (_ & I1 & C1).
  assert (SM1 : sm (sa s1 f) <> None).
  { intros E. unfold content in C1. rewrite E in C1. apply (f_equal (@len Z)) in C1. rewrite len_nil in C1. unfold len in *. rewrite skipn_length in C1. lia. }
  eapply sim_sbind; [eapply still_strip_sm; eauto|]. cbn beta. intros _ s2 [N2 E2]. pose proof N2 as (_ & I2 & C2).
  eapply sim_sbind; [eapply still_strip_sm; eauto|]. cbn beta. intros _ s3 [N3 E3]. pose proof N3 as (_ & I3 & C3).
  eapply sim_sbind; [eapply still_cutlen; eauto|]. cbn beta. intros _ s4 [N4 E4]. apply H; [|congruence].
  eapply now_trans; [exact N1|]. eapply now_trans; [exact N2|]. eapply now_trans; [exact N3|]. exact N4.
Qed.
Lemma addr_len : forall n y, len (addr n y) <= len y.
Proof.
  intros n y. unfold addr. pose proof (until_len (Z.eqb 32) (chop 13 (chop 10 (skipn n y)))). pose proof (chop_len 13 (chop 10 (skipn n y))).
  pose proof (chop_len 10 (skipn n y)). pose proof (len_skipn_le n y). lia.
Qed.

Lemma sim_mail : forall s v e y, W g s v e -> LN s y -> nonul y -> len y <= 5000 -> (exists z, y = z ++ [10]) ->
  sim g (smtp_mail fuel c) s v (mail g y) (fun _ s' v' P' => next_loop g s' v' P').
Proof.
  intros s v e y H L N LY CRLF. unfold smtp_mail.
  eapply sim_sbind; [eapply (still_reset g); eauto|]. cbn beta. intros _ s1 [H1 K1].
  assert (L1 : LN s1 y) by (apply (LN_eq s); auto; apply K1; left; auto).
  eapply sim_sbind; [eapply still_line_starts with (y := y); [apply H1|exact L1|apply nonul_bytes; auto|cbn; nn|reflexivity]|]. cbn beta. intros b s2 [-> ->].
  unfold mail. set (P := fun e' : env => pass g y (fun _ => Loop e')).
  eapply sim_bind with (Q := fun _ s' v' P' => exists e', P' = P e' /\ W g s' v' e' /\ LN s' y).
  - destruct (beginsb (bs "mail from:") y) eqn:B.
    + pose proof (beginsb_len _ _ B) as BL. change (len (bs "mail from:")) with 10 in BL. pose proof (keyword_short (bs "mail from:") y B ltac:(cbn; lia) CRLF) as BS. change (len (bs "mail from:")) with 10 in BS.
      apply sim_addr with (y := y); [apply H1|apply H1|exact L1|lia|unfold small; lia|exact cut_all_ok|]. intros s2 N2 SM2. change (Z.to_nat 10) with 10%nat in N2.
      pose proof (addr_nonul 10 y N) as NA. pose proof (addr_len 10 y) as AL. set (a := addr 10 y) in *. cbn zeta.
      eapply sim_sbind; [apply still_the with (Q := fun x s' => x = sa s2 Mailfrom /\ s' = s2); auto|]. intros x s3 [-> ->].
      rewrite (now_slen _ _ _ _ N2). unfold SMTP_MAX_MAILFROM. destruct (Z.ltb_spec 2048 (len a)) as [BIG|BIG]; [apply sim_die|].
      eapply sim_weak; [apply sim_still; apply still_0; [apply N2|rewrite (now_content _ _ _ _ N2); unfold small; lia]|]. cbn beta. intros _ s3 v3 P3 (N3 & -> & ->).
      rewrite (now_content _ _ _ _ N2) in N3. pose proof (now_trans _ _ _ _ _ _ N2 N3) as N4. eexists. split; [reflexivity|]. split; [exact (W_mail _ _ _ _ _ H1 N4 NA BIG)|].
      apply (LN_eq s1); auto. apply (now_other _ _ _ _ _ N4). discriminate.
    + apply sim_ret. exists env0. auto.
  - cbn beta. intros _ s2 v2 P2 (e' & -> & H2 & L2).
    eapply sim_bind; [apply (sim_pass fuel c g SU (fun _ => Loop e')); eauto|]. cbn beta. intros cd s3 v3 P3 (h & -> & _ & _ & _ & H3 & _ & z & Z3).
    destruct (negb (cd =? 250)).
    + destruct (zterm_mail g _ _ _ H3) as [x ZM]. eapply sim_sbind; [eapply still_logs; exact ZM|]. intros _ s4 ->.
      eapply sim_weak; [eapply sim_logs; exact Z3|]. cbn beta. intros _ s5 v5 P5 (-> & -> & ->). exists e'. auto.
    + apply sim_ret. exists e'. auto.
Qed.

(** ** RCPT *)
Lemma still_cat : forall f h s, sinv (sa s f) -> sinv (sa s h) -> sm (sa s h) <> None -> small (content (sa s f)) -> small (content (sa s h)) ->
  still (sado f (fun y => stralloc_cat y (sa s h))) s (fun _ s' => now f (content (sa s f) ++ content (sa s h)) s s').
Proof.
  intros f h s I J N S1 S2. unfold stralloc_cat. destruct (sm (sa s h)) as [m|] eqn:E; [|congruence].
    assert (EM : m = content (sa s h) ++ skipn (Z.to_nat (slen (sa s h))) m) by (unfold content; rewrite E, firstn_skipn; reflexivity).
    pose proof (still_catb f (content (sa s h)) (skipn (Z.to_nat (slen (sa s h))) m) (slen (sa s h)) s I) as H. rewrite <- EM in H.
    apply H; auto. symmetry. apply content_len. auto.
Qed.
Lemma sim_record : forall s v e y K, W g s v e -> LN s y -> nonul y -> len y <= 5000 -> (exists z, y = z ++ [10]) ->
  sim g rcpt_record s v (match rcptenv e y with None => Die | Some e' => K e' end)
    (fun _ s' v' P' => exists e', v' = v /\ P' = K e' /\ W g s' v e' /\ LN s' y).
Proof.
  intros s v e y K H L N LY CRLF. unfold rcpt_record.
  eapply sim_sbind; [eapply still_line_starts with (y := y); [apply H|exact L|apply nonul_bytes; auto|cbn; nn|reflexivity]|]. cbn beta. intros b s2 [-> ->].
  unfold rcptenv. destruct (beginsb (bs "rcpt to:") y) eqn:B; [|apply sim_ret; exists e; auto].
  pose proof (beginsb_len _ _ B) as BL. change (len (bs "rcpt to:")) with 8 in BL. pose proof (keyword_short (bs "rcpt to:") y B ltac:(cbn; lia) CRLF) as BS. change (len (bs "rcpt to:")) with 8 in BS.
  apply sim_addr with (y := y); [apply H|apply H|exact L|lia|unfold small; lia|exact cut_first_ok|]. intros s2 N2 SM2. change (Z.to_nat 8) with 8%nat in N2.
  pose proof (addr_nonul 8 y N) as NA. pose proof (addr_len 8 y) as AL. set (a := addr 8 y) in *. cbn zeta.
  eapply sim_sbind; [apply still_the with (Q := fun x s' => x = sa s2 Rcptto /\ s' = s2); auto|]. intros x s3 [-> ->].
  pose proof H as (B0 & S0 & E0). pose proof E0 as (EM & ER & (ET & EZ) & TT & EC & CC).
  pose proof (strs_now _ _ _ _ N2 S0) as S2.
  rewrite (now_slen _ _ _ _ N2). unfold SMTP_MAX_RCPTTO. destruct (Z.ltb_spec 2048 (len a)) as [BIG|BIG]; [apply sim_die|]. cbn [orb].
  eapply sim_sbind; [apply still_get with (Q := fun x s' => x = s2 /\ s' = s2); auto|]. intros x s3 [-> ->].
  rewrite (now_count _ _ _ _ N2), EC. unfold SMTP_MAX_RCPTS. destruct (Z.leb_spec 256 (count e)) as [BC|BC]; [apply sim_die|]. cbn [orb].
  assert (T2 : slen (sa s2 Rcpttodata) = total e) by (rewrite (now_other _ _ _ _ Rcpttodata N2) by discriminate; auto).
  rewrite T2. unfold SMTP_MAX_RCPTTODATA. destruct (Z.ltb_spec 65536 (total e + len a + 1)) as [BT|BT]; [apply sim_die|].
  assert (LD : len (content (sa s2 Rcpttodata)) = total e) by (rewrite content_len by apply S2; auto).
  eapply sim_sbind; [apply still_cat; [apply S2|apply S2|exact SM2|unfold small; lia|rewrite (now_content _ _ _ _ N2); unfold small; lia]|].
  cbn beta. intros _ s3 N3. rewrite (now_content _ _ _ _ N2) in N3. pose proof (strs_now _ _ _ _ N3 S2) as S3. pose proof (now_slen _ _ _ _ N3) as L3. rewrite len_app, LD in L3.
  assert (C3 : len (content (sa s3 Rcpttodata)) = total e + len a) by (rewrite content_len by apply S3; auto).
  eapply sim_sbind; [apply still_lit; [apply S3|cbn; nn|unfold small; lia|reflexivity]|]. cbn beta. intros _ s4 N4. pose proof (strs_now _ _ _ _ N4 S3) as S4. pose proof (now_slen _ _ _ _ N4) as L4. rewrite len_app, C3 in L4. change (len (bs ",")) with 1 in L4.
  assert (RC4 : content (sa s4 Rcptto) = a) by (rewrite (now_other _ _ _ _ Rcptto N4), (now_other _ _ _ _ Rcptto N3) by discriminate; apply (now_content _ _ _ _ N2)).
  eapply sim_sbind; [apply still_0; [apply S4|rewrite RC4; unfold small; lia]|]. cbn beta. intros _ s5 N5. rewrite RC4 in N5. pose proof (strs_now _ _ _ _ N5 S4) as S5.
  assert (L5 : slen (sa s5 Rcpttodata) = total e + len a + 1) by (rewrite (now_other _ _ _ _ Rcpttodata N5) by discriminate; exact L4).
  assert (C5 : len (content (sa s5 Rcpttodata)) = total e + len a + 1) by (rewrite content_len by apply S5; auto).
  eapply sim_sbind; [apply still_zero; [apply S5|unfold small; lia]|]. cbn beta. intros _ s6 [N6 Z6]. pose proof (strs_now _ _ _ _ N6 S5) as S6. pose proof (now_slen _ _ _ _ N6) as L6. rewrite C5 in L6.
  eapply sim_weak; [apply (sim_still g _ _ s6 v _ (fun _ s' => s' = setcount (u32 (rcptcount s6 + 1)) s6)); apply still_set; reflexivity|]. cbn beta. intros _ s7 v7 P7 (-> & -> & ->).
  assert (OT : forall f, f <> Rcptto -> f <> Rcpttodata -> sa s6 f = sa s f).
  { intros f F1 F2. rewrite (now_other _ _ _ _ f N6), (now_other _ _ _ _ f N5), (now_other _ _ _ _ f N4), (now_other _ _ _ _ f N3), (now_other _ _ _ _ f N2); auto. }
  assert (CN : rcptcount s6 = count e). { rewrite (now_count _ _ _ _ N6), (now_count _ _ _ _ N5), (now_count _ _ _ _ N4), (now_count _ _ _ _ N3), (now_count _ _ _ _ N2). exact EC. }
  eexists. split; auto. split; [reflexivity|]. split; [|apply (LN_eq s); auto; cbn; apply OT; discriminate].
  split; [apply (bufs_eq g s); auto; cbn; rewrite (now_bf _ _ _ _ N6), (now_bf _ _ _ _ N5), (now_bf _ _ _ _ N4), (now_bf _ _ _ _ N3), (now_bf _ _ _ _ N2); auto|]. split; [exact S6|].
  unfold envs. cbn [sender rcpt total count holds setcount sa rcptcount]. rewrite (OT Mailfrom) by discriminate. split; [exact EM|].
  rewrite (now_other _ _ _ _ Rcptto N6) by discriminate. rewrite (now_content _ _ _ _ N5). split; [auto|]. split; [split; [auto|eauto]|]. pose proof (len_nonneg _ a). split; [lia|].
  rewrite CN. unfold u32. rewrite Z.mod_small by lia. split; [reflexivity|lia].
Qed.
End Run.
