(** Replies of the program and the text made of them. *)
From Verif.Model Require Import Base Sys Io Str Buffer Stralloc Fdio Smtp.
From Verif.Spec Require Import Text Stream Waiting SmtpSpec.
From Verif.Proof Require Import Tac SysP CallsP IoP HostportP StrP FrameP BufferP StrallocP FdioP SmtpIoP SmtpStP SmtpP.
From Verif.Spec Require Import SmtpSpec.

Section Run.
Variable fuel : nat.
Variable c : cfg.
Variable g : setting.
Hypothesis SU : setup c g.
Lemma failed_g : forall tr, failed (crw c) tr -> failed (patience g) tr.
Proof. intros tr. destruct SU as ((_ & ->) & _). auto. Qed.
Local Hint Resolve failed_g : core.
Let fd := fromprog g.

(** Inside a reply: [w] are the calls made so far, [x0] the bytes taken. *)
Definition mid {A} (k : list Z -> Z -> list Z -> plan) (v : view) (m : M A) (s : st) (u x0 : list Z) (Q : A -> st -> view -> plan -> Prop) : Prop :=
  forall w tr o, Forall (rd fd) w -> ku v ++ got fd w = x0 ++ u -> runs (m s) tr o -> fine tr ->
  exists t1 t2 l v' P', w ++ core tr = t1 ++ t2 /\ story g v t1 l v' /\ follows g (Reply k) l P' /\
    match o with
    | Wrong => False
    | Cut => partial g P' v' t2
    | Fin (Exit x) => ended g P' v' t2 tr x
    | Fin (Go (s', a)) => t2 = [] /\ Q a s' v' P'
    end.
Lemma mid_start : forall A k v (m : M A) s Q, mid k v m s (ku v) [] Q -> sim g m s v (Reply k) Q.
Proof. intros A k v m s Q H tr o R F. apply (H [] tr o); auto. rewrite app_nil_r. reflexivity. Qed.
Lemma mid_bind : forall A B k v (m : M A) (f : A -> M B) s u x0 Q Q', eat c g m s (mkview (cu v) u (kp v)) x0 Q ->
  (forall a s' u' x1, Q a s' u' x1 -> mid k v (f a) s' u' x1 Q') -> mid k v (mbind m f) s u x0 Q'.
Proof.
  intros A B k v m f s u x0 Q Q' S H w tr o FW EW R F.
  assert (STOP : forall t, Forall (rd fd) t -> partial g (Reply k) v (w ++ t)). { intros t Ht. cbn. apply Forall_app. split; auto. }
  unfold mbind in R. apply runs_obind in R as [([s' a] & t1 & t2 & -> & R1 & R2)|[(y & R1 & ->)|[[R1 ->]|[R1 ->]]]].
  - apply fine_app in F as [F1 F2]. destruct (S _ _ R1 F1) as (S1 & x & u' & E & S2). cbn [ku] in E.
    destruct (H _ _ _ _ S2 (w ++ core t1) t2 o) as (w1 & w2 & l & v' & P' & E' & A1 & A2 & A3); auto.
    { apply Forall_app. auto. }
    { unfold fd in *. rewrite got_app, got_core, app_assoc, EW, <- !app_assoc, E. reflexivity. }
    exists w1, w2, l, v', P'. rewrite core_app, app_assoc. split; auto. split; auto. split; auto. destruct o as [[[s2 b]|y]| |]; auto. apply ended_app. auto.
  - destruct (S _ _ R1 F) as (S1 & -> & [S2|(x & u' & E & L & N)]).
    + exists [], (w ++ core tr), [], v, (Reply k). split; auto. split; [constructor|]. split; [constructor|]. right. right. auto.
    + exists (w ++ core tr), [], [ARFlood (x0 ++ x)], (mkview (cu v) u' (kp v)), Die. rewrite app_nil_r. split; auto. cbn [ku] in E. split.
      * apply story1. cbn [does cu ku kp]. split; [apply Forall_app; auto|]. unfold fd in *. rewrite got_app, got_core, app_assoc, EW, <- !app_assoc, E. auto.
      * split; [apply follows1; constructor; auto|]. left. auto.
  - destruct (S _ _ R1 F) as (S1 & []).
  - destruct (S _ _ R1 F) as (S1 & _). exists [], (w ++ core tr), [], v, (Reply k). split; auto. split; [constructor|]. split; [constructor|]. auto.
Qed.
Lemma mid_end : forall A k v (m : M A) s u h d t Q, reply h d t -> len (h ++ d :: t) <= 4096 ->
  sim g m s (mkview (cu v) u (kp v)) (k h d t) Q -> mid k v m s u (h ++ d :: t) Q.
Proof.
  intros A k v m s u h d t Q RP L S w tr o FW EW R F. destruct (S _ _ R F) as (t1 & t2 & l & v' & P' & E & A1 & A2 & A3).
  exists (w ++ t1), t2, (AReply h d t :: l), v', P'. rewrite E, app_assoc. split; auto. split.
  - econstructor; [|exact A1]. cbn [does cu ku kp]. auto.
  - split; auto. econstructor; [|exact A2]. constructor; auto.
Qed.

(** ** Appending the log id *)
Lemma id_cases : (logid c = None /\ id g = None) \/ (exists m i, logid c = Some m /\ id g = Some i /\ cstring m i /\ nonul i /\ len i <= 2 ^ 32).
Proof. destruct SU as (_ & H & _). destruct (logid c) as [m|], (id g) as [i|]; try tauto. right. exists m, i. tauto. Qed.
Lemma bs_nonul_open : nonul (bs " [").
Proof. cbn. nn. Qed.
Lemma still_catlogid : forall f s, sinv (sa s f) -> len (content (sa s f)) <= 2 ^ 50 ->
  still (catlogid c f) s (fun _ s' => now f (content (sa s f) ++ idtext g) s s').
Proof.
  intros f s I L. unfold catlogid, idtext. destruct id_cases as [[-> ->]|(m & i & -> & -> & Z & N & LI)].
  - apply still_ret. rewrite app_nil_r. split; [apply frame1_refl|]. auto.
  - eapply still_bind; [apply still_lit; [auto|cbn; nn|unfold small; lia|reflexivity]|]. cbn beta. intros _ s1 N1. pose proof N1 as (_ & I1 & C1).
    assert (L1 : len (content (sa s1 f)) <= 2 ^ 50 + 2) by (rewrite C1, len_app; change (len (bs " [")) with 2; lia).
    eapply still_bind; [eapply still_cats; [exact I1|exact Z|exact N|unfold small; lia|unfold small; lia]|]. cbn beta. intros _ s2 N2. pose proof N2 as (_ & I2 & C2).
    assert (L2 : len (content (sa s2 f)) <= 2 ^ 50 + 2 + 2 ^ 32) by (rewrite C2, len_app; lia).
    eapply still_weak; [apply still_lit; [exact I2|cbn; nn|unfold small; lia|reflexivity]|]. cbn beta. intros _ s3 N3. pose proof N3 as (_ & _ & C3).
    rewrite C2, C1, <- !app_assoc in N3. eapply now_trans; [exact N1|]. eapply now_trans; [exact N2|]. exact N3.
Qed.
Lemma idtext_len : len (idtext g) <= 2 ^ 32 + 3.
Proof.
  unfold idtext. destruct id_cases as [[_ ->]|(m & i & _ & -> & _ & _ & LI)]; [discriminate|]. rewrite !len_app. change (len (bs " [")) with 2. change (len (bs "]")) with 1. lia.
Qed.

(** ** A whole reply *)
Definition plain (ap lid : bool) (h : list Z) (d : Z) (t : list Z) : list Z :=
  let r := if ap && (code h =? 250) then advert h d t else h ++ d :: t in if lid then tag g r else r.
Lemma u64_code : forall h k, bytes h -> (3 <= length h)%nat -> 0 <= k < 1000 -> (u64 (code h) =? k) = (code h =? k).
Proof.
  intros h k B L K. destruct h as [|a [|b [|d h]]]; cbn [length] in L; try lia. cbn [code].
  apply Forall_cons_iff in B as [Ba B]. apply Forall_cons_iff in B as [Bb B]. apply Forall_cons_iff in B as [Bd _]. unfold is_byte in *.
  set (z := 100 * (a - 48) + 10 * (b - 48) + (d - 48)). assert (-6000 <= z <= 24000) by (unfold z; lia). unfold u64, two64.
  destruct (Z.ltb_spec z 0).
  - rewrite <- (Z_mod_plus_full z 1), Z.mod_small by lia. lia.
  - rewrite Z.mod_small by lia. reflexivity.
Qed.
Lemma fold_P3 : forall h, fold_left next h P0 = P3 -> (3 <= length h)%nat.
Proof. intros [|a [|b [|d h]]] H; cbn in *; try discriminate. lia. Qed.

Definition app250 (ap : bool) : option (list Z) := if ap then lit (bs "250 STARTTLS" ++ [13; 10]) else None.

(** What is kept of the state. *)
Definition keepc (s s' : st) : Prop := forall f, f <> Cline -> sa s' f = sa s f.
Lemma keepc_trans : forall a b d, keepc a b -> keepc b d -> keepc a d.
Proof. intros a b d A B f F. rewrite B, A; auto. Qed.
Lemma keepc_now : forall x a b, now Cline x a b -> keepc a b.
Proof. intros x a b ((_ & H & _) & _). exact H. Qed.
Lemma sc_Cline : scratch Cline. Proof. right. left. reflexivity. Qed.

Lemma linerest_reply : forall h d t, fold_left next h P0 = P3 -> d <> 45 -> linerest d t -> reply h d t.
Proof. intros h d t F D L. split; auto. Qed.

Lemma sim_reply : forall ap lid k s v e, W g s v e ->
  (ap = true -> forall h d t, code h = 250 -> 4096 < len (h ++ d :: t) + 14 -> k h d t = Die) ->
  sim g (smtpline fuel c (app250 ap) lid) s v (Reply k) (fun cd s' v' P' => exists h d t,
    P' = k h d t /\ bytes h /\ reply h d t /\ (3 <= length h)%nat /\ cd = u64 (code h) /\ W g s' v' e /\ keepc s s' /\
    zterm (sa s' Cline) (plain ap lid h d t) /\ (ap && (code h =? 250) = true -> len (h ++ d :: t) + 14 <= 4096)).
Proof.
  intros ap lid k s v e H DIE. unfold smtpline.
  eapply sim_sbind; [apply still_copys0; apply H|]. cbn beta. intros _ s1 N1. apply (W_now g) with (v := v) (e := e) in N1 as H1; auto; [|apply sc_Cline]. apply keepc_now in N1 as K1. destruct N1 as (_ & _ & C1).
  assert (G1 : G g s v s1 (ku v) [] []).
  { destruct H1 as (B & S & E). split; [destruct v; exact B|]. split; auto. split; auto. split; auto. split; [rewrite len_nil; lia|]. split; [constructor|]. split; [exact K1|].
    destruct H as (_ & _ & E0). unfold envs in *. destruct E as (_ & _ & _ & _ & E & _). destruct E0 as (_ & _ & _ & _ & E0 & _). congruence. }
  apply mid_start.
  eapply mid_bind; [apply (eat_take fuel c g SU s v); [exact G1|discriminate]|]. cbn beta. intros a s2 u2 x2 (Ba & -> & G2). cbn [app] in *.
  eapply mid_bind; [apply (eat_take fuel c g SU s v); [exact G2|discriminate]|]. cbn beta. intros b s3 u3 x3 (Bb & -> & G3). cbn [app] in *.
  eapply mid_bind; [apply (eat_take fuel c g SU s v); [exact G3|discriminate]|]. cbn beta. intros d0 s4 u4 x4 (Bd & -> & G4). cbn [app] in *.
  cbn zeta. rewrite addcode_ok. set (z := 100 * (a - 48) + 10 * (b - 48) + (d0 - 48)).
  eapply mid_bind; [apply (eat_lines fuel c g SU s v); [exact G4|reflexivity]|]. cbn beta. intros d s5 u5 x5 (r & -> & FH & D45 & BD & G5).
  set (h := [a; b; d0] ++ r) in *. assert (CZ : code h = z) by reflexivity.
  set (sep := if (match app250 ap with Some _ => true | None => false end) && (u64 z =? 250) && (d =? 32) then 45 else d) in *.
  eapply mid_bind; [apply (eat_rest fuel c g SU s v); [exact G5|]|].
  { destruct (Z.eqb_spec d 10) as [->|N10]; [left; auto|right; right]. rewrite fold_left_app, FH. cbn [fold_left next]. destruct (Z.eqb_spec d 45); [congruence|]. destruct (Z.eqb_spec d 10); congruence. }
  cbn beta. intros _ s6 u6 x6 (t & -> & LR & G6). rewrite <- !app_assoc in *. cbn [app] in *.
  change (h ++ d :: t) with (h ++ d :: t) in *. pose proof G6 as (B6 & S6 & C6 & LY & LX & BX & K6 & CN6).
  assert (RP : reply h d t) by (apply linerest_reply; auto).
  assert (BH : bytes h) by (apply Forall_app in BX; tauto).
  assert (L3 : (3 <= length h)%nat) by (apply fold_P3; auto).
  assert (ZK : forall n, 0 <= n < 1000 -> (u64 z =? n) = (code h =? n)) by (intros n Hn; rewrite <- CZ; apply u64_code; auto).
  apply mid_end; auto.
  assert (H6 : W g s6 (mkview (cu v) u6 (kp v)) e).
  { destruct H as (_ & _ & E). split; auto. split; auto. apply (envs_eq s); auto. intros f NS. apply K6. intros ->. apply NS. apply sc_Cline. }
  assert (SEP : sep = if ap && (code h =? 250) && (d =? 32) then 45 else d). { unfold sep. rewrite (ZK 250) by lia. destruct ap; reflexivity. }
  set (v6 := mkview (cu v) u6 (kp v)) in *.
  eapply sim_bind with (Q := fun _ s' v' P' => v' = v6 /\ P' = k h d t /\ W g s' v6 e /\ keepc s6 s' /\
     content (sa s' Cline) = (if ap && (code h =? 250) then advert h d t else h ++ d :: t) /\
     (ap && (code h =? 250) = true -> len (h ++ d :: t) + 14 <= 4096)).
  { destruct ap; cbn [app250 lit andb].
    - rewrite (ZK 250) by lia. destruct (Z.eqb_spec (code h) 250) as [E250|N250].
      + change (str_len ((bs "250 STARTTLS" ++ [13; 10]) ++ [0])) with (Ok 14).
        eapply sim_sbind; [eapply still_lift with (a := 14) (Q := fun a s' => a = 14 /\ s' = s6); auto|]. intros n s7 [-> ->].
        eapply sim_sbind; [apply still_the with (Q := fun a s' => a = sa s6 Cline /\ s' = s6); auto|]. intros x s7 [-> ->].
        unfold SMTP_MAX_LINE. rewrite <- content_len, C6, LY by apply S6.
        destruct (Z.ltb_spec 4096 (len (h ++ d :: t) + 14)).
        * rewrite DIE by auto. apply sim_die.
        * eapply sim_weak; [apply sim_still; apply still_lit; [apply S6|cbn; nn|rewrite C6; unfold small; lia|reflexivity]|].
          cbn beta. intros _ s7 v7 P7 (N7 & -> & ->). split; auto. split; auto. split; [eapply W_now; eauto; apply sc_Cline|]. split; [eapply keepc_now; eauto|].
          destruct N7 as (_ & _ & C7). rewrite C7, C6, SEP. unfold advert. cbn [andb]. rewrite <- !app_assoc. split; [reflexivity|intros _; lia].
      + apply sim_ret. split; auto. split; auto. split; auto. split; [intros f Hf; reflexivity|]. split; [rewrite C6, SEP; reflexivity|discriminate].
    - apply sim_ret. split; auto. split; auto. split; auto. split; [intros f Hf; reflexivity|]. split; [rewrite C6, SEP; reflexivity|discriminate]. }
  cbn beta. intros _ s7 v7 P7 (-> & -> & H7 & K7 & C7 & BIG). set (z7 := if ap && (code h =? 250) then advert h d t else h ++ d :: t) in *.
  assert (L7 : len z7 <= 5000).
  { unfold z7. destruct (ap && (code h =? 250)); [|lia]. unfold advert. rewrite len_app, len_cons, !len_app in *. change (len (bs "250 STARTTLS")) with 12. change (len [13; 10]) with 2. lia. }
  eapply sim_sbind; [apply still_zero; [apply H7|rewrite C7; unfold small; lia]|]. cbn beta. intros _ s8 [N8 Z8]. rewrite C7 in *.
  pose proof (keepc_now _ _ _ N8) as K8. apply (W_now g) with (v := v6) (e := e) in N8 as H8; auto; [|apply sc_Cline]. destruct N8 as (_ & _ & C8).
  eapply sim_sbind; [eapply still_logs; exact Z8|]. cbn beta. intros _ s9 ->.
  assert (KK : keepc s s8) by (eapply keepc_trans; [exact K6|eapply keepc_trans; eauto]).
  eapply sim_bind with (Q := fun _ s' v' P' => v' = v6 /\ P' = k h d t /\ W g s' v6 e /\ keepc s s' /\ zterm (sa s' Cline) (if lid then tag g z7 else z7)).
  { destruct id_cases as [[E1 E2]|(m & i & E1 & E2 & _)]; rewrite E1.
    - apply sim_ret. repeat (split; auto). destruct lid; auto. unfold tag. rewrite E2. exact Z8.
    - destruct lid; [|apply sim_ret; repeat (split; auto)].
      pose proof (chop_len 10 z7) as CA. pose proof (chop_len 13 (chop 10 z7)) as CB. pose proof idtext_len as IL.
      eapply sim_sbind; [eapply still_strip; [apply H8|exact C8]|]. cbn beta. intros _ s9 N9. pose proof (keepc_now _ _ _ N9) as K9. apply (W_now g) with (v := v6) (e := e) in N9 as H9; auto; [|apply sc_Cline]. destruct N9 as (_ & _ & C9).
      eapply sim_sbind; [eapply still_strip; [apply H9|exact C9]|]. cbn beta. intros _ s10 N10. pose proof (keepc_now _ _ _ N10) as K10. apply (W_now g) with (v := v6) (e := e) in N10 as H10; auto; [|apply sc_Cline]. destruct N10 as (_ & _ & C10).
      unfold LF, CR in *.
      eapply sim_sbind; [apply still_catlogid; [apply H10|rewrite C10; lia]|]. cbn beta. intros _ s11 N11. pose proof (keepc_now _ _ _ N11) as K11. apply (W_now g) with (v := v6) (e := e) in N11 as H11; auto; [|apply sc_Cline]. destruct N11 as (_ & _ & C11). rewrite C10 in C11.
      assert (L11 : len (content (sa s11 Cline)) <= 5000 + 2 ^ 32 + 3) by (rewrite C11, len_app; lia).
      eapply sim_sbind; [apply still_lit; [apply H11|nn|unfold small; lia|reflexivity]|]. cbn beta. intros _ s12 N12. pose proof (keepc_now _ _ _ N12) as K12. apply (W_now g) with (v := v6) (e := e) in N12 as H12; auto; [|apply sc_Cline]. destruct N12 as (_ & _ & C12). rewrite C11 in C12.
      assert (C12' : content (sa s12 Cline) = tag g z7) by (rewrite C12; unfold tag; rewrite E2, <- !app_assoc; reflexivity).
      eapply sim_sbind; [apply still_zero; [apply H12|unfold small; rewrite C12, len_app, <- C11; change (len [13; 10]) with 2; lia]|]. cbn beta. intros _ s13 [N13 Z13]. rewrite C12' in *.
      pose proof (keepc_now _ _ _ N13) as K13. apply (W_now g) with (v := v6) (e := e) in N13 as H13; auto; [|apply sc_Cline].
      eapply sim_weak; [apply sim_still; eapply still_logs; exact Z13|]. cbn beta. intros _ s14 v14 P14 (-> & -> & ->). split; auto. split; auto. split; auto. split; auto.
      repeat (eapply keepc_trans; [eassumption|]). intros f Hf; reflexivity. }
  cbn beta. intros _ s9 v9 P9 (-> & -> & H9 & K9 & Z9). apply sim_ret. exists h, d, t. split; auto. split; auto. split; auto.
  split; auto.
Qed.
End Run.
