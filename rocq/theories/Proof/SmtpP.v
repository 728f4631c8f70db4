(** The SMTP front end follows its plan. *)
From Verif.Model Require Import Base Sys Io Str Buffer Stralloc Fdio Smtp.
From Verif.Spec Require Import Text Stream Waiting SmtpSpec.
From Verif.Proof Require Import Tac SysP CallsP IoP HostportP StrP FrameP BufferP StrallocP FdioP SmtpIoP SmtpStP.
From Verif.Spec Require Import SmtpSpec.

(** The setting a configuration stands for. *)
Definition setup (c : cfg) (g : setting) : Prop :=
  (1 <= crw c <= 86400 /\ patience g = crw c) /\
  match logid c, id g with
  | None, None => True
  | Some m, Some i => cstring m i /\ nonul i /\ len i <= 2 ^ 32
  | _, _ => False
  end /\
  (cstring (ipstr c) (ip g) /\ nonul (ip g) /\ len (ip g) <= 2 ^ 32) /\
  match policy g with None => greyfd c = -1 | Some d => greyfd c = d /\ fdok d end /\
  failclosed c = strict g /\ starttls c = offers g /\ child c = pid g /\
  (fromfd c = fromprog g /\ fdok (fromprog g)) /\ (tofd c = toprog g /\ fdok (toprog g)).

Section Run.
Variable fuel : nat.
Variable c : cfg.
Variable g : setting.
Hypothesis SU : setup c g.
Lemma failed_g : forall tr, failed (crw c) tr -> failed (patience g) tr.
Proof. intros tr. destruct SU as ((_ & ->) & _). auto. Qed.
Local Hint Resolve failed_g : core.

Lemma T : 1 <= crw c <= 86400.
Proof. destruct SU as ((H & _) & _). exact H. Qed.
Lemma from_eq : fromfd c = fromprog g /\ fdok (fromprog g).
Proof. destruct SU as (_ & _ & _ & _ & _ & _ & _ & H & _). exact H. Qed.
Lemma to_eq : tofd c = toprog g /\ fdok (toprog g).
Proof. destruct SU as (_ & _ & _ & _ & _ & _ & _ & _ & H). exact H. Qed.

(** ** State and views *)
Definition bufs (s : st) (v : view) : Prop :=
  (rinv 8192 (bf s SSin) /\ bfd (bf s SSin) = 0 /\ window (bf s SSin) = cu v /\ bytes (cu v)) /\
  (winv (bf s SSout) /\ bfd (bf s SSout) = 1 /\ pending (bf s SSout) = []) /\
  (rinv 128 (bf s SScin) /\ bfd (bf s SScin) = fromprog g /\ window (bf s SScin) = ku v /\ bytes (ku v)) /\
  (winv (bf s SScout) /\ bfd (bf s SScout) = toprog g /\ pending (bf s SScout) = kp v).
Definition strs (s : st) : Prop := forall f, sinv (sa s f).
Definition holds (r : stralloc) (x : option (list Z)) : Prop :=
  match x with
  | None => content r = [] /\ zterm r []
  | Some a => content r = a ++ [0] /\ nonul a /\ len a <= 2048
  end.
Definition envs (s : st) (e : env) : Prop :=
  holds (sa s Mailfrom) (sender e) /\ holds (sa s Rcptto) (rcpt e) /\
  (slen (sa s Rcpttodata) = total e /\ exists x, zterm (sa s Rcpttodata) x) /\ 0 <= total e <= 65536 /\
  rcptcount s = count e /\ 0 <= count e <= 256.
Definition W (s : st) (v : view) (e : env) : Prop := bufs s v /\ strs s /\ envs s e.

Lemma bufs_eq : forall s s' v, bf s' = bf s -> bufs s v -> bufs s' v.
Proof. intros s s' v E H. unfold bufs in *. rewrite E. exact H. Qed.
Lemma strs_now : forall f x s s', now f x s s' -> strs s -> strs s'.
Proof.
  intros f x s s' ((A & B & D) & E & F) H h. destruct (feqb h f) eqn:Q.
  - assert (h = f) as -> by (destruct h, f; cbn in Q; congruence). auto.
  - rewrite B; auto. intros ->. rewrite feqb_refl in Q. discriminate.
Qed.
Lemma strs_eq : forall s s', sa s' = sa s -> strs s -> strs s'.
Proof. intros s s' E H f. rewrite E. auto. Qed.
Definition scratch (f : field) : Prop := f = Line \/ f = Cline \/ f = Resp.
Lemma envs_eq : forall s s' e, (forall f, ~ scratch f -> sa s' f = sa s f) -> rcptcount s' = rcptcount s -> envs s e -> envs s' e.
Proof.
  intros s s' e H C E. unfold envs in *. rewrite C, !H; auto; intros [|[|]]; discriminate.
Qed.
Lemma W_now : forall f x s s' v e, scratch f -> now f x s s' -> W s v e -> W s' v e.
Proof.
  intros f x s s' v e SC N (B & S & E). pose proof N as ((A1 & A2 & A3) & _). split; [eapply bufs_eq; eauto|]. split; [eapply strs_now; eauto|].
  apply (envs_eq s); auto. intros h H. apply A2. intros ->. auto.
Qed.

(** ** Reading a character *)
Lemma getc_client : forall s v tr o, runs (getc fuel c SSin s) tr o -> fine tr -> bufs s v ->
  Forall (rd 0) (core tr) /\
  match o with
  | Wrong => False
  | Cut => True
  | Fin (Exit y) => y = 111 /\ failed (crw c) tr
  | Fin (Go (s', ch)) => exists u, cu v ++ got 0 tr = ch :: u /\ is_byte ch /\ bufs s' (mkview u (ku v) (kp v)) /\ sa s' = sa s /\ rcptcount s' = rcptcount s
  end.
Proof.
  intros s v tr o R F ((B1 & B2 & B3 & B4) & BO & BK & BP). unfold getc in R.
  assert (FD : fdok (bfd (bf s SSin))) by (rewrite B2; unfold fdok; lia).
  assert (BW : bytes (window (bf s SSin))) by (rewrite B3; exact B4).
  apply runs_obind in R as [([ch b] & t1 & t2 & -> & R1 & R2)|[(y & R1 & ->)|[[R1 ->]|[R1 ->]]]].
  - apply fine_app in F as [F1 F2]. destruct (ogetc_ok _ _ T _ _ _ _ R1 F1 B1 ltac:(lia) FD BW) as (H1 & H2 & H3 & H4 & H5 & H6).
    rewrite B2, B3 in *. destruct R2 as [-> ->]. rewrite app_nil_r. split; auto. exists (window b). split; auto. split; auto.
    split; [|auto]. unfold bufs. cbn [bf setbf beqb cu ku kp]. repeat (split; auto).
  - destruct (ogetc_ok _ _ T _ _ _ _ R1 F B1 ltac:(lia) FD BW) as (H1 & H2 & H3 & _). rewrite B2 in *. auto.
  - destruct (ogetc_ok _ _ T _ _ _ _ R1 F B1 ltac:(lia) FD BW) as (H1 & []).
  - destruct (ogetc_ok _ _ T _ _ _ _ R1 F B1 ltac:(lia) FD BW) as (H1 & _). rewrite B2 in *. auto.
Qed.
Lemma getc_prog : forall s v tr o, runs (getc fuel c SScin s) tr o -> fine tr -> bufs s v ->
  Forall (rd (fromprog g)) (core tr) /\
  match o with
  | Wrong => False
  | Cut => True
  | Fin (Exit y) => y = 111 /\ failed (crw c) tr
  | Fin (Go (s', ch)) => exists u, ku v ++ got (fromprog g) tr = ch :: u /\ is_byte ch /\ bufs s' (mkview (cu v) u (kp v)) /\ sa s' = sa s /\ rcptcount s' = rcptcount s
  end.
Proof.
  intros s v tr o R F (BI & BO & (B1 & B2 & B3 & B4) & BP). unfold getc in R.
  assert (FD : fdok (bfd (bf s SScin))) by (rewrite B2; apply from_eq).
  assert (BW : bytes (window (bf s SScin))) by (rewrite B3; exact B4).
  apply runs_obind in R as [([ch b] & t1 & t2 & -> & R1 & R2)|[(y & R1 & ->)|[[R1 ->]|[R1 ->]]]].
  - apply fine_app in F as [F1 F2]. destruct (ogetc_ok _ _ T _ _ _ _ R1 F1 B1 ltac:(lia) FD BW) as (H1 & H2 & H3 & H4 & H5 & H6).
    rewrite B2, B3 in *. destruct R2 as [-> ->]. rewrite app_nil_r. split; auto. exists (window b). split; auto. split; auto.
    split; [|auto]. unfold bufs. cbn [bf setbf beqb cu ku kp]. repeat (split; auto).
  - destruct (ogetc_ok _ _ T _ _ _ _ R1 F B1 ltac:(lia) FD BW) as (H1 & H2 & H3 & _). rewrite B2 in *. auto.
  - destruct (ogetc_ok _ _ T _ _ _ _ R1 F B1 ltac:(lia) FD BW) as (H1 & []).
  - destruct (ogetc_ok _ _ T _ _ _ _ R1 F B1 ltac:(lia) FD BW) as (H1 & _). rewrite B2 in *. auto.
Qed.

Lemma append_small : forall f ch s, strs s -> len (content (sa s f)) < 4096 ->
  still (line_append f ch) s (fun _ s' => now f (content (sa s f) ++ [ch]) s s').
Proof.
  intros f ch s S L. unfold line_append. eapply still_bind; [apply still_the with (Q := fun a s' => a = sa s f /\ s' = s); auto|]. intros a s' [-> ->].
  rewrite content_len in L by auto. unfold SMTP_MAX_LINE. destruct (Z.leb_spec 4096 (slen (sa s f))); [lia|]. apply still_append; auto. unfold small. rewrite content_len by auto.
  change (2 ^ 60) with 1152921504606846976. lia.
Qed.
Lemma append_full : forall f ch s tr o, strs s -> len (content (sa s f)) = 4096 -> runs (line_append f ch s) tr o -> tr = [] /\ o = Fin (Exit 111).
Proof.
  intros f ch s tr o S L R. rewrite content_len in L by auto. unfold line_append, mbind, the in R. cbn [obind pbind] in R. rewrite L in R. exact R.
Qed.

(** ** Client lines *)
Definition sub (b : Z) : Z := if b =? 0 then 10 else b.
Lemma readline_loop_ok : forall f s v x0 tr o, runs (readline_loop fuel c f s) tr o -> fine tr -> bufs s v -> strs s ->
  content (sa s Line) = map sub x0 -> len x0 <= 4096 ->
  Forall (rd 0) (core tr) /\
  match o with
  | Wrong => False
  | Cut => True
  | Fin (Exit y) => y = 111 /\ (failed (crw c) tr \/ exists x u, cu v ++ got 0 tr = x ++ u /\ len (x0 ++ x) = 4097 /\ ~ In 10 x)
  | Fin (Go (s', _)) => exists x u, cu v ++ got 0 tr = x ++ 10 :: u /\ len (x0 ++ x) <= 4096 /\ ~ In 10 x /\ bytes x /\
      bufs s' (mkview u (ku v) (kp v)) /\ strs s' /\ content (sa s' Line) = map sub (x0 ++ x) /\
      (forall h, h <> Line -> sa s' h = sa s h) /\ rcptcount s' = rcptcount s
  end.
Proof.
  induction f as [|f IH]; intros s v x0 tr o R F B S C L; cbn [readline_loop] in R.
  { destruct R as [-> ->]. split; [constructor|auto]. }
  unfold mbind in R at 1. apply runs_obind in R as [([s1 ch] & t1 & t2 & -> & R1 & R2)|[(y & R1 & ->)|[[R1 ->]|[R1 ->]]]].
  2:{ destruct (getc_client _ _ _ _ R1 F B) as (H1 & -> & H2). auto. }
  2:{ destruct (getc_client _ _ _ _ R1 F B) as (H1 & []). }
  2:{ destruct (getc_client _ _ _ _ R1 F B) as (H1 & _). auto. }
  apply fine_app in F as [F1 F2]. destruct (getc_client _ _ _ _ R1 F1 B) as (H1 & u & G1 & CH & B1 & SA1 & CN1).
  assert (S1 : strs s1) by (eapply strs_eq; eauto).
  rewrite core_app, Forall_app, got_app, app_assoc, G1. unfold LF in R2. destruct (Z.eqb_spec ch 10) as [->|NL].
  { destruct R2 as [-> ->]. split; [split; [auto|constructor]|]. cbn [got]. rewrite app_nil_r. exists [], u. rewrite app_nil_r. split; auto. split; auto. split; auto. split; [constructor|].
    split; auto. split; auto. split; [rewrite SA1; auto|]. split; [intros; rewrite SA1; auto|auto]. }
  set (b := if ch =? 0 then 10 else ch) in *. assert (BE : b = sub ch) by reflexivity.
  assert (CL : len (content (sa s1 Line)) = len x0) by (rewrite SA1, C; unfold len; rewrite map_length; reflexivity).
  unfold mbind in R2. apply runs_obind in R2 as [([s2 q] & t3 & t4 & -> & R3 & R4)|[(y & R3 & ->)|[[R3 ->]|[R3 ->]]]].
  - destruct (Z.eqb_spec (len x0) 4096) as [FU|FU].
    { destruct (append_full Line b s1 _ _ S1 ltac:(lia) R3) as [_ E]. discriminate. }
    apply fine_app in F2 as [F3 F4]. destruct (append_small Line b s1 S1 ltac:(lia) _ _ R3 F3) as (C3 & (FR1 & FR2 & FR3) & SI & CO).
    assert (CO2 : content (sa s2 Line) = map sub (x0 ++ [ch])). { rewrite CO, SA1, C, map_app, BE. reflexivity. }
    assert (S2 : strs s2). { eapply strs_now; [|exact S1]. split; [split; [exact FR1|split; [exact FR2|exact FR3]]|]. split; [exact SI|reflexivity]. }
    assert (LL : len (x0 ++ [ch]) <= 4096) by (rewrite len_app; change (len [ch]) with 1; lia).
    specialize (IH _ _ _ _ _ R4 F4 (bufs_eq _ _ _ FR1 B1) S2 CO2 LL) as [I1 I2].
    rewrite core_app, C3, got_app, <- (got_core 0 t3), C3. cbn [app got cu ku kp] in *. split; [auto|].
    destruct o as [[[s3 r]|y]| |]; auto.
    + destruct I2 as (x & w & E & X1 & X2 & X3 & X4 & X5 & X6 & X7 & X8). exists (ch :: x), w. rewrite E. rewrite <- app_assoc in *. cbn [app] in *.
      split; auto. split; auto. split; [intros [Q|Q]; auto|]. split; [constructor; auto|]. split; auto. split; auto. split; auto.
      split; [intros h Hh; rewrite X7, FR2, SA1; auto|]. congruence.
    + destruct I2 as (-> & [I2|(x & w & E & X1 & X2)]); split; auto.
      * left. apply failed_app. apply failed_app. auto.
      * right. exists (ch :: x), w. rewrite E. rewrite <- app_assoc in X1. cbn [app] in *. split; auto. split; auto. intros [Q|Q]; auto.
  - destruct (Z.eqb_spec (len x0) 4096) as [FU|FU].
    + destruct (append_full Line b s1 _ _ S1 ltac:(lia) R3) as [-> E]. inv E. split; [split; [auto|constructor]|]. cbn [got]. rewrite !app_nil_r. split; auto. right. exists [ch], u. cbn [app].
      split; auto. split; [rewrite len_app; change (len [ch]) with 1; lia|]. intros [Q|[]]; auto.
    + destruct (append_small Line b s1 S1 ltac:(lia) _ _ R3 F2) as (C3 & -> & FA). rewrite C3. split; [split; [auto|constructor]|]. split; auto. left. apply failed_app. auto.
  - destruct (Z.eqb_spec (len x0) 4096) as [FU|FU].
    + destruct (append_full Line b s1 _ _ S1 ltac:(lia) R3) as [-> E]. discriminate.
    + destruct (append_small Line b s1 S1 ltac:(lia) _ _ R3 F2) as (C3 & []).
  - destruct (Z.eqb_spec (len x0) 4096) as [FU|FU].
    + destruct (append_full Line b s1 _ _ S1 ltac:(lia) R3) as [-> E]. discriminate.
    + destruct (append_small Line b s1 S1 ltac:(lia) _ _ R3 F2) as (C3 & _). rewrite C3. split; [split; [auto|constructor]|]. auto.
Qed.

Definition heard (e : env) (x : list Z) (s : st) (v : view) : Prop :=
  bytes x /\ len x <= 4096 /\ ~ In 10 x /\ W s v e /\ content (sa s Line) = norm x /\ zterm (sa s Line) (norm x).
Lemma sub_nonul : forall x, bytes x -> nonul (map sub x).
Proof.
  intros x B. induction B as [|b x Hb B IH]; [constructor|]. constructor; auto. unfold sub, is_byte in *. destruct (Z.eqb_spec b 0); lia.
Qed.
Lemma norm_nonul : forall x, bytes x -> nonul (norm x).
Proof.
  intros x B. unfold norm. apply Forall_app. split; [|nn]. apply chop_Forall. exact (sub_nonul x B).
Qed.
Lemma norm_len : forall x, len x <= 4096 -> len (norm x) <= 4098.
Proof. intros x L. unfold norm. rewrite len_app. change (len [13; 10]) with 2. pose proof (chop_len 13 (map (fun b => if b =? 0 then 10 else b) x)) as H. unfold len in *. rewrite map_length in H. lia. Qed.

Lemma sim_hear : forall P K s v e, W s v e ->
  (forall x, len x <= 4096 -> ~ In 10 x -> step g P (ALine x) (K x)) -> (forall x, islong x -> step g P (AFlood x) Die) ->
  (forall v t, Forall (rd 0) t -> partial g P v t) ->
  sim g (readline fuel c) s v P (fun _ s' v' P' => exists x, P' = K x /\ heard e x s' v').
Proof.
  intros P K s v e H0 K1 K2 K3. unfold readline.
  eapply sim_sbind; [apply still_copys0; apply H0|]. cbn beta. intros _ s1 N1. apply W_now with (v := v) (e := e) in N1 as H1; auto; [|left; auto]. destruct N1 as (_ & _ & C1).
  eapply sim_bind with (Q := fun _ s' v' P' => exists x, P' = K x /\ bytes x /\ len x <= 4096 /\ ~ In 10 x /\ W s' v' e /\ content (sa s' Line) = map sub x).
  - intros tr o R F. destruct H1 as (B & S & E). destruct (readline_loop_ok _ _ _ [] _ _ R F B S C1 ltac:(rewrite len_nil; lia)) as [RD H]. cbn [app] in H.
    destruct o as [[[s2 r]|y]| |].
    + destruct H as (x & u & G & L & N & BX & B2 & S2 & C2 & FR & CN). exists (core tr), [], [ALine x], (mkview u (ku v) (kp v)), (K x).
      rewrite app_nil_r. split; auto. split; [apply story1; cbn; rewrite got_core; auto|]. split; [apply follows1; auto|]. split; auto. exists x.
      split; auto. split; auto. split; auto. split; auto. split; auto. split; auto. split; auto. apply (envs_eq s1); auto. intros f NS. apply FR. intros ->. apply NS. left. auto.
    + destruct H as (-> & [H|(x & u & G & L & N)]).
      * exists [], (core tr), [], v, P. split; auto. split; [constructor|]. split; [constructor|]. right. right. auto.
      * exists (core tr), [], [AFlood x], (mkview u (ku v) (kp v)), Die. rewrite app_nil_r. split; auto. split; [apply story1; cbn; rewrite got_core; auto|].
        split; [apply follows1; apply K2; split; auto|]. left. auto.
    + destruct H.
    + exists [], (core tr), [], v, P. split; auto. split; [constructor|]. split; [constructor|]. auto.
  - cbn beta. intros _ s2 v2 P2 (x & -> & BX & LX & NX & H2 & C2).
    assert (LM : len (map sub x) <= 4096) by (unfold len in *; rewrite map_length; auto).
    eapply sim_sbind; [eapply still_strip; [apply H2|exact C2]|]. cbn beta. intros _ s3 N3. apply W_now with (v := v2) (e := e) in N3 as H3; auto; [|left; auto]. destruct N3 as (_ & _ & C3).
    pose proof (chop_len 13 (map sub x)) as CL.
    eapply sim_sbind; [eapply still_lit with (m := [13; 10]); [apply H3|nn|rewrite C3; unfold small, CR; lia|reflexivity]|].
    cbn beta. intros _ s4 N4. apply W_now with (v := v2) (e := e) in N4 as H4; auto; [|left; auto]. destruct N4 as (_ & _ & C4). rewrite C3 in C4.
    assert (C4' : content (sa s4 Line) = norm x) by exact C4.
    eapply sim_sbind; [eapply still_zero; [apply H4|rewrite C4'; unfold small; pose proof (norm_len x LX); lia]|].
    cbn beta. intros _ s5 [N5 Z5]. apply W_now with (v := v2) (e := e) in N5 as H5; auto; [|left; auto]. destruct N5 as (_ & _ & C5). rewrite C4' in *.
    eapply sim_weak; [apply sim_still; eapply still_logs; exact Z5|]. cbn beta. intros _ s6 v6 P6 (-> & -> & ->). exists x. split; [auto|]. unfold heard. tauto.
Qed.

(** ** Output *)
Lemma out_sim : forall n (k : buffer -> prog (out (rc * buffer))) s v P a K fd all (G : buffer -> trace -> Prop) (Q : st -> view -> Prop),
  (forall tr o, runs (k (bf s n)) tr o -> fine tr -> Forall (wr fd) (core tr) /\
     match o with
     | Wrong => False
     | Cut => is_prefix (sent fd tr) all
     | Fin (Exit y) => y = 111 /\ failed (crw c) tr /\ is_prefix (sent fd tr) all
     | Fin (Go (_, b)) => G b tr
     end) ->
  step g P a K -> (forall t, Forall (wr fd) t -> is_prefix (sent fd t) all -> partial g P v t) ->
  (forall b tr, Forall (wr fd) (core tr) -> G b tr -> exists v', does g a v (core tr) v' /\ Q (setbf n b s) v') ->
  sim g (fun s => '(_, b) <! k (bf s n) ;; Ret (Go (setbf n b s, tt))) s v P (fun _ s' v' P' => P' = K /\ Q s' v').
Proof.
  intros n k s v P a K fd all G Q H ST PA DO tr o R F.
  apply runs_obind in R as [([r b] & t1 & t2 & -> & R1 & R2)|[(y & R1 & ->)|[[R1 ->]|[R1 ->]]]].
  - apply fine_app in F as [F1 F2]. destruct (H _ _ R1 F1) as [H1 H2]. destruct R2 as [-> ->]. rewrite app_nil_r. destruct (DO b t1 H1 H2) as (v' & D1 & D2).
    exists (core t1), [], [a], v', K. rewrite app_nil_r. split; auto. split; [apply story1; auto|]. split; [apply follows1; auto|]. auto.
  - destruct (H _ _ R1 F) as [H1 (-> & H2 & H3)]. exists [], (core tr), [], v, P. split; auto. split; [constructor|]. split; [constructor|]. right. right. split; auto. split; auto.
    apply PA; auto. rewrite sent_core. auto.
  - destruct (H _ _ R1 F) as [H1 []].
  - destruct (H _ _ R1 F) as [H1 H2]. exists [], (core tr), [], v, P. split; auto. split; [constructor|]. split; [constructor|]. apply PA; auto. rewrite sent_core. auto.
Qed.

Lemma W_setbf : forall n b s v v' e, W s v e -> bufs (setbf n b s) v' -> W (setbf n b s) v' e.
Proof. intros n b s v v' e (B & S & E) B'. split; auto. Qed.
Lemma pending_0 : forall b, bp b = 0 -> pending b = [].
Proof. intros b H. unfold pending. rewrite H. reflexivity. Qed.

Lemma sim_give : forall p x s v e K, W s v e -> cstring p x ->
  sim g (putsflush fuel c SScout p) s v (Give (shown x) K) (fun _ s' v' P' => P' = K /\ W s' v' e /\ sa s' = sa s).
Proof.
  intros p x s v e K H (rest & ->). pose proof H as ((BI & BO & BK & B1 & B2 & B3) & _).
  apply (out_sim SScout (fun b => oputsflush fuel (write_ fuel c) b (x ++ 0 :: rest)) s v _ (AGive (shown x)) K (toprog g) (kp v ++ shown x)
    (fun b tr => sent (toprog g) tr = kp v ++ shown x /\ winv b /\ bfd b = toprog g /\ pending b = []) (fun s' v' => W s' v' e /\ sa s' = sa s)).
  - intros tr o R F. unfold oputsflush in R. rewrite str_len_shown in R. cbn [lift pbind] in R. destruct (shown_prefix x rest) as [r E]. rewrite E in R.
    destruct (oputflush_ok fuel c _ _ (write_spec fuel c T) _ _ _ _ _ R F B1) as [[H1 H2] H3]; [rewrite B2; apply to_eq|]. rewrite B2, B3 in *. split; auto.
    destruct o as [[[[|er] b]|y]| |]; auto.
    + destruct H2 as (H2 & H4 & H5 & H6). specialize (H3 _ eq_refl). rewrite (pending_0 _ H3), app_nil_r in H2. repeat (split; auto). apply pending_0; auto.
    + destruct H2; discriminate.
  - constructor.
  - intros t H1 H2. cbn. auto.
  - intros b tr H1 (H2 & H3 & H4 & H5). exists (mkview (cu v) (ku v) []). split.
    + cbn [does kp cu ku]. rewrite sent_core. auto.
    + split; auto. eapply W_setbf; eauto. unfold bufs. cbn [bf setbf beqb cu ku kp]. tauto.
Qed.
Lemma sim_tell : forall p x s v e K, W s v e -> cstring p x ->
  sim g (putsflush fuel c SSout p) s v (Tell (shown x) K) (fun _ s' v' P' => P' = K /\ W s' v' e /\ sa s' = sa s).
Proof.
  intros p x s v e K H (rest & ->). pose proof H as ((BI & (B1 & B2 & B3) & BK) & _).
  apply (out_sim SSout (fun b => oputsflush fuel (write_ fuel c) b (x ++ 0 :: rest)) s v _ (ATell (shown x)) K 1 (shown x)
    (fun b tr => sent 1 tr = shown x /\ winv b /\ bfd b = 1 /\ pending b = []) (fun s' v' => W s' v' e /\ sa s' = sa s)).
  - intros tr o R F. unfold oputsflush in R. rewrite str_len_shown in R. cbn [lift pbind] in R. destruct (shown_prefix x rest) as [r E]. rewrite E in R.
    destruct (oputflush_ok fuel c _ _ (write_spec fuel c T) _ _ _ _ _ R F B1) as [[H1 H2] H3]; [rewrite B2; unfold fdok; lia|]. rewrite B2, B3 in *. cbn [app] in *. split; auto.
    destruct o as [[[[|er] b]|y]| |]; auto.
    + destruct H2 as (H2 & H4 & H5 & H6). specialize (H3 _ eq_refl). rewrite (pending_0 _ H3), app_nil_r in H2. repeat (split; auto). apply pending_0; auto.
    + destruct H2; discriminate.
  - constructor.
  - intros t H1 H2. cbn. auto.
  - intros b tr H1 (H2 & H3 & H4 & H5). exists v. split.
    + cbn [does]. rewrite sent_core. auto.
    + split; auto. eapply W_setbf; eauto. unfold bufs. cbn [bf setbf beqb cu ku kp]. tauto.
Qed.
Lemma sim_queue : forall p x s v e K, W s v e -> cstring p x ->
  sim g (puts fuel c SScout p) s v (Queue (shown x) K) (fun _ s' v' P' => P' = K /\ W s' v' e /\ sa s' = sa s).
Proof.
  intros p x s v e K H (rest & ->). pose proof H as ((BI & BO & BK & B1 & B2 & B3) & _).
  apply (out_sim SScout (fun b => oputs fuel (write_ fuel c) b (x ++ 0 :: rest)) s v _ (AQueue (shown x)) K (toprog g) (kp v ++ shown x)
    (fun b tr => sent (toprog g) tr ++ pending b = kp v ++ shown x /\ winv b /\ bfd b = toprog g) (fun s' v' => W s' v' e /\ sa s' = sa s)).
  - intros tr o R F. unfold oputs in R. rewrite str_len_shown in R. cbn [lift pbind] in R. destruct (shown_prefix x rest) as [r E]. rewrite E in R.
    destruct (oput_ok fuel c _ _ (write_spec fuel c T) _ _ _ _ _ R F B1) as [H1 H2]; [rewrite B2; apply to_eq|]. rewrite B2, B3 in *. split; auto.
    destruct o as [[[[|er] b]|y]| |]; auto.
    + destruct H2 as (H2 & H4 & H5 & H6). repeat (split; auto).
    + destruct H2; discriminate.
  - constructor.
  - intros t H1 H2. cbn. auto.
  - intros b tr H1 (H2 & H3 & H4). exists (mkview (cu v) (ku v) (pending b)). split.
    + cbn [does kp cu ku]. rewrite sent_core. auto.
    + split; auto. eapply W_setbf; eauto. unfold bufs. cbn [bf setbf beqb cu ku kp]. repeat (split; auto).
Qed.
Lemma sim_flush : forall s v e K, W s v e ->
  sim g (flush fuel c SScout) s v (Give [] K) (fun _ s' v' P' => P' = K /\ W s' v' e /\ sa s' = sa s).
Proof.
  intros s v e K H. pose proof H as ((BI & BO & BK & B1 & B2 & B3) & _).
  apply (out_sim SScout (oflush fuel (write_ fuel c)) s v _ (AGive []) K (toprog g) (kp v ++ [])
    (fun b tr => sent (toprog g) tr = kp v ++ [] /\ winv b /\ bfd b = toprog g /\ pending b = []) (fun s' v' => W s' v' e /\ sa s' = sa s)).
  - intros tr o R F. rewrite app_nil_r.
    destruct (oflush_ok fuel c _ _ (write_spec fuel c T) _ _ _ R F B1) as [[H1 H2] H3]; [rewrite B2; apply to_eq|]. rewrite B2, B3 in *. split; auto.
    destruct o as [[[[|er] b]|y]| |]; auto.
    + destruct H2 as (H2 & H4 & H5 & H6). rewrite (H3 _ eq_refl) in *. rewrite pending_0, app_nil_r in H2 by reflexivity. repeat (split; auto).
    + destruct H2; discriminate.
  - constructor.
  - intros t H1 H2. cbn. auto.
  - intros b tr H1 (H2 & H3 & H4 & H5). exists (mkview (cu v) (ku v) []). split.
    + cbn [does kp cu ku]. rewrite sent_core. auto.
    + split; auto. eapply W_setbf; eauto. unfold bufs. cbn [bf setbf beqb cu ku kp]. tauto.
Qed.

Lemma sim_of : forall n f x s v e P (Q : unit -> st -> view -> plan -> Prop), W s v e -> zterm (sa s f) x ->
  (forall p, cstring p x -> sim g (putsflush fuel c n p) s v P Q) -> sim g (putsflush_of fuel c n f) s v P Q.
Proof.
  intros n f x s v e P Q H (p & E & Z) K. unfold putsflush_of.
  eapply sim_sbind; [apply still_the with (Q := fun a s' => a = sa s f /\ s' = s); auto|]. intros a s' [-> ->].
  eapply sim_sbind; [eapply still_ptr with (Q := fun q s' => q = p /\ s' = s); eauto|]. intros a s' [-> ->]. auto.
Qed.
Lemma sim_give_of : forall f x s v e K, W s v e -> zterm (sa s f) x ->
  sim g (putsflush_of fuel c SScout f) s v (Give (shown x) K) (fun _ s' v' P' => P' = K /\ W s' v' e /\ sa s' = sa s).
Proof. intros. eapply sim_of; eauto. intros. apply sim_give; auto. Qed.
Lemma sim_tell_of : forall f x s v e K, W s v e -> zterm (sa s f) x ->
  sim g (putsflush_of fuel c SSout f) s v (Tell (shown x) K) (fun _ s' v' P' => P' = K /\ W s' v' e /\ sa s' = sa s).
Proof. intros. eapply sim_of; eauto. intros. apply sim_tell; auto. Qed.

(** ** Replies of the program *)
Definition full (x : list Z) : Prop := len x = 4097 /\ fold_left next (firstn (Z.to_nat 4096) x) P0 <> Done.
(** Bytes of a reply are consumed; [x0] those consumed before. *)
Definition eat {A} (m : M A) (s : st) (v : view) (x0 : list Z) (Q : A -> st -> list Z -> list Z -> Prop) : Prop := forall tr o,
  runs (m s) tr o -> fine tr ->
  Forall (rd (fromprog g)) (core tr) /\
  match o with
  | Wrong => False
  | Cut => True
  | Fin (Exit y) => y = 111 /\ (failed (crw c) tr \/ exists x u, ku v ++ got (fromprog g) tr = x ++ u /\ full (x0 ++ x))
  | Fin (Go (s', a)) => exists x u, ku v ++ got (fromprog g) tr = x ++ u /\ Q a s' u (x0 ++ x)
  end.
Lemma eat_bind : forall A B (m : M A) (f : A -> M B) s v x0 Q Q', eat m s v x0 Q ->
  (forall a s' u x1, Q a s' u x1 -> eat (f a) s' (mkview (cu v) u (kp v)) x1 Q') -> eat (mbind m f) s v x0 Q'.
Proof.
  intros A B m f s v x0 Q Q' S H tr o R F. unfold mbind in R. apply runs_obind in R as [([s' a] & t1 & t2 & -> & R1 & R2)|[(y & R1 & ->)|[[R1 ->]|[R1 ->]]]].
  - apply fine_app in F as [F1 F2]. destruct (S _ _ R1 F1) as (S1 & x & u & E & S2). destruct (H _ _ _ _ S2 _ _ R2 F2) as [S3 S4]. cbn [ku] in S4.
    rewrite core_app, Forall_app, got_app, app_assoc, E. split; auto. destruct o as [[[s2 b]|y]| |]; auto.
    + destruct S4 as (x' & u' & E' & S4). exists (x ++ x'), u'. rewrite <- !app_assoc, E'. rewrite <- app_assoc in S4. auto.
    + destruct S4 as (-> & [S4|(x' & u' & E' & S4)]); split; auto; [left; apply failed_app; auto|]. right. exists (x ++ x'), u'. rewrite <- !app_assoc, E'. rewrite <- app_assoc in S4. auto.
  - destruct (S _ _ R1 F) as [S1 S2]. auto.
  - destruct (S _ _ R1 F) as [S1 S2]. auto.
  - destruct (S _ _ R1 F) as [S1 S2]. auto.
Qed.
Lemma eat_ret : forall A (a : A) s v x0 (Q : A -> st -> list Z -> list Z -> Prop), Q a s (ku v) x0 -> eat (mret a) s v x0 Q.
Proof. intros A a s v x0 Q H tr o [-> ->] F. split; [constructor|]. cbn [got]. exists [], (ku v). rewrite !app_nil_r. auto. Qed.
Lemma eat_still : forall A (m : M A) s v x0 (Q : A -> st -> list Z -> list Z -> Prop), still m s (fun a s' => Q a s' (ku v) x0) -> eat m s v x0 Q.
Proof.
  intros A m s v x0 Q S tr o R F. destruct (S _ _ R F) as [C H]. rewrite C. split; [constructor|]. destruct o as [[[s' a]|y]| |]; auto; [|destruct H; auto].
  exists [], (ku v). rewrite <- got_core, C, !app_nil_r. auto.
Qed.
Lemma eat_weak : forall A (m : M A) s v x0 (Q Q' : A -> st -> list Z -> list Z -> Prop), eat m s v x0 Q -> (forall a s' u x, Q a s' u x -> Q' a s' u x) -> eat m s v x0 Q'.
Proof.
  intros A m s v x0 Q Q' S H tr o R F. destruct (S _ _ R F) as [S1 S2]. split; auto. destruct o as [[[s' a]|y]| |]; auto. destruct S2 as (x & u & E & S2). eauto.
Qed.
Lemma eat_halt : forall A s v x0 (Q : A -> st -> list Z -> list Z -> Prop), eat (fun _ => Halt) s v x0 Q.
Proof. intros A s v x0 Q tr o [-> ->] F. split; [constructor|auto]. Qed.

Section Eat.
Variable s0 : st.
Variable v0 : view.
Definition G (s : st) (u x y : list Z) : Prop :=
  bufs s (mkview (cu v0) u (kp v0)) /\ strs s /\ content (sa s Cline) = y /\ len y = len x /\ len x <= 4096 /\ bytes x /\
  (forall h, h <> Cline -> sa s h = sa s0 h) /\ rcptcount s = rcptcount s0.

Lemma eat_char : forall B (act : Z -> M unit) (h : Z -> Z) (k : Z -> M B) s u x y Q,
  (forall ch, act ch = line_append Cline (h ch)) ->
  G s u x y -> fold_left next x P0 <> Done ->
  (forall ch s' u', is_byte ch -> G s' u' (x ++ [ch]) (y ++ [h ch]) -> eat (k ch) s' (mkview (cu v0) u' (kp v0)) (x ++ [ch]) Q) ->
  eat (mbind (getc fuel c SScin) (fun ch => mbind (act ch) (fun _ => k ch))) s (mkview (cu v0) u (kp v0)) x Q.
Proof.
  intros B act h k s u x y Q AC (G1 & G2 & G3 & G4 & G5 & G6 & G7 & G8) ND H.
  intros tr o R F. unfold mbind in R at 1. apply runs_obind in R as [([s1 ch] & t1 & t2 & -> & R1 & R2)|[(q & R1 & ->)|[[R1 ->]|[R1 ->]]]].
  2:{ destruct (getc_prog _ _ _ _ R1 F G1) as (H1 & -> & H2). auto. }
  2:{ destruct (getc_prog _ _ _ _ R1 F G1) as (H1 & []). }
  2:{ destruct (getc_prog _ _ _ _ R1 F G1) as (H1 & _). auto. }
  apply fine_app in F as [F1 F2]. destruct (getc_prog _ _ _ _ R1 F1 G1) as (H1 & u1 & E1 & CH & B1 & SA1 & CN1). cbn [cu ku kp] in *.
  assert (S1 : strs s1) by (eapply strs_eq; eauto). rewrite AC in R2.
  assert (CL : len (content (sa s1 Cline)) = len x) by (rewrite SA1, G3; exact G4).
  rewrite core_app, Forall_app, got_app, app_assoc, E1.
  destruct (Z.eqb_spec (len x) 4096) as [FU|FU].
  - unfold mbind in R2. apply runs_obind in R2 as [([s2 r] & t3 & t4 & -> & R3 & R4)|[(q & R3 & ->)|[[R3 ->]|[R3 ->]]]];
      destruct (append_full Cline (h ch) s1 _ _ S1 ltac:(lia) R3) as [-> E]; try discriminate. inv E.
    split; [split; [auto|constructor]|]. cbn [got]. rewrite !app_nil_r. split; auto. right. exists [ch], u1. split; auto. split; [rewrite len_app; change (len [ch]) with 1; lia|].
    replace (firstn (Z.to_nat 4096) (x ++ [ch])) with x; auto. replace (Z.to_nat 4096) with (length x) by (unfold len in FU; lia). symmetry. apply firstn_app_exact.
  - unfold mbind in R2. apply runs_obind in R2 as [([s2 r] & t3 & t4 & -> & R3 & R4)|[(q & R3 & ->)|[[R3 ->]|[R3 ->]]]].
    + apply fine_app in F2 as [F3 F4]. destruct (append_small Cline (h ch) s1 S1 ltac:(lia) _ _ R3 F3) as (C3 & (FR1 & FR2 & FR3) & SI & CO).
      assert (GG : G s2 u1 (x ++ [ch]) (y ++ [h ch])).
      { split; [eapply bufs_eq; eauto|]. split; [eapply strs_now; [|exact S1]; split; [split; [exact FR1|split; [exact FR2|exact FR3]]|split; [exact SI|reflexivity]]|].
        split; [rewrite CO, SA1, G3; auto|]. rewrite !len_app. change (len [h ch]) with 1. change (len [ch]) with 1. split; [lia|]. split; [lia|].
        split; [apply Forall_app; split; [exact G6|constructor; [exact CH|constructor]]|]. split; [intros f Hf; rewrite FR2, SA1; auto|congruence]. }
      destruct (H _ _ _ CH GG _ _ R4 F4) as [I1 I2]. cbn [ku] in I2. rewrite core_app, C3, got_app, <- (got_core _ t3), C3. cbn [app got]. split; auto.
      destruct o as [[[s3 r3]|q]| |]; auto.
      * destruct I2 as (x' & u' & E' & I2). exists (ch :: x'), u'. rewrite E'. rewrite <- app_assoc in I2. auto.
      * destruct I2 as (-> & [I2|(x' & u' & E' & I2)]); split; auto; [left; apply failed_app; apply failed_app; auto|]. right. exists (ch :: x'), u'. rewrite E'. rewrite <- app_assoc in I2. auto.
    + destruct (append_small Cline (h ch) s1 S1 ltac:(lia) _ _ R3 F2) as (C3 & -> & FA). rewrite C3. split; [split; [auto|constructor]|]. split; auto. left. apply failed_app. auto.
    + destruct (append_small Cline (h ch) s1 S1 ltac:(lia) _ _ R3 F2) as (C3 & []).
    + destruct (append_small Cline (h ch) s1 S1 ltac:(lia) _ _ R3 F2) as (C3 & _). rewrite C3. split; [split; [auto|constructor]|]. auto.
Qed.
Lemma eat_take : forall s u x y, G s u x y -> fold_left next x P0 <> Done ->
  eat (take fuel c) s (mkview (cu v0) u (kp v0)) x (fun ch s' u' x' => is_byte ch /\ x' = x ++ [ch] /\ G s' u' (x ++ [ch]) (y ++ [ch])).
Proof.
  intros s u x y GG ND. unfold take. apply (eat_char _ (fun ch => line_append Cline ch) (fun ch => ch) (fun ch => mret ch) s u x y); auto.
  intros ch s' u' CH G'. apply eat_ret. cbn [ku]. auto.
Qed.

Lemma fold_stay : forall p t, p = More \/ p = Last -> ~ In 10 t -> fold_left next t p = p.
Proof.
  intros p t P. induction t as [|b t IH]; intros N; [reflexivity|]. cbn [fold_left]. replace (next p b) with p; [apply IH; intros H; apply N; right; auto|].
  assert (b <> 10) by (intros ->; apply N; left; auto). destruct P as [-> | ->]; cbn [next]; destruct (Z.eqb_spec b 10); congruence.
Qed.
(** What a line still has after [ch]. *)
Definition linerest (ch : Z) (t : list Z) : Prop := (ch = 10 /\ t = []) \/ (ch <> 10 /\ exists z, t = z ++ [10] /\ ~ In 10 z).
Lemma eat_rest : forall f ch s u x y, G s u x y -> (ch = 10 \/ (fold_left next x P0 = More \/ fold_left next x P0 = Last)) ->
  eat (rest_of_line fuel c f ch) s (mkview (cu v0) u (kp v0)) x (fun _ s' u' x' => exists t, x' = x ++ t /\ linerest ch t /\ G s' u' (x ++ t) (y ++ t)).
Proof.
  induction f as [|f IH]; intros ch s u x y GG P; cbn [rest_of_line]; [apply eat_halt|]. unfold LF. destruct (Z.eqb_spec ch 10) as [->|N].
  - apply eat_ret. exists []. rewrite !app_nil_r. split; auto. split; [left; auto|exact GG].
  - destruct P as [P|P]; [congruence|].
    eapply eat_bind; [apply eat_take; [exact GG|destruct P as [-> | ->]; discriminate]|]. cbn beta. intros ch2 s2 u2 x2 (CH & -> & G2). cbn [cu ku kp].
    eapply eat_weak; [apply IH; [exact G2|]|].
    + destruct (Z.eqb_spec ch2 10) as [->|N2]; [left; auto|right]. rewrite fold_left_app. cbn [fold_left]. destruct P as [-> | ->]; cbn [next]; destruct (Z.eqb_spec ch2 10); auto; congruence.
    + cbn beta. intros _ s3 u3 x3 (t & -> & LR & G3). exists (ch2 :: t). rewrite <- !app_assoc in *. cbn [app] in *. split; auto. split; auto. right. split; auto.
      destruct LR as [[-> ->]|(N2 & z & -> & Nz)]; [exists []; auto|]. exists (ch2 :: z). split; auto. intros [Q|Q]; auto.
Qed.

(** Up to the separator of the last line. *)
Lemma eat_lines : forall f ap cd s u x, G s u x x -> fold_left next x P0 = P3 ->
  eat (reply_lines fuel c f ap cd) s (mkview (cu v0) u (kp v0)) x (fun d s' u' x' => exists r,
     x' = (x ++ r) ++ [d] /\ fold_left next (x ++ r) P0 = P3 /\ d <> 45 /\ is_byte d /\
     G s' u' ((x ++ r) ++ [d]) ((x ++ r) ++ [if (match ap with Some _ => true | None => false end) && (cd =? 250) && (d =? 32) then 45 else d])).
Proof.
  induction f as [|f IH]; intros ap cd s u x GG P; cbn [reply_lines]; [apply eat_halt|].
  eapply (eat_char _ (fun ch => if (match ap with Some _ => true | None => false end) && (cd =? 250) && (ch =? SP) then line_append Cline 45 else line_append Cline ch)
     (fun ch => if (match ap with Some _ => true | None => false end) && (cd =? 250) && (ch =? 32) then 45 else ch)); [|exact GG|rewrite P; discriminate|].
  - intros ch. unfold SP. destruct ((match ap with Some _ => true | None => false end) && (cd =? 250) && (ch =? 32)); reflexivity.
  - cbn beta. intros ch s1 u1 CH G1. destruct (Z.eqb_spec ch 45) as [->|N]; cbn [negb].
    + replace (if (match ap with Some _ => true | None => false end) && (cd =? 250) && (45 =? 32) then 45 else 45) with 45 in G1 by (destruct (_ && _ && _); reflexivity).
      assert (Fa : fold_left next (x ++ [45]) P0 = More) by (rewrite fold_left_app, P; reflexivity).
      eapply eat_bind; [apply eat_rest; [exact G1|auto]|]. cbn beta. intros _ s2 u2 x2 (t & -> & LR & G2). cbn [cu kp].
      destruct LR as [[Q _]|(_ & z & -> & Nz)]; [discriminate|].
      assert (Fb : fold_left next ((x ++ [45]) ++ z ++ [10]) P0 = P0). { rewrite fold_left_app, Fa, fold_left_app, (fold_stay More z (or_introl eq_refl) Nz). reflexivity. }
      eapply eat_bind; [apply eat_take; [exact G2|rewrite Fb; discriminate]|]. cbn beta. intros a s3 u3 x3 (Ca & -> & G3). cbn [cu kp].
      assert (Fc : fold_left next (((x ++ [45]) ++ z ++ [10]) ++ [a]) P0 = P1) by (rewrite fold_left_app, Fb; reflexivity).
      eapply eat_bind; [apply eat_take; [exact G3|rewrite Fc; discriminate]|]. cbn beta. intros b s4 u4 x4 (Cb & -> & G4). cbn [cu kp].
      assert (Fd : fold_left next ((((x ++ [45]) ++ z ++ [10]) ++ [a]) ++ [b]) P0 = P2) by (rewrite fold_left_app, Fc; reflexivity).
      eapply eat_bind; [apply eat_take; [exact G4|rewrite Fd; discriminate]|]. cbn beta. intros d s5 u5 x5 (Cd & -> & G5). cbn [cu kp].
      assert (Fe : fold_left next (((((x ++ [45]) ++ z ++ [10]) ++ [a]) ++ [b]) ++ [d]) P0 = P3) by (rewrite fold_left_app, Fd; reflexivity).
      eapply eat_weak; [apply IH; [exact G5|exact Fe]|]. cbn beta. intros e s6 u6 x6 (r & -> & Q1 & Q2 & Q3 & Q4).
      assert (EQ : (((((x ++ [45]) ++ z ++ [10]) ++ [a]) ++ [b]) ++ [d]) ++ r = x ++ ([45] ++ z ++ [10] ++ [a] ++ [b] ++ [d] ++ r)) by (rewrite <- !app_assoc; reflexivity).
      rewrite EQ in *. eexists. split; [reflexivity|]. auto.
    + apply eat_ret. cbn [ku]. exists []. rewrite app_nil_r. auto.
Qed.

(** The code of a reply as the C program computes it. *)
Lemma addcode_ok : forall a b d, addcode (addcode (u64 (a - 48)) b) d = u64 (100 * (a - 48) + 10 * (b - 48) + (d - 48)).
Proof.
  intros a b d. unfold addcode, u64. set (M := two64). assert (M <> 0) by discriminate.
  rewrite !Zplus_mod_idemp_l, !Zplus_mod_idemp_r, ?Zmult_mod_idemp_l. rewrite <- (Zplus_mod_idemp_l (_ mod M * 10)), Zmult_mod_idemp_l, Zplus_mod_idemp_l.
  rewrite (Z.mod_eq (a - 48) M) by auto. rewrite <- (Z_mod_plus_full (100 * (a - 48) + 10 * (b - 48) + (d - 48)) (- (100 * ((a - 48) / M))) M).
  f_equal. ring.
Qed.
End Eat.
End Run.
