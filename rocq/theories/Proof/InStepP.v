(** Network process and key process agree on what was asked and answered. *)
From Verif.Model Require Import Base Sys Io Str Stubs Framed.
From Verif.Spec Require Import Stream Text PemFile Curve Protocol InStep.
From Verif.Proof Require Import Tac SysP CallsP IoP FrameP DialogueP StubsP KeyjailP.

(** ** Both sides follow one script *)
Inductive kind : Type := KN | KC | KS | KP | KV.
Definition count (k : kind) : nat := match k with KN => 1 | KC => 1 | KS => 3 | KP => 6 | KV => 4 end.
Definition next (k : kind) (ms : list (list Z)) : kind :=
  match k with KN => match ms with [[]] => KC | _ => KN end | KC => KS | KS => KP | KP => KV | KV => KV end.
Definition small (m : list Z) : Prop := len m < two63.
Definition shape_ok (k : kind) (ms ws : list (list Z)) : Prop :=
  match k with
  | KN => match ms with [[]] => ws = [] | _ => exists w, ws = [w] /\ wire w end
  | KC => exists p, ws = [frame p] /\ len p <= 133
  | KS => exists p, ws = [frame p] /\ small p
  | KP => ws = []
  | KV => if leval (hd [] ms) =? 0 then exists p, ws = [frame p] /\ len p = 12
          else exists b p, ws = [frame [b]; frame p] /\ near b /\ small p
  end.
Fixpoint script (k : kind) (log : list exchange) : Prop :=
  match log with
  | [] => True
  | (ms, ws) :: log => length ms = count k /\ Forall small ms /\ shape_ok k ms ws /\ script (next k ms) log
  end.
Fixpoint reached (k : kind) (log : list exchange) : kind :=
  match log with [] => k | (ms, _) :: log => reached (next k ms) log end.

Lemma script_app : forall a k b, script k (a ++ b) <-> script k a /\ script (reached k a) b.
Proof. induction a as [|[ms ws] a IH]; intros k b; cbn; [tauto|]. rewrite IH. tauto. Qed.
Lemma reached_app : forall a k b, reached k (a ++ b) = reached (reached k a) b.
Proof. induction a as [|[ms ws] a IH]; intros k b; cbn; auto. Qed.
Lemma requests_app : forall a b, requests (a ++ b) = requests a ++ requests b.
Proof. intros. unfold requests. rewrite map_app, concat_app, frames_app. reflexivity. Qed.
Lemma replies_app : forall a b, replies (a ++ b) = replies a ++ replies b.
Proof. intros. unfold replies. rewrite map_app, !concat_app. reflexivity. Qed.
Lemma requests_cons : forall ms ws l, requests ((ms, ws) :: l) = frames ms ++ requests l.
Proof. intros. unfold requests. cbn [map concat fst]. apply frames_app. Qed.
Lemma replies_cons : forall ms ws l, replies ((ms, ws) :: l) = concat ws ++ replies l.
Proof. intros. unfold replies. cbn [map concat snd]. apply concat_app. Qed.

(** ** Decoding is unique *)
Lemma small64 : forall m, small m -> len m < two64.
Proof. unfold small, two63, two64. intros. lia. Qed.
Lemma frames_prefix : forall ms ms' r r', length ms = length ms' -> Forall small ms -> Forall small ms' -> frames ms ++ r = frames ms' ++ r' -> ms = ms' /\ r = r'.
Proof.
  induction ms as [|m ms IH]; intros [|m' ms'] r r' L F F' E; cbn in L; try lia; auto.
  inversion F as [|? ? F1 F2]; inversion F' as [|? ? F3 F4]; subst. unfold frames in E. cbn [map concat] in E. rewrite <- !app_assoc in E.
  apply frame_prefix in E as [-> E]; try (apply small64; auto). apply IH in E as [-> ->]; auto.
Qed.
Lemma wire_prefix : forall w w' r r', wire w -> wire w' -> w ++ r = w' ++ r' -> w = w' /\ r = r'.
Proof.
  intros w w' r r' W W' E. change (2 ^ 63) with two63 in *.
  assert (P : forall m v, len m < two63 -> 0 < v < 2 ^ 63 -> forall r r', frame m ++ r = errframe v ++ r' -> False).
  { intros m v M V s s' X. unfold frame, errframe in X. rewrite <- app_assoc in X. apply app_eq_len in X as [X _]; [|rewrite !le_length; reflexivity].
    apply (f_equal leval) in X. pose proof (len_nonneg _ m). change (2 ^ 63) with two63 in V. change (2 ^ 64) with two64 in X. pose proof two63_64.
    rewrite !leval_le in X by (change (256 ^ Z.of_nat 8) with two64; lia). lia. }
  destruct W as [(m & M & ->)|(v & V & ->)], W' as [(m' & M' & ->)|(v' & V' & ->)].
  - apply frame_prefix in E as [-> ->]; auto; apply small64; auto.
  - exfalso. eauto.
  - exfalso. symmetry in E. eauto.
  - apply app_eq_len in E; [auto|]. unfold errframe. rewrite !le_length. reflexivity.
Qed.
Lemma shape_prefix : forall k ms ws ws' r r', shape_ok k ms ws -> shape_ok k ms ws' -> concat ws ++ r = concat ws' ++ r' -> ws = ws' /\ r = r'.
Proof.
  assert (F : forall p p' r r', small p -> small p' -> concat [frame p] ++ r = concat [frame p'] ++ r' -> [frame p] = [frame p'] /\ r = r').
  { intros p p' r r' S S' E. cbn [concat] in E. rewrite !app_nil_r in E. apply frame_prefix in E as [-> ->]; auto; apply small64; auto. }
  assert (SM : forall p n, len p <= n -> n < 1000 -> small p) by (intros; unfold small, two63; lia).
  intros k ms ws ws' r r' H H' E. destruct k; cbn [shape_ok] in *.
  - destruct ms as [|[|x m] [|m2 ms]]; try (subst; auto; fail).
    all: destruct H as (w & -> & W), H' as (w' & -> & W'); cbn [concat] in E; rewrite !app_nil_r in E; apply wire_prefix in E as [-> ->]; auto.
  - destruct H as (w & -> & W), H' as (w' & -> & W'). apply F in E; auto; eapply SM; eauto; lia.
  - destruct H as (w & -> & W), H' as (w' & -> & W'). apply F in E; auto.
  - subst. auto.
  - destruct (_ =? 0).
    + destruct H as (w & -> & W), H' as (w' & -> & W'). apply F in E; auto; apply (SM _ 12); lia.
    + destruct H as (b & p & -> & _ & W), H' as (b' & p' & -> & _ & W'). cbn [concat] in E. rewrite !app_nil_r, <- !app_assoc in E.
      apply frame_prefix in E as [EB E]; try reflexivity. injection EB as ->. apply frame_prefix in E as [-> ->]; auto; apply small64; auto.
Qed.

(** ** The two logs *)
Lemma wire_nonempty : forall w, wire w -> w <> [].
Proof. intros w [(m & _ & ->)|(v & _ & ->)]; unfold frame, errframe; intros E; apply (f_equal (@length Z)) in E; rewrite ?app_length, le_length in E; cbn in E; lia. Qed.
Lemma shape_nil : forall k ms ws, shape_ok k ms ws -> concat ws = [] -> ws = [].
Proof.
  assert (N : forall m r, frame m ++ r <> []) by (intros m r E; apply (f_equal (@length Z)) in E; unfold frame in E; rewrite !app_length, le_length in E; cbn in E; lia).
  intros k ms ws H E. destruct k; cbn [shape_ok] in H.
  - destruct ms as [|[|x m] [|m2 ms]]; auto. all: destruct H as (w & -> & W); cbn [concat] in E; rewrite app_nil_r in E; apply wire_nonempty in W; contradiction.
  - destruct H as (p & -> & _). exfalso. eapply N; eauto.
  - destruct H as (p & -> & _). exfalso. eapply N; eauto.
  - auto.
  - destruct (_ =? 0).
    + destruct H as (p & -> & _). exfalso. eapply N; eauto.
    + destruct H as (b & p & -> & _). exfalso. eapply N; eauto.
Qed.
Lemma replies_nil : forall log k, script k log -> replies log = [] -> Forall unanswered log.
Proof.
  induction log as [|[ms ws] log IH]; intros k S E; constructor; destruct S as (_ & _ & S & S2); rewrite replies_cons in E; apply app_eq_nil in E as [E1 E2].
  - eapply shape_nil; eauto.
  - eapply IH; eauto.
Qed.

Lemma agree_ok : forall Ln Lk k pn pk rn y, script k Ln -> script k Lk -> requests Lk ++ pk = requests Ln ++ pn -> replies Ln ++ rn ++ y = replies Lk ->
  (exists more, Lk = Ln ++ more /\ script (reached k Ln) more /\ requests more ++ pk = pn /\ rn ++ y = replies more) \/
  (exists more, Ln = Lk ++ more /\ Forall unanswered more /\ rn = []).
Proof.
  induction Ln as [|[ms ws] Ln IH]; intros Lk k pn pk rn y Sn Sk E R.
  - left. exists Lk. cbn [app reached] in *. auto.
  - destruct Lk as [|[ms' ws'] Lk].
    + right. exists ((ms, ws) :: Ln). cbn [app]. change (replies []) with (@nil Z) in R. apply app_eq_nil in R as [R1 R2]. apply app_eq_nil in R2 as [R2 _].
      repeat split; auto. eapply replies_nil; eauto.
    + destruct Sn as (A1 & A2 & A3 & A4), Sk as (B1 & B2 & B3 & B4). rewrite !requests_cons, <- !app_assoc in E.
      apply frames_prefix in E as [-> E]; auto; [|congruence]. rewrite !replies_cons, <- !app_assoc in R. apply (shape_prefix _ _ _ _ _ _ A3 B3) in R as [-> R].
      destruct (IH Lk (next k ms) pn pk rn y A4 B4 E R) as [(more & -> & X)|(more & -> & X)]; [left|right]; exists more; auto.
Qed.

(** ** The key process follows the script *)
Definition kindof (ph : phase) : kind := match ph with Naming => KN | Curve => KC | Signing _ => KS | Peer _ => KP | Serving => KV end.
Definition phok (ph : phase) : Prop := match ph with Signing n | Peer n => n <= 133 | _ => True end.

Lemma shape_more : forall ph acc r, shape ph acc = More r -> phok ph -> (length acc < count (kindof ph))%nat /\ forall m, fits r m -> small m.
Proof.
  assert (X : forall n, n < two63 -> forall m, fits (Exact n) m -> small m) by (unfold small; cbn; intros; lia).
  assert (Y : forall n, n < two63 -> forall m, fits (Upto n) m -> small m) by (unfold small; cbn; intros; lia).
  intros [| |n|n|] acc r E P; cbn [phok] in P; cbn [shape] in E.
  - destruct acc; [|discriminate]. injection E as <-. split; [cbn; lia|]. apply Y. reflexivity.
  - destruct acc; [|discriminate]. injection E as <-. split; [cbn; lia|]. apply X. reflexivity.
  - destruct acc as [|a [|mx [|b acc]]]; try discriminate E; try (injection E as <-; split; [cbn; lia|]; apply X; reflexivity).
    destruct (Z.leb_spec (leval mx) 2048); [|discriminate]. injection E as <-. split; [cbn; lia|]. apply Y. unfold two63. lia.
  - destruct acc as [|a [|b [|c [|d [|e [|f acc]]]]]]; try discriminate E; injection E as <-; (split; [cbn; lia|]; apply X; unfold two63; lia).
  - destruct acc as [|ty acc]; [injection E as <-; split; [cbn; lia|]; apply X; reflexivity|].
    destruct (leval ty =? 0).
    + destruct acc as [|a [|n [|b acc]]]; try discriminate E; try (injection E as <-; split; [cbn; lia|]; apply X; reflexivity).
      destruct (Z.leb_spec (leval n) 48); [|discriminate]. injection E as <-. split; [cbn; lia|]. apply Y. unfold two63. lia.
    + destruct (_ || _); [|discriminate]. destruct acc as [|a [|n [|b acc]]]; try discriminate E; injection E as <-; (split; [cbn; lia|]); [apply X|apply X|apply Y]; reflexivity.
Qed.
Lemma shape_done : forall ph acc, shape ph acc = Done -> (length acc <= count (kindof ph))%nat -> length acc = count (kindof ph).
Proof.
  intros [| |n|n|] acc E L; cbn [kindof count] in *; cbn [shape] in E.
  - destruct acc; [discriminate|]. cbn in *. lia.
  - destruct acc; [discriminate|]. cbn in *. lia.
  - destruct acc as [|a [|mx [|b acc]]]; try discriminate E. destruct (_ <=? _); discriminate. cbn in *. lia.
  - destruct acc as [|a [|b [|c [|d [|e [|f acc]]]]]]; try discriminate E. cbn in *. lia.
  - destruct acc as [|ty acc]; [discriminate|]. destruct (_ =? 0).
    + destruct acc as [|a [|mx [|b acc]]]; try discriminate E. destruct (_ <=? _); discriminate. cbn in *. lia.
    + destruct (_ || _); [|discriminate]. destruct acc as [|a [|mx [|b acc]]]; try discriminate E. cbn in *. lia.
Qed.

Lemma errno_wire : forall e, 0 <= e < 2 ^ 31 -> wire (le 8 ((- e) mod 2 ^ 64)).
Proof.
  intros e H. change (2 ^ 31) with 2147483648 in H. destruct (Z.eq_dec e 0) as [->|N].
  - left. exists []. split; reflexivity.
  - right. exists e. split; [change (2 ^ 63) with 9223372036854775808; lia|]. unfold errframe. f_equal.
    change (2 ^ 64) with 18446744073709551616. rewrite <- (Z_mod_plus_full _ 1), Z.mod_small; lia.
Qed.
Lemma off_near : forall off, -64 <= off <= 64 -> near (off mod 256).
Proof.
  intros off H. unfold near. destruct (Z_lt_dec off 0).
  - right. rewrite <- (Z_mod_plus_full _ 1), Z.mod_small; lia.
  - left. rewrite Z.mod_small; lia.
Qed.
Lemma sizes_small : forall c a n x, sizes c = Some (a, n, x) -> n <= 133.
Proof. intros c a n x E. unfold sizes in E. repeat match type of E with context [match ?b with _ => _ end] => destruct b; try discriminate E end; injection E; intros; lia. Qed.

Section KEY.
Variables (nojail : bool) (account dir : option (list Z)).

Lemma work_script : forall ph acc t ws ph', work nojail account dir ph acc t ws ph' -> phok ph ->
  phok ph' /\ kindof ph' = next (kindof ph) acc /\ shape_ok (kindof ph) acc ws.
Proof.
  intros ph acc t ws ph' W P. inversion W; subst; cbn [kindof next shape_ok phok] in *; auto.
  - destruct m as [|x m]; [congruence|]. repeat split; auto. eexists. split; [reflexivity|]. left. eauto.
  - destruct m as [|x m]; [congruence|]. repeat split; auto. eexists. split; [reflexivity|]. apply errno_wire. auto.
  - pose proof (sizes_small _ _ _ _ H). split; auto. split; auto. exists p. split; auto. destruct H2 as [H2 _]. lia.
  - split; auto. split; auto. exists g. split; auto. destruct H2 as [H2 _]. unfold small, two63. lia.
  - split; auto. split; auto. exists []. split; auto. reflexivity.
  - split; auto. split; auto. cbn [hd]. rewrite H. cbn [Z.eqb]. exists p. split; auto. destruct H1; auto.
  - split; auto. split; auto. cbn [hd]. rewrite H. cbn [Z.eqb]. exists 0, []. split; auto. split; [left; lia|reflexivity].
  - split; auto. split; auto. cbn [hd]. rewrite H. cbn [Z.eqb]. eexists _, _. split; [reflexivity|]. split; [apply off_near; auto|]. unfold small, two63. lia.
  - split; auto. split; auto. cbn [hd]. rewrite H. cbn [Z.eqb]. eexists _, _. split; [reflexivity|]. split; [apply off_near; auto|]. unfold small, two63. lia.
Qed.

Lemma dialogue_script : forall ph acc tr log o, dialogue nojail account dir ph acc tr log o -> phok ph -> Forall small acc -> (length acc <= count (kindof ph))%nat ->
  script (kindof ph) log.
Proof.
  intros ph acc tr log o D. induction D; intros P F L; try exact Logic.I; auto.
  - destruct (shape_more _ _ _ H P) as [S M]. apply IHD; auto.
    + apply Forall_app. split; auto.
    + rewrite app_length. cbn. lia.
  - destruct (work_script _ _ _ _ _ H0 P) as (A & B & C). cbn [script]. repeat split; auto.
    + apply shape_done; auto.
    + rewrite <- B. apply IHD; auto. cbn. lia.
  - destruct (work_script _ _ _ _ _ H0 P) as (A & B & C). cbn [script]. repeat split; auto. apply shape_done; auto.
Qed.
End KEY.

(** ** The network process follows the script *)
Definition kst (s : stage) : kind := match s with SNames => KN | SSign => KS | SPeer => KP | SRecords => KV end.

Lemma small_le : forall n v, (n <= 8)%nat -> small (le n v).
Proof. intros. unfold small, len. rewrite le_length. unfold two63. lia. Qed.
Lemma small_firstn : forall n (l : list Z), Z.of_nat n <= 20000 -> small (firstn n l).
Proof. intros. unfold small, len. rewrite firstn_length. unfold two63. lia. Qed.
Lemma small_lt : forall l, len l < 2 ^ 62 -> small l.
Proof. intros l H. unfold small, two63. change (2 ^ 62) with 4611686018427387904 in H. lia. Qed.
Lemma finished_small : forall p rest, finished (p ++ 0 :: rest) -> nonul p -> small (p ++ [0]).
Proof. intros p rest F N. apply finished_dec in F; auto. destruct F as [-> | ->]; reflexivity. Qed.

Lemma asks_script : forall s c s' q, call_ok c -> stage_after s c = Some s' -> asks c q ->
  match c with
  | Mulgen _ _ => exists x, q = [[[]]; [x]] /\ small x /\ s = SNames /\ s' = SSign
  | _ => exists ms, q = [ms] /\ length ms = count (kst s) /\ Forall small ms /\ kst s' = next (kst s) ms
  end.
Proof.
  intros s c s' q K S A. destruct c, s; cbn [stage_after] in S; try discriminate S; injection S as <-; cbn [asks call_ok] in *.
  - destruct A as (p & r & -> & N & ->). destruct K as (p' & r' & E & N' & L). apply cut_unique in E as [-> _]; auto. exists [p' ++ [0]]. split; auto. split; auto. split.
    + constructor; auto. unfold small. rewrite len_app. change (len [0]) with 1. change (2 ^ 62) with 4611686018427387904 in L. unfold two63. lia.
    + cbn [kst next]. destruct p'; reflexivity.
  - subst q. eexists. repeat split; auto.
  - subst q. eexists. repeat split; auto. repeat (apply Forall_cons || apply Forall_nil). reflexivity. apply small_le; lia. apply small_firstn. lia.
  - subst q. eexists. repeat split; auto. repeat (apply Forall_cons || apply Forall_nil); try (apply small_le; lia); apply small_lt; tauto.
  - destruct A as (p & r & x & -> & N & F & -> & ->). eexists. split; [reflexivity|]. split; auto. split; auto.
    repeat (apply Forall_cons || apply Forall_nil); try reflexivity; try (apply small_le; lia).
    + eapply finished_small; eauto.
    + destruct K as (_ & _ & _ & K). inversion K; subst. apply small_lt. auto.
  - subst q. eexists. repeat split; auto. repeat (apply Forall_cons || apply Forall_nil); try reflexivity; try (apply small_le; lia); apply small_firstn; lia.
  - subst q. eexists. repeat split; auto. repeat (apply Forall_cons || apply Forall_nil); try reflexivity; try (apply small_le; lia); apply small_firstn; lia.
Qed.

Lemma answers_shape : forall s c s' ms ws a, call_ok c -> stage_after s c = Some s' -> asks c [ms] -> answers c ws a -> shape_ok (kst s) ms ws.
Proof.
  intros s c s' ms ws a K S A B. destruct c, s; cbn [stage_after] in S; try discriminate S; cbn [asks call_ok answers] in *; cbn [kst shape_ok].
  - destruct A as (p & r & -> & N & E). injection E as ->. destruct B as (w & -> & B). destruct p; exists w; (split; [reflexivity|]); destruct B as [B|(v & V & E & _)]; [left|right|left|right]; eauto.
  - discriminate A.
  - destruct B as (g & G & -> & _). exists g. split; auto. unfold small, two63. lia.
  - tauto.
  - destruct A as (p & r & x & -> & N & F & -> & E). injection E as ->. cbn [hd leval]. change (0 + 256 * 0 =? 0) with true. cbn iota. destruct B as (p0 & P & -> & _). eauto.
  - injection A as ->. cbn [hd leval]. change (1 + 256 * 0 =? 0) with false. cbn iota. destruct B as (o & p & N & _ & L & -> & _). exists o, p. repeat split; auto. unfold small, two63. lia.
  - injection A as ->. cbn [hd leval]. change (2 + 256 * 0 =? 0) with false. cbn iota. destruct B as (o & p & N & _ & L & -> & _). exists o, p. repeat split; auto. unfold small, two63. lia.
Qed.

Lemma logged_streams : forall q ws, q <> [] -> requests (logged q ws) = sends q /\ replies (logged q ws) = concat ws.
Proof.
  induction q as [|x q IH]; intros ws N; [congruence|]. destruct q as [|y q].
  - cbn [logged]. rewrite requests_cons, replies_cons, sends_one. unfold requests, replies. cbn. rewrite !app_nil_r. auto.
  - change (logged (x :: y :: q) ws) with ((x, []) :: logged (y :: q) ws). rewrite requests_cons, replies_cons. destruct (IH ws) as [-> ->]; [discriminate|]. auto.
Qed.
Lemma asks_nonempty : forall c q, asks c q -> q <> [].
Proof. intros [] q A; cbn [asks] in A; try (subst; discriminate). - destruct A as (? & ? & ? & ? & ->). discriminate. - destruct A as (? & ? & ? & ? & ? & ? & ? & ->). discriminate. Qed.

Lemma call_script : forall s c s' q ws a, call_ok c -> stage_after s c = Some s' -> asks c q -> answers c ws a ->
  script (kst s) (logged q ws) /\ reached (kst s) (logged q ws) = kst s'.
Proof.
  intros s c s' q ws a K S A B. pose proof (asks_script _ _ _ _ K S A) as X.
  assert (G : (exists ms, q = [ms] /\ length ms = count (kst s) /\ Forall small ms /\ kst s' = next (kst s) ms) -> script (kst s) (logged q ws) /\ reached (kst s) (logged q ws) = kst s').
  { intros (ms & -> & X1 & X2 & X3). cbn [logged script reached]. rewrite X3. repeat split; auto. eapply answers_shape; eauto. }
  destruct c; auto. clear G. destruct X as (x & -> & X1 & -> & ->). cbn [answers] in B. destruct B as (p & B1 & -> & _).
  cbn [logged script reached kst next count length]. repeat split; auto.
  - repeat (apply Forall_cons || apply Forall_nil). reflexivity.
  - exists p. auto.
Qed.

Section NET.
Variables (fuel : nat) (to from : Z).
Definition at_end (k : kind) (e : ending) (pn rn : list Z) : Prop :=
  match e with
  | Quit => pn = [] /\ rn = []
  | Lost => True
  | Refused c ws hd => exists q s s' pn' rn', call_ok c /\ asks c q /\ stage_after s c = Some s' /\ k = kst s /\ pn = sends q ++ pn' /\
      rn = concat ws ++ hd ++ rn' /\ length hd = 8%nat /\ unfit c ws (leval hd)
  | Astray c b => exists q s s' pn' rn', call_ok c /\ asks c q /\ stage_after s c = Some s' /\ k = kst s /\ pn = sends q ++ pn' /\
      rn = frame [b] ++ rn' /\ astray c b
  end.

Lemma talk_script : forall cl t log e o, talk fuel to from cl t log e o -> forall s, ordered s cl ->
  script (kst s) log /\ exists pn rn, sent to t = requests log ++ pn /\ got from t = replies log ++ rn /\ at_end (reached (kst s) log) e pn rn.
Proof.
  intros cl t log e o T. induction T; intros s O; try destruct O as [K O].
  - split; [exact Logic.I|]. exists [], []. repeat split; auto.
  - destruct O as [[LO _]|(s' & S & O)]; [exfalso; eapply local_not_asks; eauto|].
    destruct (IHT s' (O a)) as (A & pn & rn & B & C & D). destruct (call_script _ _ _ _ _ _ K S H H0) as [E F].
    split; [apply script_app; split; auto; rewrite F; auto|]. destruct (logged_streams q ws) as [G1 G2]; [eapply asks_nonempty; eauto|].
    exists pn, rn. rewrite sent_app, got_app, requests_app, replies_app, reached_app, F, G1, G2, H1, H2, B, C, <- !app_assoc. auto.
  - destruct O as [[LO O]|(s' & S & O)].
    + destruct (IHT s (O a)) as (A & pn & rn & B & C & D). split; auto. exists pn, rn. rewrite sent_app, got_app, H0, H1. auto.
    + destruct c; try contradiction H. destruct s; try discriminate S. injection S as <-.
      destruct (IHT _ (O a)) as (A & pn & rn & B & C & D). split; auto. exists pn, rn. rewrite sent_app, got_app, H0, H1. auto.
  - split; [exact Logic.I|]. eexists _, _. split; [reflexivity|]. split; [reflexivity|]. exact Logic.I.
  - destruct O as [[LO _]|(s' & S & O)]; [exfalso; eapply local_not_asks; eauto|].
    split; [exact Logic.I|]. eexists _, _. split; [reflexivity|]. split; [reflexivity|]. rewrite sent_app, got_app, H0, H1, <- app_assoc.
    cbn [at_end]. exists q, s, s'. eexists _, _. cbn [reached]. repeat split; eauto.
  - destruct O as [[LO _]|(s' & S & O)]; [exfalso; eapply local_not_asks; eauto|].
    split; [exact Logic.I|]. eexists _, _. split; [reflexivity|]. split; [reflexivity|]. rewrite sent_app, got_app, H0, H1.
    cbn [at_end]. exists q, s, s'. eexists _, _. cbn [reached]. repeat split; eauto.
Qed.
End NET.

(** ** A reply that was not taken *)

Lemma hd_frame : forall p h r r', small p -> length h = 8%nat -> h ++ r = frame p ++ r' -> h = le 8 (len p) /\ leval h = len p.
Proof.
  intros p h r r' S L E. unfold frame in E. rewrite <- app_assoc in E. apply app_eq_len in E as [-> _]; [|rewrite le_length; auto]. split; auto.
  apply leval_len. apply small64. auto.
Qed.

Lemma first_entry : forall k more ms r pk x y, script k more -> length ms = count k -> Forall small ms -> requests more ++ pk = frames ms ++ r ->
  x ++ y = replies more -> x <> [] -> exists ws more', more = (ms, ws) :: more' /\ shape_ok k ms ws /\ x ++ y = concat ws ++ replies more' /\ requests more' ++ pk = r /\ script (next k ms) more'.
Proof.
  intros k more ms r pk x y S C F E R N. destruct more as [|[ms' ws] more].
  - change (replies []) with (@nil Z) in R. apply app_eq_nil in R as [R _]. contradiction.
  - destruct S as (S1 & S2 & S3 & S4). rewrite requests_cons, <- app_assoc in E. apply frames_prefix in E as [-> E]; auto; [|congruence].
    exists ws, more. rewrite replies_cons in R. auto.
Qed.

Lemma hd_nonempty : forall (l h r : list Z), length h = 8%nat -> l ++ h ++ r <> [].
Proof. intros l h r L E. apply (f_equal (@length Z)) in E. rewrite !app_length in E. cbn in E. lia. Qed.

Lemma refused_why : forall c q s s' ws hd pn rn pk y more, call_ok c -> asks c q -> stage_after s c = Some s' -> script (kst s) more ->
  requests more ++ pk = sends q ++ pn -> (concat ws ++ hd ++ rn) ++ y = replies more -> length hd = 8%nat -> unfit c ws (leval hd) ->
  exists p more', more = logged q (ws ++ [frame p]) ++ more' /\ hd = le 8 (len p) /\ toolong c (len p).
Proof.
  intros c q s s' ws hd pn rn pk y more K A S SC E R L U. pose proof (asks_script _ _ _ _ K S A) as X.
  pose proof (hd_nonempty (concat ws) hd rn L) as NE.
  assert (G : (exists ms, q = [ms] /\ length ms = count (kst s) /\ Forall small ms /\ kst s' = next (kst s) ms) ->
    exists ms ws' more', q = [ms] /\ more = (ms, ws') :: more' /\ shape_ok (kst s) ms ws' /\ (concat ws ++ hd ++ rn) ++ y = concat ws' ++ replies more').
  { intros (ms & -> & X1 & X2 & X3). rewrite sends_one in E. destruct (first_entry _ _ _ _ _ _ _ SC X1 X2 E R NE) as (w & m' & -> & B & C & _). eauto 10. }
  destruct c; cbn [unfit toolong] in *; try contradiction U.
  - destruct (G X) as (ms & ws' & more' & -> & -> & SH & EQ). clear G X. destruct s; try discriminate S. destruct U as [-> U]. cbn [asks] in A. destruct A as (p & r & -> & N & A).
    injection A as ->. assert (exists w, ws' = [w] /\ wire w) as (w & -> & W) by (cbn [kst shape_ok] in SH; destruct p; auto).
    exfalso. cbn [concat app] in EQ. rewrite app_nil_r, <- app_assoc in EQ. destruct W as [(m & M & ->)|(v & V & ->)].
    + apply hd_frame in EQ as [_ EQ]; auto. change (2 ^ 63) with 9223372036854775808 in *. lia.
    + unfold errframe in EQ. apply app_eq_len in EQ as [-> _]; [|rewrite le_length; auto]. change (2 ^ 64) with two64 in U. rewrite leval_le in U by (change (2 ^ 63) with two63 in V; pose proof two63_64; change (256 ^ Z.of_nat 8) with two64; lia).
      change (2 ^ 63) with two63 in *. pose proof two63_64. lia.
  - destruct U as [-> U]. destruct X as (x & -> & X1 & -> & ->). cbn [kst] in SC. unfold sends in E. cbn [map concat] in E. rewrite app_nil_r, <- app_assoc in E.
    destruct (first_entry _ _ [[]] _ _ _ _ SC eq_refl ltac:(constructor; [reflexivity|constructor]) E R NE) as (w & m' & -> & B & C & D & F).
    cbn [shape_ok] in B. subst w. cbn [concat app] in C. cbn [next] in F.
    destruct (first_entry _ _ [x] _ _ (hd ++ rn) y F eq_refl ltac:(constructor; [auto|constructor]) D C NE) as (w & m2 & -> & B & C' & _).
    cbn [shape_ok] in B. destruct B as (p & -> & P). exfalso. cbn [concat] in C'. rewrite app_nil_r, <- app_assoc in C'. apply hd_frame in C' as [_ C']; auto; [lia|]. unfold small, two63. lia.
  - destruct (G X) as (ms & ws' & more' & -> & -> & SH & EQ). clear G X. destruct s; try discriminate S. destruct U as [-> U]. cbn [kst shape_ok] in SH. destruct SH as (p & -> & P).
    cbn [concat app] in EQ. rewrite app_nil_r, <- app_assoc in EQ. apply hd_frame in EQ as [E1 E2]; auto. exists p, more'. cbn [logged app]. rewrite E2 in U. auto.
  - destruct (G X) as (ms & ws' & more' & -> & -> & SH & EQ). clear G X. destruct s; try discriminate S. destruct U as [-> U]. cbn [kst shape_ok] in SH.
    destruct A as (p & r & x & -> & N & F & -> & EM). injection EM as ->. cbn [List.hd leval] in SH. change (0 + 256 * 0 =? 0) with true in SH. cbn iota in SH. destruct SH as (p0 & -> & P).
    exfalso. cbn [concat app] in EQ. rewrite app_nil_r, <- app_assoc in EQ. apply hd_frame in EQ as [E1 E2]; auto; [lia|]. unfold small, two63. lia.
  - destruct (G X) as (ms & ws' & more' & -> & -> & SH & EQ). clear G X. destruct s; try discriminate S. cbn [kst shape_ok] in SH. injection A as ->.
    cbn [List.hd leval] in SH. change (1 + 256 * 0 =? 0) with false in SH. cbn iota in SH. destruct SH as (b & p & -> & NB & P). destruct U as [[-> U]|(o & -> & NO & U)].
    + exfalso. cbn [concat app] in EQ. rewrite app_nil_r, <- !app_assoc in EQ. apply hd_frame in EQ as [E1 E2]; [|reflexivity|auto]. change (len [b]) with 1 in E2. lia.
    + cbn [concat] in EQ. rewrite !app_nil_r, <- !app_assoc in EQ. apply frame_prefix in EQ as [EB EQ]; try reflexivity. injection EB as ->.
      apply hd_frame in EQ as [E1 E2]; auto. exists p, more'. cbn [logged app]. rewrite E2 in U. auto.
  - destruct (G X) as (ms & ws' & more' & -> & -> & SH & EQ). clear G X. destruct s; try discriminate S. cbn [kst shape_ok] in SH. injection A as ->.
    cbn [List.hd leval] in SH. change (2 + 256 * 0 =? 0) with false in SH. cbn iota in SH. destruct SH as (b & p & -> & NB & P). destruct U as [[-> U]|(o & -> & NO & U)].
    + exfalso. cbn [concat app] in EQ. rewrite app_nil_r, <- !app_assoc in EQ. apply hd_frame in EQ as [E1 E2]; [|reflexivity|auto]. change (len [b]) with 1 in E2. lia.
    + cbn [concat] in EQ. rewrite !app_nil_r, <- !app_assoc in EQ. apply frame_prefix in EQ as [EB EQ]; try reflexivity. injection EB as ->.
      apply hd_frame in EQ as [E1 E2]; auto. exists p, more'. cbn [logged app]. rewrite E2 in U. auto.
Qed.

Lemma astray_why : forall c q s s' b pn rn pk y more, call_ok c -> asks c q -> stage_after s c = Some s' -> script (kst s) more ->
  requests more ++ pk = sends q ++ pn -> (frame [b] ++ rn) ++ y = replies more -> astray c b ->
  exists p more', more = logged q [frame [b]; frame p] ++ more' /\ noroom c b.
Proof.
  intros c q s s' b pn rn pk y more K A S SC E R U. pose proof (asks_script _ _ _ _ K S A) as X.
  assert (NE : frame [b] ++ rn <> []) by (apply (hd_nonempty [] _ _ (le_length 8 _))).
  destruct c; try contradiction U; destruct X as (ms & -> & X1 & X2 & X3); rewrite sends_one in E; destruct (first_entry _ _ _ _ _ _ _ SC X1 X2 E R NE) as (w & m' & -> & SH & C & _);
    destruct s; try discriminate S; cbn [kst shape_ok] in SH; injection A as ->; cbn [hd leval] in SH.
  - change (1 + 256 * 0 =? 0) with false in SH. cbn iota in SH. destruct SH as (b' & p & -> & NB & P). cbn [concat] in C. rewrite app_nil_r, <- !app_assoc in C.
    apply frame_prefix in C as [EB C]; try reflexivity. injection EB as <-. exists p, m'. split; [reflexivity|]. cbn [astray noroom] in *. tauto.
  - change (2 + 256 * 0 =? 0) with false in SH. cbn iota in SH. destruct SH as (b' & p & -> & NB & P). cbn [concat] in C. rewrite app_nil_r, <- !app_assoc in C.
    apply frame_prefix in C as [EB C]; try reflexivity. injection EB as <-. exists p, m'. split; [reflexivity|]. cbn [astray noroom] in *. tauto.
Qed.

(** ** Everything together *)
Section BOTH.
Variables (nojail : bool) (account dir : option (list Z)).

Lemma in_step : forall fuel to from cl trn Ln e on trk Lk ok, ordered SNames cl -> talk fuel to from cl trn Ln e on -> dialogue nojail account dir Naming [] trk Lk ok ->
  is_prefix (got 0 trk) (sent to trn) -> is_prefix (got from trn) (sent 1 trk) -> agree Ln Lk e.
Proof.
  intros fuel to from cl trn Ln e on trk Lk ok O T D (z & P1) (y & P2).
  destruct (talk_script _ _ _ _ _ _ _ _ T _ O) as (SN & pn & rn & S1 & S2 & AE). pose proof (dialogue_script _ _ _ _ _ _ _ _ D Logic.I (Forall_nil _) (Nat.le_0_l _)) as SK.
  destruct (dialogue_streams _ _ _ _ _ _ _ _ D) as [(part & Q1) (u & Q2)]. unfold frames in Q1. cbn [map concat app] in Q1. cbn [kst kindof] in *.
  assert (E : requests Lk ++ (part ++ z) = requests Ln ++ pn) by (rewrite app_assoc, <- Q1, <- S1; auto).
  assert (R : replies Ln ++ rn ++ (y ++ u) = replies Lk) by (rewrite app_assoc, <- S2, app_assoc, <- P2; auto).
  destruct (agree_ok _ _ _ _ _ _ _ SN SK E R) as [(more & -> & M1 & M2 & M3)|(more & -> & M1 & M2)].
  - left. exists more. split; auto. destruct e; cbn [at_end] in AE; auto.
    + destruct AE as [-> ->]. apply app_eq_nil in M2 as [M2 _]. destruct more as [|[ms ws] more]; auto. destruct M1 as (M1 & _). rewrite requests_cons in M2. apply app_eq_nil in M2 as [M2 _].
      destruct ms as [|m ms]; [destruct (reached KN Ln); discriminate M1|]. unfold frames in M2. cbn [map concat] in M2. unfold frame in M2. apply app_eq_nil in M2 as [M2 _]. apply app_eq_nil in M2 as [M2 _].
      apply (f_equal (@length Z)) in M2. rewrite le_length in M2. discriminate.
    + destruct AE as (q & s & s' & pn' & rn' & A1 & A2 & A3 & A4 & -> & -> & A5 & A6). rewrite A4 in M1.
      destruct (refused_why _ _ _ _ _ _ _ _ _ _ _ A1 A2 A3 M1 M2 M3 A5 A6) as (p & more' & X). exists q, p, more'. tauto.
    + destruct AE as (q & s & s' & pn' & rn' & A1 & A2 & A3 & A4 & -> & -> & A5). rewrite A4 in M1.
      destruct (astray_why _ _ _ _ _ _ _ _ _ _ A1 A2 A3 M1 M2 M3 A5) as (p & more' & X). exists q, p, more'. tauto.
  - right. exists more. repeat split; auto. subst rn. destruct e; auto; exfalso; cbn [at_end] in AE.
    + destruct AE as (q & s & s' & pn' & rn' & _ & _ & _ & _ & _ & E0 & A5 & _). symmetry in E0. revert E0. apply hd_nonempty. auto.
    + destruct AE as (q & s & s' & pn' & rn' & _ & _ & _ & _ & _ & E0 & _). symmetry in E0. revert E0. apply (hd_nonempty [] _ _ (le_length 8 _)).
Qed.
End BOTH.
