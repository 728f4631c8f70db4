(** Descriptors over whole runs, and the parts of tlswrapper-tcp. *)
From Coq Require Import Permutation.
From Verif.Model Require Import Base Sys Buffer Fdio Conn.
From Verif.Spec Require Import Descriptors Flow.
From Verif.Proof Require Import Tac SysP CallsP MainCallsP ChildP ConnP.

(** ** What fdrun preserves *)
Definition good (L : list Z) : Prop := NoDup L /\ Forall (fun x => 0 <= x < 1024) L.
(** new descriptors fit into a set for select *)
Definition low (e : event) : Prop :=
  match fst e with
  | Other n _ _ =>
    (n = bs "socket" \/ n = bs "dup" -> ret (snd e) < 1024) /\
    (n = bs "pipe" \/ n = bs "socketpair" -> nth 0 (data (snd e)) 0 < 1024 /\ nth 1 (data (snd e)) 0 < 1024)
  | _ => True
  end.
Lemma named_eq : forall n m, named n m = true -> n = m.
Proof. intros n m H. unfold named in H. destruct (list_eq_dec Z.eq_dec n m); [auto|discriminate]. Qed.
Lemma mem_false : forall x L, mem x L = false -> ~ In x L.
Proof. intros x L H N. unfold mem in H. assert (X : existsb (Z.eqb x) L = true); [|congruence]. apply existsb_exists. exists x. split; auto. apply Z.eqb_refl. Qed.
Lemma opens2_ok : forall L a L', opens2 L a = Some L' -> (ret a = -1 /\ L' = L) \/
  exists r s, nth 0 (data a) 0 = r /\ nth 1 (data a) 0 = s /\ 0 <= r /\ 0 <= s /\ ~ In r L /\ ~ In s (r :: L) /\ L' = s :: r :: L.
Proof.
  intros L a L' H. unfold opens2 in H. destruct (Z.eqb_spec (ret a) (-1)); [injection H as <-; left; auto|].
  destruct ((0 <=? nth 0 (data a) 0) && negb (mem (nth 0 (data a) 0) L) && (0 <=? nth 1 (data a) 0) && negb (mem (nth 1 (data a) 0) (nth 0 (data a) 0 :: L))) eqn:E; [|discriminate].
  injection H as <-. apply andb_prop in E as [E E4]. apply andb_prop in E as [E E3]. apply andb_prop in E as [E1 E2].
  right. do 2 eexists. split; [reflexivity|]. split; [reflexivity|]. apply negb_true_iff in E2, E4. apply mem_false in E2, E4. split; [lia|]. split; [lia|]. auto.
Qed.
Lemma good_step : forall L e L', good L -> low e -> fd1 L e = Some L' -> good L'.
Proof.
  intros L [c a] L' [N F] W E. unfold fd1 in E. cbn [fst snd] in E. destruct c; try (injection E as <-; split; assumption).
  - injection E as <-. split; [apply NoDup_filter; auto|]. apply Forall_forall. intros x X. apply filter_In in X as [X _]. rewrite Forall_forall in F. auto.
  - cbn [low fst snd] in W. destruct W as [W1 W2]. destruct (named name (bs "socket") || named name (bs "dup")) eqn:E1.
    + apply orb_prop in E1. assert (W : ret a < 1024) by (apply W1; destruct E1 as [E1|E1]; apply named_eq in E1; auto).
      apply opens_ok in E as [[_ ->]|(P & NI & ->)]; [split; assumption|]. split; constructor; auto.
    + destruct (named name (bs "pipe") || named name (bs "socketpair")) eqn:E2; [|injection E as <-; split; assumption].
      apply orb_prop in E2. assert (W : nth 0 (Sys.data a) 0 < 1024 /\ nth 1 (Sys.data a) 0 < 1024) by (apply W2; destruct E2 as [E2|E2]; apply named_eq in E2; auto).
      apply opens2_ok in E as [[_ ->]|(r & s & <- & <- & P1 & P2 & N1 & N2 & ->)]; [split; assumption|]. split; repeat constructor; auto; lia.
Qed.
Lemma good_run : forall tr L L', good L -> Forall low tr -> fdrun L tr = Some L' -> good L'.
Proof.
  induction tr as [|e tr IH]; intros L L' G W E; cbn [fdrun] in E; [injection E as <-; auto|].
  destruct (fd1 L e) as [L1|] eqn:E1; [|discriminate]. inversion W; subst. eapply IH; [|eassumption|exact E]. eapply good_step; eauto.
Qed.

(** calls that open nothing *)
Definition noopen (c : sys) : Prop :=
  match c with Other n _ _ => n <> bs "socket" /\ n <> bs "dup" /\ n <> bs "pipe" /\ n <> bs "socketpair" | _ => True end.
(** nor close *)
Definition inert (c : sys) : Prop := match c with Close _ => False | _ => noopen c end.
Lemma noopen_step : forall L c a, noopen c -> fd1 L (c, a) = Some (match c with Close f => filter (fun x => negb (x =? f)) L | _ => L end).
Proof.
  intros L c a H. unfold fd1. cbn [fst snd]. destruct c; auto. cbn in H. unfold named.
  repeat match goal with |- context [list_eq_dec Z.eq_dec ?x ?y] => destruct (list_eq_dec Z.eq_dec x y); [tauto|] end. reflexivity.
Qed.
Lemma inert_run : forall tr L, Forall (fun e => inert (fst e)) tr -> fdrun L tr = Some L /\ closes_open L tr.
Proof.
  induction tr as [|[c a] tr IH]; intros L F; [split; [reflexivity|exact I]|]. inversion F as [|? ? H F2]; subst. cbn [fst] in H. cbn [fdrun closes_open].
  rewrite noopen_step by (destruct c; auto; destruct H). destruct (IH L F2) as [E C]. destruct c; auto; try (split; [exact E|split; [intros f X; discriminate|exact C]]). destruct H.
Qed.
Lemma noopen_closed : forall tr L L' f, Forall (fun e => noopen (fst e)) tr -> fdrun L tr = Some L' -> closed f tr -> ~ In f L'.
Proof.
  intros tr L L' f F E [a C]. apply in_split in C as (t1 & t2 & ->). apply Forall_app in F as [F1 F2]. inversion F2 as [|? ? _ F3]; subst.
  rewrite fdrun_app in E. destruct (fdrun L t1) as [L1|]; [|discriminate]. cbn in E.
  assert (X : forall t M M', Forall (fun e => noopen (fst e)) t -> fdrun M t = Some M' -> ~ In f M -> ~ In f M').
  { induction t as [|[c x] t IH]; intros M M' FT ET NM; cbn [fdrun] in ET; [injection ET as <-; auto|]. inversion FT as [|? ? Hc FT2]; subst. rewrite noopen_step in ET by exact Hc.
    eapply IH; [exact FT2|exact ET|]. destruct c; auto. intros Q. apply NM. apply filter_In in Q. tauto. }
  eapply X; [exact F3|exact E|]. intros Q. apply filter_In in Q as [_ Q]. rewrite Z.eqb_refl in Q. discriminate.
Qed.
Lemma noopen_kept : forall tr L L' f, fdrun L tr = Some L' -> In f L -> ~ closed f tr -> In f L'.
Proof.
  induction tr as [|[c a] tr IH]; intros L L' f E N C; cbn [fdrun] in E; [injection E as <-; auto|].
  destruct (fd1 L (c, a)) as [L1|] eqn:E1; [|discriminate]. eapply IH; [exact E| |intros [x X]; apply C; exists x; right; exact X].
  unfold fd1 in E1. cbn [fst snd] in E1. destruct c; try (injection E1 as <-; exact N).
  - injection E1 as <-. apply filter_In. split; auto. destruct (Z.eqb_spec f fd); auto. subst. destruct C. exists a. left. reflexivity.
  - destruct (_ || _); [apply opens_ok in E1 as [[_ ->]|(_ & _ & ->)]; [auto|right; auto]|].
    destruct (_ || _); [|injection E1 as <-; auto]. apply opens2_ok in E1 as [[_ ->]|(r & s & _ & _ & _ & _ & _ & _ & ->)]; [auto|right; right; auto].
Qed.

(** ** Reads while connecting *)
Ltac noop := repeat (calls1 || (progress cbv zeta)); try exact Logic.I; try (repeat split; discriminate).
Lemma closeslot_noopen : forall sl s, calls noopen (closeslot sl s).
Proof. intros. unfold closeslot. noop. Qed.
Lemma reset_noopen : forall m i sl, calls noopen (conn_reset_from m i sl).
Proof. induction m; intros; cbn [conn_reset_from]; noop; auto using closeslot_noopen. Qed.
Lemma check_noopen : forall p sl, calls noopen (conn_check p sl).
Proof. induction p as [|[fd re] p IH]; intros; cbn [conn_check]; noop; auto; try (unfold socket_connected; noop); auto using closeslot_noopen. Qed.
Lemma start_noopen : forall m i sl ip port, calls noopen (conn_start m i sl ip port).
Proof. induction m; intros; cbn [conn_start]; noop; auto using closeslot_noopen; unfold socket_connect; noop. Qed.
Lemma wait_noopen : forall fuel d n sl, calls noopen (conn_wait fuel d n sl).
Proof.
  induction fuel; intros; cbn [conn_wait]; noop; auto using check_noopen; try (unfold conn_reset; apply reset_noopen); try (unfold milliseconds; noop).
  unfold jail_poll. noop.
Qed.
Lemma copyip_noopen : forall m i w sl ip d, calls noopen (copyip_loop m i w sl ip d).
Proof. induction m; intros; cbn [copyip_loop]; noop; auto using closeslot_noopen. Qed.
Lemma conn_noopen : forall fuel sl t ip n port, calls noopen (conn fuel sl t ip n port).
Proof.
  intros. unfold conn. noop; auto using start_noopen, wait_noopen; try (unfold milliseconds; noop). unfold conn_copyip. noop; auto using copyip_noopen.
Qed.
Definition noread (c : sys) : Prop := match c with Read _ _ => False | _ => True end.
Lemma start_noread : forall m i sl ip port, calls noread (conn_start m i sl ip port).
Proof. assert (X : forall sl s, calls noread (closeslot sl s)) by (intros; unfold closeslot; noop). induction m; intros; cbn [conn_start]; noop; auto; unfold socket_connect; noop. Qed.
Lemma reset_noread : forall m i sl, calls noread (conn_reset_from m i sl).
Proof. assert (X : forall sl s, calls noread (closeslot sl s)) by (intros; unfold closeslot; noop). induction m; intros; cbn [conn_reset_from]; noop; auto. Qed.
Lemma copyip_noread : forall m i w sl ip d, calls noread (copyip_loop m i w sl ip d).
Proof. assert (X : forall sl s, calls noread (closeslot sl s)) by (intros; unfold closeslot; noop). induction m; intros; cbn [copyip_loop]; noop; auto. Qed.

(** what was read from is closed *)
Definition tidy (t : trace) : Prop := forall f n a, In (Read f n, a) t -> closed f t.
Lemma closed_l : forall f a b, closed f a -> closed f (a ++ b).
Proof. intros f a b [x X]. exists x. apply in_or_app. auto. Qed.
Lemma closed_r : forall f a b, closed f b -> closed f (a ++ b).
Proof. intros f a b [x X]. exists x. apply in_or_app. auto. Qed.
Lemma tidy_app : forall a b, tidy a -> tidy b -> tidy (a ++ b).
Proof. intros a b A B f n x H. apply in_app_or in H as [H|H]; [apply closed_l; eapply A; eauto|apply closed_r; eapply B; eauto]. Qed.
Lemma noread_tidy : forall t, Forall (fun e => noread (fst e)) t -> tidy t.
Proof. intros t F f n a H. rewrite Forall_forall in F. apply F in H. destruct H. Qed.
Lemma fin_closeslot : forall sl i fd b tr sl', nth_error sl i = Some (fd, b) -> runs (closeslot sl (Some i)) tr (Fin sl') -> closed fd tr /\ sl' = upd sl i none /\ Forall (fun e => noread (fst e)) tr.
Proof.
  intros sl i fd b tr sl' E R. unfold closeslot in R. rewrite E in R. apply fin_sys in R as (x & t & -> & R). apply fin_sys in R as (y & u & -> & R). destruct R as [-> R]. injection R as ->.
  split; [exists x; left; reflexivity|]. split; [reflexivity|]. repeat constructor.
Qed.
Lemma check_tidy : forall p sl T tr r, runs (conn_check p sl) tr (Fin r) ->
  (forall fd re, In (fd, re) p -> fd <> -1 /\ (In fd (map fst sl) \/ closed fd T)) ->
  forall f n a, In (Read f n, a) tr -> closed f (T ++ tr).
Proof.
  induction p as [|[fd re] p IH]; intros sl T tr r R P f n a N; cbn [conn_check] in R; [destruct R as [-> _]; destruct N|].
  assert (P2 : forall fd re, In (fd, re) p -> fd <> -1 /\ (In fd (map fst sl) \/ closed fd T)) by (intros; eapply P; right; eauto).
  destruct (re =? 0); [eapply IH; eauto|]. apply fin_bind in R as (ok & t1 & t2 & -> & R1 & R2).
  assert (S1 : if ok : bool then Forall (fun e => noread (fst e)) t1 else forall f n a, In (Read f n, a) t1 -> f = fd).
  { unfold socket_connected in R1. apply fin_sys in R1 as (g & u & -> & R1). destruct (ret g =? -1).
    - apply fin_sys in R1 as (g2 & u2 & -> & [-> R1]). injection R1 as ->. intros f0 n0 a0 [X|[X|[]]]; congruence.
    - destruct R1 as [-> R1]. injection R1 as ->. repeat constructor. }
  destruct ok.
  { destruct R2 as [-> _]. rewrite app_nil_r in N. rewrite Forall_forall in S1. apply S1 in N. destruct N. }
  apply fin_bind in R2 as (sl1 & t3 & t4 & -> & R2 & R3). destruct (P fd re (or_introl eq_refl)) as [NE IN].
  assert (C : closed fd (T ++ t1 ++ t3) /\ (forall g, g <> -1 -> In g (map fst sl) -> g = fd \/ In g (map fst sl1)) /\ Forall (fun e => noread (fst e)) t3).
  { pose proof (findslot_spec sl fd 0) as F. destruct (findslot sl fd 0) as [j|].
    - destruct F as (s1 & b & s2 & -> & -> & _). cbn [Nat.add] in R2.
      assert (E : nth_error (s1 ++ (fd, b) :: s2) (length s1) = Some (fd, b)) by (rewrite nth_error_app2, Nat.sub_diag by lia; reflexivity).
      destruct (fin_closeslot _ _ _ _ _ _ E R2) as (C & -> & NR). split; [apply closed_r, closed_r; exact C|]. split; [|exact NR].
      intros g G X. rewrite upd_cut. rewrite map_app in *. cbn [map fst] in *. apply in_app_or in X as [X|[X|X]]; [right; apply in_or_app; auto|left; auto|right; apply in_or_app; right; right; exact X].
    - destruct IN as [IN|IN]; [contradiction|]. destruct R2 as [-> R2]. injection R2 as ->. split; [apply closed_l; exact IN|]. split; [auto|constructor]. }
  destruct C as (C1 & C2 & C3).
  assert (X : forall t, (T ++ t1 ++ t3) ++ t = T ++ t1 ++ t3 ++ t) by (intros; rewrite <- !app_assoc; reflexivity). rewrite <- X.
  apply in_app_or in N as [N|N]; [rewrite (S1 _ _ _ N); apply closed_l; exact C1|].
  apply in_app_or in N as [N|N]; [rewrite Forall_forall in C3; apply C3 in N; destruct N|].
  eapply IH; [exact R3| |exact N]. intros g re' G. destruct (P2 g re' G) as [G1 [G2|G2]]; split; auto; [|right; apply closed_l; exact G2].
  destruct (C2 g G1 G2) as [->|G3]; auto.
Qed.
Lemma wait_tidy : forall fuel d n sl tr r, runs (conn_wait fuel d n sl) tr (Fin r) -> tidy tr.
Proof.
  induction fuel as [|fuel IH]; intros d n sl tr r R; cbn [conn_wait] in R; [destruct R; discriminate|].
  assert (RS : forall t r, runs (sl <~ conn_reset sl ;; Ret (@None Z, sl)) t (Fin r) -> tidy t).
  { intros t q Q. apply fin_bind in Q as (x & t1 & t2 & -> & Q1 & [-> _]). rewrite app_nil_r. apply noread_tidy. exact (reset_noread _ _ _ _ _ Q1). }
  pose proof (pending_in n sl) as PI. destruct (pending n sl) as [|f0 p0] eqn:PE; [eapply RS; exact R|]. remember (f0 :: p0) as p eqn:EP. clear EP PE.
  apply fin_bind in R as (now & t1 & t2 & -> & R1 & R). apply tidy_app.
  { apply noread_tidy. apply (use_calls _ _ _ _ _ R1). unfold milliseconds. noop. }
  clear R1 t1. apply fin_lift in R as (tm & _ & R). destruct (tm <=? 0); [eapply RS; exact R|].
  apply fin_bind in R as ([[r0 e] re] & t3 & t4 & -> & R1 & R). apply tidy_app.
  { apply noread_tidy. apply (use_calls _ _ _ _ _ R1). unfold jail_poll. noop. }
  clear R1 t3. destruct (r0 =? -1).
  - destruct (e =? EINTR); [eapply IH; exact R|eapply RS; exact R].
  - apply fin_bind in R as ([w sl1] & t5 & t6 & -> & R1 & R). apply tidy_app.
    + intros f m a N. apply (check_tidy _ _ [] _ _ R1) with (n := m) (a := a); [|exact N].
      intros fd re' IN. apply in_combine_l in IN. destruct (PI _ IN) as (k & b & _ & E & NE). split; auto. left. apply nth_error_In in E. apply (in_map fst) in E. exact E.
    + destruct w; [destruct R as [-> _]; apply noread_tidy; constructor|eapply IH; exact R].
Qed.
Lemma conn_tidy : forall fuel sl t ip n port tr r, runs (conn fuel sl t ip n port) tr (Fin r) -> tidy tr.
Proof.
  intros fuel sl t ip n port tr r R. unfold conn in R.
  apply fin_bind in R as (now & t1 & t2 & -> & R1 & R). apply tidy_app. { apply noread_tidy. apply (use_calls _ _ _ _ _ R1). unfold milliseconds. noop. }
  clear R1 t1. apply fin_lift in R as (tm & _ & R). apply fin_lift in R as (dl & _ & R). cbv zeta in R.
  destruct (_ || _) in R; [destruct R as [-> _]; apply noread_tidy; constructor|].
  apply fin_bind in R as ([w sl1] & t3 & t4 & -> & R1 & R). apply tidy_app; [apply noread_tidy; exact (start_noread _ _ _ _ _ _ _ R1)|]. clear R1 t3.
  apply fin_bind in R as ([w2 sl2] & t5 & t6 & -> & R1 & R). apply tidy_app.
  { destruct w; [destruct R1 as [-> _]; apply noread_tidy; constructor|eapply wait_tidy; exact R1]. }
  destruct w2; [|destruct R as [-> _]; apply noread_tidy; constructor].
  apply fin_bind in R as ([[sl3 ip3] d3] & t7 & t8 & -> & R2 & [-> _]). rewrite app_nil_r. apply noread_tidy. apply (use_calls _ _ _ _ _ R2). unfold conn_copyip. noop. apply copyip_noread.
Qed.
