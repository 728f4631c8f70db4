(** When the parallel connect fails. *)
From Verif.Model Require Import Base Sys Buffer Fdio Conn.
From Verif.Spec Require Import Descriptors Attempt.
From Verif.Proof Require Import Tac SysP CallsP BufferP ConnP ChildP.

(** calls that are no attempt, no question for a peer and no look at the clock *)
Definition aside (c : sys) : Prop :=
  (forall fd d, c <> tries fd d) /\ (forall fd, c <> peer fd).
Lemma aside_close : forall f, aside (Close f). Proof. split; discriminate. Qed.

Definition sunk (a : ans) : Prop := err a <> 115 /\ err a <> 11.
Record J (n m : nat) (T : trace) (sl : slots) : Prop := {
  j_fail : forall fd d a, In (tries fd d, a) T -> ret a <> 0 /\
    (fd = -1 \/ sunk a \/ (exists k b, (k < n)%nat /\ nth_error sl k = Some (fd, b)) \/ exists g, In (peer fd, g) T /\ ret g = -1);
  j_peer : forall fd g, In (peer fd, g) T -> ret g = -1;
  j_try : forall k fd b, (k < m)%nat -> nth_error sl k = Some (fd, b) -> fd <> -1 -> exists d a, In (tries fd d, a) T }.
Lemma J_aside : forall n m T sl t, J n m T sl -> Forall (fun e => aside (fst e)) t -> J n m (T ++ t) sl.
Proof.
  intros n m T sl t [A B G] F. rewrite Forall_forall in F. split.
  - intros fd d a I. apply in_app_or in I as [I|I]; [|exfalso; apply (proj1 (F _ I) fd d); reflexivity].
    destruct (A _ _ _ I) as (N & [C|[C|[C|(g & C & D)]]]); split; auto; right; right; right. exists g. split; auto. apply in_or_app. auto.
  - intros fd g I. apply in_app_or in I as [I|I]; [eauto|exfalso; apply (proj2 (F _ I) fd); reflexivity].
  - intros k fd b K E N. destruct (G k fd b K E N) as (d & a & I). exists d, a. apply in_or_app. auto.
Qed.

Lemma calls_aside : forall A P (p : prog A) tr o, calls P p -> (forall c, P c -> aside c) -> runs p tr o -> Forall (fun e => aside (fst e)) tr.
Proof. intros A P p tr o C W R. eapply Forall_impl; [|exact (C _ _ R)]. cbn. auto. Qed.

Lemma closeslot_run : forall sl o tr sl', runs (closeslot sl o) tr (Fin sl') -> Forall (fun e => aside (fst e)) tr /\ Forall (fun e => fst e <> Time) tr /\
  match o with Some i => match nth_error sl i with Some _ => sl' = upd sl i none | None => sl' = sl end | None => sl' = sl end.
Proof.
  intros sl o tr sl' R. unfold closeslot in R. destruct o as [i|]; [|destruct R as [-> E]; injection E as ->; auto].
  destruct (nth_error sl i) as [[a b]|] eqn:E; [|destruct R as [-> E1]; injection E1 as ->; auto].
  apply fin_sys in R as (x & t & -> & R). apply fin_sys in R as (y & t2 & -> & R). destruct R as [-> E1]. injection E1 as ->.
  split; [|split; auto]; repeat constructor; cbn; try apply aside_close; discriminate.
Qed.

(** after a slot is dropped whose descriptor is accounted for *)
Lemma J_drop : forall n m T sl i fd b, J n m T sl -> nth_error sl i = Some (fd, b) ->
  (fd <> -1 -> forall d a, In (tries fd d, a) T -> sunk a \/ exists g, In (peer fd, g) T /\ ret g = -1) -> J n m T (upd sl i none).
Proof.
  intros n m T sl i fd b [A B G] E D. split; auto.
  2:{ intros k f c K EK N. rewrite nth_upd in EK. destruct (Nat.eqb k i); [|eauto]. rewrite E in EK. unfold none in EK. exfalso. apply N. congruence. }
  intros f d a I. destruct (A _ _ _ I) as (N & [C|[C|[(k & x & K & C)|C]]]); split; auto.
  destruct (Nat.eq_dec k i) as [->|NE].
  - assert (X : f = fd) by congruence. subst f. destruct (Z.eq_dec fd (-1)) as [EF|NF]; [auto|]. right. destruct (D NF _ _ I); auto.
  - right. right. left. exists k, x. split; auto. rewrite nth_upd. rewrite (proj2 (Nat.eqb_neq k i) NE). auto.
Qed.

Lemma socket_connect_run : forall fd ip port tr a, runs (socket_connect fd ip port) tr (Fin a) -> exists i p, slice ip 0 16 = Ok i /\ slice port 0 2 = Ok p /\ tr = [(tries fd (i ++ p), a)].
Proof.
  intros fd ip port tr a R. unfold socket_connect in R. apply fin_lift in R as (i & E1 & R). apply fin_lift in R as (p & E2 & R).
  apply runs_sys1 in R as [[_ E]|(b & -> & E)]; [discriminate|]. injection E as ->. exists i, p. auto.
Qed.

Lemma NoDup_app_remove_mid : forall (a b c : list Z), NoDup (a ++ b ++ c) -> NoDup (a ++ c).
Proof. intros a b. induction b as [|x b IH]; intros c N; auto. apply IH. exact (NoDup_remove_1 _ _ _ N). Qed.

(** [D i]: no attempt on a socket of the slots from [i] on *)
Definition clear (i : nat) (T : trace) (sl : slots) : Prop :=
  forall k fd b, (i <= k)%nat -> nth_error sl k = Some (fd, b) -> fd <> -1 -> forall d a, ~ In (tries fd d, a) T.
Lemma start_fail : forall n ip port m i sl T tr sl', (i + m = n)%nat -> runs (conn_start m i sl ip port) tr (Fin (None, sl')) -> J n i T sl ->
  NoDup (tracked sl) -> clear i T sl ->
  J n n (T ++ tr) sl' /\ Forall (fun e => fst e <> Time) tr /\
  (forall k, (i <= k < n)%nat -> exists fd a x p, In (tries fd (x ++ p), a) tr /\ slice (skipn (16 * k) ip) 0 16 = Ok x /\ slice port 0 2 = Ok p).
Proof.
  intros n ip port. induction m as [|m IH]; intros i sl T tr sl' LN R HJ ND CL; cbn [conn_start] in R.
  { destruct R as [-> E]. assert (sl' = sl) by congruence. assert (n = i) by lia. subst sl' i. rewrite app_nil_r. split; [exact HJ|]. split; auto. intros k K. lia. }
  destruct (nth_error sl i) as [[fd b]|] eqn:E; [|destruct R as [_ R]; discriminate].
  apply fin_bind in R as (a & t1 & t2 & -> & R1 & R2). apply socket_connect_run in R1 as (x & p & EX & EP & ->).
  destruct (ret a =? 0) eqn:EA; [destruct R2 as [_ R2]; discriminate|].
  assert (OLD : forall d c, fd <> -1 -> ~ In (tries fd d, c) T) by (intros d c N; exact (CL i fd b (Nat.le_refl _) E N d c)).
  assert (CL1 : clear (S i) (T ++ [(tries fd (x ++ p), a)]) sl).
  { intros k f c K EK NF d z I. apply in_app_or in I as [I|[I|[]]]; [exact (CL k f c ltac:(lia) EK NF d z I)|].
    assert (X : fd = f) by (unfold tries in I; congruence). subst f. clear I.
    apply nth_cut in EK as (s1 & s2 & -> & LK). rewrite nth_error_app1 in E by lia. apply nth_cut in E as (s3 & s4 & -> & LI).
    assert (PF : present fd = true) by (unfold present; rewrite (proj2 (Z.eqb_neq fd (-1)) NF); reflexivity).
    rewrite !tracked_app, !tracked_cons, PF in ND. rewrite <- !app_assoc in ND. cbn [app] in ND. apply NoDup_remove_2 in ND. apply ND.
    rewrite !in_app_iff. cbn [In]. auto 10. }
  assert (HJ1 : J n (S i) (T ++ [(tries fd (x ++ p), a)]) sl).
  { destruct HJ as [A B G]. split.
    - intros f d c I. apply in_app_or in I as [I|[I|[]]].
      + destruct (A _ _ _ I) as (N & [C|[C|[C|(g & C & D)]]]); split; auto; right; right; right. exists g. split; auto. apply in_or_app. auto.
      + assert (X : fd = f /\ a = c) by (unfold tries in I; split; congruence). destruct X as [-> ->]. split; [lia|]. right. right. left. exists i, b. split; [lia|auto].
    - intros f g I. apply in_app_or in I as [I|[I|[]]]; [eauto|discriminate].
    - intros k f c K EK N. destruct (Nat.eq_dec k i) as [->|NE].
      + assert (f = fd) by congruence. subst f. exists (x ++ p), a. apply in_or_app. right. left. reflexivity.
      + destruct (G k f c ltac:(lia) EK N) as (d & z & I). exists d, z. apply in_or_app. auto. }
  assert (TRY : forall k, k = i -> exists fd a x p, In (tries fd (x ++ p), a) ((tries fd (x ++ p), a) :: t2) /\ slice (skipn (16 * k) ip) 0 16 = Ok x /\ slice port 0 2 = Ok p).
  { intros k ->. exists fd, a, x, p. split; [left; reflexivity|]. auto. }
  assert (GO : forall u T1 s1 t3, runs (conn_start m (S i) s1 ip port) t3 (Fin (None, sl')) -> J n (S i) T1 s1 -> NoDup (tracked s1) -> clear (S i) T1 s1 -> t2 = u ++ t3 -> Forall (fun e => fst e <> Time) u ->
     T1 = (T ++ [(tries fd (x ++ p), a)]) ++ u ->
     J n n (T ++ [(tries fd (x ++ p), a)] ++ t2) sl' /\ Forall (fun e => fst e <> Time) ([(tries fd (x ++ p), a)] ++ t2) /\
     (forall k, (i <= k < n)%nat -> exists fd' a' x' p', In (tries fd' (x' ++ p'), a') ([(tries fd (x ++ p), a)] ++ t2) /\ slice (skipn (16 * k) ip) 0 16 = Ok x' /\ slice port 0 2 = Ok p')).
  { intros u T1 s1 t3 R3 HJ3 ND3 CL3 E2 FU ->. clear R2 TRY. subst t2. destruct (IH (S i) s1 _ t3 sl' ltac:(lia) R3 HJ3 ND3 CL3) as (G1 & G2 & G3). split; [|split].
    - rewrite <- !app_assoc in G1. cbn [app] in *. exact G1.
    - constructor; [discriminate|]. apply Forall_app. auto.
    - intros k K. destruct (Nat.eq_dec k i) as [->|NE]; [exists fd, a, x, p; split; [left; reflexivity|auto]|].
      destruct (G3 k ltac:(lia)) as (f & c & x' & p' & I & R4). exists f, c, x', p'. split; [|exact R4]. apply in_or_app. right. apply in_or_app. right. exact I. }
  destruct (negb (err a =? EINPROGRESS) && negb (err a =? EAGAIN)) eqn:EE.
  - apply fin_bind in R2 as (s1 & t3 & t4 & -> & R3 & R4). apply closeslot_run in R3 as (F1 & F2 & E1). rewrite E in E1. subst s1.
    apply (GO t3 ((T ++ [(tries fd (x ++ p), a)]) ++ t3) (upd sl i none) t4); auto.
    + apply J_aside; auto. apply (J_drop _ _ _ _ _ fd b); auto. intros NF d c I. left. apply in_app_or in I as [I|[I|[]]]; [exfalso; exact (OLD d c NF I)|].
      assert (c = a) by congruence. subst c. unfold sunk, EINPROGRESS, EAGAIN in *. lia.
    + apply nth_cut in E as (s3 & s4 & -> & LI). subst i. rewrite upd_cut, tracked_app. unfold none. rewrite tracked_cons. rewrite tracked_app, tracked_cons in ND. change (present (-1)) with false. cbn [app].
      rewrite (app_assoc (if present fd then [fd] else [])) in ND.
      apply NoDup_app_remove_mid in ND. exact ND.
    + intros k f c K EK NF d z I. rewrite nth_upd in EK. rewrite (proj2 (Nat.eqb_neq k i)) in EK by lia.
      apply in_app_or in I as [I|I]; [exact (CL1 k f c K EK NF d z I)|]. rewrite Forall_forall in F1. apply (proj1 (F1 _ I) f d). reflexivity.
  - apply (GO [] (T ++ [(tries fd (x ++ p), a)]) sl t2); auto. rewrite app_nil_r. auto.
Qed.

Lemma connected_run : forall fd tr b, runs (socket_connected fd) tr (Fin b) ->
  if b : bool then True else exists a r, tr = [(peer fd, a); (Read fd 1, r)] /\ ret a = -1.
Proof.
  intros fd tr b R. unfold socket_connected in R. apply fin_sys in R as (a & t & -> & R). destruct (ret a =? -1) eqn:E.
  - apply fin_sys in R as (r & t2 & -> & R). destruct R as [-> E1]. injection E1 as ->. exists a, r. split; [reflexivity|lia].
  - destruct R as [-> E1]. injection E1 as ->. exact Logic.I.
Qed.
Lemma check_fail : forall n m p sl T tr sl', runs (conn_check p sl) tr (Fin (None, sl')) -> J n m T sl -> J n m (T ++ tr) sl' /\ Forall (fun e => fst e <> Time) tr.
Proof.
  intros n m. induction p as [|[fd re] p IH]; intros sl T tr sl' R HJ; cbn [conn_check] in R.
  { destruct R as [-> E]. assert (sl' = sl) by congruence. subst. rewrite app_nil_r. auto. }
  destruct (re =? 0); [eauto|]. apply fin_bind in R as (ok & t1 & t2 & -> & R1 & R2). apply connected_run in R1.
  destruct ok; [destruct R2 as [_ R2]; discriminate|]. destruct R1 as (a & r & -> & EA).
  apply fin_bind in R2 as (s1 & t3 & t4 & -> & R3 & R4). apply closeslot_run in R3 as (F1 & F2 & E1).
  assert (HJ1 : J n m (T ++ [(peer fd, a); (Read fd 1, r)]) sl).
  { destruct HJ as [A B G]. split.
    - intros f d c I. apply in_app_or in I as [I|[I|[I|[]]]]; try discriminate.
      destruct (A _ _ _ I) as (N & [C|[C|[C|(g & C & D)]]]); split; auto; right; right; right. exists g. split; auto. apply in_or_app. auto.
    - intros f g I. apply in_app_or in I as [I|[I|[I|[]]]]; [eauto| |discriminate]. assert (g = a) by congruence. subst. auto.
    - intros k f c K EK N. destruct (G k f c K EK N) as (d & z & I). exists d, z. apply in_or_app. auto. }
  assert (HJ2 : J n m (T ++ [(peer fd, a); (Read fd 1, r)]) s1).
  { pose proof (findslot_spec sl fd 0) as FS. destruct (findslot sl fd 0) as [i|]; [|subst s1; auto].
    destruct FS as (x1 & b & x2 & EQ & -> & _). cbn [Nat.add] in E1. assert (EN : nth_error sl (length x1) = Some (fd, b)) by (rewrite EQ, nth_error_app2, Nat.sub_diag by lia; reflexivity).
    rewrite EN in E1. subst s1. apply (J_drop _ _ _ _ _ fd b); auto.
    intros NF d c I. right. exists a. split; auto. apply in_or_app. right. left. reflexivity. }
  destruct (IH s1 _ t4 sl' R4 (J_aside _ _ _ _ t3 HJ2 F1)) as (G1 & G2). split.
  - rewrite <- !app_assoc in G1. cbn [app] in *. exact G1.
  - repeat (constructor; [discriminate|]). apply Forall_app. auto.
Qed.

Lemma reset_run : forall m i sl tr sl', runs (conn_reset_from m i sl) tr (Fin sl') -> Forall (fun e => aside (fst e)) tr.
Proof.
  induction m as [|m IH]; intros i sl tr sl' R; cbn [conn_reset_from] in R; [destruct R as [-> _]; auto|].
  apply fin_bind in R as (s1 & t1 & t2 & -> & R1 & R2). apply closeslot_run in R1 as (F & _). apply Forall_app. eauto.
Qed.
Lemma ms_run : forall tr x, runs milliseconds tr (Fin x) -> exists a, tr = [(Time, a)] /\ x = ret a / 1000.
Proof.
  intros tr x R. unfold milliseconds in R. apply fin_sys in R as (a & t & -> & R). apply fin_lift in R as (s & E & R). apply runs_lift in R as [-> E2].
  exists a. split; auto. unfold s64, tv_sec, tv_usec in *. destruct (in_s64b _) in E; [|discriminate]. destruct (in_s64b _) in E2; [|discriminate].
  assert (s = ret a / 1000000 * 1000) by congruence. assert (x = s + ret a mod 1000000 / 1000) by congruence. subst.
  Z.to_euclidean_division_equations. lia.
Qed.
Lemma jp_large : forall x n r w, jp_sets x n r w = None -> exists fd ev, In (fd, ev) x /\ 1024 <= fd.
Proof.
  induction x as [|[fd ev] x IH]; intros n r w E; cbn [jp_sets] in E; [discriminate|]. destruct (fd <? 0).
  - destruct (IH _ _ _ E) as (f & v & I & L). exists f, v. split; [right|]; auto.
  - destruct (FD_SETSIZE <=? fd) eqn:EF; [exists fd, ev; split; [left; auto|unfold FD_SETSIZE in EF; lia]|].
    destruct (IH _ _ _ E) as (f & v & I & L). exists f, v. split; [right|]; auto.
Qed.
Lemma jp_large2 : forall x a r, jp_result x a r = None -> exists fd ev, In (fd, ev) x /\ 1024 <= fd.
Proof.
  induction x as [|[fd ev] x IH]; intros a r E; cbn [jp_result] in E; [discriminate|]. destruct (fd <? 0).
  - destruct (jp_result x a r) as [[? ?]|] eqn:E1; [discriminate|]. destruct (IH _ _ E1) as (f & v & I & L). exists f, v. split; [right|]; auto.
  - destruct (FD_SETSIZE <=? fd) eqn:EF; [exists fd, ev; split; [left; auto|unfold FD_SETSIZE in EF; lia]|].
    destruct (if has ev POLLIN then _ else _) as [re r1]. destruct (if has ev POLLOUT then _ else _) as [re2 r2].
    destruct (jp_result x a r2) as [[? ?]|] eqn:E1; [discriminate|]. destruct (IH _ _ E1) as (f & v & I & L). exists f, v. split; [right|]; auto.
Qed.
Lemma jp_pos : forall x a r r' l, jp_result x a r = Some (r', l) -> r <= r'.
Proof.
  induction x as [|[fd ev] x IH]; intros a r r' l E; cbn [jp_result] in E; [injection E as <- _; lia|]. destruct (fd <? 0).
  - destruct (jp_result x a r) as [[? ?]|] eqn:E1; [|discriminate]. injection E as <- _. eauto.
  - destruct (FD_SETSIZE <=? fd); [discriminate|]. destruct (if has ev POLLIN then _ else _) as [re r1] eqn:E1. destruct (if has ev POLLOUT then _ else _) as [re2 r2] eqn:E2.
    destruct (jp_result x a r2) as [[? ?]|] eqn:E3; [|discriminate]. injection E as <- _. apply IH in E3.
    destruct (has ev POLLIN), (has ev POLLOUT), (readable a fd), (writable a fd); injection E1 as ? ?; injection E2 as ? ?; lia.
Qed.
Lemma poll_run : forall x ms tr r e re, runs (jail_poll x ms) tr (Fin (r, e, re)) -> Forall (fun e => aside (fst e)) tr /\ Forall (fun e => fst e <> Time) tr /\
  (r = -1 -> e <> 4 -> (exists n r w us a, In (Select n r w us, a) tr /\ ret a = -1 /\ err a <> 4) \/ exists fd ev, In (fd, ev) x /\ 1024 <= fd).
Proof.
  intros x ms tr r e re R. unfold jail_poll in R. destruct (jp_sets x 1 [] []) as [[[n rd] wr]|] eqn:E.
  - apply fin_sys in R as (a & t & -> & R). destruct (ret a <=? 0) eqn:EA.
    + destruct R as [-> E1]. split; [repeat constructor; discriminate|]. split; [repeat constructor; discriminate|]. intros -> NE. left.
      eexists _, _, _, _, a. split; [left; reflexivity|]. split; congruence.
    + destruct (jp_result x a 0) as [[r' l]|] eqn:E2; destruct R as [-> E1]; (split; [repeat constructor; discriminate|]; split; [repeat constructor; discriminate|]); intros -> NE.
      * exfalso. apply jp_pos in E2. assert (r' = -1) by congruence. lia.
      * right. eapply jp_large2; eauto.
  - destruct R as [-> E1]. split; auto. split; auto. intros _ _. right. eapply jp_large; eauto.
Qed.

Section Wait.
Variables (secs : Z) (a0 : ans) (n : nat).
(** the clock was first looked at in [T] *)
Definition since (T : trace) : Prop := exists t1 t2, T = t1 ++ (Time, a0) :: t2 /\ Forall (fun e => fst e <> Time) t1.
Lemma since_app : forall T t, since T -> since (T ++ t).
Proof. intros T t (t1 & t2 & -> & F). exists t1, (t2 ++ t). rewrite <- app_assoc. auto. Qed.
Lemma J_unlucky : forall m T sl, J n m T sl -> unlucky T.
Proof. intros m T sl [A B _] fd d a I. destruct (A _ _ _ I) as [N _]. split; auto. eauto. Qed.
Lemma wait_fail : forall fuel sl T tr sl', since T -> J n n T sl ->
  runs (conn_wait fuel (ret a0 / 1000 + 1000 * secs) n sl) tr (Fin (None, sl')) ->
  unlucky (T ++ tr) /\ (refused (T ++ tr) \/ lapsed secs (T ++ tr) \/ unable (T ++ tr)).
Proof.
  induction fuel as [|fuel IH]; intros sl T tr sl' SI HJ R; cbn [conn_wait] in R; [destruct R as [_ R]; discriminate|].
  destruct (Conn.pending n sl) as [|p0 p] eqn:EP.
  - apply fin_bind in R as (s1 & t1 & t2 & -> & R1 & R2). destruct R2 as [-> E]. rewrite app_nil_r. apply reset_run in R1.
    pose proof (J_aside _ _ _ _ t1 HJ R1) as HJ1. split; [eapply J_unlucky; eauto|]. left. intros fd d a N I.
    destruct (j_fail _ _ _ _ HJ1 _ _ _ I) as (_ & [C|[C|[(k & b & K & C)|C]]]); [contradiction|left; exact C| |right; exact C].
    exfalso. assert (X : In fd (Conn.pending n sl)); [|rewrite EP in X; exact X]. unfold Conn.pending. apply filter_In. split; [|rewrite (proj2 (Z.eqb_neq fd (-1)) N); reflexivity].
    apply in_map_iff. exists (fd, b). split; auto. apply nth_error_In with (n := k). rewrite nth_error_firstn. rewrite (proj2 (Nat.ltb_lt k n) K). exact C.
  - apply fin_bind in R as (now & t1 & t2 & -> & R1 & R2). apply ms_run in R1 as (a & -> & ->). apply fin_lift in R2 as (tm & ET & R2).
    assert (ETM : tm = ret a0 / 1000 + 1000 * secs - ret a / 1000) by (unfold s64 in ET; destruct (in_s64b _) in ET; congruence).
    assert (HJ1 : J n n (T ++ [(Time, a)]) sl) by (apply J_aside; auto; repeat constructor; discriminate).
    assert (SI1 : since (T ++ [(Time, a)])) by (apply since_app; auto).
    destruct (tm <=? 0) eqn:EL.
    + apply fin_bind in R2 as (s1 & t3 & t4 & -> & R3 & R4). destruct R4 as [-> E]. rewrite app_nil_r. apply reset_run in R3.
      pose proof (J_aside _ _ _ _ t3 HJ1 R3) as HJ2. rewrite <- app_assoc in HJ2. split; [eapply J_unlucky; eauto|]. right. left.
      destruct SI as (u1 & u2 & -> & F). exists u1, a0, u2, a, t3. split; [rewrite <- !app_assoc; reflexivity|]. split; auto. lia.
    + apply fin_bind in R2 as ([[r e] re] & t3 & t4 & -> & R3 & R4). apply poll_run in R3 as (F1 & F2 & BADP).
      pose proof (J_aside _ _ _ _ t3 HJ1 F1) as HJ2. destruct (r =? -1) eqn:ER.
      * destruct (e =? EINTR) eqn:EE.
        -- specialize (IH sl ((T ++ [(Time, a)]) ++ t3) t4 sl' (since_app _ _ SI1) HJ2 R4). rewrite <- !app_assoc in IH. exact IH.
        -- apply fin_bind in R4 as (s1 & t5 & t6 & -> & R5 & R6). destruct R6 as [-> E]. rewrite app_nil_r. apply reset_run in R5.
           pose proof (J_aside _ _ _ _ t5 HJ2 R5) as HJ3. rewrite <- !app_assoc in HJ3. split; [eapply J_unlucky; eauto|]. right. right.
           unfold EINTR in EE. destruct (BADP ltac:(lia) ltac:(lia)) as [(n0 & rr & w & us & b & I & Q)|(fd & ev & I & L)].
           ++ left. exists n0, rr, w, us, b. split; auto. rewrite !in_app_iff. auto.
           ++ right. apply in_map_iff in I as (f & E2 & I). assert (f = fd) by congruence. subst f.
              rewrite <- EP in I. apply pending_in in I as (k & b & K & EN & NF). destruct (j_try _ _ _ _ HJ k fd b K EN NF) as (d & c & I). exists fd, d, c. split; auto. apply in_or_app. auto.
      * apply fin_bind in R4 as ([w s1] & t5 & t6 & -> & R5 & R6). destruct w as [fd|]; [destruct R6 as [_ R6]; discriminate|].
        destruct (check_fail n n _ _ _ _ _ R5 HJ2) as (HJ3 & F3).
        specialize (IH s1 (((T ++ [(Time, a)]) ++ t3) ++ t5) t6 sl' (since_app _ _ (since_app _ _ SI1)) HJ3 R6). rewrite <- !app_assoc in IH. exact IH.
Qed.
End Wait.

Lemma J_nil : forall n sl, J n 0 [] sl.
Proof. intros n sl. split; [intros fd d a []|intros fd g []|intros k fd b K; lia]. Qed.
Lemma slice16 : forall ip k x, slice (skipn (16 * k) ip) 0 16 = Ok x -> x = addr ip k.
Proof.
  intros ip k x E. unfold slice in E. cbn [Z.leb Z.compare] in E. destruct ((0 <? 0) || _) in E; [discriminate|]. unfold addr. change (Z.to_nat 0) with 0%nat in E. change (Z.to_nat 16) with 16%nat in E. rewrite skipn_O in E. congruence.
Qed.
Lemma conn_fail : forall fuel sl timeout ip iplen port tr ip' sl', 1 <= timeout -> 16 <= iplen -> NoDup (tracked sl) ->
  runs (conn fuel sl timeout ip iplen port) tr (Fin (None, ip', sl')) ->
  in_vain (map (addr ip) (seq 0 (Z.to_nat (Z.min iplen 128 / 16)))) (firstn 2 port) timeout tr.
Proof.
  intros fuel sl timeout ip iplen port tr ip' sl' T1 IL ND R. unfold conn in R.
  apply fin_bind in R as (now & t1 & t2 & -> & R1 & R). apply ms_run in R1 as (a0 & -> & ->). apply fin_lift in R as (t & ET & R). apply fin_lift in R as (dl & ED & R).
  assert (EDL : dl = ret a0 / 1000 + 1000 * timeout) by (unfold s64 in *; destruct (in_s64b _) in ET; [|discriminate]; destruct (in_s64b _) in ED; [|discriminate]; congruence). subst dl.
  assert (EM : (if MAXIP * 16 <? iplen then MAXIP * 16 else iplen) = Z.min iplen 128) by (unfold MAXIP; destruct (8 * 16 <? iplen) eqn:E; lia). rewrite EM in R.
  destruct ((timeout <? 1) || (Z.min iplen 128 <? 16)) eqn:EG; [exfalso; lia|].
  remember (Z.to_nat (Z.min iplen 128 / 16)) as n.
  apply fin_bind in R as ([w s1] & t3 & t4 & -> & R2 & R). apply fin_bind in R as ([w2 s2] & t5 & t6 & -> & R3 & R).
  destruct w2 as [fd|].
  { apply fin_bind in R as ([[s3 i3] d] & t7 & t8 & -> & R4 & R5). destruct R5 as [_ R5]. discriminate. }
  destruct R as [-> _]. rewrite app_nil_r. destruct w as [fd|]; [destruct R3 as [_ R3]; discriminate|].
  assert (J0 : J n 0 [(Time, a0)] sl) by (apply (J_aside n 0 [] sl [(Time, a0)] (J_nil _ _)); repeat constructor; discriminate).
  destruct (start_fail n ip port n 0 sl [(Time, a0)] t3 s1 ltac:(lia) R2 J0 ND) as (HJ & F & TRY); [intros k fd b _ _ _ d a [I|[]]; discriminate|].
  assert (SI : since a0 ([(Time, a0)] ++ t3)) by (exists [], t3; split; [reflexivity|constructor]).
  destruct (wait_fail timeout a0 n fuel s1 _ t5 s2 SI HJ R3) as (U & W). rewrite <- app_assoc in U, W. split; [|split; [exact U|exact W]].
  intros c IC. apply in_map_iff in IC as (k & <- & IK). apply in_seq in IK. destruct (TRY k ltac:(lia)) as (fd & a & x & p & I & EX & EP).
  apply slice16 in EX. subst x. exists fd, a. apply in_or_app. right. apply in_or_app. left.
  assert (EP2 : p = firstn 2 port) by (unfold slice in EP; cbn [Z.leb Z.compare] in EP; destruct ((0 <? 0) || _) in EP; [discriminate|]; change (Z.to_nat 0) with 0%nat in EP; change (Z.to_nat 2) with 2%nat in EP; rewrite skipn_O in EP; congruence). subst p. exact I.
Qed.

Lemma unprepared_app : forall t u, unprepared u -> unprepared (t ++ u).
Proof.
  intros t u (a & H & R). exists a. split; auto. destruct H as [I|(s & [I|[I|I]])].
  - left. apply in_or_app. auto.
  - right. exists s. left. apply in_or_app. auto.
  - right. exists s. right. left. apply in_or_app. auto.
  - right. exists s. right. right. apply in_or_app. auto.
Qed.
Lemma unprepared_l : forall t u, unprepared t -> unprepared (t ++ u).
Proof.
  intros t u (a & H & R). exists a. split; auto. destruct H as [I|(s & [I|[I|I]])].
  - left. apply in_or_app. auto.
  - right. exists s. left. apply in_or_app. auto.
  - right. exists s. right. left. apply in_or_app. auto.
  - right. exists s. right. right. apply in_or_app. auto.
Qed.
Lemma socket_fail : forall tr r, runs socket_tcp tr (Fin r) -> Forall (fun e => aside (fst e) /\ fst e <> Time) tr /\ (r = -1 -> unprepared tr).
Proof.
  intros tr r R. unfold socket_tcp in R. apply fin_sys in R as (a & t & -> & R). destruct (ret a =? -1) eqn:EA.
  { destruct R as [-> E]. split; [repeat constructor; discriminate|]. intros _. exists a. split; [left; left; reflexivity|lia]. }
  apply fin_sys in R as (b & t1 & -> & R). destruct (ret b =? -1) eqn:EB.
  { apply fin_sys in R as (c & t2 & -> & R). destruct R as [-> E]. split; [repeat constructor; discriminate|]. intros _. exists b. split; [right; exists (ret a); left; right; left; reflexivity|lia]. }
  apply fin_sys in R as (c & t2 & -> & R). destruct (ret c =? -1) eqn:EC.
  { apply fin_sys in R as (d & t3 & -> & R). destruct R as [-> E]. split; [repeat constructor; discriminate|]. intros _. exists c. split; [right; exists (ret a); right; left; right; right; left; reflexivity|lia]. }
  apply fin_bind in R as (? & t3 & t4 & -> & R1 & R2). destruct R2 as [-> E]. split; [|intros ->; assert (ret a = -1) by congruence; lia].
  rewrite app_nil_r. repeat (constructor; [split; [split|]; discriminate|]). unfold fd_blocking_disable in R1. apply fin_sys in R1 as (d & t5 & -> & R1).
  destruct (ret d =? -1); [destruct R1 as [-> _]; repeat constructor; discriminate|]. apply fin_sys in R1 as (f & t6 & -> & R1). destruct R1 as [-> _]. repeat constructor; discriminate.
Qed.
Lemma reset_calm : forall m i sl tr sl', runs (conn_reset_from m i sl) tr (Fin sl') -> Forall (fun e => aside (fst e) /\ fst e <> Time) tr.
Proof.
  induction m as [|m IH]; intros i sl tr sl' R; cbn [conn_reset_from] in R; [destruct R as [-> _]; auto|].
  apply fin_bind in R as (s1 & t1 & t2 & -> & R1 & R2). apply closeslot_run in R1 as (F & F2 & _). apply Forall_app. split; eauto. apply Forall_and; auto.
Qed.
Lemma prepare_fail : forall m i sl tr b sl', runs (conn_prepare m i sl) tr (Fin (b, sl')) -> Forall (fun e => aside (fst e) /\ fst e <> Time) tr /\ (b = false -> unprepared tr).
Proof.
  induction m as [|m IH]; intros i sl tr b sl' R; cbn [conn_prepare] in R; [destruct R as [-> E]; split; [auto|congruence]|].
  apply fin_bind in R as (fd & t1 & t2 & -> & R1 & R2). apply socket_fail in R1 as (F1 & U1). destruct (fd =? -1) eqn:EF.
  { apply fin_bind in R2 as (s1 & t3 & t4 & -> & R3 & [-> _]). apply reset_calm in R3. rewrite app_nil_r. split; [apply Forall_app; auto|]. intros _. apply unprepared_l. apply U1. lia. }
  apply fin_sys in R2 as (d & t3 & -> & R2). destruct (ret d =? -1) eqn:ED.
  { apply fin_bind in R2 as (s1 & t4 & t5 & -> & R3 & [-> _]). apply reset_calm in R3. rewrite app_nil_r. split; [apply Forall_app; split; auto; constructor; [split; [split|]; discriminate|auto]|].
    intros _. apply unprepared_app. exists d. split; [right; exists fd; right; right; left; reflexivity|lia]. }
  apply IH in R2 as (F2 & U2). split; [apply Forall_app; split; auto; constructor; [split; [split|]; discriminate|auto]|].
  intros E. apply unprepared_app. apply (unprepared_app [_]). auto.
Qed.
Lemma any_fail : forall L0 fuel num timeout ip iplen port tr ip' sl L, NoDup L0 -> Forall (fun x => 0 <= x) L0 -> 1 <= timeout -> 16 <= iplen ->
  runs (connect_any fuel num timeout ip iplen port) tr (Fin (None, ip', sl)) -> fdrun L0 tr = Some L -> Forall sane tr ->
  unprepared tr \/ in_vain (map (addr ip) (seq 0 (Z.to_nat (Z.min iplen 128 / 16)))) (firstn 2 port) timeout tr.
Proof.
  intros L0 fuel num timeout ip iplen port tr ip' sl L N F T1 IL R FD SA. unfold connect_any in R.
  apply fin_bind in R as ([ok s1] & t1 & t2 & -> & R1 & R2).
  assert (PF : Forall (fun e => aside (fst e) /\ fst e <> Time) t1 /\ (ok = false -> unprepared t1)).
  { unfold conn_init in R1. apply fin_bind in R1 as (s0 & t3 & t4 & -> & R3 & R4). apply reset_calm in R3. apply prepare_fail in R4 as (F4 & U4).
    split; [apply Forall_app; auto|]. intros E. apply unprepared_app. auto. }
  destruct PF as (F1 & U1). destruct ok; [|left; apply unprepared_l; auto]. right. cbn [negb] in R2.
  rewrite fdrun_app in FD. destruct (fdrun L0 t1) as [L1|] eqn:E1; [|discriminate]. apply Forall_app in SA as [SA1 SA2].
  destruct (h_init sane L0 L0 conn_start_state num (start_inv L0 N F) t1 _ L1 R1 E1 SA1) as (_ & _ & Q). specialize (Q _ eq_refl). cbn in Q. destruct Q as (V & _).
  pose proof (conn_fail fuel s1 timeout ip iplen port t2 ip' sl T1 IL (inv_tracked _ _ _ V) R2) as (A & U & W).
  rewrite Forall_forall in F1. split; [|split].
  - intros c I. destruct (A c I) as (fd & a & J1). exists fd, a. apply in_or_app. auto.
  - intros fd d a I. apply in_app_or in I as [I|I]; [exfalso; apply (proj1 (proj1 (F1 _ I)) fd d); reflexivity|]. destruct (U _ _ _ I) as (U2 & U3). split; auto.
    intros g I2. apply in_app_or in I2 as [I2|I2]; [exfalso; apply (proj2 (proj1 (F1 _ I2)) fd); reflexivity|]. auto.
  - destruct W as [W|[(u1 & a & u2 & b & u3 & -> & FT & LE)|[(n0 & r & w & us & a & I & Q)|(fd & d & a & I & Q)]]].
    + left. intros fd d a NF I. apply in_app_or in I as [I|I]; [exfalso; apply (proj1 (proj1 (F1 _ I)) fd d); reflexivity|]. destruct (W fd d a NF I) as [K|(g & K & K2)]; auto.
      right. exists g. split; auto. apply in_or_app. auto.
    + right. left. exists (t1 ++ u1), a, u2, b, u3. rewrite <- app_assoc. split; auto. split; auto. apply Forall_app. split; auto. apply Forall_forall. intros e I. apply (F1 e I).
    + right. right. left. exists n0, r, w, us, a. split; auto. apply in_or_app. auto.
    + right. right. right. exists fd, d, a. split; auto. apply in_or_app. auto.
Qed.
