(** Lemmas about timeoutread.c, timeoutwrite.c, fd.c and jail_poll.c. *)
From Verif.Model Require Import Base Sys Fdio.
From Verif.Spec Require Import Waiting.
From Verif.Proof Require Import Tac SysP.

(** * Waiting *)

Definition clock_ok (e : event) : Prop :=
  match fst e with Time => 0 <= ret (snd e) <= 4611686018427387904 | _ => True end.

Lemma micros_ok : forall t a, 0 <= ret a <= 4611686018427387904 -> 0 <= t -> 1000000 * t <= 4611686018427387903 ->
  micros t a = Ok (ret a + 1000000 * t).
Proof.
  intros t a A T T2. unfold micros, tv_sec, tv_usec.
  pose proof (Z.div_mod (ret a) 1000000 ltac:(lia)). pose proof (Z.mod_pos_bound (ret a) 1000000 ltac:(lia)).
  pose proof (Z.div_pos (ret a) 1000000 ltac:(lia) ltac:(lia)).
  rewrite s64_ok by (unfold two63; lia). cbn [bind]. rewrite s64_ok by (unfold two63; lia). cbn [bind].
  rewrite s64_ok by (unfold two63; lia). f_equal. lia.
Qed.

Definition selcall (rd : bool) (fd tm : Z) : sys :=
  if rd then Select (fd + 1) [fd] [] (Some tm) else Select (fd + 1) [] [fd] (Some tm).
Definition mark (rd : bool) (fd : Z) : Z := if rd then fd else -1 - fd.

Lemma ready_in : forall (rd : bool) a fd, (if rd then readable a fd else writable a fd) = true <-> In (mark rd fd) (data a).
Proof.
  intros rd a fd. unfold readable, writable, mark. destruct rd; rewrite existsb_exists; split.
  - intros (x & X & E). apply Z.eqb_eq in E. subst. auto.
  - intros X. exists fd. split; auto. apply Z.eqb_refl.
  - intros (x & X & E). apply Z.eqb_eq in E. subst. auto.
  - intros X. exists (-1 - fd). split; auto. apply Z.eqb_refl.
Qed.

Lemma timeout_wait_ok : forall fuel rd fd dl tr o, 0 <= dl < two63 -> Forall clock_ok tr ->
  runs (timeout_wait fuel rd fd dl) tr o ->
  o <> Wrong /\ exists w l, tr = w ++ l /\ waited (mark rd fd) dl (selcall rd fd) w /\
  ( (l = [] /\ o = Cut)
  \/ (exists c, l = [(Time, c)] /\ ret c < dl /\ o = Cut)
  \/ (exists c, l = [(Time, c)] /\ dl <= ret c /\ o = Fin (Some ETIMEDOUT))
  \/ (exists c tm s, l = [(Time, c); (selcall rd fd tm, s)] /\ ret c < dl /\ tm = Z.min (dl - ret c) 1000000000 /\
        ret s = -1 /\ err s <> EINTR /\ o = Fin (Some (err s)))
  \/ (exists c tm s, l = [(Time, c); (selcall rd fd tm, s)] /\ ret c < dl /\ tm = Z.min (dl - ret c) 1000000000 /\
        ret s <> -1 /\ In (mark rd fd) (data s) /\ o = Fin None)).
Proof.
  induction fuel as [|fuel IH]; intros rd fd dl tr o D C R; cbn [timeout_wait] in R.
  - destruct R as [-> ->]. split; [discriminate|]. exists [], []. split; auto. split; [constructor|]. left. auto.
  - destruct R as [[-> ->]|(c & t & -> & R)].
    { split; [discriminate|]. exists [], []. split; auto. split; [constructor|]. left. auto. }
    inversion C as [|? ? C1 C2]; subst; clear C. unfold clock_ok in C1. cbn [fst snd] in C1. cbn [pbind] in R.
    rewrite micros_ok in R by lia. cbn [lift pbind] in R. replace (ret c + 1000000 * 0) with (ret c) in R by lia.
    rewrite s64_ok in R by (unfold two63 in *; lia). cbn [lift pbind] in R.
    destruct (Z.leb_spec (dl - ret c) 0) as [L|L].
    { destruct R as [-> ->]. split; [discriminate|]. exists [], [(Time, c)]. split; auto. split; [constructor|]. right. right. left. exists c. split; auto. split; auto. lia. }
    set (tm := if 1000000000 <? dl - ret c then 1000000000 else dl - ret c) in R.
    assert (E : 1000000 * (tm / 1000000) + tm mod 1000000 = tm) by (symmetry; apply Z.div_mod; lia). rewrite E in R.
    assert (TM : tm = Z.min (dl - ret c) 1000000000) by (unfold tm; destruct (Z.ltb_spec 1000000000 (dl - ret c)); lia).
    change (if rd then Select (fd + 1) [fd] [] (Some tm) else Select (fd + 1) [] [fd] (Some tm)) with (selcall rd fd tm) in R.
    clearbody tm. destruct R as [[-> ->]|(s & t1 & -> & R)].
    { split; [discriminate|]. exists [], [(Time, c)]. split; auto. split; [constructor|]. right. left. exists c. split; auto. split; auto. lia. }
    inversion C2 as [|? ? _ C3]; subst; clear C2. cbn [pbind] in R.
    assert (AGAIN : (ret s = -1 /\ err s = EINTR) \/ (ret s <> -1 /\ ~ In (mark rd fd) (data s)) -> runs (timeout_wait fuel rd fd dl) t1 o ->
      o <> Wrong /\ exists w l, (Time, c) :: (selcall rd fd (Z.min (dl - ret c) 1000000000), s) :: t1 = w ++ l /\ waited (mark rd fd) dl (selcall rd fd) w /\
  ( (l = [] /\ o = Cut)
  \/ (exists c, l = [(Time, c)] /\ ret c < dl /\ o = Cut)
  \/ (exists c, l = [(Time, c)] /\ dl <= ret c /\ o = Fin (Some ETIMEDOUT))
  \/ (exists c tm s, l = [(Time, c); (selcall rd fd tm, s)] /\ ret c < dl /\ tm = Z.min (dl - ret c) 1000000000 /\
        ret s = -1 /\ err s <> EINTR /\ o = Fin (Some (err s)))
  \/ (exists c tm s, l = [(Time, c); (selcall rd fd tm, s)] /\ ret c < dl /\ tm = Z.min (dl - ret c) 1000000000 /\
        ret s <> -1 /\ In (mark rd fd) (data s) /\ o = Fin None))).
    { intros G R1. apply IH in R1 as (W & w & l & -> & W1 & W2); auto. split; auto.
      exists ((Time, c) :: (selcall rd fd (Z.min (dl - ret c) 1000000000), s) :: w), l. split; [reflexivity|]. split; [|exact W2].
      apply waited_more; auto. lia. }
    destruct (Z.eqb_spec (ret s) (-1)) as [S1|S1].
    + destruct (Z.eqb_spec (err s) EINTR) as [S2|S2]; [apply AGAIN; auto|].
      destruct R as [-> ->]. split; [discriminate|]. eexists [], _. split; [reflexivity|]. split; [constructor|]. right. right. right. left.
      eexists c, _, s. split; [reflexivity|]. split; [lia|]. auto.
    + destruct (if rd then readable s fd else writable s fd) eqn:RD.
      * apply ready_in in RD. destruct R as [-> ->]. split; [discriminate|]. eexists [], _. split; [reflexivity|]. split; [constructor|]. right. right. right. right.
        eexists c, _, s. split; [reflexivity|]. split; [lia|]. auto.
      * apply AGAIN; auto. right. split; auto. intros G. apply ready_in in G. congruence.
Qed.

(** * Closing *)

Lemma fd_close_ok : forall how v e tr o, runs (fd_close_ how (Some v) e) tr o ->
  o <> Wrong /\
  (v = -1 -> tr = [] /\ o = Fin (Some (-1), e)) /\
  (v <> -1 -> exists n, map fst tr = firstn n [Shutdown v how; Close v] /\
     (o = Cut \/ (n = 2%nat /\ o = Fin (Some (-1), e)))).
Proof.
  intros how v e tr o R. unfold fd_close_ in R. destruct (Z.eqb_spec v (-1)) as [->|N].
  { destruct R as [-> ->]. split; [discriminate|]. split; auto. intros []; auto. }
  unfold tryshutdown, tryclose in R.
  destruct R as [[-> ->]|(a & t & -> & R)].
  { split; [discriminate|]. split; [tauto|]. intros _. exists 0%nat. auto. }
  cbn [pbind] in R.
  assert (G : forall (b : bool) (x : Z) t o, runs (pbind (A := bool * Z) (B := option Z * Z) (Ret (b, x)) (fun p => let (_, errno) := p in
     ' (_, _) <~ (a0 <~ sys1 (Close v) ;; (if ret a0 =? 0 then Ret (true, errno) else Ret (false, err a0))) ;; Ret (Some (-1), e))) t o ->
     (t = [] /\ o = Cut) \/ exists a1, t = [(Close v, a1)] /\ o = Fin (Some (-1), e)).
  { clear. intros b x t o R. cbn [pbind] in R. destruct R as [[-> ->]|(a1 & t1 & -> & R)]; [left; auto|right]. cbn [pbind] in R.
    destruct (ret a1 =? 0); destruct R as [-> ->]; eauto. }
  assert (H : (t = [] /\ o = Cut) \/ exists a1, t = [(Close v, a1)] /\ o = Fin (Some (-1), e)).
  { destruct (ret a =? 0); [apply (G true e)|apply (G false (err a))]; exact R. }
  destruct H as [[-> ->]|(a1 & -> & ->)].
  - split; [discriminate|]. split; [tauto|]. intros _. exists 1%nat. auto.
  - split; [discriminate|]. split; [tauto|]. intros _. exists 2%nat. auto.
Qed.

Definition is_close (fd : Z) (c : sys) : bool := match c with Close f => f =? fd | _ => false end.
Definition is_shut (fd : Z) (c : sys) : bool := match c with Shutdown f _ => f =? fd | _ => false end.
Lemma times_app : forall P a b, times P (a ++ b) = (times P a + times P b)%nat.
Proof. intros. unfold times. rewrite filter_app, app_length. reflexivity. Qed.
Lemma times_map : forall P tr, times P tr = length (filter P (map fst tr)).
Proof. intros P. induction tr as [|[c a] tr IH]; [reflexivity|]. unfold times in *. cbn [filter map fst]. destruct (P c); cbn [length]; lia. Qed.

Definition distinct (v : list Z) : Prop := forall i j x, nth_error v i = Some x -> nth_error v j = Some x -> x <> -1 -> i = j.

Lemma ne_upd_same : forall A (l : list A) i x, (i < length l)%nat -> nth_error (upd l i x) i = Some x.
Proof. intros A. induction l as [|h l IH]; intros [|i] x L; cbn [upd nth_error length] in *; auto; try lia. apply IH. lia. Qed.
Lemma ne_upd_other : forall A (l : list A) i j x, i <> j -> nth_error (upd l i x) j = nth_error l j.
Proof. intros A. induction l as [|h l IH]; intros [|i] [|j] x N; cbn [upd nth_error]; auto; try lia. Qed.

Lemma closes_absent : forall x, x <> -1 -> forall h v e tr v' e', runs (closes h v e) tr (Fin (v', e')) -> ~ In x v ->
  times (is_close x) tr = 0%nat /\ times (is_shut x) tr = 0%nat.
Proof.
  intros x X. induction h as [|[rd k] h IH]; intros v e tr v' e' R NI; cbn [closes] in R.
- destruct R as [-> _]. auto.
- apply runs_bind in R as [(y & t1 & t2 & -> & R1 & R)|[[R1 E]|[R1 E]]]; [|discriminate..].
  apply runs_lift in R1 as [-> R1]. unfold ld in R1. destruct (nth_error v k) as [y0|] eqn:K; [|discriminate]. injection R1 as ->. cbn [app].
  apply runs_bind in R as [([ox ex] & t3 & t4 & -> & R1 & R)|[[R1 E]|[R1 E]]]; [|discriminate..].
  assert (R2 : runs (fd_close_ (if rd then SHUT_RD else SHUT_WR) (Some y0) e) t3 (Fin (ox, ex))) by (destruct rd; exact R1). clear R1.
  apply fd_close_ok in R2 as (_ & R2 & R3). assert (NE : y0 <> x) by (intros ->; apply NI; eapply nth_error_In; eauto).
  assert (S : ox = Some (-1) /\ times (is_close x) t3 = 0%nat /\ times (is_shut x) t3 = 0%nat).
  { destruct (Z.eq_dec y0 (-1)) as [->|N].
    - destruct (R2 eq_refl) as [-> E]. injection E as -> ->. auto.
    - destruct (R3 N) as (n & E1 & [E2|[-> E2]]); [discriminate|]. injection E2 as -> ->. split; auto. rewrite !times_map, E1. cbn [firstn filter is_close is_shut].
      replace (y0 =? x) with false by lia. auto. }
  destruct S as (-> & S1 & S2).
  apply runs_bind in R as [(v1 & t5 & t6 & -> & R1 & R)|[[R1 E]|[R1 E]]]; [|discriminate..].
  apply runs_lift in R1 as [-> R1]. unfold st in R1. destruct (k <? length v)%nat eqn:KL; [|discriminate]. injection R1 as ->. cbn [app].
  rewrite !times_app, S1, S2. eapply IH; eauto. intros Q. apply In_nth_error in Q as (j & Q). destruct (Nat.eq_dec j k) as [->|NJ].
  + rewrite ne_upd_same in Q by (apply Nat.ltb_lt; auto). congruence.
  + rewrite ne_upd_other in Q by auto. apply NI. eapply nth_error_In; eauto.
Qed.

Lemma closes_ok : forall h v e tr v' e', distinct v ->
  runs (closes h v e) tr (Fin (v', e')) ->
  e' = e /\ length v' = length v /\
  (forall i x, nth_error v i = Some x ->
     nth_error v' i = Some (if in_dec Nat.eq_dec i (map snd h) then -1 else x) /\
     (x <> -1 ->
       times (is_close x) tr = (if in_dec Nat.eq_dec i (map snd h) then 1 else 0)%nat /\
       times (is_shut x) tr = (if in_dec Nat.eq_dec i (map snd h) then 1 else 0)%nat)).
Proof.
  induction h as [|[rd k] h IH]; intros v e tr v' e' D R; cbn [closes] in R.
  - destruct R as [-> E]. injection E as -> ->. split; auto.
  - apply runs_bind in R as [(x & t1 & t2 & -> & R1 & R)|[[R1 E]|[R1 E]]]; [|discriminate..].
    apply runs_lift in R1 as [-> R1]. unfold ld in R1. destruct (nth_error v k) as [y|] eqn:K; [|discriminate]. injection R1 as ->.
    cbn [app]. assert (KL : (k < length v)%nat) by (apply nth_error_Some; congruence).
    apply runs_bind in R as [([ox ex] & t3 & t4 & -> & R1 & R)|[[R1 E]|[R1 E]]]; [|discriminate..].
    assert (R2 : runs (fd_close_ (if rd then SHUT_RD else SHUT_WR) (Some y) e) t3 (Fin (ox, ex))) by (destruct rd; exact R1). clear R1.
    apply fd_close_ok in R2 as (_ & R2 & R3).
    assert (S : ox = Some (-1) /\ ex = e /\ (forall x, x <> -1 -> times (is_close x) t3 = (if y =? x then 1%nat else 0%nat) /\ times (is_shut x) t3 = (if y =? x then 1%nat else 0%nat))).
    { destruct (Z.eq_dec y (-1)) as [->|N].
      - destruct (R2 eq_refl) as [-> E]. injection E as -> ->. split; auto. split; auto. intros x X. replace (-1 =? x) with false by lia. auto.
      - destruct (R3 N) as (n & E1 & [E2|[-> E2]]); [discriminate|]. injection E2 as -> ->. split; auto. split; auto. intros x X.
        rewrite !times_map, E1. cbn [firstn filter is_close is_shut]. destruct (y =? x); auto. }
    destruct S as (-> & -> & S). clear R2 R3.
    apply runs_bind in R as [(v1 & t5 & t6 & -> & R1 & R)|[[R1 E]|[R1 E]]]; [|discriminate..].
    apply runs_lift in R1 as [-> R1]. unfold st in R1. rewrite (proj2 (Nat.ltb_lt _ _) KL) in R1. injection R1 as ->. cbn [app].
    assert (D1 : distinct (upd v k (-1))).
    { intros i j x I J X. destruct (Nat.eq_dec i k) as [->|NI]; [rewrite ne_upd_same in I by auto; congruence|].
      destruct (Nat.eq_dec j k) as [->|NJ]; [rewrite ne_upd_same in J by auto; congruence|]. rewrite ne_upd_other in I, J by auto. eapply D; eauto. }
    pose proof R as R0. apply IH in R as (-> & L & H); auto. split; auto. rewrite upd_length in L. split; auto.
    intros i x I. destruct (Nat.eq_dec i k) as [->|NI].
    + rewrite K in I. injection I as ->. destruct (H k (-1)) as [H1 _]; [apply ne_upd_same; auto|].
      cbn [map snd]. destruct (in_dec Nat.eq_dec k (k :: map snd h)) as [_|Q]; [|exfalso; apply Q; left; auto].
      split. { rewrite H1. destruct (in_dec Nat.eq_dec k (map snd h)); auto. }
      intros X. rewrite !times_app. destruct (S x X) as [-> ->]. rewrite Z.eqb_refl.
      assert (NX : ~ In x (upd v k (-1))).
      { intros Q. apply In_nth_error in Q as (j & Q). destruct (Nat.eq_dec j k) as [->|NJ].
        - rewrite ne_upd_same in Q by auto. congruence.
        - rewrite ne_upd_other in Q by auto. apply NJ. eapply D; eauto. }
      destruct (closes_absent x X _ _ _ _ _ _ R0 NX) as [-> ->]. auto.
    + destruct (H i x) as [H1 H2]; [rewrite ne_upd_other; auto|]. cbn [map snd].
      assert (EQ : forall A (a b : A), (if in_dec Nat.eq_dec i (k :: map snd h) then a else b) = (if in_dec Nat.eq_dec i (map snd h) then a else b)).
      { intros A a b. destruct (in_dec Nat.eq_dec i (k :: map snd h)) as [Q|Q]; destruct (in_dec Nat.eq_dec i (map snd h)) as [P|P]; auto.
        - exfalso. destruct Q; [congruence|contradiction].
        - exfalso. apply Q. right. auto. }
      rewrite !EQ. split; auto. intros X. rewrite !times_app. destruct (S x X) as [-> ->]. destruct (H2 X) as [-> ->].
      destruct (Z.eqb_spec y x) as [->|_]; auto. exfalso. apply NI. eapply D; eauto.
Qed.


(** * Polling *)

Lemma land_pow2 : forall a n, 0 <= n -> negb (Z.land a (2 ^ n) =? 0) = Z.testbit a n.
Proof.
  intros a n N. destruct (Z.testbit a n) eqn:T.
  - destruct (Z.eqb_spec (Z.land a (2 ^ n)) 0) as [E|E]; auto. exfalso.
    assert (X : Z.testbit (Z.land a (2 ^ n)) n = true) by (rewrite Z.land_spec, T, Z.pow2_bits_true by lia; reflexivity).
    rewrite E, Z.bits_0 in X. discriminate.
  - replace (Z.land a (2 ^ n)) with 0; auto. symmetry. apply Z.bits_inj'. intros m M. rewrite Z.bits_0, Z.land_spec.
    destruct (Z.eq_dec m n) as [->|D]; [rewrite T; reflexivity|]. rewrite Z.pow2_bits_false by lia. apply andb_false_r.
Qed.
Lemma has_in : forall ev, has ev POLLIN = Z.testbit ev 0.
Proof. intros. apply (land_pow2 ev 0). lia. Qed.
Lemma has_out : forall ev, has ev POLLOUT = Z.testbit ev 2.
Proof. intros. apply (land_pow2 ev 2). lia. Qed.

Lemma jp_sets_ok : forall x nfds rd wr, 1 <= nfds <= 1024 -> (forall f, In f rd \/ In f wr -> 0 <= f < nfds) ->
  match jp_sets x nfds rd wr with
  | None => exists e, In e x /\ 1024 <= fst e
  | Some (n, r, w) => (forall e, In e x -> fst e < 1024) /\ nfds <= n <= 1024 /\ (forall f, In f r \/ In f w -> 0 <= f < n) /\
      (forall f, In f r <-> In f rd \/ exists e, In e x /\ asks 0 e = true /\ fst e = f) /\
      (forall f, In f w <-> In f wr \/ exists e, In e x /\ asks 2 e = true /\ fst e = f)
  end.
Proof.
  induction x as [|[fd ev] x IH]; intros nfds rd wr N F; cbn [jp_sets].
  - split; [intros e []|]. split; [lia|]. split; auto. split; intros f; split; auto; intros [?|(e & [] & _)]; auto.
  - destruct (Z.ltb_spec fd 0) as [L|L].
    + specialize (IH nfds rd wr N F). destruct (jp_sets x nfds rd wr) as [[[n r] w]|].
      * destruct IH as (I0 & I1 & I2 & I3 & I4). split. { intros e [<-|E]; auto. cbn [fst]. lia. } split; auto. split; auto.
        assert (NA : forall b, asks b (fd, ev) = false) by (intros b; unfold asks; cbn [fst]; replace (0 <=? fd) with false by lia; reflexivity).
        split; intros f; [rewrite I3|rewrite I4]; split; (intros [?|(e & E1 & E2)]; [left; auto|right; exists e; split; [|auto]]).
        -- right; auto.
        -- destruct E1 as [<-|E1]; auto. rewrite NA in E2. destruct E2; discriminate.
        -- right; auto.
        -- destruct E1 as [<-|E1]; auto. rewrite NA in E2. destruct E2; discriminate.
      * destruct IH as (e & E1 & E2). exists e. split; auto. right. auto.
    + unfold FD_SETSIZE. destruct (Z.leb_spec 1024 fd) as [L2|L2]; [exists (fd, ev); split; [left; auto|auto]|].
      set (nf := if nfds <=? fd then fd + 1 else nfds).
      assert (NF : nfds <= nf <= 1024 /\ fd < nf) by (unfold nf; destruct (Z.leb_spec nfds fd); lia). clearbody nf.
      rewrite has_in, has_out.
      set (rd1 := if Z.testbit ev 0 then fd :: rd else rd). set (wr1 := if Z.testbit ev 2 then fd :: wr else wr).
      assert (A : forall b, asks b (fd, ev) = Z.testbit ev b) by (intros b; unfold asks; cbn [fst snd]; replace (0 <=? fd) with true by lia; reflexivity).
      assert (RD : forall f, In f rd1 <-> In f rd \/ (asks 0 (fd, ev) = true /\ fd = f)).
      { intros f. rewrite A. unfold rd1. destruct (Z.testbit ev 0); cbn [In]; split; intuition congruence. }
      assert (WR : forall f, In f wr1 <-> In f wr \/ (asks 2 (fd, ev) = true /\ fd = f)).
      { intros f. rewrite A. unfold wr1. destruct (Z.testbit ev 2); cbn [In]; split; intuition congruence. }
      specialize (IH nf rd1 wr1 ltac:(lia)).
      assert (F1 : forall f, In f rd1 \/ In f wr1 -> 0 <= f < nf).
      { intros f [Q|Q]; [apply RD in Q|apply WR in Q]; destruct Q as [Q|[_ <-]]; try lia; [specialize (F f (or_introl Q))|specialize (F f (or_intror Q))]; lia. }
      specialize (IH F1). destruct (jp_sets x nf rd1 wr1) as [[[n r] w]|].
      * destruct IH as (I0 & I1 & I2 & I3 & I4). split. { intros e [<-|E]; auto. } split; [lia|]. split; auto. split; intros f.
        -- rewrite I3, RD. split.
           ++ intros [[Q|[Q1 Q2]]|(e & E1 & E2)]; [left; auto|right; exists (fd, ev); split; [left; auto|auto]|right; exists e; split; [right; auto|auto]].
           ++ intros [Q|(e & [<-|E1] & E2)]; [left; left; auto|left; right; auto|right; eauto].
        -- rewrite I4, WR. split.
           ++ intros [[Q|[Q1 Q2]]|(e & E1 & E2)]; [left; auto|right; exists (fd, ev); split; [left; auto|auto]|right; exists e; split; [right; auto|auto]].
           ++ intros [Q|(e & [<-|E1] & E2)]; [left; left; auto|left; right; auto|right; eauto].
      * destruct IH as (e & E1 & E2). exists e. split; auto. right. auto.
Qed.

Lemma existsb_in : forall x l, existsb (Z.eqb x) l = (if in_dec Z.eq_dec x l then true else false).
Proof.
  intros x l. destruct (in_dec Z.eq_dec x l) as [I|I].
  - apply existsb_exists. exists x. split; auto. apply Z.eqb_refl.
  - destruct (existsb (Z.eqb x) l) eqn:E; auto. exfalso. apply existsb_exists in E as (y & Y & E). apply Z.eqb_eq in E. subst. auto.
Qed.

Lemma jp_result_ok : forall x a r, (forall e, In e x -> fst e < 1024) ->
  jp_result x a r = Some (r + flags a x, map (reported a) x).
Proof.
  induction x as [|[fd ev] x IH]; intros a r H; cbn [jp_result flags map].
  - rewrite Z.add_0_r. reflexivity.
  - assert (HX : forall e, In e x -> fst e < 1024) by (intros e E; apply H; right; auto).
    pose proof (H (fd, ev) (or_introl eq_refl)) as H0. cbn [fst] in H0.
    unfold reported at 1, ready_for, asks. cbn [fst snd]. destruct (Z.ltb_spec fd 0) as [L|L].
    + rewrite IH by auto. replace (0 <=? fd) with false by lia. cbn [andb fst snd]. f_equal.
    + unfold FD_SETSIZE. replace (1024 <=? fd) with false by lia. replace (0 <=? fd) with true by lia. cbn [andb].
      rewrite has_in, has_out. unfold readable, writable. rewrite !existsb_in.
      destruct (Z.testbit ev 0); destruct (Z.testbit ev 2); destruct (in_dec Z.eq_dec fd (data a)); destruct (in_dec Z.eq_dec (-1 - fd) (data a)); cbn [andb fst snd]; rewrite IH by auto;
        try (rewrite ?Z.add_0_l, ?Z.add_0_r, ?Z.add_assoc; reflexivity).
Qed.
