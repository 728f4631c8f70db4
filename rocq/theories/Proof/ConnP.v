(** Lemmas about conn.c. *)
From Coq Require Import Permutation.
From Verif.Model Require Import Base Sys Buffer Fdio Conn.
From Verif.Spec Require Import Descriptors.
From Verif.Proof Require Import Tac SysP.

(** ** Descriptors through a program *)

(** [G]: what is assumed of every event *)
Definition hoare {A} (G : event -> Prop) (L : list Z) (p : prog A) (Q : list Z -> trace -> A -> Prop) : Prop :=
  forall tr o L', runs p tr o -> fdrun L tr = Some L' -> Forall G tr ->
    o <> Wrong /\ closes_open L tr /\ forall r, o = Fin r -> Q L' tr r.

Lemma fdrun_app : forall a b L, fdrun L (a ++ b) = match fdrun L a with Some L1 => fdrun L1 b | None => None end.
Proof. induction a as [|e a IH]; intros b L; cbn [app fdrun]; auto. destruct (fd1 L e); auto. Qed.
Lemma closes_app : forall a b L, closes_open L a -> (forall L1, fdrun L a = Some L1 -> closes_open L1 b) -> closes_open L (a ++ b).
Proof.
  induction a as [|e a IH]; intros b L C H; cbn [app]; [apply H; reflexivity|]. cbn [closes_open fdrun] in *. destruct C as [C1 C2]. split; auto.
  destruct (fd1 L e); auto.
Qed.

Lemma h_ret : forall A (G : event -> Prop) L (x : A) (Q : _ -> _ -> _ -> Prop), Q L [] x -> hoare G L (Ret x) Q.
Proof. intros A G L x Q H tr o L' R E _. destruct R as [-> ->]. cbn in E. injection E as <-. split; [discriminate|]. split; [exact I|]. intros r E. injection E as <-. auto. Qed.
Lemma h_halt : forall A (G : event -> Prop) L (Q : _ -> _ -> A -> Prop), hoare G L Halt Q.
Proof. intros A G L Q tr o L' R E _. destruct R as [-> ->]. split; [discriminate|]. split; [exact I|discriminate]. Qed.
Lemma h_bind : forall A B (G : event -> Prop) L (p : prog A) (f : A -> prog B) Q R, hoare G L p Q ->
  (forall L1 t x, Q L1 t x -> Forall G t -> fdrun L t = Some L1 -> hoare G L1 (f x) (fun L2 t2 y => R L2 (t ++ t2) y)) -> hoare G L (pbind p f) R.
Proof.
  intros A B G L p f Q R HP HF tr o L' RU E FG. apply runs_bind in RU as [(a & t1 & t2 & -> & R1 & R2)|[[R1 ->]|[R1 ->]]].
  - rewrite fdrun_app in E. destruct (fdrun L t1) as [L1|] eqn:E1; [|discriminate]. apply Forall_app in FG as [F1 F2].
    destruct (HP _ _ _ R1 E1 F1) as (_ & C1 & Q1). specialize (Q1 a eq_refl). destruct (HF _ _ _ Q1 F1 E1 _ _ _ R2 E F2) as (W & C2 & Q2).
    split; auto. split; auto. apply closes_app; auto. intros L2 E2. rewrite E1 in E2. injection E2 as <-. auto.
  - destruct (HP _ _ _ R1 E FG) as (W & _). congruence.
  - destruct (HP _ _ _ R1 E FG) as (_ & C & _). split; [discriminate|]. split; [auto|discriminate].
Qed.
Lemma h_conseq : forall A (G : event -> Prop) L (p : prog A) (Q R : _ -> _ -> _ -> Prop), hoare G L p Q -> (forall L' t x, Q L' t x -> R L' t x) -> hoare G L p R.
Proof. intros A G L p Q R H I tr o L' RU E FG. destruct (H _ _ _ RU E FG) as (W & C & K). auto. Qed.
(** a call that is no close *)
Lemma h_sys : forall (G : event -> Prop) L c (Q : list Z -> trace -> ans -> Prop), (forall f, c <> Close f) ->
  (forall a L', G (c, a) -> fd1 L (c, a) = Some L' -> Q L' [(c, a)] a) -> hoare G L (sys1 c) Q.
Proof.
  intros G L c Q N H tr o L' R E FG. apply runs_sys1 in R as [[-> ->]|(a & -> & ->)].
  - split; [discriminate|]. split; [exact I|discriminate].
  - inversion FG; subst. cbn [fdrun] in E. destruct (fd1 L (c, a)) as [L1|] eqn:E1; [|discriminate]. injection E as ->.
    split; [discriminate|]. split; [|intros r E; injection E as <-; auto].
    cbn [closes_open]. rewrite E1. split; [|exact I]. intros f E _. exfalso. exact (N f E).
Qed.
Lemma h_neutral : forall (G : event -> Prop) L c (Q : list Z -> trace -> ans -> Prop), (forall f, c <> Close f) -> (forall a, fd1 L (c, a) = Some L) ->
  (forall a, G (c, a) -> Q L [(c, a)] a) -> hoare G L (sys1 c) Q.
Proof. intros G L c Q N F H. apply h_sys; auto. intros a L' Ga E. rewrite F in E. injection E as <-. auto. Qed.
Lemma h_close : forall (G : event -> Prop) L f (Q : list Z -> trace -> ans -> Prop), (f <> -1 -> In f L) -> (forall a, Q (filter (fun x => negb (x =? f)) L) [(Close f, a)] a) -> hoare G L (sys1 (Close f)) Q.
Proof.
  intros G L f Q N H tr o L' R E FG. apply runs_sys1 in R as [[-> ->]|(a & -> & ->)].
  - split; [discriminate|]. split; [exact I|discriminate].
  - cbn in E. injection E as <-. split; [discriminate|]. split; [|intros r E; injection E as <-; auto].
    cbn [closes_open]. split; [|exact I]. intros g E D. cbn [fst] in E. injection E as ->. auto.
Qed.
Lemma h_lift : forall A (G : event -> Prop) L (r : res A) x (Q : _ -> _ -> A -> Prop), r = Ok x -> Q L [] x -> hoare G L (lift r) Q.
Proof. intros A G L r x Q -> H. apply h_ret. auto. Qed.

(** ** The slots *)

Definition present (x : Z) : bool := negb (x =? -1).
Definition tracked (sl : slots) : list Z := filter present (flat_map (fun '(a, b) => [a; b]) sl).
(** [L0] are the descriptors that have nothing to do with conn.c *)
Record inv (L0 L : list Z) (sl : slots) : Prop := {
  v_len : length sl = 8%nat;
  v_perm : Permutation L (L0 ++ tracked sl);
  v_nodup : NoDup L;
  v_pos : Forall (fun x => 0 <= x) L
}.

Lemma tracked_app : forall a b, tracked (a ++ b) = tracked a ++ tracked b.
Proof. intros. unfold tracked. rewrite flat_map_app, filter_app. reflexivity. Qed.
Lemma tracked_cons : forall a b sl, tracked ((a, b) :: sl) = (if present a then [a] else []) ++ (if present b then [b] else []) ++ tracked sl.
Proof. intros. unfold tracked. cbn [flat_map app filter]. destruct (present a), (present b); reflexivity. Qed.
Lemma perm_filter : forall {A} (f : A -> bool) a b, Permutation a b -> Permutation (filter f a) (filter f b).
Proof.
  intros A f a b P. induction P; cbn [filter]; auto.
  - destruct (f x); auto.
  - destruct (f x), (f y); auto. constructor.
  - eapply perm_trans; eauto.
Qed.
Lemma filter_notin : forall a l, ~ In a l -> filter (fun x => negb (x =? a)) l = l.
Proof.
  induction l as [|y l IH]; intros N; auto. cbn [filter]. destruct (Z.eqb_spec y a) as [->|D]; [exfalso; apply N; left; auto|]. cbn [negb]. f_equal. apply IH. intros Q. apply N. right. auto.
Qed.
Lemma remove_perm : forall L x a y, NoDup L -> Permutation L (x ++ a :: y) -> Permutation (filter (fun z => negb (z =? a)) L) (x ++ y).
Proof.
  intros L x a y N P. apply perm_filter with (f := fun z => negb (z =? a)) in P as Q. eapply perm_trans; [exact Q|].
  assert (N2 : NoDup (x ++ a :: y)) by (eapply Permutation_NoDup; eauto). apply NoDup_remove_2 in N2.
  rewrite filter_app. cbn [filter]. rewrite Z.eqb_refl. cbn [negb]. rewrite !filter_notin; auto; intros Q1; apply N2; apply in_or_app; auto.
Qed.
Lemma nth_cut : forall {A} i (l : list A) x, nth_error l i = Some x -> exists a b, l = a ++ x :: b /\ length a = i.
Proof. intros. apply nth_error_split in H as (a & b & -> & E). eauto. Qed.
Lemma upd_cut : forall {A} (a : list A) x b y, upd (a ++ x :: b) (length a) y = a ++ y :: b.
Proof. induction a as [|z a IH]; intros x b y; cbn [app length upd]; auto. rewrite IH. auto. Qed.

Lemma one_close : forall L x a y, NoDup L -> Forall (fun z => 0 <= z) L -> Permutation L (x ++ (if present a then [a] else []) ++ y) ->
  (a <> -1 -> In a L) /\ Permutation (filter (fun z => negb (z =? a)) L) (x ++ y) /\ NoDup (filter (fun z => negb (z =? a)) L) /\ Forall (fun z => 0 <= z) (filter (fun z => negb (z =? a)) L).
Proof.
  intros L x a y N F P. unfold present in P.
  assert (N2 : NoDup (filter (fun z => negb (z =? a)) L)) by (apply NoDup_filter; auto).
  assert (F2 : Forall (fun z => 0 <= z) (filter (fun z => negb (z =? a)) L)).
  { rewrite Forall_forall in *. intros z Z. apply filter_In in Z. apply F. apply Z. }
  destruct (Z.eqb_spec a (-1)) as [->|D]; cbn [negb app] in P.
  - rewrite filter_notin in *. 2,3,4: intros Q; rewrite Forall_forall in F; specialize (F _ Q); lia. split; [congruence|]. auto.
  - split; [|split; auto; apply remove_perm; auto]. intros _. eapply Permutation_in; [apply Permutation_sym; exact P|]. apply in_or_app. right. left. auto.
Qed.

(** closing the pair in a slot *)
Lemma pair_close : forall L0 L s1 a b s2, inv L0 L (s1 ++ (a, b) :: s2) ->
  (a <> -1 -> In a L) /\ (b <> -1 -> In b (filter (fun z => negb (z =? a)) L)) /\
  inv L0 (filter (fun z => negb (z =? b)) (filter (fun z => negb (z =? a)) L)) (s1 ++ none :: s2).
Proof.
  intros L0 L s1 a b s2 [VL VP VN VF]. rewrite tracked_app, tracked_cons in VP.
  assert (T : tracked (s1 ++ none :: s2) = tracked s1 ++ tracked s2) by (rewrite tracked_app; reflexivity).
  rewrite app_assoc in VP. destruct (one_close _ _ _ _ VN VF VP) as (A1 & A2 & A3 & A4). destruct (one_close _ _ _ _ A3 A4 A2) as (B1 & B2 & B3 & B4).
  split; auto. split; auto. constructor; auto.
  - rewrite app_length in *. cbn [length] in *. lia.
  - rewrite T, app_assoc. auto.
Qed.

Lemma h_closeslot : forall (G : event -> Prop) L0 L sl i, inv L0 L sl -> (i < 8)%nat ->
  hoare G L (closeslot sl (Some i)) (fun L' _ sl' => sl' = upd sl i none /\ inv L0 L' sl').
Proof.
  intros G L0 L sl i I LT. unfold closeslot. pose proof (v_len _ _ _ I) as VL. destruct (nth_error sl i) as [[a b]|] eqn:E; [|apply nth_error_None in E; lia].
  apply nth_cut in E as (s1 & s2 & -> & <-). destruct (pair_close _ _ _ _ _ _ I) as (C1 & C2 & C3).
  eapply h_bind. { apply h_close with (Q := fun L' _ _ => L' = filter (fun z => negb (z =? a)) L); auto. } cbn beta. intros L1 t _ -> _ _.
  eapply h_bind. { apply h_close with (Q := fun L' _ _ => L' = filter (fun z => negb (z =? b)) (filter (fun z => negb (z =? a)) L)); auto. } cbn beta. intros L2 t2 _ -> _ _.
  apply h_ret. rewrite upd_cut. auto.
Qed.

Lemma upd_comm_none : forall (sl : slots) i, length (upd sl i none) = length sl.
Proof. intros. apply upd_length. Qed.

(** slots are only ever emptied *)
Definition sub (sl sl0 : slots) : Prop := length sl = length sl0 /\ forall k x, nth_error sl k = Some x -> x = none \/ nth_error sl0 k = Some x.
Lemma sub_refl : forall sl, sub sl sl.
Proof. intros. split; auto. Qed.
Lemma nth_upd : forall {A} (l : list A) i k x, nth_error (upd l i x) k = if Nat.eqb k i then (match nth_error l i with Some _ => Some x | None => None end) else nth_error l k.
Proof.
  induction l as [|y l IH]; intros i k x; destruct i, k; cbn [upd nth_error Nat.eqb]; auto. destruct (Nat.eqb k i); auto.
Qed.
Lemma sub_upd : forall sl sl0 i, sub sl sl0 -> sub (upd sl i none) sl0.
Proof.
  intros sl sl0 i [A B]. split; [rewrite upd_length; auto|]. intros k x E. rewrite nth_upd in E. destruct (Nat.eqb k i); auto.
  destruct (nth_error sl i); [|discriminate]. injection E as <-. auto.
Qed.

Lemma h_reset_from : forall (G : event -> Prop) L0 m i L sl, inv L0 L sl -> (i + m = 8)%nat -> (forall k, (k < i)%nat -> nth_error sl k = Some none) ->
  hoare G L (conn_reset_from m i sl) (fun L' _ sl' => sl' = repeat none 8 /\ inv L0 L' sl').
Proof.
  intros G L0. induction m as [|m IH]; intros i L sl I LE Z; cbn [conn_reset_from].
  - apply h_ret. split; auto. pose proof (v_len _ _ _ I) as VL. assert (i = 8%nat) as -> by lia.
    do 8 (destruct sl as [|? sl]; [discriminate|]). destruct sl; [|discriminate].
    pose proof (Z 0%nat ltac:(lia)); pose proof (Z 1%nat ltac:(lia)); pose proof (Z 2%nat ltac:(lia)); pose proof (Z 3%nat ltac:(lia)); pose proof (Z 4%nat ltac:(lia)); pose proof (Z 5%nat ltac:(lia)); pose proof (Z 6%nat ltac:(lia)); pose proof (Z 7%nat ltac:(lia)).
    cbn [nth_error] in *. cbn [repeat]. congruence.
  - eapply h_bind; [apply h_closeslot; eauto; lia|]. cbn beta. intros L1 t sl1 (-> & I1) _ _.
    apply IH; auto; [lia|]. intros k K. rewrite nth_upd. destruct (Nat.eqb_spec k i) as [->|D]; [|apply Z; lia].
    destruct (nth_error sl i) eqn:E; auto. apply nth_error_None in E. rewrite (v_len _ _ _ I) in E. lia.
Qed.
Lemma h_reset : forall (G : event -> Prop) L0 L sl, inv L0 L sl -> hoare G L (conn_reset sl) (fun L' _ sl' => sl' = repeat none 8 /\ inv L0 L' sl' /\ Permutation L' L0).
Proof.
  intros G L0 L sl I. eapply h_conseq; [eapply h_reset_from; eauto; intros; lia|]. cbn beta. intros L' t sl' (-> & I'). split; auto. split; auto.
  pose proof (v_perm _ _ _ I') as P. cbn in P. rewrite app_nil_r in P. auto.
Qed.

(** ** conn_init *)

Ltac neutral := apply h_neutral; [intros; discriminate|intros; reflexivity|].

Lemma opens_ok : forall L r L', opens L r = Some L' -> (r = -1 /\ L' = L) \/ (0 <= r /\ ~ In r L /\ L' = r :: L).
Proof.
  intros L r L' E. unfold opens in E. destruct (Z.eqb_spec r (-1)); [injection E as <-; auto|]. destruct (Z.leb_spec 0 r); cbn [andb] in E; [|discriminate].
  destruct (mem r L) eqn:M; cbn [negb] in E; [discriminate|]. injection E as <-. right. split; auto. split; auto. intros Q.
  unfold mem in M. assert (existsb (Z.eqb r) L = true); [|congruence]. apply existsb_exists. exists r. rewrite Z.eqb_refl. auto.
Qed.

Lemma h_socket : forall (G : event -> Prop) L, NoDup L -> Forall (fun x => 0 <= x) L ->
  hoare G L socket_tcp (fun L' _ s => (s = -1 /\ Permutation L' L /\ NoDup L' /\ Forall (fun x => 0 <= x) L') \/ (0 <= s /\ ~ In s L /\ L' = s :: L)).
Proof.
  intros G L N F. unfold socket_tcp. eapply h_bind.
  { apply h_sys with (Q := fun L' _ a => opens L (ret a) = Some L'); [intros; discriminate|]. intros a L' _ E. exact E. }
  cbn beta. intros L1 t a E _ _. apply opens_ok in E as [[E ->]|(E1 & E2 & ->)].
  - rewrite E. change (-1 =? -1) with true. apply h_ret. left. auto.
  - destruct (Z.eqb_spec (ret a) (-1)); [lia|]. set (s := ret a) in *.
    assert (CL : forall (t : trace), hoare G (s :: L) (_ <~ sys1 (Close s) ;; Ret (-1)) (fun L' _ x => x = -1 /\ Permutation L' L /\ NoDup L' /\ Forall (fun y => 0 <= y) L')).
    { intros _. eapply h_bind; [apply h_close with (Q := fun L' _ _ => L' = L)|].
      - intros _. left. auto.
      - intros _. cbn [filter]. rewrite Z.eqb_refl. cbn [negb]. apply filter_notin. auto.
      - cbn beta. intros L2 t2 _ -> _ _. apply h_ret. auto. }
    eapply h_bind. { neutral. intros b _. instantiate (1 := fun L' _ _ => L' = s :: L). reflexivity. } cbn beta. intros L2 t2 b -> _ _.
    destruct (ret b =? -1). { eapply h_conseq; [apply CL; exact []|]. cbn beta. intros L' t' x Q. left. exact Q. }
    eapply h_bind. { neutral. intros c _. instantiate (1 := fun L' _ _ => L' = s :: L). reflexivity. } cbn beta. intros L2 t3 c -> _ _.
    destruct (ret c =? -1). { eapply h_conseq; [apply CL; exact []|]. cbn beta. intros L' t' x Q. left. exact Q. }
    eapply h_bind with (Q := fun L' _ _ => L' = s :: L).
    + unfold fd_blocking_disable. eapply h_bind. { neutral. intros d _. instantiate (1 := fun L' _ _ => L' = s :: L). reflexivity. } cbn beta. intros L2 t4 d -> _ _.
      destruct (ret d =? -1); [apply h_ret; auto|]. eapply h_bind. { neutral. intros e _. instantiate (1 := fun L' _ _ => L' = s :: L). reflexivity. } cbn beta. intros L2 t5 e -> _ _. apply h_ret. auto.
    + cbn beta. intros L2 t4 _ -> _ _. apply h_ret. right. auto.
Qed.

Lemma tracked_set : forall s1 s2 a b, tracked (s1 ++ (a, b) :: s2) = tracked s1 ++ ((if present a then [a] else []) ++ (if present b then [b] else [])) ++ tracked s2.
Proof. intros. rewrite tracked_app, tracked_cons, <- app_assoc. auto. Qed.

(** the first n slots hold pairs, the others nothing *)
Definition filled (n : nat) (sl : slots) : Prop :=
  forall k x, nth_error sl k = Some x -> if Nat.ltb k n then 0 <= fst x /\ 0 <= snd x else x = none.

Lemma h_prepare : forall (G : event -> Prop) L0 m i L sl, inv L0 L sl -> filled i sl -> (i + m <= 8)%nat ->
  hoare G L (conn_prepare m i sl) (fun L' _ '(ok, sl') => inv L0 L' sl' /\ if ok : bool then filled (i + m) sl' else Permutation L' L0).
Proof.
  intros G L0. induction m as [|m IH]; intros i L sl I F LE; cbn [conn_prepare].
  - apply h_ret. rewrite Nat.add_0_r. auto.
  - pose proof (v_len _ _ _ I) as VL. destruct (nth_error sl i) as [x|] eqn:NT; [|apply nth_error_None in NT; lia].
    pose proof (F _ _ NT) as X. destruct (Nat.ltb_spec i i); [lia|]. subst x. assert (SN : snd (nth i sl none) = -1) by (rewrite (nth_error_nth sl i none NT); reflexivity). rewrite SN.
    destruct (nth_cut _ _ _ NT) as (s1 & s2 & -> & LS). rewrite <- LS in *. clear SN.
    assert (VP : Permutation L (L0 ++ tracked s1 ++ tracked s2)). { pose proof (v_perm _ _ _ I) as P. rewrite tracked_app in P. exact P. }
    destruct I as [_ _ VN VF].
    eapply h_bind; [apply h_socket; auto|]. cbn beta. intros L1 t s SC _ _. rewrite upd_cut.
    assert (LL : forall y : Z * Z, length (s1 ++ y :: s2) = 8%nat) by (intros y; rewrite app_length in *; cbn [length] in *; lia).
    destruct SC as [(-> & P1 & N1 & F1)|(P0 & NI & ->)].
    + change (-1 =? -1) with true. cbn [negb]. eapply h_bind.
      { apply (h_reset G L0). constructor; [apply LL| |auto|auto]. rewrite tracked_set. cbn. eapply perm_trans; eauto. }
      cbn beta. intros L2 t2 sl2 (-> & I2 & P2) _ _. apply h_ret. auto.
    + destruct (Z.eqb_spec s (-1)); [lia|]. eapply h_bind.
      { apply h_sys with (Q := fun L' _ a => opens (s :: L) (ret a) = Some L'); [intros; discriminate|]. intros a L' _ E. exact E. }
      cbn beta. intros L2 t2 d E _ _. rewrite upd_cut. apply opens_ok in E as [[E ->]|(E1 & E2 & ->)].
      * rewrite E. change (-1 =? -1) with true. eapply h_bind.
        { apply (h_reset G L0). constructor; [apply LL| |constructor; auto|constructor; auto]. rewrite tracked_set. unfold present. replace (s =? -1) with false by lia. cbn. rewrite app_assoc in VP |- *. apply Permutation_cons_app. auto. }
        cbn beta. intros L3 t3 sl3 (-> & I3 & P3) _ _. apply h_ret. auto.
      * destruct (Z.eqb_spec (ret d) (-1)); [lia|]. replace (length s1 + Datatypes.S m)%nat with (Datatypes.S (length s1) + m)%nat by lia.
        eapply h_conseq; [eapply IH|].
        -- constructor; [apply LL| |constructor; [exact E2|constructor; auto]|constructor; [lia|constructor; auto]]. rewrite tracked_set. unfold present. replace (s =? -1) with false by lia. replace (ret d =? -1) with false by lia. cbn [negb app].
           rewrite app_assoc in VP |- *. eapply perm_trans; [|apply Permutation_app_comm]. cbn [app]. eapply perm_trans; [apply perm_swap|]. constructor. constructor. eapply perm_trans; [exact VP|]. apply Permutation_app_comm.
        -- intros k x K. destruct (Nat.ltb_spec k (Datatypes.S (length s1))) as [K1|K1].
           ++ destruct (Nat.eq_dec k (length s1)) as [->|D].
              ** rewrite nth_error_app2 in K by lia. rewrite Nat.sub_diag in K. cbn [nth_error] in K. injection K as <-. cbn [fst snd]. auto.
              ** rewrite nth_error_app1 in K by lia. pose proof (F k x) as FK. rewrite nth_error_app1 in FK by lia. specialize (FK K). destruct (Nat.ltb_spec k (length s1)); [auto|lia].
           ++ pose proof (F k x) as FK. rewrite nth_error_app2 in K, FK by lia. destruct (k - length s1)%nat eqn:KE; [lia|]. cbn [nth_error] in K, FK. specialize (FK K). destruct (Nat.ltb_spec k (length s1)); [lia|auto].
        -- lia.
        -- cbn beta. intros L' t' [ok sl'] Q. exact Q.
Qed.

Lemma start_inv : forall L0, NoDup L0 -> Forall (fun x => 0 <= x) L0 -> inv L0 L0 conn_start_state.
Proof. intros L0 N F. constructor; auto. cbn. rewrite app_nil_r. auto. Qed.

Lemma h_init : forall (G : event -> Prop) L0 L sl num, inv L0 L sl ->
  hoare G L (conn_init sl num) (fun L' _ '(ok, sl') => inv L0 L' sl' /\ if ok : bool then filled (Z.to_nat (Z.min num 8)) sl' else Permutation L' L0).
Proof.
  intros G L0 L sl num I. unfold conn_init. eapply h_bind; [apply h_reset; eauto|]. cbn beta. intros L1 t sl1 (-> & I1 & P1) _ _.
  assert (E : (if MAXIP <? num then MAXIP else num) = Z.min num 8). { unfold MAXIP. destruct (Z.ltb_spec 8 num); lia. } rewrite E.
  eapply h_conseq; [eapply h_prepare; eauto|]. 
  - intros k x K. cbn [Nat.ltb Nat.leb]. apply nth_error_In in K. eapply repeat_spec; eauto.
  - lia.
  - cbn beta. intros L' t' [ok sl'] [Q1 Q2]. auto.
Qed.

(** ** conn *)

Definition addr (ip : list Z) (k : nat) : list Z := firstn 16 (skipn (16 * k) ip).
Definition conn_call (ip port : list Z) (k : nat) (fd : Z) : sys := Other (bs "connect") [fd] (addr ip k ++ firstn 2 port).
Definition started (n : nat) (ip port : list Z) (t : trace) (sl : slots) : Prop :=
  forall k x, (k < n)%nat -> nth_error sl k = Some x -> fst x <> -1 -> exists a, In (conn_call ip port k (fst x), a) t.
(** connected: at once, or later *)
Definition joined (ip port : list Z) (t : trace) (k : nat) (fd : Z) : Prop :=
  exists a, In (conn_call ip port k fd, a) t /\ (ret a = 0 \/ exists g, In (Other (bs "getpeername") [fd] [], g) t /\ ret g <> -1).

(** what is assumed of single events: the clock is between 0 and 2^62 microseconds, connect
    on descriptor -1 does not succeed *)
Definition sane (e : event) : Prop :=
  (fst e = Time -> 0 <= ret (snd e) <= 2 ^ 62) /\ (forall d, fst e = Other (bs "connect") [-1] d -> ret (snd e) <> 0).

Lemma slice_ok : forall x p n, 0 < n -> 0 <= p -> p + n <= len x -> slice x p n = Ok (firstn (Z.to_nat n) (skipn (Z.to_nat p) x)).
Proof.
  intros x p n N P L. unfold slice. destruct (Z.leb_spec n 0); [lia|]. destruct (Z.ltb_spec p 0); [lia|]. destruct (Z.ltb_spec (len x) (p + n)); [lia|]. reflexivity.
Qed.

Lemma h_connect : forall L fd k ip port, (16 * Z.of_nat k + 16 <= len ip) -> 2 <= len port ->
  hoare sane L (socket_connect fd (skipn (16 * k) ip) port) (fun L' t a => L' = L /\ t = [(conn_call ip port k fd, a)] /\ sane (conn_call ip port k fd, a)).
Proof.
  intros L fd k ip port LI LP. unfold socket_connect.
  assert (E1 : slice (skipn (16 * k) ip) 0 16 = Ok (addr ip k)) by (rewrite slice_ok; [reflexivity|lia|lia|]; unfold len in *; rewrite skipn_length; lia).
  assert (E2 : slice port 0 2 = Ok (firstn 2 port)) by (rewrite slice_ok; [reflexivity|lia|lia|lia]).
  rewrite E1, E2. cbn [lift pbind]. apply h_neutral; [intros; discriminate|intros; reflexivity|]. intros a S. auto.
Qed.

Lemma sub_step : forall sl sl0 i, sub sl sl0 -> forall n ip port T, started n ip port T sl -> started n ip port T (upd sl i none).
Proof.
  intros sl sl0 i S n ip port T ST k x K E N. rewrite nth_upd in E. destruct (Nat.eqb k i); [|eauto].
  destruct (nth_error sl i); [|discriminate]. injection E as <-. cbn [fst none] in N. congruence.
Qed.
Lemma joined_mono : forall ip port T t k fd, joined ip port T k fd -> joined ip port (T ++ t) k fd.
Proof.
  intros ip port T t k fd (a & I & [R|(g & J & R)]); exists a; (split; [apply in_or_app; auto|]); [auto|]. right. exists g. split; auto. apply in_or_app. auto.
Qed.

Definition won (n : nat) (ip port : list Z) (sl : slots) (T : trace) (w : option Z) : Prop :=
  match w with
  | None => True
  | Some fd => exists k b, (k < n)%nat /\ nth_error sl k = Some (fd, b) /\ fd <> -1 /\ joined ip port T k fd
  end.

Lemma h_start : forall L0 sl0 n ip port m i L sl T, inv L0 L sl -> sub sl sl0 -> (i + m = n)%nat -> (n <= 8)%nat -> 16 * Z.of_nat n <= len ip -> 2 <= len port ->
  started i ip port T sl ->
  hoare sane L (conn_start m i sl ip port) (fun L' t '(w, sl') => inv L0 L' sl' /\ sub sl' sl0 /\ won n ip port sl' (T ++ t) w /\
    (w = None -> started n ip port (T ++ t) sl')).
Proof.
  intros L0 sl0 n ip port. induction m as [|m IH]; intros i L sl T I S LE N8 LI LP ST; cbn [conn_start].
  - apply h_ret. assert (i = n) as -> by lia. rewrite app_nil_r. split; auto. split; auto. split; [exact Logic.I|auto].
  - pose proof (v_len _ _ _ I) as VL. destruct (nth_error sl i) as [[fd b]|] eqn:NT; [|apply nth_error_None in NT; lia].
    eapply h_bind; [apply h_connect; [lia|auto]|]. cbn beta. intros L1 t a (-> & -> & SA) _ _.
    destruct (Z.eqb_spec (ret a) 0) as [Z0|Z0].
    + apply h_ret. split; auto. split; auto. split; [|discriminate]. exists i, b. split; [lia|]. split; auto. split.
      * intros ->. destruct SA as [_ SA]. apply (SA (addr ip i ++ firstn 2 port)); auto.
      * exists a. split; [apply in_or_app; right; left; auto|auto].
    + assert (ST2 : started (Datatypes.S i) ip port (T ++ [(conn_call ip port i fd, a)]) sl).
      { intros k x K E NE. destruct (Nat.eq_dec k i) as [->|D].
        - rewrite NT in E. injection E as <-. cbn [fst]. exists a. apply in_or_app. right. left. auto.
        - destruct (ST k x ltac:(lia) E NE) as (a' & IN). exists a'. apply in_or_app. auto. }
      destruct (negb (err a =? EINPROGRESS) && negb (err a =? EAGAIN)).
      * eapply h_bind; [apply h_closeslot; eauto; lia|]. cbn beta. intros L1 t1 sl1 (-> & I1) _ _.
        eapply h_conseq; [eapply (IH (Datatypes.S i) _ _ (T ++ (conn_call ip port i fd, a) :: t1)); eauto|].
        -- apply sub_upd. auto.
        -- lia.
        -- intros k x K E NE. destruct (sub_step _ _ i S _ _ _ _ ST2 k x K E NE) as (a' & IN). exists a'. apply in_app_iff in IN. apply in_or_app. destruct IN as [IN|[IN|[]]]; auto. right. left. auto.
        -- cbn beta. intros L' t' [w sl'] (Q1 & Q2 & Q3 & Q4). rewrite <- app_assoc in Q3, Q4. auto.
      * eapply h_conseq; [eapply (IH (Datatypes.S i) _ _ (T ++ [(conn_call ip port i fd, a)])); eauto; lia|].
        cbn beta. intros L' t' [w sl'] (Q1 & Q2 & Q3 & Q4). rewrite <- app_assoc in Q3, Q4. auto.
Qed.

Lemma findslot_spec : forall sl fd i, match findslot sl fd i with
  | Some j => exists s1 b s2, sl = s1 ++ (fd, b) :: s2 /\ j = (i + length s1)%nat /\ ~ In fd (map fst s1)
  | None => ~ In fd (map fst sl)
  end.
Proof.
  induction sl as [|[a b] sl IH]; intros fd i; cbn [findslot map In fst]; auto.
  destruct (Z.eqb_spec a fd) as [->|D].
  - exists [], b, sl. split; [reflexivity|]. split; [cbn; lia|]. intros [].
  - specialize (IH fd (Datatypes.S i)). destruct (findslot sl fd (Datatypes.S i)).
    + destruct IH as (s1 & b1 & s2 & -> & -> & NI). exists ((a, b) :: s1), b1, s2. split; auto. split; [cbn [length]; lia|]. cbn [map In fst]. intros [Q|Q]; auto.
    + intros [Q|Q]; auto.
Qed.
Lemma tracked_in : forall sl a b, In (a, b) sl -> (a <> -1 -> In a (tracked sl)) /\ (b <> -1 -> In b (tracked sl)).
Proof.
  intros sl a b I. unfold tracked. split; intros N; apply filter_In; (split; [apply in_flat_map; exists (a, b); split; auto; cbn [In]; auto|]).
  - unfold present. destruct (Z.eqb_spec a (-1)); auto.
  - unfold present. destruct (Z.eqb_spec b (-1)); auto.
Qed.
Lemma inv_tracked : forall L0 L sl, inv L0 L sl -> NoDup (tracked sl).
Proof.
  intros L0 L sl I. assert (N : NoDup (L0 ++ tracked sl)) by (eapply Permutation_NoDup; [apply I|apply I]).
  clear I. induction L0 as [|x L0 IH]; auto. cbn [app] in N. inversion N; auto.
Qed.
Lemma findslot_ok : forall L0 L sl k fd b, inv L0 L sl -> nth_error sl k = Some (fd, b) -> fd <> -1 -> findslot sl fd 0 = Some k.
Proof.
  intros L0 L sl k fd b I E N. pose proof (findslot_spec sl fd 0) as F. destruct (findslot sl fd 0) as [j|].
  - destruct F as (s1 & b1 & s2 & -> & -> & NI). cbn [Nat.add]. f_equal. destruct (Nat.lt_trichotomy (length s1) k) as [Q|[Q|Q]]; auto; exfalso.
    + apply inv_tracked in I. rewrite tracked_app, tracked_cons in I. unfold present in I. destruct (Z.eqb_spec fd (-1)); [contradiction|]. cbn [negb app] in I.
      apply NoDup_remove_2 in I. apply I. apply in_or_app. right. apply in_or_app. right. rewrite nth_error_app2 in E by lia. destruct (k - length s1)%nat eqn:KE; [lia|]. cbn [nth_error] in E.
      apply nth_error_In in E. apply tracked_in in E. tauto.
    + rewrite nth_error_app1 in E by lia. apply NI. apply nth_error_In in E. apply (in_map fst) in E. auto.
  - exfalso. apply F. apply nth_error_In in E. apply (in_map fst) in E. auto.
Qed.

Lemma h_check : forall L0 sl0 n ip port T p L sl, inv L0 L sl -> sub sl sl0 -> started n ip port T sl -> (n <= 8)%nat ->
  (forall fd re, In (fd, re) p -> exists k b, (k < n)%nat /\ nth_error sl k = Some (fd, b) /\ fd <> -1) -> NoDup (map fst p) ->
  hoare sane L (conn_check p sl) (fun L' t '(w, sl') => inv L0 L' sl' /\ sub sl' sl0 /\ started n ip port T sl' /\ won n ip port sl' (T ++ t) w).
Proof.
  intros L0 sl0 n ip port T. induction p as [|[fd re] p IH]; intros L sl I S ST N8 P ND; cbn [conn_check].
  - apply h_ret. split; auto. split; auto. split; auto. exact Logic.I.
  - cbn [map fst] in ND. inversion ND as [|? ? NI ND2]; subst. assert (P2 : forall fd0 re0, In (fd0, re0) p -> exists k b, (k < n)%nat /\ nth_error sl k = Some (fd0, b) /\ fd0 <> -1) by (intros; apply (P fd0 re0); right; auto).
    destruct (re =? 0); [apply IH; auto|]. destruct (P fd re (or_introl eq_refl)) as (k & b & K & E & NE).
    eapply h_bind with (Q := fun L' t ok => L' = L /\ ((ok : bool) = true -> exists g, In (Other (bs "getpeername") [fd] [], g) t /\ ret g <> -1)).
    { unfold socket_connected. eapply h_bind. { neutral. intros g _. instantiate (1 := fun L' t g => L' = L /\ t = [(Other (bs "getpeername") [fd] [], g)]). cbn beta; auto. }
      cbn beta. intros L1 t g (-> & ->) _ _. destruct (Z.eqb_spec (ret g) (-1)).
      - eapply h_bind. { neutral. intros r _. instantiate (1 := fun L' _ _ => L' = L). cbn beta; auto. } cbn beta. intros L1 t1 r -> _ _. apply h_ret. split; auto. discriminate.
      - apply h_ret. split; auto. intros _. exists g. split; auto. left. auto. }
    cbn beta. intros L1 t [|] (-> & OK) _ _.
    + apply h_ret. split; auto. split; auto. split; auto. exists k, b. split; auto. split; auto. split; auto.
      destruct (ST k _ K E NE) as (a & IA). cbn [fst] in IA. destruct (OK eq_refl) as (g & G1 & G2). exists a. split; [apply in_or_app; auto|]. right. exists g. split; auto. apply in_or_app. right. rewrite app_nil_r. auto.
    + rewrite (findslot_ok _ _ _ _ _ _ I E NE). eapply h_bind; [apply h_closeslot; eauto; lia|]. cbn beta. intros L1 t1 sl1 (-> & I1) _ _.
      eapply h_conseq; [eapply IH; eauto|].
      * apply sub_upd. auto.
      * eapply sub_step; eauto.
      * intros fd0 re0 IN. destruct (P2 fd0 re0 IN) as (k0 & b0 & K0 & E0 & N0). exists k0, b0. split; auto. split; auto. rewrite nth_upd. destruct (Nat.eqb_spec k0 k) as [->|D]; auto.
        rewrite E in E0. injection E0 as -> ->. exfalso. apply NI. apply (in_map fst) in IN. auto.
      * cbn beta. intros L' t' [w sl'] (Q1 & Q2 & Q3 & Q4). split; auto. split; auto. split; auto. destruct w as [f|]; auto. destruct Q4 as (k' & b' & K1 & K2 & K3 & (a & A1 & A2)).
        exists k', b'. split; auto. split; auto. split; auto. exists a. split.
        -- apply in_app_iff in A1 as [A1|A1]; apply in_or_app; auto. right. apply in_or_app. right. apply in_or_app. auto.
        -- destruct A2 as [A2|(g & A2 & A3)]; auto. right. exists g. split; auto. apply in_app_iff in A2 as [A2|A2]; apply in_or_app; auto. right. apply in_or_app. right. apply in_or_app. auto.
Qed.

Lemma pending_in : forall n sl fd, In fd (pending n sl) -> exists k b, (k < n)%nat /\ nth_error sl k = Some (fd, b) /\ fd <> -1.
Proof.
  intros n sl fd I. unfold pending in I. apply filter_In in I as [I N]. apply in_map_iff in I as ([a b] & E & I). cbn [fst] in E. subst a.
  apply In_nth_error in I as (k & E). assert (K : (k < n)%nat). { assert (k < length (firstn n sl))%nat by (apply nth_error_Some; congruence). rewrite firstn_length in H. lia. }
  exists k, b. split; auto. split.
  - rewrite <- (firstn_skipn n sl). rewrite nth_error_app1; auto. apply nth_error_Some. congruence.
  - intros ->. discriminate.
Qed.
Lemma pending_nodup : forall n sl, NoDup (tracked sl) -> NoDup (pending n sl).
Proof.
  intros n sl. rewrite <- (firstn_skipn n sl) at 1. rewrite tracked_app. unfold pending. generalize (firstn n sl) (tracked (skipn n sl)). clear.
  induction l as [|[a b] l IH]; intros r N; cbn [map filter]; [constructor|]. rewrite tracked_cons in N. cbn [fst]. fold (present a).
  assert (N2 : NoDup (tracked l ++ r)).
  { destruct (present a), (present b); cbn [app] in N; repeat match goal with H : NoDup (_ :: _) |- _ => inversion H; clear H; subst end; auto. }
  specialize (IH _ N2). destruct (present a) eqn:PA; auto. constructor; auto. cbn [app] in N. inversion N as [|? ? NI _]; subst. intros Q. apply NI.
  apply in_or_app. left. apply in_or_app. right. apply filter_In in Q as [Q1 Q2]. apply in_map_iff in Q1 as ([a1 b1] & E & Q1). cbn [fst] in E. subst a1.
  apply tracked_in in Q1. apply Q1. intros ->. discriminate.
Qed.

Lemma h_time : forall L, hoare sane L milliseconds (fun L' _ now => L' = L /\ 0 <= now <= 2 ^ 62).
Proof.
  intros L. unfold milliseconds. eapply h_bind. { neutral. intros a [S _]. instantiate (1 := fun L' _ a => L' = L /\ 0 <= ret a <= 2 ^ 62). cbn beta; auto. }
  cbn beta. intros L1 t a (-> & B) _ _. unfold tv_sec, tv_usec.
  pose proof (Z.div_mod (ret a) 1000000 ltac:(lia)). pose proof (Z.mod_pos_bound (ret a) 1000000 ltac:(lia)).
  pose proof (Z.div_pos (ret a) 1000000 ltac:(lia) ltac:(lia)). change (2 ^ 62) with 4611686018427387904 in *.
  pose proof (Z.div_pos (ret a mod 1000000) 1000 ltac:(lia) ltac:(lia)). pose proof (Z.mul_div_le (ret a mod 1000000) 1000 ltac:(lia)).
  rewrite s64_ok by (unfold two63; lia). cbn [lift pbind]. rewrite s64_ok by (unfold two63; lia). apply h_ret. split; auto. lia.
Qed.

Lemma h_poll : forall L x ms, hoare sane L (jail_poll x ms) (fun L' _ '(r, e, re) => L' = L).
Proof.
  intros L x ms. unfold jail_poll. destruct (jp_sets x 1 [] []) as [[[nfds rd] wr]|]; [|apply h_ret; auto].
  eapply h_bind. { neutral. intros a _. instantiate (1 := fun L' _ _ => L' = L). cbn beta; auto. } cbn beta. intros L1 t a -> _ _.
  destruct (ret a <=? 0); [apply h_ret; auto|]. destruct (jp_result x a 0) as [[r l]|]; apply h_ret; auto.
Qed.

Lemma combine_nodup : forall (p : list Z) (q : list Z), NoDup p -> NoDup (map fst (combine p q)).
Proof.
  induction p as [|x p IH]; intros [|y q] N; cbn [combine map]; try constructor; inversion N; subst; auto.
  cbn [fst]. intros Q. apply in_map_iff in Q as ([a b] & E & I). cbn [fst] in E. subst a. apply in_combine_l in I. auto.
Qed.

Lemma h_wait : forall L0 sl0 n ip port deadline fuel L sl T, inv L0 L sl -> sub sl sl0 -> started n ip port T sl -> (n <= 8)%nat -> 0 <= deadline < 2 ^ 63 ->
  hoare sane L (conn_wait fuel deadline n sl) (fun L' t '(w, sl') => inv L0 L' sl' /\ (w <> None -> sub sl' sl0) /\ won n ip port sl' (T ++ t) w /\ (w = None -> Permutation L' L0)).
Proof.
  intros L0 sl0 n ip port deadline. induction fuel as [|fuel IH]; intros L sl T I S ST N8 DL; cbn [conn_wait]; [apply h_halt|].
  assert (RS : hoare sane L (sl <~ conn_reset sl ;; Ret (@None Z, sl)) (fun L' t '(w, sl') => inv L0 L' sl' /\ (w <> None -> sub sl' sl0) /\ won n ip port sl' (T ++ t) w /\ (w = None -> Permutation L' L0))).
  { eapply h_bind; [apply h_reset; eauto|]. cbn beta. intros L1 t sl1 (-> & I1 & P1) _ _. apply h_ret. split; auto. split; [congruence|]. split; [exact Logic.I|auto]. }
  assert (WK : forall t1, forall L1 sl1, inv L0 L1 sl1 -> sub sl1 sl0 -> started n ip port T sl1 ->
     hoare sane L1 (conn_wait fuel deadline n sl1) (fun L' t '(w, sl') => inv L0 L' sl' /\ (w <> None -> sub sl' sl0) /\ won n ip port sl' (T ++ t1 ++ t) w /\ (w = None -> Permutation L' L0))).
  { intros t1 L1 sl1 I1 S1 ST1. eapply h_conseq; [eapply (IH L1 sl1 (T ++ t1)); eauto|].
    - intros k x K E NE. destruct (ST1 k x K E NE) as (a & IA). exists a. apply in_or_app. auto.
    - cbn beta. intros L' t [w sl'] Q. rewrite <- app_assoc in Q. auto. }
  pose proof (pending_nodup n sl (inv_tracked _ _ _ I)) as PN. pose proof (pending_in n sl) as PI.
  destruct (pending n sl) as [|f0 p0] eqn:PE; [exact RS|]. remember (f0 :: p0) as p eqn:EP. clear EP PE.
  eapply h_bind; [apply h_time|]. cbn beta. intros L1 t now (-> & NW) _ _.
  assert (T62 : 2 ^ 62 < two63) by (unfold two63; lia). assert (T63 : 2 ^ 63 = two63) by reflexivity.
  rewrite s64_ok by (unfold two63 in *; lia). cbn [lift pbind].
  destruct (deadline - now <=? 0).
  { eapply h_conseq; [exact RS|]. cbn beta. intros L' t' [w sl'] (Q1 & Q2 & Q3 & Q4). split; auto. split; auto. split; auto. destruct w as [fd|]; auto.
    destruct Q3 as (k & b & K1 & K2 & K3 & (a & A1 & A2)). exists k, b. split; auto. split; auto. split; auto. exists a. split.
    - apply in_app_iff in A1 as [A1|A1]; apply in_or_app; auto. right. apply in_or_app. auto.
    - destruct A2 as [A2|(g & A2 & A3)]; auto. right. exists g. split; auto. apply in_app_iff in A2 as [A2|A2]; apply in_or_app; auto. right. apply in_or_app. auto. }
  eapply h_bind; [apply h_poll|]. cbn beta. intros L1 t1 [[r e] re] -> _ _.
  destruct (r =? -1).
  - destruct (e =? EINTR).
    + eapply h_conseq; [apply (WK (t ++ t1)); auto|]. cbn beta. intros L' t' [w sl'] Q. rewrite <- app_assoc in Q. auto.
    + eapply h_bind; [apply h_reset; eauto|]. cbn beta. intros L1 t2 sl1 (-> & I1 & P1) _ _. apply h_ret. split; auto. split; [congruence|]. split; [exact Logic.I|auto].
  - eapply h_bind.
    { eapply (h_check L0 sl0 n ip port T); eauto; [|apply combine_nodup; auto]. intros fd x IN. apply in_combine_l in IN. apply PI. auto. }
    cbn beta. intros L1 t2 [w sl1] (Q1 & Q2 & Q3 & Q4) _ _. destruct w as [fd|].
    + apply h_ret. split; auto. split; auto. split; [|discriminate]. destruct Q4 as (k & b & K1 & K2 & K3 & (a & A1 & A2)). exists k, b. split; auto. split; auto. split; auto.
      exists a. rewrite app_nil_r. split.
      * apply in_app_iff in A1 as [A1|A1]; apply in_or_app; auto. right. apply in_or_app. right. apply in_or_app. auto.
      * destruct A2 as [A2|(g & A2 & A3)]; auto. right. exists g. split; auto. apply in_app_iff in A2 as [A2|A2]; apply in_or_app; auto. right. apply in_or_app. right. apply in_or_app. auto.
    + eapply h_conseq; [apply (WK (t ++ t1 ++ t2)); auto|]. cbn beta. intros L' t' [w sl'] Q. rewrite <- !app_assoc in Q. auto.
Qed.

(** ** Keeping the winner *)

Definition cleared (sl sl' : slots) (i m : nat) : Prop :=
  length sl' = length sl /\
  (forall k x, (i <= k < i + m)%nat -> nth_error sl' k = Some x -> x = none) /\ (forall k, (k < i \/ i + m <= k)%nat -> nth_error sl' k = nth_error sl k).
Lemma cleared_cons : forall sl sl' i m, cleared (upd sl i none) sl' (Datatypes.S i) m -> (i < length sl)%nat -> cleared sl sl' i (Datatypes.S m).
Proof.
  intros sl sl' i m (A & B & C) LI. rewrite upd_length in A. split; auto. split.
  - intros k x K E. destruct (Nat.eq_dec k i) as [->|D]; [|apply (B k); auto; lia]. rewrite C in E by lia. rewrite nth_upd, Nat.eqb_refl in E.
    destruct (nth_error sl i); [injection E as <-; auto|discriminate].
  - intros k K. rewrite C by lia. rewrite nth_upd. destruct (Nat.eqb_spec k i); [lia|auto].
Qed.
Lemma cleared_skip : forall sl sl' i m, cleared sl sl' (Datatypes.S i) m -> nth_error sl i = Some none -> cleared sl sl' i (Datatypes.S m).
Proof.
  intros sl sl' i m (A & B & C) E0. split; auto. split.
  - intros k x K E. destruct (Nat.eq_dec k i) as [->|D]; [|apply (B k); auto; lia]. rewrite C in E by lia. congruence.
  - intros k K. apply C. lia.
Qed.

Lemma h_rest : forall L1 w ip d m i L sl, inv L1 L sl -> (w < i)%nat -> (i + m <= 8)%nat ->
  hoare sane L (copyip_loop m i w sl ip d) (fun L' _ '(sl', ip', d') => inv L1 L' sl' /\ ip' = ip /\ d' = d /\ cleared sl sl' i m).
Proof.
  intros L1 w ip d. induction m as [|m IH]; intros i L sl I W LE; cbn [copyip_loop].
  - apply h_ret. split; auto. split; auto. split; auto. split; auto. split; [intros; lia|auto].
  - pose proof (v_len _ _ _ I) as VL. destruct (nth_error sl i) as [[a b]|] eqn:NT; [|apply nth_error_None in NT; lia].
    destruct (Nat.eqb_spec i w); [lia|]. destruct (negb (a =? -1) || negb (b =? -1)) eqn:AB.
    + eapply h_bind; [apply h_closeslot; eauto; lia|]. cbn beta. intros L2 t sl1 (-> & I1) _ _. eapply h_conseq; [eapply IH; eauto; lia|].
      cbn beta. intros L' t' [[sl' ip'] d'] (Q1 & Q2 & Q3 & Q4). split; auto. split; auto. split; auto. apply cleared_cons; auto. lia.
    + eapply h_conseq; [eapply IH; eauto; lia|].
      cbn beta. intros L' t' [[sl' ip'] d'] (Q1 & Q2 & Q3 & Q4). split; auto. split; auto. split; auto. apply cleared_skip; auto. rewrite NT. apply orb_false_elim in AB as [A B].
      destruct (Z.eqb_spec a (-1)); [|discriminate]. destruct (Z.eqb_spec b (-1)); [|discriminate]. subst. auto.
Qed.

Lemma keep_winner : forall L0 L s1 a b s2, inv L0 L (s1 ++ (a, b) :: s2) -> a <> -1 -> b <> -1 -> inv (a :: b :: L0) L (s1 ++ none :: s2).
Proof.
  intros L0 L s1 a b s2 [VL VP VN VF] A B. constructor; auto.
  - rewrite app_length in *. cbn [length] in *. lia.
  - rewrite tracked_set in VP. unfold present in VP. destruct (Z.eqb_spec a (-1)); [contradiction|]. destruct (Z.eqb_spec b (-1)); [contradiction|]. cbn [negb app] in VP.
    eapply perm_trans; [exact VP|]. rewrite tracked_app. change (tracked (none :: s2)) with (tracked s2). cbn [app]. rewrite app_assoc. eapply perm_trans; [apply Permutation_app_comm|]. cbn [app].
    constructor. constructor. eapply perm_trans; [apply Permutation_app_comm|]. rewrite <- app_assoc. auto.
Qed.

Lemma h_keep : forall L0 w fd b ip d m i L sl, inv L0 L sl -> (i <= w < i + m)%nat -> (i + m <= 8)%nat -> nth_error sl w = Some (fd, b) -> fd <> -1 -> b <> -1 ->
  16 * Z.of_nat (i + m) <= len ip ->
  hoare sane L (copyip_loop m i w sl ip d) (fun L' _ '(sl', ip', d') => inv (fd :: b :: L0) L' sl' /\ ip' = addr ip w ++ skipn 16 ip /\ d' = b /\ cleared sl sl' i m).
Proof.
  intros L0 w fd b ip d. induction m as [|m IH]; intros i L sl I W LE E NF NB LI; cbn [copyip_loop]; [lia|].
  pose proof (v_len _ _ _ I) as VL. destruct (nth_error sl i) as [[a c]|] eqn:NT; [|apply nth_error_None in NT; lia].
  destruct (Nat.eqb_spec i w) as [->|D].
  - rewrite NT in E. injection E as -> ->. rewrite slice_ok by lia. cbn [lift pbind].
    replace (Z.to_nat (16 * Z.of_nat w)) with (16 * w)%nat by lia. change (firstn (Z.to_nat 16) (skipn (16 * w) ip)) with (addr ip w).
    pose proof (nth_cut _ _ _ NT) as (s1 & s2 & -> & LS). subst w. rewrite upd_cut.
    eapply h_conseq; [eapply h_rest with (L1 := fd :: b :: L0); [apply keep_winner; eauto|lia|lia]|].
    cbn beta. intros L' t' [[sl' ip'] d'] (Q1 & Q2 & Q3 & Q4). split; auto. split; auto. split; auto. apply cleared_cons; [rewrite upd_cut; auto|]. lia.
  - destruct (negb (a =? -1) || negb (c =? -1)) eqn:AB.
    + eapply h_bind; [apply h_closeslot; eauto; lia|]. cbn beta. intros L2 t sl1 (-> & I1) _ _. eapply h_conseq; [eapply IH; eauto; try lia|].
      * rewrite nth_upd. destruct (Nat.eqb_spec w i); [lia|auto].
      * cbn beta. intros L' t' [[sl' ip'] d'] (Q1 & Q2 & Q3 & Q4). split; auto. split; auto. split; auto. apply cleared_cons; auto. lia.
    + eapply h_conseq; [eapply IH; eauto; lia|].
      cbn beta. intros L' t' [[sl' ip'] d'] (Q1 & Q2 & Q3 & Q4). split; auto. split; auto. split; auto. apply cleared_skip; auto. rewrite NT. apply orb_false_elim in AB as [A B].
      destruct (Z.eqb_spec a (-1)); [|discriminate]. destruct (Z.eqb_spec c (-1)); [|discriminate]. subst. auto.
Qed.

Lemma all_none : forall sl, (forall k x, nth_error sl k = Some x -> x = none) -> tracked sl = [].
Proof.
  induction sl as [|[a b] sl IH]; intros H; auto. pose proof (H 0%nat _ eq_refl) as E. injection E as -> ->. rewrite tracked_cons. cbn [present negb app]. apply IH. intros k x E. apply (H (Datatypes.S k)). auto.
Qed.

Lemma h_conn : forall L0 L fuel sl n0 timeout ip iplen port, inv L0 L sl -> filled n0 sl -> 1 <= timeout -> 1000 * timeout <= 2 ^ 62 - 1 -> 16 <= iplen <= len ip -> 2 <= len port ->
  (Z.of_nat n0 <= Z.min iplen 128 / 16) ->
  hoare sane L (conn fuel sl timeout ip iplen port) (fun L' t '(r, ip', sl') =>
    match r with
    | None => Permutation L' L0 /\ ip' = ip
    | Some (fd, d) => exists k, 16 * Z.of_nat k + 16 <= iplen /\ ip' = addr ip k ++ skipn 16 ip /\ joined ip port t k fd /\
        fd <> -1 /\ nth_error sl k = Some (fd, d) /\ Permutation L' (fd :: d :: L0)
    end).
Proof.
  intros L0 L fuel sl n0 timeout ip iplen port I FL T1 T2 IL PL NN. unfold conn.
  assert (IP : (if MAXIP * 16 <? iplen then MAXIP * 16 else iplen) = Z.min iplen 128). { unfold MAXIP. change (8 * 16) with 128. destruct (Z.ltb_spec 128 iplen); lia. } rewrite IP.
  pose proof (Z.mul_div_le (Z.min iplen 128) 16 ltac:(lia)) as MD. pose proof (Z.div_le_lower_bound (Z.min iplen 128) 16 1 ltac:(lia) ltac:(lia)) as M1. pose proof (Z.div_le_upper_bound (Z.min iplen 128) 16 8 ltac:(lia) ltac:(lia)) as M8.
  set (n := Z.to_nat (Z.min iplen 128 / 16)) in *.
  eapply h_bind; [apply h_time|]. cbn beta. intros L1 t0 now (-> & NW) _ _.
  assert (T63 : two63 = 2 * 2 ^ 62) by reflexivity.
  rewrite s64_ok by lia. cbn [lift pbind]. rewrite s64_ok by lia. cbn [lift pbind].
  destruct (Z.ltb_spec timeout 1); [lia|]. destruct (Z.ltb_spec (Z.min iplen 128) 16); [lia|]. cbn [orb].
  eapply h_bind. { eapply (h_start L0 sl n ip port n 0 L sl t0); eauto; [apply sub_refl|lia|lia|]. intros k x K. lia. }
  cbn beta. intros L1 t1 [w sl1] (I1 & S1 & W1 & ST1) _ _.
  eapply h_bind with (Q := fun L' t '(w, sl') => inv L0 L' sl' /\ (w <> None -> sub sl' sl) /\ won n ip port sl' ((t0 ++ t1) ++ t) w /\ (w = None -> Permutation L' L0)).
  { destruct w as [fd|].
    - apply h_ret. rewrite app_nil_r. split; auto. split; auto. split; auto. discriminate.
    - eapply h_wait; eauto; lia. }
  cbn beta. intros L2 t2 [w2 sl2] (I2 & S2 & W2 & P2) _ _. destruct w2 as [fd|]; [|apply h_ret; auto].
  destruct W2 as (k & b & K & E & NF & J). specialize (S2 ltac:(discriminate)).
  assert (E0 : nth_error sl k = Some (fd, b)). { destruct S2 as [_ S2]. destruct (S2 _ _ E) as [Q|Q]; auto. injection Q as -> ->. congruence. }
  assert (NB : b <> -1). { pose proof (FL _ _ E0) as Q. cbn [fst snd] in Q. destruct (Nat.ltb k n0); [lia|]. injection Q as -> ->. congruence. }
  unfold conn_copyip. assert (IP2 : (if MAXIP * 16 <? Z.min iplen 128 then MAXIP * 16 else Z.min iplen 128) = Z.min iplen 128). { unfold MAXIP. change (8 * 16) with 128. destruct (Z.ltb_spec 128 (Z.min iplen 128)); lia. } rewrite IP2.
  rewrite (findslot_ok _ _ _ _ _ _ I2 E NF). destruct (Z.leb_spec (Z.min iplen 128 / 16) (Z.of_nat k)); [lia|]. fold n.
  eapply h_bind; [eapply h_keep; eauto; lia|]. cbn beta. intros L3 t3 [[sl3 ip3] d3] (I3 & -> & -> & CL) _ _. apply h_ret.
  exists k. split; [lia|]. split; auto. split.
  { destruct J as (a & A1 & A2). exists a. rewrite app_nil_r. split.
    - apply in_app_iff in A1 as [A1|A1]; [apply in_app_iff in A1 as [A1|A1]|]; repeat (apply in_or_app; auto; right); apply in_or_app; auto.
    - destruct A2 as [A2|(g & A2 & A3)]; auto. right. exists g. split; auto. apply in_app_iff in A2 as [A2|A2]; [apply in_app_iff in A2 as [A2|A2]|]; repeat (apply in_or_app; auto; right); apply in_or_app; auto. }
  split; auto. split; auto. pose proof (v_perm _ _ _ I3) as P3. rewrite (all_none sl3), app_nil_r in P3; auto.
  intros j x X. destruct CL as (C0 & C1 & C2). destruct (Nat.ltb_spec j n) as [JN|JN]; [apply (C1 j); auto; lia|]. rewrite C2 in X by lia.
  destruct S2 as [_ S2]. destruct (S2 _ _ X) as [Q|Q]; auto. pose proof (FL _ _ Q) as Q2. destruct (Nat.ltb_spec j n0); [lia|auto].
Qed.

(** ** The second descriptor is a duplicate of the first *)
Definition doubled (t : trace) (lo hi : nat) (sl : slots) : Prop :=
  forall k a b, (lo <= k < hi)%nat -> nth_error sl k = Some (a, b) -> exists r, In (Other (bs "dup") [a] [], r) t /\ ret r = b.

Lemma prepare_dups : forall m i sl tr sl', runs (conn_prepare m i sl) tr (Fin (true, sl')) ->
  doubled tr i (i + m) sl' /\ forall k, (k < i)%nat -> nth_error sl' k = nth_error sl k.
Proof.
  induction m as [|m IH]; intros i sl tr sl' R; cbn [conn_prepare] in R.
  - destruct R as [_ E]. injection E as ->. split; [intros k a b K; lia|auto].
  - apply runs_bind in R as [(fd & t1 & t2 & -> & R1 & R2)|[[_ E]|[_ E]]]; [|discriminate|discriminate].
    destruct (fd =? -1).
    { apply runs_bind in R2 as [(x & t3 & t4 & -> & _ & R2)|[[_ E]|[_ E]]]; [|discriminate|discriminate]. destruct R2 as [_ E]. discriminate. }
    destruct R2 as [[_ E]|(d & t3 & -> & R2)]; [discriminate|]. cbn [pbind] in R2.
    destruct (ret d =? -1).
    { apply runs_bind in R2 as [(x & t4 & t5 & -> & _ & R2)|[[_ E]|[_ E]]]; [|discriminate|discriminate]. destruct R2 as [_ E]. discriminate. }
    apply IH in R2 as [D F]. split.
    + intros k a b K E. destruct (Nat.eq_dec k i) as [->|N].
      * rewrite F in E by lia. rewrite nth_upd, Nat.eqb_refl in E. destruct (nth_error (upd sl i (fd, snd (nth i sl none))) i); [|discriminate]. injection E as <- <-.
        exists d. split; auto. apply in_or_app. right. left. auto.
      * destruct (D k a b ltac:(lia) E) as (r & I & RR). exists r. split; auto. apply in_or_app. right. right. auto.
    + intros k K. rewrite F by lia. rewrite !nth_upd. destruct (Nat.eqb_spec k i); [lia|auto].
Qed.
Lemma init_dups : forall sl num tr sl', runs (conn_init sl num) tr (Fin (true, sl')) -> doubled tr 0 (Z.to_nat (Z.min num 8)) sl'.
Proof.
  intros sl num tr sl' R. unfold conn_init in R. apply runs_bind in R as [(x & t1 & t2 & -> & _ & R2)|[[_ E]|[_ E]]]; [|discriminate|discriminate].
  assert (E : (if MAXIP <? num then MAXIP else num) = Z.min num 8). { unfold MAXIP. destruct (Z.ltb_spec 8 num); lia. } rewrite E in R2.
  apply prepare_dups in R2 as [D _]. intros k a b K N. destruct (D k a b ltac:(lia) N) as (r & I & RR). exists r. split; auto. apply in_or_app. auto.
Qed.
Lemma h_and : forall A (G : event -> Prop) L (p : prog A) Q (R : trace -> A -> Prop), hoare G L p Q -> (forall tr r, runs p tr (Fin r) -> R tr r) ->
  hoare G L p (fun L' t r => Q L' t r /\ R t r).
Proof. intros A G L p Q R H K tr o L' RR F FG. destruct (H tr o L' RR F FG) as (H1 & H2 & H3). split; auto. split; auto. intros r ->. split; auto. Qed.

Lemma h_any : forall L0 fuel num timeout ip iplen port, NoDup L0 -> Forall (fun x => 0 <= x) L0 ->
  1 <= timeout -> 1000 * timeout <= 2 ^ 62 - 1 -> 16 <= iplen <= len ip -> 2 <= len port -> Z.min num 8 <= Z.min iplen 128 / 16 ->
  hoare sane L0 (connect_any fuel num timeout ip iplen port) (fun L' t '(r, ip', _) =>
    match r with
    | None => Permutation L' L0 /\ ip' = ip
    | Some (fd, d) => exists k, 16 * Z.of_nat k + 16 <= iplen /\ ip' = addr ip k ++ skipn 16 ip /\ joined ip port t k fd /\
        (exists a, In (Other (bs "dup") [fd] [], a) t /\ ret a = d) /\ Permutation L' (fd :: d :: L0)
    end).
Proof.
  intros L0 fuel num timeout ip iplen port N F T1 T2 IL PL NN. unfold connect_any.
  eapply h_bind.
  { apply h_and with (R := fun t '(ok, sl') => (ok : bool) = true -> doubled t 0 (Z.to_nat (Z.min num 8)) sl'); [apply h_init, start_inv; auto|].
    intros tr [ok sl'] R ->. eapply init_dups; eauto. }
  cbn beta. intros L1 t [ok sl1] [(I & B) D] _ _. destruct ok; cbn [negb]; [|apply h_ret; auto].
  assert (DIV : 0 <= Z.min iplen 128 / 16) by (apply Z.div_pos; lia).
  eapply h_conseq; [eapply h_conn; eauto; lia|]. cbn beta. intros L' t' [[r ip'] sl'] Q. destruct r as [[fd d]|]; auto.
  destruct Q as (k & K & -> & J & NF & E & P). exists k. split; auto. split; auto. split; [|split; auto].
  - destruct J as (a & A1 & A2). exists a. split; [apply in_or_app; auto|]. destruct A2 as [A2|(g & A2 & A3)]; auto. right. exists g. split; auto. apply in_or_app; auto.
  - assert (fd <> -1 -> exists a, In (Other (bs "dup") [fd] [], a) t /\ ret a = d).
    { intros NE. apply (D eq_refl k); auto. split; [lia|]. pose proof (B _ _ E) as B1. destruct (Nat.ltb_spec k (Z.to_nat (Z.min num 8))); [auto|]. injection B1 as -> ->. congruence. }
    destruct (H NF) as (a & A1 & A2). exists a. split; auto. apply in_or_app. auto.
Qed.
