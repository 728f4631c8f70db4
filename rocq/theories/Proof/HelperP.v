(** The resolver helper: it never fails whatever it receives, and sends nothing but 255 or addresses. *)
From Verif.Model Require Import Base Sys Str Buffer Fdio Relay Jail Conn Resolve Main Lookup.
From Verif.Spec Require Import Text Flow Restrict Process Resolver Forward.
From Verif.Proof Require Import Tac SysP BufferP CallsP MainCallsP ResolveP.
From Verif.Props Require Import PropJail.

(** what a process sends *)
Definition states (e : event) : Prop := forall fd b, fst e = Other (bs "send") [fd] b -> b = [255] \/ exists cs, offer cs b.
Definition unsent (c : sys) : Prop := match c with Other n _ _ => n <> bs "send" | _ => True end.
Lemma unsent_states : forall t, Forall (fun e => unsent (fst e)) t -> Forall states t.
Proof. intros t F. eapply Forall_impl; [|exact F]. intros [c a] U fd b E. cbn [fst] in *. subst c. destruct (U eq_refl). Qed.
Lemma copyin_len : forall d p x n, 0 <= p -> p + n <= len d -> n <= len x -> exists d', copyin d p x n = Ok d' /\ length d' = length d.
Proof.
  intros d p x n P Q R. destruct (Z.leb_spec n 0) as [N|N]; [exists d; unfold copyin; rewrite (proj2 (Z.leb_le _ _) N); auto|].
  destruct (copyin_ok d p x n P ltac:(lia) Q R) as (d' & E & L & _). exists d'. split; auto. unfold len in L. lia.
Qed.
Lemma st_len : forall p i x, (i < length p)%nat -> exists p', st p i x = Ok p' /\ length p' = length p.
Proof.
  intros p i x L. unfold st. rewrite (proj2 (Nat.ltb_lt _ _) L). eexists. split; [reflexivity|]. clear L. revert i. induction p as [|y p IH]; intros [|i]; cbn [upd length]; auto.
Qed.
Lemma helper_offers : forall fuel fd ppid buf ip tr o, length buf = 257%nat -> length ip = 129%nat ->
  Forall dgram tr -> runs (helper fuel fd ppid buf ip) tr o -> o <> Wrong /\ Forall states tr.
Proof.
  induction fuel as [|fuel IH]; intros fd ppid buf ip tr o LB LI D R; cbn [helper] in R; [destruct R as [-> ->]; split; [discriminate|constructor]|].
  assert (NB : forall e, unsent (fst e) -> states e) by (intros [c a] U f b E; cbn [fst] in *; subst c; destruct (U eq_refl)).
  destruct R as [[-> ->]|(pp & t & -> & R)]; [split; [discriminate|constructor]|]. cbn [pbind] in R. inversion D as [|? ? _ D1]; subst; clear D.
  enough (G : o <> Wrong /\ Forall states t) by (split; [apply G|constructor; [apply NB; discriminate|apply G]]).
  destruct (ret pp =? ppid); cbn [negb] in R; [|destruct R as [-> ->]; split; [discriminate|constructor]].
  destruct R as [[-> ->]|(p & t1 & -> & R)]; [split; [discriminate|constructor]|]. cbn [pbind] in R. inversion D1 as [|? ? _ D2]; subst; clear D1.
  enough (G : o <> Wrong /\ Forall states t1) by (split; [apply G|constructor; [apply NB; exact Logic.I|apply G]]).
  destruct (match data p with [] => true | [0] => true | _ => false end); [eapply IH; eauto|].
  destruct R as [[-> ->]|(a & t2 & -> & R)]; [split; [discriminate|constructor]|]. cbn [pbind] in R. inversion D2 as [|? ? D3 D4]; subst; clear D2.
  unfold dgram, Recv in D3. cbn [fst snd] in D3. specialize (D3 eq_refl).
  enough (G : o <> Wrong /\ Forall states t2) by (split; [apply G|constructor; [apply NB; discriminate|apply G]]).
  destruct (Z.eqb_spec (ret a) 257) as [E257|E257]; [destruct R as [-> ->]; split; [discriminate|constructor]|].
  destruct (Z.eqb_spec (ret a) (-1)) as [E1|E1]; [destruct (_ || _); [eapply IH; eauto|destruct R as [-> ->]; split; [discriminate|constructor]]|].
  destruct D3 as [D3|[D3 D5]]; [lia|].
  destruct (Z.eqb_spec (ret a) 0) as [E0|E0]; [destruct R as [-> ->]; split; [discriminate|constructor]|].
  destruct (copyin_len buf 0 (data a) (ret a)) as (b1 & E2 & L2); [lia|unfold len in *; lia|lia|]. rewrite E2 in R. cbn [lift pbind] in R.
  destruct (st_len b1 255 0) as (b2 & E3 & L3); [lia|]. rewrite E3 in R. cbn [lift pbind] in R.
  assert (LI1 : len (skipn 1 ip) = 128) by (unfold len; rewrite skipn_length, LI; reflexivity). rewrite <- LI1 in R at 1.
  assert (RN : forall u, Forall rnd u -> Forall states u).
  { intros u U. eapply Forall_impl; [|exact U]. intros [c x] X f b E. cbn [fst] in *. subst c. destruct X as (m & X). cbn in X. discriminate. }
  apply runs_bind in R as [([[n e] ip1] & u1 & u2 & -> & R1 & R2)|[[R1 ->]|[R1 ->]]].
  2, 3: apply resolvehost_ok in R1 as [[-> R1]|(g & u3 & -> & U & W & _)]; [| |rewrite LI1; lia|rewrite LI1; lia]; try discriminate;
    (split; [discriminate || congruence|constructor; auto; apply NB; discriminate]) || (split; [discriminate|constructor]) || congruence.
  apply Forall_app in D4 as [_ D4]. apply resolvehost_ok in R1 as [[_ R1]|(g & u3 & -> & U & _ & R1)]; [discriminate| |rewrite LI1; lia|rewrite LI1; lia].
  destruct (R1 n e ip1 eq_refl) as (r & LR & LP & RR). rewrite LI1 in LR. change (Z.to_nat (128 / 16)) with 8%nat in LR.
  rewrite Forall_app. enough (G : o <> Wrong /\ Forall states u2) by (split; [apply G|split; [constructor; [apply NB; discriminate|apply RN; exact U]|apply G]]).
  set (p01 := if n <? 0 then (255, 0) else (u8 n, n)) in R2. destruct p01 as [ip0 n0] eqn:EP.
  assert (REP : let rep := firstn (Z.to_nat (n0 + 1)) (ip0 :: ip1) in rep = [255] \/ exists cs, offer cs rep).
  { unfold p01 in EP. destruct r as [s|].
    - right. exists s. destruct RR as (S1 & S2 & S3 & S4 & S5). pose proof (len_nonneg _ s) as LS. rewrite (proj2 (Z.ltb_ge _ _)) in EP by lia. injection EP as <- <-.
      pose proof (concat_len16 s S1) as LC. rewrite LI1 in S3.
      replace (Z.to_nat (n + 1)) with (S (length (concat s))) by (rewrite LC; unfold len in S2; lia). cbn [firstn]. rewrite u8_id by lia.
      assert (FF : firstn (length (concat s)) ip1 = concat s).
      { destruct s as [|s0 s1]; [reflexivity|]. apply filled_prefix; [intros E; rewrite E in LC; cbn [length] in LC; lia|unfold len in *; lia|apply S5; discriminate]. }
      rewrite FF. split; [exact S1|]. split; [lia|]. rewrite S2. reflexivity.
    - left. destruct RR as (-> & ->). change (-1 <? 0) with true in EP. injection EP as <- <-. reflexivity. }
  destruct R2 as [[-> ->]|(w & u4 & -> & R2)]; [split; [discriminate|constructor]|]. cbn [pbind] in R2.
  assert (G : o <> Wrong /\ Forall states u4).
  { destruct (ret w =? -1); [destruct R2 as [-> ->]; split; [discriminate|constructor]|]. eapply IH; [| | |exact R2]; [lia|cbn [length]; rewrite LP, skipn_length, LI; reflexivity|inversion D4; auto]. }
  split; [apply G|]. constructor; [|apply G]. intros f b E. cbn [fst] in E. unfold Send in E. assert (b = firstn (Z.to_nat (n0 + 1)) (ip0 :: ip1)) as -> by congruence. exact REP.
Qed.
Lemma helper_main_offers : forall fuel buf ip s0 s1 tr o, length buf = 257%nat -> length ip = 129%nat -> Forall dgram tr -> pids tr ->
  runs (helper_main fuel buf ip s0 s1) tr o -> o <> Wrong /\ Forall states tr.
Proof.
  intros fuel buf ip s0 s1 tr o LB LI D P R. unfold helper_main in R.
  assert (G : forall A B (p : prog A) (f : A -> prog B) t q, calls unsent p -> (forall u z, runs p u z -> pids u -> z <> Wrong) -> Forall dgram t -> pids t -> runs (pbind p f) t q ->
    (forall u x, runs (f x) u q -> Forall dgram u -> pids u -> q <> Wrong /\ Forall states u) -> q <> Wrong /\ Forall states t).
  { intros A B p f t q C W DT PT RT K. apply runs_bind in RT as [(x & u1 & u2 & -> & R1 & R2)|[[R1 ->]|[R1 ->]]].
    - apply Forall_app in DT as [_ DT]. destruct (K u2 x R2 DT) as [K1 K2]; [intros y Y; apply PT; apply in_or_app; auto|]. split; auto. apply Forall_app. split; [apply unsent_states; exact (C _ _ R1)|exact K2].
    - destruct (W _ _ R1 PT eq_refl).
    - split; [discriminate|apply unsent_states; exact (C _ _ R1)]. }
  revert R. generalize D P. clear D P. revert tr o.
  assert (NS : forall c u z, runs (sys1 c) u z -> z <> Wrong) by (intros c u z RZ; apply runs_sys1 in RZ as [[_ ->]|(x & _ & ->)]; discriminate).
  assert (ND : forall c u z, runs (do c) u z -> z <> Wrong) by (intros c u z RZ; unfold do in RZ; destruct RZ as [[_ ->]|(x & t & _ & RZ)]; [discriminate|]; destruct RZ as [_ ->]; discriminate).
  intros tr o D P R. eapply G; [| |exact D|exact P|exact R|]; [apply calls_sys1; discriminate|eauto|]. clear tr D P R. intros tr pp R D P.
  eapply G; [| |exact D|exact P|exact R|]; [unfold do; repeat calls1; exact Logic.I|eauto|]. clear tr D P R. intros tr x R D P.
  eapply G; [| |exact D|exact P|exact R|]; [unfold fd_blocking_disable; repeat calls1; discriminate| |].
  { intros u z RZ _. unfold fd_blocking_disable in RZ. destruct RZ as [[_ ->]|(x1 & t1 & _ & RZ)]; [discriminate|]. cbn [pbind] in RZ. destruct (ret x1 =? -1); [destruct RZ as [_ ->]; discriminate|]. destruct RZ as [[_ ->]|(x2 & t2 & _ & RZ)]; [discriminate|]. destruct RZ as [_ ->]. discriminate. }
  clear tr D P R x. intros tr x R D P.
  eapply G; [| |exact D|exact P|exact R|]; [|intros u z RZ PU; exact (proj1 (C36_no_ub _ _ _ _ _ RZ PU))|].
  { unfold jail, jail_main, must, mustbe, when, jail_limit_memory. steps. all: repeat split; discriminate. }
  clear tr D P R x. intros tr [r l] R D P. destruct (r =? -1); [destruct R as [-> ->]; split; [discriminate|constructor]|].
  apply runs_bind in R as [(x & u1 & u2 & -> & R1 & R2)|[[R1 ->]|[R1 ->]]].
  - apply Forall_app in D as [D _]. destruct (helper_offers _ _ _ _ _ _ _ LB LI D R1) as [_ S]. destruct R2 as [-> ->]. rewrite app_nil_r. split; [discriminate|exact S].
  - destruct (helper_offers _ _ _ _ _ _ _ LB LI D R1) as [W _]. congruence.
  - destruct (helper_offers _ _ _ _ _ _ _ LB LI D R1) as [_ S]. split; [discriminate|exact S].
Qed.
