(** Counting: every round of a relay loop has a reason. *)
From Verif.Model Require Import Base Sys Io Fdio Relay Session Tlsphase.
From Verif.Spec Require Import Waiting Spin.
From Verif.Proof Require Import Tac SysP FdioP WpP.

Lemma reasons_app : forall a b, reasons (a ++ b) = (reasons a + reasons b)%nat.
Proof. intros. unfold reasons. rewrite filter_app, app_length. reflexivity. Qed.
Lemma reasons_cons : forall e t, reasons (e :: t) = (reasons [e] + reasons t)%nat.
Proof. intros e t. exact (reasons_app [e] t). Qed.

(** At most [n] calls without a reason (and two more for each reason). *)
Definition cost {R} (n : nat) (p : prog R) (Q : nat -> R -> Prop) : Prop :=
  forall tr o, runs p tr o -> (length tr <= n + 3 * reasons tr)%nat /\ (forall r, o = Fin r -> Q (reasons tr) r).
Lemma cost_ret : forall R n (r : R) (Q : nat -> R -> Prop), Q 0%nat r -> cost n (Ret r) Q.
Proof. intros R n r Q H tr o [-> ->]. split; [cbn; lia|]. intros x E. injection E as <-. exact H. Qed.
Lemma cost_halt : forall R n (Q : nat -> R -> Prop), cost n Halt Q.
Proof. intros R n Q tr o [-> ->]. split; [cbn; lia|discriminate]. Qed.
Lemma cost_bad : forall R n (Q : nat -> R -> Prop), cost n Bad Q.
Proof. intros R n Q tr o [-> ->]. split; [cbn; lia|discriminate]. Qed.
Lemma cost_bind : forall A B n m (p : prog A) (f : A -> prog B) (M : nat -> A -> Prop) (Q : nat -> B -> Prop),
  cost n p M -> (forall b a, M b a -> cost m (f a) (fun c x => Q (b + c)%nat x)) -> cost (n + m) (pbind p f) Q.
Proof.
  intros A B n m p f M Q P F tr o RU. apply runs_bind in RU as [(a & t1 & t2 & -> & R1 & R2)|[[R1 ->]|[R1 ->]]].
  - destruct (P _ _ R1) as [L1 Q1]. destruct (F _ _ (Q1 a eq_refl) _ _ R2) as [L2 Q2]. rewrite app_length, reasons_app. split; [lia|exact Q2].
  - destruct (P _ _ R1) as [L1 _]. split; [lia|discriminate].
  - destruct (P _ _ R1) as [L1 _]. split; [lia|discriminate].
Qed.
Lemma cost_do : forall R n c (k : ans -> prog R) (Q : nat -> R -> Prop),
  (forall a, cost n (k a) (fun b x => Q (reasons [(c, a)] + b)%nat x)) -> cost (S n) (Do c k) Q.
Proof.
  intros R n c k Q H tr o [[-> ->]|(a & t & -> & RU)]; [split; [cbn; lia|discriminate]|].
  destruct (H a _ _ RU) as [L F]. assert (E : reasons ((c, a) :: t) = (reasons [(c, a)] + reasons t)%nat) by exact (reasons_cons (c, a) t). rewrite E. cbn [length]. split; [lia|exact F].
Qed.
Lemma cost_weak : forall R n m (p : prog R) (Q Q' : nat -> R -> Prop), (n <= m)%nat -> cost n p Q -> (forall b r, Q b r -> Q' b r) -> cost m p Q'.
Proof. intros R n m p Q Q' N C H tr o RU. destruct (C _ _ RU) as [L F]. split; [lia|auto]. Qed.
Lemma cost_lift : forall R n (x : res R) (Q : nat -> R -> Prop), (forall r, x = Ok r -> Q 0%nat r) -> cost n (lift x) Q.
Proof. intros R n [r| |] Q H; [apply cost_ret; auto|apply cost_bad|apply cost_halt]. Qed.

Lemma cost_sys1 : forall c, cost 1 (sys1 c) (fun b a => b = reasons [(c, a)]).
Proof. intros c. unfold sys1. apply cost_do. intros a. apply cost_ret. lia. Qed.
Lemma cost_alarm : forall t, cost 1 (alarm t) (fun _ _ => True).
Proof. intros t. unfold alarm. apply (cost_bind _ _ 1 0 _ _ (fun _ _ => True)); [eapply cost_weak; [|apply cost_sys1|]; auto|]. intros b a _. apply cost_ret. exact I. Qed.
Lemma cost_shut : forall how v, cost 2 ('(x, _) <~ fd_close_ how (Some v) stale ;; match x with Some x => Ret x | None => Bad end) (fun _ x => x = -1).
Proof.
  intros how v. unfold fd_close_. destruct (v =? -1) eqn:V; cbn [pbind]; [apply cost_ret; lia|].
  unfold tryshutdown, tryclose, sys1. cbn [pbind]. apply cost_do. intros a. cbn [pbind].
  destruct (ret a =? 0); cbn [pbind]; apply cost_do; intros b; cbn [pbind]; destruct (ret b =? 0); cbn [pbind]; apply cost_ret; reflexivity.
Qed.
Lemma cost_shut_r : forall v, cost 2 (shut_r v) (fun _ x => x = -1).
Proof. intros v. apply cost_shut. Qed.
Lemma cost_shut_w : forall v, cost 2 (shut_w v) (fun _ x => x = -1).
Proof. intros v. apply cost_shut. Qed.

Definition good (b : nat) (r e : Z) : Prop := 0 < r \/ again r e = true -> (1 <= b)%nat.
Lemma good_event : forall c a, match c with Read _ _ | Write _ _ => True | _ => False end -> good (reasons [(c, a)]) (ret a) (err a).
Proof.
  intros c a H K. unfold reasons. cbn [filter].
  assert (E : transferred (c, a) || postponed (c, a) || woken (c, a) = true); [|rewrite E; cbn; lia].
  unfold again, EINTR, EAGAIN in K. destruct c; try contradiction; cbn [transferred postponed woken]; destruct K as [K|K];
    try (replace (0 <? ret a) with true by lia; reflexivity);
    apply andb_prop in K as [K1 K2]; replace (ret a <? 0) with true by lia; rewrite K2; rewrite ?orb_true_r; reflexivity.
Qed.
Lemma good_einval : forall b, good b (-1) EINVAL.
Proof. intros b [H|H]; [lia|discriminate H]. Qed.
Lemma cost_read : forall fd room n, cost 1 (fd_read fd room n) (fun b x => good b (fst (fst x)) (snd (fst x))).
Proof.
  intros fd room n. unfold fd_read. destruct (n <? 0); [apply cost_ret; apply good_einval|]. cbv zeta.
  match goal with |- context [room <? ?m] => destruct (room <? m); [apply cost_bad|] end.
  unfold sys1. cbn [pbind]. apply cost_do. intros a. apply cost_ret. cbn [fst snd]. rewrite Nat.add_0_r. apply good_event. exact I.
Qed.
Lemma cost_write : forall fd x n, cost 1 (fd_write fd x n) (fun b x => good b (fst x) (snd x)).
Proof.
  intros fd x n. unfold fd_write. destruct (n <? 0); [apply cost_ret; apply good_einval|]. cbv zeta.
  match goal with |- context [len x <? ?m] => destruct (len x <? m); [apply cost_bad|] end.
  unfold sys1. cbn [pbind]. apply cost_do. intros a. apply cost_ret. cbn [fst snd]. rewrite Nat.add_0_r. apply good_event. exact I.
Qed.
Lemma cost_offer : forall fd x, cost 1 (offer fd x) (fun b x => good b (fst x) (snd x)).
Proof. intros fd [|z x]; [apply cost_ret; apply good_einval|]. apply cost_write. Qed.
Lemma cost_fetch : forall fd n, cost 1 (fetch fd n) (fun b x => good b (fst (fst x)) (snd (fst x))).
Proof. intros fd n. unfold fetch. destruct (n <=? 0); [apply cost_ret; apply good_einval|apply cost_read]. Qed.

Lemma cost_watch : forall ws, Forall wfine ws ->
  cost 1 (watch ws) (fun b h => exists a, h = map (wready a) ws /\ (existsb (fun x => x) h = false -> (1 <= b)%nat)).
Proof.
  intros ws W tr o RU.
  assert (LE : (length tr <= 1)%nat /\ legal tr).
  { clear W. unfold watch, jail_poll in RU. destruct (jp_sets (polled ws) 1 [] []) as [[[n r] w]|]; cbn [pbind] in RU.
    - change (0 <=? -1) with false in RU. cbv iota in RU. unfold sys1 in RU. cbn [pbind] in RU. destruct RU as [[-> ->]|(a & t & -> & RU)]; [split; [cbn; lia|constructor]|].
      assert (t = []) as ->; [|split; [cbn; lia|repeat constructor]].
      destruct (ret a <=? 0); cbn [pbind] in RU.
      + destruct (ret a <? 0); destruct RU as [-> _]; reflexivity.
      + destruct (jp_result (polled ws) a 0) as [[x l]|]; cbn [pbind] in RU; [destruct (x <? 0)|change (-1 <? 0) with true in RU]; destruct RU as [-> _]; reflexivity.
    - change (-1 <? 0) with true in RU. destruct RU as [-> _]. split; [cbn; lia|constructor]. }
  destruct LE as [LE LG]. split; [lia|]. intros h ->.
  assert (P : wp (fun _ _ => True) [] (watch ws) (fun t h => exists n rd wr a, t = [(Select n rd wr None, a)] /\ h = map (wready a) ws /\
     (forall f, In f rd <-> In (true, f, POLLIN) ws) /\ (forall f, In f wr <-> In (true, f, POLLOUT) ws))).
  { apply wp_watch; [exact W|]. intros n rd wr a A B. split; [exact I|]. exists n, rd, wr, a. auto. }
  destruct (P _ _ RU LG) as (_ & _ & F). cbn [app] in F. destruct (F h eq_refl) as (n & rd & wr & a & -> & -> & A & B). exists a. split; [reflexivity|]. intros E.
  unfold reasons. cbn [filter transferred postponed woken orb].
  assert (N : (ret a <=? 0) || negb (existsb (fun f => existsb (Z.eqb f) (data a)) rd || existsb (fun f => existsb (Z.eqb (-1 - f)) (data a)) wr) = true); [|rewrite N; cbn; lia].
  destruct (Z.leb_spec (ret a) 0) as [L|L]; [reflexivity|]. cbn [orb].
  assert (K : forall w, In w ws -> wready a w = false).
  { intros w Iw. destruct (wready a w) eqn:Ew; [|reflexivity]. assert (existsb (fun x => x) (map (wready a) ws) = true); [|congruence].
    apply existsb_exists. exists true. split; [|reflexivity]. rewrite <- Ew. apply in_map. exact Iw. }
  apply negb_true_iff, orb_false_iff. split.
  - destruct (existsb _ rd) eqn:X; [|reflexivity]. apply existsb_exists in X as (f & I1 & I2). apply existsb_exists in I2 as (g & I2 & I3). assert (f = g) as <- by lia.
    apply A in I1. apply K in I1. unfold wready in I1. replace (0 <? ret a) with true in I1 by lia. cbn in I1. destruct (in_dec Z.eq_dec f (data a)); [discriminate|contradiction].
  - destruct (existsb _ wr) eqn:X; [|reflexivity]. apply existsb_exists in X as (f & I1 & I2). apply existsb_exists in I2 as (g & I2 & I3). assert (-1 - f = g) as <- by lia.
    apply B in I1. apply K in I1. unfold wready in I1. replace (0 <? ret a) with true in I1 by lia. cbn [POLLOUT POLLIN Z.eqb Pos.eqb andb] in I1. destruct (in_dec Z.eq_dec (-1 - f) (data a)); [discriminate|contradiction].
Qed.

(** ** Loops *)
Lemma cost_iter : forall S R (body : S -> prog (nxt S R)) (Inv : S -> Prop) (phi : S -> nat) B,
  (forall s, Inv s -> cost B (body s) (fun b x => match x with Again s' => Inv s' /\ (phi s' + 1 <= b + phi s)%nat | Stop _ => True end)) ->
  forall n s tr o, Inv s -> runs (iter n body s) tr o ->
    (length tr <= B * (reasons tr + phi s + 1) + 3 * reasons tr)%nat /\
    exists m, (m <= reasons tr + phi s + 1)%nat /\ runs (iter m body s) tr o.
Proof.
  intros S R body Inv phi B H n. induction n as [|n IH]; intros s tr o I0 RU; cbn [iter] in RU.
  - destruct RU as [-> ->]. split; [cbn; lia|]. exists 0%nat. split; [lia|]. split; reflexivity.
  - apply runs_bind in RU as [(x & t1 & t2 & -> & R1 & R2)|[[R1 ->]|[R1 ->]]].
    + destruct (H s I0 _ _ R1) as [L1 Q1]. specialize (Q1 x eq_refl). rewrite app_length, reasons_app. destruct x as [s'|r].
      * destruct Q1 as [I1 P1]. destruct (IH s' t2 o I1 R2) as (L2 & m & M1 & M2). split; [nia|].
        exists (Datatypes.S m). split; [lia|]. cbn [iter]. apply runs_bind. left. exists (Again s'), t1, t2. auto.
      * destruct R2 as [-> ->]. cbn [length]. split; [nia|]. exists 1%nat. split; [lia|]. cbn [iter]. apply runs_bind. left. exists (Stop r), t1, []. repeat split; auto.
    + destruct (H s I0 _ _ R1) as [L1 _]. split; [nia|]. exists 1%nat. split; [lia|]. cbn [iter]. apply runs_bind. right. left. auto.
    + destruct (H s I0 _ _ R1) as [L1 _]. split; [nia|]. exists 1%nat. split; [lia|]. cbn [iter]. apply runs_bind. right. right. auto.
Qed.

Definition low (v : Z) : Prop := v = -1 \/ 0 <= v < 1024.
Definition o1 (v : Z) : nat := if open v then 1%nat else 0%nat.
Lemma o1_closed : o1 (-1) = 0%nat.
Proof. reflexivity. Qed.
Lemma o1_open : forall v, open v = true -> o1 v = 1%nat.
Proof. intros v H. unfold o1. rewrite H. reflexivity. Qed.
Lemma low_closed : low (-1).
Proof. left. reflexivity. Qed.
Lemma low_open : forall v, low v -> open v = true -> 0 <= v < 1024.
Proof. intros v [->|H] O; [discriminate O|exact H]. Qed.
#[global] Hint Resolve low_closed : core.

(** The six descriptors of the wrapper. *)
Definition lows (s : sess) : Prop := low (peerin s) /\ low (peerout s) /\ low (childin s) /\ low (childout s) /\ low (childctl s) /\ low (childack s).
Definition phi (s : sess) : nat := (o1 (peerin s) + o1 (peerout s) + o1 (childin s) + o1 (childout s) + o1 (childctl s) + o1 (childack s))%nat.
(** the rest of a step: [c b p] does at most b calls *)
Ltac fine := unfold lows, phi in *; cbn [peerin peerout childin childout childctl childack toc ton set_peerin set_peerout set_childin set_childout set_childctl set_childack set_toc set_ton] in *; repeat rewrite o1_closed in *.
Section Wrapper.
Variables timeout finishtimeout self : Z.
Hypothesis SELF : 0 <= self < 1024.

Lemma cost_selfpipe : forall s, lows s -> cost 10 (selfpipe_event finishtimeout self s)
  (fun b x => lows (snd x) /\ (fst x = false -> (phi (snd x) + 1 <= b + phi s)%nat)).
Proof.
  intros s L. unfold selfpipe_event. apply (cost_bind _ _ 1 9 _ _ _ _ (cost_read self 1 1)). intros b [[r e] d] G. cbn [fst snd] in G.
  destruct (again r e) eqn:A; [apply cost_ret; cbn [fst snd]; split; [exact L|]; specialize (G (or_intror A)); lia|].
  destruct (Z.leb_spec r 0) as [Z0|Z0]; [apply cost_ret; cbn [fst snd]; split; [exact L|discriminate]|].
  specialize (G (or_introl Z0)). cbv zeta.
  destruct (List.hd 0 d =? 67).
  { apply (cost_bind _ _ 2 7 _ _ _ _ (cost_shut_w _)). intros b1 v ->. apply (cost_bind _ _ 1 6 _ _ _ _ (cost_alarm _)). intros b2 _ _. apply cost_ret. cbn [fst snd]. fine. split; [intuition|]. lia. }
  destruct (_ && _).
  { apply (cost_bind _ _ 2 7 _ _ _ _ (cost_shut_w _)). intros b1 v ->. cbv zeta.
    apply (cost_bind _ _ 2 5 _ _ _ _ (cost_shut_r _)). intros b2 v ->.
    apply (cost_bind _ _ 2 3 _ _ _ _ (cost_shut_r _)). intros b3 v ->.
    apply (cost_bind _ _ 2 1 _ _ _ _ (cost_shut_w _)). intros b4 v ->.
    apply (cost_bind _ _ 1 0 _ _ _ _ (cost_alarm _)). intros b5 _ _. apply cost_ret. cbn [fst snd]. fine. split; [intuition|]. lia. }
  apply cost_ret. cbn [fst snd]. split; [exact L|discriminate].
Qed.

(** ** The cleartext phase *)
Definition paid {R} (s : sess) (b : nat) (x : nxt sess R) : Prop :=
  match x with Again s' => lows s' /\ (phi s' + 1 <= b + phi s)%nat | Stop _ => True end.
Lemma c_topeer : forall s, lows s -> cost 3 (clear_topeer s) (paid s).
Proof.
  intros s L. unfold clear_topeer. apply (cost_bind _ _ 1 2 _ _ _ _ (cost_write _ _ _)). intros b [r e] G. cbn [fst snd] in G.
  destruct (again r e) eqn:A; [apply cost_ret; specialize (G (or_intror A)); split; [exact L|lia]|].
  destruct (Z.leb_spec r 0) as [Z0|Z0]; [apply (cost_bind _ _ 2 0 _ _ _ _ (cost_shut_w _)); intros b1 v _; apply cost_ret; exact I|].
  specialize (G (or_introl Z0)). apply (cost_bind _ _ 0 2 _ _ _ _ (cost_lift _ 0 _ (fun _ _ => True) (fun _ _ => I))). intros b1 x _. apply cost_ret. split; [exact L|]. unfold phi in *. cbn [peerin peerout childin childout childctl childack set_ton]. lia.
Qed.
Lemma c_tochild : forall s, lows s -> cost 3 (clear_tochild s) (paid s).
Proof.
  intros s L. unfold clear_tochild. apply (cost_bind _ _ 1 2 _ _ _ _ (cost_write _ _ _)). intros b [r e] G. cbn [fst snd] in G.
  destruct (again r e) eqn:A; [apply cost_ret; specialize (G (or_intror A)); split; [exact L|lia]|].
  destruct (Z.leb_spec r 0) as [Z0|Z0]; [apply (cost_bind _ _ 2 0 _ _ _ _ (cost_shut_w _)); intros b1 v _; apply cost_ret; exact I|].
  specialize (G (or_introl Z0)). apply (cost_bind _ _ 0 2 _ _ _ _ (cost_lift _ 0 _ (fun _ _ => True) (fun _ _ => I))). intros b1 x _. apply cost_ret. split; [exact L|]. unfold phi in *. cbn [peerin peerout childin childout childctl childack set_toc]. lia.
Qed.
Lemma c_fromchild : forall s, lows s -> open (childout s) = true -> cost 3 (clear_fromchild timeout s) (paid s).
Proof.
  intros s L O. unfold clear_fromchild. apply (cost_bind _ _ 1 2 _ _ _ _ (cost_read _ _ _)). intros b [[r e] d] G. cbn [fst snd] in G.
  destruct (again r e) eqn:A; [apply cost_ret; specialize (G (or_intror A)); split; [exact L|lia]|].
  destruct (Z.leb_spec r 0) as [Z0|Z0].
  - apply (cost_bind _ _ 2 0 _ _ _ _ (cost_shut_r _)). intros b1 v ->. apply cost_ret. unfold paid. apply o1_open in O. fine. split; [intuition|lia].
  - specialize (G (or_introl Z0)). apply (cost_bind _ _ 1 1 _ _ _ _ (cost_alarm _)). intros b1 x _. apply cost_ret. split; [exact L|]. unfold phi in *. cbn [peerin peerout childin childout childctl childack set_ton]. lia.
Qed.
Lemma c_frompeer : forall s, lows s -> open (peerin s) = true -> cost 3 (clear_frompeer timeout s) (paid s).
Proof.
  intros s L O. unfold clear_frompeer. apply (cost_bind _ _ 1 2 _ _ _ _ (cost_read _ _ _)). intros b [[r e] d] G. cbn [fst snd] in G.
  destruct (again r e) eqn:A; [apply cost_ret; specialize (G (or_intror A)); split; [exact L|lia]|].
  destruct (Z.leb_spec r 0) as [Z0|Z0].
  - apply (cost_bind _ _ 2 0 _ _ _ _ (cost_shut_r _)). intros b1 v ->. apply cost_ret. unfold paid. apply o1_open in O. fine. split; [intuition|lia].
  - specialize (G (or_introl Z0)). apply (cost_bind _ _ 1 1 _ _ _ _ (cost_alarm _)). intros b1 x _. apply cost_ret. split; [exact L|]. unfold phi in *. cbn [peerin peerout childin childout childctl childack set_toc]. lia.
Qed.
Lemma cost_writeall : forall fuel fd x n, cost 1 (writeall fuel fd x n) (fun _ _ => True).
Proof.
  induction fuel as [|fuel IH]; intros fd x n; cbn [writeall]; [apply cost_halt|]. destruct (0 <? n); [|apply cost_ret; exact I]. cbv zeta.
  match goal with |- context [len x <? ?m] => destruct (len x <? m); [apply cost_bad|generalize (firstn (Z.to_nat m) x) as y; intros y] end.
  intros tr o [[-> ->]|(a & t & -> & RU)]; [split; [cbn; lia|discriminate]|]. split; [|intros; exact I].
  assert (E : reasons ((Write fd y, a) :: t) = (reasons [(Write fd y, a)] + reasons t)%nat) by exact (reasons_cons (Write fd y, a) t). rewrite E. clear E. cbn [length].
  assert (K : 0 < ret a \/ ret a < 0 /\ transient (err a) = true -> (1 <= reasons [(Write fd y, a)])%nat).
  { intros K. unfold reasons. cbn [filter transferred postponed woken]. destruct K as [K|[K1 K2]].
    - replace (0 <? ret a) with true by lia. cbn. lia.
    - unfold transient, EINTR, EAGAIN in K2. rewrite K2. replace (ret a <? 0) with true by lia. rewrite orb_true_r. cbn. lia. }
  destruct (Z.leb_spec (ret a) 0) as [Z0|Z0].
  - destruct (transient (if ret a =? 0 then EPIPE else err a)) eqn:T.
    + destruct (ret a =? 0) eqn:R0; [discriminate T|]. assert (1 <= reasons [(Write fd y, a)])%nat by (apply K; right; split; [lia|exact T]).
      destruct RU as [[-> ->]|(a2 & t2 & -> & RU)]; [cbn [length]; lia|]. cbn [length].
      assert (E : reasons ((Poll [(fd, 4)] (-1), a2) :: t2) = (reasons [(Poll [(fd, 4%Z)] (-1)%Z, a2)] + reasons t2)%nat) by exact (reasons_cons (Poll [(fd, 4)] (-1), a2) t2). rewrite E. clear E.
      destruct ((ret a2 =? -1) && negb (err a2 =? EINTR)); [destruct RU as [-> _]; cbn [length]; lia|]. apply IH in RU as [RU _]. lia.
    + destruct RU as [-> _]. cbn [length]. lia.
  - assert (1 <= reasons [(Write fd y, a)])%nat by (apply K; left; exact Z0). apply IH in RU as [RU _]. lia.
Qed.
Lemma c_control : forall fuel s, lows s -> open (childctl s) = true -> cost 6 (clear_control fuel s) (paid s).
Proof.
  intros fuel s L O. unfold clear_control. apply (cost_bind _ _ 1 5 _ _ _ _ (cost_read _ _ _)). intros b [[r e] d] G. cbn [fst snd] in G.
  destruct (r =? -1) eqn:R1.
  { destruct ((e =? EINTR) || (e =? EAGAIN)) eqn:T; [apply cost_ret; assert (1 <= b)%nat by (apply G; right; unfold again; rewrite R1, T; reflexivity); split; [exact L|lia]|].
    apply (cost_bind _ _ 2 3 _ _ _ _ (cost_shut_r _)). intros b1 v _. apply cost_ret. exact I. }
  destruct (r =? 0).
  { apply (cost_bind _ _ 2 3 _ _ _ _ (cost_shut_r _)). intros b1 v ->. apply cost_ret. unfold paid. apply o1_open in O. fine. split; [intuition|lia]. }
  destruct (negb (r =? 1)); [apply cost_ret; exact I|]. destruct (negb (List.hd 255 d =? 0)); [apply cost_ret; exact I|].
  apply (cost_bind _ _ 2 3 _ _ _ _ (cost_shut_r _)). intros b1 v _. cbv zeta. destruct (_ || _); [apply cost_ret; exact I|].
  apply (cost_bind _ _ 1 2 _ _ _ _ (cost_writeall _ _ _ _)). intros b2 [|x] _; [|apply cost_ret; exact I].
  apply (cost_bind _ _ 2 0 _ _ _ _ (cost_shut_w _)). intros b3 w _. apply cost_ret. exact I.
Qed.
Lemma c_signal : forall s, lows s -> cost 10 (clear_signal finishtimeout self s) (paid s).
Proof.
  intros s L. unfold clear_signal. apply (cost_bind _ _ 10 0 _ _ _ _ (cost_selfpipe s L)). intros b [stop s'] [A B]. cbn [fst snd] in A, B.
  destruct stop; apply cost_ret; [exact I|]. specialize (B eq_refl). split; [exact A|lia].
Qed.
Lemma c_eof : forall s, lows s -> cost 4 (clear_eof s) (fun _ s' => lows s' /\ (phi s' <= phi s)%nat).
Proof.
  intros s L. unfold clear_eof. apply (cost_bind _ _ 2 2 _ _ (fun _ s' => lows s' /\ (phi s' <= phi s)%nat)).
  - destruct (_ && _); [|apply cost_ret; split; [exact L|lia]].
    apply (cost_bind _ _ 2 0 _ _ _ _ (cost_shut_w _)). intros b v ->. apply cost_ret. fine. split; [intuition|lia].
  - intros b s' [L' P]. destruct (_ && _); [|apply cost_ret; split; [exact L'|lia]].
    apply (cost_bind _ _ 2 0 _ _ _ _ (cost_shut_w _)). intros b1 v ->. apply cost_ret. fine. split; [intuition|lia].
Qed.
Lemma wfine_if : forall c v ev, (c = true -> open v = true) -> low v -> ev = POLLIN \/ ev = POLLOUT -> wfine (c, v, ev).
Proof. intros c v ev H L E C. split; [apply low_open; auto|exact E]. Qed.
Lemma cost_clear : forall fuel s, lows s -> cost 15 (clear_body timeout finishtimeout self fuel s) (paid s).
Proof.
  intros fuel s0 L0. unfold clear_body. apply (cost_bind _ _ 4 11 _ _ _ _ (c_eof s0 L0)). intros b0 s [L P].
  destruct (clear_done s); [apply cost_ret; exact I|].
  assert (W : Forall wfine (clear_watch self s)).
  { unfold clear_watch. destruct L as (L1 & L2 & L3 & L4 & L5 & L6). repeat apply Forall_cons; try apply Forall_nil; try (intros _; split; [exact SELF|auto]; fail);
      (apply wfine_if; [intros C; repeat match goal with H : _ && _ = true |- _ => apply andb_prop in H as [? ?] end; assumption|assumption|auto]). }
  apply (cost_bind _ _ 1 10 _ _ _ _ (cost_watch _ W)). intros b1 h (a & -> & N). unfold clear_watch in *. cbn [map] in *.
  cbv iota.
  assert (K : forall c fd ev, wready a (c, fd, ev) = true -> c = true) by (intros c fd ev X; unfold wready in X; destruct c; [reflexivity|discriminate X]).
  assert (BK : forall n (p : prog verdict), (n <= 10)%nat -> cost n p (paid s) -> cost 10 p (fun c x => paid s0 (b0 + (b1 + c)) x)).
  { intros n p Hn Hp. eapply cost_weak; [exact Hn|exact Hp|]. intros c [s'|r] H; [|exact I]. destruct H as [H1 H2]. split; [exact H1|]. lia. }
  match goal with |- cost _ (if ?w then _ else _) _ => destruct w eqn:E1 end. { apply (BK 3%nat); [lia|]. apply c_topeer; auto. }
  match goal with |- cost _ (if ?w then _ else _) _ => destruct w eqn:E4 end. { apply (BK 3%nat); [lia|]. apply c_fromchild; auto. apply K in E4. apply andb_prop in E4 as [E4 _]. exact E4. }
  match goal with |- cost _ (if ?w then _ else _) _ => destruct w eqn:E5 end. { apply (BK 6%nat); [lia|]. apply c_control; auto. apply K in E5. apply andb_prop in E5 as [E5 _]. apply andb_prop in E5 as [_ E5]. exact E5. }
  match goal with |- cost _ (if ?w then _ else _) _ => destruct w eqn:E2 end. { apply (BK 3%nat); [lia|]. apply c_tochild; auto. }
  match goal with |- cost _ (if ?w then _ else _) _ => destruct w eqn:E3 end. { apply (BK 3%nat); [lia|]. apply c_frompeer; auto. apply K in E3. apply andb_prop in E3 as [E3 _]. apply andb_prop in E3 as [E3 _]. exact E3. }
  match goal with |- cost _ (if ?w then _ else _) _ => destruct w eqn:E6 end. { apply (BK 10%nat); [lia|]. apply c_signal; auto. }
  specialize (N eq_refl). apply cost_ret. split; [exact L|lia].
Qed.

(** ** The TLS phase *)
Lemma cost_engine : forall n, cost 1 (engine n) (fun _ _ => True).
Proof. intros n. eapply cost_weak; [|apply cost_sys1|]; auto. Qed.
Lemma cost_ack : forall n r d, cost 1 (engine_ack n r d) (fun _ _ => True).
Proof. intros n r d. eapply cost_weak; [|apply cost_sys1|]; auto. Qed.
Lemma cost_flush : cost 1 flush (fun _ _ => True).
Proof. unfold flush. apply (cost_bind _ _ 1 0 _ _ _ _ (cost_sys1 _)). intros b a _. apply cost_ret. exact I. Qed.
Lemma cost_state : cost 1 current_state (fun _ _ => True).
Proof. unfold current_state. apply (cost_bind _ _ 1 0 _ _ _ _ (cost_engine _)). intros b a _. apply cost_ret. exact I. Qed.
Lemma cost_pending : forall fuel fd, cost 1 (pending_loop fuel fd) (fun _ _ => True).
Proof.
  induction fuel as [|fuel IH]; intros fd; cbn [pending_loop]; [apply cost_halt|]. unfold jail_poll.
  destruct (jp_sets [(fd, POLLIN)] 1 [] []) as [[[n rd] wr]|]; cbn [pbind].
  2:{ change ((-1 =? -1) && (EINVAL =? EINTR)) with false. cbv iota. apply cost_ret. exact I. }
  change (0 <=? 0) with true. cbv iota zeta. unfold sys1. cbn [pbind].
  generalize (Some (1000000 * Z.quot 0 1000 + 1000 * Z.rem 0 1000)) as tv. intros tv.
  intros tr o [[-> ->]|(a & t & -> & RU)]; [split; [cbn; lia|discriminate]|]. split; [|intros; exact I].
  assert (E : reasons ((Select n rd wr tv, a) :: t) = (reasons [(Select n rd wr tv, a)] + reasons t)%nat) by exact (reasons_cons (Select n rd wr tv, a) t). rewrite E. clear E. cbn [length].
  destruct (Z.leb_spec (ret a) 0) as [Z0|Z0]; cbn [pbind] in RU.
  - assert (1 <= reasons [(Select n rd wr tv, a)])%nat.
    { unfold reasons. cbn [filter transferred postponed woken]. replace (ret a <=? 0) with true by lia. cbn. lia. }
    destruct ((ret a =? -1) && (err a =? EINTR)); [apply IH in RU as [RU _]; lia|]. destruct RU as [-> _]. cbn [length]. lia.
  - destruct (jp_result [(fd, POLLIN)] a 0) as [[x l]|]; cbn [pbind] in RU.
    + change (0 =? EINTR) with false in RU. rewrite andb_false_r in RU. destruct RU as [-> _]. cbn [length]. lia.
    + change ((-1 =? -1) && (EINVAL =? EINTR)) with false in RU. destruct RU as [-> _]. cbn [length]. lia.
Qed.
Lemma t_eof1 : forall st s, lows s -> cost 2 (tls_eof1 st s) (fun _ s' => lows s' /\ (phi s' <= phi s)%nat).
Proof.
  intros st s L. unfold tls_eof1. destruct (_ && _); [|apply cost_ret; split; [exact L|lia]].
  apply (cost_bind _ _ 2 0 _ _ _ _ (cost_shut_w _)). intros b v ->. apply cost_ret. fine. split; [intuition|lia].
Qed.
Lemma t_eof2 : forall fuel st s, lows s -> cost 3 (tls_eof2 fuel st s) (fun _ s' => lows s' /\ (phi s' <= phi s)%nat).
Proof.
  intros fuel st s L. unfold tls_eof2. destruct (_ && _); [|apply cost_ret; split; [exact L|lia]].
  apply (cost_bind _ _ 1 2 _ _ (fun _ _ => True)); [unfold pending_now; destruct (peerin s =? -1); [apply cost_ret; exact I|apply cost_pending]|].
  intros b [|] _; [apply cost_ret; split; [exact L|lia]|].
  apply (cost_bind _ _ 2 0 _ _ _ _ (cost_shut_w _)). intros b1 v ->. apply cost_ret. fine. split; [intuition|lia].
Qed.
Lemma t_eof3 : forall st s, lows s -> cost 2 (tls_eof3 st s) (fun _ s' => lows s' /\ (phi s' <= phi s)%nat).
Proof.
  intros st s L. unfold tls_eof3. destruct (_ && _); [|apply cost_ret; split; [exact L|lia]].
  apply (cost_bind _ _ 2 0 _ _ _ _ (cost_shut_w _)). intros b v ->. apply cost_ret. fine. split; [intuition|lia].
Qed.
Lemma t_notify : forall st s, cost 3 (tls_notify st s) (fun _ _ => True).
Proof.
  intros st s. unfold tls_notify. destruct (_ && _); [|apply cost_ret; exact I].
  apply (cost_bind _ _ 1 2 _ _ _ _ (cost_engine _)). intros b1 a _. apply (cost_bind _ _ 1 1 _ _ _ _ cost_flush). intros b2 u _. eapply cost_weak; [|apply cost_state|]; auto.
Qed.
Lemma t_report : forall usercert fuel st s, cost 4 (report_handshake timeout usercert fuel st s) (fun _ x => forall s', x = Some s' -> fds s' = fds s).
Proof.
  intros usercert fuel st s. unfold report_handshake. destruct (shaken s); [apply cost_ret; intros s' E; injection E as <-; reflexivity|].
  destruct (negb (has st SENDAPP)); [apply cost_ret; intros s' E; injection E as <-; reflexivity|].
  destruct (told_user s). { apply (cost_bind _ _ 1 3 _ _ _ _ (cost_alarm _)). intros b u _. apply cost_ret. intros s' E. injection E as <-. reflexivity. }
  apply (cost_bind _ _ 1 3 _ _ (fun _ _ => True)).
  - destruct usercert; [|apply cost_ret; exact I]. apply (cost_bind _ _ 1 0 _ _ _ _ (cost_engine _)). intros b a _. destruct (ret a =? 0); [apply cost_ret; exact I|].
    apply (cost_bind _ _ 0 0 _ _ _ _ (cost_lift _ 0 _ (fun _ _ => True) (fun _ _ => I))). intros b1 x _. apply cost_ret. exact I.
  - intros b [x|] _; [|apply cost_ret; discriminate].
    apply (cost_bind _ _ 2 1 _ _ (fun _ _ => True)).
    + unfold report_user. apply (cost_bind _ _ 0 2 _ _ _ _ (cost_lift _ 0 _ (fun _ _ => True) (fun _ _ => I))). intros b1 n _.
      apply (cost_bind _ _ 2 0 _ _ (fun _ _ => True)); [|intros b2 [|e] _; apply cost_ret; exact I].
      unfold pipe_write. destruct (n + 1 <? 0); [apply cost_ret; exact I|]. apply (cost_bind _ _ 1 1 _ _ _ _ (cost_writeall _ _ _ _)). intros b2 [|e] _; [|apply cost_ret; exact I].
      eapply cost_weak; [|apply cost_writeall|]; auto.
    + intros b1 [|] _; [apply cost_ret; discriminate|]. apply (cost_bind _ _ 1 0 _ _ _ _ (cost_alarm _)). intros b2 u _. apply cost_ret. intros s' E. injection E as <-. reflexivity.
Qed.
Definition tpaid {R} (s : sess) (b : nat) (x : nxt tsess R) : Prop :=
  match x with Again s' => lows (fds s') /\ (phi (fds s') + 1 <= b + phi s)%nat | Stop _ => True end.
Lemma t_tochild : forall s, lows (fds s) -> cost 4 (tls_tochild s) (tpaid (fds s)).
Proof.
  intros s L. unfold tls_tochild. apply (cost_bind _ _ 1 3 _ _ _ _ (cost_engine _)). intros b0 a _.
  apply (cost_bind _ _ 1 2 _ _ _ _ (cost_offer _ _)). intros b [r e] G. cbn [fst snd] in G.
  destruct (again r e) eqn:A; [apply cost_ret; specialize (G (or_intror A)); split; [exact L|lia]|].
  destruct (Z.leb_spec r 0) as [Z0|Z0]; [apply (cost_bind _ _ 2 0 _ _ _ _ (cost_shut_w _)); intros b1 v _; apply cost_ret; exact I|].
  specialize (G (or_introl Z0)). apply (cost_bind _ _ 1 1 _ _ _ _ (cost_ack _ _ _)). intros b1 x _. apply cost_ret. split; [exact L|lia].
Qed.
Lemma t_topeer : forall s, lows (fds s) -> cost 4 (tls_topeer s) (tpaid (fds s)).
Proof.
  intros s L. unfold tls_topeer. apply (cost_bind _ _ 1 3 _ _ _ _ (cost_engine _)). intros b0 a _.
  apply (cost_bind _ _ 1 2 _ _ _ _ (cost_offer _ _)). intros b [r e] G. cbn [fst snd] in G.
  destruct (again r e) eqn:A; [apply cost_ret; specialize (G (or_intror A)); split; [exact L|lia]|].
  destruct (Z.leb_spec r 0) as [Z0|Z0]; [apply (cost_bind _ _ 2 0 _ _ _ _ (cost_shut_w _)); intros b1 v _; apply cost_ret; exact I|].
  specialize (G (or_introl Z0)). apply (cost_bind _ _ 1 1 _ _ _ _ (cost_ack _ _ _)). intros b1 x _. apply cost_ret. split; [exact L|lia].
Qed.
Lemma t_frompeer : forall s, lows (fds s) -> open (peerin (fds s)) = true -> cost 4 (tls_frompeer timeout s) (tpaid (fds s)).
Proof.
  intros s L O. unfold tls_frompeer. apply (cost_bind _ _ 1 3 _ _ _ _ (cost_engine _)). intros b0 a _.
  apply (cost_bind _ _ 1 2 _ _ _ _ (cost_fetch _ _)). intros b [[r e] d] G. cbn [fst snd] in G.
  destruct (again r e) eqn:A; [apply cost_ret; specialize (G (or_intror A)); split; [exact L|lia]|].
  destruct (Z.leb_spec r 0) as [Z0|Z0].
  - apply (cost_bind _ _ 2 0 _ _ _ _ (cost_shut_r _)). intros b1 v ->. apply cost_ret. unfold tpaid. cbn [fds with_fds]. apply o1_open in O. fine. split; [intuition|lia].
  - specialize (G (or_introl Z0)). apply (cost_bind _ _ 1 1 _ _ _ _ (cost_ack _ _ _)). intros b1 x _. apply (cost_bind _ _ 1 0 _ _ _ _ (cost_alarm _)). intros b2 u _. apply cost_ret. split; [exact L|lia].
Qed.
Lemma t_fromchild : forall s, lows (fds s) -> open (childout (fds s)) = true -> cost 5 (tls_fromchild timeout s) (tpaid (fds s)).
Proof.
  intros s L O. unfold tls_fromchild. apply (cost_bind _ _ 1 4 _ _ _ _ (cost_engine _)). intros b0 a _.
  apply (cost_bind _ _ 1 3 _ _ _ _ (cost_fetch _ _)). intros b [[r e] d] G. cbn [fst snd] in G.
  destruct (again r e) eqn:A; [apply cost_ret; specialize (G (or_intror A)); split; [exact L|lia]|].
  destruct (Z.leb_spec r 0) as [Z0|Z0].
  - apply (cost_bind _ _ 2 1 _ _ _ _ (cost_shut_r _)). intros b1 v ->. apply cost_ret. unfold tpaid. cbn [fds with_fds]. apply o1_open in O. fine. split; [intuition|lia].
  - specialize (G (or_introl Z0)). apply (cost_bind _ _ 1 2 _ _ _ _ (cost_ack _ _ _)). intros b1 x _. apply (cost_bind _ _ 1 1 _ _ _ _ cost_flush). intros b2 x2 _. apply (cost_bind _ _ 1 0 _ _ _ _ (cost_alarm _)). intros b3 u _. apply cost_ret. split; [exact L|lia].
Qed.
Lemma t_signal : forall s, lows (fds s) -> cost 10 (tls_signal finishtimeout self s) (tpaid (fds s)).
Proof.
  intros s L. unfold tls_signal. apply (cost_bind _ _ 10 0 _ _ _ _ (cost_selfpipe _ L)). intros b [stop s'] [A B]. cbn [fst snd] in A, B.
  destruct stop; apply cost_ret; [exact I|]. specialize (B eq_refl). split; [exact A|cbn [fds with_fds]; lia].
Qed.
Lemma cost_tls : forall usercert fuel s, lows (fds s) -> cost 26 (tls_body timeout finishtimeout self usercert fuel s) (tpaid (fds s)).
Proof.
  intros usercert fuel s0 L0. unfold tls_body. apply (cost_bind _ _ 1 25 _ _ _ _ cost_state). intros b0 st0 _.
  apply (cost_bind _ _ 2 23 _ _ _ _ (t_eof1 _ _ L0)). intros b1 f1 [L1 P1].
  apply (cost_bind _ _ 3 20 _ _ _ _ (t_eof2 _ _ _ L1)). intros b2 f2 [L2 P2].
  apply (cost_bind _ _ 2 18 _ _ _ _ (t_eof3 _ _ L2)). intros b3 f [L P3].
  apply (cost_bind _ _ 3 15 _ _ _ _ (t_notify _ _)). intros b4 st _.
  apply (cost_bind _ _ 4 11 _ _ _ _ (t_report _ _ _ _)). intros b5 [s|] SS; [|apply cost_ret; exact I].
  specialize (SS s eq_refl). cbn [fds with_fds] in SS.
  destruct (has st CLOSED && negb (shaken s)); [apply cost_ret; exact I|].
  destruct (has st CLOSED && negb (has st SENDREC)); [apply cost_ret; exact I|].
  destruct (_ && _); [apply cost_ret; exact I|].
  assert (W : Forall wfine (tls_watch self st f)).
  { unfold tls_watch, can_sendrec, can_recvrec, can_recvapp, can_sendapp. destruct L as (M1 & M2 & M3 & M4 & M5 & M6). repeat apply Forall_cons; try apply Forall_nil; try (intros _; split; [exact SELF|auto]; fail);
      (apply wfine_if; [intros C; repeat match goal with H : _ && _ = true |- _ => apply andb_prop in H as [? ?] end; assumption|assumption|auto]). }
  apply (cost_bind _ _ 1 10 _ _ _ _ (cost_watch _ W)). intros b6 h (a & -> & N). unfold tls_watch in *. cbn [map] in *.
  cbv iota.
  assert (K : forall c fd ev, wready a (c, fd, ev) = true -> c = true) by (intros c fd ev X; unfold wready in X; destruct c; [reflexivity|discriminate X]).
  assert (P : (phi (fds s) <= phi (fds s0))%nat) by (rewrite SS; lia). rewrite <- SS in L.
  assert (BK : forall n (p : prog tverdict), (n <= 10)%nat -> cost n p (tpaid (fds s)) -> cost 10 p (fun c x => tpaid (fds s0) (b0 + (b1 + (b2 + (b3 + (b4 + (b5 + (b6 + c))))))) x)).
  { intros n p Hn Hp. eapply cost_weak; [exact Hn|exact Hp|]. intros c [s'|r] H; [|exact I]. destruct H as [H1 H2]. split; [exact H1|]. lia. }
  match goal with |- cost _ (if ?w then _ else _) _ => destruct w eqn:E3 end. { apply (BK 4%nat); [lia|]. apply t_tochild; auto. }
  match goal with |- cost _ (if ?w then _ else _) _ => destruct w eqn:E1 end. { apply (BK 4%nat); [lia|]. apply t_topeer; auto. }
  match goal with |- cost _ (if ?w then _ else _) _ => destruct w eqn:E2 end. { apply (BK 4%nat); [lia|]. apply t_frompeer; auto. apply K in E2. unfold can_recvrec in E2. apply andb_prop in E2 as [E2 _]. apply andb_prop in E2 as [_ E2]. rewrite SS. exact E2. }
  match goal with |- cost _ (if ?w then _ else _) _ => destruct w eqn:E4 end. { apply (BK 5%nat); [lia|]. apply t_fromchild; auto. apply K in E4. unfold can_sendapp in E4. apply andb_prop in E4 as [E4 _]. apply andb_prop in E4 as [_ E4]. rewrite SS. exact E4. }
  match goal with |- cost _ (if ?w then _ else _) _ => destruct w eqn:E5 end. { apply (BK 10%nat); [lia|]. apply t_signal; auto. }
  specialize (N eq_refl). apply cost_ret. split; [exact L|lia].
Qed.

(** ** The TCP relay *)
Definition tlows (s : tcp) : Prop := low (localin s) /\ low (localout s) /\ low (remotein s) /\ low (remoteout s) /\ 0 <= fill (inb s).
Definition tphi (s : tcp) : nat := (o1 (localin s) + o1 (localout s) + o1 (remotein s) + o1 (remoteout s))%nat.
Definition rpaid {R} (s : tcp) (b : nat) (x : nxt tcp R) : Prop :=
  match x with Again s' => tlows s' /\ (tphi s' + 1 <= b + tphi s)%nat | Stop _ => True end.
Ltac tfine := unfold rpaid, tlows, tphi in *; cbn [localin localout remotein remoteout inb outb] in *; repeat rewrite o1_closed in *.
Lemma u64_nonneg : forall x, 0 <= u64 x.
Proof. intros x. unfold u64, two64. apply Z.mod_pos_bound. lia. Qed.
Lemma consume_nonneg : forall b r b', consume b r = Ok b' -> 0 <= fill b'.
Proof. intros b r b' E. unfold consume in E. destruct (_ || _) in E; [discriminate|]. injection E as <-. cbn [fill]. apply u64_nonneg. Qed.
Lemma r_eof : forall s, tlows s -> cost 4 (tcp_eof s) (fun _ s' => tlows s' /\ (tphi s' <= tphi s)%nat /\ (open (localin s') = false -> open (remoteout s') = true -> fill (inb s') <> 0)).
Proof.
  intros s L. unfold tcp_eof.
  apply (cost_bind _ _ 2 2 _ _ (fun _ s' => tlows s' /\ (tphi s' <= tphi s)%nat /\ (open (localin s') = false -> open (remoteout s') = true -> fill (inb s') <> 0))).
  - destruct (negb (open (localin s)) && open (remoteout s) && (fill (inb s) =? 0)) eqn:C.
    + apply (cost_bind _ _ 2 0 _ _ _ _ (cost_shut_w _)). intros b v ->. apply cost_ret. tfine. split; [intuition|]. split; [lia|]. discriminate.
    + apply cost_ret. split; [exact L|]. split; [lia|]. intros A B E. rewrite A, B, E in C. discriminate C.
  - intros b s' (L' & P & F). destruct (_ && _); [|apply cost_ret; auto].
    apply (cost_bind _ _ 2 0 _ _ _ _ (cost_shut_w _)). intros b1 v ->. apply cost_ret. tfine. split; [intuition|]. split; [lia|exact F].
Qed.
Lemma cost_tcp : forall s, tlows s -> cost 8 (tcp_body timeout self s) (rpaid s).
Proof.
  intros s0 L0. unfold tcp_body. apply (cost_bind _ _ 4 4 _ _ _ _ (r_eof s0 L0)). intros b0 s (L & P & F).
  destruct (tcp_done s); [apply cost_ret; exact I|].
  assert (W : Forall wfine (tcp_watch self s)).
  { unfold tcp_watch. destruct L as (L1 & L2 & L3 & L4 & L5). repeat apply Forall_cons; try apply Forall_nil; try (intros _; split; [exact SELF|auto]; fail);
      (apply wfine_if; [intros C; repeat match goal with H : _ && _ = true |- _ => apply andb_prop in H as [? ?] end; assumption|assumption|auto]). }
  apply (cost_bind _ _ 1 3 _ _ _ _ (cost_watch _ W)). intros b1 h (a & -> & N). unfold tcp_watch in *. cbn [map] in *.
  cbv iota.
  assert (K : forall c fd ev, wready a (c, fd, ev) = true -> c = true) by (intros c fd ev X; unfold wready in X; destruct c; [reflexivity|discriminate X]).
  match goal with |- cost _ (if ?w then _ else _) _ => destruct w eqn:E3 end.
  { unfold tcp_toremote. destruct (Z.ltb_spec 0 (fill (inb s))) as [Y|Y].
    - apply (cost_bind _ _ 1 2 _ _ _ _ (cost_write _ _ _)). intros b [r e] G. cbn [fst snd] in G.
      destruct (again r e) eqn:A; [apply cost_ret; specialize (G (or_intror A)); split; [exact L|lia]|].
      destruct (Z.leb_spec r 0) as [Z0|Z0]; [apply (cost_bind _ _ 2 0 _ _ _ _ (cost_shut_w _)); intros b2 v _; apply cost_ret; exact I|].
      specialize (G (or_introl Z0)). apply (cost_bind _ _ 0 2 _ _ _ _ (cost_lift _ 0 _ (fun _ x => 0 <= fill x) (consume_nonneg _ _))). intros b2 x X. apply cost_ret. tfine. split; [intuition|lia].
    - exfalso. apply K in E3. apply andb_prop in E3 as [E3 E3']. apply orb_prop in E3' as [E3'|E3']; [lia|]. apply negb_true_iff in E3'. specialize (F E3' E3). destruct L as (_ & _ & _ & _ & L). lia. }
  match goal with |- cost _ (if ?w then _ else _) _ => destruct w eqn:E2 end.
  { unfold tcp_tolocal. apply (cost_bind _ _ 1 2 _ _ _ _ (cost_write _ _ _)). intros b [r e] G. cbn [fst snd] in G.
    destruct (again r e) eqn:A; [apply cost_ret; specialize (G (or_intror A)); split; [exact L|lia]|].
    destruct (Z.leb_spec r 0) as [Z0|Z0]; [apply (cost_bind _ _ 2 0 _ _ _ _ (cost_shut_w _)); intros b2 v _; apply cost_ret; exact I|].
    specialize (G (or_introl Z0)). apply (cost_bind _ _ 0 2 _ _ _ _ (cost_lift _ 0 _ (fun _ x => 0 <= fill x) (consume_nonneg _ _))). intros b2 x X. apply cost_ret. tfine. split; [intuition|lia]. }
  match goal with |- cost _ (if ?w then _ else _) _ => destruct w eqn:E1 end.
  { apply K in E1. apply andb_prop in E1 as [E1 _]. apply andb_prop in E1 as [E1 _]. apply o1_open in E1.
    unfold tcp_fromlocal. apply (cost_bind _ _ 1 2 _ _ _ _ (cost_read _ _ _)). intros b [[r e] d] G. cbn [fst snd] in G.
    destruct (again r e) eqn:A; [apply cost_ret; specialize (G (or_intror A)); split; [exact L|lia]|].
    destruct (Z.leb_spec r 0) as [Z0|Z0].
    - apply (cost_bind _ _ 2 0 _ _ _ _ (cost_shut_r _)). intros b2 v ->. apply cost_ret. tfine. split; [intuition|lia].
    - specialize (G (or_introl Z0)). apply (cost_bind _ _ 1 1 _ _ _ _ (cost_alarm _)). intros b2 u _. apply cost_ret. tfine. split; [|lia]. unfold append. cbn [fill]. pose proof (u64_nonneg (fill (inb s) + r)). intuition. }
  match goal with |- cost _ (if ?w then _ else _) _ => destruct w eqn:E4 end.
  { apply K in E4. apply andb_prop in E4 as [E4 _]. apply andb_prop in E4 as [E4 _]. apply o1_open in E4.
    unfold tcp_fromremote. apply (cost_bind _ _ 1 2 _ _ _ _ (cost_read _ _ _)). intros b [[r e] d] G. cbn [fst snd] in G.
    destruct (again r e) eqn:A; [apply cost_ret; specialize (G (or_intror A)); split; [exact L|lia]|].
    destruct (Z.leb_spec r 0) as [Z0|Z0].
    - apply (cost_bind _ _ 2 0 _ _ _ _ (cost_shut_r _)). intros b2 v ->. apply cost_ret. tfine. split; [intuition|lia].
    - specialize (G (or_introl Z0)). apply (cost_bind _ _ 1 1 _ _ _ _ (cost_alarm _)). intros b2 u _. apply cost_ret. tfine. split; [intuition|lia]. }
  match goal with |- cost _ (if ?w then _ else _) _ => destruct w eqn:E5 end; apply cost_ret; [exact I|]. specialize (N eq_refl). split; [exact L|lia].
Qed.
End Wrapper.
