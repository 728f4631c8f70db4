(** Reasoning about programs with the history of system calls. *)
From Verif.Model Require Import Base Sys Io Fdio Relay.
From Verif.Spec Require Import Waiting Flow.
From Verif.Proof Require Import Tac SysP FdioP.

Lemma always_nil : forall OK, always OK [].
Proof. intros OK t1 e t2 E. destruct t1; discriminate. Qed.
Lemma always_snoc : forall (OK : trace -> event -> Prop) t e, always OK t -> OK t e -> always OK (t ++ [e]).
Proof.
  intros OK t e A B t1 x t2 E. destruct t2 as [|y t2 _] using rev_ind.
  - apply app_inj_tail in E as [-> ->]. auto.
  - rewrite app_comm_cons, app_assoc in E. apply app_inj_tail in E as [-> _]. eapply A. reflexivity.
Qed.
Lemma always_split : forall OK a b, always OK (a ++ b) -> always OK a.
Proof. intros OK a b H t1 e t2 ->. apply (H t1 e (t2 ++ b)). rewrite <- app_assoc. reflexivity. Qed.

(** From history [h]: no undefined behaviour, every call in order, and [Q] at the end. *)
Definition wp {R} (OK : trace -> event -> Prop) (h : trace) (p : prog R) (Q : trace -> R -> Prop) : Prop :=
  forall tr o, runs p tr o -> legal tr ->
    o <> Wrong /\ (forall t1 e t2, tr = t1 ++ e :: t2 -> OK (h ++ t1) e) /\ (forall r, o = Fin r -> Q (h ++ tr) r).

Lemma wp_ret : forall R OK h (r : R) (Q : trace -> R -> Prop), Q h r -> wp OK h (Ret r) Q.
Proof.
  intros R OK h r Q H tr o [-> ->] _. split; [discriminate|]. split; [intros t1 e t2 E; destruct t1; discriminate|]. intros x E. injection E as <-. rewrite app_nil_r. auto.
Qed.
Lemma wp_halt : forall R OK h (Q : trace -> R -> Prop), wp OK h Halt Q.
Proof. intros R OK h Q tr o [-> ->] _. split; [discriminate|]. split; [intros t1 e t2 E; destruct t1; discriminate|]. discriminate. Qed.
Lemma wp_do : forall R (OK : trace -> event -> Prop) h c (k : ans -> prog R) Q,
  (forall a, sys_ok (c, a) -> OK h (c, a) /\ wp OK (h ++ [(c, a)]) (k a) Q) -> wp OK h (Do c k) Q.
Proof.
  intros R OK h c k Q H tr o RU L. destruct RU as [[-> ->]|(a & t & -> & RU)].
  - split; [discriminate|]. split; [intros t1 e t2 E; destruct t1; discriminate|]. discriminate.
  - apply legal_cons in L as [L1 L2]. destruct (H a L1) as [A B]. destruct (B t o RU L2) as (W & O & F). split; auto. split.
    + intros t1 e t2 E. destruct t1 as [|x t1]; cbn [app] in E; injection E as <- ->; [rewrite app_nil_r; auto|].
      specialize (O t1 e t2 eq_refl). rewrite <- app_assoc in O. exact O.
    + intros r E. specialize (F r E). rewrite <- app_assoc in F. exact F.
Qed.
Lemma wp_bind : forall A B OK h (p : prog A) (f : A -> prog B) (M : trace -> A -> Prop) Q,
  wp OK h p M -> (forall t a, M t a -> wp OK t (f a) Q) -> wp OK h (pbind p f) Q.
Proof.
  intros A B OK h p f M Q P F tr o RU L. apply runs_bind in RU as [(a & t1 & t2 & -> & R1 & R2)|[[R1 ->]|[R1 ->]]].
  - apply legal_app in L as [L1 L2]. destruct (P _ _ R1 L1) as (_ & O1 & Q1). destruct (F _ _ (Q1 a eq_refl) _ _ R2 L2) as (W & O2 & Q2). split; auto. split.
    + intros u1 e u2 E. apply app_eq_app in E as (l & [[E1 E2]|[E1 E2]]).
      * destruct l as [|x l]; cbn [app] in E2.
        -- rewrite app_nil_r in E1. subst u1. specialize (O2 [] e u2 ltac:(auto)). rewrite app_nil_r in O2. auto.
        -- injection E2 as <- ->. eapply O1. exact E1.
      * rewrite E1. specialize (O2 l e u2 E2). rewrite <- app_assoc in O2. auto.
    + intros r E. specialize (Q2 r E). rewrite <- app_assoc in Q2. auto.
  - destruct (P _ _ R1 L) as (W & _). congruence.
  - destruct (P _ _ R1 L) as (_ & O1 & _). split; [discriminate|]. split; auto. discriminate.
Qed.
Lemma wp_conseq : forall R OK h (p : prog R) (Q Q' : trace -> R -> Prop), wp OK h p Q -> (forall t r, Q t r -> Q' t r) -> wp OK h p Q'.
Proof. intros R OK h p Q Q' P H tr o RU L. destruct (P _ _ RU L) as (W & O & F). split; auto. Qed.
Lemma wp_lift : forall R OK h (x : res R) r (Q : trace -> R -> Prop), x = Ok r -> Q h r -> wp OK h (lift x) Q.
Proof. intros R OK h x r Q -> H. apply wp_ret. auto. Qed.
Lemma wp_iter : forall S R OK (body : S -> prog (nxt S R)) (I : trace -> S -> Prop) (Q : trace -> R -> Prop),
  (forall t s, I t s -> wp OK t (body s) (fun t x => match x with Again s => I t s | Stop r => Q t r end)) ->
  forall fuel t s, I t s -> wp OK t (iter fuel body s) Q.
Proof.
  intros S R OK body I Q B fuel. induction fuel as [|fuel IH]; intros t s H; cbn [iter]; [apply wp_halt|].
  eapply wp_bind; [apply B; exact H|]. intros t1 [s1|r] H1; [apply IH; auto|apply wp_ret; auto].
Qed.
(** The conclusion for a whole run. *)
Lemma wp_run : forall R OK (p : prog R) Q, wp OK [] p Q -> forall tr o, runs p tr o -> legal tr ->
  o <> Wrong /\ always OK tr /\ (forall r, o = Fin r -> Q tr r).
Proof. intros R OK p Q W tr o RU L. exact (W tr o RU L). Qed.

(** ** Waiting *)
Definition wready (a : ans) (w : watcher) : bool :=
  let '(c, fd, ev) := w in
  c && (0 <? ret a) && (if ev =? POLLIN then if in_dec Z.eq_dec fd (data a) then true else false
                        else if in_dec Z.eq_dec (-1 - fd) (data a) then true else false).
Definition wfine (w : watcher) : Prop := let '(c, fd, ev) := w in c = true -> 0 <= fd < 1024 /\ (ev = POLLIN \/ ev = POLLOUT).
Lemma polled_in : forall ws e, In e (polled ws) <-> In (true, fst e, snd e) ws.
Proof.
  induction ws as [|[[c fd] ev] ws IH]; intros [f v]; cbn [polled]; [tauto|]. cbn [fst snd] in *. specialize (IH (f, v)). cbn [fst snd] in IH. destruct c; cbn [In]; rewrite IH.
  - split; intros [E|E]; auto; left; congruence.
  - split; [auto|]. intros [E|E]; [discriminate|auto].
Qed.
Lemma hits_ok : forall a ws, Forall wfine ws -> 0 < ret a -> hits ws (map (Waiting.reported a) (polled ws)) = map (wready a) ws.
Proof.
  intros a ws H P. induction H as [|[[c fd] ev] ws W H IH]; cbn [polled hits map]; auto. destruct c; cbn [wready andb]; [|f_equal; auto].
  cbn [map List.hd List.tl]. rewrite IH. replace (0 <? ret a) with true by lia. cbn [andb]. f_equal. destruct (W eq_refl) as [F [-> | ->]]; unfold Waiting.reported, ready_for, asks, POLLIN, POLLOUT; cbn [fst snd].
  - replace (0 <=? fd) with true by lia. cbn. destruct (in_dec Z.eq_dec fd (data a)); reflexivity.
  - replace (0 <=? fd) with true by lia. cbn. destruct (in_dec Z.eq_dec (-1 - fd) (data a)); reflexivity.
Qed.
Lemma hits_zero : forall ws, hits ws (map (fun _ => 0) (polled ws)) = map (fun _ => false) ws.
Proof. induction ws as [|[[c fd] ev] ws IH]; cbn [polled hits map]; auto. destruct c; cbn [map List.hd List.tl]; rewrite IH; reflexivity. Qed.
Lemma flags_nonneg : forall a x, 0 <= flags a x.
Proof. intros a x. induction x as [|e x IH]; cbn [flags]; [lia|]. unfold ready_for. cbn [fst snd]. repeat match goal with |- context [if ?b then _ else _] => destruct b end; lia. Qed.

Lemma wp_watch : forall (OK : trace -> event -> Prop) h ws (Q : trace -> list bool -> Prop), Forall wfine ws ->
  (forall n rd wr a, (forall f, In f rd <-> In (true, f, POLLIN) ws) -> (forall f, In f wr <-> In (true, f, POLLOUT) ws) ->
     OK h (Select n rd wr None, a) /\ Q (h ++ [(Select n rd wr None, a)]) (map (wready a) ws)) ->
  wp OK h (watch ws) Q.
Proof.
  intros OK h ws Q W H. unfold watch, jail_poll. pose proof (jp_sets_ok (polled ws) 1 [] [] ltac:(lia)) as J.
  specialize (J ltac:(intros f [[]|[]])).
  assert (FD : forall e, In e (polled ws) -> 0 <= fst e < 1024 /\ (snd e = POLLIN \/ snd e = POLLOUT)).
  { intros e I. apply polled_in in I. rewrite Forall_forall in W. exact (W _ I eq_refl). }
  destruct (jp_sets (polled ws) 1 [] []) as [[[n r] w]|].
  2:{ destruct J as (e & I & E). apply FD in I. lia. }
  destruct J as (_ & _ & _ & J3 & J4). change (0 <=? -1) with false. cbv iota.
  assert (RD : forall f, In f r <-> In (true, f, POLLIN) ws).
  { intros f. rewrite J3. split.
    - intros [[]|(e & I & A & <-)]. pose proof (FD e I) as [_ K]. apply polled_in in I. destruct e as [f v]. cbn [fst snd] in *. destruct K as [-> | ->]; auto. unfold asks in A. cbn in A. rewrite andb_false_r in A. discriminate.
    - intros I. right. exists (f, POLLIN). split; [apply polled_in; auto|]. split; auto. pose proof (FD (f, POLLIN) (proj2 (polled_in ws (f, POLLIN)) I)) as [K _]. unfold asks. cbn [fst snd] in *. replace (0 <=? f) with true by lia. reflexivity. }
  assert (WR : forall f, In f w <-> In (true, f, POLLOUT) ws).
  { intros f. rewrite J4. split.
    - intros [[]|(e & I & A & <-)]. pose proof (FD e I) as [_ K]. apply polled_in in I. destruct e as [f v]. cbn [fst snd] in *. destruct K as [-> | ->]; auto. unfold asks in A. cbn in A. rewrite andb_false_r in A. discriminate.
    - intros I. right. exists (f, POLLOUT). split; [apply polled_in; auto|]. split; auto. pose proof (FD (f, POLLOUT) (proj2 (polled_in ws (f, POLLOUT)) I)) as [K _]. unfold asks. cbn [fst snd] in *. replace (0 <=? f) with true by lia. reflexivity. }
  unfold sys1. cbn [pbind]. apply wp_do. intros a _. destruct (H n r w a RD WR) as [O QQ]. split; auto. cbn [pbind].
  rewrite jp_result_ok by (intros e I; apply FD in I; lia). rewrite Z.add_0_l.
  destruct (Z.leb_spec (ret a) 0) as [L|L]; cbn [pbind].
  - assert (E : map (wready a) ws = map (fun _ => false) ws).
    { apply map_ext. intros [[c fd] ev]. unfold wready. replace (0 <? ret a) with false by lia. rewrite andb_false_r. reflexivity. }
    rewrite E in QQ. rewrite hits_zero. destruct (ret a <? 0); apply wp_ret; exact QQ.
  - pose proof (flags_nonneg a (polled ws)). replace (flags a (polled ws) <? 0) with false by lia. rewrite hits_ok by auto. apply wp_ret. auto.
Qed.

(** ** Reading, writing, closing *)
Lemma wp_read : forall (OK : trace -> event -> Prop) h fd room n (Q : trace -> Z * Z * list Z -> Prop), 0 <= n <= CHUNK -> n <= room ->
  (forall a, sys_ok (Read fd n, a) -> OK h (Read fd n, a) /\ Q (h ++ [(Read fd n, a)]) (ret a, err a, data a)) -> wp OK h (fd_read fd room n) Q.
Proof.
  intros OK h fd room n Q N R H. unfold fd_read. replace (n <? 0) with false by lia. replace (CHUNK <? n) with false by lia. replace (room <? n) with false by lia. cbv iota zeta.
  unfold sys1. cbn [pbind]. apply wp_do. intros a A. destruct (H a A). split; auto. cbn [pbind]. apply wp_ret. auto.
Qed.
Lemma wp_write : forall (OK : trace -> event -> Prop) h fd x n (Q : trace -> Z * Z -> Prop), 0 <= n <= CHUNK -> n <= len x ->
  (forall a, sys_ok (Write fd (firstn (Z.to_nat n) x), a) -> OK h (Write fd (firstn (Z.to_nat n) x), a) /\ Q (h ++ [(Write fd (firstn (Z.to_nat n) x), a)]) (ret a, err a)) ->
  wp OK h (fd_write fd x n) Q.
Proof.
  intros OK h fd x n Q N R H. unfold fd_write. replace (n <? 0) with false by lia. replace (CHUNK <? n) with false by lia. replace (len x <? n) with false by lia. cbv iota zeta.
  unfold sys1. cbn [pbind]. apply wp_do. intros a A. destruct (H a A). split; auto. cbn [pbind]. apply wp_ret. auto.
Qed.
Lemma wp_shut : forall (OK : trace -> event -> Prop) h how v (Q : trace -> Z -> Prop),
  (v = -1 -> Q h (-1)) ->
  (v <> -1 -> forall a b, OK h (Shutdown v how, a) /\ OK (h ++ [(Shutdown v how, a)]) (Close v, b) /\ Q (h ++ [(Shutdown v how, a); (Close v, b)]) (-1)) ->
  wp OK h ('(x, _) <~ fd_close_ how (Some v) stale ;; match x with Some x => Ret x | None => Bad end) Q.
Proof.
  intros OK h how v Q H1 H2. unfold fd_close_. destruct (Z.eqb_spec v (-1)) as [->|N]; cbn [pbind]; [apply wp_ret; auto|]. specialize (H2 N).
  unfold tryshutdown, tryclose, sys1. cbn [pbind]. apply wp_do. intros a _. split; [apply (H2 a a)|]. cbn [pbind].
  assert (G : forall b, OK (h ++ [(Shutdown v how, a)]) (Close v, b) /\ wp OK ((h ++ [(Shutdown v how, a)]) ++ [(Close v, b)]) (Ret (-1)) Q).
  { intros b. destruct (H2 a b) as (_ & A & B). split; auto. apply wp_ret. rewrite <- app_assoc. exact B. }
  destruct (ret a =? 0); cbn [pbind]; apply wp_do; intros b _; (split; [apply G|]); cbn [pbind]; destruct (ret b =? 0); cbn [pbind]; apply G.
Qed.
Lemma wp_shut_r : forall (OK : trace -> event -> Prop) h v (Q : trace -> Z -> Prop),
  (v = -1 -> Q h (-1)) ->
  (v <> -1 -> forall a b, OK h (Shutdown v 0, a) /\ OK (h ++ [(Shutdown v 0, a)]) (Close v, b) /\ Q (h ++ [(Shutdown v 0, a); (Close v, b)]) (-1)) ->
  wp OK h (shut_r v) Q.
Proof. intros. unfold shut_r, fd_close_read. apply wp_shut; auto. Qed.
Lemma wp_shut_w : forall (OK : trace -> event -> Prop) h v (Q : trace -> Z -> Prop),
  (v = -1 -> Q h (-1)) ->
  (v <> -1 -> forall a b, OK h (Shutdown v 1, a) /\ OK (h ++ [(Shutdown v 1, a)]) (Close v, b) /\ Q (h ++ [(Shutdown v 1, a); (Close v, b)]) (-1)) ->
  wp OK h (shut_w v) Q.
Proof. intros. unfold shut_w, fd_close_write. apply wp_shut; auto. Qed.
Lemma wp_alarm : forall (OK : trace -> event -> Prop) h t (Q : trace -> unit -> Prop),
  (forall a, OK h (Other (bs "alarm") [t] [], a) /\ Q (h ++ [(Other (bs "alarm") [t] [], a)]) tt) -> wp OK h (alarm t) Q.
Proof. intros OK h t Q H. unfold alarm, sys1. cbn [pbind]. apply wp_do. intros a _. destruct (H a). split; auto. cbn [pbind]. apply wp_ret. auto. Qed.

(** ** Buffers *)
Lemma firstn_add : forall A n m (l : list A), firstn (n + m) l = firstn n l ++ firstn m (skipn n l).
Proof. induction n as [|n IH]; intros m l; [reflexivity|]. destruct l as [|x l]; [rewrite !firstn_nil; reflexivity|]. cbn [Nat.add firstn skipn app]. rewrite IH. reflexivity. Qed.
Definition content (b : rbuf) : list Z := firstn (Z.to_nat (fill b)) (mem b).
Definition bufok (N : Z) (b : rbuf) : Prop := len (mem b) = N /\ 0 <= fill b <= N.
Lemma content_len : forall N b, bufok N b -> len (content b) = fill b.
Proof. intros N b [H1 H2]. unfold content, len in *. rewrite firstn_length. lia. Qed.
Lemma append_ok : forall N b r d, bufok N b -> N <= CHUNK -> len d = r -> fill b + r <= N -> bufok N (append b r d) /\ content (append b r d) = content b ++ d.
Proof.
  intros N b r d [H1 H2] C L F. pose proof (len_nonneg _ d). assert (U : u64 (fill b + r) = fill b + r) by (unfold u64, two64, CHUNK in *; apply Z.mod_small; lia).
  assert (FL : length (firstn (Z.to_nat (fill b)) (mem b)) = Z.to_nat (fill b)) by (rewrite firstn_length; unfold len in H1; lia).
  split.
  - unfold bufok, append. cbn [mem fill]. rewrite U. split; [|lia]. unfold len in *. rewrite !app_length, FL, skipn_length. lia.
  - unfold content, append. cbn [mem fill]. rewrite U. rewrite app_assoc, firstn_app, app_length, FL. unfold len in L.
    replace (Z.to_nat (fill b + r) - (Z.to_nat (fill b) + length d))%nat with 0%nat by lia. cbn [firstn]. rewrite app_nil_r. apply firstn_all2. rewrite app_length, FL. lia.
Qed.
Lemma consume_ok : forall N b r, bufok N b -> N <= CHUNK -> 0 <= r <= fill b -> exists b', consume b r = Ok b' /\ bufok N b' /\ content b = firstn (Z.to_nat r) (content b) ++ content b' /\ fill b' = fill b - r.
Proof.
  intros N b r [H1 H2] C R. assert (U : u64 (fill b - r) = fill b - r) by (unfold u64, two64, CHUNK in *; apply Z.mod_small; lia).
  unfold consume. rewrite U. replace ((r <? 0) || (len (mem b) <? r + (fill b - r))) with false by lia. eexists. split; [reflexivity|].
  assert (FL : length (firstn (Z.to_nat (fill b - r)) (skipn (Z.to_nat r) (mem b))) = Z.to_nat (fill b - r)) by (rewrite firstn_length, skipn_length; unfold len in H1; lia).
  split; [|split; [|reflexivity]].
  - unfold bufok. cbn [mem fill]. split; [|lia]. unfold len in *. rewrite app_length, FL, skipn_length. lia.
  - unfold content. cbn [mem fill]. rewrite firstn_app, FL, Nat.sub_diag. cbn [firstn]. rewrite app_nil_r. rewrite (firstn_all2 (n := Z.to_nat (fill b - r)) (firstn _ _)) by (rewrite FL; lia).
    rewrite firstn_firstn. replace (Nat.min (Z.to_nat r) (Z.to_nat (fill b))) with (Z.to_nat r) by lia.
    replace (Z.to_nat (fill b)) with (Z.to_nat r + Z.to_nat (fill b - r))%nat by lia. apply firstn_add.
Qed.
