(** Lemmas about buffer.c. *)
From Verif.Model Require Import Base Sys Io Str Buffer.
From Verif.Spec Require Import Stream.
From Verif.Proof Require Import Tac SysP IoP HostportP StrP FrameP.

Lemma firstn_cat : forall A (x : list A) a k, (a <= length x)%nat ->
  firstn a x ++ firstn k (skipn a x) = firstn (a + k) x.
Proof.
  intros A x a k L. rewrite <- (firstn_skipn a x) at 3. rewrite firstn_app, firstn_firstn, firstn_length.
  replace (Init.Nat.min (a + k) a) with a by lia. f_equal. f_equal. lia.
Qed.

(** ** Output *)

Definition giveup (tr : trace) : Prop :=
  exists t fd b a, tr = t ++ [(Write fd b, a)] /\ ret a = -1 /\ err a <> 4.

Lemma allwrite_ok : forall fuel fd x xlen tr o,
  runs (allwrite fuel fd x xlen) tr o -> legal tr -> xlen <= len x ->
  match o with
  | Wrong => False
  | Cut => exists k, sent fd tr = firstn k x /\ Z.of_nat k <= Z.max 0 xlen
  | Fin Good => sent fd tr = firstn (Z.to_nat xlen) x
  | Fin (Fail e) => (exists k, sent fd tr = firstn k x /\ Z.of_nat k < xlen) /\ giveup tr
  end.
Proof.
  induction fuel as [|fuel IH]; intros fd x xlen tr o R Lg Lx; cbn [allwrite] in R.
  { destruct R as [-> ->]. cbn [sent]. exists O. split; [reflexivity|lia]. }
  destruct (Z.ltb_spec 0 xlen) as [P|P].
  2:{ destruct R as [-> ->]. cbn [sent]. replace (Z.to_nat xlen) with O by lia. reflexivity. }
  set (n := if BUFSIZE <? xlen then BUFSIZE else xlen) in *.
  assert (N : 0 < n <= xlen) by (unfold n, BUFSIZE; destruct (Z.ltb_spec 8192 xlen); lia).
  destruct (Z.ltb_spec (len x) n); [lia|].
  destruct R as [[-> ->]|(a & tr' & -> & R)].
  { cbn [sent]. exists O. split; [reflexivity|lia]. }
  apply legal_cons in Lg as [A Lg]. cbn [sys_ok] in A. cbn [sent]. rewrite Z.eqb_refl.
  destruct (Z.eqb_spec (ret a) (-1)) as [Z0|Z0].
  - rewrite Z0. change (Z.to_nat (-1)) with O. rewrite firstn_O. cbn [app].
    destruct (Z.eqb_spec (err a) EINTR) as [T|T].
    + specialize (IH fd x xlen tr' o R Lg Lx). destruct o as [[|e]| |]; auto.
      destruct IH as [I1 (t & fd' & b & a' & -> & I2)]. split; auto.
      exists ((Write fd (firstn (Z.to_nat n) x), a) :: t), fd', b, a'. split; auto.
    + destruct R as [-> ->]. cbn [sent]. split; [exists O; split; [reflexivity|lia]|].
      exists [], fd, (firstn (Z.to_nat n) x), a. auto.
  - destruct A as [A|A]; [lia|].
    assert (Rn : ret a <= n). { unfold len in *. rewrite firstn_length in A. lia. }
    assert (Lx' : xlen - ret a <= len (skipn (Z.to_nat (ret a)) x)).
    { unfold len in *. rewrite skipn_length. lia. }
    rewrite firstn_firstn. replace (Init.Nat.min (Z.to_nat (ret a)) (Z.to_nat n)) with (Z.to_nat (ret a)) by lia.
    specialize (IH _ _ _ _ _ R Lg Lx').
    assert (La : (Z.to_nat (ret a) <= length x)%nat) by (unfold len in *; lia).
    destruct o as [[|e]| |]; auto.
    + rewrite IH, firstn_cat by assumption. f_equal. lia.
    + destruct IH as [(k & I1 & I3) (t & fd' & b & a' & -> & I2)]. split.
      * exists (Z.to_nat (ret a) + k)%nat. rewrite I1, firstn_cat by assumption. split; [reflexivity|lia].
      * exists ((Write fd (firstn (Z.to_nat n) x), a) :: t), fd', b, a'. split; auto.
    + destruct IH as (k & I1 & I3).
      exists (Z.to_nat (ret a) + k)%nat. rewrite I1, firstn_cat by assumption. split; [reflexivity|lia].
Qed.

Definition winv (s : buffer) : Prop := 0 <= bp s <= bn s /\ bn s <= len (bx s).
Definition pending (s : buffer) : list Z := firstn (Z.to_nat (bp s)) (bx s).

Lemma pending_len : forall s, winv s -> len (pending s) = bp s.
Proof. intros s [W1 W2]. unfold pending, len in *. rewrite firstn_length. lia. Qed.

Lemma copyin_ok : forall d p x n, 0 <= p -> 0 <= n -> p + n <= len d -> n <= len x ->
  exists d', copyin d p x n = Ok d' /\ len d' = len d /\
    firstn (Z.to_nat (p + n)) d' = firstn (Z.to_nat p) d ++ firstn (Z.to_nat n) x /\
    firstn (Z.to_nat p) d' = firstn (Z.to_nat p) d /\ skipn (Z.to_nat (p + n)) d' = skipn (Z.to_nat (p + n)) d.
Proof.
  intros d p x n P N D X. unfold copyin. destruct (Z.leb_spec n 0).
  - exists d. replace n with 0 by lia. rewrite Z.add_0_r. change (Z.to_nat 0) with O. rewrite firstn_O, app_nil_r. auto.
  - replace ((p <? 0) || (len d <? p + n) || (len x <? n)) with false by lia.
    eexists. split; [reflexivity|]. unfold len in *.
    assert (L1 : length (firstn (Z.to_nat p) d) = Z.to_nat p) by (rewrite firstn_length; lia).
    assert (L2 : length (firstn (Z.to_nat n) x) = Z.to_nat n) by (rewrite firstn_length; lia).
    assert (L3 : length (firstn (Z.to_nat p) d ++ firstn (Z.to_nat n) x) = Z.to_nat (p + n)) by (rewrite app_length; lia).
    split; [rewrite !app_length, L1, L2, skipn_length; lia|]. split; [|split].
    + rewrite app_assoc, firstn_app, L3, Nat.sub_diag, firstn_O, app_nil_r. rewrite <- L3. apply firstn_all.
    + rewrite firstn_app, L1, Nat.sub_diag, firstn_O, app_nil_r. rewrite firstn_firstn. f_equal. lia.
    + rewrite app_assoc, skipn_app, L3, Nat.sub_diag. rewrite <- L3 at 1. rewrite skipn_all. reflexivity.
Qed.

Lemma flush_ok : forall fuel s tr o, runs (buffer_flush fuel s) tr o -> legal tr -> winv s ->
  match o with
  | Wrong => False
  | Cut => is_prefix (sent (bfd s) tr) (pending s)
  | Fin (Good, s') => sent (bfd s) tr = pending s /\ s' = mkbuf (bx s) 0 (bn s) (bfd s)
  | Fin (Fail e, s') => s' = s /\ is_prefix (sent (bfd s) tr) (pending s) /\ giveup tr
  end.
Proof.
  intros fuel s tr o R L W. destruct W as [W1 W2]. unfold buffer_flush in R.
  assert (FX : forall k, Z.of_nat k <= bp s -> is_prefix (firstn k (bx s)) (pending s)).
  { intros k K. unfold pending. replace (firstn k (bx s)) with (firstn k (firstn (Z.to_nat (bp s)) (bx s))).
    - apply is_prefix_firstn.
    - rewrite firstn_firstn. f_equal. lia. }
  apply runs_bind in R as [(c & t1 & t2 & -> & R1 & R2)|[[R1 ->]|[R1 ->]]].
  - apply legal_app in L as [L1 L2]. pose proof (allwrite_ok _ _ _ _ _ _ R1 L1 ltac:(lia)) as H.
    destruct c as [|e]; destruct R2 as [-> ->]; rewrite app_nil_r.
    + split; auto.
    + destruct H as [(k & -> & K) G]. split; auto. split; auto. apply FX. lia.
  - exact (allwrite_ok _ _ _ _ _ _ R1 L ltac:(lia)).
  - destruct (allwrite_ok _ _ _ _ _ _ R1 L ltac:(lia)) as (k & -> & K). apply FX. lia.
Qed.

(** Outcome of an output operation on [s] whose argument is [arg]. *)
Definition put_post (s : buffer) (arg : list Z) (tr : trace) (o : outcome (rc * buffer)) : Prop :=
  match o with
  | Wrong => False
  | Cut => is_prefix (sent (bfd s) tr) (pending s ++ arg)
  | Fin (Good, s') => sent (bfd s) tr ++ pending s' = pending s ++ arg /\ winv s' /\ bn s' = bn s /\ bfd s' = bfd s
  | Fin (Fail e, s') => is_prefix (sent (bfd s) tr) (pending s ++ arg) /\ giveup tr /\ winv s' /\ bn s' = bn s
  end.

Lemma firstn_le_prefix : forall k (m e : list Z), (k <= length m)%nat -> is_prefix (firstn k (m ++ e)) m.
Proof.
  intros. rewrite firstn_app. replace (k - length m)%nat with O by lia. rewrite firstn_O, app_nil_r. apply is_prefix_firstn.
Qed.
Lemma firstn_app_exact : forall (m e : list Z), firstn (length m) (m ++ e) = m.
Proof. intros. rewrite firstn_app, Nat.sub_diag, firstn_O, app_nil_r. apply firstn_all. Qed.

Lemma put_tail_ok : forall fuel s m extra tr o, runs (buffer_put_tail fuel s (m ++ extra) (len m)) tr o -> legal tr -> winv s ->
  (bn s <= len m -> bp s = 0) -> (len m < bn s -> bp s + len m <= bn s) ->
  put_post s m tr o.
Proof.
  intros fuel s m extra tr o R L [W1 W2] H0 HF. unfold buffer_put_tail in R. pose proof (len_nonneg _ m). pose proof (len_nonneg _ extra).
  destruct (Z.leb_spec (bn s) (len m)) as [B|B].
  - assert (PE : pending s = []) by (unfold pending; rewrite (H0 B); reflexivity).
    assert (LX : len m <= len (m ++ extra)) by (rewrite len_app; lia).
    apply runs_bind in R as [(c & t1 & t2 & -> & R1 & R2)|[[R1 ->]|[R1 ->]]].
    + destruct R2 as [-> ->]. rewrite app_nil_r in *. pose proof (allwrite_ok _ _ _ _ _ _ R1 L LX) as H2.
      destruct c as [|e]; cbn [put_post].
      * rewrite H2, PE, app_nil_r. cbn [app]. unfold len. rewrite Nat2Z.id, firstn_app_exact. split; auto. split; [split; assumption|auto].
      * destruct H2 as [(k & -> & K) G]. split; [|split; [exact G|split; [split; assumption|reflexivity]]]. rewrite PE. cbn [app]. apply firstn_le_prefix. unfold len in K. lia.
    + exact (allwrite_ok _ _ _ _ _ _ R1 L LX).
    + destruct (allwrite_ok _ _ _ _ _ _ R1 L LX) as (k & E & K). cbn [put_post]. rewrite E, PE. cbn [app]. apply firstn_le_prefix. unfold len in *. lia.
  - specialize (HF B). destruct (copyin_ok (bx s) (bp s) (m ++ extra) (len m)) as (d & E & D1 & D2 & D3 & D4); try lia; [rewrite len_app; lia|].
    rewrite E in R. cbn [lift pbind] in R. destruct R as [-> ->]. cbn [put_post sent app]. unfold pending at 1. cbn [bp bx bn bfd].
    rewrite D2. unfold len at 1. rewrite Nat2Z.id, firstn_app_exact. split; [reflexivity|]. split; [split; cbn [bp bn bx]; lia|auto].
Qed.

Lemma put_ok : forall fuel s m extra tr o, runs (buffer_put fuel s (m ++ extra) (len m)) tr o -> legal tr -> winv s ->
  put_post s m tr o.
Proof.
  intros fuel s m extra tr o R L W. pose proof W as [W1 W2]. unfold buffer_put in R. pose proof (len_nonneg _ m).
  destruct (Z.ltb_spec (len m) 0); [lia|]. pose proof (len_nonneg _ extra).
  destruct (Z.ltb_spec (bn s - bp s) (len m)) as [B|B].
  2:{ apply (put_tail_ok fuel s m extra); auto; lia. }
  destruct (copyin_ok (bx s) (bp s) (m ++ extra) (bn s - bp s)) as (d & E & D1 & D2 & D3 & D4); try lia; [rewrite len_app; lia|].
  rewrite E in R. cbn [lift pbind] in R.
  replace (bp s + (bn s - bp s)) with (bn s) in * by lia.
  set (k := Z.to_nat (bn s - bp s)) in *.
  assert (K : (k <= length m)%nat) by (unfold k, len in *; lia).
  assert (FK : firstn k (m ++ extra) = firstn k m).
  { rewrite firstn_app. replace (k - length m)%nat with O by lia. rewrite firstn_O, app_nil_r. reflexivity. }
  assert (SK : skipn k (m ++ extra) = skipn k m ++ extra).
  { rewrite skipn_app. replace (k - length m)%nat with O by lia. reflexivity. }
  set (s1 := mkbuf d (bn s) (bn s) (bfd s)) in *.
  assert (W' : winv s1) by (split; cbn; lia).
  assert (PD : pending s1 = pending s ++ firstn k m).
  { unfold pending at 1, s1. cbn [bp bx]. rewrite D2, FK. reflexivity. }
  assert (PM : pending s ++ m = pending s1 ++ skipn k m).
  { rewrite PD, <- app_assoc, firstn_skipn. reflexivity. }
  unfold put_post. rewrite PM.
  apply runs_bind in R as [([c s2] & t1 & t2 & -> & R1 & R2)|[[R1 ->]|[R1 ->]]].
  - apply legal_app in L as [L1 L2]. pose proof (flush_ok _ _ _ _ R1 L1 W') as H2. cbn [bfd s1] in H2. destruct c as [|e].
    + destruct H2 as [S1 ->]. unfold s1 in R2. cbn [bx bn bfd] in R2. rewrite SK in R2.
      replace (len m - (bn s - bp s)) with (len (skipn k m)) in R2 by (unfold k, len in *; rewrite skipn_length; lia).
      pose proof (put_tail_ok _ _ _ _ _ _ R2 L2) as H3. cbn [bp bn bx bfd] in H3.
      assert (WW : winv (mkbuf d 0 (bn s) (bfd s))) by (split; cbn; lia).
      specialize (H3 WW ltac:(lia) ltac:(lia)). unfold put_post in H3. cbn [bfd bn] in H3. unfold pending at 2 in H3. cbn [bp bx] in H3.
      change (firstn (Z.to_nat 0) d) with (@nil Z) in H3. cbn [app] in H3. rewrite sent_app, S1.
      destruct o as [[[|e] s3]| |]; auto.
      * destruct H3 as (H3 & H4). rewrite <- app_assoc, H3. auto.
      * destruct H3 as (H3 & (t & fd' & b & a & -> & G) & W3). split; [apply is_prefix_app2; exact H3|]. split; [|exact W3]. exists (t1 ++ t), fd', b, a. rewrite app_assoc. auto.
      * apply is_prefix_app2. exact H3.
    + destruct R2 as [-> ->]. rewrite app_nil_r. destruct H2 as (-> & H3 & H4). split; [apply is_prefix_app; auto|]. auto.
  - exact (flush_ok _ _ _ _ R1 L W').
  - apply is_prefix_app. exact (flush_ok _ _ _ _ R1 L W').
Qed.

Lemma putflush_ok : forall fuel s m extra tr o, runs (buffer_putflush fuel s (m ++ extra) (len m)) tr o -> legal tr -> winv s ->
  put_post s m tr o /\ (forall s', o = Fin (Good, s') -> bp s' = 0).
Proof.
  intros fuel s m extra tr o R L W. unfold buffer_putflush in R. pose proof (len_nonneg _ m). pose proof (len_nonneg _ extra).
  destruct (Z.ltb_spec (len m) 0); [lia|].
  apply runs_bind in R as [([c s2] & t1 & t2 & -> & R1 & R2)|[[R1 ->]|[R1 ->]]].
  - apply legal_app in L as [L1 L2]. pose proof (flush_ok _ _ _ _ R1 L1 W) as H2. destruct c as [|e].
    + destruct H2 as [S1 ->]. cbn [bfd] in R2. unfold put_post. rewrite sent_app, S1.
      assert (LX : len m <= len (m ++ extra)) by (rewrite len_app; lia).
      apply runs_bind in R2 as [(c & u1 & u2 & -> & T1 & T2)|[[T1 ->]|[T1 ->]]].
      * destruct T2 as [-> ->]. rewrite app_nil_r in *. pose proof (allwrite_ok _ _ _ _ _ _ T1 L2 LX) as H3. destruct c as [|e].
        -- split; [|intros s' E; inv E; reflexivity]. unfold len in H3. rewrite Nat2Z.id, firstn_app_exact in H3. rewrite ?app_nil_r, H3.
           cbn [bp bx bn bfd].
           destruct W as [W1 W2]. split; auto. split; auto. split; cbn; lia.
        -- rewrite ?app_nil_r. destruct H3 as [(k & -> & K) (t & fd' & b & a & -> & G)]. split; [|discriminate]. split.
           ++ apply is_prefix_app2, firstn_le_prefix. unfold len in K. lia.
           ++ split; [exists (t1 ++ t), fd', b, a; rewrite app_assoc; auto|]. destruct W. split; [split; cbn; lia|reflexivity].
      * destruct (allwrite_ok _ _ _ _ _ _ T1 L2 LX).
      * destruct (allwrite_ok _ _ _ _ _ _ T1 L2 LX) as (k & -> & K). split; [|discriminate]. apply is_prefix_app2, firstn_le_prefix. unfold len in K. lia.
    + destruct R2 as [-> ->]. rewrite app_nil_r. destruct H2 as (-> & H3 & H4). split; [|discriminate]. split; [apply is_prefix_app; auto|]. auto.
  - destruct (flush_ok _ _ _ _ R1 L W).
  - split; [|discriminate]. apply is_prefix_app. exact (flush_ok _ _ _ _ R1 L W).
Qed.

Lemma putc_ok : forall fuel s c tr o, runs (buffer_PUTC fuel s c) tr o -> legal tr -> winv s -> put_post s [c] tr o.
Proof.
  intros fuel s c tr o R L W. unfold buffer_PUTC in R. destruct (Z.eqb_spec (bn s) (bp s)) as [E|E]; cbn [negb] in R.
  - apply (put_ok fuel s [c] []); auto.
  - destruct W as [W1 W2]. destruct (copyin_ok (bx s) (bp s) [c] 1) as (d & Ed & D1 & D2 & D3 & D4); try lia. { rewrite len_cons, len_nil. lia. }
    rewrite Ed in R. cbn [lift pbind] in R. destruct R as [-> ->]. cbn [put_post sent app]. unfold pending at 1. cbn [bp bx bn bfd].
    rewrite D2. split; [reflexivity|]. split; [split; cbn [bp bn bx]; lia|auto].
Qed.

(** Output operations *)
Inductive wop : Type :=
| Oput (x : list Z)
| Oputs (x : list Z)
| Oputc (c : Z)
| Oflush
| Oputflush (x : list Z)
| Oputsflush (x : list Z).
Definition wop_arg (o : wop) : list Z :=
  match o with Oput x | Oputs x | Oputflush x | Oputsflush x => x | Oputc c => [c] | Oflush => [] end.
Definition wop_wf (o : wop) : Prop :=
  match o with Oputs x | Oputsflush x => nonul x | _ => True end.
Definition wop_flushes (o : wop) : Prop :=
  match o with Oflush | Oputflush _ | Oputsflush _ => True | _ => False end.
Definition wop_run (fuel : nat) (s : buffer) (o : wop) : prog (rc * buffer) :=
  match o with
  | Oput x => buffer_put fuel s x (len x)
  | Oputs x => buffer_puts fuel s (x ++ [0])
  | Oputc c => buffer_PUTC fuel s c
  | Oflush => buffer_flush fuel s
  | Oputflush x => buffer_putflush fuel s x (len x)
  | Oputsflush x => buffer_putsflush fuel s (x ++ [0])
  end.
(** A caller that stops at the first failure. *)
Fixpoint wops (fuel : nat) (s : buffer) (l : list wop) : prog (rc * buffer) :=
  match l with
  | [] => Ret (Good, s)
  | x :: t => '(c, s') <~ wop_run fuel s x ;;
              match c with Good => wops fuel s' t | Fail e => Ret (Fail e, s') end
  end.

Lemma wop_ok : forall fuel s x tr o, runs (wop_run fuel s x) tr o -> legal tr -> winv s -> wop_wf x ->
  put_post s (wop_arg x) tr o /\ (wop_flushes x -> forall s', o = Fin (Good, s') -> bp s' = 0).
Proof.
  intros fuel s x tr o R L W F. destruct x; cbn [wop_run wop_arg wop_wf wop_flushes] in *.
  - split; [|tauto]. apply (put_ok fuel s x []); auto. rewrite app_nil_r. exact R.
  - split; [|tauto]. unfold buffer_puts in R. rewrite str_len_ok in R by assumption. cbn [lift pbind] in R. apply (put_ok fuel s x [0]); auto.
  - split; [|tauto]. apply (putc_ok fuel s c); auto.
  - pose proof (flush_ok _ _ _ _ R L W) as H. unfold put_post. rewrite app_nil_r. destruct o as [[[|e] s']| |].
    + destruct H as [-> ->]. split; [|intros _ s' E; inv E; reflexivity]. unfold pending at 2. cbn [bp bx bn bfd].
      change (firstn (Z.to_nat 0) (bx s)) with (@nil Z). rewrite app_nil_r. destruct W as [W1 W2]. split; auto. split; auto. split; cbn; lia.
    + destruct H as (-> & H). split; [tauto|discriminate].
    + destruct H.
    + split; [auto|discriminate].
  - destruct (putflush_ok fuel s x [] tr o) as [H1 H2]; auto. { rewrite app_nil_r. exact R. }
  - unfold buffer_putsflush in R. rewrite str_len_ok in R by assumption. cbn [lift pbind] in R.
    destruct (putflush_ok fuel s x [0] tr o) as [H1 H2]; auto.
Qed.

Lemma wops_ok : forall fuel l s tr o, runs (wops fuel s l) tr o -> legal tr -> winv s -> Forall wop_wf l ->
  put_post s (concat (map wop_arg l)) tr o.
Proof.
  intros fuel. induction l as [|x l IH]; intros s tr o R L W F; cbn [wops map concat] in *.
  - destruct R as [-> ->]. cbn [put_post sent app]. rewrite app_nil_r. auto.
  - apply Forall_cons_iff in F as [Fx F].
    apply runs_bind in R as [([c s2] & t1 & t2 & -> & R1 & R2)|[[R1 ->]|[R1 ->]]].
    + apply legal_app in L as [L1 L2]. destruct (wop_ok _ _ _ _ _ R1 L1 W Fx) as [H _]. destruct c as [|e].
      * destruct H as (H1 & H2 & H3 & H4). specialize (IH _ _ _ R2 L2 H2 F). unfold put_post in *. rewrite H4, H3 in *. rewrite sent_app.
        rewrite (app_assoc (pending s)), <- H1, <- app_assoc. destruct o as [[[|e] s3]| |]; auto.
        -- destruct IH as (I1 & I2). rewrite <- app_assoc, I1. auto.
        -- destruct IH as (I1 & (t & fd' & b & a & -> & G) & W3). split; [apply is_prefix_app2; auto|]. split; [|exact W3]. exists (t1 ++ t), fd', b, a. rewrite app_assoc. auto.
        -- apply is_prefix_app2. auto.
      * destruct R2 as [-> ->]. rewrite app_nil_r. unfold put_post in *. destruct H as (Ha & Hb & Hc). split; auto. rewrite app_assoc. apply is_prefix_app. auto.
    + destruct (wop_ok _ _ _ _ _ R1 L W Fx) as [H _]. exact H.
    + destruct (wop_ok _ _ _ _ _ R1 L W Fx) as [H _]. unfold put_post in *. rewrite app_assoc. apply is_prefix_app. auto.
Qed.

(** All writes go to the buffer's descriptor. *)
Definition only (fd : Z) (tr : trace) : Prop :=
  forall e, In e tr -> match e with (Write f _, _) => f = fd | _ => True end.
Lemma only_app : forall fd a b, only fd a -> only fd b -> only fd (a ++ b).
Proof. intros fd a b A B e H. apply in_app_or in H as [H|H]; [apply (A e H)|apply (B e H)]. Qed.
Lemma allwrite_fd : forall f fd x n t o, runs (allwrite f fd x n) t o -> only fd t.
Proof.
  induction f as [|f IH]; intros fd x n t o R; cbn [allwrite] in R; [destruct R as [-> _]; intros e []|].
  destruct (0 <? n); [|destruct R as [-> _]; intros e []].
  destruct (len x <? (if BUFSIZE <? n then BUFSIZE else n)); [destruct R as [-> _]; intros e []|].
  destruct R as [[-> _]|(a & t' & -> & R)]; [intros e []|]. intros e [<-|H]; [reflexivity|].
  revert e H. change (only fd t'). destruct (ret a =? -1); [destruct (err a =? EINTR); [eapply IH; exact R|destruct R as [-> _]; intros e []]|eapply IH; exact R].
Qed.
Lemma flush_fd : forall f s t o, runs (buffer_flush f s) t o -> only (bfd s) t /\ forall c s', o = Fin (c, s') -> bfd s' = bfd s.
Proof.
  intros f s t o R. unfold buffer_flush in R.
  apply runs_bind in R as [(c & u1 & u2 & -> & S1 & S2)|[[S1 ->]|[S1 ->]]]; try (split; [eapply allwrite_fd; exact S1|discriminate]).
  destruct c; destruct S2 as [-> ->]; rewrite app_nil_r; (split; [eapply allwrite_fd; exact S1|intros c' s' E; inv E; reflexivity]).
Qed.
Lemma put_tail_fd : forall f s x n t o, runs (buffer_put_tail f s x n) t o -> only (bfd s) t /\ forall c s', o = Fin (c, s') -> bfd s' = bfd s.
Proof.
  intros f s x n t o R. unfold buffer_put_tail in R. destruct (bn s <=? n).
  - apply runs_bind in R as [(c & u1 & u2 & -> & S1 & S2)|[[S1 ->]|[S1 ->]]]; try (split; [eapply allwrite_fd; exact S1|discriminate]).
    destruct S2 as [-> ->]. rewrite app_nil_r. split; [eapply allwrite_fd; exact S1|intros c' s' E; inv E; reflexivity].
  - destruct (copyin (bx s) (bp s) x n); cbn [lift pbind] in R; destruct R as [-> ->]; (split; [intros e []|]); try discriminate.
    intros c' s' E; inv E; reflexivity.
Qed.
Lemma put_fd : forall f s x n t o, runs (buffer_put f s x n) t o -> only (bfd s) t /\ forall c s', o = Fin (c, s') -> bfd s' = bfd s.
Proof.
  intros f s x n t o R. unfold buffer_put in R. destruct (n <? 0); [destruct R as [-> ->]; split; [intros e []|intros c' s' E; inv E; reflexivity]|].
  destruct (bn s - bp s <? n); [|eapply put_tail_fd; exact R].
  destruct (copyin (bx s) (bp s) x (bn s - bp s)); cbn [lift pbind] in R; try (destruct R as [-> ->]; split; [intros e []|discriminate]).
  apply runs_bind in R as [([c s1] & u1 & u2 & -> & S1 & S2)|[[S1 ->]|[S1 ->]]]; try (split; [apply (flush_fd _ _ _ _ S1)|discriminate]).
  destruct (flush_fd _ _ _ _ S1) as [F1 F2]. specialize (F2 _ _ eq_refl). cbn [bfd] in *. destruct c.
  - destruct (put_tail_fd _ _ _ _ _ _ S2) as [F3 F4]. rewrite F2 in *. split; [apply only_app; auto|exact F4].
  - destruct S2 as [-> ->]. rewrite app_nil_r. split; auto. intros c' s' E. inv E. auto.
Qed.
Lemma putflush_fd : forall f s x n t o, runs (buffer_putflush f s x n) t o -> only (bfd s) t /\ forall c s', o = Fin (c, s') -> bfd s' = bfd s.
Proof.
  intros f s x n t o R. unfold buffer_putflush in R. destruct (n <? 0); [destruct R as [-> ->]; split; [intros e []|intros c' s' E; inv E; reflexivity]|].
  apply runs_bind in R as [([c s1] & u1 & u2 & -> & S1 & S2)|[[S1 ->]|[S1 ->]]]; try (split; [apply (flush_fd _ _ _ _ S1)|discriminate]).
  destruct (flush_fd _ _ _ _ S1) as [F1 F2]. specialize (F2 _ _ eq_refl). destruct c.
  - apply runs_bind in S2 as [(c & v1 & v2 & -> & T1 & T2)|[[T1 ->]|[T1 ->]]]; rewrite F2 in *;
      try (split; [apply only_app; [auto|eapply allwrite_fd; exact T1]|discriminate]).
    destruct T2 as [-> ->]. rewrite app_nil_r. split; [apply only_app; [auto|eapply allwrite_fd; exact T1]|].
    intros c' s' E. inv E. auto.
  - destruct S2 as [-> ->]. rewrite app_nil_r. split; auto. intros c' s' E. inv E. auto.
Qed.
Lemma wop_fd : forall f s x t o, runs (wop_run f s x) t o -> only (bfd s) t /\ forall c s', o = Fin (c, s') -> bfd s' = bfd s.
Proof.
  intros f s x t o R. destruct x; cbn [wop_run] in R.
  - eapply put_fd; exact R.
  - unfold buffer_puts in R. destruct (str_len (x ++ [0])); cbn [lift pbind] in R; [eapply put_fd; exact R| |];
      destruct R as [-> ->]; (split; [intros e []|discriminate]).
  - unfold buffer_PUTC in R. destruct (negb (bn s =? bp s)); [|eapply put_fd; exact R].
    destruct (copyin (bx s) (bp s) [c] 1); cbn [lift pbind] in R; destruct R as [-> ->]; (split; [intros e []|]); try discriminate.
    intros c' s' E; inv E; reflexivity.
  - eapply flush_fd; exact R.
  - eapply putflush_fd; exact R.
  - unfold buffer_putsflush in R. destruct (str_len (x ++ [0])); cbn [lift pbind] in R; [eapply putflush_fd; exact R| |];
      destruct R as [-> ->]; (split; [intros e []|discriminate]).
Qed.
Lemma wops_fd : forall f l s t o, runs (wops f s l) t o -> only (bfd s) t.
Proof.
  intros f. induction l as [|x l IH]; intros s t o R; cbn [wops] in R; [destruct R as [-> _]; intros e []|].
  apply runs_bind in R as [([c s1] & u1 & u2 & -> & S1 & S2)|[[S1 ->]|[S1 ->]]]; try apply (wop_fd _ _ _ _ _ S1).
  destruct (wop_fd _ _ _ _ _ S1) as [F1 F2]. specialize (F2 _ _ eq_refl). apply only_app; auto.
  destruct c; [rewrite <- F2; eapply IH; exact S2|destruct S2 as [-> _]; intros ? []].
Qed.

(** ** Input *)

Definition rinv (size : Z) (s : buffer) : Prop :=
  0 <= bp s /\ 0 <= bn s /\ bp s + bn s = size /\ size <= len (bx s).
Definition window (s : buffer) : list Z := firstn (Z.to_nat (bp s)) (skipn (Z.to_nat (bn s)) (bx s)).

Lemma window_len : forall size s, rinv size s -> length (window s) = Z.to_nat (bp s).
Proof. intros size s (A & B & C & D). unfold window, len in *. rewrite firstn_length, skipn_length. lia. Qed.

(** The run ends with a read that asked for at least one byte and returned [r]. *)
Definition lastread (fd r : Z) (tr : trace) : Prop :=
  exists t n a, tr = t ++ [(Read fd n, a)] /\ 0 < n /\ ret a = r.

Lemma oneread_ok : forall fuel fd avail xlen tr o, runs (oneread fuel fd avail xlen) tr o -> legal tr -> 0 <= xlen <= avail ->
  match o with
  | Wrong => False
  | Cut => got fd tr = []
  | Fin (r, e, b) => got fd tr = b /\ len b = Z.max 0 r /\ -1 <= r <= xlen /\ (0 < xlen -> lastread fd r tr)
  end.
Proof.
  induction fuel as [|fuel IH]; intros fd avail xlen tr o R L X; cbn [oneread] in R.
  { destruct R as [-> ->]. reflexivity. }
  set (n := if BUFSIZE <? xlen then BUFSIZE else xlen) in *.
  assert (N : 0 <= n <= xlen) by (unfold n, BUFSIZE; destruct (Z.ltb_spec 8192 xlen); lia).
  assert (N1 : 0 < xlen -> 0 < n) by (unfold n, BUFSIZE; destruct (Z.ltb_spec 8192 xlen); lia).
  replace ((n <? 0) || (avail <? n)) with false in R by lia.
  destruct R as [[-> ->]|(a & tr' & -> & R)]; [reflexivity|].
  apply legal_cons in L as [A L]. cbn [sys_ok] in A. cbn [got]. rewrite Z.eqb_refl.
  destruct ((ret a =? -1) && (err a =? EINTR)) eqn:E.
  - assert (data a = []) as ->.
    { destruct A as [[_ A]|(A & _)]; auto. lia. }
    specialize (IH _ _ _ _ _ R L ltac:(lia)). destruct o as [[[r e] b]| |]; auto.
    destruct IH as (I1 & I2 & I3 & I4). cbn [app]. split; auto. split; auto. split; [lia|].
    intros P. destruct (I4 (N1 P)) as (t & n' & a' & -> & Q). exists ((Read fd n, a) :: t), n', a'. auto.
  - destruct R as [-> ->]. cbn [got]. rewrite app_nil_r. split; auto. destruct A as [[A ->]|(A & B & _)].
    + split; [rewrite len_nil; lia|]. split; [lia|]. intros P. exists [], n, a. auto.
    + split; [lia|]. split; [lia|]. intros P. exists [], n, a. auto.
Qed.

Lemma nth_error_ext : forall A (l m : list A), (forall k, nth_error l k = nth_error m k) -> l = m.
Proof.
  induction l as [|x l IH]; intros [|y m] H; auto.
  - specialize (H O). discriminate.
  - specialize (H O). discriminate.
  - f_equal; [specialize (H O); cbn in H; congruence|]. apply IH. intros k. exact (H (S k)).
Qed.
Lemma nth_error_upd : forall A (l : list A) i x k, nth_error (upd l i x) k =
  if (k =? i)%nat then (match nth_error l k with Some _ => Some x | None => None end) else nth_error l k.
Proof.
  induction l as [|y l IH]; intros [|i] x [|k]; cbn; auto.
  - destruct (k =? i)%nat; reflexivity.
Qed.
Lemma nth_error_skipn : forall A (l : list A) n k, nth_error (skipn n l) k = nth_error l (n + k).
Proof.
  induction l as [|y l IH]; intros [|n] k; cbn; auto. destruct k; reflexivity.
Qed.
Lemma nth_error_firstn : forall A (l : list A) n k, nth_error (firstn n l) k = if (k <? n)%nat then nth_error l k else None.
Proof.
  induction l as [|y l IH]; intros [|n] [|k]; cbn; auto.
  - destruct n; [|destruct (k <=? n)%nat]; reflexivity.
  - rewrite IH. reflexivity.
Qed.

Lemma shift_up_ok : forall r n x, 0 <= n -> n + Z.of_nat r <= len x ->
  exists x', shift_up r n x = Ok x' /\ length x' = length x /\
    (forall k, (k < r)%nat -> nth_error x' (Z.to_nat n + k) = nth_error x k) /\
    (forall k, (Z.to_nat n + r <= k)%nat -> nth_error x' k = nth_error x k).
Proof.
  induction r as [|i IH]; intros n x N L; cbn [shift_up].
  - exists x. repeat split; auto. lia.
  - unfold ld. destruct (nth_error x i) as [b|] eqn:E.
    2:{ apply nth_error_None in E. unfold len in L. lia. }
    cbn [bind]. unfold st. unfold len in L. destruct (Nat.ltb_spec (Z.to_nat (n + Z.of_nat i)) (length x)); [|lia]. cbn [bind].
    replace (Z.to_nat (n + Z.of_nat i)) with (Z.to_nat n + i)%nat in * by lia.
    destruct (IH n (upd x (Z.to_nat n + i) b) N) as (x' & -> & L1 & H1 & H2). { unfold len. rewrite upd_length. lia. }
    rewrite upd_length in L1. exists x'. split; auto. split; auto. split; intros k K.
    + destruct (Nat.eq_dec k i) as [->|D].
      * rewrite H2 by lia. rewrite nth_error_upd, Nat.eqb_refl, E.
        destruct (nth_error x (Z.to_nat n + i)) eqn:E2; auto. apply nth_error_None in E2. lia.
      * rewrite H1 by lia. rewrite nth_error_upd. destruct (Nat.eqb_spec k (Z.to_nat n + i)); [lia|reflexivity].
    + rewrite H2 by lia. rewrite nth_error_upd. destruct (Nat.eqb_spec k (Z.to_nat n + i)); [lia|reflexivity].
Qed.

Lemma feed_ok : forall fuel size s tr o, runs (buffer_feed fuel s) tr o -> legal tr -> rinv size s -> 0 < size ->
  match o with
  | Wrong => False
  | Cut => got (bfd s) tr = []
  | Fin (r, e, s') => rinv size s' /\ bfd s' = bfd s /\ window s ++ got (bfd s) tr = window s' /\
      (r <= 0 -> s' = s /\ bp s = 0 /\ got (bfd s) tr = [] /\ lastread (bfd s) r tr) /\
      (0 < r -> r = bp s')
  end.
Proof.
  intros fuel size s tr o R L (I1 & I2 & I3 & I4) SZ. unfold buffer_feed in R.
  destruct (Z.eqb_spec (bp s) 0) as [E|E]; cbn [negb] in R.
  2:{ destruct R as [-> ->]. cbn [got]. rewrite app_nil_r. split; [repeat split; assumption|]. split; auto. split; auto.
      split; [lia|auto]. }
  assert (WE : window s = []) by (unfold window; rewrite E; reflexivity).
  apply runs_bind in R as [([[r e] b] & t1 & t2 & -> & R1 & R2)|[[R1 ->]|[R1 ->]]].
  - apply legal_app in L as [L1 L2]. destruct (oneread_ok _ _ _ _ _ _ R1 L1 ltac:(lia)) as (G & B & RR & LR).
    specialize (LR ltac:(lia)). destruct (Z.leb_spec r 0).
    + destruct R2 as [-> ->]. rewrite app_nil_r. rewrite G, WE. assert (b = []) as ->.
      { destruct b; auto. rewrite len_cons in B. pose proof (len_nonneg _ b). lia. }
      cbn [app]. split; [repeat split; assumption|]. split; auto. split; auto. split; auto. lia.
    + destruct (copyin_ok (bx s) 0 b r) as (d & Ed & D1 & D2 & D3 & D4); try lia.
      rewrite Ed in R2. cbn [lift pbind] in R2. rewrite Z.add_0_l in *. change (firstn (Z.to_nat 0) (bx s)) with (@nil Z) in D2. cbn [app] in D2.
      rewrite (firstn_all2 b) in D2 by (unfold len in B; lia).
      assert (SH : exists x', (if 0 <? bn s - r then shift_up (Z.to_nat r) (bn s - r) d else Ok d) = Ok x' /\ len x' = len d /\
         firstn (Z.to_nat r) (skipn (Z.to_nat (bn s - r)) x') = b).
      { destruct (Z.ltb_spec 0 (bn s - r)).
        - destruct (shift_up_ok (Z.to_nat r) (bn s - r) d ltac:(lia)) as (x' & E' & L' & H1 & H2). { unfold len in *. lia. }
          exists x'. split; auto. split; [unfold len; lia|]. rewrite <- D2. apply nth_error_ext. intros k.
          rewrite !nth_error_firstn, nth_error_skipn. destruct (Nat.ltb_spec k (Z.to_nat r)); auto.
        - exists d. split; auto. split; auto. replace (Z.to_nat (bn s - r)) with O by lia. exact D2. }
      destruct SH as (x' & Ex & Lx & WX). rewrite Ex in R2. cbn [lift pbind] in R2. destruct R2 as [-> ->]. rewrite app_nil_r, G, WE. cbn [app bp bn bx bfd].
      split; [repeat split; cbn; lia|]. split; auto. split; [unfold window; cbn; auto|]. split; [lia|auto].
  - exact (oneread_ok _ _ _ _ _ _ R1 L ltac:(lia)).
  - exact (oneread_ok _ _ _ _ _ _ R1 L ltac:(lia)).
Qed.

Lemma getthis_ok : forall size s xlen, rinv size s -> 0 <= xlen ->
  exists b s', getthis s xlen = Ok (b, s') /\ rinv size s' /\ bfd s' = bfd s /\ b ++ window s' = window s /\
    len b = Z.min xlen (bp s) /\ bp s' = bp s - len b /\ bn s' = bn s + len b /\ bx s' = bx s.
Proof.
  intros size s xlen (I1 & I2 & I3 & I4) X. unfold getthis.
  set (k := if bp s <? xlen then bp s else xlen).
  assert (K : k = Z.min xlen (bp s)) by (unfold k; destruct (Z.ltb_spec (bp s) xlen); lia).
  unfold slice. destruct (Z.leb_spec k 0).
  - assert (k = 0) as -> by lia. cbn [bind]. do 2 eexists. split; [reflexivity|]. cbn [bp bn bx bfd app]. rewrite len_nil, Z.sub_0_r, Z.add_0_r.
    split; [repeat split; assumption|]. repeat split; auto; lia.
  - replace ((bn s <? 0) || (len (bx s) <? bn s + k)) with false by lia. cbn [bind]. do 2 eexists. split; [reflexivity|]. cbn [bp bn bx bfd].
    assert (LB : len (firstn (Z.to_nat k) (skipn (Z.to_nat (bn s)) (bx s))) = k).
    { unfold len in *. rewrite firstn_length, skipn_length. lia. }
    rewrite LB. split; [repeat split; cbn; lia|]. split; auto. split; [|repeat split; auto; lia].
    unfold window. cbn [bp bn bx].
    replace (Z.to_nat (bn s + k)) with (Z.to_nat (bn s) + Z.to_nat k)%nat by lia.
    rewrite <- skipn_skipn. rewrite firstn_cat by (unfold len in *; rewrite skipn_length; lia). f_equal. lia.
Qed.

Lemma get_ok : forall fuel size s xlen tr o, runs (buffer_get fuel s xlen) tr o -> legal tr -> rinv size s -> 0 < size -> 0 < xlen ->
  match o with
  | Wrong => False
  | Cut => got (bfd s) tr = []
  | Fin (r, e, b, s') => rinv size s' /\ bfd s' = bfd s /\ window s ++ got (bfd s) tr = b ++ window s' /\
      len b = Z.max 0 r /\ r <= xlen /\ (r <= 0 -> lastread (bfd s) r tr)
  end.
Proof.
  intros fuel size s xlen tr o R L I SZ X. pose proof I as (I1 & I2 & I3 & I4). unfold buffer_get in R.
  destruct (Z.ltb_spec xlen 0); [lia|]. destruct (Z.ltb_spec 0 (bp s)) as [P|P].
  { destruct (getthis_ok size s xlen I ltac:(lia)) as (b & s' & E & A1 & A2 & A3 & A4 & _). rewrite E in R. cbn [lift pbind] in R.
    destruct R as [-> ->]. cbn [got]. rewrite app_nil_r. split; auto. split; auto. split; auto. split; [lia|]. split; [lia|]. lia. }
  assert (WE : window s = []). { unfold window. replace (Z.to_nat (bp s)) with O by lia. reflexivity. }
  destruct (Z.leb_spec (bn s) xlen) as [B|B].
  { apply runs_bind in R as [([[r e] b] & t1 & t2 & -> & R1 & R2)|[[R1 ->]|[R1 ->]]].
    - destruct R2 as [-> ->]. rewrite app_nil_r in *. destruct (oneread_ok _ _ _ _ _ _ R1 L ltac:(lia)) as (G & LB & RR & LR).
      rewrite G, WE. rewrite app_nil_r. cbn [app]. repeat (split; auto). lia.
    - exact (oneread_ok _ _ _ _ _ _ R1 L ltac:(lia)).
    - exact (oneread_ok _ _ _ _ _ _ R1 L ltac:(lia)). }
  apply runs_bind in R as [([[r e] s1] & t1 & t2 & -> & R1 & R2)|[[R1 ->]|[R1 ->]]].
  - apply legal_app in L as [L1 L2]. destruct (feed_ok _ _ _ _ _ R1 L1 I SZ) as (J & F & W & H0 & H1).
    destruct (Z.leb_spec r 0) as [RL|RL].
    + destruct (H0 RL) as (-> & _ & G & LR). destruct R2 as [-> ->]. rewrite app_nil_r. rewrite G, app_nil_r. cbn [app].
      rewrite len_nil. repeat (split; auto); lia.
    + destruct (getthis_ok size s1 xlen J ltac:(lia)) as (b & s' & E & A1 & A2 & A3 & A4 & _). rewrite E in R2. cbn [lift pbind] in R2.
      destruct R2 as [-> ->]. rewrite app_nil_r. rewrite W, A3. split; auto. split; [congruence|]. split; auto.
      specialize (H1 RL). split; [lia|]. split; lia.
  - exact (feed_ok _ _ _ _ _ R1 L I SZ).
  - exact (feed_ok _ _ _ _ _ R1 L I SZ).
Qed.

Lemma getc_ok : forall fuel size s tr o, runs (buffer_GETC fuel s) tr o -> legal tr -> rinv size s -> 0 < size ->
  match o with
  | Wrong => False
  | Cut => got (bfd s) tr = []
  | Fin (r, e, b, s') => rinv size s' /\ bfd s' = bfd s /\ window s ++ got (bfd s) tr = b ++ window s' /\
      len b = Z.max 0 r /\ r <= 1 /\ (r <= 0 -> lastread (bfd s) r tr)
  end.
Proof.
  intros fuel size s tr o R L I SZ. unfold buffer_GETC in R. destruct (Z.ltb_spec 0 (bp s)) as [P|P].
  2:{ apply (get_ok fuel size s 1 tr o); auto. lia. }
  pose proof I as (I1 & I2 & I3 & I4).
  unfold ld in R. destruct (nth_error (bx s) (Z.to_nat (bn s))) as [c|] eqn:E.
  2:{ apply nth_error_None in E. unfold len in I4. lia. }
  cbn [lift pbind] in R. destruct R as [-> ->]. cbn [got]. rewrite app_nil_r. unfold buffer_SEEK. cbn [bp bn bx bfd].
  split; [repeat split; cbn; lia|]. split; auto. split; [|rewrite len_cons, len_nil; repeat split; lia].
  unfold window. cbn [bp bn bx]. replace (Z.to_nat (bp s)) with (S (Z.to_nat (bp s - 1))) by lia.
  replace (Z.to_nat (bn s + 1)) with (Z.to_nat (bn s) + 1)%nat by lia. rewrite <- skipn_skipn.
  rewrite <- (Nat.add_0_r (Z.to_nat (bn s))), <- nth_error_skipn in E.
  destruct (skipn (Z.to_nat (bn s)) (bx s)) as [|y l]; cbn in E; [discriminate|]. inv E. reflexivity.
Qed.

(** Input operations; a seek skips bytes of the window (after a peek). *)
Inductive rop : Type := Ifeed | Iget (n : Z) | Igetc | Iseek (n : Z).
(** return value, bytes handed to the caller, buffer *)
Definition rop_run (fuel : nat) (s : buffer) (x : rop) : prog (Z * list Z * buffer) :=
  match x with
  | Ifeed => '(r, _, s') <~ buffer_feed fuel s ;; Ret (r, [], s')
  | Iget n => '(r, _, b, s') <~ buffer_get fuel s n ;; Ret (r, b, s')
  | Igetc => '(r, _, b, s') <~ buffer_GETC fuel s ;; Ret (r, b, s')
  | Iseek n => if (0 <=? n) && (n <=? bp s) then Ret (n, firstn (Z.to_nat n) (buffer_PEEK s), buffer_SEEK s n)
               else Ret (-1, [], s)
  end.
(** All operations in order; the calls' return values with the bytes delivered. *)
Fixpoint rops (fuel : nat) (s : buffer) (l : list rop) : prog (list (Z * list Z) * buffer) :=
  match l with
  | [] => Ret ([], s)
  | x :: t => '(r, b, s1) <~ rop_run fuel s x ;; '(rs, s2) <~ rops fuel s1 t ;; Ret ((r, b) :: rs, s2)
  end.

Lemma seek_ok : forall size s n, rinv size s -> 0 <= n <= bp s ->
  rinv size (buffer_SEEK s n) /\ window s = firstn (Z.to_nat n) (buffer_PEEK s) ++ window (buffer_SEEK s n).
Proof.
  intros size s n (I1 & I2 & I3 & I4) N. unfold buffer_SEEK, buffer_PEEK. split; [repeat split; cbn; lia|].
  unfold window. cbn [bp bn bx]. replace (Z.to_nat (bn s + n)) with (Z.to_nat (bn s) + Z.to_nat n)%nat by lia.
  rewrite <- skipn_skipn. rewrite firstn_cat by (unfold len in *; rewrite skipn_length; lia). f_equal. lia.
Qed.

Definition rop_wf (x : rop) : Prop := match x with Iget n => 0 < n | Iseek n => 0 < n | _ => True end.

Lemma rop_ok : forall fuel size s x tr o, runs (rop_run fuel s x) tr o -> legal tr -> rinv size s -> 0 < size -> rop_wf x ->
  match o with
  | Wrong => False
  | Cut => got (bfd s) tr = []
  | Fin (r, b, s') => rinv size s' /\ bfd s' = bfd s /\ window s ++ got (bfd s) tr = b ++ window s' /\
      (r = 0 -> lastread (bfd s) 0 tr)
  end.
Proof.
  intros fuel size s x tr o R L I SZ W. destruct x as [|n| |n]; cbn [rop_run rop_wf] in *.
  - apply runs_bind in R as [([[r e] s1] & t1 & t2 & -> & R1 & R2)|[[R1 ->]|[R1 ->]]]; try exact (feed_ok _ _ _ _ _ R1 L I SZ).
    destruct R2 as [-> ->]. rewrite app_nil_r in *. destruct (feed_ok _ _ _ _ _ R1 L I SZ) as (J & F & WW & H0 & H1).
    repeat (split; auto). intros ->. apply H0. lia.
  - apply runs_bind in R as [([[[r e] b] s1] & t1 & t2 & -> & R1 & R2)|[[R1 ->]|[R1 ->]]]; try exact (get_ok _ _ _ _ _ _ R1 L I SZ W).
    destruct R2 as [-> ->]. rewrite app_nil_r in *. destruct (get_ok _ _ _ _ _ _ R1 L I SZ W) as (J & F & WW & H0 & H1 & H2).
    repeat (split; auto). intros ->. apply H2. lia.
  - apply runs_bind in R as [([[[r e] b] s1] & t1 & t2 & -> & R1 & R2)|[[R1 ->]|[R1 ->]]]; try exact (getc_ok _ _ _ _ _ R1 L I SZ).
    destruct R2 as [-> ->]. rewrite app_nil_r in *. destruct (getc_ok _ _ _ _ _ R1 L I SZ) as (J & F & WW & H0 & H1 & H2).
    repeat (split; auto). intros ->. apply H2. lia.
  - destruct ((0 <=? n) && (n <=? bp s)) eqn:E; destruct R as [-> ->]; cbn [got]; rewrite app_nil_r.
    + destruct (seek_ok size s n I) as [J WW]; [lia|]. split; auto. split; auto. split; auto. lia.
    + split; auto. split; auto. split; auto. lia.
Qed.

Lemma rops_ok : forall fuel size l s tr o, runs (rops fuel s l) tr o -> legal tr -> rinv size s -> 0 < size -> Forall rop_wf l ->
  match o with
  | Wrong => False
  | Cut => True
  | Fin (rs, s') => rinv size s' /\ bfd s' = bfd s /\ window s ++ got (bfd s) tr = concat (map snd rs) ++ window s'
  end.
Proof.
  intros fuel size. induction l as [|x l IH]; intros s tr o R L I SZ F; cbn [rops] in R.
  - destruct R as [-> ->]. cbn [got map concat app]. rewrite app_nil_r. auto.
  - apply Forall_cons_iff in F as [Fx F].
    apply runs_bind in R as [([[r b] s1] & t1 & t2 & -> & R1 & R2)|[[R1 ->]|[R1 ->]]].
    + apply legal_app in L as [L1 L2]. destruct (rop_ok _ _ _ _ _ _ R1 L1 I SZ Fx) as (J & E & W & _).
      apply runs_bind in R2 as [([rs s2] & u1 & u2 & -> & S1 & S2)|[[S1 ->]|[S1 ->]]].
      * destruct S2 as [-> ->]. rewrite app_nil_r in *. destruct (IH _ _ _ S1 L2 J SZ F) as (J2 & E2 & W2).
        split; auto. split; [congruence|]. rewrite got_app, app_assoc, W, <- app_assoc. cbn [map concat snd].
        rewrite <- app_assoc. f_equal. rewrite <- E. exact W2.
      * exact (IH _ _ _ S1 L2 J SZ F).
      * auto.
    + exact (rop_ok _ _ _ _ _ _ R1 L I SZ Fx).
    + auto.
Qed.

(** ** buffer_copy *)
Lemma copy_ok : forall fuel size bout bin tr o, runs (buffer_copy fuel bout bin) tr o -> legal tr ->
  winv bout -> rinv size bin -> 0 < size -> bfd bout <> bfd bin ->
  match o with
  | Wrong => False
  | Cut => is_prefix (sent (bfd bout) tr) (pending bout ++ window bin ++ got (bfd bin) tr)
  | Fin (r, bout', bin') =>
      ((r = 0 \/ r = -2) /\ sent (bfd bout) tr ++ pending bout' = pending bout ++ window bin ++ got (bfd bin) tr /\
        window bin' = [] /\ lastread (bfd bin) (if r =? 0 then 0 else -1) tr) \/
      (r = -3 /\ is_prefix (sent (bfd bout) tr) (pending bout ++ window bin ++ got (bfd bin) tr))
  end.
Proof.
  induction fuel as [|fuel IH]; intros size bout bin tr o R L W I SZ ND; cbn [buffer_copy] in R.
  { destruct R as [-> ->]. cbn. eexists. reflexivity. }
  assert (SR : forall t o', runs (buffer_feed fuel bin) t o' -> sent (bfd bout) t = []).
  { intros t o' RR. clear -RR. unfold buffer_feed in RR. destruct (bp bin =? 0); cbn [negb] in RR; [|destruct RR as [-> _]; reflexivity].
    assert (SO : forall f fd' av n t' (o1 : outcome (Z * Z * list Z)), runs (oneread f fd' av n) t' o1 -> sent (bfd bout) t' = []).
    { induction f as [|f IHf]; intros fd' av n t' o1 RO; cbn [oneread] in RO; [destruct RO as [-> _]; reflexivity|].
      destruct (((if BUFSIZE <? n then BUFSIZE else n) <? 0) || (av <? (if BUFSIZE <? n then BUFSIZE else n))); [destruct RO as [-> _]; reflexivity|].
      destruct RO as [[-> _]|(a & t'' & -> & RO)]; [reflexivity|]. cbn [sent].
      destruct ((ret a =? -1) && (err a =? EINTR)); [eapply IHf; exact RO|destruct RO as [-> _]; reflexivity]. }
    apply runs_bind in RR as [([[r e] b] & t1 & t2 & -> & R1 & R2)|[[R1 ->]|[R1 ->]]]; try (eapply SO; exact R1).
    rewrite sent_app, (SO _ _ _ _ _ _ R1). cbn [app].
    destruct (r <=? 0); [destruct R2 as [-> _]; reflexivity|].
    destruct (copyin (bx bin) 0 b r); cbn [lift pbind] in R2; try (destruct R2 as [-> _]; reflexivity).
    destruct (if 0 <? bn bin - r then shift_up (Z.to_nat r) (bn bin - r) a else Ok a); cbn [lift pbind] in R2; destruct R2 as [-> _]; reflexivity. }
  apply runs_bind in R as [([[n e] bin1] & t1 & t2 & -> & R1 & R2)|[[R1 ->]|[R1 ->]]].
  - apply legal_app in L as [L1 L2]. destruct (feed_ok _ _ _ _ _ R1 L1 I SZ) as (J & F & WW & H0 & H1).
    rewrite sent_app, got_app, (SR _ _ R1). cbn [app].
    destruct (Z.ltb_spec n 0) as [NL|NL].
    + destruct R2 as [-> ->]. rewrite app_nil_r. cbn [sent got app]. rewrite app_nil_r.
      destruct (H0 ltac:(lia)) as (-> & P0 & G & LR). left. split; auto. split.
      * rewrite G, app_nil_r. unfold window. rewrite P0. cbn. rewrite app_nil_r. reflexivity.
      * split; [unfold window; rewrite P0; reflexivity|]. destruct LR as (t & k & a & -> & K & RA).
        exists t, k, a. split; auto. split; auto. change (-2 =? 0) with false. cbn iota.
        apply legal_app in L1 as [_ L1]. apply legal_cons in L1 as [A _]. cbn in A. lia.
    + destruct (Z.eqb_spec n 0) as [->|NZ].
      * destruct R2 as [-> ->]. rewrite app_nil_r. cbn [sent got app]. rewrite app_nil_r.
        destruct (H0 ltac:(lia)) as (-> & P0 & G & LR). left. split; auto. split.
        -- rewrite G, app_nil_r. unfold window. rewrite P0. cbn. rewrite app_nil_r. reflexivity.
        -- split; [unfold window; rewrite P0; reflexivity|]. exact LR.
      * assert (NP : n = bp bin1) by (apply H1; lia). pose proof J as (J1 & J2 & J3 & J4).
        assert (PK : buffer_PEEK bin1 = window bin1 ++ skipn (Z.to_nat n) (buffer_PEEK bin1)).
        { unfold window, buffer_PEEK. rewrite NP, firstn_skipn. reflexivity. }
        assert (LW : n = len (window bin1)) by (unfold len; rewrite (window_len size) by assumption; lia).
        rewrite PK, LW in R2.
        apply runs_bind in R2 as [([c bout1] & u1 & u2 & -> & S1 & S2)|[[S1 ->]|[S1 ->]]].
        -- apply legal_app in L2 as [L2 L3]. pose proof (put_ok _ _ _ _ _ _ S1 L2 W) as PP.
           assert (GP : got (bfd bin) u1 = []).
           { assert (GA : forall f fd' x n' t' (o1 : outcome rc), runs (allwrite f fd' x n') t' o1 -> got (bfd bin) t' = []).
             { clear. induction f as [|f IHf]; intros fd' x n' t' o1 RO; cbn [allwrite] in RO; [destruct RO as [-> _]; reflexivity|].
               destruct (0 <? n'); [|destruct RO as [-> _]; reflexivity].
               destruct (len x <? (if BUFSIZE <? n' then BUFSIZE else n')); [destruct RO as [-> _]; reflexivity|].
               destruct RO as [[-> _]|(a & t'' & -> & RO)]; [reflexivity|]. cbn [got].
               destruct (ret a =? -1); [destruct (err a =? EINTR); [eapply IHf; exact RO|destruct RO as [-> _]; reflexivity]|eapply IHf; exact RO]. }
             assert (GF : forall f s t' o1, runs (buffer_flush f s) t' o1 -> got (bfd bin) t' = []).
             { clear -GA. intros f s t' o1 RO. unfold buffer_flush in RO.
               apply runs_bind in RO as [(c & u1 & u2 & -> & S1 & S2)|[[S1 ->]|[S1 ->]]]; try (eapply GA; exact S1).
               rewrite got_app, (GA _ _ _ _ _ _ S1). destruct c; destruct S2 as [-> _]; reflexivity. }
             assert (GT : forall f s x n' t' o1, runs (buffer_put_tail f s x n') t' o1 -> got (bfd bin) t' = []).
             { clear -GA. intros f s x n' t' o1 RO. unfold buffer_put_tail in RO. destruct (bn s <=? n').
               - apply runs_bind in RO as [(c & u1 & u2 & -> & S1 & S2)|[[S1 ->]|[S1 ->]]]; try (eapply GA; exact S1).
                 rewrite got_app, (GA _ _ _ _ _ _ S1). destruct S2 as [-> _]. reflexivity.
               - destruct (copyin (bx s) (bp s) x n'); cbn [lift pbind] in RO; destruct RO as [-> _]; reflexivity. }
             clear -S1 GF GT. unfold buffer_put in S1. destruct (len (window bin1) <? 0); [destruct S1 as [-> _]; reflexivity|].
             destruct (bn bout - bp bout <? len (window bin1)); [|eapply GT; exact S1].
             destruct (copyin (bx bout) (bp bout) (window bin1 ++ skipn (Z.to_nat (len (window bin1))) (buffer_PEEK bin1)) (bn bout - bp bout));
               cbn [lift pbind] in S1; try (destruct S1 as [-> _]; reflexivity).
             apply runs_bind in S1 as [([c' b'] & v1 & v2 & -> & T1 & T2)|[[T1 E]|[T1 E]]]; try discriminate.
             rewrite got_app, (GF _ _ _ _ T1). destruct c'; [eapply GT; exact T2|destruct T2 as [-> _]; reflexivity]. }
           destruct c as [|e2].
           ++ destruct PP as (P1 & P2 & P3 & P4).
              destruct (seek_ok size bin1 n J ltac:(lia)) as [K1 K2].
              assert (WS : window (buffer_SEEK bin1 (len (window bin1))) = []).
              { unfold window at 1, buffer_SEEK. cbn [bp bn bx]. rewrite <- LW, NP. replace (bp bin1 - bp bin1) with 0 by lia. reflexivity. }
              rewrite <- LW in S2.
              specialize (IH size bout1 (buffer_SEEK bin1 n) u2 o S2 L3 P2 K1 SZ). cbn [bfd buffer_SEEK] in IH. rewrite P4, F in IH. specialize (IH ND).
              rewrite LW in IH. rewrite WS in IH. cbn [app] in IH. rewrite sent_app, got_app, GP. cbn [app].
              assert (EQ : pending bout ++ window bin ++ got (bfd bin) t1 ++ got (bfd bin) u2 = sent (bfd bout) u1 ++ pending bout1 ++ got (bfd bin) u2).
              { rewrite (app_assoc (sent _ _)), P1, <- WW, <- !app_assoc. reflexivity. }
              rewrite EQ. destruct o as [[[r bo] bi]| |]; auto.
              ** destruct IH as [(RV & X1 & X2 & X3)|(-> & X1)].
                 --- left. split; auto. rewrite <- app_assoc, X1. split; auto. split; auto.
                     destruct X3 as (t & k & a & -> & X4). exists (t1 ++ u1 ++ t), k, a. rewrite !app_assoc. auto.
                 --- right. split; auto. apply is_prefix_app2. exact X1.
              ** apply is_prefix_app2. exact IH.
           ++ destruct S2 as [-> ->]. rewrite app_nil_r, GP, app_nil_r. right. split; auto. rewrite WW. apply PP.
        -- exact (put_ok _ _ _ _ _ _ S1 L2 W).
        -- pose proof (put_ok _ _ _ _ _ _ S1 L2 W) as PP. cbn in PP. rewrite app_assoc, app_assoc, <- (app_assoc (pending bout)), WW. apply is_prefix_app. exact PP.
  - exact (feed_ok _ _ _ _ _ R1 L I SZ).
  - rewrite (SR _ _ R1). eexists. reflexivity.
Qed.
