(** Buffers over the callbacks of the SMTP front end. *)
From Verif.Model Require Import Base Sys Io Str Buffer Stralloc Fdio Smtp.
From Verif.Spec Require Import Stream Waiting SmtpSpec.
From Verif.Proof Require Import Tac SysP IoP HostportP StrP FrameP BufferP StrallocP FdioP.

(** Kernel answers within POSIX, clock readings within range. *)
Definition fine (tr : trace) : Prop := legal tr /\ Forall clock_ok tr.
Lemma fine_app : forall a b, fine (a ++ b) <-> fine a /\ fine b.
Proof. intros. unfold fine. rewrite legal_app, Forall_app. tauto. Qed.

Lemma core_app : forall a b, core (a ++ b) = core a ++ core b.
Proof. intros. unfold core. apply filter_app. Qed.
Lemma got_core : forall fd tr, got fd (core tr) = got fd tr.
Proof.
  intros fd tr. induction tr as [|[k a] tr IH]; [reflexivity|]. unfold core in *. destruct k; cbn [filter noise fst negb got]; rewrite ?IH; reflexivity.
Qed.
Lemma sent_core : forall fd tr, sent fd (core tr) = sent fd tr.
Proof.
  intros fd tr. induction tr as [|[k a] tr IH]; [reflexivity|]. unfold core in *. destruct k; cbn [filter noise fst negb sent]; rewrite ?IH; reflexivity.
Qed.
Lemma failed_app : forall a b sec, failed sec b -> failed sec (a ++ b).
Proof.
  intros a b sec (t & e & -> & H). exists (a ++ t), e. rewrite app_assoc. split; auto. destruct e as [[] x]; cbn [fst snd] in *; auto.
  destruct H as (t1 & b0 & t2 & -> & H). exists (a ++ t1), b0, t2. rewrite <- app_assoc. auto.
Qed.

Lemma runs_obind : forall A B (p : prog (out A)) (f : A -> prog (out B)) tr o, runs (obind p f) tr o ->
  (exists a t1 t2, tr = t1 ++ t2 /\ runs p t1 (Fin (Go a)) /\ runs (f a) t2 o) \/
  (exists x, runs p tr (Fin (Exit x)) /\ o = Fin (Exit x)) \/
  (runs p tr Wrong /\ o = Wrong) \/ (runs p tr Cut /\ o = Cut).
Proof.
  intros A B p f tr o R. unfold obind in R. apply runs_bind in R as [([a|x] & t1 & t2 & -> & R1 & R2)|[[R1 ->]|[R1 ->]]].
  - left. exists a, t1, t2. auto.
  - right. left. exists x. destruct R2 as [-> ->]. rewrite app_nil_r. auto.
  - right. right. left. auto.
  - right. right. right. auto.
Qed.

Lemma waited_core : forall m d sel w, (forall tm a, noise (sel tm, a) = true) -> waited m d sel w -> core w = [].
Proof.
  intros m d sel w S W. induction W as [|c tm s tr L T O W IH]; [reflexivity|]. unfold core in *. cbn [filter].
  replace (noise (Time, c)) with true by reflexivity. rewrite S. cbn [negb]. exact IH.
Qed.

Definition fdok (fd : Z) : Prop := 0 <= fd < 1024.

Section Ops.
Variable fuel : nat.
Variable c : cfg.
Hypothesis T : 1 <= crw c <= 86400.

Lemma wait_ok : forall rd0 fd t tr o, fine tr -> 0 <= t <= 86400 ->
  runs (c0 <~ sys1 Time ;; d <~ lift (micros t c0) ;; timeout_wait fuel rd0 fd d) tr o ->
  o <> Wrong /\ core tr = [] /\ (forall e, o = Fin (Some e) -> failed t tr).
Proof.
  intros rd0 fd t tr o [L C] TT R. destruct R as [[-> ->]|(c0 & t1 & -> & R)]; [split; [discriminate|split; [reflexivity|discriminate]]|].
  cbn [pbind] in R. apply Forall_cons_iff in C as [C1 C2]. unfold clock_ok in C1. cbn [fst snd] in C1.
  rewrite micros_ok in R by lia. cbn [lift pbind] in R.
  apply timeout_wait_ok in R as (W & w & l & -> & WW & H); auto. 2:{ unfold two63. lia. }
  split; auto. change ((Time, c0) :: w ++ l) with ([(Time, c0)] ++ w ++ l). rewrite !core_app.
  assert (NS : forall tm a, noise (selcall rd0 fd tm, a) = true) by (intros; unfold selcall; destruct rd0; reflexivity).
  rewrite (waited_core _ _ _ _ NS WW).
  change (core [(Time, c0)]) with (@nil event). cbn [app].
  destruct H as [[-> ->]|[(x & -> & E & ->)|[(x & -> & E & ->)|[(x & tm & s & -> & E & E2 & E3 & E4 & ->)|(x & tm & s & -> & E & E2 & E3 & E4 & ->)]]]].
  - split; [reflexivity|discriminate].
  - split; [reflexivity|discriminate].
  - split; [reflexivity|]. intros e Q. exists ((Time, c0) :: w), (Time, x). split; [reflexivity|]. exists [], c0, w. cbn [fst snd app]. split; [reflexivity|]. split; [exact (waited_core _ _ _ _ NS WW)|lia].
  - unfold selcall. split; [destruct rd0; reflexivity|]. intros e Q. apply (failed_app [_]). apply failed_app. eexists [_], (_, s). split; [reflexivity|]. destruct rd0; cbn; auto.
  - unfold selcall. split; [destruct rd0; reflexivity|discriminate].
Qed.

Lemma tread_ok : forall fd n tr o, runs (timeoutread fuel (crw c) fd n) tr o -> fine tr -> 0 <= n -> fdok fd ->
  match o with
  | Wrong => False
  | Cut => core tr = []
  | Fin (r, e, b) => Forall (rd fd) (core tr) /\ got fd tr = b /\ len b = Z.max 0 r /\ bytes b /\ -1 <= r <= n /\ (r <= 0 -> failed (crw c) tr)
  end.
Proof.
  intros fd n tr o R F N FD. unfold timeoutread, FD_SETSIZE, fdok in *.
  replace ((crw c <? 0) || (n <? 0) || (fd <? 0) || (1024 <=? fd)) with false in R by lia.
  assert (R' : runs (w <~ (c0 <~ sys1 Time ;; d <~ lift (micros (crw c) c0) ;; timeout_wait fuel true fd d) ;;
     match w with Some e => Ret (-1, e, []) | None => a <~ sys1 (Read fd n) ;; Ret (ret a, err a, data a) end) tr o).
  { cbn [pbind sys1] in *. destruct R as [R|(a & t & -> & R)]; [left; auto|]. right. exists a, t. split; auto.
    destruct (micros (crw c) a); cbn [lift pbind] in *; auto. }
  clear R. rename R' into R. assert (TT : 0 <= crw c <= 86400) by lia.
  apply runs_bind in R as [(w & t1 & t2 & -> & R1 & R2)|[[R1 ->]|[R1 ->]]].
  - apply fine_app in F as [F1 F2]. destruct (wait_ok _ _ _ _ _ F1 TT R1) as (W1 & W2 & W3). rewrite core_app, W2. cbn [app].
    destruct w as [e|].
    + destruct R2 as [-> ->]. rewrite got_app, <- got_core, W2. cbn. repeat split; auto; try lia; try (now constructor); try (intros _; rewrite app_nil_r; eauto).
    + destruct R2 as [[-> ->]|(a & t & -> & R2)]; [reflexivity|]. destruct R2 as [-> ->].
      destruct F2 as [L2 _]. apply legal_cons in L2 as [A _]. cbn [sys_ok] in A.
      rewrite got_app, <- got_core, W2. cbn [got app core filter noise fst negb]. rewrite Z.eqb_refl, app_nil_r.
      split; [constructor; [exists n, a; reflexivity|constructor]|]. split; auto.
      assert (FF : ret a <= 0 -> failed (crw c) (t1 ++ [(Read fd n, a)])). { intros Q. apply failed_app. eexists [], _. split; [reflexivity|]. exact Q. }
      destruct A as [[A1 A2]|(A1 & A2 & A3)].
      * rewrite A2, A1 in *. split; [reflexivity|]. split; [constructor|]. split; [lia|auto].
      * split; [lia|]. split; auto. split; [lia|auto].
  - destruct (wait_ok _ _ _ _ _ F TT R1) as (W1 & _). congruence.
  - destruct (wait_ok _ _ _ _ _ F TT R1) as (W1 & W2 & _). exact W2.
Qed.

Lemma twrite_ok : forall fd x n tr o, runs (timeoutwrite fuel (crw c) fd x n) tr o -> fine tr -> 0 <= n <= len x -> fdok fd ->
  match o with
  | Wrong => False
  | Cut => core tr = []
  | Fin (r, e) => Forall (wr fd) (core tr) /\ sent fd tr = firstn (Z.to_nat r) x /\ -1 <= r <= n /\ (r <= 0 -> failed (crw c) tr)
  end.
Proof.
  intros fd x n tr o R F N FD. unfold timeoutwrite, FD_SETSIZE, fdok in *.
  replace ((crw c <? 0) || (n <? 0) || (fd <? 0) || (1024 <=? fd)) with false in R by lia.
  assert (R' : runs (w <~ (c0 <~ sys1 Time ;; d <~ lift (micros (crw c) c0) ;; timeout_wait fuel false fd d) ;;
     match w with Some e => Ret (-1, e) | None => if len x <? n then Bad else a <~ sys1 (Write fd (firstn (Z.to_nat n) x)) ;; Ret (ret a, err a) end) tr o).
  { cbn [pbind sys1] in *. destruct R as [R|(a & t & -> & R)]; [left; auto|]. right. exists a, t. split; auto.
    destruct (micros (crw c) a); cbn [lift pbind] in *; auto. }
  clear R. rename R' into R. assert (TT : 0 <= crw c <= 86400) by lia.
  apply runs_bind in R as [(w & t1 & t2 & -> & R1 & R2)|[[R1 ->]|[R1 ->]]].
  - apply fine_app in F as [F1 F2]. destruct (wait_ok _ _ _ _ _ F1 TT R1) as (W1 & W2 & W3). rewrite core_app, W2. cbn [app].
    destruct w as [e|].
    + destruct R2 as [-> ->]. rewrite sent_app, <- sent_core, W2. cbn. repeat split; auto; try lia; try (now constructor); try (intros _; rewrite app_nil_r; eauto).
    + destruct (Z.ltb_spec (len x) n); [lia|].
      destruct R2 as [[-> ->]|(a & t & -> & R2)]; [reflexivity|]. destruct R2 as [-> ->].
      destruct F2 as [L2 _]. apply legal_cons in L2 as [A _]. cbn [sys_ok] in A.
      rewrite sent_app, <- sent_core, W2. cbn [sent app core filter noise fst negb]. rewrite Z.eqb_refl, app_nil_r.
      split; [constructor; [eexists; exists a; reflexivity|constructor]|].
      assert (FF : ret a <= 0 -> failed (crw c) (t1 ++ [(Write fd (firstn (Z.to_nat n) x), a)])). { intros Q. apply failed_app. eexists [], _. split; [reflexivity|]. exact Q. }
      assert (RB : -1 <= ret a <= n). { destruct A as [A|A]; [lia|]. unfold len in A. rewrite firstn_length in A. lia. }
      rewrite firstn_firstn. split; [f_equal; lia|]. auto.
  - destruct (wait_ok _ _ _ _ _ F TT R1) as (W1 & _). congruence.
  - destruct (wait_ok _ _ _ _ _ F TT R1) as (W1 & W2 & _). exact W2.
Qed.

(** What the callbacks promise; [dies]: a failure ends the process. *)
Definition rspec (op : Smtp.rop) (dies : bool) : Prop := forall fd n tr o,
  runs (op fd n) tr o -> fine tr -> 0 <= n -> fdok fd ->
  match o with
  | Wrong => False
  | Cut => core tr = []
  | Fin (Exit y) => y = 111 /\ failed (crw c) tr /\ Forall (rd fd) (core tr) /\ got fd tr = []
  | Fin (Go (r, e, b)) => Forall (rd fd) (core tr) /\ got fd tr = b /\ len b = Z.max 0 r /\ bytes b /\ -1 <= r <= n /\ (dies = true -> 0 < r)
  end.
Definition wspec (op : Smtp.wop) (dies : bool) : Prop := forall fd x n tr o,
  runs (op fd x n) tr o -> fine tr -> 0 <= n <= len x -> fdok fd ->
  match o with
  | Wrong => False
  | Cut => core tr = []
  | Fin (Exit y) => y = 111 /\ failed (crw c) tr /\ Forall (wr fd) (core tr) /\ sent fd tr = []
  | Fin (Go (r, e)) => Forall (wr fd) (core tr) /\ sent fd tr = firstn (Z.to_nat r) x /\ -1 <= r <= n /\ (dies = true -> 0 < r)
  end.

Lemma nil_of_len : forall A (b : list A) r, len b = Z.max 0 r -> r <= 0 -> b = [].
Proof. intros A [|x b] r H R; auto. rewrite len_cons in H. pose proof (len_nonneg _ b). lia. Qed.

Lemma read_spec : rspec (read_ fuel c) true.
Proof.
  intros fd n tr o R F N FD. unfold read_ in R. apply runs_bind in R as [([[r e] b] & t1 & t2 & -> & R1 & R2)|[[R1 ->]|[R1 ->]]].
  - apply fine_app in F as [F1 F2]. pose proof (tread_ok _ _ _ _ R1 F1 N FD) as (H1 & H2 & H3 & H4 & H5 & H6).
    destruct (Z.leb_spec r 0); destruct R2 as [-> ->]; rewrite app_nil_r.
    + split; auto. split; auto. split; auto. rewrite H2. eapply nil_of_len; eauto.
    + repeat (split; auto); lia.
  - exact (tread_ok _ _ _ _ R1 F N FD).
  - exact (tread_ok _ _ _ _ R1 F N FD).
Qed.
Lemma gread_spec : rspec (gread fuel c) (failclosed c).
Proof.
  intros fd n tr o R F N FD. unfold gread in R. apply runs_bind in R as [([[r e] b] & t1 & t2 & -> & R1 & R2)|[[R1 ->]|[R1 ->]]].
  - apply fine_app in F as [F1 F2]. pose proof (tread_ok _ _ _ _ R1 F1 N FD) as (H1 & H2 & H3 & H4 & H5 & H6).
    destruct (Z.leb_spec r 0); destruct (failclosed c) eqn:FC; cbn [andb] in R2; destruct R2 as [-> ->]; rewrite app_nil_r;
      try (repeat (split; auto); lia).
    split; auto. split; auto. split; auto. rewrite H2. eapply nil_of_len; eauto.
  - exact (tread_ok _ _ _ _ R1 F N FD).
  - exact (tread_ok _ _ _ _ R1 F N FD).
Qed.
Lemma write_spec : wspec (write_ fuel c) true.
Proof.
  intros fd x n tr o R F N FD. unfold write_ in R. apply runs_bind in R as [([r e] & t1 & t2 & -> & R1 & R2)|[[R1 ->]|[R1 ->]]].
  - apply fine_app in F as [F1 F2]. pose proof (twrite_ok _ _ _ _ _ R1 F1 N FD) as (H1 & H2 & H3 & H4).
    destruct (Z.leb_spec r 0); destruct R2 as [-> ->]; rewrite app_nil_r.
    + split; auto. split; auto. split; auto. rewrite H2. replace (Z.to_nat r) with O by lia. reflexivity.
    + repeat (split; auto); lia.
  - exact (twrite_ok _ _ _ _ _ R1 F N FD).
  - exact (twrite_ok _ _ _ _ _ R1 F N FD).
Qed.
Lemma gwrite_spec : wspec (gwrite fuel c) (failclosed c).
Proof.
  intros fd x n tr o R F N FD. unfold gwrite in R. apply runs_bind in R as [([r e] & t1 & t2 & -> & R1 & R2)|[[R1 ->]|[R1 ->]]].
  - apply fine_app in F as [F1 F2]. pose proof (twrite_ok _ _ _ _ _ R1 F1 N FD) as (H1 & H2 & H3 & H4).
    destruct (Z.leb_spec r 0); destruct (failclosed c) eqn:FC; cbn [andb] in R2; destruct R2 as [-> ->]; rewrite app_nil_r;
      try (repeat (split; auto); lia).
    split; auto. split; auto. split; auto. rewrite H2. replace (Z.to_nat r) with O by lia. reflexivity.
  - exact (twrite_ok _ _ _ _ _ R1 F N FD).
  - exact (twrite_ok _ _ _ _ _ R1 F N FD).
Qed.

(** ** Output *)
Lemma prefix_firstn_app : forall k (x y : list Z), (k <= length x)%nat -> is_prefix y (skipn k x) -> is_prefix (firstn k x ++ y) x.
Proof. intros k x y K [u E]. exists u. rewrite <- app_assoc, <- E, firstn_skipn. reflexivity. Qed.
Lemma skipn_firstn : forall A k n (x : list A), skipn k (firstn n x) = firstn (n - k) (skipn k x).
Proof. intros. apply skipn_firstn_comm. Qed.

Lemma oallwrite_ok : forall op dies, wspec op dies -> forall f fd x xlen tr o,
  runs (oallwrite f op fd x xlen) tr o -> fine tr -> xlen <= len x -> fdok fd ->
  Forall (wr fd) (core tr) /\
  match o with
  | Wrong => False
  | Cut => is_prefix (sent fd tr) (firstn (Z.to_nat xlen) x)
  | Fin (Exit y) => y = 111 /\ failed (crw c) tr /\ is_prefix (sent fd tr) (firstn (Z.to_nat xlen) x)
  | Fin (Go Good) => sent fd tr = firstn (Z.to_nat xlen) x
  | Fin (Go (Fail e)) => dies = false /\ is_prefix (sent fd tr) (firstn (Z.to_nat xlen) x)
  end.
Proof.
  intros op dies W. induction f as [|f IH]; intros fd x xlen tr o R F X FD; cbn [oallwrite] in R.
  { destruct R as [-> ->]. split; [constructor|]. cbn [sent]. eexists; reflexivity. }
  destruct (Z.ltb_spec 0 xlen) as [P|P].
  2:{ destruct R as [-> ->]. split; [constructor|]. cbn [sent]. replace (Z.to_nat xlen) with O by lia. reflexivity. }
  set (n := if BUFSIZE <? xlen then BUFSIZE else xlen) in *.
  assert (N : 0 < n <= xlen) by (unfold n, BUFSIZE; destruct (Z.ltb_spec 8192 xlen); lia).
  apply runs_obind in R as [([w e] & t1 & t2 & -> & R1 & R2)|[(y & R1 & ->)|[[R1 ->]|[R1 ->]]]].
  - apply fine_app in F as [F1 F2]. pose proof (W _ _ _ _ _ R1 F1 ltac:(lia) FD) as (H1 & H2 & H3 & H4).
    rewrite core_app, sent_app, Forall_app. destruct (Z.eqb_spec w (-1)) as [->|Q].
    + change (Z.to_nat (-1)) with O in H2. cbn [firstn] in H2. rewrite H2. cbn [app]. destruct (e =? EINTR).
      * specialize (IH _ _ _ _ _ R2 F2 X FD) as [I1 I2]. split; auto. destruct o as [[[|e1]|y]| |]; auto. destruct I2 as (-> & I2 & I3). split; auto. split; auto. apply failed_app. auto.
      * destruct R2 as [-> ->]. split; [split; [auto|constructor]|]. cbn [sent]. split; [destruct dies; auto; specialize (H4 eq_refl); lia|]. eexists; reflexivity.
    + assert (Lw : xlen - w <= len (skipn (Z.to_nat w) x)). { unfold len in *. rewrite skipn_length. lia. }
      specialize (IH _ _ _ _ _ R2 F2 Lw FD) as [I1 I2]. split; auto.
      assert (K : (Z.to_nat w <= length (firstn (Z.to_nat xlen) x))%nat) by (unfold len in *; rewrite firstn_length; lia).
      assert (E1 : firstn (Z.to_nat w) x = firstn (Z.to_nat w) (firstn (Z.to_nat xlen) x)) by (rewrite firstn_firstn; f_equal; lia).
      assert (E2 : firstn (Z.to_nat (xlen - w)) (skipn (Z.to_nat w) x) = skipn (Z.to_nat w) (firstn (Z.to_nat xlen) x)) by (rewrite skipn_firstn; f_equal; lia).
      rewrite H2, E1. rewrite E2 in I2. destruct o as [[[|e1]|y]| |]; auto.
      * rewrite I2. apply firstn_skipn.
      * destruct I2 as [I2 I3]. split; auto. apply prefix_firstn_app; auto.
      * destruct I2 as (-> & I2 & I3). split; auto. split; [apply failed_app; auto|]. apply prefix_firstn_app; auto.
      * apply prefix_firstn_app; auto.
  - destruct (W _ _ _ _ _ R1 F ltac:(lia) FD) as (-> & H1 & H2 & H3). split; auto. split; auto. split; auto. rewrite H3. eexists; reflexivity.
  - destruct (W _ _ _ _ _ R1 F ltac:(lia) FD).
  - pose proof (W _ _ _ _ _ R1 F ltac:(lia) FD) as H. cbn beta iota in H. rewrite H. split; [constructor|]. rewrite <- sent_core, H. eexists; reflexivity.
Qed.

Definition opost (dies : bool) (s : buffer) (all : list Z) (tr : trace) (o : outcome (out (rc * buffer))) : Prop :=
  Forall (wr (bfd s)) (core tr) /\
  match o with
  | Wrong => False
  | Cut => is_prefix (sent (bfd s) tr) all
  | Fin (Exit y) => y = 111 /\ failed (crw c) tr /\ is_prefix (sent (bfd s) tr) all
  | Fin (Go (Good, s')) => sent (bfd s) tr ++ pending s' = all /\ winv s' /\ bn s' = bn s /\ bfd s' = bfd s
  | Fin (Go (Fail e, s')) => dies = false /\ is_prefix (sent (bfd s) tr) all
  end.

Lemma oflush_ok : forall op dies, wspec op dies -> forall s tr o, runs (oflush fuel op s) tr o -> fine tr -> winv s -> fdok (bfd s) ->
  opost dies s (pending s) tr o /\ (forall s', o = Fin (Go (Good, s')) -> s' = mkbuf (bx s) 0 (bn s) (bfd s)).
Proof.
  intros op dies W s tr o R F WI FD. pose proof WI as [W1 W2]. unfold oflush in R.
  assert (E : firstn (Z.to_nat (bp s)) (bx s) = pending s) by reflexivity.
  apply runs_obind in R as [(r & t1 & t2 & -> & R1 & R2)|[(y & R1 & ->)|[[R1 ->]|[R1 ->]]]].
  - apply fine_app in F as [F1 F2]. pose proof (oallwrite_ok op dies W _ _ _ _ _ _ R1 F1 ltac:(lia) FD) as [H1 H2]. rewrite E in H2.
    destruct r as [|e]; destruct R2 as [-> ->]; rewrite app_nil_r; (split; [|intros s' Q; inv Q; reflexivity]); (split; [exact H1|]).
    + rewrite H2. unfold pending at 2. cbn [bp bx bn bfd]. change (firstn (Z.to_nat 0) (bx s)) with (@nil Z). rewrite app_nil_r.
      split; auto. split; [split; cbn; lia|auto].
    + exact H2.
  - pose proof (oallwrite_ok op dies W _ _ _ _ _ _ R1 F ltac:(lia) FD) as [H1 H2]. rewrite E in H2. split; [split; auto|discriminate].
  - pose proof (oallwrite_ok op dies W _ _ _ _ _ _ R1 F ltac:(lia) FD) as [H1 H2]. destruct H2.
  - pose proof (oallwrite_ok op dies W _ _ _ _ _ _ R1 F ltac:(lia) FD) as [H1 H2]. rewrite E in H2. split; [split; auto|discriminate].
Qed.

Lemma oput_tail_ok : forall op dies, wspec op dies -> forall s m extra tr o, runs (oput_tail fuel op s (m ++ extra) (len m)) tr o -> fine tr -> winv s -> fdok (bfd s) ->
  (bn s <= len m -> bp s = 0) -> (len m < bn s -> bp s + len m <= bn s) ->
  opost dies s (pending s ++ m) tr o.
Proof.
  intros op dies W s m extra tr o R F [W1 W2] FD H0 HF. unfold oput_tail in R. pose proof (len_nonneg _ m) as NM. pose proof (len_nonneg _ extra) as NE.
  destruct (Z.leb_spec (bn s) (len m)) as [B|B].
  - assert (PE : pending s = []) by (unfold pending; rewrite (H0 B); reflexivity).
    assert (LX : len m <= len (m ++ extra)) by (rewrite len_app; lia).
    assert (EM : firstn (Z.to_nat (len m)) (m ++ extra) = m) by (unfold len; rewrite Nat2Z.id; apply firstn_app_exact).
    rewrite PE. cbn [app].
    apply runs_obind in R as [(r & t1 & t2 & -> & R1 & R2)|[(y & R1 & ->)|[[R1 ->]|[R1 ->]]]].
    + apply fine_app in F as [F1 F2]. pose proof (oallwrite_ok op dies W _ _ _ _ _ _ R1 F1 LX FD) as [G1 G2]. rewrite EM in G2.
      destruct R2 as [-> ->]. rewrite app_nil_r. split; auto. destruct r as [|e]; auto. rewrite PE, app_nil_r. split; auto. split; [split; auto|auto].
    + pose proof (oallwrite_ok op dies W _ _ _ _ _ _ R1 F LX FD) as [G1 G2]. rewrite EM in G2. split; auto.
    + pose proof (oallwrite_ok op dies W _ _ _ _ _ _ R1 F LX FD) as [G1 []].
    + pose proof (oallwrite_ok op dies W _ _ _ _ _ _ R1 F LX FD) as [G1 G2]. rewrite EM in G2. split; auto.
  - specialize (HF B). destruct (copyin_ok (bx s) (bp s) (m ++ extra) (len m)) as (d & E & D1 & D2 & D3 & D4); try lia; [rewrite len_app; lia|].
    rewrite E in R. cbn [lift pbind] in R. destruct R as [-> ->]. split; [constructor|]. cbn [sent app]. unfold pending at 1. cbn [bp bx bn bfd].
    rewrite D2. unfold len at 1. rewrite Nat2Z.id, firstn_app_exact. split; [reflexivity|]. split; [split; cbn [bp bn bx]; lia|auto].
Qed.

Lemma oput_ok : forall op dies, wspec op dies -> forall s m extra tr o, runs (oput fuel op s (m ++ extra) (len m)) tr o -> fine tr -> winv s -> fdok (bfd s) ->
  opost dies s (pending s ++ m) tr o.
Proof.
  intros op dies WS s m extra tr o R L W FD. pose proof W as [W1 W2]. unfold oput in R. pose proof (len_nonneg _ m) as NM.
  destruct (Z.ltb_spec (len m) 0) as [NN|NN]; [lia|]. pose proof (len_nonneg _ extra) as NE.
  destruct (Z.ltb_spec (bn s - bp s) (len m)) as [B|B].
  2:{ apply (oput_tail_ok op dies WS s m extra); auto; lia. }
  destruct (copyin_ok (bx s) (bp s) (m ++ extra) (bn s - bp s)) as (d & E & D1 & D2 & D3 & D4); try lia; [rewrite len_app; lia|].
  rewrite E in R. cbn [lift pbind] in R.
  replace (bp s + (bn s - bp s)) with (bn s) in * by lia.
  set (k := Z.to_nat (bn s - bp s)) in *.
  assert (K : (k <= length m)%nat) by (unfold k, len in *; lia).
  assert (FK : firstn k (m ++ extra) = firstn k m).
  { rewrite firstn_app. replace (k - length m)%nat with O by lia. rewrite firstn_O, app_nil_r. reflexivity. }
  assert (SK : skipn k (m ++ extra) = skipn k m ++ extra).
  { rewrite skipn_app. replace (k - length m)%nat with O by lia. reflexivity. }
  set (s1 := mkbuf d (bn s) (bn s) (bfd s)) in *.
  assert (W' : winv s1) by (split; cbn; lia).
  assert (PD : pending s1 = pending s ++ firstn k m).
  { unfold pending at 1, s1. cbn [bp bx]. rewrite D2, FK. reflexivity. }
  assert (PM : pending s ++ m = pending s1 ++ skipn k m).
  { rewrite PD, <- app_assoc, firstn_skipn. reflexivity. }
  unfold opost. rewrite PM.
  apply runs_obind in R as [([r s2] & t1 & t2 & -> & R1 & R2)|[(y & R1 & ->)|[[R1 ->]|[R1 ->]]]].
  - apply fine_app in L as [L1 L2]. destruct (oflush_ok op dies WS _ _ _ R1 L1 W' FD) as [[H1 H2] H3]. cbn [bfd s1] in H1, H2. rewrite core_app, sent_app, Forall_app.
    destruct r as [|e].
    + specialize (H3 _ eq_refl). destruct H2 as (S1 & _). rewrite H3 in S1. unfold pending at 1 in S1. cbn [bp bx] in S1. change (firstn (Z.to_nat 0) (bx s1)) with (@nil Z) in S1.
      rewrite app_nil_r in S1. rewrite H3 in R2. unfold s1 in R2. cbn [bx bn bfd] in R2. rewrite SK in R2.
      replace (len m - (bn s - bp s)) with (len (skipn k m)) in R2 by (unfold k, len in *; rewrite skipn_length; lia).
      pose proof (oput_tail_ok op dies WS _ _ _ _ _ R2 L2) as H4. cbn [bp bn bx bfd] in H4.
      assert (WW : winv (mkbuf d 0 (bn s) (bfd s))) by (split; cbn; lia).
      specialize (H4 WW FD ltac:(lia) ltac:(lia)). unfold opost in H4. cbn [bfd bn] in H4. unfold pending at 1 3 4 5 in H4. cbn [bp bx] in H4.
      change (firstn (Z.to_nat 0) d) with (@nil Z) in H4. cbn [app] in H4. destruct H4 as [H4 H5]. split; auto. rewrite S1.
      destruct o as [[[[|e] s3]|y]| |]; auto.
      * destruct H5 as (H5 & H6). rewrite <- app_assoc. unfold pending at 2. unfold pending in H5. rewrite H5. auto.
      * destruct H5 as (H5 & H6). split; auto. apply is_prefix_app2. exact H6.
      * destruct H5 as (-> & H5 & H6). split; auto. split; [apply failed_app; auto|]. apply is_prefix_app2. exact H6.
      * apply is_prefix_app2. exact H5.
    + destruct R2 as [-> ->]. split; [split; [auto|constructor]|]. cbn [sent]. rewrite app_nil_r. destruct H2 as [H2 H4]. split; auto. apply is_prefix_app. auto.
  - destruct (oflush_ok op dies WS _ _ _ R1 L W' FD) as [[H1 (-> & H2 & H4)] H3]. split; auto. split; auto. split; auto. apply is_prefix_app. auto.
  - destruct (oflush_ok op dies WS _ _ _ R1 L W' FD) as [[H1 []] H3].
  - destruct (oflush_ok op dies WS _ _ _ R1 L W' FD) as [[H1 H2] H3]. split; auto. apply is_prefix_app. auto.
Qed.

Lemma oputflush_ok : forall op dies, wspec op dies -> forall s m extra tr o, runs (oputflush fuel op s (m ++ extra) (len m)) tr o -> fine tr -> winv s -> fdok (bfd s) ->
  opost dies s (pending s ++ m) tr o /\ (forall s', o = Fin (Go (Good, s')) -> bp s' = 0).
Proof.
  intros op dies WS s m extra tr o R L W FD. unfold oputflush in R. pose proof (len_nonneg _ m) as NM. pose proof (len_nonneg _ extra) as NE.
  destruct (Z.ltb_spec (len m) 0) as [NN|NN]; [lia|].
  assert (LX : len m <= len (m ++ extra)) by (rewrite len_app; lia).
  assert (EM : firstn (Z.to_nat (len m)) (m ++ extra) = m) by (unfold len; rewrite Nat2Z.id; apply firstn_app_exact).
  apply runs_obind in R as [([r s2] & t1 & t2 & -> & R1 & R2)|[(y & R1 & ->)|[[R1 ->]|[R1 ->]]]].
  - apply fine_app in L as [L1 L2]. destruct (oflush_ok op dies WS _ _ _ R1 L1 W FD) as [[H1 H2] H3]. unfold opost. rewrite core_app, sent_app, Forall_app.
    destruct r as [|e].
    + specialize (H3 _ eq_refl). destruct H2 as (S1 & _). rewrite H3 in *. unfold pending at 1 in S1. cbn [bp bx] in S1. change (firstn (Z.to_nat 0) (bx s)) with (@nil Z) in S1.
      rewrite app_nil_r in S1. cbn [bfd] in R2. rewrite S1.
      apply runs_obind in R2 as [(r & u1 & u2 & -> & Q1 & Q2)|[(y & Q1 & ->)|[[Q1 ->]|[Q1 ->]]]].
      * apply fine_app in L2 as [L2 L3]. pose proof (oallwrite_ok op dies WS _ _ _ _ _ _ Q1 L2 LX FD) as [G1 G2]. rewrite EM in G2.
        destruct Q2 as [-> ->]. rewrite app_nil_r. split; [|intros s' Q; inv Q; reflexivity]. split; auto. destruct r as [|e].
        -- rewrite G2. unfold pending at 2. cbn [bp bx bn bfd]. change (firstn (Z.to_nat 0) (bx s)) with (@nil Z). rewrite app_nil_r. split; auto.
           destruct W. split; [split; cbn; lia|auto].
        -- destruct G2 as [G2 G3]. split; auto. apply is_prefix_app2. auto.
      * pose proof (oallwrite_ok op dies WS _ _ _ _ _ _ Q1 L2 LX FD) as [G1 (-> & G2 & G3)]. rewrite EM in G3. split; [|discriminate]. split; auto. split; auto.
        split; [apply failed_app; auto|]. apply is_prefix_app2. auto.
      * pose proof (oallwrite_ok op dies WS _ _ _ _ _ _ Q1 L2 LX FD) as [G1 []].
      * pose proof (oallwrite_ok op dies WS _ _ _ _ _ _ Q1 L2 LX FD) as [G1 G2]. rewrite EM in G2. split; [|discriminate]. split; auto. apply is_prefix_app2. auto.
    + destruct R2 as [-> ->]. split; [|discriminate]. split; [split; [auto|constructor]|]. cbn [sent]. rewrite app_nil_r. destruct H2 as [H2 H4]. split; auto. apply is_prefix_app. auto.
  - destruct (oflush_ok op dies WS _ _ _ R1 L W FD) as [[H1 (-> & H2 & H4)] H3]. split; [|discriminate]. split; auto. split; auto. split; auto. apply is_prefix_app. auto.
  - destruct (oflush_ok op dies WS _ _ _ R1 L W FD) as [[H1 []] H3].
  - destruct (oflush_ok op dies WS _ _ _ R1 L W FD) as [[H1 H2] H3]. split; [|discriminate]. split; auto. apply is_prefix_app. auto.
Qed.

(** ** Input *)
Lemma ooneread_ok : forall op dies, rspec op dies -> forall f fd avail xlen tr o, runs (ooneread f op fd avail xlen) tr o -> fine tr -> 0 <= xlen <= avail -> fdok fd ->
  Forall (rd fd) (core tr) /\
  match o with
  | Wrong => False
  | Cut => got fd tr = []
  | Fin (Exit y) => y = 111 /\ failed (crw c) tr /\ got fd tr = []
  | Fin (Go (r, e, b)) => got fd tr = b /\ len b = Z.max 0 r /\ bytes b /\ -1 <= r <= xlen /\ (dies = true -> 0 < r)
  end.
Proof.
  intros op dies W. induction f as [|f IH]; intros fd avail xlen tr o R F X FD; cbn [ooneread] in R.
  { destruct R as [-> ->]. split; [constructor|reflexivity]. }
  set (n := if BUFSIZE <? xlen then BUFSIZE else xlen) in *.
  assert (N : 0 <= n <= xlen) by (unfold n, BUFSIZE; destruct (Z.ltb_spec 8192 xlen); lia).
  replace ((n <? 0) || (avail <? n)) with false in R by lia.
  apply runs_obind in R as [([[r e] b] & t1 & t2 & -> & R1 & R2)|[(y & R1 & ->)|[[R1 ->]|[R1 ->]]]].
  - apply fine_app in F as [F1 F2]. pose proof (W _ _ _ _ R1 F1 ltac:(lia) FD) as (H1 & H2 & H3 & H4 & H5 & H6). rewrite core_app, got_app, Forall_app.
    destruct ((r =? -1) && (e =? EINTR)) eqn:E.
    + assert (b = []) as -> by (eapply nil_of_len; [exact H3|lia]). rewrite H2. cbn [app].
      specialize (IH _ _ _ _ _ R2 F2 ltac:(lia) FD) as [I1 I2]. split; auto. destruct o as [[[[r1 e1] b1]|y]| |]; auto.
      * destruct I2 as (I2 & I3 & I4 & I5 & I6). repeat (split; auto); lia.
      * destruct I2 as (-> & I2 & I3). split; auto. split; auto. apply failed_app. auto.
    + destruct R2 as [-> ->]. split; [split; [auto|constructor]|]. cbn [got]. rewrite app_nil_r. repeat (split; auto); lia.
  - pose proof (W _ _ _ _ R1 F ltac:(lia) FD) as (-> & H1 & H2 & H3). auto.
  - destruct (W _ _ _ _ R1 F ltac:(lia) FD).
  - pose proof (W _ _ _ _ R1 F ltac:(lia) FD) as H. cbn beta iota in H. rewrite H. split; [constructor|]. rewrite <- got_core, H. reflexivity.
Qed.

Lemma ofeed_ok : forall op dies, rspec op dies -> forall size s tr o, runs (ofeed fuel op s) tr o -> fine tr -> rinv size s -> 0 < size -> fdok (bfd s) ->
  Forall (rd (bfd s)) (core tr) /\
  match o with
  | Wrong => False
  | Cut => bp s = 0 /\ got (bfd s) tr = []
  | Fin (Exit y) => y = 111 /\ failed (crw c) tr /\ bp s = 0 /\ got (bfd s) tr = []
  | Fin (Go (r, e, s')) => rinv size s' /\ bfd s' = bfd s /\ window s ++ got (bfd s) tr = window s' /\
      (r <= 0 -> dies = false /\ s' = s /\ bp s = 0 /\ got (bfd s) tr = []) /\
      (0 < r -> r = bp s')
  end.
Proof.
  intros op dies W size s tr o R L (I1 & I2 & I3 & I4) SZ FD. unfold ofeed in R.
  destruct (Z.eqb_spec (bp s) 0) as [E|E]; cbn [negb] in R.
  2:{ destruct R as [-> ->]. split; [constructor|]. cbn [got]. rewrite app_nil_r. split; [repeat split; assumption|]. split; auto. split; auto.
      split; [lia|auto]. }
  assert (WE : window s = []) by (unfold window; rewrite E; reflexivity).
  apply runs_obind in R as [([[r e] b] & t1 & t2 & -> & R1 & R2)|[(y & R1 & ->)|[[R1 ->]|[R1 ->]]]].
  - apply fine_app in L as [L1 L2]. pose proof (ooneread_ok op dies W _ _ _ _ _ _ R1 L1 ltac:(lia) FD) as (FR & G & B & BB & RR & LR).
    destruct (Z.leb_spec r 0).
    + destruct R2 as [-> ->]. rewrite app_nil_r. split; auto. rewrite G, WE. assert (b = []) as -> by (eapply nil_of_len; eauto).
      cbn [app]. split; [repeat split; assumption|]. split; auto. split; auto. split; [|lia]. intros _. split; auto. destruct dies; auto. specialize (LR eq_refl). lia.
    + destruct (copyin_ok (bx s) 0 b r) as (d & Ed & D1 & D2 & D3 & D4); try lia.
      rewrite Ed in R2. cbn [lift pbind] in R2. rewrite Z.add_0_l in *. change (firstn (Z.to_nat 0) (bx s)) with (@nil Z) in D2. cbn [app] in D2.
      rewrite (firstn_all2 b) in D2 by (unfold len in B; lia).
      assert (SH : exists x', (if 0 <? bn s - r then shift_up (Z.to_nat r) (bn s - r) d else Ok d) = Ok x' /\ len x' = len d /\
         firstn (Z.to_nat r) (skipn (Z.to_nat (bn s - r)) x') = b).
      { destruct (Z.ltb_spec 0 (bn s - r)).
        - destruct (shift_up_ok (Z.to_nat r) (bn s - r) d ltac:(lia)) as (x' & E' & L' & H1 & H2). { unfold len in *. lia. }
          exists x'. split; auto. split; [unfold len; lia|]. rewrite <- D2. apply nth_error_ext. intros k.
          rewrite !nth_error_firstn, nth_error_skipn. destruct (Nat.ltb_spec k (Z.to_nat r)); auto.
        - exists d. split; auto. split; auto. replace (Z.to_nat (bn s - r)) with O by lia. exact D2. }
      destruct SH as (x' & Ex & Lx & WX). rewrite Ex in R2. cbn [lift pbind] in R2. destruct R2 as [-> ->]. rewrite app_nil_r, G, WE. cbn [app bp bn bx bfd].
      split; auto. split; [repeat split; cbn; lia|]. split; auto. split; [unfold window; cbn; auto|]. split; [lia|auto].
  - pose proof (ooneread_ok op dies W _ _ _ _ _ _ R1 L ltac:(lia) FD) as (FR & G & B & BB). auto.
  - pose proof (ooneread_ok op dies W _ _ _ _ _ _ R1 L ltac:(lia) FD) as (FR & []).
  - pose proof (ooneread_ok op dies W _ _ _ _ _ _ R1 L ltac:(lia) FD) as (FR & G). auto.
Qed.

Lemma oget1_ok : forall op dies, rspec op dies -> forall size s tr o, runs (oget fuel op s 1) tr o -> fine tr -> rinv size s -> 1 < size -> fdok (bfd s) -> bytes (window s) ->
  Forall (rd (bfd s)) (core tr) /\
  match o with
  | Wrong => False
  | Cut => window s = [] /\ got (bfd s) tr = []
  | Fin (Exit y) => y = 111 /\ failed (crw c) tr /\ window s = [] /\ got (bfd s) tr = []
  | Fin (Go (r, e, b, s')) => rinv size s' /\ bfd s' = bfd s /\ window s ++ got (bfd s) tr = b ++ window s' /\
      ((r = 1 /\ exists ch, b = [ch]) \/ (r <> 1 /\ dies = false))
  end.
Proof.
  intros op dies W size s tr o R L I SZ FD BW. pose proof I as (I1 & I2 & I3 & I4). unfold oget in R.
  change (1 <? 0) with false in R. cbn [negb] in R. destruct (Z.ltb_spec 0 (bp s)) as [P|P].
  { destruct (getthis_ok size s 1 I ltac:(lia)) as (b & s' & E & A1 & A2 & A3 & A4 & _). rewrite E in R. cbn [lift pbind] in R.
    destruct R as [-> ->]. split; [constructor|]. cbn [got]. rewrite app_nil_r. split; auto. split; auto. split; auto. left. split; [lia|].
    destruct b as [|ch [|ch2 b]]; [rewrite len_nil in A4; lia|eauto|]. rewrite !len_cons in A4. pose proof (len_nonneg _ b). lia. }
  assert (WE : window s = []). { unfold window. replace (Z.to_nat (bp s)) with O by lia. reflexivity. }
  destruct (Z.leb_spec (bn s) 1) as [B|B]; [lia|].
  apply runs_obind in R as [([[r e] s1] & t1 & t2 & -> & R1 & R2)|[(y & R1 & ->)|[[R1 ->]|[R1 ->]]]].
  - apply fine_app in L as [L1 L2]. destruct (ofeed_ok op dies W _ _ _ _ R1 L1 I ltac:(lia) FD) as (FR & J & F & WW & H0 & H1).
    rewrite core_app, got_app, Forall_app. destruct (Z.leb_spec r 0) as [RL|RL].
    + destruct (H0 RL) as (D & -> & _ & G). destruct R2 as [-> ->]. split; [split; [auto|constructor]|]. rewrite G. cbn [app got]. rewrite app_nil_r.
      split; auto. split; auto. split; auto. right. split; [lia|auto].
    + destruct (getthis_ok size s1 1 J ltac:(lia)) as (b & s' & E & A1 & A2 & A3 & A4 & _). rewrite E in R2. cbn [lift pbind] in R2.
      destruct R2 as [-> ->]. split; [split; [auto|constructor]|]. cbn [got]. rewrite app_nil_r, WW, A3. split; auto. split; [congruence|]. split; auto.
      specialize (H1 RL). left. split; [lia|].
      destruct b as [|ch [|ch2 b]]; [rewrite len_nil in A4; lia|eauto|]. rewrite !len_cons in A4. pose proof (len_nonneg _ b). lia.
  - destruct (ofeed_ok op dies W _ _ _ _ R1 L I ltac:(lia) FD) as (FR & -> & G1 & G2 & G3). auto.
  - destruct (ofeed_ok op dies W _ _ _ _ R1 L I ltac:(lia) FD) as (FR & []).
  - destruct (ofeed_ok op dies W _ _ _ _ R1 L I ltac:(lia) FD) as (FR & G1 & G2). auto.
Qed.

Lemma got_bytes : forall fd tr, legal tr -> bytes (got fd tr).
Proof.
  intros fd tr L. induction tr as [|[k a] tr IH]; [constructor|]. apply legal_cons in L as [A L]. cbn [got]. destruct k; auto.
  destruct (fd0 =? fd); auto. apply Forall_app. split; [|exact (IH L)]. cbn [sys_ok] in A. destruct A as [[_ ->]|(_ & _ & A)]; [constructor|exact A].
Qed.

Lemma ogetc_ok : forall size s tr o, runs (ogetc fuel c s) tr o -> fine tr -> rinv size s -> 1 < size -> fdok (bfd s) -> bytes (window s) ->
  Forall (rd (bfd s)) (core tr) /\
  match o with
  | Wrong => False
  | Cut => window s = [] /\ got (bfd s) tr = []
  | Fin (Exit y) => y = 111 /\ failed (crw c) tr /\ window s = [] /\ got (bfd s) tr = []
  | Fin (Go (ch, s')) => rinv size s' /\ bfd s' = bfd s /\ window s ++ got (bfd s) tr = ch :: window s' /\ is_byte ch /\ bytes (window s')
  end.
Proof.
  intros size s tr o R F I SZ FD BW.
  assert (BB : forall ch s', window s ++ got (bfd s) tr = ch :: window s' -> is_byte ch /\ bytes (window s')).
  { intros ch s' E. assert (Q : bytes (window s ++ got (bfd s) tr)) by (apply Forall_app; split; auto; apply got_bytes, F). rewrite E in Q. apply Forall_cons_iff in Q. exact Q. }
  unfold ogetc in R. destruct (Z.ltb_spec 0 (bp s)) as [P|P].
  - pose proof I as (I1 & I2 & I3 & I4).
    unfold ld in R. destruct (nth_error (bx s) (Z.to_nat (bn s))) as [ch|] eqn:E.
    2:{ apply nth_error_None in E. unfold len in I4. lia. }
    cbn [lift pbind] in R. destruct R as [-> ->]. split; [constructor|].
    assert (WS : window s = ch :: window (buffer_SEEK s 1)).
    { unfold window, buffer_SEEK. cbn [bp bn bx]. replace (Z.to_nat (bp s)) with (Datatypes.S (Z.to_nat (bp s - 1))) by lia.
      replace (Z.to_nat (bn s + 1)) with (Z.to_nat (bn s) + 1)%nat by lia. rewrite <- skipn_skipn.
      rewrite <- (Nat.add_0_r (Z.to_nat (bn s))), <- nth_error_skipn in E.
      destruct (skipn (Z.to_nat (bn s)) (bx s)) as [|y l]; cbn in E; [discriminate|]. inv E. reflexivity. }
    cbn [got] in *. rewrite app_nil_r in *. split; [unfold buffer_SEEK; repeat split; cbn; lia|]. split; auto.
  - apply runs_obind in R as [([[[r e] b] s1] & t1 & t2 & -> & R1 & R2)|[(y & R1 & ->)|[[R1 ->]|[R1 ->]]]].
    + apply fine_app in F as [F1 F2]. destruct (oget1_ok _ _ read_spec _ _ _ _ R1 F1 I SZ FD BW) as (FR & J & E1 & E2 & H).
      destruct H as [(-> & ch & ->)|[_ H]]; [|discriminate]. destruct R2 as [-> ->]. rewrite app_nil_r in *. split; auto.
    + destruct (oget1_ok _ _ read_spec _ _ _ _ R1 F I SZ FD BW) as (FR & H). auto.
    + destruct (oget1_ok _ _ read_spec _ _ _ _ R1 F I SZ FD BW) as (FR & []).
    + destruct (oget1_ok _ _ read_spec _ _ _ _ R1 F I SZ FD BW) as (FR & H). auto.
Qed.
End Ops.
