(** The way to jailed_main() and to the other two processes, with the numbers of the descriptors: no undefined
    behaviour on the way.  The counterpart of DescP.v, which says what holds of the calls. *)
From Verif.Model Require Import Base Sys Io Framed Str Inet Config Parsenum Fdio Relay Session Tlsphase Jail Pem Scalar Keyjail Proxy Conninfo Options Main.
From Verif.Spec Require Import Flow Process Fdtable.
From Verif.Proof Require Import Tac SysP CallsP SafeP MainCallsP MainP ChildP DescP.

(** a part without undefined behaviour, whatever the answers *)
Definition total {R} (p : prog R) : Prop := forall tr o, runs p tr o -> o <> Wrong.
Lemma total_ret : forall R (x : R), total (Ret x). Proof. intros R x tr o [_ ->]. discriminate. Qed.
Lemma total_halt : forall R, total (@Halt R). Proof. intros R tr o [_ ->]. discriminate. Qed.
Lemma total_do : forall R c (k : ans -> prog R), (forall a, total (k a)) -> total (Do c k).
Proof. intros R c k H tr o [[_ ->]|(a & t & -> & R1)]; [discriminate|]. exact (H a _ _ R1). Qed.
Lemma total_bind : forall S R (p : prog S) (f : S -> prog R), total p -> (forall a, total (f a)) -> total (pbind p f).
Proof.
  intros S R p f P F tr o RU. apply runs_bind in RU as [(a & t1 & t2 & -> & R1 & R2)|[[R1 ->]|[R1 ->]]]; [exact (F a _ _ R2)|destruct (P _ _ R1 eq_refl)|discriminate].
Qed.
Ltac total1 :=
  match goal with
  | |- total (Ret _) => apply total_ret
  | |- total Halt => apply total_halt
  | |- total (Do _ _) => apply total_do; intro
  | |- total (sys1 _) => unfold sys1
  | |- total (do _) => unfold do
  | |- total (pbind _ _) => apply total_bind; [|intro]
  | |- total (if ?b then _ else _) => destruct b
  | |- total (match ?x with _ => _ end) => destruct x
  end.
Lemma blocking_total : forall fd b, total (blocking fd b).
Proof. intros. unfold blocking. repeat total1. Qed.
Lemma alarm_total : forall n, total (alarm n).
Proof. intros. unfold alarm. repeat total1. Qed.
Lemma signal_total : forall n d, total (signal n d).
Proof. intros. unfold signal. repeat total1. Qed.
Lemma rand_total : forall n, total (randombytes n).
Proof. intros. unfold randombytes. repeat total1. Qed.

Section Except.
(** where undefined behaviour is allowed *)
Variable EX : trace -> Prop.
(** From history [h], as long as the answers meet [A]: undefined behaviour only after [EX]. *)
Definition sw {R} (A : trace -> event -> Prop) (h : trace) (p : prog R) : Prop := forall tr o, runs p tr o -> holds A h tr -> o = Wrong -> EX (h ++ tr).
Lemma sw_ret : forall R A h (r : R), sw A h (Ret r).
Proof. intros R A h r tr o [_ ->] _. discriminate. Qed.
Lemma sw_halt : forall R A h, sw A h (@Halt R).
Proof. intros R A h tr o [_ ->] _. discriminate. Qed.
Lemma sw_do : forall R (A : trace -> event -> Prop) h c (k : ans -> prog R), (forall a, A h (c, a) -> sw A (h ++ [(c, a)]) (k a)) -> sw A h (Do c k).
Proof.
  intros R A h c k H tr o RU L. destruct RU as [[-> ->]|(a & t & -> & RU)]; [discriminate|].
  apply holds_cons in L as [L1 L2]. intros E. pose proof (H a L1 t o RU L2 E) as X. rewrite <- app_assoc in X. exact X.
Qed.
Lemma sw_quiet : forall S R (A : trace -> event -> Prop) (P : sys -> Prop) (J : trace -> Prop) h (p : prog S) (f : S -> prog R),
  calls P p -> total p -> J h -> (forall t e, J t -> P (fst e) -> J (t ++ [e])) -> (forall r h', J h' -> sw A h' (f r)) -> sw A h (pbind p f).
Proof.
  intros S R A P J h p f C TP JH ST F tr o RU L. apply runs_bind in RU as [(a & t1 & t2 & -> & R1 & R2)|[[R1 ->]|[R1 ->]]]; [|destruct (TP _ _ R1 eq_refl)|discriminate].
  apply holds_app in L as [_ L2]. rewrite app_assoc. apply (F a (h ++ t1)); auto. pose proof (C _ _ R1) as X. clear - JH ST X. revert h JH. induction X as [|e t E X IH]; intros h JH; [rewrite app_nil_r; exact JH|].
  specialize (IH (h ++ [e]) (ST _ _ JH E)). rewrite <- app_assoc in IH. exact IH.
Qed.

Section Desc.
Variable T0 : table.
Notation fds := (descriptors T0).
Notation now := (DescP.now T0).
Notation base := (DescP.base T0).
Notation four := (DescP.four T0).
Notation four_table := (DescP.four_table T0).
Notation mine := (DescP.mine T0).
Notation own_table := (DescP.own_table T0).
Notation seven := (DescP.seven T0).
Notation f_dup := (DescP.f_dup T0).
Notation f_new := (DescP.f_new T0).
Notation f_order := (DescP.f_order T0).
Notation seven_of := (DescP.seven_of T0).
Variable A : trace -> event -> Prop.
Hypothesis HA : forall t e, A t e -> fd_answer (fds t) e.

Lemma sw_calm : forall R (p : prog R) (f : R -> prog ending) l T n h, calls calmer p -> total p -> now l T n h -> (forall r h', now l T n h' -> sw A h' (f r)) -> sw A h (pbind p f).
Proof.
  intros R p f l T n h C TP N K. apply (sw_quiet _ _ A calmer (now l T n)); auto. intros t e NT CE. apply now_neutral; auto; try apply CE. apply calmer_fork. exact CE.
Qed.
Ltac heres := repeat split; discriminate.

Lemma sw_sys : forall c (f : ans -> prog ending) h, (forall a, A h (c, a) -> sw A (h ++ [(c, a)]) (f a)) -> sw A h (a <~ sys1 c ;; f a).
Proof. intros c f h K. unfold sys1. cbn [pbind]. apply sw_do. exact K. Qed.

Lemma sw_close : forall fd (f : unit -> prog ending) l T n h, now l T n h -> (forall h', now l (set T fd None) n h' -> sw A h' (f tt)) -> sw A h (u <~ do (Close fd) ;; f u).
Proof.
  intros fd f l T n h N K. unfold do, sys1. cbn [pbind]. apply sw_do. intros a HAa. apply K.
  destruct N as [N1 N2 N3 N4]. constructor; [apply forks_other; auto|apply Forall_app; split; auto; repeat constructor| |].
  - intros g. rewrite fds_app. unfold step. cbn [fst snd tab]. unfold set. destruct (g =? fd); auto.
  - rewrite fds_app. exact N4.
Qed.
Lemma sw_dup : forall fd m k l T n h, now l T n h -> (forall h', T m = None -> T fd <> None -> now l (set T m (match T fd with Some (o, _) => Some (o, false) | None => None end)) n h' -> sw A h' k) ->
  0 <= m -> sw A h (dup fd m k).
Proof.
  intros fd m k l T n h N K M. unfold dup. apply sw_sys. intros a HAa. apply HA in HAa as (_ & H1 & H2 & _). cbn [fst snd] in *.
  destruct (Z.eqb_spec (ret a) m) as [E|]; [|apply sw_ret]. destruct N as [N1 N2 N3 N4]. destruct H1 as (F & _ & _); [right; right; apply calling_same|lia|].
  assert (TF : T fd <> None). { intros X. specialize (H2 fd [] eq_refl). rewrite N3 in H2. specialize (H2 X). lia. }
  apply K; [rewrite <- N3, <- E; exact F|exact TF|].
  constructor; [apply forks_other; auto|apply Forall_app; split; auto; repeat constructor; cbn [fst]; discriminate| |].
  - intros g. rewrite fds_app. unfold step. cbn [fst snd]. destruct (Z.eqb_spec (ret a) (-1)); [lia|]. rewrite !(calling_not (bs "dup")) by discriminate. rewrite calling_same. cbn [orb tab nth].
    unfold set. rewrite E. rewrite !N3. reflexivity.
  - rewrite fds_app. unfold step. cbn [fst snd]. destruct (Z.eqb_spec (ret a) (-1)); [lia|]. rewrite !(calling_not (bs "dup")) by discriminate. rewrite calling_same. exact N4.
Qed.
Lemma sw_cloexec : forall fd (f : unit -> prog ending) o b l T n h, now l T n h -> T fd = Some (o, b) -> (forall h', now l (set T fd (Some (o, true))) n h' -> sw A h' (f tt)) ->
  sw A h (u <~ do (Other (bs "fcntl") [fd; F_SETFD; 1] []) ;; f u).
Proof.
  intros fd f o b l T n h N E K. unfold do, sys1. cbn [pbind]. apply sw_do. intros a HAa. apply K.
  apply HA in HAa as (_ & _ & _ & H1). cbn [fst snd] in H1. destruct N as [N1 N2 N3 N4]. specialize (H1 fd 1 [] eq_refl). rewrite N3, E in H1. specialize (H1 ltac:(discriminate)).
  assert (S : step (fds h) (Other (bs "fcntl") [fd; F_SETFD; 1] [], a) = mkfds (set (tab (fds h)) fd (Some (o, true))) (pipecount (fds h))).
  { unfold step. cbn [fst snd]. destruct (Z.eqb_spec (ret a) (-1)); [contradiction|]. rewrite !(calling_not (bs "fcntl")) by discriminate. rewrite calling_same. cbn [orb andb nth].
    unfold F_SETFD. cbn [Z.eqb Pos.eqb andb]. rewrite N3, E. reflexivity. }
  constructor; [apply forks_other; auto|apply Forall_app; split; auto; repeat constructor; cbn [fst]; discriminate| |].
  - intros g. rewrite fds_app, S. cbn [tab]. unfold set. rewrite N3. reflexivity.
  - rewrite fds_app, S. exact N4.
Qed.
Lemma sw_pipe : forall k l T n h, now l T n h ->
  (forall r w h', r <> w -> lowest T w r -> lowest T r w -> now l (pipe_table T (S n) r w) (S n) h' -> sw A h' (k r w)) ->
  sw A h (open_pipe k).
Proof.
  intros k l T n h N K. unfold open_pipe. apply sw_sys. intros a HAa. apply HA in HAa as (H1 & _). cbn [fst snd] in H1.
  destruct (Z.eqb_spec (ret a) (-1)); [apply sw_ret|]. cbv zeta. destruct (H1 (calling_same _ _ _ _) ltac:(assumption)) as (D & F1 & F2).
  set (r := nth 0 (data a) 0) in *. set (w := nth 1 (data a) 0) in *.
  assert (LO : forall x y, fresh (fds h) x y -> lowest T x y). { intros x y (X1 & X2 & X3). destruct N as [_ _ N3 _]. split; [rewrite <- N3; exact X1|]. split; [exact X2|]. intros f Hf Hn. rewrite <- N3. apply X3; auto. }
  assert (N' : now l (Fdtable.set (Fdtable.set T r (Some (ReadEnd (S n), false))) w (Some (WriteEnd (S n), false))) (S n) (h ++ [(Other (bs "pipe") [] [], a)])).
  { destruct N as [N1 N2 N3 N4]. constructor; [apply forks_other; auto|apply Forall_app; split; auto; repeat constructor; cbn [fst]; discriminate| |].
    - intros g. rewrite fds_app. unfold step. cbn [fst snd]. destruct (Z.eqb_spec (ret a) (-1)); [contradiction|]. rewrite calling_same. cbn [tab]. rewrite N4. unfold Fdtable.set. fold r w. rewrite N3. reflexivity.
    - rewrite fds_app. unfold step. cbn [fst snd]. destruct (Z.eqb_spec (ret a) (-1)); [contradiction|]. rewrite calling_same. cbn [pipecount]. rewrite N4. reflexivity. }
  eapply sw_cloexec with (fd := r) (o := ReadEnd (S n)) (b := false); [exact N'| |].
  { unfold Fdtable.set. destruct (Z.eqb_spec r w); [contradiction|]. rewrite Z.eqb_refl. reflexivity. }
  clear N'. intros h1 N'. eapply sw_calm; [apply blocking_calmer|apply blocking_total|exact N'|]. intros _ h2 N2.
  eapply sw_cloexec with (fd := w) (o := WriteEnd (S n)) (b := false); [exact N2| |].
  { unfold Fdtable.set. destruct (Z.eqb_spec w r); [congruence|]. rewrite Z.eqb_refl. reflexivity. }
  intros h3 N3. eapply sw_calm; [apply blocking_calmer|apply blocking_total|exact N3|]. intros _ h4 N5. apply K; auto.
  eapply now_ext; [exact N5|]. intros f. unfold pipe_table, Fdtable.set. destruct (Z.eqb_spec f w); [reflexivity|]. destruct (Z.eqb_spec f r); reflexivity.
Qed.

(** ** The chain of the processes *)
Variable I : inet.
Variable stream : list Z -> list Z -> nat -> Z.
Variable fuel : nat.
Variables junk portbuf line0 key0 : list Z.
Variable env : environment.
Variable nojail : bool.
Hypothesis START : start_table T0.

Ltac nx := match goal with
  | |- sw _ _ (pbind (blocking _ _) _) => eapply sw_calm; [apply blocking_calmer|apply blocking_total|eassumption|]; intros ? ? ?
  | |- sw _ _ (pbind (alarm _) _) => eapply sw_calm; [apply alarm_calmer|apply alarm_total|eassumption|]; intros ? ? ?
  | |- sw _ _ (pbind (signal _ _) _) => eapply sw_calm; [apply signal_calmer|apply signal_total|eassumption|]; intros ? ? ?
  | |- sw _ _ (pbind (do (Close _)) _) => eapply sw_close; [eassumption|]; intros ? ?
  | N : now _ _ _ ?h |- sw _ ?h (dup _ _ _) => eapply sw_dup; [exact N| |unfold Z.le; discriminate]; clear N; intros ? ? ? N
  | |- sw _ _ (Ret (Exit 111)) => apply sw_ret
  end.

Lemma sw_open : forall nm (f : ans -> prog ending) l T n h, now l T n h ->
  (forall a h', ret a = -1 -> now l T n h' -> sw A h' (f a)) ->
  (forall a h', ret a <> -1 -> lowest T (-1) (ret a) -> now l (set T (ret a) (Some (File, false))) n h' -> sw A h' (f a)) ->
  sw A h (a <~ sys1 (Other (bs "open") [] nm) ;; f a).
Proof.
  intros nm f l T n h N K1 K2. apply sw_sys. intros a HAa. apply HA in HAa as (_ & H1 & _). cbn [fst snd] in H1.
  destruct (Z.eq_dec (ret a) (-1)) as [E|E].
  - apply K1; auto. destruct N as [N1 N2 N3 N4].
    assert (S : step (fds h) (Other (bs "open") [] nm, a) = fds h) by (unfold step; cbn [fst snd]; destruct (Z.eqb_spec (ret a) (-1)); [reflexivity|contradiction]).
    constructor; [apply forks_other; auto|apply Forall_app; split; auto; repeat constructor; cbn [fst]; discriminate|intros g; rewrite fds_app, S; apply N3|rewrite fds_app, S; exact N4].
  - destruct H1 as (F1 & F2 & F3); [left; apply calling_same|exact E|]. destruct N as [N1 N2 N3 N4]. apply K2; auto.
    + split; [rewrite <- N3; exact F1|]. split; [exact F2|]. intros g Hg Hn. rewrite <- N3. apply F3; auto.
    + assert (S : step (fds h) (Other (bs "open") [] nm, a) = mkfds (set (tab (fds h)) (ret a) (Some (File, false))) (pipecount (fds h))).
      { unfold step; cbn [fst snd]; destruct (Z.eqb_spec (ret a) (-1)); [contradiction|]. rewrite !(calling_not (bs "open")) by discriminate. rewrite calling_same. reflexivity. }
      constructor; [apply forks_other; auto|apply Forall_app; split; auto; repeat constructor; cbn [fst]; discriminate| |rewrite fds_app, S; exact N4].
      intros g; rewrite fds_app, S. cbn [tab]. unfold set. rewrite N3. reflexivity.
Qed.
Lemma sw_reserve : forall k h, now [] T0 0 h -> (forall h', now [] (base true) 0 h' -> sw A h' k) -> sw A h (reserve fuel k).
Proof.
  intros k h N K. unfold reserve.
  assert (CF : forall n, calls calmer (sys1 (Other (bs "fstat") [n] []))) by (intros; apply calls_sys1; repeat split; discriminate).
  eapply sw_calm; [apply CF|repeat total1|exact N|]. clear N. intros a1 h1 N. destruct (negb _); [nx|].
  eapply sw_calm; [apply CF|repeat total1|exact N|]. clear N. intros a2 h2 N. destruct (negb _); [nx|].
  assert (L : forall f T h, now [] T 0 h -> (forall g, T g = T0 g \/ (T0 g = None /\ 0 <= g <= 6 /\ T g = Some (File, false))) -> sw A h (devnull f k)).
  { clear h1 h2 N. induction f as [|f IH]; intros T h3 N INV; cbn [devnull]; [apply sw_halt|]. eapply sw_open; [exact N| |].
    - intros a h4 E N1. rewrite E. cbn [Z.eqb Pos.eqb]. nx.
    - intros a h4 E (LO1 & LO2 & LO3) N1. destruct (Z.eqb_spec (ret a) (-1)); [contradiction|]. destruct (Z.ltb_spec 6 (ret a)).
      + eapply sw_close; [exact N1|]. intros h5 N2. apply K. eapply now_ext; [exact N2|]. intros g. unfold set, base. destruct (Z.eqb_spec g (ret a)) as [->|G].
        * destruct (INV (ret a)) as [<-|(_ & X & _)]; [|lia]. rewrite LO1. destruct (Z.leb_spec (ret a) 6); [lia|]. rewrite andb_false_r. reflexivity.
        * destruct (INV g) as [E1|(E1 & E2 & E3)].
          -- rewrite E1. destruct (T0 g) eqn:TG; [reflexivity|]. cbn [andb]. destruct (Z.leb_spec 0 g), (Z.leb_spec g 6); cbn [andb]; try reflexivity. exfalso. apply (LO3 g); [lia|lia|exact E1].
          -- rewrite E3, E1. cbn [andb]. destruct (Z.leb_spec 0 g); [|lia]. destruct (Z.leb_spec g 6); [reflexivity|lia].
      + eapply IH; [exact N1|]. intros g. unfold set. destruct (Z.eqb_spec g (ret a)) as [->|G]; [|apply INV]. right. destruct (INV (ret a)) as [X|(X1 & X2 & X3)]; [|congruence]. split; [congruence|]. split; [lia|reflexivity]. }
  eapply L; [exact N|]. auto.
Qed.
Lemma sw_fork : forall (f : ans -> prog ending) l T n h, now l T n h -> (forall a h', now (l ++ [ret a]) T n h' -> sw A h' (f a)) -> sw A h (a <~ sys1 (Other (bs "fork") [] []) ;; f a).
Proof.
  intros f l T n h N K. apply sw_sys. intros a _. apply K. destruct N as [N1 N2 N3 N4].
  assert (S : step (fds h) (Other (bs "fork") [] [], a) = fds h) by (apply step_neutral; repeat split; discriminate).
  constructor; [|apply Forall_app; split; auto; repeat constructor; cbn [fst]; discriminate|intros g; rewrite fds_app, S; apply N3|rewrite fds_app, S; exact N4].
  rewrite forks_app, N1. unfold forks. cbn [filter]. rewrite calling_same. reflexivity.
Qed.
Ltac ev H := unfold pipe_table, set in H; repeat (match type of H with context [?a =? ?b] => destruct (Z.eqb_spec a b) end; try discriminate H).

Lemma sw_start : forall cmd h, now [] T0 0 h -> 
  (forall p a h', ret a = 0 -> four (delayed (settings cmd)) p -> now [ret a] (four_table (delayed (settings cmd)) p) 4 h' -> sw A h' (child_main I fuel junk portbuf cmd p)) ->
  (forall p a h', ret a <> 0 -> four (delayed (settings cmd)) p -> now [ret a] (four_table (delayed (settings cmd)) p) 4 h' -> sw A h' (parent_main I stream fuel line0 key0 env nojail cmd p (ret a))) ->
  sw A h (start_child I stream fuel junk portbuf line0 key0 env nojail cmd).
Proof.
  intros cmd h N KC KP. unfold start_child. nx. clear N.
  set (rest := open_pipe _).
  assert (REST : forall h', now [] (base (delayed (settings cmd))) 0 h' -> sw A h' rest).
  { set (d := delayed (settings cmd)) in *. clear - HA START KC KP. intros h N. unfold rest. clear rest.
    eapply sw_pipe; [exact N|]. clear N. intros r1 w1 h1 D1 (R1 & R1' & _) (W1 & W1' & _) N.
    eapply sw_pipe; [exact N|]. clear N. intros r2 w2 h2 D2 (R2 & R2' & R2L) (W2 & W2' & _) N.
    eapply sw_pipe; [exact N|]. clear N. intros r3 w3 h3 D3 (R3 & R3' & _) (W3 & W3' & _) N.
    eapply sw_pipe; [exact N|]. clear N. intros r4 w4 h4 D4 (R4 & R4' & _) (W4 & W4' & _) N.
    assert (ORD : r2 < r3).
    { clear - R2L R3 R3'. destruct (Z.lt_trichotomy r2 r3) as [X|[X|X]]; [exact X| |]; exfalso.
      - subst r3. unfold pipe_table at 1 in R3. unfold set in R3. rewrite Z.eqb_refl in R3. destruct (_ =? _); discriminate R3.
      - assert (N : r3 <> w2) by (intros ->; unfold pipe_table at 1 in R3; unfold set in R3; rewrite Z.eqb_refl in R3; discriminate R3).
        apply (R2L r3); [lia|exact N|]. unfold pipe_table at 1 in R3. unfold set at 1 2 in R3. destruct (Z.eqb_spec r3 w2); [contradiction|]. destruct (Z.eqb_spec r3 r2); [lia|]. exact R3. }
    clear R2L. ev R2. ev W2. ev R3. ev W3. ev R4. ev W4. cbv zeta.
    assert (F4 : four d (mkpipes r1 w1 r2 w2 r3 w3 r4 w4)).
    { constructor; cbn [toc_r toc_w fromc_r fromc_w fromctl_r fromctl_w toctl_r toctl_w].
      - repeat (apply NoDup_cons; [intros X; repeat (destruct X as [X|X]; [congruence|]); destruct X|]). apply NoDup_nil.
      - repeat (apply Forall_cons; [apply base_range; assumption|]). apply Forall_nil.
      - exact ORD. }
    eapply sw_fork; [exact N|]. clear N. cbn [app]. intros a h5 N. destruct (Z.eqb_spec (ret a) (-1)); [nx|]. destruct (Z.eqb_spec (ret a) 0); [eapply KC|eapply KP]; eauto. }
  destruct (delayed (settings cmd)).
  - eapply sw_reserve; [eassumption|]. exact REST.
  - apply REST. eapply now_ext; [eassumption|]. intros f. unfold base. cbn [andb]. destruct (T0 f); reflexivity.
Qed.

Ltac nodups D := repeat (apply NoDup_cons_iff in D; let H := fresh "ND" in destruct D as [H D]; cbn [In] in H).
Ltac differ X := exfalso; let Y := fresh in assert (Y := eq_sym X);
  match goal with H : ~ (_ \/ _) |- _ => solve [apply H; clear - X Y; auto 10] end.
Ltac neq1 := match goal with |- context [?a =? ?b] => destruct (Z.eqb_spec a b) as [X|X]; [differ X|clear X] end.
Lemma sw_dup1 : forall o b fd m k l T n h, now l T n h -> T fd = Some (o, b) -> (forall h', now l (set T m (Some (o, false))) n h' -> sw A h' k) -> 0 <= m -> sw A h (dup fd m k).
Proof. intros o b fd m k l T n h N E K M. eapply sw_dup; [exact N| |exact M]. intros h' _ _ N'. rewrite E in N'. apply K. exact N'. Qed.
Ltac calmx N := match goal with
  | |- sw _ _ (pbind (blocking _ _) _) => eapply sw_calm; [apply blocking_calmer|apply blocking_total|exact N|]; clear N; intros _ ? N
  | |- sw _ _ (pbind (alarm _) _) => eapply sw_calm; [apply alarm_calmer|apply alarm_total|exact N|]; clear N; intros _ ? N
  | |- sw _ _ (pbind (signal _ _) _) => eapply sw_calm; [apply signal_calmer|apply signal_total|exact N|]; clear N; intros _ ? N end.
Ltac closex N := eapply sw_close; [exact N|]; clear N; intros ? N.
Ltac dupx N o := eapply (sw_dup1 o true); [exact N| | |unfold Z.le; discriminate]; [|clear N; intros ? N].
Let own_mine : forall d p, four d p -> mine d p (own_table d p).
Proof. apply DescP.own_mine; auto. Qed.
Let base01 : forall d, base d 0 <> None /\ base d 1 <> None.
Proof. apply DescP.base01; auto. Qed.
Let keyed : forall d p T fd o b, mine d p T -> ~ In fd [toc_w p; fromc_r p; fromctl_r p; toctl_w p; 0; 1] -> T fd = Some (o, b) -> o = File \/ (o = Given fd /\ 2 <= fd).
Proof. apply DescP.keyed; auto. Qed.
Let base_given : forall d fd o b, base d fd = Some (o, b) -> o = File \/ o = Given fd.
Proof. apply DescP.base_given; auto. Qed.
Lemma sw_parent : forall cmd p child h, four (delayed (settings cmd)) p -> now [child] (four_table (delayed (settings cmd)) p) 4 h ->
  (forall T h', now [child; 0] T 6 h' -> key_table T ->
    sw A h' (_ <~ blocking 0 true ;; _ <~ blocking 1 true ;; _ <~ signal SIGPIPE IGN ;; _ <~ signal SIGCHLD DFL ;; _ <~ signal SIGTERM DFL ;;
      acc <~ lift (cstr_opt (jailaccount (settings cmd))) ;; dir <~ lift (cstr (jaildir (settings cmd))) ;;
      _ <~ tls_keyjail stream fuel nojail acc (Some dir) line0 key0 ;; Ret (Exit 0))) ->
  (forall T key fk_r tk_w self h', key <> 0 -> now [child; key] T 7 h' -> seven p fk_r tk_w self T ->
    sw A h' (jailed_main I fuel env nojail cmd p child key fk_r tk_w self)) ->
  sw A h (parent_main I stream fuel line0 key0 env nojail cmd p child).
Proof.
  intros cmd p child h F N KK KW. set (d := delayed (settings cmd)) in *. unfold parent_main.
  do 4 closex N. do 4 calmx N. eapply sw_calm; [apply rand_calmer|apply rand_total|exact N|]. clear N. intros _ h1 N.
  change (now [child] (own_table d p) 4 h1) in N. pose proof (own_mine d p F) as M. pose proof (f_new _ _ F) as W. rewrite Forall_forall in W.
  assert (W4 : Forall (fun f => 2 <= f < 1024) [toc_w p; fromc_r p; fromctl_r p; toctl_w p]).
  { rewrite Forall_forall. intros f IN. apply (W f). clear - IN. cbn [In] in *. tauto. }
  assert (D4 : NoDup [toc_w p; fromc_r p; fromctl_r p; toctl_w p]).
  { pose proof (f_dup _ _ F) as D. nodups D. repeat (apply NoDup_cons; [intros X; cbn [In] in X; repeat (destruct X as [X|X]; [differ X|]); destruct X|]). apply NoDup_nil. }
  generalize dependent (own_table d p). intros T N M. pose proof (f_order _ _ F) as OR. clear F W.
  pose proof M as MM. destruct M as (M1 & M2 & M3 & M4 & M5 & M6 & M7). destruct (base01 d) as [G0 G1]. destruct (base d 0) as [[b0 c0]|] eqn:EB0; [|contradiction]. destruct (base d 1) as [[b1 c1]|] eqn:EB1; [|contradiction]. clear G0 G1.
  eapply sw_pipe; [exact N|]. clear N. intros r5 w5 h2 D5 (R5 & R5' & _) (W5 & W5' & _) N.
  eapply sw_pipe; [exact N|]. clear N. intros r6 w6 h3 D6 (R6 & R6' & _) (W6 & W6' & _) N.
  ev R6. ev W6.
  assert (NT : forall f, T f = None -> f <> toc_w p /\ f <> fromc_r p /\ f <> fromctl_r p /\ f <> toctl_w p /\ f <> 0 /\ f <> 1) by (intros f H; repeat split; eapply none_other; eauto).
  destruct (NT _ R5) as (A1 & A2 & A3 & A4 & A5 & A6). destruct (NT _ W5) as (B1 & B2 & B3 & B4 & B5 & B6).
  destruct (NT _ R6) as (C1 & C2 & C3 & C4 & C5 & C6). destruct (NT _ W6) as (E1 & E2 & E3 & E4 & E5 & E6).
  eapply sw_fork; [exact N|]. clear N. intros a h4 N. cbn [app] in N. destruct (Z.eqb_spec (ret a) (-1)); [nx|]. destruct (Z.eqb_spec (ret a) 0) as [Z0|NZ].
  - rewrite Z0 in N. unfold keyjail_main. calmx N. do 7 closex N.
    dupx N (ReadEnd 6); [unfold pipe_table; rewrite !set_other by congruence; apply set_same|]. closex N.
    dupx N (WriteEnd 5); [unfold pipe_table; rewrite !set_other by congruence; apply set_same|].
    eapply KK; [exact N|]. clear KK KW N. pose proof (fun fd o b => keyed d p T fd o b MM) as KY. clear - KY D5 D6 A1 A2 A3 A4 A5 A6 B1 B2 B3 B4 B5 B6 C1 C2 C3 C4 C5 C6 E1 E2 E3 E4 E5 E6.
    split; [rewrite set_other by discriminate; rewrite set_other by discriminate; apply set_same|]. split; [apply set_same|].
    intros fd o b H. unfold pipe_table, set in H.
    repeat (match type of H with context [fd =? ?g] => let X := fresh "X" in destruct (Z.eqb_spec fd g) as [X|X]; [first [discriminate H|injection H as <- _; auto]|] end).
    right. right. eapply KY; [|exact H]. cbn [In]. intros IN. repeat (destruct IN as [IN|IN]; [congruence|]). exact IN.
  - do 2 closex N. do 2 calmx N. eapply sw_pipe; [exact N|]. clear N. intros rs ws h5 D7 (R7 & R7' & _) (W7 & W7' & _) N.
    eapply KW; [exact NZ|exact N|]. clear KK KW N. pose proof (base_given d) as BG.
    assert (Y0 : T0 0 = Some (b0, c0)). { destruct START as (_ & S0 & _). unfold base in EB0. destruct (T0 0); [exact EB0|contradiction]. }
    assert (Y1 : T0 1 = Some (b1, c1)). { destruct START as (_ & _ & S1). unfold base in EB1. destruct (T0 1); [exact EB1|contradiction]. }
    clear HA START EB0 EB1 NT MM.
    eapply (seven_of p r5 w6 rs ws _ (b0, c0) (b1, c1)); try assumption; try (unfold pipe_table; rewrite !set_other by congruence; solve [assumption|apply set_same]).
    + intros fd o b H. unfold pipe_table, set in H.
      repeat (match type of H with context [fd =? ?g] => let X := fresh "X" in destruct (Z.eqb_spec fd g) as [X|X]; [first [discriminate H|injection H as <- _; left; cbn [In]; clear; auto 10]|] end).
      destruct (M7 _ _ _ H) as [IN|B]; [left; clear - IN; cbn [In] in *; destruct IN as [E|[E|[E|[E|[]]]]]; injection E as _ <-; auto|].
      destruct (BG _ _ _ B) as [->| ->]; [left; cbn [In]; clear; auto 10|right; reflexivity].
    + intros fd b H. unfold pipe_table, set in H.
      repeat (match type of H with context [fd =? ?g] => let X := fresh "X" in destruct (Z.eqb_spec fd g) as [X|X]; [discriminate H|clear X] end).
      destruct (M7 _ _ _ H) as [IN|B]; [clear - IN; cbn [In] in *; destruct IN as [E|[E|[E|[E|[]]]]]; try discriminate E; injection E as <-; reflexivity|].
      destruct (BG _ _ _ B) as [X|X]; discriminate X.
    + intros fd b H. unfold pipe_table, set in H.
      repeat (match type of H with context [fd =? ?g] => let X := fresh "X" in destruct (Z.eqb_spec fd g) as [X|X]; [discriminate H|clear X] end).
      destruct (M7 _ _ _ H) as [IN|B]; [clear - IN; cbn [In] in *; destruct IN as [E|[E|[E|[E|[]]]]]; try discriminate E; injection E as <-; reflexivity|].
      destruct (BG _ _ _ B) as [X|X]; discriminate X.
    + intros fd b H. unfold pipe_table, set in H.
      repeat (match type of H with context [fd =? ?g] => let X := fresh "X" in destruct (Z.eqb_spec fd g) as [X|X]; [discriminate H|clear X] end).
      destruct (M7 _ _ _ H) as [IN|B]; [clear - IN; cbn [In] in *; destruct IN as [E|[E|[E|[E|[]]]]]; try discriminate E; injection E as <-; reflexivity|].
      destruct (BG _ _ _ B) as [X|X]; discriminate X.
    + apply (Forall_app _ [toc_w p; fromc_r p; fromctl_r p; toctl_w p] [r5; w6]). split; [exact W4|]. repeat constructor; clear - A5 A6 E5 E6 R5' W6'; lia.
    + clear - W7'. lia.
Qed.

End Desc.
End Except.
