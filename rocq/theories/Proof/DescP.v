(** The descriptors of the three processes. *)
From Verif.Model Require Import Base Sys Io Framed Str Inet Config Parsenum Fdio Relay Session Tlsphase Jail Pem Scalar Keyjail Proxy Conninfo Options Main.
From Verif.Spec Require Import Flow Process Fdtable.
From Verif.Proof Require Import Tac SysP CallsP SafeP MainCallsP MainP ChildP.

(** calls of the engine *)
Definition noengine (c : sys) : Prop := match c with Other n _ _ => firstn 10 n <> bs "tls_engine" /\ n <> bs "clientcrt" | _ => True end.
(** neither a transfer nor a call of the engine *)
Definition calm (c : sys) : Prop := still c /\ noengine c.
(** no effect on descriptors *)
Definition neutral (c : sys) : Prop :=
  match c with
  | Close _ => False
  | Other n args _ => n <> bs "pipe" /\ n <> bs "open" /\ n <> bs "open_read" /\ n <> bs "dup" /\ (n = bs "fcntl" -> (nth 1 args 0 =? 2) = false)
  | _ => True
  end.
Lemma calling_other : forall n args d a m, calling m (Other n args d, a) = true <-> n = m.
Proof. intros. unfold calling. cbn [fst]. destruct (list_eq_dec Z.eq_dec n m); split; congruence. Qed.
Lemma calling_not : forall n args d a m, n <> m -> calling m (Other n args d, a) = false.
Proof. intros. unfold calling. cbn [fst]. destruct (list_eq_dec Z.eq_dec n m); congruence. Qed.
Lemma calling_same : forall n args d a, calling n (Other n args d, a) = true.
Proof. intros. apply calling_other. reflexivity. Qed.
Lemma step_neutral : forall s e, neutral (fst e) -> step s e = s.
Proof.
  intros s [c a] N. unfold step. cbn [fst snd] in *. destruct c as [fd n|fd b|l t|n| |n rd wr us|fd|fd how|n args d]; try reflexivity; [destruct N|].
  destruct (ret a =? -1); [reflexivity|]. destruct N as (N1 & N2 & N3 & N4 & N5). rewrite !calling_not by assumption. cbn [orb].
  destruct (list_eq_dec Z.eq_dec n (bs "fcntl")) as [->|N6]; [rewrite calling_same, (N5 eq_refl); reflexivity|]. rewrite calling_not by assumption. reflexivity.
Qed.

Section Desc.
Variable T0 : table.
Notation fds := (descriptors T0).
Lemma fds_app : forall t e, fds (t ++ [e]) = step (fds t) e.
Proof. intros. unfold descriptors. rewrite fold_left_app. reflexivity. Qed.
(** processes started, calls so far, the table *)
Record now (l : list Z) (T : table) (n : nat) (t : trace) : Prop := {
  n_forks : forks t = l; n_calm : Forall (fun e => calm (fst e)) t; n_tab : forall f, tab (fds t) f = T f; n_count : pipecount (fds t) = n }.

Variables A OK : trace -> event -> Prop.
Variable Q : trace -> ending -> Prop.
Hypothesis HA : forall t e, A t e -> fd_answer (fds t) e.
Hypothesis HOK : forall t e, calm (fst e) -> OK t e.
Hypothesis HQ : forall t, Q t (Exit 111).

Lemma now_neutral : forall l T n t e, now l T n t -> calm (fst e) -> neutral (fst e) -> calling (bs "fork") e = false -> now l T n (t ++ [e]).
Proof.
  intros l T n t e [N1 N2 N3 N4] C NE F. constructor.
  - rewrite forks_app, N1. unfold forks. cbn [filter]. rewrite F. apply app_nil_r.
  - apply Forall_app. auto.
  - rewrite fds_app, step_neutral by assumption. exact N3.
  - rewrite fds_app, step_neutral by assumption. exact N4.
Qed.
(** a part that leaves the descriptors alone *)
Definition calmer (c : sys) : Prop := calm c /\ neutral c /\ match c with Other n _ _ => n <> bs "fork" | _ => True end.
Lemma calmer_fork : forall e, calmer (fst e) -> calling (bs "fork") e = false.
Proof. intros [c a] (_ & _ & N). cbn [fst] in N. destruct c; try reflexivity. apply calling_not. exact N. Qed.
Lemma sp_calm : forall R (p : prog R) (f : R -> prog ending) l T n h, calls calmer p -> now l T n h -> (forall r h', now l T n h' -> sp A OK h' (f r) Q) -> sp A OK h (pbind p f) Q.
Proof.
  intros R p f l T n h C N K. apply sp_bind with (M := fun t _ => now l T n t); [|intros t r H; apply K; exact H].
  apply (sp_quiet _ _ _ calmer); auto. intros t e NT CE _. split; [apply HOK; apply CE|]. apply now_neutral; auto; try apply CE. apply calmer_fork. exact CE.
Qed.
Lemma now_ext : forall l T T' n t, now l T n t -> (forall f, T f = T' f) -> now l T' n t.
Proof. intros l T T' n t [N1 N2 N3 N4] E. constructor; auto. intros f. rewrite N3. apply E. Qed.
Lemma forks_other : forall l h e, forks h = l -> calling (bs "fork") e = false -> forks (h ++ [e]) = l.
Proof. intros l h e H F. rewrite forks_app, H. unfold forks. cbn [filter]. rewrite F. apply app_nil_r. Qed.
Ltac heres := repeat split; discriminate.

Lemma sp_sys : forall c (f : ans -> prog ending) h, calm c -> (forall a, A h (c, a) -> sp A OK (h ++ [(c, a)]) (f a) Q) -> sp A OK h (a <~ sys1 c ;; f a) Q.
Proof.
  intros c f h C K. unfold sys1. cbn [pbind]. apply sp_do. intros a HAa. split; [apply HOK; exact C|]. apply K. exact HAa.
Qed.
Lemma sp_close : forall fd (f : unit -> prog ending) l T n h, now l T n h -> (forall h', now l (set T fd None) n h' -> sp A OK h' (f tt) Q) -> sp A OK h (u <~ do (Close fd) ;; f u) Q.
Proof.
  intros fd f l T n h N K. unfold do, sys1. cbn [pbind]. apply sp_do. intros a HAa. split; [apply HOK; heres|]. apply K.
  destruct N as [N1 N2 N3 N4]. constructor; [apply forks_other; auto|apply Forall_app; split; auto; repeat constructor| |].
  - intros g. rewrite fds_app. unfold step. cbn [fst snd tab]. unfold set. destruct (g =? fd); auto.
  - rewrite fds_app. exact N4.
Qed.
Lemma sp_dup : forall fd m k l T n h, now l T n h -> (forall h', T m = None -> T fd <> None -> now l (set T m (match T fd with Some (o, _) => Some (o, false) | None => None end)) n h' -> sp A OK h' k Q) ->
  0 <= m -> sp A OK h (dup fd m k) Q.
Proof.
  intros fd m k l T n h N K M. unfold dup. apply sp_sys; [heres|]. intros a HAa. apply HA in HAa as (_ & H1 & H2 & _). cbn [fst snd] in *.
  destruct (Z.eqb_spec (ret a) m) as [E|]; [|apply sp_ret; apply HQ]. destruct N as [N1 N2 N3 N4]. destruct H1 as (F & _ & _); [right; right; apply calling_same|lia|].
  assert (TF : T fd <> None). { intros X. specialize (H2 fd [] eq_refl). rewrite N3 in H2. specialize (H2 X). lia. }
  apply K; [rewrite <- N3, <- E; exact F|exact TF|].
  constructor; [apply forks_other; auto|apply Forall_app; split; auto; repeat constructor; cbn [fst]; discriminate| |].
  - intros g. rewrite fds_app. unfold step. cbn [fst snd]. destruct (Z.eqb_spec (ret a) (-1)); [lia|]. rewrite !(calling_not (bs "dup")) by discriminate. rewrite calling_same. cbn [orb tab nth].
    unfold set. rewrite E. rewrite !N3. reflexivity.
  - rewrite fds_app. unfold step. cbn [fst snd]. destruct (Z.eqb_spec (ret a) (-1)); [lia|]. rewrite !(calling_not (bs "dup")) by discriminate. rewrite calling_same. exact N4.
Qed.
Lemma sp_cloexec : forall fd (f : unit -> prog ending) o b l T n h, now l T n h -> T fd = Some (o, b) -> (forall h', now l (set T fd (Some (o, true))) n h' -> sp A OK h' (f tt) Q) ->
  sp A OK h (u <~ do (Other (bs "fcntl") [fd; F_SETFD; 1] []) ;; f u) Q.
Proof.
  intros fd f o b l T n h N E K. unfold do, sys1. cbn [pbind]. apply sp_do. intros a HAa. split; [apply HOK; heres|]. apply K.
  apply HA in HAa as (_ & _ & _ & H1). cbn [fst snd] in H1. destruct N as [N1 N2 N3 N4]. specialize (H1 fd 1 [] eq_refl). rewrite N3, E in H1. specialize (H1 ltac:(discriminate)).
  assert (S : step (fds h) (Other (bs "fcntl") [fd; F_SETFD; 1] [], a) = mkfds (set (tab (fds h)) fd (Some (o, true))) (pipecount (fds h))).
  { unfold step. cbn [fst snd]. destruct (Z.eqb_spec (ret a) (-1)); [contradiction|]. rewrite !(calling_not (bs "fcntl")) by discriminate. rewrite calling_same. cbn [orb andb nth].
    unfold F_SETFD. cbn [Z.eqb Pos.eqb andb]. rewrite N3, E. reflexivity. }
  constructor; [apply forks_other; auto|apply Forall_app; split; auto; repeat constructor; cbn [fst]; discriminate| |].
  - intros g. rewrite fds_app, S. cbn [tab]. unfold set. rewrite N3. reflexivity.
  - rewrite fds_app, S. exact N4.
Qed.
Lemma blocking_calmer : forall fd b, calls calmer (blocking fd b).
Proof.
  intros. unfold blocking, do. repeat calls1; (split; [heres|split; [|discriminate]]); (split; [discriminate|]; split; [discriminate|]; split; [discriminate|]; split; [discriminate|]; intros _; reflexivity).
Qed.
Lemma alarm_calmer : forall n, calls calmer (alarm n).
Proof. intros. unfold alarm. repeat calls1. repeat split; discriminate. Qed.
Lemma signal_calmer : forall n d, calls calmer (signal n d).
Proof. intros. unfold signal, do. repeat calls1. repeat split; discriminate. Qed.

Definition pipe_table (T : table) (n : nat) (r w : Z) : table := set (set T r (Some (ReadEnd n, true))) w (Some (WriteEnd n, true)).
Definition lowest (T : table) (other fd : Z) : Prop := T fd = None /\ 0 <= fd < 1024 /\ forall f, 0 <= f < fd -> f <> other -> T f <> None.
Lemma sp_pipe : forall k l T n h, now l T n h ->
  (forall r w h', r <> w -> lowest T w r -> lowest T r w -> now l (pipe_table T (S n) r w) (S n) h' -> sp A OK h' (k r w) Q) ->
  sp A OK h (open_pipe k) Q.
Proof.
  intros k l T n h N K. unfold open_pipe. apply sp_sys; [heres|]. intros a HAa. apply HA in HAa as (H1 & _). cbn [fst snd] in H1.
  destruct (Z.eqb_spec (ret a) (-1)); [apply sp_ret; apply HQ|]. cbv zeta. destruct (H1 (calling_same _ _ _ _) ltac:(assumption)) as (D & F1 & F2).
  set (r := nth 0 (data a) 0) in *. set (w := nth 1 (data a) 0) in *.
  assert (LO : forall x y, fresh (fds h) x y -> lowest T x y). { intros x y (X1 & X2 & X3). destruct N as [_ _ N3 _]. split; [rewrite <- N3; exact X1|]. split; [exact X2|]. intros f Hf Hn. rewrite <- N3. apply X3; auto. }
  assert (N' : now l (Fdtable.set (Fdtable.set T r (Some (ReadEnd (S n), false))) w (Some (WriteEnd (S n), false))) (S n) (h ++ [(Other (bs "pipe") [] [], a)])).
  { destruct N as [N1 N2 N3 N4]. constructor; [apply forks_other; auto|apply Forall_app; split; auto; repeat constructor; cbn [fst]; discriminate| |].
    - intros g. rewrite fds_app. unfold step. cbn [fst snd]. destruct (Z.eqb_spec (ret a) (-1)); [contradiction|]. rewrite calling_same. cbn [tab]. rewrite N4. unfold Fdtable.set. fold r w. rewrite N3. reflexivity.
    - rewrite fds_app. unfold step. cbn [fst snd]. destruct (Z.eqb_spec (ret a) (-1)); [contradiction|]. rewrite calling_same. cbn [pipecount]. rewrite N4. reflexivity. }
  eapply sp_cloexec with (fd := r) (o := ReadEnd (S n)) (b := false); [exact N'| |].
  { unfold Fdtable.set. destruct (Z.eqb_spec r w); [contradiction|]. rewrite Z.eqb_refl. reflexivity. }
  clear N'. intros h1 N'. eapply sp_calm; [apply blocking_calmer|exact N'|]. intros _ h2 N2.
  eapply sp_cloexec with (fd := w) (o := WriteEnd (S n)) (b := false); [exact N2| |].
  { unfold Fdtable.set. destruct (Z.eqb_spec w r); [congruence|]. rewrite Z.eqb_refl. reflexivity. }
  intros h3 N3. eapply sp_calm; [apply blocking_calmer|exact N3|]. intros _ h4 N5. apply K; auto.
  eapply now_ext; [exact N5|]. intros f. unfold pipe_table, Fdtable.set. destruct (Z.eqb_spec f w); [reflexivity|]. destruct (Z.eqb_spec f r); reflexivity.
Qed.

(** ** The chain of the processes *)
Variable I : inet.
Variable stream : list Z -> list Z -> nat -> Z.
Variable fuel : nat.
Variables junk portbuf line0 key0 : list Z.
Variable env : environment.
Variable nojail : bool.
Hypothesis START : start_table T0.

Ltac nx := match goal with
  | |- sp _ _ _ (pbind (blocking _ _) _) _ => eapply sp_calm; [apply blocking_calmer|eassumption|]; intros ? ? ?
  | |- sp _ _ _ (pbind (alarm _) _) _ => eapply sp_calm; [apply alarm_calmer|eassumption|]; intros ? ? ?
  | |- sp _ _ _ (pbind (signal _ _) _) _ => eapply sp_calm; [apply signal_calmer|eassumption|]; intros ? ? ?
  | |- sp _ _ _ (pbind (do (Close _)) _) _ => eapply sp_close; [eassumption|]; intros ? ?
  | N : now _ _ _ ?h |- sp _ _ ?h (dup _ _ _) _ => eapply sp_dup; [exact N| |unfold Z.le; discriminate]; clear N; intros ? ? ? N
  | |- sp _ _ _ (Ret (Exit 111)) _ => apply sp_ret; apply HQ
  end.

(** after reserve(): with -n the numbers 0 to 6 are in use *)
Definition base (delay : bool) : table := fun f => match T0 f with Some x => Some x | None => if delay && (0 <=? f) && (f <=? 6) then Some (File, false) else None end.
Lemma sp_open : forall nm (f : ans -> prog ending) l T n h, now l T n h ->
  (forall a h', ret a = -1 -> now l T n h' -> sp A OK h' (f a) Q) ->
  (forall a h', ret a <> -1 -> lowest T (-1) (ret a) -> now l (set T (ret a) (Some (File, false))) n h' -> sp A OK h' (f a) Q) ->
  sp A OK h (a <~ sys1 (Other (bs "open") [] nm) ;; f a) Q.
Proof.
  intros nm f l T n h N K1 K2. apply sp_sys; [heres|]. intros a HAa. apply HA in HAa as (_ & H1 & _). cbn [fst snd] in H1.
  destruct (Z.eq_dec (ret a) (-1)) as [E|E].
  - apply K1; auto. destruct N as [N1 N2 N3 N4].
    assert (S : step (fds h) (Other (bs "open") [] nm, a) = fds h) by (unfold step; cbn [fst snd]; destruct (Z.eqb_spec (ret a) (-1)); [reflexivity|contradiction]).
    constructor; [apply forks_other; auto|apply Forall_app; split; auto; repeat constructor; cbn [fst]; discriminate|intros g; rewrite fds_app, S; apply N3|rewrite fds_app, S; exact N4].
  - destruct H1 as (F1 & F2 & F3); [left; apply calling_same|exact E|]. destruct N as [N1 N2 N3 N4]. apply K2; auto.
    + split; [rewrite <- N3; exact F1|]. split; [exact F2|]. intros g Hg Hn. rewrite <- N3. apply F3; auto.
    + assert (S : step (fds h) (Other (bs "open") [] nm, a) = mkfds (set (tab (fds h)) (ret a) (Some (File, false))) (pipecount (fds h))).
      { unfold step; cbn [fst snd]; destruct (Z.eqb_spec (ret a) (-1)); [contradiction|]. rewrite !(calling_not (bs "open")) by discriminate. rewrite calling_same. reflexivity. }
      constructor; [apply forks_other; auto|apply Forall_app; split; auto; repeat constructor; cbn [fst]; discriminate| |rewrite fds_app, S; exact N4].
      intros g; rewrite fds_app, S. cbn [tab]. unfold set. rewrite N3. reflexivity.
Qed.
Lemma sp_reserve : forall k h, now [] T0 0 h -> (forall h', now [] (base true) 0 h' -> sp A OK h' k Q) -> sp A OK h (reserve fuel k) Q.
Proof.
  intros k h N K. unfold reserve.
  assert (CF : forall n, calls calmer (sys1 (Other (bs "fstat") [n] []))) by (intros; apply calls_sys1; repeat split; discriminate).
  eapply sp_calm; [apply CF|exact N|]. clear N. intros a1 h1 N. destruct (negb _); [nx|].
  eapply sp_calm; [apply CF|exact N|]. clear N. intros a2 h2 N. destruct (negb _); [nx|].
  assert (L : forall f T h, now [] T 0 h -> (forall g, T g = T0 g \/ (T0 g = None /\ 0 <= g <= 6 /\ T g = Some (File, false))) -> sp A OK h (devnull f k) Q).
  { clear h1 h2 N. induction f as [|f IH]; intros T h3 N INV; cbn [devnull]; [apply sp_halt|]. eapply sp_open; [exact N| |].
    - intros a h4 E N1. rewrite E. cbn [Z.eqb Pos.eqb]. nx.
    - intros a h4 E (LO1 & LO2 & LO3) N1. destruct (Z.eqb_spec (ret a) (-1)); [contradiction|]. destruct (Z.ltb_spec 6 (ret a)).
      + eapply sp_close; [exact N1|]. intros h5 N2. apply K. eapply now_ext; [exact N2|]. intros g. unfold set, base. destruct (Z.eqb_spec g (ret a)) as [->|G].
        * destruct (INV (ret a)) as [<-|(_ & X & _)]; [|lia]. rewrite LO1. destruct (Z.leb_spec (ret a) 6); [lia|]. rewrite andb_false_r. reflexivity.
        * destruct (INV g) as [E1|(E1 & E2 & E3)].
          -- rewrite E1. destruct (T0 g) eqn:TG; [reflexivity|]. cbn [andb]. destruct (Z.leb_spec 0 g), (Z.leb_spec g 6); cbn [andb]; try reflexivity. exfalso. apply (LO3 g); [lia|lia|exact E1].
          -- rewrite E3, E1. cbn [andb]. destruct (Z.leb_spec 0 g); [|lia]. destruct (Z.leb_spec g 6); [reflexivity|lia].
      + eapply IH; [exact N1|]. intros g. unfold set. destruct (Z.eqb_spec g (ret a)) as [->|G]; [|apply INV]. right. destruct (INV (ret a)) as [X|(X1 & X2 & X3)]; [|congruence]. split; [congruence|]. split; [lia|reflexivity]. }
  eapply L; [exact N|]. auto.
Qed.
Lemma sp_fork : forall (f : ans -> prog ending) l T n h, now l T n h -> (forall a h', now (l ++ [ret a]) T n h' -> sp A OK h' (f a) Q) -> sp A OK h (a <~ sys1 (Other (bs "fork") [] []) ;; f a) Q.
Proof.
  intros f l T n h N K. apply sp_sys; [heres|]. intros a _. apply K. destruct N as [N1 N2 N3 N4].
  assert (S : step (fds h) (Other (bs "fork") [] [], a) = fds h) by (apply step_neutral; repeat split; discriminate).
  constructor; [|apply Forall_app; split; auto; repeat constructor; cbn [fst]; discriminate|intros g; rewrite fds_app, S; apply N3|rewrite fds_app, S; exact N4].
  rewrite forks_app, N1. unfold forks. cbn [filter]. rewrite calling_same. reflexivity.
Qed.
Lemma base_nonneg : forall d fd, base d fd <> None -> 0 <= fd.
Proof.
  intros d fd H. unfold base in H. destruct (T0 fd) as [[o b]|] eqn:E; [apply START in E; tauto|]. destruct d; cbn [andb] in H; [|contradiction].
  destruct (Z.leb_spec 0 fd); [auto|]. cbn [andb] in H. contradiction.
Qed.
(** the distinct numbers of the first four pipes *)
Record four (delay : bool) (p : pipes) : Prop := {
  f_dup : NoDup [toc_r p; toc_w p; fromc_r p; fromc_w p; fromctl_r p; fromctl_w p; toctl_r p; toctl_w p];
  f_new : Forall (fun f => base delay f = None /\ 2 <= f < 1024 /\ (delay = true -> 6 < f)) [toc_r p; toc_w p; fromc_r p; fromc_w p; fromctl_r p; fromctl_w p; toctl_r p; toctl_w p];
  f_order : fromc_r p < fromctl_r p }.
Definition four_table (delay : bool) (p : pipes) : table :=
  pipe_table (pipe_table (pipe_table (pipe_table (base delay) 1 (toc_r p) (toc_w p)) 2 (fromc_r p) (fromc_w p)) 3 (fromctl_r p) (fromctl_w p)) 4 (toctl_r p) (toctl_w p).
Ltac ev H := unfold pipe_table, set in H; repeat (match type of H with context [?a =? ?b] => destruct (Z.eqb_spec a b) end; try discriminate H).
Lemma base01 : forall d, base d 0 <> None /\ base d 1 <> None.
Proof. intros d. destruct START as (_ & A0 & A1). unfold base. split; [destruct (T0 0)|destruct (T0 1)]; congruence. Qed.
Lemma base_new : forall d f, base d f = None -> 0 <= f -> 2 <= f /\ (d = true -> 6 < f).
Proof.
  intros d f H P. destruct (base01 d) as [A0 A1]. split.
  - destruct (Z.eq_dec f 0) as [->|]; [contradiction|]. destruct (Z.eq_dec f 1) as [->|]; [contradiction|]. lia.
  - intros ->. unfold base in H. destruct (T0 f); [discriminate|]. cbn [andb] in H. destruct (Z.leb_spec 0 f); [|lia]. destruct (Z.leb_spec f 6); [discriminate H|lia].
Qed.
Lemma base_range : forall d f, base d f = None -> 0 <= f < 1024 -> base d f = None /\ 2 <= f < 1024 /\ (d = true -> 6 < f).
Proof. intros d f X Y. destruct (base_new d f X) as [Z1 Z2]; [lia|]. split; [exact X|]. split; [lia|exact Z2]. Qed.
Lemma sp_start : forall cmd h, now [] T0 0 h -> 
  (forall p a h', ret a = 0 -> four (delayed (settings cmd)) p -> now [ret a] (four_table (delayed (settings cmd)) p) 4 h' -> sp A OK h' (child_main I fuel junk portbuf cmd p) Q) ->
  (forall p a h', ret a <> 0 -> four (delayed (settings cmd)) p -> now [ret a] (four_table (delayed (settings cmd)) p) 4 h' -> sp A OK h' (parent_main I stream fuel line0 key0 env nojail cmd p (ret a)) Q) ->
  sp A OK h (start_child I stream fuel junk portbuf line0 key0 env nojail cmd) Q.
Proof.
  intros cmd h N KC KP. unfold start_child. nx. clear N.
  set (rest := open_pipe _).
  assert (REST : forall h', now [] (base (delayed (settings cmd))) 0 h' -> sp A OK h' rest Q).
  { set (d := delayed (settings cmd)) in *. clear - HA HOK HQ START KC KP. intros h N. unfold rest. clear rest.
    eapply sp_pipe; [exact N|]. clear N. intros r1 w1 h1 D1 (R1 & R1' & _) (W1 & W1' & _) N.
    eapply sp_pipe; [exact N|]. clear N. intros r2 w2 h2 D2 (R2 & R2' & R2L) (W2 & W2' & _) N.
    eapply sp_pipe; [exact N|]. clear N. intros r3 w3 h3 D3 (R3 & R3' & _) (W3 & W3' & _) N.
    eapply sp_pipe; [exact N|]. clear N. intros r4 w4 h4 D4 (R4 & R4' & _) (W4 & W4' & _) N.
    assert (ORD : r2 < r3).
    { clear - R2L R3 R3'. destruct (Z.lt_trichotomy r2 r3) as [X|[X|X]]; [exact X| |]; exfalso.
      - subst r3. unfold pipe_table at 1 in R3. unfold set in R3. rewrite Z.eqb_refl in R3. destruct (_ =? _); discriminate R3.
      - assert (N : r3 <> w2) by (intros ->; unfold pipe_table at 1 in R3; unfold set in R3; rewrite Z.eqb_refl in R3; discriminate R3).
        apply (R2L r3); [lia|exact N|]. unfold pipe_table at 1 in R3. unfold set at 1 2 in R3. destruct (Z.eqb_spec r3 w2); [contradiction|]. destruct (Z.eqb_spec r3 r2); [lia|]. exact R3. }
    clear R2L. ev R2. ev W2. ev R3. ev W3. ev R4. ev W4. cbv zeta.
    assert (F4 : four d (mkpipes r1 w1 r2 w2 r3 w3 r4 w4)).
    { constructor; cbn [toc_r toc_w fromc_r fromc_w fromctl_r fromctl_w toctl_r toctl_w].
      - repeat (apply NoDup_cons; [intros X; repeat (destruct X as [X|X]; [congruence|]); destruct X|]). apply NoDup_nil.
      - repeat (apply Forall_cons; [apply base_range; assumption|]). apply Forall_nil.
      - exact ORD. }
    eapply sp_fork; [exact N|]. clear N. cbn [app]. intros a h5 N. destruct (Z.eqb_spec (ret a) (-1)); [nx|]. destruct (Z.eqb_spec (ret a) 0); [eapply KC|eapply KP]; eauto. }
  destruct (delayed (settings cmd)).
  - eapply sp_reserve; [eassumption|]. exact REST.
  - apply REST. eapply now_ext; [eassumption|]. intros f. unfold base. cbn [andb]. destruct (T0 f); reflexivity.
Qed.

Ltac nodups D := repeat (apply NoDup_cons_iff in D; let H := fresh "ND" in destruct D as [H D]; cbn [In] in H).
Ltac differ X := exfalso; let Y := fresh in assert (Y := eq_sym X);
  match goal with H : ~ (_ \/ _) |- _ => solve [apply H; clear - X Y; auto 10] end.
Ltac neq1 := match goal with |- context [?a =? ?b] => destruct (Z.eqb_spec a b) as [X|X]; [differ X|clear X] end.
Lemma four_look : forall d p, four d p ->
  four_table d p (toc_r p) = Some (ReadEnd 1, true) /\ four_table d p (toc_w p) = Some (WriteEnd 1, true) /\
  four_table d p (fromc_r p) = Some (ReadEnd 2, true) /\ four_table d p (fromc_w p) = Some (WriteEnd 2, true) /\
  four_table d p (fromctl_r p) = Some (ReadEnd 3, true) /\ four_table d p (fromctl_w p) = Some (WriteEnd 3, true) /\
  four_table d p (toctl_r p) = Some (ReadEnd 4, true) /\ four_table d p (toctl_w p) = Some (WriteEnd 4, true).
Proof.
  intros d p [D _]. nodups D. unfold four_table, pipe_table, set.
  repeat match goal with |- _ /\ _ => split end; repeat (rewrite Z.eqb_refl || neq1); reflexivity.
Qed.
Lemma four_any : forall d p fd, four d p -> (four_table d p fd = base d fd /\ ~ In fd [toc_r p; toc_w p; fromc_r p; fromc_w p; fromctl_r p; fromctl_w p; toctl_r p; toctl_w p]) \/
  (base d fd = None /\ exists o, four_table d p fd = Some (o, true)).
Proof.
  intros d p fd F. destruct (in_dec Z.eq_dec fd [toc_r p; toc_w p; fromc_r p; fromc_w p; fromctl_r p; fromctl_w p; toctl_r p; toctl_w p]) as [IN|NI].
  - right. split; [pose proof (f_new _ _ F) as N; rewrite Forall_forall in N; apply (N fd IN)|]. destruct (four_look d p F) as (E1 & E2 & E3 & E4 & E5 & E6 & E7 & E8).
    cbn [In] in IN. repeat (destruct IN as [<-|IN]; [eauto|]). destruct IN.
  - left. split; [|exact NI]. cbn [In] in NI. unfold four_table, pipe_table, set.
    repeat (match goal with |- context [?a =? ?b] => destruct (Z.eqb_spec a b) as [X|X]; [exfalso; apply NI; subst; tauto|clear X] end). reflexivity.
Qed.
Lemma base_false : forall d fd o, base d fd = Some (o, false) <-> T0 fd = Some (o, false) \/ (T0 fd = None /\ d = true /\ 0 <= fd <= 6 /\ o = File).
Proof.
  intros d fd o. unfold base. destruct (T0 fd) as [x|].
  - split; [auto|]. intros [H|(H & _)]; [exact H|discriminate].
  - destruct d; cbn [andb]; [|split; [discriminate|intros [H|(_ & H & _)]; discriminate]].
    destruct (Z.leb_spec 0 fd); cbn [andb]; [|split; [discriminate|intros [H0|(_ & _ & H0 & _)]; [discriminate|lia]]].
    destruct (Z.leb_spec fd 6); [|split; [discriminate|intros [H1|(_ & _ & H1 & _)]; [discriminate|lia]]].
    split; [intros E; injection E as <-; right; auto|intros [H1|(_ & _ & _ & ->)]; [discriminate|reflexivity]].
Qed.

Lemma set_same : forall T f v, set T f v f = v.
Proof. intros. unfold set. rewrite Z.eqb_refl. reflexivity. Qed.
Lemma set_other : forall T f v g, g <> f -> set T f v g = T g.
Proof. intros. unfold set. destruct (Z.eqb_spec g f); [contradiction|reflexivity]. Qed.
Lemma sp_dup1 : forall o b fd m k l T n h, now l T n h -> T fd = Some (o, b) -> (forall h', now l (set T m (Some (o, false))) n h' -> sp A OK h' k Q) -> 0 <= m -> sp A OK h (dup fd m k) Q.
Proof. intros o b fd m k l T n h N E K M. eapply sp_dup; [exact N| |exact M]. intros h' _ _ N'. rewrite E in N'. apply K. exact N'. Qed.
Ltac calmx N := match goal with
  | |- sp _ _ _ (pbind (blocking _ _) _) _ => eapply sp_calm; [apply blocking_calmer|exact N|]; clear N; intros _ ? N
  | |- sp _ _ _ (pbind (alarm _) _) _ => eapply sp_calm; [apply alarm_calmer|exact N|]; clear N; intros _ ? N
  | |- sp _ _ _ (pbind (signal _ _) _) _ => eapply sp_calm; [apply signal_calmer|exact N|]; clear N; intros _ ? N end.
Ltac closex N := eapply sp_close; [exact N|]; clear N; intros ? N.
Ltac dupx N o := eapply (sp_dup1 o true); [exact N| | |unfold Z.le; discriminate]; [|clear N; intros ? N].
Ltac lk B0 B1 B5 B6 := repeat (rewrite set_other; [|solve [let X := fresh in intros X; differ X | apply B0; cbn [In]; auto 10 | apply B1; cbn [In]; auto 10 | apply B5; cbn [In]; auto 10 | apply B6; cbn [In]; auto 10]]); assumption.
Ltac fin PF C0 C1 := unfold set;
  repeat match goal with
    | |- context [?x =? ?f] => destruct (Z.eqb_spec x f) as [->|];
       [match f with
        | 0 => rewrite ?C0, ?C1; intuition (try discriminate; try lia)
        | 1 => rewrite ?C0, ?C1; intuition (try discriminate; try lia)
        | 5 => rewrite ?C0, ?C1; intuition (try discriminate; try lia)
        | 6 => rewrite ?C0, ?C1; intuition (try discriminate; try lia)
        | _ => let P1 := fresh in let P2 := fresh in let P3 := fresh in destruct (PF f) as (P1 & P2 & P3); [cbn [In]; auto 10|rewrite C0, P1; intuition (try discriminate; try lia)]
        end|] end.
Lemma sp_child : forall cmd p l h, four (delayed (settings cmd)) p -> now l (four_table (delayed (settings cmd)) p) 4 h ->
  (forall h', Forall (fun e => calm (fst e)) h' -> forks h' = l -> program_fds T0 (delayed (settings cmd)) (fds h') -> sp A OK h' (child_start I fuel junk portbuf (match certuser (settings cmd) with Some _ => true | None => false end) (user (settings cmd)) (program cmd)) Q) ->
  sp A OK h (child_main I fuel junk portbuf cmd p) Q.
Proof.
  intros cmd p l h F N K. set (d := delayed (settings cmd)) in *. unfold child_main. fold d. cbv zeta.
  destruct (four_look d p F) as (E1 & E2 & E3 & E4 & E5 & E6 & E7 & E8). pose proof (f_dup _ _ F) as D. pose proof (f_new _ _ F) as W. rewrite Forall_forall in W.
  assert (B : forall f, In f [toc_r p; toc_w p; fromc_r p; fromc_w p; fromctl_r p; fromctl_w p; toctl_r p; toctl_w p] -> f <> 0 /\ f <> 1 /\ (d = true -> f <> 5 /\ f <> 6)).
  { intros f IN. destruct (W f IN) as (_ & X & Y). split; [lia|]. split; [lia|]. intros Z. specialize (Y Z). lia. }
  assert (EV : forall T f g v, f <> g -> set T g v f = T f) by (intros; apply set_other; assumption).
  assert (B0 : forall f, In f [toc_r p; toc_w p; fromc_r p; fromc_w p; fromctl_r p; fromctl_w p; toctl_r p; toctl_w p] -> f <> 0) by (intros f IN; apply (B f IN)).
  assert (B1 : forall f, In f [toc_r p; toc_w p; fromc_r p; fromc_w p; fromctl_r p; fromctl_w p; toctl_r p; toctl_w p] -> f <> 1) by (intros f IN; apply (B f IN)).
  assert (B5 : forall f, In f [toc_r p; toc_w p; fromc_r p; fromc_w p; fromctl_r p; fromctl_w p; toctl_r p; toctl_w p] -> d = true -> f <> 5) by (intros f IN Y; apply (B f IN); exact Y).
  assert (B6 : forall f, In f [toc_r p; toc_w p; fromc_r p; fromc_w p; fromctl_r p; fromctl_w p; toctl_r p; toctl_w p] -> d = true -> f <> 6) by (intros f IN Y; apply (B f IN); exact Y).
  clear B. pose proof D as D'. nodups D'.
  clear D'. clear EV.
  calmx N. closex N. closex N. dupx N (ReadEnd 1); [lk B0 B1 B0 B1|]. calmx N. closex N. closex N. dupx N (WriteEnd 2); [lk B0 B1 B0 B1|]. calmx N. closex N. closex N.
  assert (FIN : forall h' T, now l T 4 h' -> (forall fd o, T fd = Some (o, false) <->
    (fd = 0 /\ o = ReadEnd 1) \/ (fd = 1 /\ o = WriteEnd 2) \/
    (d = true /\ fd = 5 /\ o = WriteEnd 3) \/ (d = true /\ fd = 6 /\ o = ReadEnd 4) \/
    (d = true /\ 2 <= fd <= 4 /\ T0 fd = None /\ o = File) \/
    (fd <> 0 /\ fd <> 1 /\ fd <> 5 /\ fd <> 6 /\ T0 fd = Some (o, false))) -> sp A OK h' (child_start I fuel junk portbuf (match certuser (settings cmd) with Some _ => true | None => false end) (user (settings cmd)) (program cmd)) Q).
  { intros hh T N' H. apply K; try apply N'. intros fd o. rewrite (n_tab _ _ _ _ N'). apply H. }
  assert (PF : forall f, In f [toc_r p; toc_w p; fromc_r p; fromc_w p; fromctl_r p; fromctl_w p; toctl_r p; toctl_w p] -> T0 f = None /\ 2 <= f /\ (d = true -> 6 < f)).
  { intros f IN. destruct (W f IN) as (X & Y & Z). split; [|split; [lia|exact Z]]. unfold base in X. destruct (T0 f); congruence. }
  assert (C0 : forall b o, (None = Some (o, b) :> option (object * bool)) <-> False) by (intros; split; [discriminate|tauto]).
  assert (C1 : forall (o : object) (b : bool) o' b', (Some (o', b') = Some (o, b)) <-> o = o' /\ b = b') by (intros; split; [intros E; injection E as -> ->; auto|intros [-> ->]; reflexivity]).
  clear K W. destruct d eqn:DD.
  - dupx N (WriteEnd 3); [lk B0 B1 B5 B6|].
    calmx N. closex N. closex N. dupx N (ReadEnd 4); [lk B0 B1 B5 B6|]. calmx N.
    eapply FIN; [exact N|]. pose proof (fun fd => four_any true p fd F) as FA. pose proof (base_false true) as BF. clear - PF FA BF START C0 C1. intros fd o. fin PF C0 C1. destruct (FA fd) as [(E & _)|(B & o' & E)]; rewrite E.
    + rewrite BF. intuition lia.
    + rewrite C1. unfold base in B. destruct (T0 fd); [discriminate|]. cbn [andb] in B. destruct (Z.leb_spec 0 fd), (Z.leb_spec fd 6); cbn [andb] in B; try discriminate; intuition (try discriminate; try lia).
  - closex N. closex N. eapply FIN; [exact N|]. pose proof (fun fd => four_any false p fd F) as FA. pose proof (base_false false) as BF. clear - PF FA BF START C0 C1. intros fd o. fin PF C0 C1. destruct (FA fd) as [(E & _)|(B & o' & E)]; rewrite E.
    + rewrite BF. intuition lia.
    + rewrite C1. unfold base in B. destruct (T0 fd); [discriminate|]. intuition discriminate.
Qed.

(** ** After the program's process was started *)
(** the wrapper's numbers and what they stand for *)
Definition eight (p : pipes) (x : Z) : Prop := x = toc_w p \/ x = fromc_r p \/ x = fromctl_r p \/ x = toctl_w p.
Definition mine (d : bool) (p : pipes) (T : table) : Prop :=
  T (toc_w p) = Some (WriteEnd 1, true) /\ T (fromc_r p) = Some (ReadEnd 2, true) /\ T (fromctl_r p) = Some (ReadEnd 3, true) /\ T (toctl_w p) = Some (WriteEnd 4, true) /\
  T 0 = base d 0 /\ T 1 = base d 1 /\
  (forall fd o b, T fd = Some (o, b) -> In (fd, o) [(toc_w p, WriteEnd 1); (fromc_r p, ReadEnd 2); (fromctl_r p, ReadEnd 3); (toctl_w p, WriteEnd 4)] \/ base d fd = Some (o, b)).
Definition own_table (d : bool) (p : pipes) : table := set (set (set (set (four_table d p) (fromctl_w p) None) (toctl_r p) None) (fromc_w p) None) (toc_r p) None.
Lemma own_mine : forall d p, four d p -> mine d p (own_table d p).
Proof.
  intros d p F. destruct (four_look d p F) as (E1 & E2 & E3 & E4 & E5 & E6 & E7 & E8). pose proof (f_dup _ _ F) as D. pose proof (f_new _ _ F) as W. rewrite Forall_forall in W.
  assert (B0 : forall f, In f [toc_r p; toc_w p; fromc_r p; fromc_w p; fromctl_r p; fromctl_w p; toctl_r p; toctl_w p] -> 0 <> f) by (intros f IN; destruct (W f IN) as (_ & X & _); lia).
  assert (B1 : forall f, In f [toc_r p; toc_w p; fromc_r p; fromc_w p; fromctl_r p; fromctl_w p; toctl_r p; toctl_w p] -> 1 <> f) by (intros f IN; destruct (W f IN) as (_ & X & _); lia).
  assert (Z0 : forall f, (forall g, In g [toc_r p; toc_w p; fromc_r p; fromc_w p; fromctl_r p; fromctl_w p; toctl_r p; toctl_w p] -> f <> g) -> own_table d p f = base d f).
  { intros f H. unfold own_table. rewrite !set_other by (apply H; cbn [In]; auto 10). destruct (four_any d p f F) as [(E & _)|(E & o & E')]; [exact E|].
    exfalso. clear - H E E' F W. unfold four_table, pipe_table, set in E'.
    repeat (match type of E' with context [?a =? ?b] => destruct (Z.eqb_spec a b) as [X|X]; [destruct (H b); [cbn [In]; auto 10|exact X]|clear X] end). congruence. }
  nodups D. split; [|split; [|split; [|split; [|split; [|split]]]]].
  - unfold own_table. rewrite !set_other by (let X := fresh in intros X; differ X). exact E2.
  - unfold own_table. rewrite !set_other by (let X := fresh in intros X; differ X). exact E3.
  - unfold own_table. rewrite !set_other by (let X := fresh in intros X; differ X). exact E5.
  - unfold own_table. rewrite !set_other by (let X := fresh in intros X; differ X). exact E8.
  - apply Z0. exact B0.
  - apply Z0. exact B1.
  - intros fd o b H. destruct (in_dec Z.eq_dec fd [toc_r p; toc_w p; fromc_r p; fromc_w p; fromctl_r p; fromctl_w p; toctl_r p; toctl_w p]) as [IN|NI].
    2:{ right. rewrite <- Z0; [exact H|]. intros g IN ->. contradiction. }
    left. unfold own_table in H. unfold set in H.
    repeat (match type of H with context [?a =? ?b] => let X := fresh "X" in destruct (Z.eqb_spec a b) as [X|X]; [discriminate H|] end).
    cbn [In] in IN. destruct IN as [IN|[IN|[IN|[IN|[IN|[IN|[IN|[IN|[]]]]]]]]]; try (exfalso; congruence); subst fd.
    + rewrite E2 in H. injection H as <- _. cbn [In]. auto.
    + rewrite E3 in H. injection H as <- _. cbn [In]. auto.
    + rewrite E5 in H. injection H as <- _. cbn [In]. auto.
    + rewrite E8 in H. injection H as <- _. cbn [In]. auto.
Qed.

Lemma rand_calmer : forall n, calls calmer (randombytes n).
Proof. intros. unfold randombytes. repeat calls1; repeat split; discriminate. Qed.
Lemma keyed : forall d p T fd o b, mine d p T -> ~ In fd [toc_w p; fromc_r p; fromctl_r p; toctl_w p; 0; 1] -> T fd = Some (o, b) -> o = File \/ (o = Given fd /\ 2 <= fd).
Proof.
  intros d p T fd o b (_ & _ & _ & _ & _ & _ & M) NI E. destruct (M _ _ _ E) as [IN|B].
  - exfalso. apply NI. cbn [In] in *. destruct IN as [H|[H|[H|[H|[]]]]]; injection H as <- _; auto.
  - assert (N : 2 <= fd). { assert (0 <= fd) by (apply (base_nonneg d); congruence). cbn [In] in NI. assert (fd <> 0 /\ fd <> 1) by (split; intros ->; apply NI; auto 10). lia. }
    unfold base in B. destruct (T0 fd) as [[o' b']|] eqn:ET; [injection B as -> ->; destruct START as (S & _); destruct (S _ _ _ ET) as [-> _]; auto|].
    destruct (_ && _); [|discriminate]. injection B as <- _. auto.
Qed.
(** what the process with the key has, and what the wrapper has *)
Definition key_table (T : table) : Prop :=
  T 0 = Some (ReadEnd 6, false) /\ T 1 = Some (WriteEnd 5, false) /\
  forall fd o b, T fd = Some (o, b) -> o = ReadEnd 6 \/ o = WriteEnd 5 \/ o = File \/ (o = Given fd /\ 2 <= fd).
Record seven (p : pipes) (fk_r tk_w self : Z) (T : table) : Prop := {
  v_tab : T (toc_w p) = Some (WriteEnd 1, true) /\ T (fromc_r p) = Some (ReadEnd 2, true) /\ T (fromctl_r p) = Some (ReadEnd 3, true) /\ T (toctl_w p) = Some (WriteEnd 4, true) /\
    T fk_r = Some (ReadEnd 5, true) /\ T tk_w = Some (WriteEnd 6, true) /\ T self = Some (ReadEnd 7, true);
  v_given : T 0 = T0 0 /\ T 1 = T0 1;
  v_range : Forall (fun f => 2 <= f < 1024) [toc_w p; fromc_r p; fromctl_r p; toctl_w p; fk_r; tk_w; self];
  v_dup : NoDup [toc_w p; fromc_r p; fromctl_r p; toctl_w p; fk_r; tk_w; self];
  v_all : forall fd o b, T fd = Some (o, b) -> In o [WriteEnd 1; ReadEnd 2; ReadEnd 3; WriteEnd 4; ReadEnd 5; WriteEnd 6; ReadEnd 7; WriteEnd 7; File] \/ o = Given fd;
  v_one : forall fd b, T fd = Some (WriteEnd 1, b) -> fd = toc_w p;
  v_two : forall fd b, T fd = Some (ReadEnd 2, b) -> fd = fromc_r p;
  v_three : forall fd b, T fd = Some (ReadEnd 3, b) -> fd = fromctl_r p;
  v_order : fromc_r p < fromctl_r p }.
Lemma seven_fds : forall p fk tk self s T, seven p fk tk self T -> (forall g, tab s g = T g) -> wrapper_fds s.
Proof.
  intros p fk tk self s T V E. split.
  - intros fd o b H. rewrite E in H. exact (v_all _ _ _ _ _ V _ _ _ H).
  - intros fd b fd' b' H H'. rewrite E in H, H'. rewrite (v_two _ _ _ _ _ V _ _ H), (v_three _ _ _ _ _ V _ _ H'). apply (v_order _ _ _ _ _ V).
Qed.
Lemma none_other : forall (T : table) a x b y, T a = None -> T b = Some (x, y) -> a <> b.
Proof. congruence. Qed.
Lemma seven_of : forall p r5 w6 rs ws (U : table) b0 b1,
  U (toc_w p) = Some (WriteEnd 1, true) -> U (fromc_r p) = Some (ReadEnd 2, true) -> U (fromctl_r p) = Some (ReadEnd 3, true) -> U (toctl_w p) = Some (WriteEnd 4, true) ->
  U r5 = Some (ReadEnd 5, true) -> U w6 = Some (WriteEnd 6, true) -> U 0 = Some b0 -> U 1 = Some b1 -> T0 0 = Some b0 -> T0 1 = Some b1 ->
  (forall fd o b, U fd = Some (o, b) -> In o [WriteEnd 1; ReadEnd 2; ReadEnd 3; WriteEnd 4; ReadEnd 5; WriteEnd 6; File] \/ o = Given fd) ->
  (forall fd b, U fd = Some (WriteEnd 1, b) -> fd = toc_w p) ->
  (forall fd b, U fd = Some (ReadEnd 2, b) -> fd = fromc_r p) -> (forall fd b, U fd = Some (ReadEnd 3, b) -> fd = fromctl_r p) -> fromc_r p < fromctl_r p ->
  Forall (fun f => 2 <= f < 1024) [toc_w p; fromc_r p; fromctl_r p; toctl_w p; r5; w6] ->
  U rs = None -> U ws = None -> rs <> ws -> 0 <= rs < 1024 -> 0 <= ws -> seven p r5 w6 rs (pipe_table U 7 rs ws).
Proof.
  intros p r5 w6 rs ws U b0 b1 U1 U2 U3 U4 U5 U6 Y0 Y1 Z0 Z1 AL ON O2 O3 OR FR NR NW D RR RW.
  assert (X : forall f v, U f = Some v -> pipe_table U 7 rs ws f = Some v). { intros f v E. unfold pipe_table. rewrite !set_other by congruence. exact E. }
  constructor.
  - repeat (split; [apply X; assumption|]). unfold pipe_table. rewrite set_other by congruence. apply set_same.
  - split; (etransitivity; [apply X; eassumption|congruence]).
  - apply (Forall_app _ [toc_w p; fromc_r p; fromctl_r p; toctl_w p; r5; w6] [rs]). split; [exact FR|]. constructor; [|constructor].
    assert (rs <> 0 /\ rs <> 1) by (split; congruence). clear - RR H. lia.
  - repeat (apply NoDup_cons; [cbn [In]; intros IN; repeat (destruct IN as [IN|IN]; [congruence|]); exact IN|]). apply NoDup_nil.
  - intros fd o b E. unfold pipe_table, set in E. destruct (Z.eqb_spec fd ws); [injection E as <- _; left; cbn [In]; auto 10|]. destruct (Z.eqb_spec fd rs); [injection E as <- _; left; cbn [In]; auto 10|].
    destruct (AL _ _ _ E) as [IN|G]; [left|right; exact G]. clear - IN. cbn [In] in *. tauto.
  - intros fd b E. unfold pipe_table, set in E. destruct (Z.eqb_spec fd ws); [discriminate E|]. destruct (Z.eqb_spec fd rs); [discriminate E|]. eapply ON. exact E.
  - intros fd b E. unfold pipe_table, set in E. destruct (Z.eqb_spec fd ws); [discriminate E|]. destruct (Z.eqb_spec fd rs); [discriminate E|]. eapply O2. exact E.
  - intros fd b E. unfold pipe_table, set in E. destruct (Z.eqb_spec fd ws); [discriminate E|]. destruct (Z.eqb_spec fd rs); [discriminate E|]. eapply O3. exact E.
  - exact OR.
Qed.
Lemma base_given : forall d fd o b, base d fd = Some (o, b) -> o = File \/ o = Given fd.
Proof.
  intros d fd o b B. unfold base in B. destruct (T0 fd) as [[o' b']|] eqn:ET; [injection B as -> ->; destruct START as (S & _); destruct (S _ _ _ ET) as [-> _]; auto|].
  destruct (_ && _); [|discriminate]. injection B as <- _. auto.
Qed.
Lemma sp_parent : forall cmd p child h, four (delayed (settings cmd)) p -> now [child] (four_table (delayed (settings cmd)) p) 4 h ->
  (forall T h', now [child; 0] T 6 h' -> key_table T ->
    sp A OK h' (_ <~ blocking 0 true ;; _ <~ blocking 1 true ;; _ <~ signal SIGPIPE IGN ;; _ <~ signal SIGCHLD DFL ;; _ <~ signal SIGTERM DFL ;;
      acc <~ lift (cstr_opt (jailaccount (settings cmd))) ;; dir <~ lift (cstr (jaildir (settings cmd))) ;;
      _ <~ tls_keyjail stream fuel nojail acc (Some dir) line0 key0 ;; Ret (Exit 0)) Q) ->
  (forall T key fk_r tk_w self h', key <> 0 -> now [child; key] T 7 h' -> seven p fk_r tk_w self T ->
    sp A OK h' (jailed_main I fuel env nojail cmd p child key fk_r tk_w self) Q) ->
  sp A OK h (parent_main I stream fuel line0 key0 env nojail cmd p child) Q.
Proof.
  intros cmd p child h F N KK KW. set (d := delayed (settings cmd)) in *. unfold parent_main.
  do 4 closex N. do 4 calmx N. eapply sp_calm; [apply rand_calmer|exact N|]. clear N. intros _ h1 N.
  change (now [child] (own_table d p) 4 h1) in N. pose proof (own_mine d p F) as M. pose proof (f_new _ _ F) as W. rewrite Forall_forall in W.
  assert (W4 : Forall (fun f => 2 <= f < 1024) [toc_w p; fromc_r p; fromctl_r p; toctl_w p]).
  { rewrite Forall_forall. intros f IN. apply (W f). clear - IN. cbn [In] in *. tauto. }
  assert (D4 : NoDup [toc_w p; fromc_r p; fromctl_r p; toctl_w p]).
  { pose proof (f_dup _ _ F) as D. nodups D. repeat (apply NoDup_cons; [intros X; cbn [In] in X; repeat (destruct X as [X|X]; [differ X|]); destruct X|]). apply NoDup_nil. }
  generalize dependent (own_table d p). intros T N M. pose proof (f_order _ _ F) as OR. clear F W.
  pose proof M as MM. destruct M as (M1 & M2 & M3 & M4 & M5 & M6 & M7). destruct (base01 d) as [G0 G1]. destruct (base d 0) as [[b0 c0]|] eqn:EB0; [|contradiction]. destruct (base d 1) as [[b1 c1]|] eqn:EB1; [|contradiction]. clear G0 G1.
  eapply sp_pipe; [exact N|]. clear N. intros r5 w5 h2 D5 (R5 & R5' & _) (W5 & W5' & _) N.
  eapply sp_pipe; [exact N|]. clear N. intros r6 w6 h3 D6 (R6 & R6' & _) (W6 & W6' & _) N.
  ev R6. ev W6.
  assert (NT : forall f, T f = None -> f <> toc_w p /\ f <> fromc_r p /\ f <> fromctl_r p /\ f <> toctl_w p /\ f <> 0 /\ f <> 1) by (intros f H; repeat split; eapply none_other; eauto).
  destruct (NT _ R5) as (A1 & A2 & A3 & A4 & A5 & A6). destruct (NT _ W5) as (B1 & B2 & B3 & B4 & B5 & B6).
  destruct (NT _ R6) as (C1 & C2 & C3 & C4 & C5 & C6). destruct (NT _ W6) as (E1 & E2 & E3 & E4 & E5 & E6).
  eapply sp_fork; [exact N|]. clear N. intros a h4 N. cbn [app] in N. destruct (Z.eqb_spec (ret a) (-1)); [nx|]. destruct (Z.eqb_spec (ret a) 0) as [Z0|NZ].
  - rewrite Z0 in N. unfold keyjail_main. calmx N. do 7 closex N.
    dupx N (ReadEnd 6); [unfold pipe_table; rewrite !set_other by congruence; apply set_same|]. closex N.
    dupx N (WriteEnd 5); [unfold pipe_table; rewrite !set_other by congruence; apply set_same|].
    eapply KK; [exact N|]. clear KK KW N. pose proof (fun fd o b => keyed d p T fd o b MM) as KY. clear - KY D5 D6 A1 A2 A3 A4 A5 A6 B1 B2 B3 B4 B5 B6 C1 C2 C3 C4 C5 C6 E1 E2 E3 E4 E5 E6.
    split; [rewrite set_other by discriminate; rewrite set_other by discriminate; apply set_same|]. split; [apply set_same|].
    intros fd o b H. unfold pipe_table, set in H.
    repeat (match type of H with context [fd =? ?g] => let X := fresh "X" in destruct (Z.eqb_spec fd g) as [X|X]; [first [discriminate H|injection H as <- _; auto]|] end).
    right. right. eapply KY; [|exact H]. cbn [In]. intros IN. repeat (destruct IN as [IN|IN]; [congruence|]). exact IN.
  - do 2 closex N. do 2 calmx N. eapply sp_pipe; [exact N|]. clear N. intros rs ws h5 D7 (R7 & R7' & _) (W7 & W7' & _) N.
    eapply KW; [exact NZ|exact N|]. clear KK KW N. pose proof (base_given d) as BG.
    assert (Y0 : T0 0 = Some (b0, c0)). { destruct START as (_ & S0 & _). unfold base in EB0. destruct (T0 0); [exact EB0|contradiction]. }
    assert (Y1 : T0 1 = Some (b1, c1)). { destruct START as (_ & _ & S1). unfold base in EB1. destruct (T0 1); [exact EB1|contradiction]. }
    clear HA HOK HQ START EB0 EB1 NT MM.
    eapply (seven_of p r5 w6 rs ws _ (b0, c0) (b1, c1)); try assumption; try (unfold pipe_table; rewrite !set_other by congruence; solve [assumption|apply set_same]).
    + intros fd o b H. unfold pipe_table, set in H.
      repeat (match type of H with context [fd =? ?g] => let X := fresh "X" in destruct (Z.eqb_spec fd g) as [X|X]; [first [discriminate H|injection H as <- _; left; cbn [In]; clear; auto 10]|] end).
      destruct (M7 _ _ _ H) as [IN|B]; [left; clear - IN; cbn [In] in *; destruct IN as [E|[E|[E|[E|[]]]]]; injection E as _ <-; auto|].
      destruct (BG _ _ _ B) as [->| ->]; [left; cbn [In]; clear; auto 10|right; reflexivity].
    + intros fd b H. unfold pipe_table, set in H.
      repeat (match type of H with context [fd =? ?g] => let X := fresh "X" in destruct (Z.eqb_spec fd g) as [X|X]; [discriminate H|clear X] end).
      destruct (M7 _ _ _ H) as [IN|B]; [clear - IN; cbn [In] in *; destruct IN as [E|[E|[E|[E|[]]]]]; try discriminate E; injection E as <-; reflexivity|].
      destruct (BG _ _ _ B) as [X|X]; discriminate X.
    + intros fd b H. unfold pipe_table, set in H.
      repeat (match type of H with context [fd =? ?g] => let X := fresh "X" in destruct (Z.eqb_spec fd g) as [X|X]; [discriminate H|clear X] end).
      destruct (M7 _ _ _ H) as [IN|B]; [clear - IN; cbn [In] in *; destruct IN as [E|[E|[E|[E|[]]]]]; try discriminate E; injection E as <-; reflexivity|].
      destruct (BG _ _ _ B) as [X|X]; discriminate X.
    + intros fd b H. unfold pipe_table, set in H.
      repeat (match type of H with context [fd =? ?g] => let X := fresh "X" in destruct (Z.eqb_spec fd g) as [X|X]; [discriminate H|clear X] end).
      destruct (M7 _ _ _ H) as [IN|B]; [clear - IN; cbn [In] in *; destruct IN as [E|[E|[E|[E|[]]]]]; try discriminate E; injection E as <-; reflexivity|].
      destruct (BG _ _ _ B) as [X|X]; discriminate X.
    + apply (Forall_app _ [toc_w p; fromc_r p; fromctl_r p; toctl_w p] [r5; w6]). split; [exact W4|]. repeat constructor; clear - A5 A6 E5 E6 R5' W6'; lia.
    + clear - W7'. lia.
Qed.

(** ** The process with the key *)
Lemma mild_neutral : forall c, mild c -> (forall fd, c <> Close fd) -> neutral c.
Proof. intros [] M N; try exact Logic.I; [destruct (N fd); reflexivity|]. destruct M as [_ M]. exact M. Qed.
Lemma mild_fork : forall e, mild (fst e) -> calling (bs "fork") e = false.
Proof. intros [[] a] M; try reflexivity. apply calling_not. apply M. Qed.
Definition kcall (c : sys) : Prop := mild c /\ match c with Close f => 2 <= f | _ => True end.
Definition keyed_now (l : list Z) (t : trace) : Prop := forks t = l /\ key_table (tab (fds t)).
Lemma keyed_kcall : forall l t e, keyed_now l t -> kcall (fst e) -> keyed_now l (t ++ [e]).
Proof.
  intros l t e [H1 H2] [M K]. split; [apply forks_other; [exact H1|apply mild_fork; exact M]|]. rewrite fds_app. destruct e as [c a]. cbn [fst] in *.
  destruct c; try (rewrite step_neutral by (apply mild_neutral; [exact M|discriminate]); exact H2).
  unfold step. cbn [fst snd tab]. destruct H2 as (K0 & K1 & K2). split; [rewrite set_other by lia; exact K0|]. split; [rewrite set_other by lia; exact K1|].
  intros f o b E. unfold set in E. destruct (f =? fd); [discriminate|]. exact (K2 _ _ _ E).
Qed.
Ltac kq := repeat (calls1 || (progress cbv zeta)); try (split; [here|exact Logic.I]).
Lemma readall_kcall : forall f fd x n, calls kcall (readall f fd x n).
Proof. induction f; intros; cbn [readall]; kq; auto. Qed.
Lemma writeall_kcall : forall f fd x n, calls kcall (writeall f fd x n).
Proof. induction f; intros; cbn [writeall]; kq; auto. Qed.
Lemma read_msg_kcall : forall f fd r, calls kcall (read_msg f fd r).
Proof. intros f fd []; cbn [read_msg]; unfold pipe_readall, pipe_readmax, pipe_readalloc; kq; apply readall_kcall. Qed.
Lemma pipe_write_kcall : forall f fd x n, calls kcall (pipe_write f fd x n).
Proof. intros. unfold pipe_write. kq; apply writeall_kcall. Qed.
Lemma rand_kcall : forall n, calls kcall (randombytes n).
Proof. intros. unfold randombytes. kq. Qed.
Lemma cleanup_kcall : calls kcall cleanup.
Proof. unfold cleanup. kq. apply rand_kcall. Qed.
Lemma request_kcall : forall f r k, (forall m, calls kcall (k m)) -> calls kcall (request f r k).
Proof. intros f r k H. unfold request. apply calls_bind; [apply read_msg_kcall|]. intros [m|]; [apply H|apply cleanup_kcall]. Qed.
Lemma reply_kcall : forall f x n k, calls kcall k -> calls kcall (reply f x n k).
Proof. intros f x n k H. unfold reply. apply calls_bind; [apply pipe_write_kcall|]. intros [|e]; [apply H|apply cleanup_kcall]. Qed.
Lemma free_kcall : forall c, calls kcall (tls_pem_free c).
Proof. intros. unfold tls_pem_free. kq. Qed.
Lemma mul_kcall : forall c p sk, calls kcall (tls_crypto_scalarmult c p sk).
Proof. intros. unfold tls_crypto_scalarmult, mul. kq. Qed.
Lemma base_kcall : forall c sk, calls kcall (tls_crypto_scalarmult_base c sk).
Proof. intros. unfold tls_crypto_scalarmult_base, mulgen. kq. Qed.
Lemma jail_kcall : forall a d l, calls kcall (jail a d l).
Proof. intros. unfold jail, jail_main, must, mustbe, when, jail_limit_memory. destruct a, d, l; kq. Qed.
Lemma sign_kcall : forall pem key nonce hash m, calls kcall (sign stream pem key nonce hash m).
Proof. intros. unfold sign, tls_pem_encrypt. kq; solve [apply rand_kcall|apply free_kcall]. Qed.
Ltac kr := repeat (apply cleanup_kcall || (apply request_kcall; intro) || apply reply_kcall || calls1 || (progress cbv zeta)); try (split; [here|exact Logic.I]).
Lemma service_kcall : forall n pp prf, calls kcall (service fuel n pp prf).
Proof. induction n as [|n IH]; intros; cbn [service]; unfold offsets; kr; apply IH. Qed.
Lemma derive_kcall : forall pp c sk n, calls kcall (derive fuel pp c sk n).
Proof. intros. unfold derive. kr; solve [apply mul_kcall|apply rand_kcall|apply service_kcall]. Qed.
Lemma handshake_kcall : forall acc dir pp pem key nonce, calls kcall (handshake stream fuel nojail acc dir pp pem key nonce).
Proof.
  intros. unfold handshake. apply calls_bind; [destruct nojail; [apply calls_ret|apply jail_kcall]|]. intros j. destruct (_ =? _); [apply cleanup_kcall|].
  apply request_kcall. intros m. cbv zeta. apply calls_bind; [apply rand_kcall|]. intros sk. apply calls_bind; [apply base_kcall|]. intros [[pk|] sk']; [|apply cleanup_kcall].
  apply reply_kcall. apply request_kcall. intros hash. apply request_kcall. intros dl. destruct (_ <? _); [apply cleanup_kcall|]. apply request_kcall. intros d.
  apply calls_bind; [apply sign_kcall|]. intros [buf n]. apply calls_bind; [apply rand_kcall|]. intros _. apply reply_kcall. apply derive_kcall.
Qed.

Variable k0 : list Z.
Hypothesis HK : forall t e, keyed_now k0 t -> OK t e.
Lemma sp_kpart : forall R (p : prog R) h, calls kcall p -> keyed_now k0 h -> sp A OK h p (fun t _ => keyed_now k0 t).
Proof. intros R p h C N. apply (sp_quiet _ _ _ kcall); auto. intros t e NT CE _. split; [apply HK; exact NT|apply keyed_kcall; assumption]. Qed.
Lemma sp_kbind : forall R S (p : prog R) (f : R -> prog S) h Q', calls kcall p -> keyed_now k0 h -> (forall r h', keyed_now k0 h' -> sp A OK h' (f r) Q') -> sp A OK h (pbind p f) Q'.
Proof. intros R S p f h Q' C N K. apply sp_bind with (M := fun t _ => keyed_now k0 t); [apply sp_kpart; assumption|intros t r H; apply K; exact H]. Qed.
Lemma sp_load : forall fn key nonce c h, keyed_now k0 h -> sp A OK h (tls_pem_load stream fuel line0 fn key nonce c) (fun t _ => keyed_now k0 t).
Proof.
  intros fn key nonce c h N. unfold tls_pem_load. eapply sp_kbind; [apply free_kcall|exact N|]. clear h N. intros _ h N.
  unfold sys1 at 1. cbn [pbind]. apply sp_do. intros a HAa. split; [apply HK; exact N|]. apply HA in HAa as (_ & F & _). cbn [fst snd] in F. cbv zeta.
  assert (X : keyed_now k0 (h ++ [(Other (bs "open_read") [] fn, a)]) /\ (ret a = -1 \/ 2 <= ret a)).
  { destruct N as [N1 (K0 & K1 & K2)]. destruct (Z.eq_dec (ret a) (-1)) as [E|E].
    - split; [|left; exact E]. split; [apply forks_other; [exact N1|reflexivity]|]. rewrite fds_app. unfold step. cbn [fst snd]. rewrite E. cbn [Z.eqb Pos.eqb]. repeat split; assumption.
    - destruct F as (F1 & F2 & _); [right; left; apply calling_same|exact E|]. assert (2 <= ret a) by (assert (ret a <> 0 /\ ret a <> 1) by (split; congruence); lia).
      split; [|right; assumption]. split; [apply forks_other; [exact N1|reflexivity]|]. rewrite fds_app. unfold step. cbn [fst snd]. destruct (Z.eqb_spec (ret a) (-1)); [contradiction|].
      rewrite !(calling_not (bs "open_read")) by discriminate. rewrite calling_same. cbn [orb tab]. split; [rewrite set_other by lia; exact K0|]. split; [rewrite set_other by lia; exact K1|].
      intros f o b EE. unfold set in EE. destruct (f =? ret a); [injection EE as <- _; auto|exact (K2 _ _ _ EE)]. }
  destruct X as [N' FD]. apply sp_kpart; [|exact N'].
  assert (PC : forall fd ok n c, fd = -1 \/ 2 <= fd -> calls kcall (pem_cleanup fd ok n c)).
  { intros fd ok n c1 H. unfold pem_cleanup. apply calls_bind; [|intro; kq; apply free_kcall]. destruct (Z.eqb_spec fd (-1)); cbn [negb]; repeat calls1. split; [exact Logic.I|]. lia. }
  unfold pem_alloc, pemparse, tls_pem_encrypt.
  repeat (match goal with |- calls _ (pem_cleanup _ _ _ _) => apply PC; exact FD | |- calls _ (randombytes _) => apply rand_kcall | |- calls _ (readall _ _ _ _) => apply readall_kcall | _ => calls1 || (progress cbv zeta) end); try (split; [here|exact Logic.I]).
Qed.
Lemma sp_files : forall acc dir pp n pem key nonce h, keyed_now k0 h -> sp A OK h (files stream fuel nojail acc dir n pp line0 pem key nonce) (fun t _ => keyed_now k0 t).
Proof.
  intros acc dir pp n. induction n as [|n IH]; intros pem key nonce h N; cbn [files]; [apply sp_halt|]. unfold request.
  eapply sp_kbind; [apply read_msg_kcall|exact N|]. clear h N. intros [fn|] h N; [|apply sp_kpart; [apply cleanup_kcall|exact N]].
  destruct (_ =? 0); [apply sp_kpart; [apply handshake_kcall|exact N]|].
  do 3 (eapply sp_kbind; [apply calls_lift|exact N|]; clear h N; intros ? h N). eapply sp_kbind; [apply rand_kcall|exact N|]. clear h N. intros key' h N.
  apply sp_bind with (M := fun t _ => keyed_now k0 t); [apply sp_load; exact N|]. clear h N. intros h [[rr nonce'] pem'] N. destruct (rr =? 0).
  - eapply sp_kbind; [apply calls_sys1; split; [here|exact Logic.I]|exact N|]. clear h N. intros e h N. unfold pipe_writeerrno. eapply sp_kbind; [apply writeall_kcall|exact N|]. clear h N.
    intros [|x] h N; [apply IH; exact N|apply sp_kpart; [apply cleanup_kcall|exact N]].
  - destruct (pub pem'); [|apply sp_bad]. unfold reply. eapply sp_kbind; [apply pipe_write_kcall|exact N|]. clear h N. intros [|x] h N; [apply IH; exact N|apply sp_kpart; [apply cleanup_kcall|exact N]].
Qed.
Lemma sp_key : forall cmd h, keyed_now k0 h -> (forall t, Q t (Exit 0)) ->
  sp A OK h (_ <~ blocking 0 true ;; _ <~ blocking 1 true ;; _ <~ signal SIGPIPE IGN ;; _ <~ signal SIGCHLD DFL ;; _ <~ signal SIGTERM DFL ;;
      acc <~ lift (cstr_opt (jailaccount (settings cmd))) ;; dir <~ lift (cstr (jaildir (settings cmd))) ;;
      _ <~ tls_keyjail stream fuel nojail acc (Some dir) line0 key0 ;; Ret (Exit 0)) Q.
Proof.
  intros cmd h N Q0. assert (BL : forall fd b, calls kcall (blocking fd b)).
  { intros. intros tr o R. pose proof (blocking_mild fd b tr o R) as M. pose proof (blocking_calmer fd b tr o R) as C. rewrite Forall_forall in *. intros e IN. split; [exact (M e IN)|]. specialize (C e IN).
    destruct C as (_ & C & _). destruct (fst e); try exact Logic.I. destruct C. }
  assert (SG : forall n d, calls kcall (signal n d)) by (intros; unfold signal, do; kq).
  eapply sp_kbind; [apply BL|exact N|]. clear h N. intros _ h N. eapply sp_kbind; [apply BL|exact N|]. clear h N. intros _ h N.
  do 3 (eapply sp_kbind; [apply SG|exact N|]; clear h N; intros _ h N).
  do 2 (eapply sp_kbind; [apply calls_lift|exact N|]; clear h N; intros ? h N).
  apply sp_bind with (M := fun t _ => keyed_now k0 t); [|intros; apply sp_ret; apply Q0]. unfold tls_keyjail.
  eapply sp_kbind; [apply calls_sys1; split; [here|exact Logic.I]|exact N|]. clear h N. intros g h N. apply sp_files. exact N.
Qed.

(** ** The wrapper *)
Lemma finish_call : forall c k f t s, calls (fun c => mild c \/ exists a, c = Other (bs "waitpid") a []) (finish fuel c k f t s).
Proof.
  intros. assert (WA : forall n pid, calls (fun c => mild c \/ exists a, c = Other (bs "waitpid") a []) (wait n pid)) by (induction n; intros; cbn [wait]; repeat calls1; eauto).
  assert (ML : forall R (p : prog R), calls mild p -> calls (fun c => mild c \/ exists a, c = Other (bs "waitpid") a []) p) by (intros R p C; eapply calls_weak; [exact C|]; auto).
  unfold finish. repeat calls1; try apply WA; apply ML; auto with mild; unfold signal, do; steps.
Qed.
Definition wcall (c : sys) : Prop := mild c \/ exists a, c = Other (bs "waitpid") a [].
Lemma mw : forall R (p : prog R), calls mild p -> calls wcall p.
Proof. intros R p C. eapply calls_weak; [exact C|]. intros c H. left. exact H. Qed.
Lemma need_wcall : forall p k, calls mild p -> calls wcall k -> calls wcall (need p k).
Proof. intros. unfold need. apply calls_bind; [apply mw; assumption|]. intros [|]; [assumption|apply calls_ret]. Qed.
Lemma relay_wcall : forall cmd n self s d, (forall s, calls wcall (d s)) -> calls wcall (relay fuel cmd n self s d).
Proof.
  intros cmd n self s d H. unfold relay, sigaction. cbv zeta.
  assert (T : forall s, calls wcall ((fun s => _ <~ init_tls (settings cmd) n ;;
    '(r, t) <~ tls_phase (timeout cmd) 1 self (match certuser (settings cmd) with Some _ => true | None => false end) fuel (mkts s false (delayed (settings cmd))) ;;
    if r =? 0 then d (Tlsphase.fds t) else Ret (Exit r)) s)).
  { intros s1. cbv beta. apply calls_bind; [apply mw, init_mild|]. intros _. apply calls_bind; [apply mw, tls_phase_mild|]. intros [r t]. destruct (r =? 0); [apply H|apply calls_ret]. }
  apply calls_bind; [apply mw, blocking_mild|]. intros _. apply calls_bind; [apply mw, blocking_mild|]. intros _. destruct (delayed (settings cmd)).
  - apply calls_bind; [apply mw; auto with mild|]. intros [|]; [apply calls_ret|]. apply calls_bind; [apply mw; steps|]. intros a. destruct (_ =? _); [apply calls_ret|].
    apply calls_bind; [apply mw; auto with mild|]. intros _. apply calls_bind; [apply mw, cleartext_mild|]. intros [r s1]. destruct (r =? 0); [apply H|]. apply calls_bind; [apply mw; auto with mild|]. intros _. apply T.
  - apply calls_bind; [apply mw; auto with mild|]. intros v1. apply calls_bind; [apply mw; auto with mild|]. intros w1. apply calls_bind; [apply mw; steps|]. intros a. destruct (_ =? _); [apply calls_ret|]. apply T.
Qed.
Lemma jailed_wcall : forall cmd p child key fk tk self, calls wcall (jailed_main I fuel env nojail cmd p child key fk tk self).
Proof.
  intros. unfold jailed_main. cbv zeta. apply calls_bind; [apply calls_lift|]. intros acc. apply calls_bind; [apply calls_lift|]. intros dir. apply calls_bind.
  { destruct nojail; [apply calls_ret|apply mw, jail_mild]. }
  intros r. destruct (_ =? -1); [apply calls_ret|].
  assert (AN : forall fn a b k, (forall n, calls wcall (k n)) -> calls wcall (anchor fuel fn a b k)).
  { intros [fn|] a b k H; [|apply H]. unfold anchor. apply calls_bind; [apply calls_lift|]. intros fn'. apply calls_bind; [apply calls_lift|]. intros n. apply need_wcall; [auto with mild|].
    apply calls_bind; [apply mw; auto with mild|]. intros [x|pem]; [apply calls_ret|]. apply calls_bind; [apply mw; steps|]. intros q. destruct (_ =? _); [apply calls_ret|apply H]. }
  apply AN. intros talen. unfold peer_info. assert (TE : forall fd i k, calls wcall k -> calls wcall (tell fuel fd i k)) by (intros; unfold tell; repeat (apply need_wcall; auto with mild)).
  destruct (ppin _).
  - apply calls_bind; [apply mw, proxy_mild|]. intros [q e]. destruct (_ =? _); [apply calls_ret|]. apply TE. apply relay_wcall. intros s. apply finish_call.
  - apply calls_bind; [apply mw, connection_mild|]. intros i. apply TE. apply relay_wcall. intros s. apply finish_call.
Qed.
Definition wrapped_now (l : list Z) (t : trace) : Prop := forks t = l /\ wrapper_fds (fds t).
Lemma wrapped_wcall : forall l t e, wrapped_now l t -> wcall (fst e) -> wrapped_now l (t ++ [e]).
Proof.
  intros l t [c a] [H1 H2] [M|(x & M)].
  - split; [apply forks_other; [exact H1|apply mild_fork; exact M]|]. rewrite fds_app. cbn [fst] in *.
    destruct c; try (rewrite step_neutral by (apply mild_neutral; [exact M|discriminate]); exact H2).
    destruct H2 as [H2 H3]. split.
    + intros f o b E. unfold step in E. cbn [fst snd tab] in E. unfold set in E. destruct (f =? fd); [discriminate|]. exact (H2 _ _ _ E).
    + intros f b g b' E E'. unfold step in E, E'. cbn [fst snd tab] in E, E'. unfold set in E, E'. destruct (f =? fd); [discriminate|]. destruct (g =? fd); [discriminate|]. exact (H3 _ _ _ _ E E').
  - cbn [fst] in M. subst c. split; [apply forks_other; [exact H1|reflexivity]|]. rewrite fds_app, step_neutral; [exact H2|]. repeat split; discriminate.
Qed.
Lemma sp_wrapper : forall cmd p child key fk tk self h, wrapped_now [child; key] h -> (forall t e, wrapped_now [child; key] t -> OK t e) -> (forall t x, wrapped_now [child; key] t -> (exists c, x = Exit c) -> Q t x) ->
  sp A OK h (jailed_main I fuel env nojail cmd p child key fk tk self) Q.
Proof.
  intros cmd p child key fk tk self h N HW HE.
  eapply sp_conseq; [apply (sp_part _ _ _ wcall (fun x => exists c, x = Exit c) (wrapped_now [child; key])); [apply jailed_wcall| |exact N|]|].
  - apply jailed_gives.
  - intros t e NT C _. split; [apply HW; exact NT|apply wrapped_wcall; assumption].
  - cbn beta. intros t r [H G]. apply HE; assumption.
Qed.

(** ** The program's process *)
Definition noclose (c : sys) : Prop := mild c /\ match c with Close _ => False | _ => True end.
Definition pcall (c : sys) : Prop := noclose c \/ exists n, c = Other (bs "execvp") [] n.
Ltac ks := repeat (calls1 || (progress cbv zeta)); try (split; [here|exact Logic.I]).
Lemma readall_noclose : forall f fd x n, calls noclose (readall f fd x n).
Proof. induction f; intros; cbn [readall]; ks; auto. Qed.
Lemma pw : forall R (p : prog R), calls noclose p -> calls pcall p.
Proof. intros R p C. eapply calls_weak; [exact C|]. intros c H. left. exact H. Qed.
Lemma jail_noclose : forall a d l, calls noclose (jail a d l).
Proof. intros. unfold jail, jail_main, must, mustbe, when, jail_limit_memory. destruct a, d, l; ks. Qed.
Lemma droppriv_pcall : forall x k, calls pcall k -> calls pcall (droppriv x k).
Proof. intros x k H. unfold droppriv. apply calls_bind; [apply pw, jail_noclose|]. intros [r lim]. destruct (_ =? _); [apply calls_ret|exact H]. Qed.
Lemma receive_pcall : forall n k, (forall x, calls pcall (k x)) -> calls pcall (receive fuel n k).
Proof. intros n k H. unfold receive, pipe_readall. apply calls_bind; [apply pw; ks; apply readall_noclose|]. intros [[|] y]; [apply H|apply calls_ret]. Qed.
Lemma start_pcall : forall uc us argv, calls pcall (child_start I fuel junk portbuf uc us argv).
Proof.
  intros uc us argv. unfold child_start.
  assert (SG : forall n d, calls noclose (signal n d)) by (intros; unfold signal, do; ks).
  do 4 (apply receive_pcall; intros ?). apply calls_bind; [apply pw; unfold put_connection, put_env, do; ks|]. intros _.
  match goal with |- calls pcall (login _ _ _ ?k) => assert (K : calls pcall k) end.
  { apply calls_bind; [apply calls_lift|]. intros u.
    match goal with |- calls pcall (_ ?k) => assert (K : calls pcall k) end.
    { do 3 (apply calls_bind; [apply pw, SG|]; intros _). apply calls_bind; [apply calls_lift|]. intros v. apply calls_bind; [apply calls_sys1; right; eauto|]. intros a. apply calls_ret. }
    destruct u; [apply droppriv_pcall; exact K|exact K]. }
  unfold login. apply calls_bind; [apply pw; unfold pipe_readmax; ks; apply readall_noclose|]. intros [[[|] acc] n]; [|apply calls_ret]. destruct (_ <=? _); [exact K|].
  apply calls_bind; [apply calls_lift|]. intros a. destruct (negb uc); [exact K|]. apply calls_bind; [apply calls_lift|]. intros z. apply droppriv_pcall. exact K.
Qed.
Definition started_now (d : bool) (l : list Z) (t : trace) : Prop := forks t = l /\ program_fds T0 d (fds t).
Lemma started_pcall : forall d l t e, started_now d l t -> pcall (fst e) -> started_now d l (t ++ [e]).
Proof.
  intros d l t [c a] [H1 H2] [[M K]|(x & M)].
  - split; [apply forks_other; [exact H1|apply mild_fork; exact M]|]. rewrite fds_app. cbn [fst] in *.
    rewrite step_neutral; [exact H2|]. cbn [fst]. apply mild_neutral; [exact M|]. intros fd ->. exact K.
  - cbn [fst] in M. subst c. split; [apply forks_other; [exact H1|reflexivity]|]. rewrite fds_app, step_neutral; [exact H2|]. repeat split; discriminate.
Qed.
Lemma sp_started : forall d l uc us argv h, started_now d l h -> (forall t e, started_now d l t -> OK t e) -> (forall t x, started_now d l t -> Q t x) ->
  sp A OK h (child_start I fuel junk portbuf uc us argv) Q.
Proof.
  intros d l uc us argv h N HW HE. eapply sp_conseq; [apply (sp_quiet _ _ _ pcall (started_now d l)); [apply start_pcall|exact N|]|].
  - intros t e NT C _. split; [apply HW; exact NT|apply started_pcall; assumption].
  - cbn beta. intros t r H. apply HE. exact H.
Qed.
End Desc.
