(** C73-C75: the descriptors of the three processes. *)
From Verif.Model Require Import Base Sys Io Str Inet InetIsc Config Parsenum Fdio Relay Session Tlsphase Jail Pem Keyjail Proxy Conninfo Options Main.
From Verif.Spec Require Import Text Num Settings Cmdline Flow Restrict Process Fdtable.
From Verif.Proof Require Import Tac SysP CallsP StrP ConfigP OptionsP PlayP PerformP SafeP MainCallsP MainP ChildP DescP.
From Verif.Props Require Import PropJail PropOptions PropMain.

Lemma options_calmer : forall argv o, calls calmer (options argv o).
Proof.
  assert (SO : forall c x o, calls calmer (set_option c x o)).
  { intros. unfold set_option, statted, configured. repeat (calls1 || (progress cbv zeta)); here. }
  assert (CL : forall x next o, calls calmer (cluster x next o)).
  { intros x. induction x as [|c x IH]; intros; cbn [cluster]; repeat (calls1 || (progress cbv zeta)); auto. }
  fix IH 1. intros argv o. destruct argv as [|x argv]; cbn [options]; repeat (calls1 || (progress cbv zeta)); auto.
Qed.
Lemma command_calmer : forall argv, calls calmer (command_line argv).
Proof. intros. unfold command_line. repeat (calls1 || (progress cbv zeta)); apply options_calmer. Qed.

Section Main.
Variable I : inet.
Variable stream : list Z -> list Z -> nat -> Z.
Variable fuel : nat.
Variables junk portbuf line0 key0 : list Z.
Variable env : environment.
Variable nojail : bool.
Notation main := (main_tlswrapper I stream fuel junk portbuf line0 key0 env nojail).
Variable T : table.

Definition orderly (d : bool) (t : trace) (e : event) : Prop :=
  transfers e ->
  (forks t = [0] /\ program_fds T d (descriptors T t)) \/
  (exists c, c <> 0 /\ forks t = [c; 0] /\ key_table (tab (descriptors T t))) \/
  (exists c k, c <> 0 /\ k <> 0 /\ forks t = [c; k] /\ wrapper_fds (descriptors T t)).
Definition finally (d : bool) (t : trace) (x : ending) : Prop := match x with Exec _ => program_fds T d (descriptors T t) | Exit _ => True end.

Lemma now_prefix : forall t, Forall (fun e => calmer (fst e)) t -> now T [] T 0 t.
Proof.
  intros t. induction t as [|e t IH] using rev_ind; intros F; [constructor; auto|].
  apply Forall_app in F as [F C]. apply Forall_inv in C. apply now_neutral; [apply IH; exact F|apply C|apply C|apply calmer_fork; exact C].
Qed.
Lemma start_fds : forall cmd h, start_table T -> now T [] T 0 h ->
  sp (fun t e => fd_answer (descriptors T t) e) (orderly (delayed (settings cmd))) h (start_child I stream fuel junk portbuf line0 key0 env nojail cmd) (finally (delayed (settings cmd))).
Proof.
  intros cmd h ST N. set (d := delayed (settings cmd)).
  assert (HOK : forall t e, calm (fst e) -> orderly d t e). { intros t e [S _] X. unfold transfers in X. unfold still in S. destruct (fst e); contradiction. }
  apply sp_start with (T0 := T); auto; [intros t; exact Logic.I| |].
  - intros p a h' Z F N'. rewrite Z in N'. apply sp_child with (T0 := T) (l := [0]); auto; [intros t; exact Logic.I|].
    intros h2 _ FK PF. apply sp_started with (T0 := T) (d := d) (l := [0]); [split; assumption| |].
    + intros t e [H1 H2] _. left. auto.
    + intros t [c|v] [_ H]; [exact Logic.I|exact H].
  - intros p a h' NZ F N'. apply sp_parent with (T0 := T); auto; [intros t; exact Logic.I| |].
    + intros U h2 N2 KT. apply sp_key with (T0 := T) (k0 := [ret a; 0]); auto; try (intros t; exact Logic.I).
      * intros t e [H1 H2] _. right. left. exists (ret a). auto.
      * split; [apply (n_forks _ _ _ _ _ N2)|]. destruct KT as (K0 & K1 & K2). unfold key_table. setoid_rewrite (n_tab _ _ _ _ _ N2). auto.
    + intros U key fk tk self h2 NK N2 SV. apply sp_wrapper with (T0 := T).
      * split; [apply (n_forks _ _ _ _ _ N2)|]. eapply seven_fds; [exact SV|apply (n_tab _ _ _ _ _ N2)].
      * intros t e [H1 H2] _. right. right. exists (ret a), key. auto.
      * intros t x _ (c & ->). exact Logic.I.
Qed.
Lemma main_fds : forall name words argv tr out, Forall2 points words argv -> runs (main (name :: argv)) tr out -> start_table T -> kernel_fds T tr ->
  ((forall v, out <> Fin (Exec v)) /\ Forall (fun e => ~ transfers e) tr) \/
  exists t0 t1 t2 l prg th hh, tr = t0 ++ t1 ++ t2 /\ accepted words l prg th hh t1 /\ always (orderly (delay l)) tr /\ (forall x, out = Fin x -> finally (delay l) tr x).
Proof.
  intros name words argv tr out F R ST KF.
  assert (NT : forall u, Forall (fun e => local (fst e)) u -> Forall (fun e => ~ transfers e) u).
  { intros u. apply Forall_impl. intros e [_ S] X. unfold transfers in X. unfold still in S. destruct (fst e); contradiction. }
  assert (L1 : forall t o argv, runs (command_line argv) t o -> Forall (fun e => local (fst e)) t) by (intros t o av RU; exact (command_local _ _ _ RU)).
  destruct (main_parts _ _ _ _ _ _ _ _ _ _ _ _ R) as [(_ & E & L)|(t0 & t1 & t2 & -> & PR & L0 & C)].
  - left. split; [|apply NT; exact L]. intros v ->. destruct (E _ eq_refl); discriminate.
  - destruct C as [(R1 & -> & ->)|[(cmd & R1 & R2)|[(R1 & -> & ->)|(R1 & -> & ->)]]];
      try (left; split; [discriminate|]; rewrite app_nil_r; apply NT; apply Forall_app; split; [exact L0|eapply L1; exact R1]).
    right. destruct (C64_exact _ _ _ _ _ F R1) as (_ & X & _). destruct (X cmd eq_refl) as (l & prg & A & _). exists t0, t1, t2, l, prg, (timeout cmd), (hstimeout cmd).
    split; [reflexivity|]. split; [exact A|]. unfold delay. rewrite <- (s_delay _ _ (C64_settings _ _ _ _ _ _ _ _ _ F R1 A)).
    assert (N : now T [] T 0 (t0 ++ t1)).
    { apply now_prefix. apply Forall_app. split; [|exact (command_calmer _ _ _ R1)].
      clear - PR. assert (Y : Forall calmer (map fst t0)) by (rewrite PR; repeat constructor; here). rewrite Forall_map in Y. exact Y. }
    rewrite app_assoc in KF. assert (HA : holds (fun t e => fd_answer (descriptors T t) e) [] ((t0 ++ t1) ++ t2)) by exact KF.
    apply holds_app in HA as [_ HA]. destruct (start_fds cmd (t0 ++ t1) ST N t2 out R2 HA) as [HO HQ]. rewrite app_assoc. split; [|exact HQ].
    apply (proj1 (holds_always _ _)). apply (proj2 (holds_app _ [] _ _)). split; [|exact HO].
    intros a e b E TR. exfalso. assert (Y : Forall (fun e => ~ transfers e) (t0 ++ t1)) by (apply NT; apply Forall_app; split; [exact L0|eapply L1; exact R1]).
    rewrite Forall_forall in Y. apply (Y e); [rewrite E; apply in_or_app; right; left; reflexivity|exact TR].
Qed.

(** ** C73 *)
Theorem C73_program : forall name words argv tr v, Forall2 points words argv -> runs (main (name :: argv)) tr (Fin (Exec v)) -> start_table T -> kernel_fds T tr ->
  exists t0 t1 t2 l prg th hh, tr = t0 ++ t1 ++ t2 /\ accepted words l prg th hh t1 /\ program_fds T (delay l) (descriptors T tr).
Proof.
  intros name words argv tr v F R ST KF. destruct (main_fds _ _ _ _ _ F R ST KF) as [(X & _)|(t0 & t1 & t2 & l & prg & th & hh & E & A & _ & H)]; [destruct (X v); reflexivity|].
  exists t0, t1, t2, l, prg, th, hh. split; [exact E|]. split; [exact A|]. exact (H _ eq_refl).
Qed.
(** ** C74 *)
Theorem C74_key : forall name words argv tr out, Forall2 points words argv -> runs (main (name :: argv)) tr out -> start_table T -> kernel_fds T tr ->
  always (fun t e => transfers e -> forall c, c <> 0 -> forks t = [c; 0] ->
    key_fds (descriptors T t) /\ tab (descriptors T t) 0 = Some (ReadEnd 6, false) /\ tab (descriptors T t) 1 = Some (WriteEnd 5, false)) tr.
Proof.
  intros name words argv tr out F R ST KF t e u E TR c NC FK. destruct (main_fds _ _ _ _ _ F R ST KF) as [(_ & X)|(t0 & t1 & t2 & l & prg & th & hh & _ & _ & H & _)].
  - exfalso. rewrite Forall_forall in X. apply (X e); [rewrite E; apply in_or_app; right; left; reflexivity|exact TR].
  - destruct (H t e u E TR) as [(Y & _)|[(c' & _ & _ & (K0 & K1 & K2))|(c' & k & _ & NK & Y & _)]]; [congruence| |congruence]. split; [exact K2|auto].
Qed.
(** ** C75 *)
Theorem C75_wrapper : forall name words argv tr out, Forall2 points words argv -> runs (main (name :: argv)) tr out -> start_table T -> kernel_fds T tr -> original tr ->
  always (fun t e => transfers e -> (exists c k, forks t = [c; k]) /\ wrapper_fds (descriptors T t)) tr.
Proof.
  intros name words argv tr out F R ST KF O t e u E TR. destruct (main_fds _ _ _ _ _ F R ST KF) as [(_ & X)|(t0 & t1 & t2 & l & prg & th & hh & _ & _ & H & _)].
  - exfalso. rewrite Forall_forall in X. apply (X e); [rewrite E; apply in_or_app; right; left; reflexivity|exact TR].
  - assert (O' : ~ In 0 (forks t)). { intros IN. apply O. rewrite E, forks_app. apply in_or_app. left. exact IN. }
    destruct (H t e u E TR) as [(Y & _)|[(c' & _ & Y & _)|(c' & k & _ & NK & Y & W)]]; [rewrite Y in O'; destruct O'; cbn; auto|rewrite Y in O'; destruct O'; cbn; auto|]. split; [eauto|exact W].
Qed.
End Main.
Print Assumptions C73_program.
Print Assumptions C74_key.
Print Assumptions C75_wrapper.

(** ** Examples *)
(** the kernel's rules, decided *)
Definition absent (s : fdstate) (fd : Z) : bool := match tab s fd with None => true | Some _ => false end.
Definition freshb (s : fdstate) (other fd : Z) : bool :=
  if (0 <=? fd) && (fd <? 1024) then absent s fd && forallb (fun n => (Z.of_nat n =? other) || negb (absent s (Z.of_nat n))) (seq 0 (Z.to_nat fd)) else false.
Lemma freshb_ok : forall s other fd, freshb s other fd = true -> fresh s other fd.
Proof.
  intros s other fd H. unfold freshb in H. destruct (Z.leb_spec 0 fd); [|discriminate]. destruct (Z.ltb_spec fd 1024); [|discriminate]. cbn [andb] in H. apply andb_prop in H as [H5 H4].
  split; [unfold absent in H5; destruct (tab s fd); congruence|]. split; [lia|]. intros f B N. rewrite forallb_forall in H4.
  specialize (H4 (Z.to_nat f)). rewrite Z2Nat.id in H4 by lia. destruct (Z.eqb_spec f other); [contradiction|]. cbn [orb] in H4.
  unfold absent in H4. destruct (tab s f); [discriminate|]. discriminate H4. apply in_seq. lia.
Qed.
Definition answerb (s : fdstate) (e : event) : bool :=
  let a := snd e in
  if ret a =? -1 then match fst e with
    | Other n [fd; c; _] _ => negb (same n (bs "fcntl")) || negb (c =? 2) || absent s fd
    | _ => true
    end
  else if calling (bs "pipe") e then negb (nth 0 (data a) 0 =? nth 1 (data a) 0) && freshb s (nth 1 (data a) 0) (nth 0 (data a) 0) && freshb s (nth 0 (data a) 0) (nth 1 (data a) 0)
  else if calling (bs "open") e || calling (bs "open_read") e || calling (bs "dup") e then
    if freshb s (-1) (ret a) then match fst e with Other n [fd] _ => negb (same n (bs "dup")) || negb (absent s fd) | _ => true end else false
  else true.
Lemma answerb_ok : forall s e, answerb s e = true -> fd_answer s e.
Proof.
  intros s e H. unfold answerb in H. cbv zeta in H. destruct (Z.eqb_spec (ret (snd e)) (-1)) as [R|R].
  { split; [intros; contradiction|split; [intros; contradiction|split; [intros; exact R|]]].
    intros fd v d E T. rewrite E in H. unfold absent in H. unfold same in H. destruct (list_eq_dec _ _ _); [|congruence]. destruct (tab s fd); [discriminate|contradiction]. }
  split; [|split; [|split; [|intros; exact R]]].
  - intros C _. rewrite C in H. apply andb_prop in H as [H F2]. apply andb_prop in H as [F0 F1].
    split; [destruct (Z.eqb_spec (nth 0 (data (snd e)) 0) (nth 1 (data (snd e)) 0)); [discriminate|assumption]|]. split; apply freshb_ok; assumption.
  - intros C _. apply freshb_ok. assert (P : calling (bs "pipe") e = false).
    { unfold calling in C |- *. destruct (fst e); try reflexivity. destruct C as [C|[C|C]]; destruct (list_eq_dec _ _ _) as [->|] in C; try discriminate; reflexivity. }
    rewrite P in H. assert (Q : calling (bs "open") e || calling (bs "open_read") e || calling (bs "dup") e = true) by (destruct C as [C|[C|C]]; rewrite C, ?orb_true_r; reflexivity).
    rewrite Q in H. destruct (freshb s (-1) (ret (snd e))); [reflexivity|discriminate].
  - intros fd d E T. exfalso.
    assert (P : calling (bs "pipe") e = false) by (unfold calling; rewrite E; reflexivity).
    assert (Q : calling (bs "dup") e = true) by (unfold calling; rewrite E; reflexivity).
    rewrite P, Q, orb_true_r, E in H. unfold absent in H. rewrite T in H. unfold same in H. destruct (list_eq_dec _ _ _) in H; [|congruence]. destruct (freshb _ _ _) in H; discriminate H.
Qed.
Fixpoint answersb (s : fdstate) (tr : trace) : bool := match tr with [] => true | e :: t => if answerb s e then answersb (step s e) t else false end.
Lemma answersb_ok : forall T tr, answersb (mkfds T 0) tr = true -> kernel_fds T tr.
Proof.
  intros T tr. unfold kernel_fds, descriptors. generalize (mkfds T 0). induction tr as [|x tr IH]; intros s H t1 e t2 E; [destruct t1; discriminate|].
  cbn [answersb] in H. destruct (answerb s x) eqn:H1 in H; [|discriminate H]. rename H into H2. destruct t1 as [|y t1]; cbn [app] in E; injection E as -> E; [apply answerb_ok; exact H1|]. cbn [fold_left]. eapply IH; [exact H2|exact E].
Qed.
(** descriptors 0, 1 and 2 at the start *)
Definition T3 : table := fun fd => if (0 <=? fd) && (fd <=? 2) then Some (Given fd, false) else None.
Lemma T3_start : start_table T3.
Proof. split; [|split; discriminate]. intros fd o b E. unfold T3 in E. destruct (Z.leb_spec 0 fd); [|discriminate]. destruct (_ <=? _); [|discriminate]. injection E as <- <-. auto. Qed.
(** a system that hands out the lowest free numbers; everything else as before *)
Record os3 := mkos3 { used : fdstate; rest : os }.
Fixpoint lowest_free (n : nat) (s : fdstate) (fd : Z) : Z := match n with O => fd | S n => if absent s fd then fd else lowest_free n s (fd + 1) end.
Definition kernel3 (s : os3) (c : sys) : ans * os3 :=
  let '(a, r) := kernel (rest s) c in
  let f := lowest_free (Z.to_nat 100) (used s) 0 in
  let g := lowest_free (Z.to_nat 100) (used s) (f + 1) in
  let a := match c with
    | Other n args _ =>
      if same n (bs "pipe") then mkans 0 0 [f; g]
      else if same n (bs "open") || same n (bs "open_read") || same n (bs "dup") then ok f
      else if same n (bs "fstat") then ok (if absent (used s) (nth 0 args 0) then -1 else 0)
      else a
    | _ => a end in
  (a, mkos3 (step (used s) (c, a)) r).
Definition frame0 (m : list Z) : list Z := [len m; 0; 0; 0; 0; 0; 0; 0] ++ m.
Definition told : list (list Z) := concat (map (fun m => [firstn 8 (frame0 m); m]) [repeat 0 16; [0; 25]; repeat 0 15 ++ [1]; [4; 210]]) ++ [firstn 8 (frame0 [0]); [0]].
Definition executed (T : table) (tr : trace) (o : outcome ending) : bool := match o with Fin (Exec _) => answersb (mkfds T 0) tr | _ => false end.
Definition delaywords : list (list Z) := [bs "-n"; bs "-d"; bs "certs"; bs "prog"; bs "arg"].
(** the program runs, with and without -n, and meets the hypotheses of C73 *)
Example ex_program : Forall (fun words => exists tr v, runs (wrapper false words) tr (Fin (Exec v)) /\ legal tr /\ kernel_fds T3 tr) [plainwords; delaywords].
Proof.
  assert (X : forall words, (exists tr o, runs (wrapper false words) tr o /\ legal tr /\ executed T3 tr o = true) -> exists tr v, runs (wrapper false words) tr (Fin (Exec v)) /\ legal tr /\ kernel_fds T3 tr).
  { intros words (tr & o & R & L & E). unfold executed in E. destruct o as [[c|v]| |]; try discriminate. exists tr, v. split; auto. split; auto. apply answersb_ok. exact E. }
  repeat apply Forall_cons; try apply Forall_nil; apply X; apply (perform_show _ _ kernel3 (Z.to_nat 400) (mkos3 (mkfds T3 0) (mkos 3 [0] [] [(0, told)] []))); vm_compute; reflexivity.
Qed.
Definition transferred (T : table) (l : list Z) (tr : trace) (o : outcome ending) : bool :=
  same (forks tr) l && answersb (mkfds T 0) tr && existsb (fun e => match fst e with Read _ _ | Write _ _ => true | _ => false end) tr.
(** the other two processes transfer something *)
Example ex_others : Forall (fun l => exists tr o, runs (wrapper false plainwords) tr o /\ legal tr /\ kernel_fds T3 tr /\ forks tr = l /\ exists e, In e tr /\ transfers e) [[500; 0]; [500; 501]].
Proof.
  assert (X : forall l, (exists tr o, runs (wrapper false plainwords) tr o /\ legal tr /\ transferred T3 l tr o = true) ->
    exists tr o, runs (wrapper false plainwords) tr o /\ legal tr /\ kernel_fds T3 tr /\ forks tr = l /\ exists e, In e tr /\ transfers e).
  { intros l (tr & o & R & L & E). apply andb_prop in E as [E E3]. apply andb_prop in E as [E1 E2]. exists tr, o. split; auto. split; auto. split; [apply answersb_ok; exact E2|]. split; [apply same_true; exact E1|].
    apply existsb_exists in E3 as (e & IN & H). exists e. split; auto. unfold transfers. destruct (fst e); try discriminate; exact Logic.I. }
  repeat apply Forall_cons; try apply Forall_nil; apply X.
  - apply (perform_show _ _ kernel3 (Z.to_nat 400) (mkos3 (mkfds T3 0) (mkos 3 [500; 0] [] [] []))). vm_compute. reflexivity.
  - apply (perform_show _ _ kernel3 (Z.to_nat 400) (mkos3 (mkfds T3 0) (mkos 3 [500; 501] [mkans 501 0 [0]; mkans 500 0 [10752]] [] [1]))). vm_compute. reflexivity.
Qed.
