(** Network process and key process do not wait for each other. *)
From Verif.Model Require Import Base Sys Io Str Buffer Pem Choose Stubs Framed.
From Verif.Spec Require Import Stream Text PemFile Curve Protocol InStep Waits.
From Verif.Proof Require Import Tac SysP CallsP IoP FrameP StrP DialogueP StubsP KeyjailP InStepP WaitsP.

(** ** The network process at a read or a write *)
Section NET.
Variables (fuel : nat) (to from : Z).
Notation put := (@put fuel to _).

Lemma put_faces : forall R ms (fail k : prog R) t c, legal t -> Forall small ms -> faces (put ms fail k) t c ->
  (writing to c /\ got from t = [] /\ exists r, r <> [] /\ frames ms = sent to t ++ r) \/
  (exists t1 t2, t = t1 ++ t2 /\ sent to t1 = frames ms /\ got from t1 = [] /\ legal t2 /\ faces k t2 c) \/
  (exists t1 t2, t = t1 ++ t2 /\ Exists hard t1 /\ faces fail t2 c).
Proof.
  intros R ms. induction ms as [|m ms IH]; intros fail k t c L S F; cbn [Stubs.put] in F.
  { right. left. exists [], t. repeat split; auto. }
  apply Forall_cons_iff in S as [S1 S2]. rewrite <- (app_nil_r m) in F at 1. apply faces_bind in F as [F|(r & t1 & t2 & -> & R1 & F)].
  - left. pose proof (faces_runs _ _ _ _ F) as R1. rewrite app_nil_r in R1.
    pose proof (got_none from _ _ (pipe_write_calls _ _ _ _ _ _ R1) (writes_noread to from)) as G1.
    apply pipe_write_faces in F as (W & r & NR & E); auto. split; auto. split; auto. exists (r ++ frames ms). split; [destruct r; [congruence|discriminate]|].
    unfold frames at 1. cbn [map concat]. rewrite app_assoc, <- E. reflexivity.
  - apply legal_app in L as [L1 L2]. destruct (pipe_write_ok _ _ _ _ _ _ R1 L1 S1) as [_ H]. rewrite app_nil_r in R1.
    pose proof (got_none from _ _ (pipe_write_calls _ _ _ _ _ _ R1) (writes_noread to from)) as G1. destruct r as [|e].
    + destruct H as [H _]. apply IH in F as [(A & B & r & C & D)|[(u1 & u2 & -> & A & B & C & D)|(u1 & u2 & -> & A & B)]]; auto.
      * left. split; auto. rewrite got_app, sent_app, G1, B, H. split; auto. exists r. split; auto. unfold frames at 1. cbn [map concat]. rewrite <- app_assoc, <- D. reflexivity.
      * right. left. exists (t1 ++ u1), u2. rewrite <- app_assoc, sent_app, got_app, H, A, B, G1. repeat split; auto.
      * right. right. exists (t1 ++ u1), u2. rewrite <- app_assoc. repeat split; auto. apply Exists_app. auto.
    + right. right. exists t1, t2. split; auto. split; auto. destruct H as (_ & _ & H). apply ends_exists. auto.
Qed.

(** What a call still waits for. *)
Definition owing (c : call) (g : list Z) : Prop :=
  match c with
  | Mul _ _ _ _ _ _ => False
  | Decrypt _ _ _ _ _ | Encrypt _ _ _ _ _ => partial g \/ exists b g', g = frame [b] ++ g' /\ partial g'
  | _ => partial g
  end.
(** A call at a read from the key process, or at a write to it. *)
Definition talks (x : sys) : Prop := (exists n, x = Read from n) \/ writing to x.
Definition standing (c : call) (t : trace) (x : sys) : Prop :=
  ((exists n, x = Read from n) /\ exists q, asks c q /\ sent to t = sends q /\ owing c (got from t)) \/
  (writing to x /\ got from t = [] /\ exists q r, asks c q /\ r <> [] /\ sends q = sent to t ++ r).

Lemma other_talks : forall x y z, ~ talks (Other x y z).
Proof. intros x y z [[n E]|[[b E]|E]]; discriminate E. Qed.
Lemma random_faces : forall n t x, faces (randombytes n) t x -> ~ talks x.
Proof. intros n t x F. unfold randombytes in F. cbn [sys1 pbind faces] in F. destruct F as [[_ <-]|(a & u & _ & F)]; [apply other_talks|contradiction]. Qed.
Lemma bind_ret : forall A B (p : prog A) (f : A -> B) t x, faces (y <~ p ;; Ret (f y)) t x -> faces p t x.
Proof. intros A B p f t x F. apply faces_bind in F as [F|(r & t1 & t2 & _ & _ & F)]; auto. contradiction. Qed.
Lemma lift_faces : forall A (r : res A) t x, ~ faces (lift r) t x.
Proof. intros A [] t x F; exact F. Qed.
Lemma scramble_faces : forall mem base k A (a : list Z -> A) t x, faces (m <~ scramble mem base k ;; Ret (a m)) t x -> ~ talks x.
Proof.
  intros mem base k A a t x F. apply bind_ret in F. unfold scramble in F. apply faces_bind in F as [F|(r & t1 & t2 & _ & _ & F)]; [eapply random_faces; eauto|].
  exfalso. eapply lift_faces; eauto.
Qed.

(** Reading replies of one message. *)
Lemma one_reply : forall c t1 t2 x q, asks c q -> sent to t1 = sends q -> got from t1 = [] -> sent to t2 = [] -> (exists n, x = Read from n) ->
  owing c (got from t2) -> standing c (t1 ++ t2) x.
Proof. intros c t1 t2 x q A S G S2 X O. left. split; auto. exists q. rewrite sent_app, got_app, S, S2, G, app_nil_r. auto. Qed.
Lemma unsent : forall c t x q, asks c q -> writing to x /\ got from t = [] /\ (exists r, r <> [] /\ sends q = sent to t ++ r) -> standing c t x.
Proof. intros c t x q A (W & G & r & N & E). right. split; auto. split; auto. exists q, r. auto. Qed.

Lemma mulgen_faces : forall R curve t x, legal t -> call_ok (Mulgen R curve) -> talks x -> faces (stub fuel to from (Mulgen R curve)) t x -> standing (Mulgen R curve) t x.
Proof.
  intros R curve t x L K X F. cbn [stub call_ok] in *. unfold tls_pipe_mulgen in F.
  assert (Q : asks (Mulgen R curve) [[[]]; [[curve mod 256]]]) by reflexivity.
  assert (S : frames [[]; [u8 curve]] = sends [[[]]; [[curve mod 256]]]) by reflexivity.
  apply put_faces in F as [F|[(t1 & t2 & -> & A & B & C & F)|(t1 & t2 & -> & A & F)]]; auto.
  - rewrite S in F. eapply unsent; eauto.
  - apply faces_bind in F as [F|([[r y] n] & u1 & u2 & -> & _ & F)]; [|destruct r; contradiction].
    pose proof (readmax_none _ to _ _ _ _ _ (faces_runs _ _ _ _ F)) as N. apply pipe_readmax_faces in F as [P1 P2]; auto.
    eapply one_reply; eauto; congruence.
  - contradiction.
  - repeat (apply Forall_cons || apply Forall_nil); reflexivity.
Qed.

Lemma dosign_faces : forall al d n max t x, legal t -> call_ok (Dosign al d n max) -> talks x -> faces (stub fuel to from (Dosign al d n max)) t x -> standing (Dosign al d n max) t x.
Proof.
  intros al d n max t x L K X F. cbn [stub call_ok] in *. unfold tls_pipe_dosign in F. destruct K as (K1 & K2 & K3).
  assert (Q : asks (Dosign al d n max) [[[al mod 256]; le 8 max; firstn (Z.to_nat n) d]]) by reflexivity.
  assert (S : frames [[Z.land al 255]; object 8 max; firstn (Z.to_nat n) d] = sends [[[al mod 256]; le 8 max; firstn (Z.to_nat n) d]]).
  { rewrite sends_one, land255, object_le, (Z.mod_small max); auto. change (256 ^ Z.of_nat 8) with 18446744073709551616. lia. }
  apply put_faces in F as [F|[(t1 & t2 & -> & A & B & C & F)|(t1 & t2 & -> & A & F)]]; auto.
  - rewrite S in F. eapply unsent; eauto.
  - apply faces_bind in F as [F|([[r y] k] & u1 & u2 & -> & _ & F)]; [|destruct r; contradiction].
    pose proof (readmax_none _ to _ _ _ _ _ (faces_runs _ _ _ _ F)) as N. apply pipe_readmax_faces in F as [P1 P2]; auto.
    eapply one_reply; eauto; congruence.
  - contradiction.
  - repeat (apply Forall_cons || apply Forall_nil); [reflexivity|unfold small; rewrite object_small; reflexivity|apply small_firstn; lia].
Qed.

Lemma mul_faces : forall G sid v cs cr sr t x, legal t -> call_ok (Mul G sid v cs cr sr) -> talks x -> faces (stub fuel to from (Mul G sid v cs cr sr)) t x -> standing (Mul G sid v cs cr sr) t x.
Proof.
  intros G sid v cs cr sr t x L (K1 & K2 & K3 & K4) X F. cbn [stub] in *. apply bind_ret in F. unfold tls_pipe_mul in F.
  apply put_faces in F as [F|[(t1 & t2 & -> & A & B & C & F)|(t1 & t2 & -> & A & F)]]; auto; try contradiction.
  - eapply unsent; [reflexivity|]. rewrite sends_one. rewrite !object_le in F. exact F.
  - repeat (apply Forall_cons || apply Forall_nil); try (apply small_lt; assumption); unfold small; rewrite object_small; reflexivity.
Qed.

Lemma prf_faces : forall dst n label seed t x, legal t -> call_ok (Prf dst n label seed) -> talks x -> faces (stub fuel to from (Prf dst n label seed)) t x -> standing (Prf dst n label seed) t x.
Proof.
  intros dst n label seed t x L K X F. cbn [stub call_ok] in *. destruct K as ((p & rest & -> & NP) & -> & KD & KS).
  apply bind_ret in F. unfold tls_pipe_prf in F.
  assert (RND : forall t, faces (r <~ randombytes (Z.to_nat 12) ;; Ret r) t x -> False).
  { intros u G. apply (bind_ret _ _ _ (fun r => r)) in G. eapply random_faces; eauto. }
  destruct (label_diff p rest (bs "client finished") NP nonul_c) as (d1 & E1 & D1). destruct (label_diff p rest (bs "server finished") NP nonul_s) as (d2 & E2 & D2).
  rewrite E1 in F. cbn [lift pbind] in F.
  assert (FD : exists d2', (if negb (d1 =? 0) then lift (str_diff (p ++ 0 :: rest) (bs "server finished" ++ [0])) else Ret 0) = Ret d2' /\ (negb (d1 =? 0) && negb (d2' =? 0) = false -> finished (p ++ 0 :: rest))).
  { rewrite E2. destruct (Z.eqb_spec d1 0); cbn [negb lift]; eexists; (split; [reflexivity|]); intros H; apply finished_dec; auto.
    - left. tauto.
    - right. apply D2. cbn in H. destruct (Z.eqb_spec d2 0); [auto|discriminate]. }
  destruct FD as (d2' & EQ & FD). rewrite EQ in F. cbn [pbind] in F. destruct (negb (d1 =? 0) && negb (d2' =? 0)); [exfalso; eapply RND; eauto|]. specialize (FD eq_refl).
  destruct seed as [|s [|s2 seed]]; [exfalso; eapply RND; eauto| |exfalso; eapply RND; eauto].
  rewrite str_len_ok in F by auto. cbn [lift pbind] in F.
  replace (firstn (Z.to_nat (len p + 1)) (p ++ 0 :: rest)) with (p ++ [0]) in F.
  2:{ replace (p ++ 0 :: rest) with ((p ++ [0]) ++ rest) by (rewrite <- app_assoc; reflexivity). replace (Z.to_nat (len p + 1)) with (length (p ++ [0])) by (rewrite app_length; unfold len; cbn; lia).
      rewrite firstn_app, firstn_all, Nat.sub_diag, firstn_O, app_nil_r. reflexivity. }
  apply Forall_cons_iff in KS as [KS _].
  assert (Q : asks (Prf dst 12 (p ++ 0 :: rest) [s]) [[[0]; p ++ [0]; le 8 (len s); s]]) by (exists p, rest, s; auto 10).
  assert (S : frames [[0]; p ++ [0]; object 8 (len s); s] = sends [[[0]; p ++ [0]; le 8 (len s); s]]).
  { rewrite sends_one, object_le, Z.mod_small; auto. pose proof (len_nonneg _ s). change (256 ^ Z.of_nat 8) with 18446744073709551616. change (2 ^ 62) with 4611686018427387904 in KS. lia. }
  apply put_faces in F as [F|[(t1 & t2 & -> & A & B & C & F)|(t1 & t2 & -> & A & F)]]; auto.
  - rewrite S in F. eapply unsent; eauto.
  - apply faces_bind in F as [F|([r y] & u1 & u2 & -> & _ & F)]; [|destruct r; [contradiction|exfalso; eapply RND; eauto]].
    pose proof (readall_none _ to _ _ _ _ _ (faces_runs _ _ _ _ F)) as N. apply pipe_readall_faces in F as [P1 P2]; auto.
    eapply one_reply; eauto; congruence.
  - exfalso. eapply RND; eauto.
  - repeat (apply Forall_cons || apply Forall_nil); [reflexivity|eapply finished_small; eauto|unfold small; rewrite object_small; reflexivity|apply small_lt; auto].
Qed.

Lemma getcert_faces : forall fn t x, legal t -> call_ok (Getcert fn) -> talks x -> faces (stub fuel to from (Getcert fn)) t x -> standing (Getcert fn) t x.
Proof.
  intros fn t x L (p & rest & -> & NP & LP) X F. cbn [stub] in F. change (2 ^ 62) with 4611686018427387904 in LP. apply bind_ret in F.
  unfold tls_pipe_getcert in F. rewrite str_len_ok in F by auto. cbn [lift pbind] in F.
  replace (p ++ 0 :: rest) with ((p ++ [0]) ++ rest) in F by (rewrite <- app_assoc; reflexivity).
  assert (B0 : len p + 1 = len (p ++ [0])) by (rewrite len_app; reflexivity). rewrite B0 in F.
  assert (B1 : len (p ++ [0]) < two63) by (rewrite <- B0; unfold two63; lia).
  assert (Q : asks (Getcert (p ++ 0 :: rest)) [[p ++ [0]]]) by (exists p, rest; auto).
  assert (S : frame (p ++ [0]) = sends [[p ++ [0]]]) by (rewrite sends_one, frames_one; auto).
  apply faces_bind in F as [F|(r & t1 & t2 & -> & R1 & F)].
  - pose proof (got_none from _ _ (pipe_write_calls _ _ _ _ _ _ (faces_runs _ _ _ _ F)) (writes_noread to from)) as G1.
    apply pipe_write_faces in F as (W & r & NR & E); auto. rewrite S in E. eapply unsent; eauto.
  - apply legal_app in L as [L1 L2]. pose proof (got_none from _ _ (pipe_write_calls _ _ _ _ _ _ R1) (writes_noread to from)) as G1.
    destruct (pipe_write_ok _ _ _ _ _ _ R1 L1 B1) as [_ H]. destruct r as [|e]; [|contradiction]. destruct H as [H _]. rewrite S in H.
    apply faces_bind in F as [F|(r & u1 & u2 & -> & R2 & F)].
    + assert (C : (exists n, x = Read from n) \/ exists n, x = Alloc n). { apply (faces_calls _ _ (fun c => reads from c \/ allocs c) _ _ (pipe_readalloc_calls _ _) F). }
      destruct C as [(n & ->)|(n & ->)]; [|destruct X as [[k E]|[[b E]|E]]; discriminate E].
      assert (N : sent to t2 = []). { apply (sent_none to _ _ (pipe_readalloc_calls _ _ _ _ (faces_runs _ _ _ _ F))). intros b [(k & E)|(k & E)]; discriminate E. }
      apply pipe_readalloc_faces in F; auto. eapply one_reply; eauto.
    + exfalso. destruct r as [e|pem]; [contradiction|]. destruct F as [[_ <-]|(a & u & _ & F)]; [eapply other_talks; eauto|]. destruct (ret a =? 0); contradiction.
Qed.

Lemma decrypt_faces : forall ty v mem base n t x, legal t -> call_ok (Decrypt ty v mem base n) -> talks x -> faces (stub fuel to from (Decrypt ty v mem base n)) t x -> standing (Decrypt ty v mem base n) t x.
Proof.
  intros ty v mem base n t x L K X F. cbn [stub call_ok] in *. destruct K as (K1 & K2 & K3). apply bind_ret in F. unfold decrypt in F. rewrite at_in in F by lia. cbn [lift pbind] in F.
  rewrite !obj4 in F.
  assert (Q : asks (Decrypt ty v mem base n) [[[1]; le 4 (ty mod 2 ^ 32); le 4 (v mod 2 ^ 32); firstn (Z.to_nat n) (skipn (Z.to_nat base) mem)]]) by reflexivity.
  apply put_faces in F as [F|[(t1 & t2 & -> & A & B & C & F)|(t1 & t2 & -> & A & F)]]; auto.
  - eapply unsent; eauto. rewrite sends_one. exact F.
  - rewrite <- sends_one in A. apply faces_bind in F as [F|([r y] & u1 & u2 & -> & R1 & F)].
    + pose proof (readall_none _ to _ _ _ _ _ (faces_runs _ _ _ _ F)) as N. apply pipe_readall_faces in F as [P1 P2]; auto.
      eapply one_reply; eauto. left. auto.
    + apply legal_app in C as [C1 C2]. pose proof (readall_none _ to _ _ _ _ _ R1) as N1. destruct (pipe_readall_ok _ _ _ _ _ _ R1 C1) as [_ H]; [split; [lia|vm_compute; discriminate]|vm_compute; discriminate|].
      destruct r as [|e]; [|contradiction]. destruct H as (m & E & G & _). destruct (len1 m E) as (b & ->).
      match type of F with faces (if ?b then _ else _) _ _ => destruct b end; [contradiction|].
      apply faces_bind in F as [F|(d & w1 & w2 & -> & R2 & F)]; [exfalso; eapply lift_faces; eauto|].
      apply runs_lift in R2 as [-> R2]. cbn [app] in *. destruct (at_ mem _) as [d'| |] eqn:AT; try discriminate R2. injection R2 as <-. apply at_ok in AT as [AT1 ->].
      apply faces_bind in F as [F|([[r2 y2] k] & z1 & z2 & -> & R2 & F)].
      * pose proof (readmax_none _ to _ _ _ _ _ (faces_runs _ _ _ _ F)) as N2.
        apply pipe_readmax_faces in F as [P1 P2]; auto. eapply one_reply; eauto; [rewrite sent_app, N1, N2; reflexivity|]. right. exists b, (got from w2). rewrite got_app, G. auto.
      * exfalso. destruct r2; [try contradiction; destruct (k =? 0); contradiction|contradiction].
  - contradiction.
  - repeat (apply Forall_cons || apply Forall_nil); [reflexivity|apply small_le; lia|apply small_le; lia|apply small_firstn; lia].
Qed.

Lemma encrypt_faces : forall ty v mem base n t x, legal t -> call_ok (Encrypt ty v mem base n) -> talks x -> faces (stub fuel to from (Encrypt ty v mem base n)) t x -> standing (Encrypt ty v mem base n) t x.
Proof.
  intros ty v mem base n t x L K X F. cbn [stub call_ok] in *. destruct K as (K1 & K2 & K3). apply bind_ret in F. unfold encrypt in F. rewrite at_in in F by lia. cbn [lift pbind] in F.
  rewrite !obj4 in F.
  assert (Q : asks (Encrypt ty v mem base n) [[[2]; le 4 (ty mod 2 ^ 32); le 4 (v mod 2 ^ 32); firstn (Z.to_nat n) (skipn (Z.to_nat base) mem)]]) by reflexivity.
  apply put_faces in F as [F|[(t1 & t2 & -> & A & B & C & F)|(t1 & t2 & -> & A & F)]]; auto.
  - eapply unsent; eauto. rewrite sends_one. exact F.
  - rewrite <- sends_one in A. apply faces_bind in F as [F|([r y] & u1 & u2 & -> & R1 & F)].
    + pose proof (readall_none _ to _ _ _ _ _ (faces_runs _ _ _ _ F)) as N. apply pipe_readall_faces in F as [P1 P2]; auto.
      eapply one_reply; eauto. left. auto.
    + apply legal_app in C as [C1 C2]. pose proof (readall_none _ to _ _ _ _ _ R1) as N1. destruct (pipe_readall_ok _ _ _ _ _ _ R1 C1) as [_ H]; [split; [lia|vm_compute; discriminate]|vm_compute; discriminate|].
      destruct r as [|e]; [|exfalso; eapply scramble_faces; eauto]. destruct H as (m & E & G & _). destruct (len1 m E) as (b & ->).
      match type of F with faces (if ?b then _ else _) _ _ => destruct b end; [exfalso; eapply scramble_faces; eauto|].
      apply faces_bind in F as [F|(d & w1 & w2 & -> & R2 & F)]; [exfalso; eapply lift_faces; eauto|].
      apply runs_lift in R2 as [-> R2]. cbn [app] in *. destruct (at_ mem _) as [d'| |] eqn:AT; try discriminate R2. injection R2 as <-. apply at_ok in AT as [AT1 ->].
      apply faces_bind in F as [F|([[r2 y2] k] & z1 & z2 & -> & R2 & F)].
      * pose proof (readmax_none _ to _ _ _ _ _ (faces_runs _ _ _ _ F)) as N2.
        apply pipe_readmax_faces in F as [P1 P2]; auto. eapply one_reply; eauto; [rewrite sent_app, N1, N2; reflexivity|]. right. exists b, (got from w2). rewrite got_app, G. auto.
      * exfalso. destruct r2; [try contradiction; destruct (k =? 0); contradiction|eapply scramble_faces; eauto].
  - exfalso; eapply scramble_faces; eauto.
  - repeat (apply Forall_cons || apply Forall_nil); [reflexivity|apply small_le; lia|apply small_le; lia|apply small_firstn; lia].
Qed.

Lemma stub_faces : forall c t x, legal t -> call_ok c -> talks x -> faces (stub fuel to from c) t x -> standing c t x.
Proof.
  intros [] t x L K X F; [apply getcert_faces|apply mulgen_faces|apply dosign_faces|apply mul_faces|apply prf_faces|apply decrypt_faces|apply encrypt_faces]; auto.
Qed.
Lemma standing_asks : forall c t x, standing c t x -> exists q, asks c q.
Proof. intros c t x [(_ & q & A & _)|(_ & _ & q & r & A & _)]; eauto. Qed.

Definition refusal (e : ending) : Prop := match e with Refused _ _ _ | Astray _ _ => True | _ => False end.

Lemma client_faces : forall cl s t x, ordered s cl -> legal t -> talks x -> faces (client_run fuel to from cl) t x ->
  Exists hard t \/ (exists log e, talk fuel to from cl t log e Cut /\ refusal e) \/
  (exists t1 t2 log c s1 s2, t = t1 ++ t2 /\ script (kst s) log /\ reached (kst s) log = kst s1 /\ stage_after s1 c = Some s2 /\ call_ok c /\
     sent to t1 = requests log /\ got from t1 = replies log /\ standing c t2 x).
Proof.
  induction cl as [|c f IH]; intros s t x O L X F; [contradiction|]. cbn [client_run] in F. destruct O as [K O].
  apply faces_bind in F as [F|(a & t1 & t2 & -> & R1 & F)].
  - pose proof (stub_faces _ _ _ L K X F) as S. destruct (standing_asks _ _ _ S) as (q & A). destruct O as [[LO _]|(s' & SA & O)]; [exfalso; eapply local_not_asks; eauto|].
    right. right. exists [], t, [], c, s, s'. cbn [app]. repeat split; auto.
  - apply legal_app in L as [L1 L2].
    destruct (stub_view _ _ _ _ _ _ L1 K R1) as [(q & ws & b & E & A & B & C & D)|[(A & B & C & D)|[(A & B)|[(q & ws & hd & A & B & C & D & E & _)|(u1 & u2 & q & b & -> & A & B & C & D & _)]]]].
    + injection E as <-. destruct O as [[LO _]|(s' & SA & O)]; [exfalso; eapply local_not_asks; eauto|].
      destruct (call_script _ _ _ _ _ _ K SA A B) as [C1 C2]. destruct (logged_streams q ws) as [G1 G2]; [eapply asks_nonempty; eauto|].
      destruct (IH a s' t2 x (O a) L2 X F) as [H|[(log & e & T & Re)|(v1 & v2 & log & c' & s1 & s2 & -> & H1 & H2 & H3 & H4 & H5 & H6 & H7)]].
      * left. apply Exists_app. auto.
      * right. left. exists (logged q ws ++ log), e. split; auto. eapply k_call; eauto.
      * right. right. exists (t1 ++ v1), v2, (logged q ws ++ log), c', s1, s2. split; [apply app_assoc|]. split; [apply script_app; rewrite C2; auto|]. split; [rewrite reached_app, C2; auto|].
        split; auto. split; auto. rewrite sent_app, got_app, requests_app, replies_app, G1, G2, C, D, H5, H6. auto.
    + assert (LOC : exists s', kst s' = kst s /\ ordered s' (f a)).
      { destruct O as [[LO O]|(s' & SA & O)]; [exists s; auto|]. destruct c; try contradiction A. destruct s; try discriminate SA. injection SA as <-. exists SRecords. auto. }
      destruct LOC as (s' & E & O'). rewrite <- E.
      destruct (IH a s' t2 x O' L2 X F) as [H|[(log & e & T & Re)|(v1 & v2 & log & c' & s1 & s2 & -> & H1 & H2 & H3 & H4 & H5 & H6 & H7)]].
      * left. apply Exists_app. auto.
      * right. left. exists log, e. split; auto. eapply k_local; eauto.
      * right. right. exists (t1 ++ v1), v2, log, c', s1, s2. split; [apply app_assoc|]. rewrite sent_app, got_app, B, C, H5, H6. repeat split; auto.
    + left. apply Exists_app. left. destruct A as [A|A]; [discriminate|auto].
    + right. left. exists [], (Refused c ws hd). split; [|exact Logic.I]. eapply k_refused; eauto.
    + right. left. exists [], (Astray c b). split; [|exact Logic.I]. rewrite <- app_assoc. eapply k_astray; eauto.
Qed.
End NET.

(** ** The key process at a read *)
Definition noread (e : event) : Prop := forall n, fst e <> Read 0 n.
Section KEY.
Variables (nojail : bool) (account dir : option (list Z)).
Notation dialogue := (dialogue nojail account dir).

Lemma last_in : forall (a b : trace) t e, a ++ b = t ++ [e] -> b <> [] -> exists b', b = b' ++ [e] /\ t = a ++ b'.
Proof.
  intros a b t e E N. destruct (exists_last N) as (b' & e' & ->). rewrite app_assoc in E. apply app_inj_tail in E as [<- ->]. eauto.
Qed.
Lemma noread_last : forall t u n a, Forall noread t -> t <> u ++ [(Read 0 n, a)].
Proof. intros t u n a F ->. apply Forall_app in F as [_ F]. inversion F as [|? ? N _]. apply (N n). reflexivity. Qed.
Lemma wipe_noread : forall t : trace, Forall (fun e => wipecall (fst e)) t -> Forall noread t.
Proof. intros t F. eapply Forall_impl; [|exact F]. intros [c a] H n E. cbn in *. subst c. contradiction. Qed.
Lemma write_noread' : forall t : trace, Forall (fun e => writecall (fst e)) t -> Forall noread t.
Proof. intros t F. eapply Forall_impl; [|exact F]. intros [c a] H n E. cbn in *. subst c. destruct H as [[b H]|H]; discriminate. Qed.
Lemma kernel_noread : forall t : trace, Forall (fun e => kernelcall (fst e)) t -> Forall noread t.
Proof. intros t F. eapply Forall_impl; [|exact F]. intros [c a] H n E. cbn in *. subst c. contradiction. Qed.
Lemma file_noread : forall f (t : trace), Forall (fun e => filecall f (fst e)) t -> Forall noread t.
Proof. intros f t F. eapply Forall_impl; [|exact F]. intros [c a] H n E. cbn [fst] in *. subst c. cbn in H. lia. Qed.
Lemma work_noread : forall ph acc t ws ph', work nojail account dir ph acc t ws ph' -> Forall noread t.
Proof.
  intros ph acc t ws ph' W. inversion W; subst; auto; try (eapply file_noread; eassumption); try (repeat (apply Forall_cons || apply Forall_nil); intros ? ?; discriminate).
  - eapply kernel_noread. eapply jail_others; eauto.
  - apply kernel_noread. eapply Forall_impl; [|match goal with H : Forall _ t |- _ => exact H end]. intros [[] ?]; cbn; auto.
  - apply kernel_noread. eapply Forall_impl; [|match goal with H : Forall _ t |- _ => exact H end]. intros [[] ?]; cbn; auto.
Qed.
Lemma vain_noread : forall ph acc (t : trace), Forall (fun e => vaincall ph acc (fst e)) t -> Forall noread t.
Proof.
  intros ph acc t F. eapply Forall_impl; [|exact F]. intros [c a] H n E. cbn [fst] in *. subst c. unfold vaincall in H.
  destruct ph; cbn in H; try contradiction;
    repeat match type of H with context [match ?l with _ => _ end] => destruct l; cbn in H end; try contradiction; try lia;
    repeat match goal with H : _ \/ _ |- _ => destruct H | H : exists _, _ |- _ => destruct H end; try discriminate; try contradiction; lia.
Qed.

(** What the key process has of the request it waits for. *)
Definition stuck (k : kind) (pk : list Z) : Prop :=
  exists acc part, pk = frames acc ++ part /\ (length acc < count k)%nat /\ Forall small acc /\ forall m x, small m -> part <> frame m ++ x.

Lemma dialogue_faces : forall ph acc tr log o, dialogue ph acc tr log o -> forall t n a, tr = t ++ [(Read 0 n, a)] -> data a = [] ->
  phok ph -> Forall small acc -> (length acc <= count (kindof ph))%nat ->
  exists pk, frames acc ++ got 0 t = requests log ++ pk /\ sent 1 t = replies log /\ stuck (reached (kindof ph) log) pk.
Proof.
  intros ph acc tr log o D. induction D; intros t0 n0 a0 E DA P F L.
  - destruct t0 as [|e0 t0]; [discriminate E|]. injection E as <- ->. cbn [got sent]. eapply IHD; eauto.
  - destruct (shape_more _ _ _ H P) as [S M]. assert (FA : Forall small (acc ++ [m])) by (apply Forall_app; split; auto).
    assert (NE : t' <> []).
    { intros ->. rewrite app_nil_r in E. subst t. rewrite got_app in H2. cbn [got] in H2. rewrite DA in H2. cbn in H2. rewrite app_nil_r in H2.
      apply (H4 t0 _ [] eq_refl m []); [apply M; auto|]. rewrite app_nil_r. auto. }
    apply last_in in E as (b & -> & ->); auto. destruct (IHD b n0 a0 eq_refl DA P FA) as (pk & A & B & C); [rewrite app_length; cbn; lia|].
    exists pk. rewrite got_app, sent_app, H2, (read_nowrite t) by auto. rewrite frames_app, frames_one, <- app_assoc in A. auto.
  - destruct (shape_more _ _ _ H P) as [S M]. destruct t' as [|e' t'].
    + rewrite app_nil_r in E. subst t. exists (frames acc ++ got 0 t0). apply Forall_app in H0 as [H0 _]. rewrite (read_nowrite t0) by auto.
      split; [reflexivity|]. split; [reflexivity|]. exists acc, (got 0 t0). cbn [reached]. repeat split; auto. intros m x SM. eapply H4; eauto.
    + apply last_in in E as (b & E & _); [|discriminate]. exfalso. eapply noread_last; [apply wipe_noread; exact H1|eauto].
  - exfalso. eapply noread_last; [apply wipe_noread; exact H0|eauto].
  - destruct (work_script _ _ _ _ _ _ _ _ H0 P) as (A & B & C). destruct (work_silent _ _ _ _ _ _ _ _ H0) as [G S].
    assert (NE : t2 <> []). { intros ->. rewrite app_nil_r in E. eapply noread_last; [|exact E]. apply Forall_app. split; [eapply work_noread; eauto|apply write_noread'; auto]. }
    rewrite app_assoc in E. apply last_in in E as (b & -> & ->); auto. destruct (IHD b n0 a0 eq_refl DA A ltac:(constructor) ltac:(cbn; lia)) as (pk & X & Y & Z).
    exists pk. rewrite !got_app, !sent_app, G, S, (write_noread t1), H1, Y, requests_cons, replies_cons by auto. cbn [app]. change (frames [] ++ got 0 b) with (got 0 b) in X.
    rewrite X, <- app_assoc. split; auto. split; auto. cbn [reached]. rewrite <- B. auto.
  - exfalso. eapply noread_last; [|exact E]. rewrite !Forall_app. split; [eapply work_noread; eauto|]. split; [apply write_noread'|apply wipe_noread]; auto.
  - exfalso. eapply noread_last; [eapply vain_noread; eauto|eauto].
  - exfalso. eapply noread_last; [|exact E]. apply Forall_app. split; [eapply kernel_noread; eapply jail_others; eauto|apply wipe_noread; auto].
  - destruct t0; discriminate E.
Qed.
End KEY.

(** ** Both *)
(** A stuck key process has not got a whole request. *)
Lemma no_whole : forall k pk ms r, stuck k pk -> length ms = count k -> Forall small ms -> pk = frames ms ++ r -> False.
Proof.
  intros k pk ms r (acc & part & -> & L & F & N) C S E.
  assert (X : exists a m b, ms = a ++ m :: b /\ length a = length acc).
  { exists (firstn (length acc) ms). destruct (skipn (length acc) ms) as [|m b] eqn:K.
    - apply (f_equal (@length (list Z))) in K. rewrite skipn_length in K. cbn in K. lia.
    - exists m, b. rewrite <- K, firstn_skipn, firstn_length. split; auto. lia. }
  destruct X as (a & m & b & -> & LA). apply Forall_app in S as [S1 S2]. inversion S2 as [|? ? S3 S4]; subst. change (m :: b) with ([m] ++ b) in E.
  rewrite !frames_app, <- !app_assoc in E. apply frames_prefix in E as [_ E]; auto. rewrite frames_one in E. eapply N; eauto.
Qed.
Lemma stuck_step : forall k more ms r pk, script k more -> stuck (reached k more) pk -> length ms = count k -> Forall small ms -> requests more ++ pk = frames ms ++ r ->
  exists ws more', more = (ms, ws) :: more' /\ shape_ok k ms ws /\ requests more' ++ pk = r /\ script (next k ms) more'.
Proof.
  intros k more ms r pk S T C F E. destruct more as [|[ms' ws] more].
  - cbn [reached] in T. exfalso. eapply no_whole; eauto.
  - destruct S as (S1 & S2 & S3 & S4). rewrite requests_cons, <- app_assoc in E. apply frames_prefix in E as [-> E]; auto; [|congruence]. exists ws, more. auto.
Qed.

(** The reply is complete. *)
Lemma small_one : forall b : Z, small [b].
Proof. intros. reflexivity. Qed.
Lemma not_owing : forall c q s s' ms ws rest, call_ok c -> asks c q -> stage_after s c = Some s' -> last q [] = ms ->
  shape_ok (match c with Mulgen _ _ => KC | _ => kst s end) ms ws -> ~ owing c (concat ws ++ rest).
Proof.
  intros c q s s' ms ws rest K A S Q SH O. assert (SM : forall p n, len p <= n -> n < 1000 -> small p) by (intros; unfold small, two63; lia).
  destruct c, s; cbn [stage_after] in S; try discriminate S; cbn [asks owing kst shape_ok] in *; try contradiction.
  - destruct A as (p & r & -> & N & ->). cbn [last] in Q. subst ms. assert (exists w, ws = [w] /\ wire w) as (w & -> & W) by (destruct p; auto).
    cbn [concat] in O. rewrite app_nil_r in O. destruct W as [(m & M & ->)|(v & V & ->)]; [eapply partial_frame|eapply partial_err]; eauto.
  - destruct SH as (p & -> & P). cbn [concat] in O. rewrite app_nil_r in O. eapply partial_frame; eauto. eapply SM; eauto. lia.
  - destruct SH as (p & -> & P). cbn [concat] in O. rewrite app_nil_r in O. eapply partial_frame; eauto.
  - destruct A as (p & r & x & -> & N & F & -> & ->). cbn [last] in Q. subst ms. cbn [hd leval] in SH. change (0 + 256 * 0 =? 0) with true in SH. cbn iota in SH.
    destruct SH as (p0 & -> & P). cbn [concat] in O. rewrite app_nil_r in O. eapply partial_frame; eauto. apply (SM _ 12); lia.
  - subst q. cbn [last] in Q. subst ms. cbn [hd leval] in SH. change (1 + 256 * 0 =? 0) with false in SH. cbn iota in SH. destruct SH as (b & p & -> & _ & P).
    cbn [concat] in O. rewrite app_nil_r, <- app_assoc in O. destruct O as [O|(b' & g & E & O)].
    + exact (partial_frame _ [b] _ O (small_one b) eq_refl).
    + apply frame_prefix in E as [_ <-]; try reflexivity. eapply partial_frame; eauto.
  - subst q. cbn [last] in Q. subst ms. cbn [hd leval] in SH. change (2 + 256 * 0 =? 0) with false in SH. cbn iota in SH. destruct SH as (b & p & -> & _ & P).
    cbn [concat] in O. rewrite app_nil_r, <- app_assoc in O. destruct O as [O|(b' & g & E & O)].
    + exact (partial_frame _ [b] _ O (small_one b) eq_refl).
    + apply frame_prefix in E as [_ <-]; try reflexivity. eapply partial_frame; eauto.
Qed.

Lemma no_mutual : forall c q s s' more pk rn, call_ok c -> asks c q -> stage_after s c = Some s' -> script (kst s) more -> stuck (reached (kst s) more) pk ->
  requests more ++ pk = sends q -> rn = replies more -> owing c rn -> False.
Proof.
  intros c q s s' more pk rn K A S SC T E -> O. pose proof (asks_script _ _ _ _ K S A) as X.
  assert (G : (exists ms, q = [ms] /\ length ms = count (kst s) /\ Forall small ms /\ kst s' = next (kst s) ms) -> match c with Mulgen _ _ => True | _ => False end).
  { intros (ms & -> & X1 & X2 & X3). rewrite sends_one, <- (app_nil_r (frames ms)) in E.
    destruct (stuck_step _ _ _ _ _ SC T X1 X2 E) as (ws & more' & -> & SH & _). rewrite replies_cons in O.
    pose proof (not_owing c [ms] s s' ms ws (replies more') K A S eq_refl) as N. destruct c; auto; apply N; auto. }
  destruct c; try (exact (G X)). clear G. destruct X as (x & -> & X1 & -> & ->). unfold sends in E. cbn [map concat] in E. cbn [kst] in *.
  destruct (stuck_step _ _ [[]] _ _ SC T eq_refl ltac:(constructor; [reflexivity|constructor]) E) as (ws & more' & -> & SH & E' & SC').
  cbn [shape_ok] in SH. subst ws. cbn [next] in SC'. cbn [reached next] in T.
  destruct (stuck_step _ _ [x] _ _ SC' T eq_refl ltac:(constructor; [auto|constructor]) E') as (ws & more2 & -> & SH & _).
  rewrite !replies_cons in O. cbn [concat app] in O. eapply (not_owing _ _ SNames SSign [x] ws); eauto.
Qed.

(** At a write, no reply is on its way. *)
Lemma early : forall c q s s' more pk r, call_ok c -> asks c q -> stage_after s c = Some s' -> script (kst s) more -> r <> [] ->
  (requests more ++ pk) ++ r = sends q -> replies more = [].
Proof.
  intros c q s s' more pk r K A S SC NR E. pose proof (asks_script _ _ _ _ K S A) as X.
  assert (FIRST : forall k ms more, script k more -> length ms = count k -> Forall small ms -> (requests more ++ pk) ++ r = frames ms -> more = []).
  { intros k ms [|[ms' ws] m] S' C F E'; auto. exfalso. destruct S' as (S1 & S2 & _). rewrite requests_cons, <- (app_nil_r (frames ms)), <- !app_assoc in E'.
    apply frames_prefix in E' as [_ E']; auto; [|congruence]. apply app_eq_nil in E' as [_ E']. apply app_eq_nil in E' as [_ E']. contradiction. }
  assert (G : (exists ms, q = [ms] /\ length ms = count (kst s) /\ Forall small ms /\ kst s' = next (kst s) ms) -> replies more = []).
  { intros (ms & -> & X1 & X2 & X3). rewrite sends_one in E. rewrite (FIRST _ _ _ SC X1 X2 E). reflexivity. }
  destruct c; auto. clear G. destruct X as (x & -> & X1 & -> & ->). unfold sends in E. cbn [map concat] in E. cbn [kst] in *.
  destruct more as [|[ms ws] more]; auto. destruct SC as (S1 & S2 & S3 & S4). rewrite requests_cons, <- !app_assoc in E.
  apply (frames_prefix ms [[]]) in E as [-> E]; auto; [|constructor; [reflexivity|constructor]]. cbn [shape_ok next] in *. subst ws. rewrite replies_cons. cbn [concat app].
  rewrite app_nil_r in E. rewrite (FIRST KC [x] more S4); auto. rewrite <- app_assoc. auto.
Qed.

Lemma unanswered_replies : forall more, Forall unanswered more -> replies more = [].
Proof. induction more as [|[ms ws] more IH]; intros F; auto. inversion F as [|? ? U F2]; subst. unfold unanswered in U. cbn in U. subst ws. rewrite replies_cons. auto. Qed.
