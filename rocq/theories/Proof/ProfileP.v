(** The set-up of the TLS engine. *)
From Verif.Model Require Import Base Sys Io Str Inet Config Parsenum Fdio Buffer Relay Session Tlsphase Jail Pem Keyjail Proxy Conninfo Options Profile Main.
From Verif.Spec Require Import Text Settings Cmdline Flow Restrict Process Engine.
From Verif.Proof Require Import Tac SysP CallsP StrP ConfigP OptionsP SafeP MainCallsP MainP ChildP QuitP.
From Verif.Props Require Import PropOptions.

(** ** Reading settings *)
Lemma since_app : forall b (u : trace) acc (t : trace), since b acc (t ++ u) = since b (since b acc t) u.
Proof. intros b u acc t. revert acc. induction t as [|e t IH]; intros acc; [reflexivity|]. cbn [app since]. apply IH. Qed.
Lemma since_some : forall b (l u : trace), Forall (fun e => b (fst e) = false) u -> since b (Some l) u = Some (l ++ u).
Proof. intros b l u F. revert l. induction F as [|e u H F IH]; intros l; [rewrite app_nil_r; reflexivity|]. cbn [since]. rewrite H, IH, <- app_assoc. reflexivity. Qed.
Lemma since_none : forall b (u : trace), Forall (fun e => b (fst e) = false) u -> since b None u = None.
Proof. intros b u F. induction F as [|e u H F IH]; [reflexivity|]. cbn [since]. rewrite H. exact IH. Qed.
Lemma after_here : forall name (h : trace) c a (u : trace), called [name] c = true -> Forall (fun e => called [name] (fst e) = false) u -> after_call name (h ++ (c, a) :: u) = u.
Proof. intros name h c a u C F. unfold after_call. rewrite since_app. cbn [since fst]. rewrite C, since_some by exact F. reflexivity. Qed.
Lemma after_more : forall name (t u : trace), Forall (fun e => called [name] (fst e) = false) u -> after_call name (t ++ u) = after_call name t ++ u \/ (after_call name (t ++ u) = [] /\ after_call name t = []).
Proof. intros name t u F. unfold after_call. rewrite since_app. destruct (since _ None t); [rewrite since_some by exact F; auto|rewrite since_none by exact F; auto]. Qed.
Lemma last_app : forall b (u : trace) acc (t : trace), last_call b acc (t ++ u) = last_call b (last_call b acc t) u.
Proof. intros b u acc t. revert acc. induction t as [|[c a] t IH]; intros acc; [reflexivity|]. cbn [app last_call]. apply IH. Qed.
Lemma last_none : forall b acc (u : trace), Forall (fun e => b (fst e) = false) u -> last_call b acc u = acc.
Proof. intros b acc u F. induction F as [|[c a] u H F IH]; [reflexivity|]. cbn [last_call]. cbn [fst] in H. destruct c; auto. rewrite H. exact IH. Qed.

Definition quiet (t : trace) : Prop := Forall (fun e => setup (fst e) = false) t.
Definition setups (names : list (list Z)) : bool := forallb (fun n => same (firstn 3 n) (bs "br_")) names.
Lemma same_eq : forall a b, same a b = true -> a = b.
Proof. intros a b. unfold same. destruct (list_eq_dec Z.eq_dec a b); congruence. Qed.
Lemma called_setup : forall names c, setups names = true -> setup c = false -> called names c = false.
Proof.
  intros names c S Q. destruct c; try reflexivity. cbn [called setup] in *. induction names as [|n names IH]; [reflexivity|]. cbn [setups forallb existsb] in *. apply andb_true_iff in S as [S1 S2].
  rewrite (IH S2), orb_false_r. destruct (same name n) eqn:E; [|reflexivity]. apply same_eq in E as ->. congruence.
Qed.
Lemma quiet_called : forall names t, setups names = true -> quiet t -> Forall (fun e => called names (fst e) = false) t.
Proof. intros names t S Q. eapply Forall_impl; [|exact Q]. intros e H. apply called_setup; auto. Qed.
Lemma server_more : forall names (t u : trace), setups names = true -> quiet u -> server names (t ++ u) = server names t.
Proof.
  intros names t u S Q. unfold server. destruct (after_more (bs "br_ssl_server_zero") t u (quiet_called [bs "br_ssl_server_zero"] _ eq_refl Q)) as [-> |[-> ->]]; [|reflexivity].
  rewrite last_app. apply last_none. apply quiet_called; auto.
Qed.
Lemma validator_more : forall names (t u : trace), setups names = true -> quiet u -> validator names (t ++ u) = validator names t.
Proof.
  intros names t u S Q. unfold validator. destruct (after_more (bs "br_x509_minimal_init") t u (quiet_called [bs "br_x509_minimal_init"] _ eq_refl Q)) as [-> |[-> ->]]; [|reflexivity].
  rewrite last_app. apply last_none. apply quiet_called; auto.
Qed.
Lemma quiet_hash : forall name i t, setups [name] = true -> quiet t -> Forall (fun e => sets_hash name i (fst e) = false) t.
Proof. intros name i t S Q. eapply Forall_impl; [|exact Q]. intros e H. unfold sets_hash. rewrite (called_setup _ _ S H). reflexivity. Qed.
Lemma server_hash_more : forall i (t u : trace), quiet u -> server_hash i (t ++ u) = server_hash i t.
Proof.
  intros i t u Q. unfold server_hash. destruct (after_more (bs "br_ssl_server_zero") t u (quiet_called [bs "br_ssl_server_zero"] _ eq_refl Q)) as [-> |[-> ->]]; [|reflexivity].
  rewrite last_app. apply last_none. apply quiet_hash; auto.
Qed.
Lemma validator_hash_more : forall i (t u : trace), quiet u -> validator_hash i (t ++ u) = validator_hash i t.
Proof.
  intros i t u Q. unfold validator_hash. destruct (after_more (bs "br_x509_minimal_init") t u (quiet_called [bs "br_x509_minimal_init"] _ eq_refl Q)) as [-> |[-> ->]]; [|reflexivity].
  rewrite last_app. apply last_none. apply quiet_hash; auto.
Qed.
Lemma asks_more : forall user (t u : trace), quiet u -> asks user t -> asks user (t ++ u).
Proof.
  intros user t u Q (A & (n & pem & a & B1 & B2 & B3 & B4 & B5 & B6) & C & D & E & F & G & H). unfold asks.
  rewrite !server_more, !validator_more by (exact Q || reflexivity). split; [exact A|]. split.
  { exists n, pem, a. rewrite last_app, B6, last_none by (apply quiet_called; [reflexivity|exact Q]). repeat split; auto; try lia. apply in_or_app. auto. }
  split; [intros i; rewrite validator_hash_more by exact Q; apply C|]. auto.
Qed.
Lemma engine_more : forall l (t u : trace), quiet u -> engine_for l t -> engine_for l (t ++ u).
Proof.
  intros l t u Q [A B C D E F G1 G2 G3 H1 H2 H3 J K L M]. constructor; try (rewrite server_more by (exact Q || reflexivity); assumption).
  - intros i v X. rewrite server_hash_more by exact Q. apply F. exact X.
  - destruct (args 97 l); [unfold asks_nobody in *; rewrite !server_more by (exact Q || reflexivity); exact J|apply asks_more; assumption].
  - destruct L as (x & a & L1 & L2 & L3). exists x, a. rewrite server_more by (exact Q || reflexivity). split; [exact L1|]. split; [|exact L3].
    destruct (after_more (bs "br_ssl_server_zero") t u (quiet_called [bs "br_ssl_server_zero"] _ eq_refl Q)) as [-> |[_ X]]; [apply in_or_app; auto|rewrite X in L2; destruct L2].
  - destruct M as (a & x & b & -> & F1). exists a, x, (b ++ u). rewrite <- app_assoc. split; [reflexivity|]. apply Forall_app. auto.
Qed.

(** ** tls_profile *)
Lemma br_fin : forall n a d tr u, runs (br n a d) tr (Fin u) -> exists x, tr = [(Other n a d, x)].
Proof. intros n a d tr u R. unfold br in R. apply fin_bind in R as (x & t1 & t2 & -> & R1 & R2). destruct R2 as [-> _]. apply runs_sys1 in R1 as [[_ E]|(y & -> & _)]; [discriminate|]. exists y. reflexivity. Qed.
Lemma random_fin : forall n tr x, runs (randombytes n) tr (Fin x) -> plausible tr -> exists a, tr = [(Other (bs "randombytes") [Z.of_nat n] [], a)] /\ x = data a.
Proof.
  intros n tr x [[_ E]|(a & t & -> & -> & E)] [P _]; [discriminate|]. injection E as ->. exists a. split; [reflexivity|]. destruct (P _ a (or_introl eq_refl)) as [L B]. unfold len in L.
  rewrite firstn_app, firstn_all2 by lia. assert (E : (n - length (data a) = 0)%nat) by lia. rewrite E, firstn_O, app_nil_r.
  clear - B. induction B as [|b l H B IH]; [reflexivity|]. cbn [map]. rewrite IH. f_equal. unfold u8. apply Z.mod_small. exact H.
Qed.
Lemma plausible_app : forall a b, plausible (a ++ b) -> plausible a /\ plausible b.
Proof. intros a b [P Q]. split; (split; [intros n x I; apply P; apply in_or_app; auto|intros p x I; apply (Q p); apply in_or_app; auto]). Qed.
(** the certificates of -a and the attribute of -U *)
Definition anchors (l : list item) (n : Z) (h : trace) : Prop :=
  match args 97 l with
  | [] => n = 0
  | _ => exists pem a, In (Other (bs "tls_pubcrt_parse") [] pem, a) h /\ ret a <> 0 /\ nth 0 (data a) 0 = n /\ 1 <= n <= 16
  end.
Definition attributes (l : list item) : Prop := forall x, last_arg 85 l = Some x -> x = bs "commonName" \/ x = bs "emailAddress".
Lemma flags_bits : forall p b, 0 <= b -> Z.testbit (tls_flags p) b = if b =? 0 then p else b =? 1.
Proof.
  intros p b B. destruct (Z.eqb_spec b 0) as [-> |N0]; [destruct p; reflexivity|]. destruct (Z.eqb_spec b 1) as [-> |N1]; [destruct p; reflexivity|].
  assert (H : b = 2 \/ 2 < b) by lia. assert (L : 0 <= tls_flags p < 2 ^ 2) by (destruct p; split; [discriminate|reflexivity|discriminate|reflexivity]). apply Z.bits_above_log2; [lia|].
  destruct (Z.eq_dec (tls_flags p) 0) as [-> |N]; [cbn; lia|]. apply Z.log2_lt_pow2; [lia|]. eapply Z.lt_le_trans; [apply L|]. apply Z.pow_le_mono_r; lia.
Qed.
Lemma oid_ok : forall l o, sets l o -> attributes l -> exists x, name_oid (certuser o) = Ok x /\ x = match last_arg 85 l with Some w => Some (attribute w) | None => None end.
Proof.
  intros l o S A. pose proof (s_certuser _ _ S) as M. unfold maybe in M. destruct (last_arg 85 l) as [w|] eqn:E, (certuser o) as [p|]; try contradiction; [|exists None; auto].
  destruct M as (_ & r & ->). destruct (A _ E) as [-> | ->]; eexists; (split; [|reflexivity]); reflexivity.
Qed.
Ltac br1 R := let x := fresh "x" in let t1 := fresh "t" in let t2 := fresh "t" in let R1 := fresh "R" in
  apply fin_bind in R as (x & t1 & t2 & -> & R1 & R); apply br_fin in R1 as (? & ->).
Ltac find_last := unfold server, validator, server_hash, validator_hash, after_call; rewrite since_app; generalize (since (called [bs "br_ssl_server_zero"]) None); generalize (since (called [bs "br_x509_minimal_init"]) None); intros; vm_compute; reflexivity.
Lemma certs_trace : forall n x tr u, runs (client_certificates n x) tr (Fin u) ->
  (n <= 0 /\ tr = []) \/ (0 < n /\ exists a1 a2 a3 a4 a5 a6 a7 a8 a9 a10 last, tr =
    [(Other (bs "br_x509_minimal_init") [n] (bs "br_sha256_vtable"), a1); (Other (bs "br_x509_minimal_set_hash") [4] (bs "br_sha256_vtable"), a2);
     (Other (bs "br_x509_minimal_set_hash") [5] (bs "br_sha384_vtable"), a3); (Other (bs "br_x509_minimal_set_hash") [6] (bs "br_sha512_vtable"), a4);
     (Other (bs "br_ssl_engine_set_default_rsavrfy") [] [], a5); (Other (bs "br_ssl_engine_set_ecdsa") [] (bs "tls_ecdsa_vrfy_asn1"), a6);
     (Other (bs "br_x509_minimal_set_rsa") [] (bs "br_rsa_pkcs1_vrfy_get_default"), a7);
     (Other (bs "br_x509_minimal_set_ecdsa") [] (bs "br_ec_get_default br_ecdsa_vrfy_asn1_get_default"), a8);
     (Other (bs "br_ssl_engine_set_x509") [] (bs "xc.vtable"), a9); (Other (bs "br_ssl_server_set_trust_anchor_names_alt") [n] [], a10)] ++ last /\
     match x with Some y => exists a, last = [(Other (bs "br_x509_minimal_set_name_elements") [1] y, a)] | None => last = [] end).
Proof.
  intros n x tr u R. unfold client_certificates in R. destruct (Z.ltb_spec 0 n) as [L|L]; [right; split; [exact L|]|left; destruct R as [-> _]; auto].
  do 10 (br1 R). eexists _, _, _, _, _, _, _, _, _, _, _. split; [reflexivity|]. destruct x as [y|]; [apply br_fin in R as (a & ->); eauto|destruct R as [-> _]; reflexivity].
Qed.
Ltac settled S sa o :=
    let B := fresh "B" in let b := fresh "b" in
    constructor; [ (exists (version_min (cfg o)), (version_max (cfg o)); split; [find_last|split; apply S])
    | exists (tls_flags (prefer o)); split; [find_last|]; intros b B; rewrite <- (s_prefer _ _ S); apply flags_bits; exact B
    | rewrite <- (s_ciphers _ _ S); find_last
    | exists (curves (cfg o)); split; [find_last|]; apply S
    | find_last
    | let i := fresh "i" in let v := fresh "v" in let I := fresh "I" in let E := fresh "E" in
      intros i v I; repeat (destruct I as [E|I]; [injection E as <- <-; find_last|]); destruct I
    | find_last | find_last | find_last | find_last | find_last | find_last
    | idtac
    | exists 33178; split; [find_last|lia]
    | exists (data sa), sa; split; [find_last|]; split; [|reflexivity];
      rewrite after_here; [repeat (try (left; reflexivity); right)|reflexivity|repeat constructor]
    | assumption ].
Ltac by_hash i :=
  unfold validator_hash, after_call; rewrite since_app; generalize (since (called [bs "br_x509_minimal_init"]) None); intros;
  match goal with |- _ = ?r => let f := fresh in set (f := r); lazy - [Z.eqb f]; subst f end;
  rewrite !(Z.eqb_sym _ i);
  destruct (Z.eqb_spec i 4) as [-> |]; [reflexivity|]; destruct (Z.eqb_spec i 5) as [-> |]; [reflexivity|]; destruct (Z.eqb_spec i 6) as [-> |]; [reflexivity|]; reflexivity.
Ltac some_last := match goal with |- ?a <> None => let E := fresh in assert (E : a = Some ([], [])) by find_last; rewrite E; discriminate end.
Lemma profile_engine : forall l o n (h tr : trace) u, sets l o -> attributes l -> anchors l n h -> runs (init_tls o n) tr (Fin u) -> plausible tr -> engine_for l (h ++ tr).
Proof.
  intros l o n h tr u S A N R P. unfold init_tls in R. destruct (oid_ok _ _ S A) as (x & EO & EX). rewrite EO in R. cbn [lift pbind] in R. unfold tls_profile in R.
  do 18 (br1 R). apply fin_bind in R as ([] & tc & tr & -> & RC & R). br1 R.
  apply fin_bind in R as (seed & ts & tr' & -> & RS & R). br1 R. apply fin_bind in R as (rb & ts2 & tr'' & -> & RS2 & R). br1 R. apply br_fin in R as (xl & ->).
  do 18 (apply plausible_app in P as [_ P]). apply plausible_app in P as [_ P]. apply plausible_app in P as [_ P]. apply plausible_app in P as [P1 P]. apply plausible_app in P as [_ P]. apply plausible_app in P as [P2 _].
  destruct (random_fin _ _ _ RS P1) as (sa & -> & ->). destruct (random_fin _ _ _ RS2 P2) as (sb & -> & ->). clear RS RS2 P1 P2 EO.
  unfold anchors in N. change (Z.of_nat 32) with 32.
  match goal with |- engine_for l ?t => assert (AR : armed t) by (eexists _, xl, []; split; [rewrite !app_assoc; reflexivity|constructor]) end.
  destruct (certs_trace _ _ _ _ RC) as [(NN & ->)|(NN & a1 & a2 & a3 & a4 & a5 & a6 & a7 & a8 & a9 & a10 & last & -> & LA)]; clear RC.
  - assert (NA : args 97 l = []) by (destruct (args 97 l); [reflexivity|destruct N as (? & ? & _ & _ & _ & N); lia]).
    cbn [app]. settled S sa o. rewrite NA. split; find_last.
  - assert (NA : exists y z, args 97 l = y :: z) by (destruct (args 97 l); [lia|eauto]). destruct NA as (y & z & NA). rewrite NA in N. destruct N as (pem & a & N1 & N2 & N3 & N4).
    assert (NH : forall L, In (Other (bs "tls_pubcrt_parse") [] pem, a) (h ++ L)) by (intros; apply in_or_app; auto).
    destruct (last_arg 85 l) as [w|] eqn:EW; rewrite EX in LA; [destruct LA as (al & ->)|subst last]; cbn [app]; settled S sa o; rewrite NA.
    + rewrite EW. split; [find_last|]. split; [exists n, pem, a; split; [apply NH|]; split; [exact N2|]; split; [exact N3|]; split; [exact N4|]; split; [find_last|rewrite last_app; generalize (last_call (called [bs "br_x509_minimal_init"]) None h); intros; vm_compute; reflexivity]|].
      split; [intros i; by_hash i|]. split; [find_last|]. split; [find_last|]. split; [some_last|]. split; [find_last|find_last].
    + rewrite EW. split; [find_last|]. split; [exists n, pem, a; split; [apply NH|]; split; [exact N2|]; split; [exact N3|]; split; [exact N4|]; split; [find_last|rewrite last_app; generalize (last_call (called [bs "br_x509_minimal_init"]) None h); intros; vm_compute; reflexivity]|].
      split; [intros i; by_hash i|]. split; [find_last|]. split; [find_last|]. split; [some_last|]. split; [find_last|find_last].
Qed.

