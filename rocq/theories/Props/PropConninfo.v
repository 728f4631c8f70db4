(** C66: connection information. *)
From Verif.Model Require Import Base Inet InetIsc Parsenum Conninfo.
From Verif.Spec Require Import Num Ip Endpoints.
From Verif.Proof Require Import Tac NumP IpP InetIscP.

Lemma cstr_ok : forall s r, nonul s -> cstr (s ++ 0 :: r) = Ok s.
Proof.
  induction s as [|c s IH]; intros r N; cbn [app cstr]; auto.
  apply Forall_inv in N as NC. apply Forall_inv_tail in N. destruct (Z.eqb_spec c 0); [lia|]. rewrite IH by auto. reflexivity.
Qed.
Lemma get_strings : forall e n v, strings e -> getenv e n = Some v -> nonul v.
Proof.
  induction e as [|[m w] e IH]; intros n v S G; cbn [getenv] in G; [discriminate|].
  apply Forall_inv in S as S1. apply Forall_inv_tail in S. destruct (list_eq_dec Z.eq_dec m n); [injection G as <-; auto|eauto].
Qed.

Section Env.
Variable I : inet.

Lemma ip_env : forall v, (forall s, v = Some s -> nonul s) ->
  exists r, parseip_env I v = Ok r /\
    match r with Some a => exists s, v = Some s /\ ip_text I s a | None => forall s a, v = Some s -> ~ ip_text I s a end.
Proof.
  intros [s|] N; [|exists None; split; auto; discriminate]. specialize (N s eq_refl).
  cbn [parseip_env]. unfold parseip, parseip4_, parseip6_. rewrite cstr_ok by auto. cbn [bind].
  destruct (pton4 I s) as [q|] eqn:P4; cbn [bind].
  - eexists. split; [reflexivity|]. exists s. split; auto. left. exists q. auto.
  - destruct (pton6 I s) as [a|] eqn:P6.
    + eexists. split; [reflexivity|]. exists s. split; auto. right. auto.
    + eexists. split; [reflexivity|]. cbn. intros s' a E [(q & E1 & _)|[_ E1]]; injection E as <-; congruence.
Qed.

Lemma port_env : forall v, (forall s, v = Some s -> nonul s) ->
  exists r, parseport_env v = Ok r /\
    match r with Some p => exists s, v = Some s /\ port_text s p | None => forall s p, v = Some s -> ~ port_text s p end.
Proof.
  intros [s|] N; [|exists None; split; auto; discriminate]. specialize (N s eq_refl).
  cbn [parseport_env]. destruct (parseport_correct s [] N) as (r & E & H). rewrite E. cbn [bind].
  destruct r as [[a b]|].
  - destruct H as (Ha & Hb & NU & V). eexists. split; [reflexivity|]. exists s. split; auto. exists a, b. auto.
  - eexists. split; [reflexivity|]. cbn. intros s' p X (a & b & -> & Ha & Hb & NU & V). injection X as <-. apply H. split; auto.
    unfold is_byte in *. lia.
Qed.

Lemma ip_unique : forall s a b, ip_text I s a -> ip_text I s b -> a = b.
Proof. intros s a b [(q & E & ->)|[E F]] [(q' & E' & ->)|[E' F']]; congruence. Qed.
Lemma port_unique : forall s a b, port_text s a -> port_text s b -> a = b.
Proof.
  intros s a b (p0 & p1 & -> & A & B & _ & V) (q0 & q1 & -> & C & D & _ & W). unfold is_byte in *.
  assert (p0 = q0) by lia. assert (p1 = q1) by lia. congruence.
Qed.
Lemma says_unique : forall e i j, env_says I e i -> env_says I e j -> i = j.
Proof.
  intros e [a b c d] [a' b' c' d'] (s1 & s2 & s3 & s4 & A1 & A2 & A3 & A4 & A5 & A6 & A7 & A8) (t1 & t2 & t3 & t4 & B1 & B2 & B3 & B4 & B5 & B6 & B7 & B8).
  cbn in *. assert (s1 = t1) by congruence. assert (s2 = t2) by congruence. assert (s3 = t3) by congruence. assert (s4 = t4) by congruence. subst.
  f_equal; eauto using ip_unique, port_unique.
Qed.

Lemma fromenv_ok : forall e i, strings e ->
  (exists j, env_says I e j /\ connectioninfo_fromenv I e i = Ok (true, j)) \/
  (exists j, (forall k, ~ env_says I e k) /\ connectioninfo_fromenv I e i = Ok (false, j)).
Proof.
  intros e i S. unfold connectioninfo_fromenv.
  assert (N : forall n s, getenv e n = Some s -> nonul s) by (intros; eapply get_strings; eauto).
  destruct (ip_env (getenv e (bs "TCPLOCALIP")) (N _)) as (r1 & -> & H1). cbn [bind].
  destruct r1 as [a|]; [|right; exists i; split; auto; intros k (x & _ & _ & _ & G & T & _); eapply H1; eauto].
  destruct H1 as (s1 & G1 & T1).
  destruct (port_env (getenv e (bs "TCPLOCALPORT")) (N _)) as (r2 & -> & H2). cbn [bind].
  destruct r2 as [b|]; [|right; eexists; split; [|reflexivity]; intros k (_ & x & _ & _ & _ & _ & G & T & _); eapply H2; eauto].
  destruct H2 as (s2 & G2 & T2).
  destruct (ip_env (getenv e (bs "TCPREMOTEIP")) (N _)) as (r3 & -> & H3). cbn [bind].
  destruct r3 as [c|]; [|right; eexists; split; [|reflexivity]; intros k (_ & _ & x & _ & _ & _ & _ & _ & G & T & _); eapply H3; eauto].
  destruct H3 as (s3 & G3 & T3).
  destruct (port_env (getenv e (bs "TCPREMOTEPORT")) (N _)) as (r4 & -> & H4). cbn [bind].
  destruct r4 as [d|]; [|right; eexists; split; [|reflexivity]; intros k (_ & _ & _ & x & _ & _ & _ & _ & _ & _ & G & T); eapply H4; eauto].
  destruct H4 as (s4 & G4 & T4).
  left. eexists. split; [|reflexivity]. exists s1, s2, s3, s4. repeat (split; [assumption|]). assumption.
Qed.

Lemma endpoint_ok : forall s, match endpoint s with
  | Some (a, p) => sock_says (Some s) a p
  | None => forall a p, ~ sock_says (Some s) a p end.
Proof.
  intros s. unfold endpoint, AF_INET, AF_INET6. destruct (Z.eqb_spec (family s) 2); [exists s; split; auto|].
  destruct (Z.eqb_spec (family s) 10); [exists s; split; auto|].
  intros a p (k & E & [[F _]|[F _]]); injection E as <-; congruence.
Qed.

Lemma fromfd_ok : forall h p i,
  (exists a b c d, sock_says h a b /\ sock_says p c d /\ connectioninfo_fromfd h p i = (true, mkinfo a b c d)) \/
  (exists j, ((forall a b, ~ sock_says h a b) \/ (forall a b, ~ sock_says p a b)) /\ connectioninfo_fromfd h p i = (false, j)).
Proof.
  intros h p i. unfold connectioninfo_fromfd.
  destruct h as [h|]; [|right; eexists; split; [|reflexivity]; left; intros a b (n & E & _); discriminate].
  pose proof (endpoint_ok h) as H. destruct (endpoint h) as [[a b]|]; [|right; eexists; split; [|reflexivity]; auto].
  destruct p as [p|]; [|right; eexists; split; [|reflexivity]; right; intros c d (n & E & _); discriminate].
  pose proof (endpoint_ok p) as P. destruct (endpoint p) as [[c d]|]; [|right; eexists; split; [|reflexivity]; auto].
  left. exists a, b, c, d. auto.
Qed.

Lemma sock_unique : forall s a b c d, sock_says s a b -> sock_says s c d -> a = c /\ b = d.
Proof. intros s a b c d (n & -> & [(F & -> & ->)|(F & -> & ->)]) (m & E & [(G & -> & ->)|(G & -> & ->)]); injection E as <-; split; congruence. Qed.

(** ** C66: the environment wins whenever all of it is valid, whatever the socket and the buffers say *)
Theorem C66_environment : forall e i here peer before, strings e -> env_says I e i ->
  connectioninfo_get I e here peer before = Ok (true, i).
Proof.
  intros e i here peer b S E. unfold connectioninfo_get.
  destruct (fromenv_ok e b S) as [(j & J & ->)|(j & J & _)]; [|destruct (J _ E)]. cbn [bind]. rewrite (says_unique _ _ _ E J). reflexivity.
Qed.

(** ** C66: otherwise the socket decides, entirely *)
Theorem C66_socket : forall e here peer before, strings e -> (forall i, ~ env_says I e i) ->
  (forall a b c d, sock_says here a b -> sock_says peer c d -> connectioninfo_get I e here peer before = Ok (true, mkinfo a b c d)) /\
  ((forall a b, ~ sock_says here a b) \/ (forall c d, ~ sock_says peer c d) ->
     exists after, connectioninfo_get I e here peer before = Ok (false, after)).
Proof.
  intros e here peer b S N. unfold connectioninfo_get.
  destruct (fromenv_ok e b S) as [(j & J & _)|(j & _ & ->)]; [destruct (N _ J)|]. cbn [bind].
  destruct (fromfd_ok here peer j) as [(x & y & z & w & H & P & ->)|(k & H & ->)]; split.
  - intros a' b' c d A B. destruct (sock_unique _ _ _ _ _ A H) as [-> ->]. destruct (sock_unique _ _ _ _ _ B P) as [-> ->]. reflexivity.
  - intros [A|A]; [destruct (A _ _ H)|destruct (A _ _ P)].
  - intros a' b' c d A B. destruct H as [H|H]; [destruct (H _ _ A)|destruct (H _ _ B)].
  - eauto.
Qed.

Lemma get_put : forall e n v m, getenv (putenv e n v) m = if list_eq_dec Z.eq_dec n m then Some v else getenv e m.
Proof.
  induction e as [|[k w] e IH]; intros n v m; cbn [putenv getenv]; auto.
  destruct (list_eq_dec Z.eq_dec k n) as [->|K]; cbn [getenv].
  - destruct (list_eq_dec Z.eq_dec n m); auto.
  - rewrite IH. destruct (list_eq_dec Z.eq_dec n m) as [->|M]; auto. destruct (list_eq_dec Z.eq_dec k m); congruence.
Qed.
Lemma put_strings : forall e n v, strings e -> nonul v -> strings (putenv e n v).
Proof.
  induction e as [|[k w] e IH]; intros n v S N; cbn [putenv]; [repeat constructor; auto|].
  pose proof (Forall_inv S). apply Forall_inv_tail in S. destruct (list_eq_dec Z.eq_dec k n); constructor; auto. apply IH; auto.
Qed.

Lemma porttext_ok : forall buf p0 p1, length buf = 6%nat -> is_byte p0 -> is_byte p1 ->
  exists s, porttext buf [p0; p1] = Ok s /\ port_text s [p0; p1] /\ nonul s.
Proof.
  intros buf p0 p1 L A B. destruct (porttostr_correct p0 p1 buf [] A B L) as (s & N & V & LS & E). rewrite app_nil_r in E.
  exists s. pose proof (numeral_nonul s N) as NN. split; [|split; auto; exists p0, p1; auto].
  unfold porttext. cbn [ld nth_error bind]. rewrite E. cbn [bind skipn].
  destruct (6 - length s)%nat eqn:D; [lia|]. cbn [repeat app]. apply cstr_ok. auto.
Qed.

(** ** C66: what is stored is read back, and nothing else in the environment changes.  The static buffer of
    porttostr has any content. *)
Theorem C66_roundtrip : forall e i buf here peer before, inet_ok I -> strings e -> endpoints i -> length buf = 6%nat ->
  exists e', connectioninfo_set I (true, true, true, true) buf e i = Ok e' /\
    strings e' /\
    connectioninfo_get I e' here peer before = Ok (true, i) /\
    (forall n, ~ In n [bs "TCPLOCALIP"; bs "TCPLOCALPORT"; bs "TCPREMOTEIP"; bs "TCPREMOTEPORT"] -> getenv e' n = getenv e n).
Proof.
  intros e [li lp ri rp] buf here peer before O S (A1 & A2 & L1 & B1 & L2 & B2) L. cbn [localip localport remoteip remoteport] in *.
  destruct lp as [|l0 [|l1 [|]]]; try discriminate L1. destruct rp as [|r0 [|r1 [|]]]; try discriminate L2.
  unfold connectioninfo_set. cbn [localip localport remoteip remoteport].
  pose proof (Forall_inv B1) as Hl0. pose proof (Forall_inv (Forall_inv_tail B1)) as Hl1.
  pose proof (Forall_inv B2) as Hr0. pose proof (Forall_inv (Forall_inv_tail B2)) as Hr1.
  destruct (porttext_ok buf r0 r1 L Hr0 Hr1) as (rs & -> & RT & RN). cbn [bind].
  destruct (porttext_ok buf l0 l1 L Hl0 Hl1) as (ls & -> & LT & LN). cbn [bind]. unfold setenv.
  assert (IN : forall a, addr6 a -> nonul (iptostr I a) /\ ip_text I (iptostr I a) a).
  { intros a A. destruct (iptostr_chars I O a A) as (C & _ & _). pose proof (ipchars_nonul _ C) as NN. split; auto.
    pose proof (parseip_iptostr I O a [] A) as P.
    destruct (ip_env (Some (iptostr I a))) as (r & E & H); [intros s X; injection X as <-; auto|].
    cbn [parseip_env] in E. rewrite E in P. injection P as ->. destruct H as (s & X & T). injection X as <-. auto. }
  destruct (IN _ A1) as [N1 T1]. destruct (IN _ A2) as [N2 T2].
  eexists. split; [reflexivity|].
  assert (S' : strings (putenv (putenv (putenv (putenv e (bs "TCPREMOTEIP") (iptostr I ri)) (bs "TCPREMOTEPORT") rs) (bs "TCPLOCALIP") (iptostr I li)) (bs "TCPLOCALPORT") ls))
    by (repeat apply put_strings; auto).
  split; [exact S'|]. split.
  - apply C66_environment; auto. exists (iptostr I li), ls, (iptostr I ri), rs. cbn [localip localport remoteip remoteport].
    rewrite !get_put. repeat (destruct (list_eq_dec Z.eq_dec _ _) as [X|X]; [try discriminate X|try (exfalso; apply X; reflexivity)]); auto 10.
  - intros n N. rewrite !get_put. cbn [In] in N.
    repeat match goal with |- context [list_eq_dec Z.eq_dec ?a n] => destruct (list_eq_dec Z.eq_dec a n); [exfalso; apply N; auto 10|] end. reflexivity.
Qed.
End Env.
Print Assumptions C66_environment.
Print Assumptions C66_socket.
Print Assumptions C66_roundtrip.

(** When neither source is complete the function fails but may have stored one of the two ends, and its
    callers ignore the result (main_tlswrapper.c:1449, main_tlswrapper_tcp.c:348, main_tlswrapper_smtp.c:1016). *)
Theorem C66_partial_refuted : exists e i j, strings e /\
  connectioninfo_get isc e None None i = Ok (false, j) /\ localip j <> localip i /\ remoteip j <> remoteip i /\ remoteport j = remoteport i.
Proof.
  exists [(bs "TCPLOCALIP", bs "10.0.0.1"); (bs "TCPLOCALPORT", bs "25"); (bs "TCPREMOTEIP", bs "10.0.0.2")].
  exists (mkinfo (repeat 0 16) [0; 0] (repeat 0 16) [0; 0]). eexists.
  split; [repeat constructor; vm_compute; auto; discriminate|]. split; [vm_compute; reflexivity|]. repeat split; discriminate.
Qed.
Print Assumptions C66_partial_refuted.

(** If storing a variable fails, the old value stays. *)
Theorem C66_setenv_refuted : exists oks e i e' j, strings e /\ endpoints i /\
  connectioninfo_set isc oks (repeat 0 6) e i = Ok e' /\ connectioninfo_get isc e' None None i = Ok (true, j) /\ j <> i.
Proof.
  exists (false, true, true, true), [(bs "TCPREMOTEIP", bs "10.9.9.9")].
  exists (mkinfo [32;1;13;184;0;0;0;0;0;0;0;0;0;0;0;1] [0; 25] [32;1;13;184;0;0;0;0;0;0;0;0;0;0;0;2] [4; 210]). do 2 eexists.
  split; [repeat constructor; vm_compute; auto; discriminate|].
  split; [repeat split; repeat constructor; vm_compute; auto; discriminate|].
  split; [vm_compute; reflexivity|]. split; [vm_compute; reflexivity|]. discriminate.
Qed.
Print Assumptions C66_setenv_refuted.

(** ** Examples *)
Definition ex_env : environment :=
  [(bs "PATH", bs "/bin"); (bs "TCPLOCALIP", bs "::1"); (bs "TCPLOCALPORT", bs "443"); (bs "TCPREMOTEIP", bs "10.0.0.2"); (bs "TCPREMOTEPORT", bs "65535")].
Definition ex_info : info :=
  mkinfo [0;0;0;0;0;0;0;0;0;0;0;0;0;0;0;1] [1; 187] ([0;0;0;0;0;0;0;0;0;0;255;255] ++ [10;0;0;2]) [255; 255].
Definition ex_sock : sockname := mksock 2 [127;0;0;1] [0; 25] [] [].
Example C66_ex1 : strings ex_env /\ endpoints ex_info /\ env_says isc ex_env ex_info.
Proof.
  split; [repeat constructor; vm_compute; auto; discriminate|]. split; [repeat split; repeat constructor; vm_compute; auto; discriminate|].
  exists (bs "::1"), (bs "443"), (bs "10.0.0.2"), (bs "65535"). split; [reflexivity|].
  split; [right; split; reflexivity|]. split; [reflexivity|].
  assert (D : forall s a b, match s with c :: t => (49 <=? c) && (c <=? 57) && forallb (fun c => (48 <=? c) && (c <=? 57)) t | [] => false end = true ->
    is_byte a -> is_byte b -> decval s = 256 * a + b -> port_text s [a; b]).
  { intros s a b H A B V. exists a, b. split; auto. split; auto. split; auto. split; auto. right. destruct s as [|c t]; [discriminate|].
    apply andb_prop in H as [H F]. apply andb_prop in H as [H1 H2]. apply Z.leb_le in H1, H2. exists c, t. split; auto. split; [lia|].
    rewrite forallb_forall in F. apply Forall_forall. intros x X. specialize (F x X). apply andb_prop in F as [F1 F2]. apply Z.leb_le in F1, F2. split; auto. }
  split; [apply D; try reflexivity; split; cbn; discriminate || reflexivity|]. split; [reflexivity|].
  split; [left; exists [10;0;0;2]; split; reflexivity|]. split; [reflexivity|].
  apply D; try reflexivity; split; cbn; discriminate || reflexivity.
Qed.
Example C66_ex2 : connectioninfo_get isc ex_env None None (mkinfo [] [] [] []) = Ok (true, ex_info).
Proof. reflexivity. Qed.
Example C66_ex3 : connectioninfo_get isc (tl (tl ex_env)) (Some ex_sock) (Some (mksock 10 [] [] (repeat 7 16) [9; 8])) ex_info =
  Ok (true, mkinfo ([0;0;0;0;0;0;0;0;0;0;255;255] ++ [127;0;0;1]) [0; 25] (repeat 7 16) [9; 8]).
Proof. reflexivity. Qed.
Example C66_ex4 : connectioninfo_set isc (true, true, true, true) (repeat 170 6) [(bs "TCPLOCALIP", bs "x"); (bs "A", bs "b")] ex_info =
  Ok [(bs "TCPLOCALIP", bs "::1"); (bs "A", bs "b"); (bs "TCPREMOTEIP", bs "10.0.0.2"); (bs "TCPREMOTEPORT", bs "65535"); (bs "TCPLOCALPORT", bs "443")].
Proof. reflexivity. Qed.
