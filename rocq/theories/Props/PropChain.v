(** C101: several tlswrapper-tcp in a row, each started with the next one's address. *)
From Verif.Model Require Import Base Sys Io Str Buffer Inet InetIsc Parsenum Fdio Relay Session Jail Pem Proxy Conninfo Conn Resolve Main Getopt Lookup Tcpmain.
From Verif.Spec Require Import Text Num Ip Settings Cmdline Words Proxy Program Descriptors Flow Restrict Process Endpoints Resolver Forward Stream.
From Verif.Proof Require Import Tac SysP StrP BufferP CallsP ConfigP OptionsP GetoptP PlayP PerformP SafeP MainCallsP MainP ChildP ResolveP ConnP ToldP ForwardP TcpJailP TcpmainP ProxyP IoP InetIscP.
From Verif.Props Require Import PropJail PropOptions PropCommands PropConninfo PropTcpmain PropForward.

(** One run: its words, its environment, whether it was built with NOJAIL, and its system calls. *)
Record leg := mkleg { l_words : list (list Z); l_env : environment; l_nojail : bool; l_calls : trace }.
(** The option [c] was given with argument 1. *)
Definition switched (c : Z) (x : leg) : Prop := exists l host port t k, tcp_line (l_words x) l host port t k /\ In (bs "1") (args c l).
(** A connection was opened, and [ri] and [ro] are its descriptors. *)
Definition connected (tr : trace) (ri ro : Z) : Prop := exists cs port, linked cs port tr ri ro.
(** The connection of [x] is the one [y] serves: neither reads anything but what the other one wrote, in order. *)
Definition joined (x y : leg) : Prop := forall ri ro, connected (l_calls x) ri ro ->
  is_prefix (got 0 (l_calls y)) (sent ro (l_calls x)) /\ is_prefix (got ri (l_calls x)) (sent 1 (l_calls y)).
(** Each sends a PROXY header to the next one, and the next one reads it. *)
Fixpoint row (x : leg) (l : list leg) : Prop :=
  match l with
  | [] => True
  | y :: l => switched 80 x /\ switched 112 y /\ joined x y /\ row y l
  end.
Definition ends_of (i : info) := mkep (localip i) (localport i) (remoteip i) (remoteport i).

Section Chain.
Variable I : inet.
Hypothesis OK : inet_ok I.
(** A run of tlswrapper-tcp that wrote something. *)
Definition passes (x : leg) : Prop := exists fuel buf0 ip0 name argv L L' out,
  strings (l_env x) /\ Forall2 points (l_words x) argv /\ good L /\ In 0 L /\ In 1 L /\
  runs (main_tcp I fuel buf0 ip0 (l_env x) (l_nojail x) (name :: argv)) (l_calls x) out /\ fdrun L (l_calls x) = Some L' /\
  kernel (l_calls x) /\ Forall honest (l_calls x) /\ original (l_calls x) /\ ~ Forall (fun e => wordless (fst e)) (l_calls x).
(** The ends [i] were learned with the calls [t0]; then came the calls [u] that relay, with the connection ([ri], [ro])
    and behind the header [h]. *)
Definition stage (x : leg) (t0 u : trace) (i : info) (h : list Z) (ri ro : Z) : Prop :=
  exists proxy wanted, (proxy = true <-> switched 112 x) /\ (wanted = true <-> switched 80 x) /\
    l_calls x = t0 ++ u /\ learned I (l_env x) proxy t0 i /\ ahead I wanted i h /\ connected (l_calls x) ri ro /\
    is_prefix (sent ro (l_calls x)) (h ++ got 0 u) /\ is_prefix (sent 1 (l_calls x)) (got ri (l_calls x)).

Lemma switched_iff : forall c x l host port t k, tcp_line (l_words x) l host port t k -> (switched c x <-> In (bs "1") (args c l)).
Proof.
  intros c x l host port t k T. split; [intros (l' & host' & port' & t' & k' & T' & X)|intros X; exists l, host, port, t, k; auto].
  destruct (C77_unique _ _ _ _ _ _ _ _ _ _ _ T T') as (-> & _). exact X.
Qed.
Lemma silent : forall fd t, Forall (fun e => wordless (fst e)) t -> sent fd t = [].
Proof. intros fd t F. induction F as [|[c a] t W F IH]; [reflexivity|]. cbn [fst] in W. cbn [sent]. destruct c; auto. destruct W. Qed.
Lemma stage_of : forall x, passes x -> legal (l_calls x) /\ exists t0 u i h ri ro, stage x t0 u i h ri ro.
Proof.
  intros x (fuel & buf0 & ip0 & name & argv & L & L' & out & EN & FW & GL & I0 & I1 & R & E & K & H & O & NW). split; [apply K|].
  destruct (C80_forward I OK fuel buf0 ip0 (l_env x) EN (l_nojail x) name (l_words x) argv L L' (l_calls x) out FW GL I0 I1 R E K H O) as (_ & _ & [[W _]|X]); [destruct (NW W)|].
  destruct X as (l & host & port & tm & cn & proxy & wanted & t0 & u & ri & ro & self & h & TL & P1 & P2 & ET & RD & RL & _).
  destruct RD as [Q (cs & _ & LK) U (i & LE & AH) _ _]. destruct RL as ((_ & p & C1 & _) & (_ & q & C2 & _) & _).
  exists t0, u, i, h, ri, ro, proxy, wanted. split; [rewrite P1; symmetry; eapply switched_iff; eauto|]. split; [rewrite P2; symmetry; eapply switched_iff; eauto|].
  split; [exact ET|]. split; [exact LE|]. split; [exact AH|]. rewrite ET. split; [|split].
  - exists cs, port. destruct LK as ((c & a & X1 & X2 & X3) & (b & X4 & X5)). split.
    + exists c, a. split; [exact X1|]. split; [apply in_or_app; auto|]. destruct X3 as [X3|(g & X3 & X6)]; [auto|]. right. exists g. split; [apply in_or_app; auto|exact X6].
    + exists b. split; [apply in_or_app; auto|exact X5].
  - exists p. rewrite sent_app, (silent ro t0 Q). exact C1.
  - exists q. rewrite sent_app, got_app, (silent 1 t0 Q), U. exact C2.
Qed.
Lemma prefix_trans : forall a b c, is_prefix a b -> is_prefix b c -> is_prefix a c.
Proof. intros a b c (u & ->) (v & ->). exists (u ++ v). rewrite app_assoc. reflexivity. Qed.
Lemma prefix_app : forall h a b, is_prefix a b -> is_prefix (h ++ a) (h ++ b).
Proof. intros h a b (u & ->). exists u. rewrite app_assoc. reflexivity. Qed.

(** One step: the next one reads the header whole, learns the same ends, and its payload is the payload. *)
Lemma step : forall x y t0 u i h ri ro t0' u' i' h' ri' ro', stage x t0 u i h ri ro -> stage y t0' u' i' h' ri' ro' -> legal (l_calls y) ->
  switched 80 x -> switched 112 y -> joined x y -> addr6 (localip i) -> addr6 (remoteip i) ->
  ends_of i' = ends_of i /\ got 0 t0' = h /\ is_prefix (got 0 u') (got 0 u) /\ is_prefix (got ri (l_calls x)) (got ri' (l_calls y)).
Proof.
  intros x y t0 u i h ri ro t0' u' i' h' ri' ro' (px & wx & P1 & W1 & ET & LE & AH & CO & SX & SX') (py & wy & P2 & W2 & ET' & LE' & AH' & CO' & SY & SY') LG S1 S2 J AL AR.
  apply W1 in S1. apply P2 in S2. subst wx py. cbn [ahead learned] in *. destruct (J _ _ CO) as [J1 J2].
  destruct LE' as (v & G & NV & PP). assert (ID : header I (ends_of i) h) by exact AH.
  assert (IS2 : is2 (lport (ends_of i)) /\ is2 (rport (ends_of i))).
  { destruct ID as (rp & lp & (_ & a & b & A1 & A2 & A3 & _) & (_ & c & d & B1 & B2 & B3 & _) & _). split; [exists c, d|exists a, b]; auto. }
  destruct IS2 as [PL PR]. destruct (header_ends I (ends_of i) h OK AL AR PL PR ID) as (w & EW & NWl).
  destruct (prefix_trans _ _ _ J1 SX) as (rest & PX).
  assert (F10 : forall z : list Z, ~ In 10 z -> Forall (fun c => ~ 10 = c) z) by (intros z Z; apply Forall_forall; intros c C <-; auto).
  rewrite ET', got_app, G, EW, <- !app_assoc in PX. cbn [app] in PX.
  destruct (split_unique (fun c => 10 = c) w 10 (got 0 u) v 10 (got 0 u' ++ rest)) as (EV & _ & EQ); auto. subst v.
  rewrite <- EW in G, PP. split; [|split; [exact G|split; [exists rest; exact EQ|exact (prefix_trans _ _ _ J2 SY')]]].
  destruct (list_eq_dec Z.eq_dec (firstn 12 (localip i)) v4prefix) as [D|D]; destruct (list_eq_dec Z.eq_dec (firstn 12 (remoteip i)) v4prefix) as [D'|D'];
    try (exfalso; apply (mixed_rejected I (ends_of i) h (ends_of i') OK AL AR); [cbn [lip rip ends_of]; tauto|exact ID|exact PP]);
    (destruct (header_line I (ends_of i) h OK AL AR PL PR) as [HL _]; [cbn [lip rip ends_of]; tauto|exact ID|];
     assert (B : bytes h) by (rewrite <- G; pose proof (got_bytes 0 _ LG) as B; rewrite ET', got_app in B; apply Forall_app in B as [B _]; exact B);
     exact (line_unique I h w _ _ OK B EW PP HL)).
Qed.

(** Standard input is no internet socket, as far as it was asked. *)
Definition nameless (tr : trace) : Prop :=
  exists nm a, (nm = bs "getsockname" \/ nm = bs "getpeername") /\ In (Other nm [0] [], a) tr /\ forall b c, ~ sock_says (socket_answer a) b c.
(** The ends of the connection can be known: from a PROXY line, from the environment or from the socket. *)
Definition known (x : leg) : Prop := switched 112 x \/ (exists j, env_says I (l_env x) j) \/ ~ nameless (l_calls x).
Lemma known_addr : forall x t0 u i h ri ro, known x -> stage x t0 u i h ri ro -> addr6 (localip i) /\ addr6 (remoteip i).
Proof.
  intros x t0 u i h ri ro KN (px & wx & P & W & ET & LE & _).
  assert (FB : forall a k n, length (field a k n) = n /\ bytes (field a k n)).
  { intros a k n. unfold field. rewrite map_length, seq_length. split; [reflexivity|]. apply Forall_forall. intros b B. apply in_map_iff in B as (j & <- & _). unfold is_byte. apply Z.mod_pos_bound. lia. }
  assert (A4 : forall q, addr4 q -> addr6 (v4prefix ++ q)).
  { intros q [L B]. split; [rewrite app_length, L; reflexivity|]. apply Forall_app. split; [|exact B]. apply Forall_forall. intros b X. unfold v4prefix in X. cbn [In] in X. unfold is_byte. lia. }
  assert (SA : forall a b c, sock_says (socket_answer a) b c -> addr6 b).
  { intros a b c (n & E & X). unfold socket_answer in E. destruct (ret a =? -1); [discriminate|]. injection E as <-. cbn [family sin_addr sin_port sin6_addr sin6_port] in X.
    destruct X as [(_ & -> & _)|(_ & -> & _)]; [apply (A4 (field a 0 4)); apply FB|apply FB]. }
  assert (IT : forall a b, ip_text I a b -> addr6 b).
  { intros a b [(q & X & ->)|[_ X]]; [apply (A4 q); eapply (ok_pton4_addr _ OK); eauto|eapply (ok_pton6_addr _ OK); eauto]. }
  destruct px; cbn [learned] in LE.
  - destruct LE as (v & _ & _ & PP). inversion PP as [t E1 E2|v6 r l rp lp s1 s2 s3 s4 t ra la rpb lpb F1 F2 _ _ _ _ _ _ E1 E2]; subst.
    + assert (Z : addr6 (repeat 0 16)) by (split; [reflexivity|repeat constructor; lia]). auto.
    + destruct v6; [split; eapply (ok_pton6_addr _ OK); eauto|]. destruct F1 as (q1 & X1 & ->), F2 as (q2 & X2 & ->). split; apply A4; eapply (ok_pton4_addr _ OK); eauto.
  - destruct LE as [_ [(a & b & c & d & _ & T1 & _ & _ & _ & T2 & _)|(NE & [(a1 & a2 & a & b & c & d & _ & _ & S1 & S2 & ->)|(nm & a & N1 & N2 & N3)])]].
    + split; eapply IT; eauto.
    + cbn [localip remoteip]. split; eapply SA; eauto.
    + exfalso. destruct KN as [K|[(j & K)|K]]; [apply P in K; discriminate|exact (NE j K)|]. apply K. exists nm, a. split; [exact N1|]. split; [rewrite ET; apply in_or_app; auto|exact N3].
Qed.

(** However many there are, each one learns the two ends that the first one learned, reads nothing before its relay but
    the header, and passes on no other payload than the first one's client sent; and the first one gives its client
    nothing but what came back from the last one's connection, as from that of each one between. *)
Theorem C101_chain : forall x l, passes x -> Forall passes l -> row x l -> known x ->
  exists t0 u i h ri ro, stage x t0 u i h ri ro /\
     Forall (fun y => exists t0' u' i' h' ri' ro', stage y t0' u' i' h' ri' ro' /\
       ends_of i' = ends_of i /\ header I (ends_of i) (got 0 t0') /\ is_prefix (sent ro' (l_calls y)) (h' ++ got 0 u) /\
       is_prefix (sent 1 (l_calls x)) (got ri' (l_calls y))) l.
Proof.
  intros x l PX PL RW KN. destruct (stage_of _ PX) as (_ & t0 & u & i & h & ri & ro & ST). exists t0, u, i, h, ri, ro. split; [exact ST|]. destruct (known_addr _ _ _ _ _ _ _ KN ST) as [AL AR].
  assert (IND : forall l y t0' u' i' h' ri' ro', Forall passes l -> row y l -> stage y t0' u' i' h' ri' ro' ->
     ends_of i' = ends_of i -> is_prefix (got 0 u') (got 0 u) -> is_prefix (sent 1 (l_calls x)) (got ri' (l_calls y)) ->
     Forall (fun y => exists t0' u' i' h' ri' ro', stage y t0' u' i' h' ri' ro' /\
       ends_of i' = ends_of i /\ header I (ends_of i) (got 0 t0') /\ is_prefix (sent ro' (l_calls y)) (h' ++ got 0 u) /\
       is_prefix (sent 1 (l_calls x)) (got ri' (l_calls y))) l).
  { clear l PL RW KN. induction l as [|z l IH]; intros y ta ua ia ha ra oa PL RW SA EA GA BA; [constructor|].
    inversion PL as [|? ? PZ PL']; subst. cbn [row] in RW. destruct RW as (S1 & S2 & J & RW). destruct (stage_of _ PZ) as (LG & tb & ub & ib & hb & rb & ob & SB).
    injection EA as E1 E2 E3 E4.
    destruct (step _ _ _ _ _ _ _ _ _ _ _ _ _ _ SA SB LG S1 S2 J) as (EB & GB & FB & BB); [congruence|congruence|].
    assert (EB' : ends_of ib = ends_of i) by (rewrite EB; unfold ends_of; congruence).
    pose proof (prefix_trans _ _ _ FB GA) as FF. pose proof (prefix_trans _ _ _ BA BB) as BF.
    constructor; [|eapply IH; eauto]. exists tb, ub, ib, hb, rb, ob. split; [exact SB|]. split; [exact EB'|]. split; [|split; [|exact BF]].
    - rewrite GB. rewrite <- EB', EB. destruct SA as (pa & wa & _ & WA & _ & _ & AH & _). apply WA in S1. subst wa. exact AH.
    - destruct SB as (pb & wb & _ & _ & _ & _ & _ & _ & SS & _). exact (prefix_trans _ _ _ SS (prefix_app _ _ _ FF)). }
  eapply IND; eauto; [exists []; symmetry; apply app_nil_r|]. destruct ST as (px & wx & _ & _ & _ & _ & _ & _ & _ & SS). exact SS.
Qed.

(** If one end has an IPv4 address and the other an IPv6 address, the next one never passes anything on. *)
Theorem C101_mixed : forall x y t0 u i h ri ro, stage x t0 u i h ri ro -> known x ->
  ~ (firstn 12 (localip i) = v4prefix <-> firstn 12 (remoteip i) = v4prefix) ->
  switched 80 x -> switched 112 y -> joined x y -> ~ passes y.
Proof.
  intros x y t0 u i h ri ro SX KN M S1 S2 J PY. destruct (known_addr _ _ _ _ _ _ _ KN SX) as [AL AR].
  destruct (stage_of _ PY) as (LG & t0' & u' & i' & h' & ri' & ro' & SY).
  destruct (step _ _ _ _ _ _ _ _ _ _ _ _ _ _ SX SY LG S1 S2 J AL AR) as (_ & G & _).
  destruct SX as (px & wx & _ & WX & _ & _ & AH & _). apply WX in S1. subst wx. destruct SY as (py & wy & PY' & _ & _ & LE & _). apply PY' in S2. subst py. cbn [learned ahead] in *.
  destruct LE as (v & GV & _ & PP). rewrite <- GV, G in PP. exact (mixed_rejected I (ends_of i) h _ OK AL AR M AH PP).
Qed.
End Chain.
Print Assumptions C101_mixed.
Print Assumptions C101_chain.

(** ** Example: three of them, started with -p 1 -P 1, pass on "hello" and "world" *)
Definition nowire (e : event) : bool :=
  match e with
  | (Other n l _, a) => (negb (same n (bs "connect")) || same l [7]) && (negb (same n (bs "dup")) || (ret a =? 8))
  | _ => true
  end.
Lemma ex_leg : exists tr, passes isc (mkleg proxywords [] false tr) /\ (forall ri ro, connected tr ri ro -> ri = 7 /\ ro = 8) /\
  got 0 tr = proxyline ++ bs "hello" /\ sent 8 tr = proxyline ++ bs "hello" /\ got 7 tr = bs "world" /\ sent 1 tr = bs "world".
Proof.
  destruct (perform_show _ _ tkernel (Z.to_nat 600) (mkos 3 500 [reply1] [(0, map (fun c => [c]) proxyline ++ [bs "hello"]); (7, [bs "world"])] (-1)) (tcp false proxywords)
    (fun tr o => fair [0; 1; 2] tr && forallb honestb tr && forallb nowire tr && same (got 0 tr) (proxyline ++ bs "hello") && same (sent 8 tr) (proxyline ++ bs "hello") && same (got 7 tr) (bs "world") && same (sent 1 tr) (bs "world"))) as (tr & o & R & LE & Q).
  { vm_compute. reflexivity. }
  rewrite !andb_true_iff in Q. destruct Q as [[[[[[Q1 Q5] Q2] Q3] Q4] Q6] Q7]. destruct (fair_ok _ _ LE Q1) as (K & O & L' & E).
  apply same_true in Q3, Q4, Q6, Q7. exists tr. split; [|split; [|auto]].
  - exists (Z.to_nat 200), (repeat 0 (Z.to_nat 257)), (repeat 0 (Z.to_nat 129)), (hd [] (vec [bs "tlswrapper-tcp"])), (vec proxywords), [0; 1; 2], L', o. cbn [l_words l_env l_nojail l_calls].
    split; [constructor|]. split; [repeat apply Forall2_cons; try apply Forall2_nil; (split; [repeat constructor|exists []; reflexivity])|].
    split; [split; [repeat constructor; cbn; lia|repeat constructor; lia]|]. split; [cbn; auto|]. split; [cbn; auto|]. split; [exact R|]. split; [exact E|]. split; [exact K|].
    split; [apply Forall_forall; intros e X; apply honestb_ok; rewrite forallb_forall in Q5; auto|]. split; [exact O|]. intros W. rewrite (silent 1 tr W) in Q7. discriminate.
  - intros ri ro (cs & port & (c & a & _ & X & _) & (b & Y & <-)). rewrite forallb_forall in Q2. apply Q2 in X, Y. unfold nowire in X, Y.
    apply andb_prop in X as [X _]. apply andb_prop in Y as [_ Y]. change (same (bs "connect") (bs "connect")) with true in X. change (same (bs "dup") (bs "dup")) with true in Y. cbn [negb orb] in X, Y.
    apply same_true in X. injection X as ->. split; [reflexivity|lia].
Qed.
Example ex_chain : exists x, passes isc x /\ row x [x; x] /\ known isc x /\ (forall ri ro, connected (l_calls x) ri ro -> ri = 7 /\ ro = 8) /\
  got 0 (l_calls x) = proxyline ++ bs "hello" /\ sent 8 (l_calls x) = proxyline ++ bs "hello" /\ sent 1 (l_calls x) = bs "world".
Proof.
  destruct ex_leg as (tr & P & C & G0 & S8 & G7 & S1). exists (mkleg proxywords [] false tr).
  assert (TL : exists l host port t k, tcp_line proxywords l host port t k /\ In (bs "1") (args 112 l) /\ In (bs "1") (args 80 l)).
  { destruct (C77_exact (hd [] (vec [bs "tlswrapper-tcp"])) proxywords (vec proxywords)) as (r & EC & HC).
    - repeat apply Forall2_cons; try apply Forall2_nil; (split; [repeat constructor|exists []; reflexivity]).
    - vm_compute in EC. injection EC as <-. destruct HC as (l & host & port & T & SE & _). exists l, host, port. eexists. eexists. split; [exact T|]. split; [apply (ts_ppin _ _ SE)|apply (ts_ppout _ _ SE)]; reflexivity. }
  destruct TL as (l & host & port & t & k & TL & A1 & A2).
  assert (S : forall c, In (bs "1") (args c l) -> switched c (mkleg proxywords [] false tr)) by (intros c A; exists l, host, port, t, k; auto).
  assert (J : joined (mkleg proxywords [] false tr) (mkleg proxywords [] false tr)).
  { intros ri ro CO. destruct (C _ _ CO) as [-> ->]. cbn [l_calls]. rewrite G0, S8, G7, S1. split; exists []; rewrite app_nil_r; reflexivity. }
  split; [exact P|]. split; [cbn [row]; auto 10|]. split; [left; auto|]. split; [exact C|]. auto.
Qed.

(** So "what the first one passes on, the last one passes on" is false: a run that sends its header and its payload,
    which no next one can make use of. *)
Definition mixwords : list (list Z) := [bs "-P1"; bs "host"; bs "25"].
Definition mixenv : environment :=
  [(bs "TCPLOCALIP", bs "2001:db8::1"); (bs "TCPLOCALPORT", bs "25"); (bs "TCPREMOTEIP", bs "192.0.2.1"); (bs "TCPREMOTEPORT", bs "1000")].
Definition mixline : list Z := bs "PROXY TCP4 192.0.2.1 2001:db8::1 1000 25" ++ [13; 10].
Definition mixtcp : prog ending :=
  main_tcp isc (Z.to_nat 200) (repeat 0 (Z.to_nat 257)) (repeat 0 (Z.to_nat 129)) mixenv false (vec (bs "tlswrapper-tcp" :: mixwords)).
Definition mixinfo : info := mkinfo [32;1;13;184;0;0;0;0;0;0;0;0;0;0;0;1] [0; 25] (v4prefix ++ [192; 0; 2; 1]) [3; 232].
Theorem C101_mixed_refuted : exists x, passes isc x /\ known isc x /\ switched 80 x /\ sent 8 (l_calls x) = mixline ++ bs "hello" /\
  forall y, switched 112 y -> joined x y -> ~ passes isc y.
Proof.
  destruct (perform_show _ _ tkernel (Z.to_nat 600) (mkos 3 500 [reply1] [(0, [bs "hello"]); (7, [bs "world"])] (-1)) mixtcp
    (fun tr o => fair [0; 1; 2] tr && forallb honestb tr && same (sent 8 tr) (mixline ++ bs "hello"))) as (tr & o & R & LE & Q).
  { vm_compute. reflexivity. }
  rewrite !andb_true_iff in Q. destruct Q as [[Q1 Q5] Q2]. destruct (fair_ok _ _ LE Q1) as (K & O & L' & E). apply same_true in Q2.
  assert (FW : Forall2 points mixwords (vec mixwords)) by (repeat apply Forall2_cons; try apply Forall2_nil; (split; [repeat constructor|exists []; reflexivity])).
  assert (TL : exists l host port t k, tcp_line mixwords l host port t k /\ In (bs "1") (args 80 l) /\ ~ In (bs "1") (args 112 l)).
  { destruct (C77_exact (hd [] (vec [bs "tlswrapper-tcp"])) mixwords (vec mixwords) FW) as (r & EC & HC).
    vm_compute in EC. injection EC as <-. destruct HC as (l & host & port & T & SE & _). exists l, host, port. eexists. eexists. split; [exact T|]. split; [apply (ts_ppout _ _ SE); reflexivity|].
    intros X. apply (ts_ppin _ _ SE) in X. discriminate. }
  destruct TL as (l & host & port & t & k & TL & A & NA).
  assert (ES : env_says isc mixenv mixinfo).
  { exists (bs "2001:db8::1"), (bs "25"), (bs "192.0.2.1"), (bs "1000"). split; [reflexivity|]. split; [right; split; vm_compute; reflexivity|]. split; [reflexivity|].
    split; [exists 0, 25; unfold is_byte; do 3 (split; [first [reflexivity|lia]|]); split; [right; exists 50, [53]; split; [reflexivity|]; split; [lia|repeat (constructor; [unfold digit; lia|]); constructor]|reflexivity]|]. split; [reflexivity|]. split; [left; exists [192; 0; 2; 1]; split; vm_compute; reflexivity|]. split; [reflexivity|].
    exists 3, 232; unfold is_byte; do 3 (split; [first [reflexivity|lia]|]); split; [right; exists 49, [48; 48; 48]; split; [reflexivity|]; split; [lia|repeat (constructor; [unfold digit; lia|]); constructor]|reflexivity]. }
  assert (EN : strings mixenv) by (repeat constructor; discriminate).
  assert (P : passes isc (mkleg mixwords mixenv false tr)).
  { exists (Z.to_nat 200), (repeat 0 (Z.to_nat 257)), (repeat 0 (Z.to_nat 129)), (hd [] (vec [bs "tlswrapper-tcp"])), (vec mixwords), [0; 1; 2], L', o. cbn [l_words l_env l_nojail l_calls].
    split; [exact EN|]. split; [exact FW|].
    split; [split; [repeat constructor; cbn; lia|repeat constructor; lia]|]. split; [cbn; auto|]. split; [cbn; auto|]. split; [exact R|]. split; [exact E|]. split; [exact K|].
    split; [apply Forall_forall; intros e X; apply honestb_ok; rewrite forallb_forall in Q5; auto|]. split; [exact O|]. intros W. rewrite (silent 8 tr W) in Q2. discriminate. }
  exists (mkleg mixwords mixenv false tr). split; [exact P|]. assert (KN : known isc (mkleg mixwords mixenv false tr)) by (right; left; exists mixinfo; exact ES). split; [exact KN|].
  assert (S1 : switched 80 (mkleg mixwords mixenv false tr)) by (exists l, host, port, t, k; auto). split; [exact S1|]. split; [exact Q2|]. intros y S2 J.
  destruct (stage_of isc isc_ok _ P) as (_ & t0 & u & i & h & ri & ro & ST). apply (C101_mixed isc isc_ok _ y _ _ _ _ _ _ ST KN); auto.
  destruct ST as (px & wx & PX & _ & _ & LEA & _). destruct px.
  { exfalso. apply NA. eapply (switched_iff 112 (mkleg mixwords mixenv false tr)); [exact TL|]. apply PX. reflexivity. }
  cbn [learned l_env] in LEA. destruct LEA as [_ [(a & b & c & d & G1 & T1 & _ & _ & G2 & T2 & _)|(NE & _)]]; [|destruct (NE _ ES)].
  vm_compute in G1. injection G1 as <-. vm_compute in G2. injection G2 as <-.
  destruct T1 as [(q & T1 & _)|[_ T1]]; [vm_compute in T1; discriminate|]. vm_compute in T1. injection T1 as T1. match type of T1 with ?v = _ => change (v = localip i) in T1 end.
  destruct T2 as [(q & T2 & E2)|[T2 _]]; [|vm_compute in T2; discriminate]. rewrite <- T1, E2. intros [_ X]. specialize (X eq_refl). discriminate.
Qed.
Print Assumptions C101_mixed_refuted.
