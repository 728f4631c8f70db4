(** C102: tlswrapper that starts a tlswrapper-tcp, with a row of tlswrapper-tcp and another tlswrapper behind it. *)
From Verif.Model Require Import Base Sys Io Str Inet InetIsc Config Parsenum Fdio Relay Session Tlsphase Jail Pem Keyjail Proxy Conninfo Options Conn Resolve Main Getopt Lookup Tcpmain.
From Verif.Spec Require Import Text Num Ip Stream Settings Cmdline Words Proxy Flow Restrict Process Fdtable Endpoints Tlsrelay Program Resolver Forward.
From Verif.Proof Require Import Tac SysP CallsP StrP IoP ConfigP OptionsP PlayP PerformP SafeP MainCallsP MainP ChildP DescP ToldP ProxyP InetIscP.
From Verif.Props Require Import PropJail PropOptions PropCommands PropConninfo PropTcpmain PropForward PropChain PropTlsphase PropMain PropDesc PropProgram PropChainMain.

(** ** The environment a process leaves to the program it executes *)
Definition sets_var (n v : list Z) (e : event) : Prop := fst e = Other (bs "setenv") [] (n ++ 61 :: v).
(** A variable has the value that the last call for it stored. *)
Definition inherits (tr : trace) (env : environment) : Prop :=
  forall t1 e t2 n v, tr = t1 ++ e :: t2 -> ~ In 61 n -> sets_var n v e -> ret (snd e) <> -1 ->
    (forall e' w, In e' t2 -> ~ sets_var n w e') -> getenv env n = Some v.
(** There was memory for all variables. *)
Definition stores (tr : trace) : Prop := forall e, In e tr -> calling (bs "setenv") e = true -> ret (snd e) <> -1.

Lemma ip_text_one : forall I s a b, ip_text I s a -> ip_text I s b -> a = b.
Proof. intros I s a b [(q & A1 & ->)|[A1 A2]] [(r & B1 & ->)|[B1 B2]]; congruence. Qed.
Lemma port_text_one : forall s a b, port_text s a -> port_text s b -> a = b.
Proof. intros s a b (p0 & p1 & -> & A1 & A2 & _ & A3) (q0 & q1 & -> & B1 & B2 & _ & B3). unfold is_byte in *. f_equal; [|f_equal]; lia. Qed.
Lemma env_says_one : forall I env i j, env_says I env i -> env_says I env j -> i = j.
Proof.
  intros I env [a b c d] [a' b' c' d'] (w & x & y & z & G1 & T1 & G2 & T2 & G3 & T3 & G4 & T4) (w' & x' & y' & z' & G1' & T1' & G2' & T2' & G3' & T3' & G4' & T4'). cbn [localip localport remoteip remoteport] in *.
  assert (w' = w) as -> by congruence. assert (x' = x) as -> by congruence. assert (y' = y) as -> by congruence. assert (z' = z) as -> by congruence.
  f_equal; eauto using ip_text_one, port_text_one.
Qed.
Lemma var_split : forall (n m : list Z) v w, ~ In 61 n -> ~ In 61 m -> n ++ 61 :: v = m ++ 61 :: w -> n = m /\ v = w.
Proof.
  intros n m v w N M E. assert (F : forall z : list Z, ~ In 61 z -> Forall (fun c => ~ 61 = c) z) by (intros z Z; apply Forall_forall; intros c C <-; auto).
  destruct (split_unique (fun c => 61 = c) n 61 v m 61 w) as (A & _ & B); auto.
Qed.
(** After the variables of the connection, nothing sets one of them. *)
Definition unset (e : event) : Prop := forall n v, ~ sets_var n v e.
Lemma lowered_unset : forall a t, lowered a t -> Forall unset t.
Proof.
  assert (X : forall q a, (forall n v, q <> Other (bs "setenv") [] (n ++ 61 :: v)) -> unset (q, a)) by (intros q a H n v E; exact (H n v E)).
  assert (Y : forall s n v, ~ In 61 (bs s) -> Other (bs "setenv") [] (bs s) <> Other (bs "setenv") [] (n ++ 61 :: v)).
  { intros s n v N E. injection E as E. apply N. rewrite E. apply in_or_app. right. left. reflexivity. }
  assert (CP : forall r m t, capped r m t -> Forall unset t).
  { intros r m t C. destruct C; repeat constructor; apply X; discriminate. }
  intros a t (e & uid & gid & steps & t1 & t2 & -> & ID & D & C1 & C2). constructor.
  - inversion ID; subst; apply X; discriminate.
  - apply Forall_app. split; [|apply Forall_app; split; eauto].
    cbn [restrictions app] in D. unfold restrictions in D. cbn [app] in D.
    repeat match goal with H : Forall2 done (_ :: _) _ |- _ => let e := fresh in let s := fresh in let K := fresh in inversion H as [|? e ? s K ?]; subst; clear H; constructor; [destruct K as [K _]; destruct e as [q b]; cbn [fst] in K; subst q; apply X; intros n v; first [discriminate|apply Y; cbn; intuition discriminate]|] end.
    match goal with H : Forall2 done [] _ |- _ => inversion H end. constructor.
Qed.

Section Through.
Variable I : inet.
Hypothesis OK : inet_ok I.

(** Both processes of a tlswrapper: what the program's process takes from its pipe is what the other one wrote. *)
Definition serves (env : environment) (words : list (list Z)) (trw trc : trace) (v : list (list Z)) : Prop :=
  exists stream fuel junk portbuf line0 key0 nojail T P R name argv out,
    length junk = 256%nat /\ length portbuf = 6%nat /\ Endpoints.strings env /\ start_table T /\ Forall2 points words argv /\
    runs (main_tlswrapper I stream fuel junk portbuf line0 key0 env nojail (name :: argv)) trw out /\
    original trw /\ legal trw /\ kernel_fds T trw /\ always (engine_ok P R) trw /\
    runs (main_tlswrapper I stream fuel junk portbuf line0 key0 env nojail (name :: argv)) trc (Fin (Exec v)) /\
    legal trc /\ pids trc /\ kernel_fds T trc /\ is_prefix (taken T (ReadEnd 1) trc) (written T (WriteEnd 1) trw).

(** The program's environment says what tlswrapper found out about its connection. *)
Theorem C102_inherits : forall env words trw trc v, serves env words trw trc v -> stores trc ->
  exists l prg th hh t i, Cmdline.accepted words l prg th hh t /\ v = prg /\ observed I env (proxied l) trw i /\
    forall env', inherits trc env' -> env_says I env' i.
Proof.
  intros env words trw trc v (stream & fuel & junk & portbuf & line0 & key0 & nojail & T & P & R & name & argv & out & JU & PO & EN & ST & F & R1 & O & L1 & K1 & E1 & R2 & L2 & PI & K2 & PR) SV.
  destruct (C11_account I stream fuel junk portbuf line0 key0 env nojail OK JU PO T P R EN ST name words argv trw out trc v F R1 O L1 K1 E1 R2 L2 PI K2 PR)
    as (t0 & t1 & t2 & t3 & l & prg & th & hh & i & r & d1 & d2 & TR & A & V & H & OB & _).
  exists l, prg, th, hh, t1, i. split; [exact A|]. split; [exact V|]. split; [exact OB|]. intros env' IH.
  destruct (ho_trace _ _ _ _ _ _ _ _ _ H) as (tinfo & tenv & trec & sigs & z & T3 & _ & _ & _ & TE & RD & _ & SG).
  destruct TE as (a & b & c & d & X1 & X2 & X3 & X4 & SS). unfold stored in SS.
  inversion SS as [|? e1 ? u1 S1 SS1]; subst. inversion SS1 as [|? e2 ? u2 S2 SS2]; subst. inversion SS2 as [|? e3 ? u3 S3 SS3]; subst. inversion SS3 as [|? e4 ? u4 S4 SS4]; subst. inversion SS4; subst. cbn [fst snd] in S1, S2, S3, S4.
  set (after := trec ++ d1 ++ d2 ++ sigs ++ [(Other (bs "execvp") [] (hd [] prg), z)]) in *.
  assert (UN : Forall unset after).
  { unfold after. repeat (apply Forall_app; split).
    - eapply Forall_impl; [|exact RD]. intros e (n & E) m w Y. unfold sets_var in Y. congruence.
    - destruct (ho_cert _ _ _ _ _ _ _ _ _ H) as [(_ & _ & LO)|(_ & ->)]; [eapply lowered_unset; eauto|constructor].
    - pose proof (ho_user _ _ _ _ _ _ _ _ _ H) as HU. destruct (last_arg 117 l); [eapply lowered_unset; eauto|rewrite HU; constructor].
    - apply Forall_forall. intros e IN m w Y. apply (in_map fst) in IN. rewrite SG in IN. unfold sets_var in Y. rewrite Y in IN. cbn [In] in IN. intuition discriminate.
    - constructor; [intros m w Y; discriminate|constructor]. }
  set (pre := t0 ++ t1 ++ t2 ++ tinfo).
  assert (TRC : t0 ++ t1 ++ t2 ++ tinfo ++ [e1; e2; e3; e4] ++ after = pre ++ e1 :: e2 :: e3 :: e4 :: after) by (unfold pre; rewrite <- !app_assoc; reflexivity).
  assert (SV' : stores (pre ++ e1 :: e2 :: e3 :: e4 :: after)) by (rewrite <- TRC; exact SV). assert (IH' : inherits (pre ++ e1 :: e2 :: e3 :: e4 :: after) env') by (rewrite <- TRC; exact IH).
  assert (SO : forall e, In e [e1; e2; e3; e4] -> ret (snd e) <> -1).
  { intros e IN. apply SV'; [apply in_or_app; right; change (In e ([e1; e2; e3; e4] ++ after)); apply in_or_app; left; exact IN|].
    cbn [In] in IN. unfold calling. destruct IN as [<-|[<-|[<-|[<-|[]]]]]; [rewrite S1|rewrite S2|rewrite S3|rewrite S4]; reflexivity. }
  assert (NV : forall n m v w e, ~ In 61 n -> ~ In 61 m -> n <> m -> fst e = Other (bs "setenv") [] (n ++ 61 :: v) -> ~ sets_var m w e).
  { intros n m v w e N M D E Y. unfold sets_var in Y. rewrite E in Y. injection Y as Y. apply var_split in Y as [Y _]; auto. }
  assert (QU : ~ In 61 (bs "TCPREMOTEIP") /\ ~ In 61 (bs "TCPREMOTEPORT") /\ ~ In 61 (bs "TCPLOCALIP") /\ ~ In 61 (bs "TCPLOCALPORT")) by (cbn; intuition discriminate).
  destruct QU as (Q1 & Q2 & Q3 & Q4). rewrite Forall_forall in UN.
  assert (G1 : getenv env' (bs "TCPREMOTEIP") = Some c).
  { apply (IH' pre e1 (e2 :: e3 :: e4 :: after)); auto; [apply SO; cbn; auto|]. intros e' w [<-|[<-|[<-|IN]]]; [eapply (NV (bs "TCPREMOTEPORT")); eauto; discriminate|eapply (NV (bs "TCPLOCALIP")); eauto; discriminate|eapply (NV (bs "TCPLOCALPORT")); eauto; discriminate|apply UN; exact IN]. }
  assert (G2 : getenv env' (bs "TCPREMOTEPORT") = Some d).
  { apply (IH' (pre ++ [e1]) e2 (e3 :: e4 :: after)); auto; [rewrite <- app_assoc; reflexivity|apply SO; cbn; auto|]. intros e' w [<-|[<-|IN]]; [eapply (NV (bs "TCPLOCALIP")); eauto; discriminate|eapply (NV (bs "TCPLOCALPORT")); eauto; discriminate|apply UN; exact IN]. }
  assert (G3 : getenv env' (bs "TCPLOCALIP") = Some a).
  { apply (IH' (pre ++ [e1; e2]) e3 (e4 :: after)); auto; [rewrite <- app_assoc; reflexivity|apply SO; cbn; auto|]. intros e' w [<-|IN]; [eapply (NV (bs "TCPLOCALPORT")); eauto; discriminate|apply UN; exact IN]. }
  assert (G4 : getenv env' (bs "TCPLOCALPORT") = Some b).
  { apply (IH' (pre ++ [e1; e2; e3]) e4 after); auto; [rewrite <- app_assoc; reflexivity|apply SO; cbn; auto|]. intros e' w IN. apply UN. exact IN. }
  exists a, b, c, d. auto 10.
Qed.

(** A tlswrapper-tcp without -p 1 in this environment learns these ends. *)
Lemma learns_env : forall x t0 u i j h ri ro, stage I x t0 u j h ri ro -> ~ switched 112 x -> env_says I (l_env x) i -> j = i.
Proof.
  intros x t0 u i j h ri ro (px & wx & P1 & _ & _ & LE & _) NS ES. destruct px; [destruct NS; apply P1; reflexivity|]. cbn [learned] in LE.
  destruct LE as [_ [E|(NE & _)]]; [eapply env_says_one; eauto|destruct (NE _ ES)].
Qed.

(** tlswrapper executes [x], a tlswrapper-tcp without -p 1, which is the first of a row: everyone in the row learns what
    the tlswrapper found out, and the program of a tlswrapper with -p 1 behind the row is told so. *)
Theorem C102_row : forall env words trw trc v x l, serves env words trw trc v -> stores trc -> inherits trc (l_env x) ->
  passes I x -> ~ switched 112 x -> Forall (passes I) l -> row x l ->
  exists o prg th hh t i, Cmdline.accepted words o prg th hh t /\ observed I env (proxied o) trw i /\
    Forall (fun y => exists t0 u j h ri ro, stage I y t0 u j h ri ro /\ j = i) (x :: l).
Proof.
  intros env words trw trc v x l SE SV IH PX NS PL RW. destruct (C102_inherits _ _ _ _ _ SE SV) as (o & prg & th & hh & t & i & A & _ & OB & ES). specialize (ES _ IH).
  exists o, prg, th, hh, t, i. split; [exact A|]. split; [exact OB|].
  assert (KN : known I x) by (right; left; eauto). destruct (C101_chain I OK x l PX PL RW KN) as (t0 & u & j & h & ri & ro & ST & FA).
  assert (E : j = i) by (eapply learns_env; eauto). subst j. constructor; [exists t0, u, i, h, ri, ro; auto|].
  eapply Forall_impl; [|exact FA]. intros y (t0' & u' & i' & h' & ri' & ro' & ST' & EI & _). exists t0', u', i', h', ri', ro'. split; [exact ST'|]. apply ends_inj. exact EI.
Qed.
Theorem C102_through : forall env words trw trc v x l env' words' trw' trc' v', serves env words trw trc v -> stores trc -> inherits trc (l_env x) ->
  passes I x -> ~ switched 112 x -> Forall (passes I) l -> row x l -> switched 80 (last l x) ->
  serves env' words' trw' trc' v' -> feeds (last l x) trw' -> (exists o prg th hh t, Cmdline.accepted words' o prg th hh t /\ In (bs "1") (args 112 o)) ->
  exists o prg th hh t i t1 tenv t2, Cmdline.accepted words o prg th hh t /\ observed I env (proxied o) trw i /\
    trc' = t1 ++ tenv ++ t2 /\ told_env I i tenv.
Proof.
  intros env words trw trc v x l env' words' trw' trc' v' SE SV IH PX NS PL RW SL SE' FD PP.
  destruct (C102_inherits _ _ _ _ _ SE SV) as (o & prg & th & hh & t & i & A & _ & OB & ES). specialize (ES _ IH).
  assert (KN : known I x) by (right; left; eauto).
  destruct SE' as (stream & fuel & junk & portbuf & line0 & key0 & nojail & T & P & R & name & argv & out & JU & PO & EN & ST & F & R1 & O & L1 & K1 & E1 & R2 & L2 & PI & K2 & PR).
  destruct (C101_program I stream fuel junk portbuf line0 key0 env' nojail OK JU PO T P R EN ST x l PX PL RW KN SL name words' argv trw' out trc' v' F R1 O L1 K1 E1 R2 L2 PI K2 PR PP FD)
    as (t0 & u & j & h & ri & ro & t1 & tenv & t2 & SX & TR & TE).
  assert (E : j = i) by (eapply learns_env; eauto). subst j. exists o, prg, th, hh, t, i, t1, tenv, t2. auto.
Qed.
End Through.
Print Assumptions C102_inherits.
Print Assumptions C102_row.
Print Assumptions C102_through.

(** ** Example: tlswrapper -p 1 executes tlswrapper-tcp -P 1 host 25; behind it tlswrapper-tcp -p 1 -P 1 host 25 and tlswrapper -p 1 *)
Definition tenv : environment :=
  [(bs "TCPREMOTEIP", bs "192.0.2.1"); (bs "TCPREMOTEPORT", bs "1000"); (bs "TCPLOCALIP", bs "192.0.2.2"); (bs "TCPLOCALPORT", bs "25")].
Definition inheritsb (tr : trace) : bool :=
  forallb (fun e => match fst e with Other n [] d => negb (same n (bs "setenv")) || existsb (fun p => same d (fst p ++ 61 :: snd p)) tenv | _ => true end) tr.
Definition storesb (tr : trace) : bool := forallb (fun e => negb (calling (bs "setenv") e) || negb (ret (snd e) =? -1)) tr.
Lemma inheritsb_ok : forall tr, inheritsb tr = true -> inherits tr tenv.
Proof.
  intros tr H t1 e t2 n v -> N S _ _. unfold inheritsb in H. rewrite forallb_forall in H. specialize (H e). unfold sets_var in S. rewrite S in H.
  assert (X : existsb (fun p => same (n ++ 61 :: v) (fst p ++ 61 :: snd p)) tenv = true) by (apply H; apply in_or_app; right; left; reflexivity).
  apply existsb_exists in X as ([m w] & IN & X). apply same_true in X. cbn [fst snd] in X.
  assert (M : ~ In 61 m) by (cbn [tenv In] in IN; destruct IN as [E|[E|[E|[E|[]]]]]; injection E as <- <-; cbn; intuition discriminate).
  apply var_split in X as [-> ->]; auto. cbn [tenv In] in IN. destruct IN as [E|[E|[E|[E|[]]]]]; injection E as <- <-; reflexivity.
Qed.
Definition program_t (tr : trace) (o : outcome ending) : bool := program_p tr o && inheritsb tr && storesb tr.
Definition tcptenv : prog ending :=
  main_tcp isc (Z.to_nat 200) (repeat 0 (Z.to_nat 257)) (repeat 0 (Z.to_nat 129)) tenv false (vec (bs "tlswrapper-tcp" :: mixwords)).
Lemma ex_first : exists trw trc v, serves isc [] pwords trw trc v /\ stores trc /\ inherits trc tenv /\ got 0 trw = proxyline /\ exists a, In (Other (bs "setenv") [] (bs "TCPREMOTEIP=192.0.2.1"), a) trc.
Proof.
  destruct (perform_show _ _ kernel3 (Z.to_nat 600) (start4 [500; 501] [(0, map (fun c => [c]) proxyline)]) (wrapper false pwords) wrapper_p) as (trw & ow & R1 & L1 & H1); [vm_compute; reflexivity|].
  destruct (perform_show _ _ kernel3 (Z.to_nat 600) (start4 [0] [(0, PropProgram.pieces pinfo)]) (wrapper false pwords) program_t) as (trc & oc & R2 & L2 & H2); [vm_compute; reflexivity|].
  unfold program_t in H2. apply andb_prop in H2 as [H2 H4]. apply andb_prop in H2 as [H2 H3].
  unfold wrapper_p, agree_p in H1. unfold program_p, agree_p in H2. destruct oc as [[c|v]| |]; try discriminate. rewrite !andb_true_iff in H1. rewrite !andb_true_iff in H2. destruct H1 as [[[[K1 W1] F1] E1] G1]. destruct H2 as [[[K2 W2] P2] X2].
  apply same_true in W1, W2, F1, G1. exists trw, trc, v. split; [|split; [|split; [apply inheritsb_ok; exact H3|split; [exact G1|]]]].
  - exists (fun _ _ _ => 0), (Z.to_nat 200), (repeat 0 (Z.to_nat 256)), (repeat 0 6), [], [], false, T3, [], [], (bs "tlswrapper" ++ [0]), (vec pwords), ow.
    split; [reflexivity|]. split; [reflexivity|]. split; [constructor|]. split; [exact T3_start|]. split; [exact pwords_ok|]. split; [exact R1|]. split; [unfold original; rewrite F1; cbn; intuition discriminate|]. split; [exact L1|]. split; [apply answersb_ok; exact K1|].
    split; [intros t1 e t2 E; apply (always_b_ok _ _ (engine_b_ok _ _) trw [] E1 t1 e t2 E)|]. split; [exact R2|]. split; [exact L2|]. split; [|split; [apply answersb_ok; exact K2|exists []; rewrite W1, W2, app_nil_r; reflexivity]].
    intros a IN. rewrite forallb_forall in P2. specialize (P2 _ IN). cbn in P2. lia.
  - intros e IN CE. unfold storesb in H4. rewrite forallb_forall in H4. specialize (H4 _ IN). rewrite CE in H4. cbn [negb orb] in H4. lia.
  - apply existsb_exists in X2 as ([q a] & IN & E). cbn [fst] in E. destruct q as [| | | | | | | |n [|] d]; try discriminate. apply andb_prop in E as [E1' E2']. apply same_true in E1', E2'. subst. eauto.
Qed.
Lemma ex_second : exists x, passes isc x /\ ~ switched 112 x /\ switched 80 x /\ l_env x = tenv /\ (forall ri ro, connected (l_calls x) ri ro -> ri = 7 /\ ro = 8) /\
  sent 8 (l_calls x) = proxyline ++ bs "hello" /\ got 7 (l_calls x) = bs "world".
Proof.
  destruct (perform_show _ _ tkernel (Z.to_nat 600) (PropTcpmain.mkos 3 500 [reply1] [(0, [bs "hello"]); (7, [bs "world"])] (-1)) tcptenv
    (fun tr o => fair [0; 1; 2] tr && forallb honestb tr && forallb nowire tr && same (sent 8 tr) (proxyline ++ bs "hello") && same (got 7 tr) (bs "world"))) as (tr & o & R & LE & Q).
  { vm_compute. reflexivity. }
  rewrite !andb_true_iff in Q. destruct Q as [[[[Q1 Q5] Q2] Q4] Q6]. destruct (fair_ok _ _ LE Q1) as (K & O & L' & E). apply same_true in Q4, Q6.
  assert (FW : Forall2 points mixwords (vec mixwords)) by (repeat apply Forall2_cons; try apply Forall2_nil; (split; [repeat constructor|exists []; reflexivity])).
  assert (TL : exists l host port t k, tcp_line mixwords l host port t k /\ In (bs "1") (args 80 l) /\ ~ In (bs "1") (args 112 l)).
  { destruct (C77_exact (hd [] (vec [bs "tlswrapper-tcp"])) mixwords (vec mixwords) FW) as (r & EC & HC).
    vm_compute in EC. injection EC as <-. destruct HC as (l & host & port & T & SE & _). exists l, host, port. eexists. eexists. split; [exact T|]. split; [apply (ts_ppout _ _ SE); reflexivity|].
    intros X. apply (ts_ppin _ _ SE) in X. discriminate. }
  destruct TL as (l & host & port & t & k & TL & A & NA).
  exists (mkleg mixwords tenv false tr). split; [|split; [|split; [exists l, host, port, t, k; auto|split; [reflexivity|split; [|auto]]]]].
  - exists (Z.to_nat 200), (repeat 0 (Z.to_nat 257)), (repeat 0 (Z.to_nat 129)), (hd [] (vec [bs "tlswrapper-tcp"])), (vec mixwords), [0; 1; 2], L', o. cbn [l_words l_env l_nojail l_calls].
    split; [repeat constructor; discriminate|]. split; [exact FW|].
    split; [split; [repeat constructor; cbn; lia|repeat constructor; lia]|]. split; [cbn; auto|]. split; [cbn; auto|]. split; [exact R|]. split; [exact E|]. split; [exact K|].
    split; [apply Forall_forall; intros e X; apply honestb_ok; rewrite forallb_forall in Q5; auto|]. split; [exact O|]. intros W. rewrite (silent 8 tr W) in Q4. discriminate.
  - intros S. apply NA. exact (proj1 (switched_iff 112 (mkleg mixwords tenv false tr) l host port t k TL) S).
  - cbn [l_calls]. intros ri ro (cs & pt & (c & a & _ & X & _) & (b & Y & <-)). rewrite forallb_forall in Q2. apply Q2 in X, Y. unfold nowire in X, Y.
    apply andb_prop in X as [X _]. apply andb_prop in Y as [_ Y]. change (same (bs "connect") (bs "connect")) with true in X. change (same (bs "dup") (bs "dup")) with true in Y. cbn [negb orb] in X, Y.
    apply same_true in X. injection X as ->. split; [reflexivity|lia].
Qed.
Example ex_through : exists trw trc v x y trw' trc' v', serves isc [] pwords trw trc v /\ stores trc /\ inherits trc (l_env x) /\
  passes isc x /\ ~ switched 112 x /\ Forall (passes isc) [y] /\ row x [y] /\ switched 80 y /\ serves isc [] pwords trw' trc' v' /\ feeds y trw' /\
  (exists o prg th hh t, Cmdline.accepted pwords o prg th hh t /\ In (bs "1") (args 112 o)) /\
  exists a, In (Other (bs "setenv") [] (bs "TCPREMOTEIP=192.0.2.1"), a) trc'.
Proof.
  destruct ex_first as (trw & trc & v & SE & SO & IH & G & ST). destruct ex_second as (x & PX & N & S & EN & C & S8 & G7).
  destruct ex_chain as (y & PY & RW & _ & CY & G0 & S8' & S1). destruct ex_behind as (_ & _ & _ & _ & _ & _ & _ & _ & _ & _ & AC & _).
  cbn [row] in RW. destruct RW as (A1 & A2 & _). exists trw, trc, v, x, y, trw, trc, v.
  split; [exact SE|]. split; [exact SO|]. split; [rewrite EN; exact IH|]. split; [exact PX|]. split; [exact N|]. split; [auto|].
  split; [cbn [row]; split; [exact S|]; split; [exact A2|]; split; [|exact Logic.I]; intros ri ro CO; destruct (C _ _ CO) as [-> ->]; rewrite G0, S8, G7, S1; split; exists []; rewrite app_nil_r; reflexivity|].
  split; [exact A1|]. split; [exact SE|]. split; [intros ri ro CO; destruct (CY _ _ CO) as [_ ->]; rewrite G, S8'; eexists; reflexivity|]. split; [exact AC|exact ST].
Qed.

(** Without [stores] it is false: tlswrapper, started with the variables of another connection, reads the PROXY line of this
    one, has no memory for the variables, and executes the program with the old ones. *)
Definition oldenv : environment :=
  [(bs "TCPREMOTEIP", bs "127.0.0.1"); (bs "TCPREMOTEPORT", bs "1000"); (bs "TCPLOCALIP", bs "127.0.0.1"); (bs "TCPLOCALPORT", bs "25")].
Definition oldinfo : info := mkinfo (v4prefix ++ [127; 0; 0; 1]) [0; 25] (v4prefix ++ [127; 0; 0; 1]) [3; 232].
Definition kernel5 (s : os3) (c : sys) : ans * os3 :=
  let '(a, r) := kernel3 s c in
  (match c with Other n _ _ => if same n (bs "setenv") then mkans (-1) 12 [] else a | _ => a end, r).
Definition oldwrapper : prog ending :=
  main_tlswrapper isc (fun _ _ _ => 0) (Z.to_nat 200) (repeat 0 (Z.to_nat 256)) (repeat 0 6) [] [] oldenv false (vec (bs "tlswrapper" :: pwords)).
Definition program_o (tr : trace) (o : outcome ending) : bool :=
  match o with Fin (Exec _) => agree_p (taken T3 (ReadEnd 1) tr) tr && forallb (fun e => match e with (Other n [] [], a) => negb (same n (bs "getpid")) || (0 <=? ret a) | _ => true end) tr &&
    forallb (fun e => negb (calling (bs "setenv") e) || (ret (snd e) =? -1)) tr | _ => false end.
Theorem C102_stores_refuted : exists env words trw trc v l prg th hh t, serves isc env words trw trc v /\ inherits trc env /\
  Cmdline.accepted words l prg th hh t /\ exists j, env_says isc env j /\ forall i, observed isc env (proxied l) trw i -> i <> j.
Proof.
  destruct (perform_show _ _ kernel5 (Z.to_nat 600) (start4 [500; 501] [(0, map (fun c => [c]) proxyline)]) oldwrapper wrapper_p) as (trw & ow & R1 & L1 & H1); [vm_compute; reflexivity|].
  destruct (perform_show _ _ kernel5 (Z.to_nat 600) (start4 [0] [(0, PropProgram.pieces pinfo)]) oldwrapper program_o) as (trc & oc & R2 & L2 & H2); [vm_compute; reflexivity|].
  unfold wrapper_p, agree_p in H1. unfold program_o, agree_p in H2. destruct oc as [[c|v]| |]; try discriminate. rewrite !andb_true_iff in H1. rewrite !andb_true_iff in H2. destruct H1 as [[[[K1 W1] F1] E1] G1]. destruct H2 as [[[K2 W2] P2] X2].
  apply same_true in W1, W2, F1, G1. destruct ex_behind as (_ & _ & _ & _ & _ & _ & _ & _ & _ & _ & (l & prg & th & hh & t & A & P1) & _).
  exists oldenv, pwords, trw, trc, v, l, prg, th, hh, t. split; [|split; [|split; [exact A|]]].
  - exists (fun _ _ _ => 0), (Z.to_nat 200), (repeat 0 (Z.to_nat 256)), (repeat 0 6), [], [], false, T3, [], [], (bs "tlswrapper" ++ [0]), (vec pwords), ow.
    split; [reflexivity|]. split; [reflexivity|]. split; [repeat constructor; discriminate|]. split; [exact T3_start|]. split; [exact pwords_ok|]. split; [exact R1|]. split; [unfold original; rewrite F1; cbn; intuition discriminate|]. split; [exact L1|]. split; [apply answersb_ok; exact K1|].
    split; [intros t1 e t2 E; apply (always_b_ok _ _ (engine_b_ok _ _) trw [] E1 t1 e t2 E)|]. split; [exact R2|]. split; [exact L2|]. split; [|split; [apply answersb_ok; exact K2|exists []; rewrite W1, W2, app_nil_r; reflexivity]].
    intros a IN. rewrite forallb_forall in P2. specialize (P2 _ IN). cbn in P2. lia.
  - intros t1 e t2 n w -> N S X _. exfalso. rewrite forallb_forall in X2. specialize (X2 e). unfold sets_var in S. unfold calling in X2. rewrite S in X2.
    assert (Y : negb (same (bs "setenv") (bs "setenv")) || (ret (snd e) =? -1) = true) by (apply X2; apply in_or_app; right; left; reflexivity).
    change (same (bs "setenv") (bs "setenv")) with true in Y. cbn [negb orb] in Y. lia.
  - exists oldinfo. split.
    + exists (bs "127.0.0.1"), (bs "25"), (bs "127.0.0.1"), (bs "1000"). split; [reflexivity|]. split; [left; exists [127; 0; 0; 1]; split; vm_compute; reflexivity|]. split; [reflexivity|].
      split; [exists 0, 25; unfold is_byte; do 3 (split; [first [reflexivity|lia]|]); split; [right; exists 50, [53]; split; [reflexivity|]; split; [lia|repeat (constructor; [unfold digit; lia|]); constructor]|reflexivity]|].
      split; [reflexivity|]. split; [left; exists [127; 0; 0; 1]; split; vm_compute; reflexivity|]. split; [reflexivity|].
      exists 3, 232; unfold is_byte; do 3 (split; [first [reflexivity|lia]|]); split; [right; exists 49, [48; 48; 48]; split; [reflexivity|]; split; [lia|repeat (constructor; [unfold digit; lia|]); constructor]|reflexivity].
    + intros i OB ->. assert (X : proxied l = true) by (unfold proxied; destruct (in_dec _ _ _); [reflexivity|contradiction]). rewrite X in OB.
      destruct OB as (t1 & t2 & u & ET & G & NU & PP).
      assert (LI : pp_line isc proxyline (mkep (v4prefix ++ [192; 0; 2; 2]) [0; 25] (v4prefix ++ [192; 0; 2; 1]) [3; 232])).
      { apply (pp_tcp isc false (bs "192.0.2.1") (bs "192.0.2.2") (bs "1000") (bs "25") 32 32 32 13 [10]); unfold sep; auto; try (eexists; split; vm_compute; reflexivity).
        - split; [right; exists 49, [48; 48; 48]; split; [reflexivity|]; split; [lia|repeat (constructor; [unfold digit; lia|]); constructor]|]. exists 3, 232. unfold is_byte. repeat split; lia.
        - split; [right; exists 50, [53]; split; [reflexivity|]; split; [lia|repeat (constructor; [unfold digit; lia|]); constructor]|]. exists 0, 25. unfold is_byte. repeat split; lia. }
      assert (E : u ++ [10] = proxyline).
      { rewrite ET, got_app, G in G1. set (b := bs "PROXY TCP4 192.0.2.1 192.0.2.2 1000 25" ++ [13]). change proxyline with (b ++ 10 :: []) in G1. rewrite <- app_assoc in G1. cbn [app] in G1.
        assert (NB : ~ In 10 b) by (cbn; intuition discriminate).
        assert (F10 : forall z : list Z, ~ In 10 z -> Forall (fun c => ~ 10 = c) z) by (intros z Z; apply Forall_forall; intros c C <-; auto).
        destruct (split_unique (fun c => 10 = c) u 10 (got 0 t2) b 10 []) as (-> & _); auto. }
      rewrite E in PP. assert (B : bytes proxyline) by (repeat (constructor; [unfold is_byte; vm_compute; intuition discriminate|]); constructor).
      pose proof (line_unique isc proxyline _ _ _ isc_ok B (eq_sym E) PP LI) as Z. discriminate.
Qed.
Print Assumptions C102_stores_refuted.
