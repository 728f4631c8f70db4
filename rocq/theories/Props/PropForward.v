(** C80-C82: tlswrapper-tcp as a whole, from its command line to its exit. *)
From Verif.Model Require Import Base Sys Io Str Buffer Inet InetIsc Parsenum Fdio Relay Session Jail Pem Proxy Conninfo Conn Resolve Main Getopt Lookup Tcpmain.
From Verif.Spec Require Import Text Num Ip Settings Cmdline Words Proxy Program Descriptors Flow Restrict Process Endpoints Resolver Forward Blame.
From Verif.Proof Require Import Tac SysP StrP BufferP CallsP ConfigP OptionsP GetoptP PlayP PerformP SafeP MainCallsP MainP ChildP ResolveP ConnP ToldP ForwardP TcpJailP TcpmainP TcpDestP HelperP TcpHelpP.
From Verif.Props Require Import PropJail PropOptions PropCommands PropConninfo PropTcpmain.

(** What a kernel answers: as many bytes as were asked for, a clock before the year 2^62, no connection for
    descriptor -1, whole datagrams, descriptors that select can handle, and process ids that are not negative. *)
Definition kernel (tr : trace) : Prop := legal tr /\ Forall sane tr /\ Forall dgram tr /\ Forall low tr /\ pids tr.
Lemma tame_all : forall tr, kernel tr -> Forall honest tr -> original tr -> Forall tame tr.
Proof.
  intros tr (K1 & K2 & K3 & K4 & K5) H O. apply Forall_forall. intros [q a] X. unfold legal in K1. rewrite Forall_forall in *. split; [apply K1; exact X|]. split; [apply K2; exact X|]. split; [apply K3; exact X|]. split; [apply H; exact X|]. split; [apply K4; exact X|]. split.
  - intros C Z. apply O. unfold forks. apply in_map_iff. exists (q, a). split; [exact Z|]. apply filter_In. auto.
  - cbn [fst snd]. intros ->. apply K5. exact X.
Qed.

Lemma cut_app : forall (a b c d : trace) x y, a ++ x :: b = c ++ y :: d -> (exists w, a = c ++ w) \/ exists w, c = (a ++ [x]) ++ w.
Proof.
  induction a as [|z a IH]; intros b c d x y E.
  - destruct c as [|w c]; [left; exists []; reflexivity|]. cbn [app] in E. injection E as <- _. right. exists c. reflexivity.
  - destruct c as [|w c]; [left; eexists; reflexivity|]. cbn [app] in E. injection E as <- E. apply IH in E as [(q & ->)|(q & ->)]; [left; exists q; reflexivity|right; exists q; reflexivity].
Qed.

Section Tcp.
Variable I : inet.
Hypothesis OK : inet_ok I.
Variable fuel : nat.
Variables buf0 ip0 : list Z.
Variable env : environment.
Hypothesis ENV : strings env.
Variable nojail : bool.
Notation main := (main_tcp I fuel buf0 ip0 env nojail).

(** The original process, with the helper's replies: no undefined behaviour, nothing closed that is not open.  Either
    nothing is written and the program ends with 111 because a step before the relay failed, or with 100 because of its command line, the PROXY line it was
    sent or the PROXY header it cannot make; or it has connected to an address of the host and passes the two
    streams on, and ends with 0 when there is nothing more to pass on. *)
Theorem C80_forward : forall name words argv L L' tr out, Forall2 points words argv -> good L -> In 0 L -> In 1 L ->
  runs (main (name :: argv)) tr out -> fdrun L tr = Some L' -> kernel tr -> Forall honest tr -> original tr ->
  out <> Wrong /\ closes_open L tr /\
  ((Forall (fun e => wordless (fst e)) tr /\
    (out = Cut \/
     (out = Fin (Exit 111) /\ exists l host port timeout connect, tcp_line words l host port timeout connect /\
       tcp_gives_up gai_list nojail (last_arg 106 l) (given (last_arg 74 l) (bs "/var/lib/tlswrapper/empty")) host port connect tr) \/
     (out = Fin (Exit 100) /\
      ((forall l host port t c, ~ tcp_line words l host port t c) \/
       exists l host port timeout connect proxy, tcp_line words l host port timeout connect /\ (proxy = true <-> In (bs "1") (args 112 l)) /\
         ((proxy = true /\ garbled I tr) \/
          (In (bs "1") (args 80 l) /\ exists i, learned I env proxy tr i /\ headless tr i)))))) \/
   exists l host port timeout connect proxy wanted t0 u ri ro self h,
     tcp_line words l host port timeout connect /\ (proxy = true <-> In (bs "1") (args 112 l)) /\ (wanted = true <-> In (bs "1") (args 80 l)) /\
     tr = t0 ++ u /\ Forward.ready I env gai_list nojail proxy wanted host port timeout t0 ri ro self h /\ relays ri ro self h u (code out) /\
     (out = Cut \/ exists x, out = Fin (Exit x))).
Proof.
  intros name words argv L L' tr out FW GL I0 I1 R E K H O. pose proof (tame_all _ K H O) as F. clear K H O.
  destruct (C77_exact name words argv FW) as (r & EC & HC). unfold main_tcp in R. rewrite EC in R. cbn [lift] in R.
  destruct r as [c|].
  - destruct HC as (l & host & port & TL & SE & (NH & rest & HO) & PO). destruct (tcp_strings _ _ SE) as [S1 S2].
    assert (HOST : nonul host /\ thost c = host ++ 0 :: rest) by auto.
    assert (T : 1 <= tconnect c <= 86400) by (destruct (tl_connect _ _ _ _ _ _ TL) as [_ X]; exact X).
    assert (B : base [] L) by (split; [constructor|]; split; [constructor|]; auto).
    assert (RE : reach (story I env nojail c host port (last_arg 106 l) (given (last_arg 74 l) (bs "/var/lib/tlswrapper/empty"))) [] L (_ <~ signal SIGPIPE IGN ;; _ <~ randombytes 1 ;; tcp_resolve fuel buf0 ip0 nojail c (tcp_resolved I fuel env nojail c))).
    { apply reach_idle; [unfold signal, do; quick|intros ? ? RX _; exact (do_nowrong _ _ _ RX)|constructor|]. intros t1 _ _ _ T1 Q1. cbn [app] in *.
      apply reach_idle; [unfold Pem.randombytes; quick| |exact Q1|].
      - intros t o RX _. unfold Pem.randombytes in RX. destruct RX as [[_ ->]|(x & u & _ & [_ ->])]; discriminate.
      - intros t2 x _ _ T2 _. eapply resolve_reach; eauto. apply base_idle; [|exact T2]. apply (base_idle [] t1); auto. }
    destruct (RE _ _ _ R E F) as (W & C & S). cbn [app] in S. split; [exact W|]. split; [exact C|]. destruct S as [(Q & [->|[(-> & G)|(-> & S)]])|S].
    + left. auto.
    + left. split; [exact Q|]. right. left. split; [reflexivity|]. exists l, host, port, (ttimeout c), (tconnect c). auto.
    + left. split; [exact Q|]. right. right. split; [reflexivity|]. right. exists l, host, port, (ttimeout c), (tconnect c), (tppin (tset c)). split; [exact TL|]. split; [apply (ts_ppin _ _ SE)|].
      destruct S as [S|[S1' S]]; [left; exact S|right; split; [apply (ts_ppout _ _ SE); exact S1'|exact S]].
    + right. destruct S as (t0 & u & ri & ro & self & x & ET & RD & _ & RL & OU). exists l, host, port, (ttimeout c), (tconnect c), (tppin (tset c)), (tppout (tset c)), t0, u, ri, ro, self, x.
      split; [exact TL|]. split; [apply (ts_ppin _ _ SE)|]. split; [apply (ts_ppout _ _ SE)|]. auto.
  - assert (RE : forall t o, runs (_ <~ signal SIGPIPE IGN ;; Ret (Exit 100)) t o -> o = Cut \/ o = Fin (Exit 100)).
    { intros t o RX. apply runs_bind in RX as [(x & u1 & u2 & -> & R1 & [_ ->])|[[R1 ->]|[R1 ->]]]; auto. destruct (do_nowrong _ _ _ R1 eq_refl). }
    assert (C : calls idle (_ <~ signal SIGPIPE IGN ;; Ret (Exit 100))) by (unfold signal, do; quick).
    specialize (C _ _ R). destruct (inert_run tr L) as [_ CL]; [eapply Forall_impl; [|exact C]; intros e; apply idle_inert|].
    assert (Q : Forall (fun e => wordless (fst e)) tr) by (eapply Forall_impl; [|exact C]; intros e; apply idle_wordless).
    destruct (RE _ _ R) as [->| ->]; (split; [discriminate|]); (split; [exact CL|]); left; split; auto.
Qed.

(** Every connection of the original process is to an address that was given for the host, and to the port, of the
    command line. *)
Theorem C81_destination : forall name words argv tr out, Forall2 points words argv ->
  runs (main (name :: argv)) tr out -> kernel tr -> Forall honest tr -> original tr ->
  always (fun t e => calling (bs "connect") e = true -> exists l host port timeout connect cs x fd, tcp_line words l host port timeout connect /\
    answered gai_list nojail host t cs /\ In x cs /\ fst e = Other (bs "connect") [fd] (x ++ [port / 256; port mod 256])) tr.
Proof.
  intros name words argv tr out FW R K H O. pose proof (tame_all _ K H O) as F. clear K H O.
  destruct (C77_exact name words argv FW) as (r & EC & HC). unfold main_tcp in R. rewrite EC in R. cbn [lift] in R.
  destruct r as [c|].
  - destruct HC as (l & host & port & TL & SE & (NH & rest & HO) & PO).
    assert (HOST : nonul host /\ thost c = host ++ 0 :: rest) by auto.
    assert (S : sp tamed (direct nojail host port) [] (_ <~ signal SIGPIPE IGN ;; _ <~ randombytes 1 ;; tcp_resolve fuel buf0 ip0 nojail c (tcp_resolved I fuel env nojail c)) true1).
    { apply part; [unfold signal, do; quick|]. intros t1 _ _ _. apply part; [unfold Pem.randombytes; quick|]. intros t2 _ _ _. eapply resolve_dest; eauto. }
    destruct (S _ _ R) as [G _]; [intros t1 e t2 ->; apply Forall_app in F as [_ F]; inversion F; auto|].
    intros t1 e t2 ET CC. destruct (G _ _ _ ET CC) as (cs & x & fd & X). cbn [app] in X. exists l, host, port, (ttimeout c), (tconnect c), cs, x, fd. split; [exact TL|exact X].
  - intros t1 e t2 ET CC. assert (C : calls unconn (_ <~ signal SIGPIPE IGN ;; Ret (Exit 100))) by (unfold signal, do; quick).
    pose proof (C _ _ R) as FA. rewrite ET, Forall_app in FA. destruct FA as [_ FA]. inversion FA as [|? ? F1 _]; subst. destruct e as [[] a]; try discriminate. apply calling_other in CC. destruct (F1 CC).
Qed.

(** The helper, whatever it receives: no undefined behaviour, and it sends nothing but 255 or addresses. *)
Theorem C82_helper : forall argv tr out, length buf0 = 257%nat -> length ip0 = 129%nat ->
  runs (main argv) tr out -> Forall dgram tr -> pids tr -> In 0 (forks tr) ->
  out <> Wrong /\ always (fun t e => In 0 (forks t) -> forall fd b, fst e = Other (bs "send") [fd] b -> b = [255] \/ exists cs, offer cs b) tr.
Proof.
  intros argv tr out LB LI R D P Z. destruct (main_split _ _ _ _ _ _ _ _ _ R Z) as (t0 & f & s0 & s1 & t1 & -> & F0 & CF & RH).
  apply Forall_app in D as [D0 D]. inversion D as [|? ? _ D1]; subst.
  assert (P1 : pids t1) by (intros a X; apply P; apply in_or_app; right; right; exact X). destruct (helper_main_offers _ _ _ _ _ _ _ LB LI D1 P1 RH) as [W S]. split; [exact W|].
  intros u e v E IN fd b EB.
  assert (X : exists w, u = (t0 ++ [f]) ++ w).
  { clear - E F0 IN.
    apply cut_app in E as [(w & E)|E]; [|exact E]. exfalso. rewrite E, forks_app in F0. destruct (forks u); [destruct IN|discriminate]. }
  destruct X as (w & ->). rewrite <- !app_assoc in E. cbn [app] in E. apply app_inv_head in E. injection E as ->. apply Forall_app in S as [_ S]. inversion S as [|? ? S1 _]; subst. exact (S1 fd b EB).
Qed.
(** Hence what the original process receives is honest, if it was sent by a helper of the same program. *)
Theorem C82_honest : forall argv argv' tr tr' out out', length buf0 = 257%nat -> length ip0 = 129%nat ->
  runs (main argv) tr out -> runs (main argv') tr' out' -> Forall dgram tr' -> pids tr' -> In 0 (forks tr') ->
  (forall fd n a, In (Other (bs "recv") [fd; n] [], a) tr -> 0 < ret a ->
     exists t1 fd' b r t2, tr' = t1 ++ (Other (bs "send") [fd'] b, r) :: t2 /\ In 0 (forks t1) /\ data a = firstn (Z.to_nat n) b) ->
  Forall honest tr.
Proof.
  intros argv argv' tr tr' out out' LB LI R R' D P Z CH. apply Forall_forall. intros [q a] X fd n E A. cbn [fst snd] in *. subst q.
  destruct (CH fd n a X A) as (t1 & fd' & b & r & t2 & ET & Z1 & ->). destruct (C82_helper _ _ _ LB LI R' D P Z) as [_ S].
  assert (N : 256 <= n). { pose proof (main_wide I fuel buf0 ip0 env nojail argv _ _ R) as W. rewrite Forall_forall in W. apply W in X. apply X. reflexivity. }
  assert (T : forall b', b' = [255] \/ (exists cs, offer cs b') -> firstn (Z.to_nat n) b' = b').
  { intros b' [->|(cs & O1 & O2 & ->)]; apply firstn_all2; [cbn [length]; lia|]. cbn [length]. rewrite (concat_len16 cs O1). unfold len in O2. lia. }
  pose proof (S _ _ _ ET Z1 fd' b eq_refl) as G. rewrite (T b G). exact G.
Qed.
End Tcp.
Print Assumptions C80_forward.
Print Assumptions C81_destination.
Print Assumptions C82_helper.
Print Assumptions C82_honest.

(** ** Examples *)
Definition saneb (e : event) : bool :=
  match e with
  | (Time, a) => (0 <=? ret a) && (ret a <=? 2 ^ 62)
  | (Other n [f] _, a) => negb (same n (bs "connect")) || negb (f =? -1) || negb (ret a =? 0)
  | _ => true
  end.
Definition dgramb (e : event) : bool :=
  match e with
  | (Other n [f] b, a) => negb (same n (bs "send")) || (ret a =? -1) || (ret a =? len b)
  | (Other n [f; m] _, a) => negb (same n (bs "recv")) || (ret a =? -1) || ((ret a =? len (data a)) && (ret a <=? m))
  | _ => true
  end.
Definition lowb (e : event) : bool :=
  match e with
  | (Other n _ _, a) => (negb (same n (bs "socket") || same n (bs "dup")) || (ret a <? 1024)) &&
      (negb (same n (bs "pipe") || same n (bs "socketpair")) || ((nth 0 (data a) 0 <? 1024) && (nth 1 (data a) 0 <? 1024)))
  | _ => true
  end.
Fixpoint pieces (n : nat) (l : list Z) : list (list Z) := match n with O => [] | S n => firstn 16 l :: pieces n (skipn 16 l) end.
Definition honestb (e : event) : bool :=
  match e with
  | (Other n [f; m] [], a) => negb (same n (bs "recv")) || (ret a <=? 0) ||
     match data a with
     | [] => false
     | x :: l => (x =? 255) && (len l =? 0) || ((x mod 16 =? 0) && (0 <=? x) && (x <=? 128) && (len l =? x))
     end
  | _ => true
  end.
Lemma pieces_ok : forall n l, length l = (16 * n)%nat -> Forall Resolver.addr (pieces n l) /\ length (pieces n l) = n /\ concat (pieces n l) = l.
Proof.
  induction n as [|n IH]; intros l L; cbn [pieces]; [destruct l; [auto|discriminate]|]. destruct (IH (skipn 16 l)) as (A & B & C); [rewrite skipn_length; lia|].
  split; [constructor; [unfold Resolver.addr; rewrite firstn_length; lia|exact A]|]. split; [cbn [length]; congruence|]. cbn [concat]. rewrite C. apply firstn_skipn.
Qed.
Lemma same_bs : forall n k, same n (bs k) = false -> n <> bs k.
Proof. intros n k H ->. unfold same in H. destruct (list_eq_dec _ _ _); congruence. Qed.
Lemma honestb_ok : forall e, honestb e = true -> honest e.
Proof.
  intros [q a] H fd n E A. cbn [fst snd] in *. subst q. unfold honestb in H. replace (same (bs "recv") (bs "recv")) with true in H by reflexivity. cbn [negb orb] in H. destruct (Z.leb_spec (ret a) 0); [lia|]. cbn [orb] in H.
  destruct (data a) as [|x l]; [discriminate|]. apply orb_true_iff in H as [H|H].
  - left. pose proof (len_nonneg _ l). destruct l as [|y l]; [f_equal; lia|]. rewrite len_cons in H. pose proof (len_nonneg _ l). lia.
  - right. rewrite !andb_true_iff in H. destruct H as [[[H1 H2] H3] H4]. assert (X : x = 16 * (x / 16)) by (pose proof (Z.div_mod x 16 ltac:(lia)); lia).
    destruct (pieces_ok (Z.to_nat (x / 16)) l) as (P1 & P2 & P3); [unfold len in H4; lia|]. exists (pieces (Z.to_nat (x / 16)) l). split; [exact P1|]. unfold len. rewrite P2, P3. split; [lia|]. f_equal. lia.
Qed.
Definition fair (L : list Z) (tr : trace) : bool :=
  forallb saneb tr && forallb dgramb tr && forallb lowb tr && pidsb tr && negb (existsb (Z.eqb 0) (forks tr)) && match fdrun L tr with Some _ => true | None => false end.
Lemma fair_ok : forall L tr, legal tr -> fair L tr = true -> kernel tr /\ original tr /\ exists L', fdrun L tr = Some L'.
Proof.
  intros L tr LE H. unfold fair in H. rewrite !andb_true_iff in H. destruct H as [[[[[H1 H2] H3] H5] H6] H7]. rewrite forallb_forall in *. split; [|split].
  - split; [exact LE|]. split; [|split; [|split]].
    + apply Forall_forall. intros [q a] X. specialize (H1 _ X). split; cbn [fst snd]; [intros ->; cbn in H1; lia|]. intros d ->. unfold saneb in H1. change (same (bs "connect") (bs "connect")) with true in H1. cbn [negb orb] in H1. change (-1 =? -1) with true in H1. cbn [negb orb] in H1. lia.
    + apply Forall_forall. intros [q a] X. specialize (H2 _ X). unfold dgram. cbn [fst snd]. destruct q as [| | | | | | | |n [|f [|m []]] d]; auto; intros ->; unfold dgramb in H2.
      * change (same (bs "send") (bs "send")) with true in H2. cbn [negb orb] in H2. lia.
      * change (same (bs "recv") (bs "recv")) with true in H2. cbn [negb orb] in H2. lia.
    + apply Forall_forall. intros [q a] X. specialize (H3 _ X). unfold low. cbn [fst snd]. destruct q as [| | | | | | | |n l d]; auto. unfold lowb in H3. rewrite !andb_true_iff in H3. destruct H3 as [H3 H3']. split; intros [->|E]; try (rewrite E in *); revert H3 H3'; clear;
        repeat match goal with |- context [same (bs ?x) (bs ?y)] => let b := eval vm_compute in (same (bs x) (bs y)) in change (same (bs x) (bs y)) with b end; cbn [negb orb]; intros; lia.
    + apply pidsb_ok. exact H5.
  - intros Z. apply negb_true_iff in H6. assert (X : existsb (Z.eqb 0) (forks tr) = true) by (apply existsb_exists; exists 0; auto). congruence.
  - destruct (fdrun L tr) as [L'|]; [eauto|discriminate].
Qed.
(** with a PROXY line in and a PROXY header out: the bytes in both directions, and the answers are a kernel's *)
Definition proxywords : list (list Z) := [bs "-p"; bs "1"; bs "-P1"; bs "-t60"; bs "host"; bs "25"].
Definition proxyline : list Z := bs "PROXY TCP4 192.0.2.1 192.0.2.2 1000 25" ++ [13; 10].
Example ex_forward : good [0; 1; 2] /\ Forall2 points proxywords (vec proxywords) /\
  exists tr o L', runs (tcp false proxywords) tr o /\ fdrun [0; 1; 2] tr = Some L' /\ kernel tr /\ Forall honest tr /\ original tr /\
    o = Fin (Exit 0) /\ sent 8 tr = proxyline ++ bs "hello" /\ sent 1 tr = bs "world".
Proof.
  split; [split; [repeat constructor; cbn; lia|repeat constructor; lia]|].
  split; [repeat apply Forall2_cons; try apply Forall2_nil; (split; [repeat constructor|exists []; reflexivity])|].
  destruct (perform_show _ _ tkernel (Z.to_nat 600) (mkos 3 500 [reply1] [(0, map (fun c => [c]) proxyline ++ [bs "hello"]); (7, [bs "world"])] (-1)) (tcp false proxywords)
    (fun tr o => fair [0; 1; 2] tr && forallb honestb tr && match o with Fin (Exit c) => c =? 0 | _ => false end && same (sent 8 tr) (proxyline ++ bs "hello") && same (sent 1 tr) (bs "world"))) as (tr & o & R & LE & Q).
  { vm_compute. reflexivity. }
  rewrite !andb_true_iff in Q. destruct Q as [[[[Q1 Q5] Q2] Q3] Q4]. destruct (fair_ok _ _ LE Q1) as (K & O & L' & E).
  assert (H : Forall honest tr) by (apply Forall_forall; intros e X; apply honestb_ok; rewrite forallb_forall in Q5; auto). exists tr, o, L'.
  repeat (split; [assumption|]). split; [destruct o as [[x|]| |]; try discriminate; f_equal; f_equal; lia|]. split; apply same_true; assumption.
Qed.

(** Without the honest helper there is undefined behaviour: a reply that announces more than 128 bytes of addresses is
    printed with -vvv. *)
Theorem C82_dishonest_refuted : exists tr L', runs (tcp false [bs "-vvv"; bs "host"; bs "25"]) tr Wrong /\ fdrun [0; 1; 2] tr = Some L' /\ kernel tr /\ original tr.
Proof.
  destruct (perform_show _ _ tkernel (Z.to_nat 400) (mkos 3 500 [[254]] [] (-1)) (tcp false [bs "-vvv"; bs "host"; bs "25"]) (fun tr o => fair [0; 1; 2] tr && match o with Wrong => true | _ => false end)) as (tr & o & R & LE & Q).
  { vm_compute. reflexivity. }
  apply andb_prop in Q as [Q1 Q2]. destruct (fair_ok _ _ LE Q1) as (K & O & L' & E). destruct o; try discriminate. exists tr, L'. auto.
Qed.
Print Assumptions C82_dishonest_refuted.
(** a helper that answers a request *)
Example ex_helper : exists tr o, runs (tcp false tcpwords) tr o /\ Forall dgram tr /\ pids tr /\ In 0 (forks tr) /\ o = Fin (Exit 111) /\
  exists fd r, In (Other (bs "send") [fd] reply1, r) tr.
Proof.
  destruct (perform_show _ _ tkernel (Z.to_nat 400) (mkos 3 0 [bs "host" ++ repeat 0 (Z.to_nat 252)] [] (-1)) (tcp false tcpwords)
    (fun tr o => forallb dgramb tr && pidsb tr && existsb (Z.eqb 0) (forks tr) && match o with Fin (Exit c) => c =? 111 | _ => false end &&
      existsb (fun e => match fst e with Other n [f] b => same n (bs "send") && same b reply1 | _ => false end) tr)) as (tr & o & R & LE & Q).
  { vm_compute. reflexivity. }
  rewrite !andb_true_iff in Q. destruct Q as [[[[Q1 Q2] Q3] Q4] Q5]. exists tr, o. split; [exact R|]. split; [|split; [apply pidsb_ok; exact Q2|split; [|split]]].
  - apply Forall_forall. intros [q a] X. rewrite forallb_forall in Q1. specialize (Q1 _ X). unfold dgram. cbn [fst snd]. destruct q as [| | | | | | | |n [|f [|m []]] d]; auto; intros ->; unfold dgramb in Q1.
    + change (same (bs "send") (bs "send")) with true in Q1. cbn [negb orb] in Q1. lia.
    + change (same (bs "recv") (bs "recv")) with true in Q1. cbn [negb orb] in Q1. lia.
  - apply existsb_exists in Q3 as (x & X & E). assert (x = 0) as -> by lia. exact X.
  - destruct o as [[x|]| |]; try discriminate. f_equal. f_equal. lia.
  - apply existsb_exists in Q5 as ([q a] & X & E). cbn [fst] in E. destruct q as [| | | | | | | |n [|f []] d]; try discriminate. apply andb_prop in E as [E1 E2]. apply same_true in E1, E2. subst. eauto.
Qed.
