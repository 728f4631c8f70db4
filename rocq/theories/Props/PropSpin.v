(** C93: no relay loop spins. *)
From Verif.Model Require Import Base Sys Io Fdio Relay Session Tlsphase.
From Verif.Spec Require Import Spin.
From Verif.Proof Require Import Tac SysP FdioP PlayP PerformP WpP SpinP.

Lemma opened_phi : forall s, opened [peerin s; peerout s; childin s; childout s; childctl s; childack s] = phi s.
Proof. intros s. unfold opened, phi, o1, open. cbn [filter]. destruct (peerin s =? -1), (peerout s =? -1), (childin s =? -1), (childout s =? -1), (childctl s =? -1), (childack s =? -1); reflexivity. Qed.
Lemma selectable_lows : forall s, selectable [peerin s; peerout s; childin s; childout s; childctl s; childack s] -> lows s.
Proof. intros s H. unfold selectable in H. repeat match goal with H : Forall _ (_ :: _) |- _ => apply Forall_cons_iff in H as [? H] end. repeat split; assumption. Qed.

(** The phase before TLS: the number of system calls and the number of rounds are bounded by the reasons the world gives and
    by the descriptors there are to close. *)
Theorem C93_cleartext : forall timeout finishtimeout self fuel s tr o, 0 <= self < 1024 ->
  let fds := [peerin s; peerout s; childin s; childout s; childctl s; childack s] in
  selectable fds -> runs (cleartext timeout finishtimeout self fuel s) tr o ->
  (length tr <= 18 * (reasons tr + opened fds + 1))%nat /\
  exists m, (m <= reasons tr + opened fds + 1)%nat /\
    runs (iter m (clear_body timeout finishtimeout self fuel) (set_ton (set_toc s (mkrbuf (mem (toc s)) 0)) (mkrbuf (mem (ton s)) 0))) tr o.
Proof.
  intros timeout finishtimeout self fuel s tr o SF fds L R. unfold fds in *. apply selectable_lows in L. rewrite opened_phi.
  unfold cleartext in R. destruct (cost_iter _ _ (clear_body timeout finishtimeout self fuel) lows phi 15 (fun s L => cost_clear timeout finishtimeout self SF fuel s L) fuel (set_ton (set_toc s (mkrbuf (mem (toc s)) 0)) (mkrbuf (mem (ton s)) 0)) tr o L R) as (A & m & B & C).
  change (phi (set_ton _ _)) with (phi s) in A, B. split; [lia|]. exists m. split; [exact B|exact C].
Qed.
Print Assumptions C93_cleartext.

(** The same during TLS, the calls of the engine included. *)
Theorem C93_tls : forall timeout finishtimeout self usercert fuel s tr o, 0 <= self < 1024 ->
  let f := fds s in let l := [peerin f; peerout f; childin f; childout f; childctl f; childack f] in
  selectable l -> runs (tls_phase timeout finishtimeout self usercert fuel s) tr o ->
  (length tr <= 29 * (reasons tr + opened l + 1))%nat /\
  exists m, (m <= reasons tr + opened l + 1)%nat /\ runs (iter m (tls_body timeout finishtimeout self usercert fuel) s) tr o.
Proof.
  intros timeout finishtimeout self usercert fuel s tr o SF f l L R. unfold l, f in *. apply selectable_lows in L. rewrite opened_phi.
  unfold tls_phase in R. destruct (cost_iter _ _ (tls_body timeout finishtimeout self usercert fuel) (fun s => lows (fds s)) (fun s => phi (fds s)) 26
    (fun s L => cost_tls timeout finishtimeout self SF usercert fuel s L) fuel s tr o L R) as (A & m & B & C).
  split; [lia|]. exists m. split; [exact B|exact C].
Qed.
Print Assumptions C93_tls.

(** The same for the relay of tlswrapper-tcp: standard input and output, the two descriptors of the connection. *)
Theorem C93_tcp : forall timeout self fuel ri ro h tr o, 0 <= self < 1024 -> selectable [ri; ro] ->
  runs (tcp_relay timeout self fuel ri ro h) tr o ->
  (length tr <= 12 * (reasons tr + 5))%nat /\
  exists m, (m <= reasons tr + 5)%nat /\ runs (tcp_relay timeout self m ri ro h) tr o.
Proof.
  intros timeout self fuel ri ro h tr o SF L R. unfold tcp_relay in R. unfold selectable in L. repeat match goal with H : Forall _ (_ :: _) |- _ => apply Forall_cons_iff in H as [? H] end.
  set (s := mktcp 0 1 ri ro (append empty (len h) h) empty) in *.
  assert (I0 : tlows s). { unfold tlows, low, s. cbn [localin localout remotein remoteout inb]. unfold append. cbn [fill]. pose proof (u64_nonneg (fill empty + len h)). repeat split; auto; right; lia. }
  assert (P4 : (tphi s <= 4)%nat). { unfold tphi, o1, s. cbn [localin localout remotein remoteout]. repeat match goal with |- context [if ?b then _ else _] => destruct b end; lia. }
  pose proof (cost_iter _ _ (tcp_body timeout self) tlows tphi 8 (fun s L => cost_tcp timeout self SF s L) fuel s) as CI.
  apply runs_bind in R as [(x & t1 & t2 & -> & R1 & R2)|[[R1 ->]|[R1 ->]]].
  - destruct (CI t1 _ I0 R1) as (A & m & B & C). rewrite app_length, reasons_app.
    assert (T : (length t2 <= 4 + 3 * reasons t2)%nat).
    { assert (K : cost 4 (_ <~ shut_r (remotein x) ;; _ <~ shut_w (remoteout x) ;; Ret 0) (fun _ _ => True)).
      { apply (cost_bind _ _ 2 2 _ _ _ _ (cost_shut_r _)). intros b v _. apply (cost_bind _ _ 2 0 _ _ _ _ (cost_shut_w _)). intros b2 w _. apply cost_ret. exact Logic.I. }
      exact (proj1 (K _ _ R2)). }
    split; [lia|]. exists m. split; [lia|]. unfold tcp_relay. fold s. apply runs_bind. left. exists x, t1, t2. auto.
  - destruct (CI tr _ I0 R1) as (A & m & B & C). split; [lia|]. exists m. split; [lia|]. unfold tcp_relay. fold s. apply runs_bind. right. left. auto.
  - destruct (CI tr _ I0 R1) as (A & m & B & C). split; [lia|]. exists m. split; [lia|]. unfold tcp_relay. fold s. apply runs_bind. right. right. auto.
Qed.
Print Assumptions C93_tcp.

(** ** What is not true *)
(** a session whose descriptors to the program are too large for select() *)
Definition beyond : sess := mksess 0 1 1024 1025 1026 1027 empty empty.
(** Then the wrapper spins for ever: the phase before TLS does not end and makes no system call at all, not even one that a
    signal could interrupt (the handler only writes to the self-pipe, which nobody reads). *)
Theorem C93_cleartext_refuted : forall fuel tr o, runs (cleartext 60 1 15 fuel beyond) tr o -> tr = [] /\ o = Cut.
Proof.
  intros fuel tr o R. unfold cleartext in R. change (set_ton _ _) with beyond in R. revert R. generalize fuel at 1 as n. intros n.
  induction n as [|n IH]; intros R; cbn [iter] in R; [exact R|].
  assert (E : clear_body 60 1 15 fuel beyond = Ret (Again beyond)) by reflexivity. rewrite E in R. cbn [pbind] in R. exact (IH R).
Qed.
Print Assumptions C93_cleartext_refuted.
(** and with TLS it only asks the engine for its state, again and again *)
Theorem C93_tls_refuted : forall n, exists tr, runs (tls_phase 60 1 15 false n (mkts beyond true true)) tr Cut /\ legal tr /\
  tr = repeat (Other (bs "tls_engine_current_state") [] [], mkans (SENDAPP + RECVREC) 0 []) n /\ reasons tr = 0%nat.
Proof.
  intros n. eexists. split; [|split; [|split; [reflexivity|]]].
  - unfold tls_phase. generalize n at 2 as fuel. intros fuel. induction n as [|n IH]; cbn [iter repeat]; [split; reflexivity|].
    apply runs_bind. left. exists (Again (mkts beyond true true)), [(Other (bs "tls_engine_current_state") [] [], mkans (SENDAPP + RECVREC) 0 [])], (repeat (Other (bs "tls_engine_current_state") [] [], mkans (SENDAPP + RECVREC) 0 []) n).
    split; [reflexivity|]. split; [|exact IH].
    right. exists (mkans (SENDAPP + RECVREC) 0 []), []. split; [reflexivity|]. split; reflexivity.
  - induction n as [|n IH]; constructor; [exact Logic.I|exact IH].
  - induction n as [|n IH]; [reflexivity|exact IH].
Qed.
Print Assumptions C93_tls_refuted.

(** A signal is not served while there is anything to transfer: as long as the peer sends, the self-pipe (15) is reported
    readable in every round and never read, so that SIGTERM, the end of the program and the alarm have no effect. *)
Definition busy : tsess := mkts (mksess 0 1 4 5 (-1) (-1) empty empty) true true.
Definition round : trace :=
  [(Other (bs "tls_engine_current_state") [] [], mkans (SENDAPP + RECVREC) 0 []);
   (Select 16 [15; 5; 0] [] None, mkans 2 0 [0; 15]);
   (Other (bs "tls_engine_recvrec_buf") [] [], mkans 5 0 []);
   (Read 0 5, mkans 5 0 [23; 3; 3; 0; 17]);
   (Other (bs "tls_engine_recvrec_ack") [5] [23; 3; 3; 0; 17], mkans 0 0 []);
   (Other (bs "alarm") [60] [], mkans 0 0 [])].
Theorem C93_signal_refuted : forall n, exists tr, runs (tls_phase 60 1 15 false n busy) tr Cut /\ legal tr /\ tr = concat (repeat round n).
Proof.
  intros n. eexists. split; [|split; [|reflexivity]].
  - unfold tls_phase. generalize n at 2 as fuel. intros fuel. induction n as [|n IH]; cbn [iter repeat concat]; [split; reflexivity|].
    apply runs_bind. left. exists (Again busy), round, (concat (repeat round n)).
    split; [reflexivity|]. split; [|exact IH].
    unfold round. repeat (right; eexists; eexists; split; [reflexivity|]). split; reflexivity.
  - induction n as [|n IH]; cbn [repeat concat]; [constructor|]. apply legal_app. split; [|exact IH]. apply legal_dec. vm_compute. reflexivity.
Qed.
Print Assumptions C93_signal_refuted.

(** ** An example *)
(** the local side sends the chunks in the state, the remote side nothing; a signal interrupts the first wait *)
Definition two_sides (s : bool * list (list Z)) (c : sys) : ans * (bool * list (list Z)) :=
  let '(fresh, l) := s in
  match c with
  | Select _ rd wr _ =>
    if fresh then (mkans (-1) EINTR [], (false, l))
    else let d := filter (fun f => (f =? 0) || (f =? 3)) rd ++ map (fun f => -1 - f) wr in (mkans (len d) 0 d, s)
  | Read 0 _ => match l with x :: l => (mkans (len x) 0 x, (fresh, l)) | [] => (mkans 0 0 [], s) end
  | Write _ b => (mkans (len b) 0 [], s)
  | _ => (mkans 0 0 [], s)
  end.
Example ex_spin : exists tr o, runs (tcp_relay 60 15 20 3 4 (bs "PROXY")) tr o /\ legal tr /\
  (match o with Fin 0 => true | _ => false end && (length (filter (fun e => match fst e with Select _ _ _ None => true | _ => false end) tr) =? 8)%nat &&
   (reasons tr =? 6)%nat && (length tr =? 25)%nat && same (sent 4 tr) (bs "PROXYab")) = true.
Proof. apply (perform_show _ _ two_sides 100 (true, [bs "a"; bs "b"])). vm_compute. reflexivity. Qed.
