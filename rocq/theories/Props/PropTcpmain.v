(** C79: tlswrapper-tcp enters its jail before it talks to anyone. *)
From Verif.Model Require Import Base Sys Io Str Inet InetIsc Parsenum Fdio Relay Jail Conninfo Conn Resolve Main Getopt Lookup Tcpmain.
From Verif.Spec Require Import Text Num Settings Cmdline Words Flow Restrict Process Forward.
From Verif.Proof Require Import Tac SysP CallsP StrP ConfigP OptionsP GetoptP PlayP PerformP SafeP MainCallsP MainP TcpJailP.
From Verif.Props Require Import PropJail PropOptions PropCommands.

Lemma tcp_strings : forall l o, tcp_sets l o -> cstr_opt (taccount o) = Ok (last_arg 106 l) /\ cstr (tdir o) = Ok (given (last_arg 74 l) (bs "/var/lib/tlswrapper/empty")).
Proof.
  intros l o S. split; [|exact (cstr_ptr _ _ (ts_dir _ _ S))].
  pose proof (ts_account _ _ S) as X. unfold maybe in X. unfold cstr_opt. destruct (last_arg 106 l), (taccount o); try contradiction; [|reflexivity]. rewrite (cstr_ptr _ _ X). reflexivity.
Qed.
Lemma pidok_all : forall h tr, pids tr -> holds pidok h tr.
Proof. intros h tr P t1 [c a] t2 -> C. cbn [fst snd] in *. subst c. apply P. apply in_or_app. right. left. reflexivity. Qed.

Ltac kinds := repeat (calls1 || (progress cbv zeta)); try exact Logic.I; try (repeat split; discriminate).
Section Tcp.
Variable I : inet.
Variable fuel : nat.
Variables buf0 ip0 : list Z.
Variable env : environment.
Variable nojail : bool.
Notation main := (main_tcp I fuel buf0 ip0 env nojail).

(** Before its jail the original process transfers nothing and opens no connection, and the resolver helper receives
    no request and asks nobody; the original process itself never resolves a name unless the jail is switched off. *)
Theorem C79_jail_first : forall name words argv tr out, Forall2 points words argv -> runs (main (name :: argv)) tr out -> pids tr ->
  always (fun t e =>
    (In 0 (forks t) -> exposed e \/ asks e \/ receives e -> restricted None None false t) /\
    (~ In 0 (forks t) ->
      (exposed e -> exists l host port timeout connect, tcp_line words l host port timeout connect /\
        (nojail = true \/ restricted (last_arg 106 l) (Some (given (last_arg 74 l) (bs "/var/lib/tlswrapper/empty"))) true t)) /\
      (asks e -> nojail = true))) tr.
Proof.
  intros name words argv tr out F R P. destruct (C77_exact name words argv F) as (r & E & H). unfold main_tcp in R. rewrite E in R. cbn [lift pbind] in R.
  pose proof (pidok_all [] tr P) as A.
  assert (X : forall acc dir (Q : trace -> ending -> Prop) p, sp pidok (guarded nojail acc dir) [] p Q -> runs p tr out ->
    (exists l host port t c, tcp_line words l host port t c /\ acc = last_arg 106 l /\ dir = given (last_arg 74 l) (bs "/var/lib/tlswrapper/empty")) \/ (forall t e t', tr = t ++ e :: t' -> ~ exposed e) ->
    always (fun t e =>
    (In 0 (forks t) -> exposed e \/ asks e \/ receives e -> restricted None None false t) /\
    (~ In 0 (forks t) ->
      (exposed e -> exists l host port timeout connect, tcp_line words l host port timeout connect /\
        (nojail = true \/ restricted (last_arg 106 l) (Some (given (last_arg 74 l) (bs "/var/lib/tlswrapper/empty"))) true t)) /\
      (asks e -> nojail = true))) tr).
  { intros acc dir Q p S RP K t e t' ET. destruct (S _ _ RP A) as [G _]. destruct (G _ _ _ ET) as [G1 G2]. cbn [app] in *. split; [exact G1|]. intros N. destruct (G2 N) as [G3 G4]. split; [|exact G4].
    intros EX. destruct K as [(l & host & port & tt & cc & TL & -> & ->)|K]; [|destruct (K _ _ _ ET EX)]. exists l, host, port, tt, cc. split; auto. apply (G3 EX). }
  destruct r as [c|].
  - destruct H as (l & host & port & TL & SE & _). destruct (tcp_strings _ _ SE) as [S1 S2].
    apply (X (last_arg 106 l) (given (last_arg 74 l) (bs "/var/lib/tlswrapper/empty")) true1) with (2 := R); [|left; eauto 10].
    assert (P0 : process false []) by (intros []).
    eapply part_early; [unfold signal, do; kinds|exact P0|]. intros t _ PT. eapply part_early; [unfold Pem.randombytes; kinds|exact PT|]. intros u _ PU. apply resolve_ok; auto.
  - apply (X None [] true1) with (2 := R).
    + assert (P0 : process false []) by (intros []). eapply part_early; [unfold signal, do; kinds|exact P0|]. intros t _ PT. apply sp_ret. exact Logic.I.
    + right. intros t e t' ET EX. assert (C : calls kind1 (_ <~ signal SIGPIPE IGN ;; Ret (Exit 100))) by (unfold signal, do; kinds).
      pose proof (C _ _ R) as FA. rewrite ET, Forall_app in FA. destruct FA as [_ FA]. inversion FA; subst. destruct (kind1_quiet e); auto.
Qed.
End Tcp.
Print Assumptions C79_jail_first.

(** ** Examples *)
(** A small operating system: new descriptors count upwards from [nfd], fork gives the scripted answer, [dgrams] are
    the datagrams to come, [net] the bytes to come; everything but the self-pipe is always ready. *)
Record os := mkos { nfd : Z; frk : Z; dgrams : list (list Z); net : world; selfd : Z }.
Definition id77 : Z := 141500077.
Definition tkernel (s : os) (c : sys) : ans * os :=
  match c with
  | Other n a d =>
    if same n (bs "socketpair") then (mkans 0 0 [nfd s; nfd s + 1], mkos (nfd s + 2) (frk s) (dgrams s) (net s) (selfd s))
    else if same n (bs "pipe") then (mkans 0 0 [nfd s; nfd s + 1], mkos (nfd s + 2) (frk s) (dgrams s) (net s) (nfd s))
    else if same n (bs "socket") || same n (bs "dup") then (ok (nfd s), mkos (nfd s + 1) (frk s) (dgrams s) (net s) (selfd s))
    else if same n (bs "fork") then (ok (frk s), s)
    else if same n (bs "waitpid") then (mkans (frk s) 0 [0], s)
    else if same n (bs "send") then (ok (len d), s)
    else if same n (bs "recv") then
      match dgrams s with
      | x :: l => (mkans (len x) 0 x, mkos (nfd s) (frk s) l (net s) (selfd s))
      | [] => (ok (-1), s)
      end
    else if same n (bs "getpid") then (ok 77, s)
    else if same n (bs "getuid") || same n (bs "getgid") then (ok id77, s)
    else if same n (bs "getrlimit") then (mkans 0 0 [100; 100], s)
    else if same n (bs "getaddrinfo") then (mkans 0 0 [4; 192; 0; 2; 7], s)
    else if same n (bs "randombytes") then (mkans 0 0 (repeat 0 32), s)
    else (ok 0, s)
  | Read fd n => let '(a, w) := pull (net s) fd n in (a, mkos (nfd s) (frk s) (dgrams s) w (selfd s))
  | Write fd b => (ok (len b), s)
  | Alloc n => (ok 1, s)
  | Time => (ok 1000000000, s)
  | Poll _ _ => (mkans 1 0 [1], s)
  | Select _ r w _ => (mkans 1 0 (filter (fun f => negb (f =? selfd s)) r ++ map (fun f => -1 - f) w), s)
  | _ => (ok 0, s)
  end.
Definition tcp (nojail : bool) (words : list (list Z)) : prog ending :=
  main_tcp isc (Z.to_nat 200) (repeat 0 (Z.to_nat 257)) (repeat 0 (Z.to_nat 129)) [] nojail (vec (bs "tlswrapper-tcp" :: words)).
Definition tcpwords : list (list Z) := [bs "host"; bs "25"].
(** one address: 192.0.2.7 *)
Definition reply1 : list Z := 16 :: repeat 0 10 ++ [255; 255; 192; 0; 2; 7].
Definition pidsb (tr : trace) : bool := forallb (fun e => match e with (Other n [] [], a) => negb (same n (bs "getpid")) || (0 <=? ret a) | _ => true end) tr.
Lemma pidsb_ok : forall tr, pidsb tr = true -> pids tr.
Proof.
  intros tr Q a IN. unfold pidsb in Q. rewrite forallb_forall in Q. specialize (Q _ IN). cbn beta iota in Q. unfold same at 1 in Q. destruct (list_eq_dec _ _ _); [|congruence]. cbn [negb orb] in Q. lia.
Qed.
(** the original process relays, in a jail or not; the helper answers a request *)
Definition relayed (tr : trace) (o : outcome ending) : bool :=
  match o with Fin (Exit c) => (c =? 0) && pidsb tr && same (sent 8 tr) (bs "hello") && existsb (calling (bs "connect")) tr | _ => false end.
Definition helped (tr : trace) (o : outcome ending) : bool :=
  match o with Fin (Exit c) => (c =? 111) && pidsb tr && existsb (calling (bs "getaddrinfo")) tr && existsb (calling (bs "recv")) tr | _ => false end.
Example ex_jail_first :
  Forall2 points tcpwords (vec tcpwords) /\
  (exists tr o, runs (tcp false tcpwords) tr o /\ legal tr /\ relayed tr o = true) /\
  (exists tr o, runs (tcp false tcpwords) tr o /\ legal tr /\ helped tr o = true).
Proof.
  split; [repeat apply Forall2_cons; try apply Forall2_nil; (split; [repeat constructor|exists []; reflexivity])|]. split.
  - apply (perform_show _ _ tkernel (Z.to_nat 400) (mkos 3 500 [reply1] [(0, [bs "hello"]); (7, [bs "world"])] (-1))). vm_compute. reflexivity.
  - apply (perform_show _ _ tkernel (Z.to_nat 400) (mkos 3 0 [bs "host" ++ repeat 0 (Z.to_nat 252)] [] (-1))). vm_compute. reflexivity.
Qed.
