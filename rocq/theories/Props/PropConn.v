(** C34: parallel connect. *)
From Coq Require Import Permutation.
From Verif.Model Require Import Base Sys Conn.
From Verif.Spec Require Import Descriptors Attempt.
From Verif.Proof Require Import Tac SysP ConnP ConnFailP.

(** the [k]th address of a list, and connecting to it *)
Definition address (ip : list Z) (k : nat) : list Z := firstn 16 (skipn (16 * k) ip).
Definition connecting (ip port : list Z) (k : nat) (fd : Z) : sys := Other (bs "connect") [fd] (address ip k ++ firstn 2 port).
(** the descriptor was connected to the [k]th address: at once, or the kernel knew its peer later *)
Definition connected (ip port : list Z) (t : trace) (k : nat) (fd : Z) : Prop :=
  exists a, In (connecting ip port k fd, a) t /\ (ret a = 0 \/ exists g, In (Other (bs "getpeername") [fd] [], g) t /\ ret g <> -1).
(** one event: the clock is between 0 and 2^62 microseconds, connect on descriptor -1 does not succeed *)
Definition plausible (e : event) : Prop :=
  (fst e = Time -> 0 <= ret (snd e) <= 2 ^ 62) /\ (forall d, fst e = Other (bs "connect") [-1] d -> ret (snd e) <> 0).

(** [L0] are the descriptors open before, [L] those open afterwards.  As the callers do, at most as
    many sockets are prepared as there are addresses. *)
Theorem C34_winner : forall L0 fuel num timeout ip iplen port tr fd d ip' sl L,
  NoDup L0 -> Forall (fun x => 0 <= x) L0 -> 1 <= timeout -> 1000 * timeout < 2 ^ 62 -> 16 <= iplen <= len ip -> 2 <= len port ->
  Z.min num 8 <= Z.min iplen 128 / 16 ->
  runs (connect_any fuel num timeout ip iplen port) tr (Fin (Some (fd, d), ip', sl)) -> fdrun L0 tr = Some L -> Forall plausible tr ->
  exists k, 16 * Z.of_nat k + 16 <= iplen /\ connected ip port tr k fd /\ ip' = address ip k ++ skipn 16 ip /\
    (exists a, In (Other (bs "dup") [fd] [], a) tr /\ ret a = d) /\
    Permutation L (fd :: d :: L0) /\ closes_open L0 tr.
Proof.
  intros L0 fuel num timeout ip iplen port tr fd d ip' sl L N F T1 T2 IL PL NN R FD PL2.
  destruct (h_any L0 fuel num timeout ip iplen port N F T1 ltac:(lia) IL PL NN tr _ L R FD PL2) as (_ & C & Q).
  destruct (Q _ eq_refl) as (k & K & -> & J & D & P). exists k. auto 10.
Qed.
Print Assumptions C34_winner.

Theorem C34_failure : forall L0 fuel num timeout ip iplen port tr ip' sl L,
  NoDup L0 -> Forall (fun x => 0 <= x) L0 -> 1 <= timeout -> 1000 * timeout < 2 ^ 62 -> 16 <= iplen <= len ip -> 2 <= len port ->
  Z.min num 8 <= Z.min iplen 128 / 16 ->
  runs (connect_any fuel num timeout ip iplen port) tr (Fin (None, ip', sl)) -> fdrun L0 tr = Some L -> Forall plausible tr ->
  Permutation L L0 /\ ip' = ip /\ closes_open L0 tr.
Proof.
  intros L0 fuel num timeout ip iplen port tr ip' sl L N F T1 T2 IL PL NN R FD PL2.
  destruct (h_any L0 fuel num timeout ip iplen port N F T1 ltac:(lia) IL PL NN tr _ L R FD PL2) as (_ & C & Q).
  destruct (Q _ eq_refl) as (P & ->). auto.
Qed.
Print Assumptions C34_failure.

(** Failure has a cause: the sockets could not be prepared, or each of the (at most 8) addresses was tried, no
    connection came about, and every attempt failed, the time was up, or waiting was impossible. *)
Theorem C34_in_vain : forall L0 fuel num timeout ip iplen port tr ip' sl L,
  NoDup L0 -> Forall (fun x => 0 <= x) L0 -> 1 <= timeout -> 16 <= iplen ->
  runs (connect_any fuel num timeout ip iplen port) tr (Fin (None, ip', sl)) -> fdrun L0 tr = Some L -> Forall plausible tr ->
  unprepared tr \/ in_vain (map (address ip) (seq 0 (Z.to_nat (Z.min iplen 128 / 16)))) (firstn 2 port) timeout tr.
Proof. intros L0 fuel num timeout ip iplen port tr ip' sl L N F T1 IL R FD PL. exact (any_fail L0 fuel num timeout ip iplen port tr ip' sl L N F T1 IL R FD PL). Qed.
Print Assumptions C34_in_vain.

Theorem C34_no_ub : forall L0 fuel num timeout ip iplen port tr o L,
  NoDup L0 -> Forall (fun x => 0 <= x) L0 -> 1 <= timeout -> 1000 * timeout < 2 ^ 62 -> 16 <= iplen <= len ip -> 2 <= len port ->
  Z.min num 8 <= Z.min iplen 128 / 16 ->
  runs (connect_any fuel num timeout ip iplen port) tr o -> fdrun L0 tr = Some L -> Forall plausible tr -> o <> Wrong.
Proof.
  intros L0 fuel num timeout ip iplen port tr o L N F T1 T2 IL PL NN R FD PL2.
  apply (h_any L0 fuel num timeout ip iplen port N F T1 ltac:(lia) IL PL NN tr _ L R FD PL2).
Qed.
Print Assumptions C34_no_ub.

(** Two addresses; the first is in progress and then refused, the second wins. *)
Definition ex_ip : list Z := map Z.of_nat (seq 1 32).
Definition ok0 : ans := mkans 0 0 [].
Definition ex_script : list ans :=
  repeat ok0 16 ++
  [mkans 3 0 []; ok0; ok0; mkans 2 0 []; ok0; mkans 4 0 []] ++ [mkans 5 0 []; ok0; ok0; mkans 2 0 []; ok0; mkans 6 0 []] ++
  [mkans 1000000 0 []; mkans (-1) 115 []; mkans (-1) 115 [];
   mkans 1001000 0 []; mkans 1 0 [-4]; mkans (-1) 107 []; mkans (-1) 111 []; ok0; ok0;
   mkans 1002000 0 []; mkans 1 0 [-6]; ok0].
Example C34_example_run : snd (exec (connect_any 9 2 10 ex_ip 32 [0; 80]) ex_script) = Fin (Some (5, 6), skipn 16 ex_ip ++ skipn 16 ex_ip, conn_start_state).
Proof. vm_compute. reflexivity. Qed.
Example C34_example_ledger : fdrun [0; 1; 2] (fst (exec (connect_any 9 2 10 ex_ip 32 [0; 80]) ex_script)) = Some [6; 5; 0; 1; 2].
Proof. vm_compute. reflexivity. Qed.
Example C34_example_plausible : forallb (fun e : event => match fst e with Time => (0 <=? ret (snd e)) && (ret (snd e) <=? 2 ^ 62) | Other n [f] _ => negb (f =? -1) | _ => true end)
  (fst (exec (connect_any 9 2 10 ex_ip 32 [0; 80]) ex_script)) = true.
Proof. vm_compute. reflexivity. Qed.
Example C34_example_refused : snd (exec (connect_any 9 1 10 ex_ip 16 [0; 80])
   (repeat ok0 16 ++ [mkans 3 0 []; ok0; ok0; mkans 2 0 []; ok0; mkans 4 0 []; mkans 1000000 0 []; mkans (-1) 111 []] ++ repeat ok0 20)) = Fin (None, ex_ip, conn_start_state).
Proof. vm_compute. reflexivity. Qed.

Example C34_example_refused_ledger : fdrun [0; 1; 2] (fst (exec (connect_any 9 1 10 ex_ip 16 [0; 80])
   (repeat ok0 16 ++ [mkans 3 0 []; ok0; ok0; mkans 2 0 []; ok0; mkans 4 0 []; mkans 1000000 0 []; mkans (-1) 111 []] ++ repeat ok0 20))) = Some [0; 1; 2].
Proof. vm_compute. reflexivity. Qed.

(** Without the bound on the number of sockets the claim is false: three prepared for one address, all but the
    winning pair stay open. *)
Definition leak_script : list ans :=
  repeat ok0 16 ++ flat_map (fun i => [mkans (3 + 2 * i) 0 []; ok0; ok0; mkans 2 0 []; ok0; mkans (4 + 2 * i) 0 []]) [0; 1; 2] ++ [mkans 1000000 0 []; ok0].
Definition leak_trace : trace := Eval vm_compute in fst (exec (connect_any 9 3 10 (firstn 16 ex_ip) 16 [0; 80]) leak_script).
Lemma leak_exec : exec (connect_any 9 3 10 (firstn 16 ex_ip) 16 [0; 80]) leak_script =
  (leak_trace, Fin (Some (3, 4), firstn 16 ex_ip, [none; (5, 6); (7, 8); none; none; none; none; none])).
Proof. vm_compute. reflexivity. Qed.
Lemma leak_ledger : fdrun [0; 1; 2] leak_trace = Some [8; 7; 6; 5; 4; 3; 0; 1; 2].
Proof. vm_compute. reflexivity. Qed.
Theorem C34_more_sockets_refuted : exists L0 num ip tr fd d ip' sl L,
  runs (connect_any 9 num 10 ip 16 [0; 80]) tr (Fin (Some (fd, d), ip', sl)) /\ fdrun L0 tr = Some L /\ ~ Permutation L (fd :: d :: L0).
Proof.
  exists [0; 1; 2], 3, (firstn 16 ex_ip), leak_trace, 3, 4. eexists _, _, _. split; [exact (exec_runs _ _ _ _ _ leak_exec)|]. split; [exact leak_ledger|].
  intros P. apply Permutation_length in P. discriminate P.
Qed.
Print Assumptions C34_more_sockets_refuted.
