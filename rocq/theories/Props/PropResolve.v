(** C31, C32, C33, C35, C68: name resolution and random numbers. *)
From Verif.Model Require Import Base Sys Io Buffer Pem Resolve.
From Verif.Spec Require Import Resolver.
From Verif.Proof Require Import Tac SysP IoP ProxyP ResolveP.

(** C31 (resolvehost.c:33-53).  [nn] may have up to 15 bytes more than whole addresses. *)
Theorem C31_ordering : forall cs t e tr o, Forall addr cs -> len cs <= 2 ^ 55 -> 0 <= e < 16 ->
  runs (sortip (concat cs ++ t) (16 * len cs + e)) tr o ->
  o <> Wrong /\ forall s, o = Fin s -> exists cs', s = concat cs' ++ t /\ Permutation cs cs' /\
    ((exists c, In c cs /\ ~ v4 c) -> exists c l, cs' = c :: l /\ ~ v4 c).
Proof.
  intros cs t e tr o F L E R. destruct (sortip_ok cs t e tr o F L E R) as [R1 R2]. split; auto.
  intros s S. destruct (R2 s S) as (cs' & -> & _ & P & H). exists cs'. auto.
Qed.
Print Assumptions C31_ordering.

Definition a4 (d : Z) : list Z := repeat 0 10 ++ [255; 255; 10; 0; 0; d].
Definition a6 (d : Z) : list Z := [32; 1; 13; 184] ++ repeat 0 11 ++ [d].
Example C31_example :
  exec (sortip (concat [a4 1; a4 2; a6 3; a4 4] ++ [7; 8]) 64)
    [mkans 32 0 (repeat 0 31 ++ [1]); mkans 32 0 (repeat 0 31 ++ [2]); mkans 32 0 (repeat 1 32)] =
  ([(Other (bs "randombytes") [32] [], mkans 32 0 (repeat 0 31 ++ [1]));
    (Other (bs "randombytes") [32] [], mkans 32 0 (repeat 0 31 ++ [2]));
    (Other (bs "randombytes") [32] [], mkans 32 0 (repeat 1 32))],
   Fin (concat [a6 3; a4 4; a4 1; a4 2] ++ [7; 8])).
Proof. vm_compute. reflexivity. Qed.

(** C32 (resolvehost.c:74-134).  [gai_list] only undoes the encoding of the resolver's
    answer list into bytes. *)
Theorem C32_buffer : forall ip host a t n e ip', 16 <= len ip <= 2 ^ 55 ->
  runs (resolvehost (Some ip) (len ip) (Some host)) ((Other (bs "getaddrinfo") [] host, a) :: t) (Fin (n, e, ip')) ->
  length ip' = length ip /\
  exists r, lookup gai_list (Z.to_nat (len ip / 16)) a r /\
    match r with
    | None => n = -1 /\ ip' = ip
    | Some [] => n = 0 /\ ip' = ip
    | Some s => Forall addr s /\ n = len (concat s) /\ n <= len ip /\
        forall k, (k < length ip)%nat -> nth_error ip' k = nth_error (concat s) (k mod length (concat s))
    end.
Proof.
  intros ip host a t n e ip' [L1 L2] R. apply resolvehost_ok in R; auto. destruct R as [[R _]|(a0 & t0 & E & _ & _ & R)]; [discriminate|].
  injection E as <- <-. destruct (R n e ip' eq_refl) as (r & R1 & R2 & R3). split; auto. exists r. split; auto. destruct r as [[|s0 s]|]; auto.
  - destruct R3 as (_ & -> & _ & R3 & _). auto.
  - destruct R3 as (S1 & -> & S3 & _ & S4). split; auto. split; [|split; auto].
    + unfold len at 2. rewrite concat_len16 by auto. unfold len. lia.
    + intros k K. apply S4; [discriminate|lia].
Qed.
Theorem C32_no_ub : forall ip host tr o, 16 <= len ip <= 2 ^ 55 ->
  runs (resolvehost (Some ip) (len ip) (Some host)) tr o -> o <> Wrong.
Proof.
  intros ip host tr o [L1 L2] R. apply resolvehost_ok in R; auto. destruct R as [[_ ->]|(a0 & t0 & _ & _ & R & _)]; [discriminate|auto].
Qed.
Print Assumptions C32_buffer.
Print Assumptions C32_no_ub.

(** One IPv4 and one IPv6 answer (and one of another family) in a buffer of 40 bytes. *)
Example C32_example :
  snd (exec (resolvehost (Some (repeat 9 40)) 40 (Some (bs "host" ++ [0])))
    [mkans 0 0 ([4; 10; 0; 0; 1] ++ [2; 5; 5] ++ 16 :: a6 3); mkans 32 0 (repeat 0 32)]) =
  Fin (32, 0, a6 3 ++ a4 1 ++ firstn 8 (a6 3)).
Proof. vm_compute. reflexivity. Qed.

(** C33 (randommod.c:23-33). *)
Theorem C33_exact : forall n tr o, n <= 2 ^ 55 -> runs (randommod n) tr o ->
  (n <= 1 /\ tr = [] /\ o = Fin 0) \/
  (1 < n /\ tr = [] /\ o = Cut) \/
  (1 < n /\ exists a r, tr = [(Other (bs "randombytes") [32] [], a)] /\ length r = 32%nat /\ bytes r /\
     (length (data a) = 32%nat -> bytes (data a) -> r = data a) /\ o = Fin (beval r mod n) /\ 0 <= beval r mod n < n).
Proof.
  intros n tr o N R. apply randommod_ok in R; auto. destruct R as [R|(N1 & [R|(a & r & -> & -> & ->)])]; [left; auto|right; left; tauto|].
  right. right. split; auto. exists a, (map u8 (firstn 32 (data a ++ repeat 0 32))). split; [reflexivity|]. split.
  - rewrite map_length, firstn_length, app_length, repeat_length. lia.
  - split; [apply map_u8_bytes|]. split; [|split; [reflexivity|apply Z.mod_pos_bound; lia]].
    intros L B. rewrite firstn_app, L, Nat.sub_diag, firstn_O, app_nil_r, firstn_all2 by lia.
    clear - B. induction B as [|b l B0 B1 IH]; [reflexivity|]. cbn [map]. rewrite IH, u8_id by exact B0. reflexivity.
Qed.
Print Assumptions C33_exact.

(** Moduli above 2^55 overflow the signed multiplication. *)
Theorem C33_large_refuted : exists n a, n <= 2 ^ 62 /\ length (data a) = 32%nat /\ bytes (data a) /\
  runs (randommod n) [(Other (bs "randombytes") [32] [], a)] Wrong.
Proof.
  exists (2 ^ 60), (mkans 32 0 (repeat 255 32)). split; [lia|]. split; [reflexivity|]. split; [cbn; repeat constructor; lia|].
  apply exec_runs with (s := [mkans 32 0 (repeat 255 32)]). vm_compute. reflexivity.
Qed.
Print Assumptions C33_large_refuted.

Example C33_example : exec (randommod 1000) [mkans 32 0 (repeat 0 30 ++ [3; 232])] =
  ([(Other (bs "randombytes") [32] [], mkans 32 0 (repeat 0 30 ++ [3; 232]))], Fin 0) /\
  snd (exec (randommod 1000) [mkans 32 0 (repeat 255 32)]) = Fin 935.
Proof. vm_compute. auto. Qed.

(** C35 (resolvehost.c:171-199 and 230-263).  The client makes the lookups [reqs]; the
    helper runs for an arbitrary time.  Each side has received, in order, a part of what
    the other one sent. *)
Theorem C35_own_reply : forall fdc fdh reqs fuel ppid buf ip trc trh o rs,
  Forall (fun '(ip, iplen, name) => nonul name /\ iplen <= len ip) reqs -> length buf = 257%nat -> length ip = 129%nat ->
  Forall dgram trc -> Forall dgram trh -> Forall healthy trc ->
  runs (lookups_do fdc (map (fun '(ip, iplen, name) => (ip, iplen, name ++ [0])) reqs)) trc (Fin rs) ->
  runs (helper fuel fdh ppid buf ip) trh o ->
  delivered 257 (dsent fdc trc) (drecv fdh trh) -> delivered 256 (dsent fdh trh) (drecv fdc trc) ->
  length rs = length reqs /\
  Forall2 (fun q r => accepted q = false -> r = (-1, fst (fst q))) reqs rs /\
  exists ls x, resolved trh = ls ++ x /\
    Forall2 (own gai_list) (filter (fun x => accepted (fst x)) (combine reqs rs)) ls.
Proof.
  intros fdc fdh reqs fuel ppid buf ip trc trh o rs G LB LI D DH H RC RH D1 D2.
  destruct (protocol_ok fdc fdh reqs fuel ppid buf ip trc trh o rs) as (_ & P); auto.
Qed.
Print Assumptions C35_own_reply.

(** Neither side has undefined behaviour. *)
Theorem C35_no_ub : (forall fd reqs tr o,
    Forall (fun '(ip, iplen, name) => nonul name /\ iplen <= len ip) reqs -> Forall dgram tr -> Forall healthy tr ->
    runs (lookups_do fd (map (fun '(ip, iplen, name) => (ip, iplen, name ++ [0])) reqs)) tr o -> o <> Wrong) /\
  (forall fuel fd ppid buf ip tr o, length buf = 257%nat -> length ip = 129%nat -> Forall dgram tr ->
    Forall (fun q => length q = 256%nat) (drecv fd tr) -> runs (helper fuel fd ppid buf ip) tr o -> o <> Wrong).
Proof.
  split.
  - intros fd reqs tr o G D H R. exact (proj1 (lookups_ok fd reqs tr o G D H R)).
  - intros fuel fd ppid buf ip tr o LB LI D Q R. exact (proj1 (helper_ok fuel fd ppid buf ip tr o LB LI D Q R)).
Qed.
Print Assumptions C35_no_ub.

Definition pad (name : list Z) : list Z := name ++ repeat 0 (256 - length name).
Definition hscript (name1 name2 : list Z) (d1 d2 : list Z) : list ans :=
  [mkans 7 0 []; mkans 1 0 [1]; mkans 256 0 (pad name1); mkans 0 0 d1; mkans 17 0 [];
   mkans 7 0 []; mkans 1 0 [1]; mkans 256 0 (pad name2); mkans 0 0 d2; mkans 17 0 []].
Definition htrace : trace := fst (exec (helper 3 5 7 (repeat 1 257) (repeat 1 129))
  (hscript (bs "one") (bs "two") [4; 10; 0; 0; 1] [4; 10; 0; 0; 2])).
Definition reqs2 : list (list Z * Z * list Z) := [(repeat 0 128, 128, bs "one"); (repeat 0 128, 128, bs "two")].

Lemma ctx_dgram : forall tr, forallb (fun e : event => match fst e with
    | Other nm [f] b => (ret (snd e) =? -1) || (ret (snd e) =? len b)
    | Other nm [f; n] _ => (ret (snd e) =? -1) || ((ret (snd e) =? len (data (snd e))) && (ret (snd e) <=? n))
    | _ => true end) tr = true -> Forall dgram tr.
Proof.
  intros tr H. apply Forall_forall. intros [c a] I. rewrite forallb_forall in H. apply H in I. unfold dgram. cbn [fst snd] in *.
  destruct c as [| | | | | | | |nm [|f [|n [|]]] b]; auto; intros _; lia.
Qed.

(** The hypotheses hold for two lookups served one after the other. *)
Example C35_example : exists rs trc,
  runs (lookups_do 6 (map (fun '(ip, iplen, name) => (ip, iplen, name ++ [0])) reqs2)) trc (Fin rs) /\
  runs (helper 3 5 7 (repeat 1 257) (repeat 1 129)) htrace Cut /\
  Forall dgram trc /\ Forall dgram htrace /\ Forall healthy trc /\
  delivered 257 (dsent 6 trc) (drecv 5 htrace) /\ delivered 256 (dsent 5 htrace) (drecv 6 trc) /\
  rs = [(16, a4 1 ++ repeat 0 112); (16, a4 2 ++ repeat 0 112)].
Proof.
  eexists _, _. split.
  { eapply exec_runs with (s := [mkans 256 0 []; mkans 17 0 (16 :: a4 1); mkans 256 0 []; mkans 17 0 (16 :: a4 2)]). vm_compute. reflexivity. }
  split. { eapply exec_runs with (s := hscript (bs "one") (bs "two") [4; 10; 0; 0; 1] [4; 10; 0; 0; 2]). vm_compute. reflexivity. }
  split; [apply ctx_dgram; vm_compute; reflexivity|]. split; [apply ctx_dgram; vm_compute; reflexivity|].
  split. { repeat (apply Forall_cons; [cbn; try lia|]). apply Forall_nil. }
  split. { exists (map pad [bs "one"; bs "two"]), []. split; vm_compute; reflexivity. }
  split. { exists [16 :: a4 1; 16 :: a4 2], []. split; vm_compute; reflexivity. }
  vm_compute. reflexivity.
Qed.

(** If a receive may fail in the middle (a signal), the next lookup gets the previous
    name's addresses. *)
Theorem C35_interrupted_refuted : exists rs trc,
  runs (lookups_do 6 (map (fun '(ip, iplen, name) => (ip, iplen, name ++ [0])) reqs2)) trc (Fin rs) /\
  runs (helper 3 5 7 (repeat 1 257) (repeat 1 129)) htrace Cut /\
  Forall dgram trc /\ Forall dgram htrace /\
  delivered 257 (dsent 6 trc) (drecv 5 htrace) /\ delivered 256 (dsent 5 htrace) (drecv 6 trc) /\
  (forall a, In (pad (bs "two") ++ [1], a) (resolved htrace) -> data a = [4; 10; 0; 0; 2]) /\
  In (pad (bs "two") ++ [1], mkans 0 0 [4; 10; 0; 0; 2]) (resolved htrace) /\
  nth_error rs 1 = Some (16, a4 1 ++ repeat 0 112).
Proof.
  eexists _, _. split.
  { eapply exec_runs with (s := [mkans 256 0 []; mkans (-1) 4 []; mkans 256 0 []; mkans 17 0 (16 :: a4 1)]). vm_compute. reflexivity. }
  split. { eapply exec_runs with (s := hscript (bs "one") (bs "two") [4; 10; 0; 0; 1] [4; 10; 0; 0; 2]). vm_compute. reflexivity. }
  split; [apply ctx_dgram; vm_compute; reflexivity|]. split; [apply ctx_dgram; vm_compute; reflexivity|].
  split. { exists (map pad [bs "one"; bs "two"]), []. split; vm_compute; reflexivity. }
  split. { exists [16 :: a4 1], [16 :: a4 2]. split; vm_compute; reflexivity. }
  assert (E : resolved htrace = [(pad (bs "one") ++ [1], mkans 0 0 [4; 10; 0; 0; 1]); (pad (bs "two") ++ [1], mkans 0 0 [4; 10; 0; 0; 2])]) by (vm_compute; reflexivity).
  rewrite E. split. { intros a [H|[H|[]]]; [exfalso; vm_compute in H; discriminate|]. injection H as <-. reflexivity. }
  split; [right; left; reflexivity|]. vm_compute. reflexivity.
Qed.
Print Assumptions C35_interrupted_refuted.

(** C68 (randombytes.c:49-74 with /dev/urandom). *)
Theorem C68_filled : forall fuel fd n tr o, legal tr -> runs (randombytes_c fuel fd n) tr o ->
  o <> Wrong /\ forall x, o = Fin x -> x = got fd tr /\ len x = Z.max 0 n.
Proof.
  intros fuel fd n tr o L R. destruct (randombytes_loop_ok fuel fd [] n tr o L R) as [R1 R2]. split; [exact R1|exact R2].
Qed.
Print Assumptions C68_filled.
Example C68_example : exec (randombytes_c 5 3 4) [mkans 1 0 [8]; mkans (-1) 4 []; mkans 0 0 []; mkans 3 0 [1; 2; 3]] =
  ([(Read 3 4, mkans 1 0 [8]); (Read 3 3, mkans (-1) 4 []); (Other (bs "sleep") [1] [], mkans 0 0 []); (Read 3 3, mkans 3 0 [1; 2; 3])],
   Fin [8; 1; 2; 3]).
Proof. vm_compute. reflexivity. Qed.
