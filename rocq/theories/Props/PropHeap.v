(** C25, C26, C27: the allocator. *)
From Verif.Model Require Import Base Sys Heap.
From Verif.Spec Require Import HeapSpec.
From Verif.Proof Require Import Tac SysP HeapP.

(** [reached space h tr s live dead L]: a user ran history [h] from program start with the
    system's answers in [tr]; the allocator is then in state [s], the user owns [live],
    freed [dead] since the last alloc_freeall, and malloc has [L] outstanding.  The static
    arena is 131072 bytes at [space]. *)
Definition reached (space : Z) (h : list aop) (tr : trace) (s : astate) (live dead L : list (Z * Z)) : Prop :=
  0 < space /\ space mod 32 = 0 /\ Forall okop h /\
  (exists mem0, runs (use space h (alloc_init mem0 space, [], [])) tr (Fin (s, live, dead))) /\
  heap (space, 131072) [] tr = Some L.

Lemma reached_inv : forall space h tr s live dead L, reached space h tr s live dead L -> inv space L s live dead.
Proof.
  intros space h tr s live dead L (SP & _ & OK & (mem0 & R) & H). pose proof (init_ok space mem0) as I.
  destruct (use_ok _ _ _ _ _ _ _ _ _ SP I OK H R) as (_ & _ & G). auto.
Qed.

(** ** C25: a successful allocation returns zeroed, aligned memory that overlaps nothing in use *)
Theorem C25_block : forall space h tr s live dead L n tr2 p e s' L2,
  reached space h tr s live dead L -> in_s64 n ->
  runs (alloc space s n) tr2 (Fin (p, e, s')) -> heap (space, 131072) L tr2 = Some L2 -> p <> 0 ->
  0 <= n /\ p mod 16 = 0 /\ (space <= p < space + 131072 -> p mod 32 = 0) /\
  (forall q, p <= q < p + n -> amem s' q = 0) /\
  n <= backing n /\
  ((space <= p /\ p + backing n <= space + 131072) \/ In (p, backing n) L2) /\
  (forall p1 n1, In (p1, n1) live -> apart (p, backing n) (p1, backing n1)).
Proof.
  intros space h tr s live dead L n tr2 p e s' L2 RC N R H P0. pose proof (reached_inv _ _ _ _ _ _ _ RC) as I. destruct RC as (SP & SM & _).
  destruct (alloc_ok _ _ _ _ _ _ _ _ _ SP I N H R) as (_ & _ & G). destruct (G _ _ _ eq_refl) as [_ G1]. destruct (G1 P0) as (_ & GB & EL & S & K & _). clear G G1.
  pose proof (fresh_ok _ _ _ _ _ _ _ _ _ SP I GB EL S) as [FA _]. destruct GB as (N1 & GZ & GB). destruct (aligned_ok n N1) as (AE & A1 & A2 & A3 & A4).
  destruct I as [IA IM IZ IB IS ISZ IT IAL IL ILV ISM IAP ID].
  assert (G : p mod 16 = 0 /\ (space <= p < space + 131072 -> p mod 32 = 0) /\ ((space <= p /\ p + backing n <= space + 131072) \/ In (p, backing n) L2)).
  { destruct GB as [(-> & [GA1 GA2] & _)|(_ & _ & (nd & GH) & _)].
    - assert (M : (space + avail s') mod 32 = 0). { rewrite GA1. rewrite Zplus_mod, SM, Zminus_mod, IM, A3. reflexivity. }
      assert (M2 : (space + avail s') mod 16 = 0). { pose proof (Z.div_mod (space + avail s') 32 ltac:(lia)) as D. rewrite M in D. rewrite D. replace (32 * ((space + avail s') / 32) + 0) with ((2 * ((space + avail s') / 32)) * 16) by lia. apply Z.mod_mul. lia. }
      split; auto. split; auto. left. unfold STATICSPACE in IA. lia.
    - assert (J : In (p, backing n) L2) by (rewrite EL, GH; right; left; reflexivity). pose proof (sound_in _ _ _ S J) as (_ & J1 & J2 & J3). cbn [fst snd] in *. split; auto. split; auto.
      unfold apart, arena, STATICSPACE in J3. cbn [fst snd] in J3. lia. }
  destruct G as (M1 & M2 & M3). repeat split; auto; try lia.
  - intros q Q. apply GZ. lia.
  - intros p1 n1 P1. rewrite Forall_forall in FA. apply (FA _ P1).
Qed.
Print Assumptions C25_block.

(** all owned blocks are pairwise disjoint *)
Theorem C25_disjoint : forall space h tr s live dead L i j p n p1 n1,
  reached space h tr s live dead L -> nth_error live i = Some (p, n) -> nth_error live j = Some (p1, n1) -> i <> j ->
  apart (p, backing n) (p1, backing n1).
Proof.
  intros space h tr s live dead L i j p n p1 n1 RC. pose proof (reached_inv _ _ _ _ _ _ _ RC) as I. destruct I as [IA IM IZ IB IS ISZ IT IAL IL ILV ISM IAP ID]. clear - IAP.
  revert i j. induction IAP as [|x l F1 F2 IH]; intros [|i] [|j] E1 E2 D; cbn [nth_error] in *; try discriminate; try congruence.
  - injection E1 as ->. apply nth_error_In in E2. rewrite Forall_forall in F1. apply (F1 _ E2).
  - injection E2 as ->. apply nth_error_In in E1. rewrite Forall_forall in F1. apply apart_sym. apply (F1 _ E1).
  - eapply IH; eauto.
Qed.
Print Assumptions C25_disjoint.

(** no operation changes the bytes of a block it does not write to or free *)
Theorem C25_kept : forall space h tr s live dead L i p n op tr2 L2 s' live' dead' q,
  reached space h tr s live dead L -> nth_error live i = Some (p, n) -> okop op ->
  runs (use1 space op (s, live, dead)) tr2 (Fin (s', live', dead')) -> heap (space, 131072) L tr2 = Some L2 ->
  match op with OpWrite j _ _ => j <> i | OpFree j => j <> i | OpFreeAll => False | _ => True end ->
  p <= q < p + backing n -> amem s' q = amem s q.
Proof.
  intros space h tr s live dead L i p n op tr2 L2 s' live' dead' q RC NT OK R H M Q. pose proof (reached_inv _ _ _ _ _ _ _ RC) as I. pose proof RC as (SP & _).
  assert (IN : In (p, n) live) by (eapply nth_error_In; eauto). destruct (live_in _ _ _ _ _ _ _ I IN) as [N LI]. destruct (aligned_ok n N) as (AE & A1 & A2 & A3 & A4).
  destruct op as [m|j off d|j| |v]; cbn [use1 okop] in *.
  - apply runs_bind in R as [([[p1 e] s2] & t3 & t4 & -> & R1 & R)|[[R1 E]|[R1 E]]]; [|discriminate|discriminate]. destruct R as [-> E]. injection E as -> _ _. rewrite app_nil_r in *.
    destruct (alloc_ok _ _ _ _ _ _ _ _ _ SP I OK H R1) as (_ & _ & G). destruct (G _ _ _ eq_refl) as [G1 G2].
    assert (K : kept (arena space) L s s2). { destruct (Z.eq_dec p1 0) as [Z|Z]; [destruct (G1 Z) as (_ & _ & _ & _ & _ & K & _)|destruct (G2 Z) as (_ & _ & _ & _ & K & _)]; auto. }
    destruct LI as [LI|LI]; [apply (K (arena space))|apply (K (p, backing n))]; cbn [fst snd arena]; auto. destruct I. lia.
  - destruct (nth_error live j) as [[p1 n1]|] eqn:NJ; [|destruct R as [-> E]; injection E as -> _ _; auto].
    destruct (Z.leb_spec 0 off); destruct (Z.leb_spec (off + len d) n1); cbn [andb] in R; destruct R as [-> E]; injection E as -> _ _; auto. cbn [amem].
    pose proof (C25_disjoint _ _ _ _ _ _ _ _ _ _ _ _ _ RC NT NJ ltac:(auto)) as AP. unfold apart in AP. cbn [fst snd] in AP.
    apply nth_error_In in NJ. destruct (live_in _ _ _ _ _ _ _ I NJ) as [N1 _]. destruct (aligned_ok n1 N1) as (_ & _ & B2 & _). apply setmem_out. lia.
  - destruct (nth_error live j) as [[p1 n1]|] eqn:NJ; [|destruct R as [-> E]; injection E as -> _ _; auto].
    apply runs_bind in R as [(s2 & t3 & t4 & -> & R1 & R)|[[R1 E]|[R1 E]]]; [|discriminate|discriminate]. destruct R as [-> E]. injection E as -> _ _. rewrite app_nil_r in *.
    destruct (free_ok _ _ _ _ _ _ _ _ _ _ _ SP I NJ H R1) as (_ & _ & G). destruct (G _ eq_refl) as (_ & _ & _ & G1 & _).
    pose proof (C25_disjoint _ _ _ _ _ _ _ _ _ _ _ _ _ RC NT NJ ltac:(auto)) as AP. unfold apart in AP. cbn [fst snd] in AP. apply G1. lia.
  - destruct M.
  - destruct R as [-> E]. injection E as -> _ _. unfold alloc_limit. destruct (v <? 0); auto.
Qed.
Print Assumptions C25_kept.

(** no operation has undefined behaviour *)
Theorem C25_no_ub : forall space mem0 h tr o L, 0 < space -> Forall okop h ->
  runs (use space h (alloc_init mem0 space, [], [])) tr o -> heap (space, 131072) [] tr = Some L -> o <> Wrong.
Proof.
  intros space mem0 h tr o L SP OK R H. destruct (use_ok _ _ _ _ _ _ _ _ _ SP (init_ok space mem0) OK H R) as (G & _). auto.
Qed.
Print Assumptions C25_no_ub.

(** ** C26: the limit *)

(** requested bytes of owned blocks that came from malloc, not from the static arena *)
Fixpoint heapsum (space : Z) (live : list (Z * Z)) : Z :=
  match live with
  | [] => 0
  | (p, n) :: l => (if (space <=? p) && (p <? space + 131072) then 0 else n) + heapsum space l
  end.
Lemma heapsum_total : forall space L s live dead, inv space L s live dead -> allocated s = heapsum space live.
Proof.
  intros space L s live dead I. destruct I as [IA IM IZ IB IS ISZ IT IAL IL ILV ISM IAP ID]. rewrite IT. clear - ISM. revert ISM.
  generalize (ahead s). intros l E.
  assert (T : total l = fold_right (fun x t => snd x + t) 0 (map (fun '(_, p, n) => (p, n)) l)).
  { clear. induction l as [|[[? ?] n] l IH]; cbn [total map fold_right snd]; auto. rewrite IH. reflexivity. }
  rewrite T, E. clear. induction live as [|[p n] live IH]; cbn [filter fold_right heapsum]; auto. unfold is_static, STATICSPACE in *. cbn [fst].
  destruct ((space <=? p) && (p <? space + 131072)); cbn [negb fold_right snd]; rewrite IH; lia.
Qed.

(** The allocator's counter is the sum of the owned heap blocks; a heap allocation succeeds
    only if the sum afterwards is within the limit: the last one configured, otherwise at
    most every positive resource limit the system reported. *)
Theorem C26_limit : forall space h tr s live dead L n tr2 p e s' L2,
  reached space h tr s live dead L -> in_s64 n ->
  runs (alloc space s n) tr2 (Fin (p, e, s')) -> heap (space, 131072) L tr2 = Some L2 ->
  allocated s = heapsum space live /\ 0 <= heapsum space live < two63 /\
  (p = 0 -> allocated s' = heapsum space live /\ e = (if n <? 0 then EINVAL else ENOMEM)) /\
  (p <> 0 -> allocated s' = heapsum space ((p, n) :: live)) /\
  (p <> 0 -> ~ (space <= p < space + 131072) ->
     heapsum space ((p, n) :: live) = heapsum space live + n /\
     match limit_of h with
     | Some v => heapsum space live + n <= v
     | None => forall k a, In (Other (bs "getrlimit") [k] [], a) (tr ++ tr2) -> ret a <> -1 -> 0 < hd 0 (data a) < two63 ->
         heapsum space live + n <= hd 0 (data a)
     end).
Proof.
  intros space h tr s live dead L n tr2 p e s' L2 RC N R H. pose proof (reached_inv _ _ _ _ _ _ _ RC) as I. destruct RC as (SP & SM & OK & (mem0 & RU) & HU).
  destruct (alloc_ok _ _ _ _ _ _ _ _ _ SP I N H R) as (_ & _ & G). destruct (G _ _ _ eq_refl) as [G0 G1]. pose proof (heapsum_total _ _ _ _ _ I) as HS. rewrite <- HS.
  split; auto. split; [apply I|]. split; [|split].
  - intros P0. destruct (G0 P0) as (E1 & _ & _ & E2 & _). split; [congruence|]. exact E1.
  - intros P0. destruct (G1 P0) as (_ & GB & EL & S & _). cbn [heapsum]. rewrite <- HS. destruct GB as (N1 & _ & GB). destruct (aligned_ok n N1) as (AE & A1 & A2 & A3 & A4).
    destruct I as [IA IM IZ IB IS ISZ IT IAL IL ILV ISM IAP ID]. unfold STATICSPACE in *. destruct GB as [(-> & GA & GT & _)|(_ & _ & (nd & GH) & GT & _)]; rewrite GT.
    + replace (space <=? space + avail s') with true by lia. replace (space + avail s' <? space + 131072) with true by lia. cbn [andb]. lia.
    + assert (J : In (p, backing n) L2) by (rewrite EL, GH; right; left; reflexivity). pose proof (sound_in _ _ _ S J) as (_ & J1 & J2 & J3).
      unfold apart, arena, STATICSPACE in J3. cbn [fst snd] in J3.
      destruct (Z.leb_spec space p); destruct (Z.ltb_spec p (space + 131072)); cbn [andb]; lia.
  - intros P0 NS. destruct (G1 P0) as (_ & GB & EL & S & _). destruct GB as (N1 & _ & GB). destruct (aligned_ok n N1) as (AE & A1 & A2 & A3 & A4).
    cbn [heapsum]. rewrite <- HS. split. { destruct (Z.leb_spec space p); destruct (Z.ltb_spec p (space + 131072)); cbn [andb]; lia. }
    pose proof I as I0. destruct I as [IA IM IZ IB IS ISZ IT IAL IL ILV ISM IAP ID]. destruct GB as [(-> & GA & GT & _)|(_ & _ & _ & GT & GL)]; [exfalso; apply NS; unfold STATICSPACE in *; lia|].
    pose proof (alloc_lim _ _ _ _ _ _ _ (proj1 IL) R) as LF.
    assert (LS : limst s (limit_of h) tr).
    { pose proof (use_lim space h (alloc_init mem0 space) [] [] tr s live dead None [] ltac:(cbn [alloc_init alimit]; lia) ltac:(intros; discriminate)) as U.
      cbn [app] in U. destruct (limit_of h); apply U; auto; left; split; auto; intros ? []. }
    destruct LF as [LF1 LF2]. destruct (limit_of h) as [v|] eqn:LO; cbn [limst] in LS.
    + assert (0 <= v). { clear - LO. revert LO. induction h as [|op h IH]; cbn [limit_of]; [discriminate|]. destruct (limit_of h); [intros Q; injection Q as ->; auto|].
        destruct op; try discriminate. destruct (Z.ltb_spec v0 0); [discriminate|]. intros Q; injection Q as <-; auto. }
      destruct LF1 as [LF1 _]; lia.
    + intros k a IA1 RA C. destruct LS as [[L1 L3]|[L1 L3]].
      * destruct (LF2 L1) as [[B1 B2]|[B1 B2]]; [lia|]. apply in_app_iff in IA1 as [IA1|IA1]; [exfalso; apply (L3 _ IA1); exists k; reflexivity|]. specialize (B2 k a IA1 RA C). lia.
      * destruct LF1 as [LF1 LF3]; [lia|]. apply in_app_iff in IA1 as [IA1|IA1]; [|exfalso; apply (LF3 _ IA1); exists k; reflexivity]. specialize (L3 k a IA1 RA C). lia.
Qed.
Print Assumptions C26_limit.

(** a request that neither fits the rest of the arena nor the configured limit fails *)
Theorem C26_refused : forall space h tr s live dead L n v tr2 p e s' L2,
  reached space h tr s live dead L -> in_s64 n -> 0 <= n ->
  runs (alloc space s n) tr2 (Fin (p, e, s')) -> heap (space, 131072) L tr2 = Some L2 ->
  limit_of h = Some v -> v < heapsum space live + n -> p = 0 \/ space <= p < space + 131072.
Proof.
  intros space h tr s live dead L n v tr2 p e s' L2 RC N N0 R H LO V. destruct (Z.eq_dec p 0) as [P0|P0]; auto. right.
  destruct (C26_limit _ _ _ _ _ _ _ _ _ _ _ _ _ RC N R H) as (_ & _ & _ & _ & G). rewrite LO in G.
  destruct (Z_le_dec space p); [destruct (Z_lt_dec p (space + 131072))|]; auto; destruct G as [_ G]; auto; lia.
Qed.
Print Assumptions C26_refused.

(** ** C27: freed memory is wiped *)

(** every free is of a block malloc has handed out and not taken back, and the block is all
    zero at that moment, unless it is one of the 24-byte nodes of the tracking list *)
Theorem C27_wiped : forall space mem0 h tr o L0, 0 < space -> Forall okop h ->
  runs (use space h (alloc_init mem0 space, [], [])) tr o -> heap (space, 131072) [] tr = Some L0 ->
  forall t1 p d a t2 L, tr = t1 ++ (Other (bs "free") [p] d, a) :: t2 -> heap (space, 131072) [] t1 = Some L ->
  exists n, In (p, n) L /\ (n = 24 \/ d = repeat 0 (Z.to_nat n)).
Proof.
  intros space mem0 h tr o L0 SP OK R H t1 p d a t2 L E HL. destruct (use_ok _ _ _ _ _ _ _ _ _ SP (init_ok space mem0) OK H R) as (_ & F & _).
  rewrite E in F. eapply frees_split; eauto.
Qed.
Print Assumptions C27_wiped.

(** freeing an owned heap block: its whole backing memory is zero when it is released *)
Theorem C27_free : forall space h tr s live dead L i p n tr2 s' L2,
  reached space h tr s live dead L -> nth_error live i = Some (p, n) -> ~ (space <= p < space + 131072) ->
  runs (alloc_free space s p) tr2 (Fin s') -> heap (space, 131072) L tr2 = Some L2 ->
  exists d a node b, tr2 = [(Other (bs "free") [p] d, a); (Other (bs "free") [node] [], b)] /\
    len d = backing n /\ n <= backing n /\ Forall (fun x => x = 0) d.
Proof.
  intros space h tr s live dead L i p n tr2 s' L2 RC NT NS R H. pose proof (reached_inv _ _ _ _ _ _ _ RC) as I. destruct RC as (SP & _).
  destruct (free_ok _ _ _ _ _ _ _ _ _ _ _ SP I NT H R) as (_ & _ & G). destruct (G _ eq_refl) as (_ & _ & G1 & _).
  destruct (is_static space p) eqn:ST; [apply static_ok in ST; unfold STATICSPACE in ST; contradiction|]. destruct (G1 eq_refl) as (nd & d & a & b & -> & ->).
  destruct (live_in _ _ _ _ _ _ _ I (nth_error_In _ _ NT)) as [N _]. destruct (aligned_ok n N) as (AE & A1 & A2 & A3 & A4).
  exists (repeat 0 (Z.to_nat (backing n))), a, nd, b. split; auto. split; [unfold len; rewrite repeat_length; lia|]. split; [lia|]. apply Forall_forall. intros x X. eapply repeat_spec; eauto.
Qed.
Print Assumptions C27_free.

(** memory of the arena is handed out only once between two alloc_freeall, so that a block
    freed individually is never seen by a later owner *)
Theorem C27_arena : forall space h tr s live dead L n tr2 p e s' L2 p1 n1,
  reached space h tr s live dead L -> in_s64 n ->
  runs (alloc space s n) tr2 (Fin (p, e, s')) -> heap (space, 131072) L tr2 = Some L2 -> p <> 0 ->
  space <= p < space + 131072 -> In (p1, n1) dead -> space <= p1 < space + 131072 -> p + backing n <= p1.
Proof.
  intros space h tr s live dead L n tr2 p e s' L2 p1 n1 RC N R H P0 PS DD DS. pose proof (reached_inv _ _ _ _ _ _ _ RC) as I. destruct RC as (SP & SM & _).
  destruct (alloc_ok _ _ _ _ _ _ _ _ _ SP I N H R) as (_ & _ & G). destruct (G _ _ _ eq_refl) as [_ G1]. destruct (G1 P0) as (_ & GB & EL & S & K & _).
  pose proof (fresh_ok _ _ _ _ _ _ _ _ _ SP I GB EL S) as [_ FA]. rewrite Forall_forall in FA. apply (FA _ DD); apply static_ok; auto.
Qed.
Print Assumptions C27_arena.

(** alloc_freeall wipes the whole arena and releases every heap block *)
Theorem C27_freeall : forall space h tr s live dead L tr2 s' L2,
  reached space h tr s live dead L ->
  runs (alloc_freeall space s) tr2 (Fin s') -> heap (space, 131072) L tr2 = Some L2 ->
  L2 = [] /\ (forall q, space <= q < space + 131072 -> amem s' q = 0) /\ allocated s' = 0.
Proof.
  intros space h tr s live dead L tr2 s' L2 RC R H. pose proof (reached_inv _ _ _ _ _ _ _ RC) as I. destruct RC as (SP & _).
  destruct (freeall_ok _ _ _ _ _ _ _ _ SP I H R) as (_ & _ & G). destruct (G _ eq_refl) as (_ & G1 & G2 & _ & _ & G3). auto.
Qed.
Print Assumptions C27_freeall.

(** a block of the arena that is freed individually keeps its content until then *)
Theorem C27_static_refuted : exists space h tr s live dead L p n,
  reached space h tr s live dead L /\ In (p, n) dead /\ amem s p = 42.
Proof.
  exists 32768, [OpAlloc 5; OpWrite 0 0 [42; 43]; OpFree 0], []. eexists _, _, _, [], (32768 + 131072 - 32), 5. split.
  - split; [lia|]. split; [reflexivity|]. split; [repeat constructor; unfold two63; lia|]. split; [|reflexivity]. exists (fun _ => 7). split; reflexivity.
  - split; [left; reflexivity|reflexivity].
Qed.
Print Assumptions C27_static_refuted.

(** ** Examples *)
Definition ex_h : list aop := [OpLimit 300000; OpAlloc 100; OpWrite 0 0 [1; 2; 3]; OpAlloc 200000].
Definition ex_script : list ans := [mkans 4194304 0 [9; 9; 9]; mkans 8388608 0 []].
Definition ex_tr : trace := [(Other (bs "malloc") [200000] [], mkans 4194304 0 [9; 9; 9]); (Other (bs "malloc") [24] [], mkans 8388608 0 [])].

Example ex_run : exists s, reached 65536 ex_h ex_tr s [(4194304, 200000); (65536 + 131072 - 128, 100)] [] [(8388608, 24); (4194304, 200000)] /\
  amem s 4194304 = 0 /\ allocated s = 200000 /\ heapsum 65536 [(4194304, 200000); (65536 + 131072 - 128, 100)] = 200000 /\ limit_of ex_h = Some 300000.
Proof.
  eexists. split.
  - split; [lia|]. split; [reflexivity|]. split; [repeat constructor; unfold two63; lia|]. split; [|vm_compute; reflexivity]. exists (fun _ => 7).
    unfold ex_tr, ex_h. eapply runs_bind. left. eexists. exists [], ex_tr. split; [reflexivity|]. split; [split; reflexivity|].
    eapply runs_bind. left. eexists. exists [], ex_tr. split; [reflexivity|]. split; [split; reflexivity|].
    eapply runs_bind. left. eexists. exists [], ex_tr. split; [reflexivity|]. split; [split; reflexivity|].
    eapply runs_bind. left. eexists. exists ex_tr, []. split; [reflexivity|]. split; [|split; reflexivity].
    right. eexists _, _. split; [reflexivity|]. cbn -[setmem getmem cleanup firstn repeat Z.to_nat]. right. eexists _, _. split; [reflexivity|]. split; reflexivity.
  - repeat split; reflexivity.
Qed.
