(** C20-C22: buffered output and input. *)
From Verif.Model Require Import Base Sys Io Buffer.
From Verif.Spec Require Import Stream.
From Verif.Proof Require Import Tac SysP IoP StrP BufferP.

(** ** C20  output *)

(** Any history of puts, puts, putc, flush, putflush and putsflush calls on a freshly
    initialised buffer over [x], stopping at the first failure: what reached the descriptor
    plus what is pending is exactly the arguments in order; pending fits the buffer; on
    failure, or at any unfinished point, a prefix was sent. *)
Theorem C20_output : forall fuel fd x size l tr o,
  runs (wops fuel (buffer_init fd x size) l) tr o -> legal tr -> 0 <= size <= len x -> Forall wop_wf l ->
  match o with
  | Wrong => False
  | Cut => is_prefix (sent fd tr) (concat (map wop_arg l))
  | Fin (Good, s) => sent fd tr ++ firstn (Z.to_nat (bp s)) (bx s) = concat (map wop_arg l) /\ 0 <= bp s <= size
  | Fin (Fail e, s) => is_prefix (sent fd tr) (concat (map wop_arg l)) /\ 0 <= bp s <= size
      /\ exists t b a, tr = t ++ [(Write fd b, a)] /\ ret a = -1 /\ err a <> EINTR
  end.
Proof.
  intros fuel fd x size l tr o R L S F.
  assert (I : winv (buffer_init fd x size)).
  { unfold buffer_init. destruct (Z.ltb_spec size 0); [lia|]. split; cbn; lia. }
  assert (BN : bn (buffer_init fd x size) = size). { unfold buffer_init. cbn. destruct (Z.ltb_spec size 0); lia. }
  pose proof (wops_ok _ _ _ _ _ R L I F) as H. unfold put_post in H. change (bfd (buffer_init fd x size)) with fd in H.
  change (pending (buffer_init fd x size)) with (@nil Z) in H. cbn [app] in H.
  destruct o as [[[|e] s]| |]; auto.
  - destruct H as (H1 & [W1 W2] & H3 & H4). split; auto. lia.
  - destruct H as (H1 & (t & fd' & b & a & -> & G) & [W _] & B). split; auto. split; [lia|].
    assert (fd' = fd).
    { clear -R. assert (X : forall e, In e (t ++ [(Write fd' b, a)]) -> match e with (Write f _, _) => f = fd | _ => True end).
      { apply (wops_fd _ _ _ _ _ R). }
      apply (X (Write fd' b, a)). apply in_or_app. right. left. reflexivity. }
    subst. exists t, b, a. auto.
Qed.
Print Assumptions C20_output.

(** After a successful flush, putflush or putsflush nothing is pending. *)
Theorem C20_flushed : forall fuel fd x size l y tr s,
  runs (wops fuel (buffer_init fd x size) (l ++ [y])) tr (Fin (Good, s)) -> legal tr -> 0 <= size <= len x ->
  Forall wop_wf (l ++ [y]) -> wop_flushes y ->
  bp s = 0 /\ sent fd tr = concat (map wop_arg (l ++ [y])).
Proof.
  intros fuel fd x size l y tr s R L S F Y.
  assert (E : bp s = 0).
  { assert (I : winv (buffer_init fd x size)).
    { unfold buffer_init. destruct (Z.ltb_spec size 0); [lia|]. split; cbn; lia. }
    clear S. revert I R L F. generalize (buffer_init fd x size). revert tr.
    induction l as [|z l IH]; intros tr s0 I R L F; cbn [app wops] in R; apply Forall_cons_iff in F as [Fz F].
    - apply runs_bind in R as [([c s1] & t1 & t2 & -> & R1 & R2)|[[_ E]|[_ E]]]; try discriminate.
      apply legal_app in L as [L1 L2]. destruct (wop_ok _ _ _ _ _ R1 L1 I Fz) as [_ H].
      destruct c; destruct R2 as [_ R2]; inv R2. apply H; auto.
    - apply runs_bind in R as [([c s1] & t1 & t2 & -> & R1 & R2)|[[_ E]|[_ E]]]; try discriminate.
      apply legal_app in L as [L1 L2]. destruct (wop_ok _ _ _ _ _ R1 L1 I Fz) as [H _].
      destruct c; [|destruct R2 as [_ R2]; inv R2]. destruct H as (_ & H & _). apply (IH t2 s1); auto. }
  split; auto. pose proof (C20_output _ _ _ _ _ _ _ R L S F) as [H _]. rewrite E in H. rewrite <- H.
  change (firstn (Z.to_nat 0) (bx s)) with (@nil Z). rewrite app_nil_r. reflexivity.
Qed.
Print Assumptions C20_flushed.

(** An unfinished run of one call has not been given a hard error: with enough loop fuel the
    only unfinished runs are those the kernel keeps waiting. *)
Definition ok (n : Z) : ans := mkans n 0 [].
Definition fail (e : Z) : ans := mkans (-1) e [].
Definition demo : list wop := [Oput [1;2;3]; Oputc 4; Oputs [5;6;7;8;9]; Oputflush [10]].
Example C20_ex : let r := exec (wops 20 (buffer_init 7 [0;0;0;0] 4) demo) [ok 2; fail EINTR; ok 2; ok 3; ok 2; ok 1] in
  (exists s, snd r = Fin (Good, s) /\ bp s = 0) /\ sent 7 (fst r) = [1;2;3;4;5;6;7;8;9;10].
Proof. split; [eexists; split|]; reflexivity. Qed.

(** ** C21  retry after a failed flush *)

(** A failed flush leaves the buffer as it was, so the next successful one sends all pending
    bytes, including those the first had already written. *)
Theorem C21_retry_resends : forall fuel s tr1 tr2 e s1 s2,
  runs (buffer_flush fuel s) tr1 (Fin (Fail e, s1)) -> runs (buffer_flush fuel s1) tr2 (Fin (Good, s2)) ->
  legal tr1 -> legal tr2 -> winv s ->
  s1 = s /\ is_prefix (sent (bfd s) tr1) (pending s) /\ sent (bfd s) tr2 = pending s /\ pending s2 = [].
Proof.
  intros fuel s tr1 tr2 e s1 s2 R1 R2 L1 L2 W.
  pose proof (flush_ok _ _ _ _ R1 L1 W) as (-> & H1 & _). pose proof (flush_ok _ _ _ _ R2 L2 W) as [H2 ->].
  auto.
Qed.
Print Assumptions C21_retry_resends.

(** The claim that the retry delivers only the remaining bytes is false. *)
Theorem C21_retry_refuted : exists fuel s tr1 tr2 e s1 s2,
  runs (buffer_flush fuel s) tr1 (Fin (Fail e, s1)) /\ runs (buffer_flush fuel s1) tr2 (Fin (Good, s2)) /\
  legal tr1 /\ legal tr2 /\ winv s /\ e = EAGAIN /\
  sent (bfd s) tr1 ++ sent (bfd s) tr2 <> pending s.
Proof.
  exists 9%nat, (mkbuf [1;2;3] 3 3 7),
    [(Write 7 [1;2;3], ok 2); (Write 7 [3], fail EAGAIN)], [(Write 7 [1;2;3], ok 3)], EAGAIN, (mkbuf [1;2;3] 3 3 7), (mkbuf [1;2;3] 0 3 7).
  split; [apply (exec_runs _ (buffer_flush 9 (mkbuf [1;2;3] 3 3 7)) [ok 2; fail EAGAIN]); reflexivity|].
  split; [apply (exec_runs _ (buffer_flush 9 (mkbuf [1;2;3] 3 3 7)) [ok 3]); reflexivity|].
  split; [legal_by|].
  split; [legal_by|].
  split; [unfold winv, len; cbn [bp bn bx length]; lia|]. split; [reflexivity|]. cbn. discriminate.
Qed.
Print Assumptions C21_retry_refuted.

(** ** C22  input *)

(** Any history of feed, get, getc and seek (after peek) calls on a fresh buffer, with any
    kernel answers: the bytes delivered, in order, followed by the bytes still buffered, are
    exactly the bytes the descriptor gave; position plus count stays the buffer size. *)
Theorem C22_input : forall fuel fd x size l tr o,
  runs (rops fuel (buffer_init fd x size) l) tr o -> legal tr -> 0 < size <= len x -> Forall rop_wf l ->
  match o with
  | Wrong => False
  | Cut => True
  | Fin (rs, s) => concat (map snd rs) ++ firstn (Z.to_nat (bp s)) (skipn (Z.to_nat (bn s)) (bx s)) = got fd tr
      /\ 0 <= bp s /\ 0 <= bn s /\ bp s + bn s = size
  end.
Proof.
  intros fuel fd x size l tr o R L S F.
  assert (I : rinv size (buffer_init fd x size)).
  { unfold buffer_init. destruct (Z.ltb_spec size 0); [lia|]. repeat split; cbn; lia. }
  pose proof (rops_ok _ _ _ _ _ _ R L I ltac:(lia) F) as H. destruct o as [[rs s]| |]; auto.
  destruct H as ((H1 & H2 & H3 & _) & _ & H4). split; [|auto]. symmetry. exact H4.
Qed.
Print Assumptions C22_input.

(** One call in any reachable state.  0 is returned only when its last system call was a read
    of at least one byte that returned 0 (end of file); get returns as many bytes as it says. *)
Theorem C22_call : forall fuel fd x size l tr rs s y tr2 o,
  runs (rops fuel (buffer_init fd x size) l) tr (Fin (rs, s)) -> legal tr -> 0 < size <= len x -> Forall rop_wf l ->
  runs (rop_run fuel s y) tr2 o -> legal tr2 -> rop_wf y ->
  match o with
  | Wrong => False
  | Cut => got fd tr2 = []
  | Fin (r, b, s') => (r = 0 -> exists t n a, tr2 = t ++ [(Read fd n, a)] /\ 0 < n /\ ret a = 0) /\
      match y with Iget n => len b = Z.max 0 r /\ r <= n | Igetc => len b = Z.max 0 r /\ r <= 1 | _ => True end
  end.
Proof.
  intros fuel fd x size l tr rs s y tr2 o R L S F R2 L2 Y.
  assert (I : rinv size (buffer_init fd x size)).
  { unfold buffer_init. destruct (Z.ltb_spec size 0); [lia|]. repeat split; cbn; lia. }
  destruct (rops_ok _ _ _ _ _ _ R L I ltac:(lia) F) as (J & E & _). change (bfd (buffer_init fd x size)) with fd in E.
  pose proof (rop_ok _ _ _ _ _ _ R2 L2 J ltac:(lia) Y) as H. rewrite E in H.
  destruct o as [[[r b] s']| |]; auto. destruct H as (_ & _ & _ & H). split; [exact H|].
  destruct y as [|n| |n]; auto; cbn [rop_run] in R2;
    apply runs_bind in R2 as [([[[r1 e] b1] s1] & t1 & t2 & -> & R3 & R4)|[[_ Z0]|[_ Z0]]]; try discriminate;
    destruct R4 as [-> R4]; inv R4; rewrite app_nil_r in *.
  - destruct (get_ok _ _ _ _ _ _ R3 L2 J ltac:(lia) Y) as (_ & _ & _ & A & B & _). auto.
  - destruct (getc_ok _ _ _ _ _ R3 L2 J ltac:(lia)) as (_ & _ & _ & A & B & _). auto.
Qed.
Print Assumptions C22_call.

(** buffer_copy between fresh buffers on different descriptors moves the input stream
    unchanged; 0 means the input reached end of file. *)
Theorem C22_copy : forall fuel fo xo so fi xi si tr o,
  runs (buffer_copy fuel (buffer_init fo xo so) (buffer_init fi xi si)) tr o -> legal tr ->
  0 <= so <= len xo -> 0 < si <= len xi -> fo <> fi ->
  match o with
  | Wrong => False
  | Cut => is_prefix (sent fo tr) (got fi tr)
  | Fin (r, bout, bin) =>
      (r = 0 /\ sent fo tr ++ firstn (Z.to_nat (bp bout)) (bx bout) = got fi tr /\
        exists t n a, tr = t ++ [(Read fi n, a)] /\ 0 < n /\ ret a = 0) \/
      (r = -2 /\ sent fo tr ++ firstn (Z.to_nat (bp bout)) (bx bout) = got fi tr) \/
      (r = -3 /\ is_prefix (sent fo tr) (got fi tr))
  end.
Proof.
  intros fuel fo xo so fi xi si tr o R L SO SI ND.
  assert (I : rinv si (buffer_init fi xi si)).
  { unfold buffer_init. destruct (Z.ltb_spec si 0); [lia|]. repeat split; cbn; lia. }
  assert (W : winv (buffer_init fo xo so)).
  { unfold buffer_init. destruct (Z.ltb_spec so 0); [lia|]. split; cbn; lia. }
  pose proof (copy_ok _ _ _ _ _ _ R L W I ltac:(lia) ND) as H.
  change (pending (buffer_init fo xo so)) with (@nil Z) in H. change (window (buffer_init fi xi si)) with (@nil Z) in H.
  cbn [app] in H. change (bfd (buffer_init fo xo so)) with fo in H. change (bfd (buffer_init fi xi si)) with fi in H.
  destruct o as [[[r bo] bi]| |]; auto. destruct H as [([-> | ->] & H1 & H2 & H3)|(-> & H)]; auto.
Qed.
Print Assumptions C22_copy.

Definition rd (b : list Z) : ans := mkans (len b) 0 b.
Example C22_ex : snd (exec (rops 9 (buffer_init 5 [0;0;0;0] 4) [Ifeed; Iget 2; Igetc; Iget 3; Iseek 1; Iget 9; Igetc])
    [rd [1;2;3]; rd [4;5]; fail EINTR; rd [6;7]; rd []])
  = Fin ([(3, []); (2, [1;2]); (1, [3]); (2, [4;5]); (-1, []); (2, [6;7]); (0, [])], mkbuf [4;5;4;5] 0 4 5).
Proof. reflexivity. Qed.
Example C22_copy_ex : let r := exec (buffer_copy 9 (buffer_init 8 [0;0;0] 3) (buffer_init 5 [0;0] 2))
    [rd [1;2]; rd [3;4]; ok 3; rd [5]; rd []] in
  (exists bo bi, snd r = Fin (0, bo, bi) /\ firstn (Z.to_nat (bp bo)) (bx bo) = [4;5]) /\ sent 8 (fst r) = [1;2;3].
Proof. split; [do 2 eexists; split|]; reflexivity. Qed.
