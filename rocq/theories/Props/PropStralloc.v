(** C14, C15: growable strings. *)
From Verif.Model Require Import Base Sys Io Parsenum Stralloc.
From Verif.Spec Require Import Num Grow.
From Verif.Proof Require Import Tac NumP SysP StrallocP.

(** ** C14 *)

(** Every history starting from an empty buffer, with allocations failing anywhere: never UB;
    the content is what the operations' meaning prescribes for the results reported; length
    never exceeds capacity and the block has that capacity. *)
Theorem C14_history : forall l tr o,
  runs (sops sa_empty l) tr o -> Forall sop_wf l -> total l < 2 ^ 61 ->
  match o with
  | Wrong => False
  | Cut => True
  | Fin (results, r) => sems l results [] (content r) /\
      len (content r) = slen r /\ slen r <= salloc r /\
      match sm r with Some m => len m = salloc r | None => salloc r = 0 end
  end.
Proof.
  intros l tr o R W T. assert (S : sinv sa_empty) by (split; cbn; lia).
  pose proof (sops_ok _ _ _ _ R S W) as H. specialize (H ltac:(cbn [slen sa_empty]; lia)).
  destruct o as [[bs r]| |]; auto. destruct H as [H1 H2]. split; [exact H2|]. split; [apply content_len; auto|].
  destruct H1 as [A B]. split; [lia|]. destruct (sm r); lia.
Qed.
Print Assumptions C14_history.

(** In any reachable state a single operation fails only because the allocation it asked for
    failed (or its source never owned storage); an append that fails changes nothing at all. *)
Theorem C14_failure : forall l tr bs r x tr2 e r',
  runs (sops sa_empty l) tr (Fin (bs, r)) -> Forall sop_wf l -> total l < 2 ^ 60 ->
  runs (sop_run r x) tr2 (Fin (Fail e, r')) -> sop_wf x -> sop_size x < 2 ^ 60 ->
  ((exists t n a, tr2 = t ++ [(Alloc n, a)] /\ ret a = 0) \/ x = Scat None \/ x = Scopy None) /\
  match x with Scatb _ | Scats _ | Scat _ | Sappend _ | Szero => r' = r | _ => True end.
Proof.
  intros l tr bs r x tr2 e r' R W T R2 W2 T2. assert (S : sinv sa_empty) by (split; cbn; lia).
  assert (TS : slen r <= total l).
  { clear - R W T S. assert (G : forall l r0 tr bs r, runs (sops r0 l) tr (Fin (bs, r)) -> sinv r0 -> Forall sop_wf l -> slen r0 + total l < 2 ^ 61 ->
      slen r <= slen r0 + total l).
    { clear. induction l as [|x l IH]; intros r0 tr bs r R S W T; cbn [sops] in R.
      - destruct R as [_ R]. inv R. cbn. lia.
      - apply Forall_cons_iff in W as [Wx W]. cbn [total fold_right] in *. change (fold_right _ 0 l) with (total l) in *.
        assert (T0 : 0 <= total l).
        { clear. induction l as [|y l IH]; cbn [total fold_right]; [lia|]. pose proof (sop_size_nonneg y). change (fold_right _ 0 l) with (total l). lia. }
        apply runs_bind in R as [([c r1] & t1 & t2 & -> & R1 & R2)|[[_ E]|[_ E]]]; try discriminate.
        destruct (sop_ok _ _ _ _ R1 S Wx ltac:(lia)) as (S1 & _ & L1 & _).
        apply runs_bind in R2 as [([bs' r2] & u1 & u2 & -> & T1 & T2)|[[_ E]|[_ E]]]; try discriminate.
        destruct T2 as [_ T2]. inv T2. specialize (IH _ _ _ _ T1 S1 W ltac:(lia)). lia. }
    specialize (G _ _ _ _ _ R S W ltac:(cbn [slen sa_empty]; lia)). cbn [slen sa_empty] in G. lia. }
  destruct (sops_ok _ _ _ _ R S W ltac:(cbn [slen sa_empty]; lia)) as [S1 _].
  assert (B : slen r + sop_size x < 2 ^ 61) by lia.
  destruct (sop_ok _ _ _ _ R2 S1 W2 B) as (_ & _ & _ & H). specialize (H eq_refl). split.
  - destruct H as [H|H]; [left; exact H|]. destruct x as [| |[]| | | | |[]| | |]; cbn in H; tauto.
  - destruct x as [x|x|[x|]|c| |x|x|y|v w|v|]; auto; cbn [sop_run sop_size sop_wf] in *.
    + apply (catb_ok r x [] tr2 (Fin (Fail e, r'))); auto. rewrite app_nil_r. exact R2.
    + apply (cats_ok r x tr2 (Fin (Fail e, r'))); auto.
    + apply (catb_ok r x (repeat 0 32) tr2 (Fin (Fail e, r'))); auto.
    + destruct R2 as [_ R2]. inv R2. reflexivity.
    + apply (catb_ok r [c] [] tr2 (Fin (Fail e, r'))); auto.
    + apply (catb_ok r [0] [] tr2 (Fin (Fail e, r'))); auto.
Qed.
Print Assumptions C14_failure.

(** A failed copy loses the old content: "a failed operation leaves the content unchanged" is
    false of the code. *)
Theorem C14_failed_copy_refuted : exists r x tr r' e, sinv r /\ sop_wf x /\
  runs (sop_run r x) tr (Fin (Fail e, r')) /\ content r = [65] /\ content r' = [].
Proof.
  exists (mksa (Some (65 :: repeat 0 31)) 1 32), (Scopyb (repeat 66 40)), [(Alloc 96, mkans 0 ENOMEM [])],
    (mksa (Some (65 :: repeat 0 31)) 0 32), ENOMEM.
  split; [split; unfold len; cbn [sm slen salloc length repeat]; lia|]. split; [exact Logic.I|]. split; [|split; reflexivity].
  apply (exec_runs _ (sop_run (mksa (Some (65 :: repeat 0 31)) 1 32) (Scopyb (repeat 66 40))) [mkans 0 ENOMEM []]). reflexivity.
Qed.
Print Assumptions C14_failed_copy_refuted.

Definition okA : ans := mkans 1 0 [].
Definition noA : ans := mkans 0 ENOMEM [].
Example C14_ex : exists r, snd (exec (sops sa_empty [Scatb (repeat 7 30); Scats (bs "ab"); Scatnum (-12) 4; Szero; Scopys (bs "x"); Scat None; Sappend 9])
    [okA; noA; okA; okA]) = Fin ([true; false; true; true; true; false; true], r) /\ content r = bs "x" ++ [9].
Proof. eexists. split; reflexivity. Qed.

(** ** C15 *)

(** Appending a number: for every 64-bit value and width (subject only to the size bound) a
    successful call appends exactly the decimal text; see [number] and [padded]. *)
Theorem C15_number : forall r v width tr o, runs (stralloc_catnum0 r v width) tr o -> sinv r -> in_s64 v ->
  slen r + 21 + Z.max 0 width < 2 ^ 61 ->
  match o with
  | Wrong => False
  | Cut => True
  | Fin (Good, r') => exists t, number v width t /\ content r' = content r ++ t
  | Fin (Fail _, r') => (exists t n a, tr = t ++ [(Alloc n, a)] /\ ret a = 0) /\
      (content r' = content r \/ (v < 0 /\ content r' = content r ++ bs "-"))
  end.
Proof.
  intros r v w tr o R S I B. pose proof (catnum0_ok _ _ _ _ _ R S I B) as H. destruct o as [[[|e] r']| |]; auto.
  - tauto.
  - destruct H as (_ & H1 & H2). split; auto.
Qed.
Print Assumptions C15_number.

(** The text determines the number: two numbers with the same text (any widths) are equal. *)
Theorem C15_text_injective : forall v w v' w' t, number v w t -> number v' w' t -> v = v'.
Proof.
  assert (P : forall v w t, padded v w t -> decval t = v /\ exists c u, t = c :: u /\ digit c).
  { intros v w t (z & m & -> & N & D & _). split.
    - rewrite decval_app, D. assert (Z0 : decval (repeat 48 z) = 0).
      { clear. induction z; cbn [repeat decval]; [reflexivity|]. rewrite IHz. lia. }
      rewrite Z0. lia.
    - destruct z; cbn [repeat app].
      + destruct N as [->|(c & s & -> & C & _)]; [exists 48, []; split; [reflexivity|unfold digit; lia]|exists c, s; split; [auto|unfold digit; lia]].
      + exists 48, (repeat 48 z ++ m). split; auto. unfold digit. lia. }
  intros v w v' w' t [(V & H)|(V & u & E & H)] [(V' & H')|(V' & u' & E' & H')];
    apply P in H as (D & c & q & Q & C); apply P in H' as (D' & c' & q' & Q' & C').
  - congruence.
  - exfalso. rewrite Q in E'. inv E'. unfold digit in C. lia.
  - exfalso. rewrite Q' in E. inv E. unfold digit in C'. lia.
  - rewrite E in E'. inv E'. rewrite H0 in D. lia.
Qed.
Print Assumptions C15_text_injective.

(** Without padding, the numeral parser of the program reads the number back. *)
Theorem C15_parse_back : forall v t rest, in_s64 v -> number v 0 t ->
  parsenum_ parsenum_MIN parsenum_MAX (t ++ 0 :: rest) = Ok (1, v).
Proof.
  intros v t rest I N.
  assert (SN : signed_numeral t v /\ nonul t).
  { assert (PD : forall u m, padded u 0 m -> numeral m /\ decval m = u).
    { intros u m (z & m' & -> & A & B & C). pose proof (len_nonneg _ m'). replace z with O by lia. auto. }
    destruct N as [(V & H)|(V & u & -> & H)]; apply PD in H as [A B].
    - rewrite <- B. split; [constructor; auto|apply numeral_nonul; auto].
    - split; [|constructor; [lia|apply numeral_nonul; auto]]. replace v with (- decval u) by lia. constructor. auto. }
  destruct SN as [SN NU]. destruct (parsenum_correct t rest parsenum_MIN parsenum_MAX NU) as (ret & num & E & H). rewrite E.
  destruct H as [(-> & S2 & _)|(-> & -> & H)].
  - rewrite (signed_numeral_unique t num v); auto.
  - exfalso. apply (H v SN). split; auto. unfold in_s64, parsenum_MIN, parsenum_MAX, two63 in *. lia.
Qed.
Print Assumptions C15_parse_back.

(** Not for every width: a width near 2^63 overflows a signed sum. *)
Theorem C15_any_width_refuted : exists r width tr, sinv r /\ in_s64 width /\ runs (stralloc_catnum0 r 7 width) tr Wrong.
Proof.
  exists sa_empty, (two63 - 1), []. split; [split; cbn; lia|]. split; [unfold in_s64, two63; lia|].
  unfold stralloc_catnum0, stralloc_catunum0. change (7 <? 0) with false. cbn iota.
  change (u64 7) with 7. change (ndigits 20 7 1) with 1. change (1 <? two63 - 1) with true. cbn iota zeta.
  unfold stralloc_readyplus. change (two63 - 1 <? 0) with false. change (two63 - 1 =? 0) with false. cbn iota.
  cbn [slen sa_empty]. change (negb _) with true. cbn iota. cbn. auto.
Qed.
Print Assumptions C15_any_width_refuted.

Example C15_ex_min : exists r, snd (exec (stralloc_catnum0 sa_empty (- two63) 25) [okA; okA]) = Fin (Good, r)
  /\ content r = bs "-0000009223372036854775808".
Proof. eexists. split; reflexivity. Qed.
