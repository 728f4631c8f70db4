(** Round trip of message sequences through the framed pipe functions. *)
From Verif.Model Require Import Base Sys Io.
From Verif.Model Require Export Framed.
From Verif.Spec Require Import Stream.
From Verif.Proof Require Import Tac SysP IoP.

(** A writer sending a list of messages. *)
Fixpoint write_msgs (fuel : nat) (fd : Z) (ms : list (list Z)) : prog rc :=
  match ms with
  | [] => Ret Good
  | m :: t => c <~ pipe_write fuel fd m (len m) ;;
              match c with Good => write_msgs fuel fd t | Fail e => Ret (Fail e) end
  end.

Definition admits (r : reader) (m : list Z) : Prop :=
  match r with
  | Exact n => n = len m /\ n <= 1048576
  | Upto cap => len m <= cap <= 1048576
  | Fresh => len m < 2 ^ 63
  end.
(** Stops at the first failure; the flag tells whether all messages were read. *)
Fixpoint read_msgs (fuel : nat) (fd : Z) (rs : list reader) : prog (list (list Z) * bool) :=
  match rs with
  | [] => Ret ([], true)
  | r :: t => x <~ read_msg fuel fd r ;;
              match x with
              | None => Ret ([], false)
              | Some m => '(ms, ok) <~ read_msgs fuel fd t ;; Ret (m :: ms, ok)
              end
  end.

Lemma write_msgs_ok : forall fuel fd ms tr o, runs (write_msgs fuel fd ms) tr o -> legal tr ->
  Forall (fun m => len m < two63) ms ->
  match o with
  | Wrong => False
  | Fin Good => sent fd tr = concat (map frame ms) /\ quiet tr
  | Fin (Fail _) => is_prefix (sent fd tr) (concat (map frame ms)) /\ ends_hard tr
  | Cut => is_prefix (sent fd tr) (concat (map frame ms)) /\ quiet tr
  end.
Proof.
  intros fuel fd. induction ms as [|m ms IH]; intros tr o R L F; cbn [write_msgs map concat] in *.
  - destruct R as [-> ->]. split; [reflexivity|apply quiet_nil].
  - apply Forall_cons_iff in F as [Fm F]. rewrite <- (app_nil_r m) in R at 1.
    apply runs_bind in R as [(c & t1 & t2 & -> & R1 & R2)|[[R1 ->]|[R1 ->]]].
    + apply legal_app in L as [L1 L2]. destruct (pipe_write_ok _ _ _ _ _ _ R1 L1 Fm) as [_ H].
      rewrite sent_app. destruct c as [|e].
      * destruct H as [-> Q]. specialize (IH _ _ R2 L2 F). destruct o as [[|e]| |]; auto.
        -- destruct IH as [-> ?]. split; auto. apply quiet_app. auto.
        -- destruct IH as [? ?]. split; [apply is_prefix_app2; auto|apply ends_hard_app; auto].
        -- destruct IH as [? ?]. split; [apply is_prefix_app2; auto|apply quiet_app; auto].
      * destruct R2 as [-> ->]. cbn [sent]. rewrite !app_nil_r. split; [apply is_prefix_app|]; tauto.
    + destruct (pipe_write_ok _ _ _ _ _ _ R1 L Fm) as [_ []].
    + destruct (pipe_write_ok _ _ _ _ _ _ R1 L Fm) as [_ H]. split; [apply is_prefix_app|]; tauto.
Qed.

Lemma is_prefix_len : forall p l, is_prefix p l -> (length p <= length l)%nat.
Proof. intros p l [u ->]. rewrite app_length. lia. Qed.

(** A stream starting with [frame m] and another one starting with a complete frame agree. *)
Lemma prefix_frame : forall m m' S rest, len m < two64 -> len m' < two64 ->
  is_prefix (frame m') (frame m ++ rest) -> S = frame m' -> m' = m /\ S = frame m.
Proof.
  intros m m' S rest L L' [u E] ->. symmetry in E. apply frame_prefix in E as [-> _]; auto.
Qed.
Lemma prefix_hdr : forall m h rest, length h = 8%nat -> is_prefix h (frame m ++ rest) -> h = le 8 (len m).
Proof.
  intros m h rest L [u E]. unfold frame in E. rewrite <- app_assoc in E.
  apply app_eq_len in E as [E _]; [auto|]. rewrite le_length. auto.
Qed.

Lemma leval_len : forall m : list Z, len m < two64 -> leval (le 8 (len m)) = len m.
Proof. intros. apply leval_le. change (256 ^ Z.of_nat 8) with two64. pose proof (len_nonneg _ m). lia. Qed.

Lemma zeros_len : forall n, len (zeros n) = Z.max 0 n.
Proof. intros. unfold zeros, len. rewrite repeat_length. lia. Qed.

Lemma read_msg_ok : forall fuel fd r m rest tr o, runs (read_msg fuel fd r) tr o -> legal tr ->
  admits r m -> is_prefix (got fd tr) (frame m ++ rest) ->
  match o with
  | Wrong => False
  | Cut => quiet tr
  | Fin (Some m') => m' = m /\ got fd tr = frame m /\ quiet tr
  | Fin None => ends_hard tr
  end.
Proof.
  intros fuel fd r m rest tr o R L A P. pose proof (len_nonneg _ m) as LN.
  destruct r as [n|cap|]; cbn [read_msg admits] in *.
  - destruct A as [-> A].
    assert (B1 : 0 <= len m <= len (zeros (len m))) by (rewrite zeros_len; lia).
    apply runs_bind in R as [([c b] & t1 & t2 & -> & R1 & R2)|[[R1 ->]|[R1 ->]]].
    + apply legal_app in L as [L1 L2]. destruct (pipe_readall_ok _ _ _ _ _ _ R1 L1 B1 A) as [_ H].
      rewrite got_app in P. destruct c as [|e]; destruct R2 as [-> ->]; cbn [got] in P; rewrite ?app_nil_r in *; cbn [got]; rewrite ?app_nil_r.
      * destruct H as (m' & E & G & -> & Q). rewrite G in P. destruct (prefix_frame m m' _ rest ltac:(unfold two64; lia) ltac:(unfold two64; lia) P G) as [-> G'].
        split; auto. rewrite skipn_all2; [apply app_nil_r|]. unfold zeros. rewrite repeat_length. lia.
      * destruct H as [[H _]|(Q & _ & L8 & N)]; auto. exfalso. apply N. rewrite (prefix_hdr m _ rest L8 P). apply leval_len. unfold two64. lia.
    + destruct (pipe_readall_ok _ _ _ _ _ _ R1 L B1 A) as [_ []].
    + destruct (pipe_readall_ok _ _ _ _ _ _ R1 L B1 A) as [_ H]. exact H.
  - assert (B1 : 0 <= cap <= len (zeros cap)) by (rewrite zeros_len; lia). destruct A as [A1 A].
    apply runs_bind in R as [([[c b] n] & t1 & t2 & -> & R1 & R2)|[[R1 ->]|[R1 ->]]].
    + apply legal_app in L as [L1 L2]. destruct (pipe_readmax_ok _ _ _ _ _ _ R1 L1 B1 A) as [_ H].
      rewrite got_app in P. destruct c as [|e]; destruct R2 as [-> ->]; cbn [got] in P; rewrite ?app_nil_r in *; cbn [got]; rewrite ?app_nil_r.
      * destruct H as (m' & E & E2 & G & -> & Q). rewrite G in P. destruct (prefix_frame m m' _ rest ltac:(unfold two64; lia) ltac:(unfold two64; lia) P G) as [-> G'].
        split; auto. rewrite <- E. unfold len. rewrite Nat2Z.id, firstn_app, Nat.sub_diag, firstn_O, app_nil_r. apply firstn_all.
      * destruct H as [_ [[H _]|(Q & _ & L8 & N)]]; auto. exfalso. rewrite (prefix_hdr m _ rest L8 P), leval_len in N by (unfold two64; lia). lia.
    + destruct (pipe_readmax_ok _ _ _ _ _ _ R1 L B1 A) as [_ []].
    + destruct (pipe_readmax_ok _ _ _ _ _ _ R1 L B1 A) as [_ H]. exact H.
  - change (2 ^ 63) with two63 in A. pose proof two63_64 as TT.
    assert (HD : forall v, 0 <= v < two64 -> two63 <= v -> got fd tr = le 8 v -> False).
    { intros v V V2 G. pose proof (prefix_hdr m (got fd tr) rest) as X. rewrite G, le_length in X. specialize (X eq_refl).
      rewrite <- G in X. specialize (X P). rewrite G in X. apply (f_equal leval) in X.
      rewrite leval_len, leval_le in X by (try (change (256 ^ Z.of_nat 8) with two64); lia). lia. }
    apply runs_bind in R as [(x & t1 & t2 & -> & R1 & R2)|[[R1 ->]|[R1 ->]]].
    + apply legal_app in L as [L1 L2]. pose proof (pipe_readalloc_ok _ _ _ _ R1 L1) as H.
      rewrite got_app in P. destruct x as [e|b]; destruct R2 as [-> ->]; cbn [got] in P; rewrite ?app_nil_r in *; cbn [got]; rewrite ?app_nil_r.
      * destruct H as [H|(Q & v & V & G & _)]; auto. exfalso. apply (HD (2 ^ 64 - v)); auto; unfold two64, two63; lia.
      * destruct H as (G & Q & BL & _). rewrite G in P.
        destruct (prefix_frame m b _ rest ltac:(lia) ltac:(lia) P G) as [-> G']. auto.
    + pose proof (pipe_readalloc_ok _ _ _ _ R1 L) as H1. cbn in H1. exfalso. apply (HD (2 ^ 63)); auto; unfold two63, two64; lia.
    + exact (pipe_readalloc_ok _ _ _ _ R1 L).
Qed.

Lemma read_msgs_ok : forall fuel fd ms rs rest tr o, runs (read_msgs fuel fd rs) tr o -> legal tr ->
  Forall2 admits rs ms -> is_prefix (got fd tr) (concat (map frame ms) ++ rest) ->
  match o with
  | Wrong => False
  | Cut => quiet tr
  | Fin (ms', true) => ms' = ms /\ got fd tr = concat (map frame ms) /\ quiet tr
  | Fin (ms', false) => (exists u, ms = ms' ++ u) /\ ends_hard tr
  end.
Proof.
  intros fuel fd. induction ms as [|m ms IH]; intros rs rest tr o R L F P; inv F; cbn [read_msgs map concat] in *.
  - destruct R as [-> ->]. split; [reflexivity|]. split; [reflexivity|apply quiet_nil].
  - rename x into r. rewrite <- app_assoc in P.
    apply runs_bind in R as [(x & t1 & t2 & -> & R1 & R2)|[[R1 ->]|[R1 ->]]].
    + apply legal_app in L as [L1 L2]. rewrite got_app in P.
      assert (P1 : is_prefix (got fd t1) (frame m ++ concat (map frame ms) ++ rest)).
      { eapply is_prefix_trans; [|exact P]. exists (got fd t2). reflexivity. }
      pose proof (read_msg_ok _ _ _ _ _ _ _ R1 L1 H2 P1) as H.
      destruct x as [m'|].
      * destruct H as (-> & G & Q). rewrite G in P.
        assert (P2 : is_prefix (got fd t2) (concat (map frame ms) ++ rest)).
        { destruct P as [u E]. rewrite <- app_assoc in E. apply app_inv_head in E. exists u. exact E. }
        apply runs_bind in R2 as [([ms' ok] & u1 & u2 & -> & S1 & S2)|[[S1 ->]|[S1 ->]]].
        -- destruct S2 as [-> ->]. rewrite app_nil_r in *. specialize (IH _ rest _ _ S1 L2 H3 P2).
           rewrite got_app, G. destruct ok.
           ++ destruct IH as (-> & -> & Q2). split; auto. split; auto. apply quiet_app. auto.
           ++ destruct IH as ((u & ->) & E). split; [exists u; reflexivity|apply ends_hard_app; auto].
        -- exact (IH _ rest _ _ S1 L2 H3 P2).
        -- apply quiet_app. split; auto. exact (IH _ rest _ _ S1 L2 H3 P2).
      * destruct R2 as [-> ->]. rewrite app_nil_r. split; [exists (m :: ms); reflexivity|exact H].
    + exact (read_msg_ok _ _ _ _ _ _ _ R1 L H2 P).
    + exact (read_msg_ok _ _ _ _ _ _ _ R1 L H2 P).
Qed.
