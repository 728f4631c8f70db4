(** The key process follows the dialogue of Spec/Protocol.v. *)
From Verif.Model Require Import Base Sys Io Framed Str Buffer Pem Jail Scalar Keyjail.
From Verif.Spec Require Import Stream Text PemFile Curve Protocol Waits.
From Verif.Proof Require Import Tac SysP IoP FrameP StrP CallsP PemP ScalarP WaitsP.

(** What the surroundings are assumed to answer. *)
Definition env_ok (e : event) : Prop :=
  (forall fn, fst e = Other (bs "open_read") [] fn -> ret (snd e) = -1 \/ 2 < ret (snd e)) /\
  (forall fd, fst e = Other (bs "fstat") [fd] [] -> ret (snd e) <> -1 -> exists r sz, data (snd e) = [r; sz] /\ 0 <= sz < 2 ^ 62) /\
  (forall n x d, fst e = Other n x d -> n = bs "decrypt" \/ n = bs "encrypt" -> len (data (snd e)) <= 16774) /\
  (forall x d, fst e = Other (bs "do_sign") x d -> 0 <= ret (snd e) <= 2048) /\
  (fst e = Other (bs "errno") [] [] -> 0 <= ret (snd e) < 2 ^ 31).

Lemma env_fstat : forall tr, Forall env_ok tr -> fstat_ok tr.
Proof. intros tr F. unfold fstat_ok. eapply Forall_impl; [|exact F]. intros e (_ & E & _) fd H N. destruct (E fd H N) as (r & sz & D & S). exists r, sz. split; auto. lia. Qed.

Lemma native_leval : native = leval.
Proof. reflexivity. Qed.

(** ** One message *)
Definition okr (r : reader) : Prop := match r with Exact n | Upto n => 0 <= n <= 1048576 | Fresh => False end.

Lemma frame_long : forall m, (8 <= length (frame m))%nat.
Proof. intros. unfold frame. rewrite app_length, le_length. lia. Qed.

Lemma got_bytes : forall fd tr, legal tr -> bytes (got fd tr).
Proof.
  intros fd tr L. induction tr as [|[c a] tr IH]; [constructor|]. apply legal_cons in L as [A L]. specialize (IH L).
  destruct c; cbn [got]; auto. destruct (_ =? _); auto. cbn [sys_ok] in A. unfold bytes in *. apply Forall_app. split; auto.
  destruct A as [[_ ->]|(_ & _ & B)]; [constructor|]. tauto.
Qed.

Lemma read_msg_view : forall fuel r tr o, okr r -> legal tr -> runs (read_msg fuel 0 r) tr o ->
  Forall (fun e => readcall (fst e)) tr /\
  match o with
  | Wrong => False
  | Cut => True
  | Fin (Some m) => got 0 tr = frame m /\ fits r m /\ bytes m
  | Fin None => forall m, fits r m -> got 0 tr <> frame m
  end.
Proof.
  intros fuel r tr o K L R. destruct r as [n|n|]; cbn [okr read_msg fits] in *; [| |destruct K].
  - assert (CL : Forall (fun e => readcall (fst e)) tr).
    { eapply use_calls; [exact R|]. repeat calls1. eapply calls_weak; [apply pipe_readall_calls|]. intros c [k ->]. exists k. auto. }
    split; auto. assert (B1 : 0 <= n <= len (zeros n)) by (rewrite zeros_len; lia).
    apply runs_bind in R as [([c b] & t1 & t2 & -> & R1 & R2)|[[R1 ->]|[R1 ->]]].
    + apply legal_app in L as [L1 L2]. destruct (pipe_readall_ok _ _ _ _ _ _ R1 L1 B1 (proj2 K)) as [_ H]. destruct c as [|e]; destruct R2 as [-> ->].
      * destruct H as (m & E & G & -> & _). rewrite app_nil_r, skipn_all2 by (unfold zeros; rewrite repeat_length; lia). rewrite app_nil_r. split; auto. split; auto.
        pose proof (got_bytes 0 t1 L1) as B. rewrite G in B. apply Forall_app in B. tauto.
      * rewrite app_nil_r. intros m F G. clear H. unfold pipe_readall in R1. destruct (Z.ltb_spec CHUNK n); [unfold CHUNK in *; lia|].
        apply runs_bind in R1 as [([c num] & t1' & t2' & -> & R1 & R2)|[[R1 X]|[R1 X]]]; try discriminate.
        apply legal_app in L1 as [La Lb]. destruct (readhdr_ok _ _ _ _ R1 La) as [_ H1]. rewrite got_app in G. destruct c as [|e'].
        -- destruct H1 as (-> & N8 & NB & _). rewrite unpack_le in R2 by assumption. cbn [lift pbind] in R2.
           pose proof (leval8 _ NB N8) as V. rewrite tosigned_u64 in R2 by assumption.
           unfold frame in G. pose proof G as G0. apply app_eq_len in G0 as [G1 G2]; [|rewrite le_length; auto].
           assert (LV : leval (got 0 t1') = len m) by (rewrite G1; apply leval_len; unfold two64; lia).
           rewrite LV, F, Z.eqb_refl in R2. cbn [negb] in R2. rewrite tosigned_small in R2 by (unfold two63; lia).
           destruct (readall_ok _ _ _ _ _ _ R2 Lb) as [_ H2]; [lia|]. rewrite G2 in H2. lia.
        -- destruct H1 as [H1 _]. destruct R2 as [-> _]. cbn [got] in G. rewrite app_nil_r in G. pose proof (frame_long m) as FL. rewrite <- G in FL. lia.
    + destruct (pipe_readall_ok _ _ _ _ _ _ R1 L B1 (proj2 K)) as [_ []].
    + exact Logic.I.
  - assert (CL : Forall (fun e => readcall (fst e)) tr).
    { eapply use_calls; [exact R|]. repeat calls1. eapply calls_weak; [apply pipe_readmax_calls|]. intros c [k ->]. exists k. auto. }
    split; auto. assert (B1 : 0 <= n <= len (zeros n)) by (rewrite zeros_len; lia).
    apply runs_bind in R as [([[c b] k] & t1 & t2 & -> & R1 & R2)|[[R1 ->]|[R1 ->]]].
    + apply legal_app in L as [L1 L2]. destruct (pipe_readmax_ok _ _ _ _ _ _ R1 L1 B1 (proj2 K)) as [_ H]. destruct c as [|e]; destruct R2 as [-> ->].
      * destruct H as (m & E & E2 & G & -> & _). rewrite app_nil_r. rewrite <- E. unfold len. rewrite Nat2Z.id, firstn_app, Nat.sub_diag, firstn_O, app_nil_r, firstn_all.
        split; auto. split; [unfold len in *; lia|].
        pose proof (got_bytes 0 t1 L1) as B. rewrite G in B. apply Forall_app in B. tauto.
      * rewrite app_nil_r. intros m F G. clear H. unfold pipe_readmax in R1. destruct (Z.ltb_spec CHUNK n); [unfold CHUNK in *; lia|].
        apply runs_bind in R1 as [([c num] & t1' & t2' & -> & R1 & R2)|[[R1 X]|[R1 X]]]; try discriminate.
        apply legal_app in L1 as [La Lb]. destruct (readhdr_ok _ _ _ _ R1 La) as [_ H1]. rewrite got_app in G. destruct c as [|e'].
        -- destruct H1 as (-> & N8 & NB & _). rewrite unpack_le in R2 by assumption. cbn [lift pbind] in R2.
           pose proof (leval8 _ NB N8) as V. rewrite tosigned_u64 in R2 by assumption.
           unfold frame in G. pose proof G as G0. apply app_eq_len in G0 as [G1 G2]; [|rewrite le_length; auto].
           assert (LV : leval (got 0 t1') = len m) by (rewrite G1; apply leval_len; unfold two64; lia).
           rewrite LV in R2. destruct (Z.ltb_spec n (len m)); [lia|]. pose proof (len_nonneg _ m). rewrite tosigned_small in R2 by (unfold two63; lia).
           apply runs_bind in R2 as [([c2 out'] & ta & tb & -> & R2 & R3)|[[R2 X]|[R2 X]]]; try discriminate.
           apply legal_app in Lb as [Lb _].
           destruct (readall_ok _ _ _ _ _ _ R2 Lb) as [_ H2]; [lia|]. destruct c2; destruct R3 as [-> X]; [discriminate|].
           rewrite got_app in G2. cbn [got] in G2. rewrite app_nil_r in G2. rewrite G2 in H2. lia.
        -- destruct H1 as [H1 _]. destruct R2 as [-> _]. cbn [got] in G. rewrite app_nil_r in G. pose proof (frame_long m) as FL. rewrite <- G in FL. lia.
    + destruct (pipe_readmax_ok _ _ _ _ _ _ R1 L B1 (proj2 K)) as [_ []].
    + exact Logic.I.
Qed.

Lemma read_msg_faces : forall fuel fd r t c, okr r -> legal t -> faces (read_msg fuel fd r) t c -> (exists n, c = Read fd n) /\ partial (got fd t).
Proof.
  intros fuel fd r t c K L F. destruct r as [n|n|]; cbn [okr read_msg] in *; [| |destruct K].
  - apply faces_bind in F as [F|([x b] & t1 & t2 & -> & _ & F)]; [|destruct x; contradiction]. eapply pipe_readall_faces; eauto.
  - apply faces_bind in F as [F|([[x b] k] & t1 & t2 & -> & _ & F)]; [|destruct x; contradiction]. eapply pipe_readmax_faces; eauto.
Qed.
Lemma read_msg_needed : forall fuel r tr o, okr r -> legal tr -> runs (read_msg fuel 0 r) tr o -> needed tr.
Proof.
  intros fuel r tr o K L R u [c a] v -> m x M. apply legal_app in L as [L _]. apply runs_faces in R. destruct (read_msg_faces _ _ _ _ _ K L R) as [_ P].
  apply partial_frame; auto.
Qed.
Lemma needed_nil : needed [].
Proof. intros u e v E. destruct u; discriminate E. Qed.

Lemma randombytes_wipe : forall n tr o, runs (randombytes n) tr o -> Forall (fun e => wipecall (fst e)) tr.
Proof. intros n tr o R. apply randombytes_ok in R as [[-> _]|(a & r & -> & _)]; [constructor|]. constructor; [|constructor]. cbn. auto. Qed.
Lemma cleanup_view : forall tr o, runs cleanup tr o -> Forall (fun e => wipecall (fst e)) tr /\ o <> Wrong.
Proof.
  intros tr o R. unfold cleanup in R. apply runs_bind in R as [(x & t1 & t2 & -> & R1 & R2)|[[R1 ->]|[R1 ->]]].
  - destruct R2 as [-> ->]. rewrite app_nil_r. split; [|discriminate]. eapply randombytes_wipe; eauto.
  - apply randombytes_ok in R1 as [[_ X]|(a & r & _ & X & _)]; discriminate.
  - split; [|discriminate]. eapply randombytes_wipe; eauto.
Qed.

Lemma nth_map_u8 : forall x i, nth i (map u8 x) 0 = u8 (nth i x 0).
Proof. induction x as [|b x IH]; intros [|i]; cbn [map nth]; auto. Qed.
Lemma nth_firstn' : forall (x : list Z) n i, (i < n)%nat -> nth i (firstn n x) 0 = nth i x 0.
Proof. induction x as [|b x IH]; intros [|n] [|i] H; cbn [firstn nth]; auto; try lia. apply IH. lia. Qed.
Lemma filled_delivered : forall n x k, k = Z.of_nat n -> delivered k x (filled n x).
Proof.
  intros n x k ->. split; [apply filled_len|]. intros i I. pose proof (filled_len n x) as FL. unfold len in FL. unfold filled. rewrite nth_map_u8, nth_firstn' by lia.
  f_equal. destruct (Nat.lt_ge_cases i (length x)); [apply app_nth1; auto|]. rewrite app_nth2, (nth_overflow x) by auto.
  generalize (i - length x)%nat. clear. induction n as [|n IH]; intros [|j]; cbn [repeat nth]; auto.
Qed.
Lemma str_len_upto0 : forall l, In 0 l -> str_len l = Ok (len (upto0 l)) /\ firstn (Z.to_nat (len (upto0 l))) l = upto0 l.
Proof.
  induction l as [|b l IH]; intros I; [destruct I|]. cbn [str_len upto0]. destruct (Z.eqb_spec b 0) as [->|N]; [split; reflexivity|].
  destruct I as [I|I]; [congruence|]. destruct (IH I) as [E F]. rewrite E. rewrite len_cons. cbn [bind]. split; [f_equal; lia|].
  match goal with |- firstn ?k _ = _ => replace k with (S (Z.to_nat (len (upto0 l)))) by (pose proof (len_nonneg _ (upto0 l)); lia) end. cbn [firstn]. f_equal. auto.
Qed.
Lemma str_len_ub : forall l, ~ In 0 l -> str_len l = UB.
Proof.
  induction l as [|b l IH]; intros N; [reflexivity|]. cbn [str_len]. destruct (Z.eqb_spec b 0) as [->|NE]; [destruct N; left; auto|].
  rewrite IH; [reflexivity|]. intros I. apply N. right. auto.
Qed.
Lemma len1 : forall m : list Z, len m = 1 -> exists b, m = [b].
Proof. intros [|b [|c m]] E; unfold len in E; cbn [length] in E; try lia. eauto. Qed.
Lemma u8_byte : forall b, u8 b = b mod 256.
Proof. reflexivity. Qed.

Section K.
Variable stream : list Z -> list Z -> nat -> Z.
Variable fuel : nat.
Variables (nojail : bool) (account dir : option (list Z)).
Notation dialogue := (dialogue nojail account dir).
Notation work := (work nojail account dir).

Lemma request_d : forall ph acc r k tr o, shape ph acc = More r -> okr r -> legal tr -> Forall env_ok tr -> runs (request fuel r k) tr o ->
  (forall m tr' o, fits r m -> bytes m -> legal tr' -> Forall env_ok tr' -> runs (k m) tr' o -> exists log, dialogue ph (acc ++ [m]) tr' log o) ->
  exists log, dialogue ph acc tr log o.
Proof.
  intros ph acc r k tr o S K L E R N. unfold request in R.
  apply runs_bind in R as [(x & t1 & t2 & -> & R1 & R2)|[[R1 ->]|[R1 ->]]].
  - apply legal_app in L as [L1 L2]. apply Forall_app in E as [E1 E2]. destruct (read_msg_view _ _ _ _ K L1 R1) as [C H]. destruct x as [m|].
    + destruct H as (G & F & B). destruct (N m t2 o F B L2 E2 R2) as (log & D). exists log. eapply d_message; eauto using read_msg_needed.
    + apply cleanup_view in R2 as [W O]. exists []. eapply d_stall; eauto using read_msg_needed.
  - destruct (read_msg_view _ _ _ _ K L R1) as [_ []].
  - destruct (read_msg_view _ _ _ _ K L R1) as [C _]. exists []. rewrite <- (app_nil_r tr). eapply d_stall; eauto using read_msg_needed; discriminate.
Qed.

(** One reply: either everything was written and the program goes on, or it stops. *)
Lemma reply_view : forall m extra k tr o, legal tr -> len m < two63 -> runs (reply fuel (m ++ extra) (len m) k) tr o ->
  (exists t1 t2, tr = t1 ++ t2 /\ sent 1 t1 = frame m /\ Forall (fun e => writecall (fst e)) t1 /\ legal t2 /\ runs k t2 o) \/
  (exists t1 t2, tr = t1 ++ t2 /\ is_prefix (sent 1 t1) (frame m) /\ Forall (fun e => writecall (fst e)) t1 /\ Forall (fun e => wipecall (fst e)) t2 /\ o <> Wrong).
Proof.
  intros m extra k tr o L M R. unfold reply in R.
  assert (WC : forall t oo, runs (pipe_write fuel 1 (m ++ extra) (len m)) t oo -> Forall (fun e => writecall (fst e)) t).
  { intros t oo RR. eapply use_calls; [exact RR|]. eapply calls_weak; [apply pipe_write_calls|]. intros c H. exact H. }
  apply runs_bind in R as [(c & t1 & t2 & -> & R1 & R2)|[[R1 ->]|[R1 ->]]].
  - apply legal_app in L as [L1 L2]. pose proof (WC _ _ R1). destruct (pipe_write_ok _ _ _ _ _ _ R1 L1 M) as [_ H1]. destruct c as [|e].
    + left. exists t1, t2. repeat (split; auto). tauto.
    + right. exists t1, t2. apply cleanup_view in R2. repeat (split; auto); tauto.
  - destruct (pipe_write_ok _ _ _ _ _ _ R1 L M) as [_ []].
  - right. exists tr, []. pose proof (WC _ _ R1). destruct (pipe_write_ok _ _ _ _ _ _ R1 L M) as [_ H1]. rewrite app_nil_r.
    repeat (split; auto); [tauto|discriminate].
Qed.

(** A complete request with one reply. *)
Lemma exchange1_d : forall ph acc t m extra ph' k tr o, shape ph acc = Done -> work ph acc t [frame m] ph' ->
  legal (t ++ tr) -> Forall env_ok tr -> len m < two63 -> runs (reply fuel (m ++ extra) (len m) k) tr o ->
  (forall t2, legal t2 -> Forall env_ok t2 -> runs k t2 o -> exists log, dialogue ph' [] t2 log o) ->
  exists log, dialogue ph acc (t ++ tr) log o.
Proof.
  intros ph acc t m extra ph' k tr o S W L E M R N. apply legal_app in L as [_ L].
  apply reply_view in R as [(t1 & t2 & -> & A & B & C & D)|(t1 & t2 & -> & A & B & C & D)]; auto.
  - apply Forall_app in E as [_ E]. destruct (N t2 C E D) as (log & H). exists (((acc, [frame m])) :: log). eapply d_exchange; eauto. rewrite A. cbn. rewrite app_nil_r. auto.
  - eexists. eapply d_unsaid; eauto. cbn. rewrite app_nil_r. auto.
Qed.
(** Two replies. *)
Lemma exchange2_d : forall ph acc t m1 m2 ph' k tr o, shape ph acc = Done -> work ph acc t [frame m1; frame m2] ph' ->
  legal (t ++ tr) -> Forall env_ok tr -> len m1 < two63 -> len m2 < two63 -> runs (reply fuel m1 (len m1) (reply fuel m2 (len m2) k)) tr o ->
  (forall t2, legal t2 -> Forall env_ok t2 -> runs k t2 o -> exists log, dialogue ph' [] t2 log o) ->
  exists log, dialogue ph acc (t ++ tr) log o.
Proof.
  intros ph acc t m1 m2 ph' k tr o S W L E M1 M2 R N. apply legal_app in L as [_ L].
  rewrite <- (app_nil_r m1) in R at 1. rewrite <- (app_nil_r m2) in R at 1.
  apply reply_view in R as [(t1 & t2 & -> & A & B & C & D)|(t1 & t2 & -> & A & B & C & D)]; auto.
  - apply Forall_app in E as [_ E]. apply reply_view in D as [(t3 & t4 & -> & A' & B' & C' & D')|(t3 & t4 & -> & A' & B' & C' & D')]; auto.
    + apply Forall_app in E as [_ E]. destruct (N t4 C' E D') as (log & H). exists (((acc, [frame m1; frame m2])) :: log). rewrite (app_assoc t1).
      eapply d_exchange; eauto; [rewrite sent_app, A, A'; cbn; rewrite app_nil_r; auto|apply Forall_app; auto].
    + eexists. rewrite (app_assoc t1). eapply d_unsaid; eauto; [|apply Forall_app; auto]. rewrite sent_app, A. cbn [concat]. apply is_prefix_app2. rewrite app_nil_r. auto.
  - eexists. eapply d_unsaid; eauto. cbn [concat]. apply is_prefix_app. auto.
Qed.

Ltac reader_ok := cbn [okr]; unfold fits in *; lia.
Lemma leval_pos : forall l, bytes l -> 0 <= leval l.
Proof. unfold bytes. induction l as [|b l IH]; intros B; cbn [leval]; [lia|]. apply Forall_cons_iff in B as [Bb B]. specialize (IH B). unfold is_byte in Bb. lia. Qed.

Lemma service_d : forall n ppid prf tr o, legal tr -> Forall env_ok tr -> runs (service fuel n ppid prf) tr o -> exists log, dialogue Serving [] tr log o.
Proof.
  induction n as [|n IH]; intros ppid prf tr o L E R; cbn [service] in R.
  { destruct R as [-> ->]. exists []. apply d_stall with (r := Exact 1) (t := []); auto using needed_nil; discriminate. }
  destruct R as [[-> ->]|(g & t & -> & R)]. { exists []. apply d_stall with (r := Exact 1) (t := []); auto using needed_nil; discriminate. }
  apply legal_cons in L as [_ L]. apply Forall_cons_iff in E as [_ E].
  cut (exists log, dialogue Serving [] t log o). { intros (log & D). exists log. apply d_check. auto. }
  cbn [pbind] in R. destruct (ret g =? ppid); cbn [negb] in R.
  2:{ apply cleanup_view in R as [W O]. exists []. apply d_stall with (r := Exact 1) (t := []); auto using needed_nil. intros _ m F G. pose proof (frame_long m) as FL. rewrite <- G in FL. cbn in FL. lia. }
  eapply request_d; [reflexivity|reader_ok|exact L|exact E|exact R|]. clear t L E R. intros ch t o' F B L E R. cbn beta in R. rewrite native_leval in R. cbn [app].
  destruct (Z.eqb_spec (leval ch) 0) as [C0|C0].
  - assert (SH : forall x, shape Serving (ch :: x) = match x with [] => More (Exact 16) | [_] => More (Exact 8) | [_; n] => if leval n <=? 48 then More (Upto (leval n)) else Stop | _ => Done end).
    { intros x. cbn [shape]. rewrite C0. reflexivity. }
    eapply request_d; [rewrite SH; reflexivity|reader_ok|exact L|exact E|exact R|]. clear t L E R. intros label t o2 FL BL L E R. cbn beta in R. cbn [app].
    eapply request_d; [rewrite SH; reflexivity|reader_ok|exact L|exact E|exact R|]. clear t L E R. intros sl t o3 FS BS L E R. cbn beta in R. cbn [app].
    pose proof (leval_pos sl BS) as SP. destruct (Z.ltb_spec 48 (leval sl)) as [X|X].
    { apply cleanup_view in R as [W O]. exists []. apply d_refuse; auto. rewrite SH. replace (leval sl <=? 48) with false by lia. reflexivity. }
    eapply request_d; [rewrite SH; replace (leval sl <=? 48) with true by lia; reflexivity|reader_ok|exact L|exact E|exact R|]. clear t L E R. intros seed t o4 FD BD L E R. cbn beta in R. cbn [app].
    destruct (in_dec Z.eq_dec 0 label) as [I|I].
    2:{ rewrite (str_len_ub _ I) in R. destruct R as [-> ->]. exists []. apply d_wrong; auto. }
    destruct (str_len_upto0 _ I) as [E1 E2]. rewrite E1 in R. cbn [lift pbind] in R. rewrite E2 in R.
    destruct R as [[-> ->]|(a & t' & -> & R)]. { exists []. apply d_vain; auto; [apply SH|discriminate]. }
    cbn [pbind] in R. change ((?e, a) :: t') with ([(e, a)] ++ t'). apply Forall_cons_iff in E as [_ E].
    assert (FL12 : len (filled 12 (data a)) = 12) by (apply filled_len).
    rewrite <- (app_nil_r (filled 12 (data a))) in R. rewrite <- FL12 in R.
    eapply exchange1_d; [apply SH| |exact L|exact E| |exact R|]; [|rewrite FL12; unfold two63; lia|].
    + apply w_prf; auto. apply filled_delivered. reflexivity.
    + intros t2 L2 EE2 R2. eapply IH; eauto.
  - assert (SH : (leval ch =? 1) || (leval ch =? 2) = true -> forall x, shape Serving (ch :: x) = match x with [] => More (Exact 4) | [_] => More (Exact 4) | [_; _] => More (Upto 16709) | _ => Done end).
    { intros C x. cbn [shape]. destruct (Z.eqb_spec (leval ch) 0); [contradiction|]. rewrite C. reflexivity. }
    assert (OFF : forall nm rt ver m a t' o', (leval ch = 1 /\ nm = bs "decrypt") \/ (leval ch = 2 /\ nm = bs "encrypt") ->
      (forall x, shape Serving (ch :: x) = match x with [] => More (Exact 4) | [_] => More (Exact 4) | [_; _] => More (Upto 16709) | _ => Done end) ->
      ret a <> 0 -> len (data a) <= 16774 -> legal ((Other nm [leval rt; leval ver] m, a) :: t') -> Forall env_ok t' -> runs (offsets fuel (data a) (service fuel n ppid prf)) t' o' ->
      exists log, dialogue Serving [ch; rt; ver; m] ((Other nm [leval rt; leval ver] m, a) :: t') log o').
    { clear - IH stream. intros nm rt ver m a t' o' C SH RA LD L E R. unfold offsets in R.
      destruct (_ || _) eqn:OO in R.
      - apply cleanup_view in R as [W O]. exists []. apply d_vain; auto; [apply SH|]. constructor; [|eapply Forall_impl; [|exact W]; cbn; auto].
        cbn [fst vaincall]. destruct C as [[_ ->]|[_ ->]]; auto.
      - change ((?e, a) :: t') with ([(e, a)] ++ t'). set (p := map u8 (skipn 1 (data a))) in *.
        assert (LP : len (skipn 1 (data a)) = len p) by (unfold p, len; rewrite map_length; reflexivity). rewrite LP in R.
        change 1 with (len [u8 (nth 0 (data a) 0)]) in R at 1.
        assert (LQ : len p <= 16774). { rewrite <- LP. assert (len (skipn 1 (data a)) <= len (data a)) by (unfold len; rewrite skipn_length; lia). lia. }
        eapply exchange2_d; [apply SH| |exact L|exact E| | |exact R|].
        + rewrite u8_byte. destruct C as [[C ->]|[C ->]]; [eapply w_dec|eapply w_enc]; eauto; try reflexivity; lia.
        + unfold len, two63. cbn. lia.
        + unfold two63. lia.
        + intros t2 L2 EE2 R2. eapply IH; eauto. }
    destruct (Z.eqb_spec (leval ch) 1) as [C1|C1]; [|destruct (Z.eqb_spec (leval ch) 2) as [C2|C2]].
    + specialize (SH eq_refl).
      eapply request_d; [rewrite SH; reflexivity|reader_ok|exact L|exact E|exact R|]. clear t L E R. intros rt t o2 _ _ L E R. cbn beta in R. cbn [app].
      eapply request_d; [rewrite SH; reflexivity|reader_ok|exact L|exact E|exact R|]. clear t L E R. intros ver t o3 _ _ L E R. cbn beta in R. cbn [app].
      eapply request_d; [rewrite SH; reflexivity|reader_ok|exact L|exact E|exact R|]. clear t L E R. intros m t o4 _ _ L E R. cbn beta in R. cbn [app].
      destruct R as [[-> ->]|(a & t' & -> & R)]. { exists []. apply d_vain; auto; [apply SH|discriminate]. }
      cbn [pbind] in R. apply Forall_cons_iff in E as [E1 E]. destruct (Z.eqb_spec (ret a) 0) as [RA|RA].
      * change ((?e, a) :: t') with ([(e, a)] ++ t'). change (reply fuel [0] 1 (reply fuel [] 0 (service fuel n ppid prf))) with (reply fuel [0] (len [0]) (reply fuel [] (len (@nil Z)) (service fuel n ppid prf))) in R.
        eapply exchange2_d; [apply SH| |exact L|exact E| | |exact R|].
        -- apply w_undec; auto.
        -- unfold len, two63; cbn; lia.
        -- unfold len, two63; cbn; lia.
        -- intros t2 L2 EE2 R2. eapply IH; eauto.
      * eapply OFF; eauto. destruct E1 as (_ & _ & E1 & _). specialize (E1 _ _ _ eq_refl (or_introl eq_refl)). cbn [snd] in E1. unfold two63. lia.
    + specialize (SH eq_refl).
      eapply request_d; [rewrite SH; reflexivity|reader_ok|exact L|exact E|exact R|]. clear t L E R. intros rt t o2 _ _ L E R. cbn beta in R. cbn [app].
      eapply request_d; [rewrite SH; reflexivity|reader_ok|exact L|exact E|exact R|]. clear t L E R. intros ver t o3 _ _ L E R. cbn beta in R. cbn [app].
      eapply request_d; [rewrite SH; reflexivity|reader_ok|exact L|exact E|exact R|]. clear t L E R. intros m t o4 _ _ L E R. cbn beta in R. cbn [app].
      destruct R as [[-> ->]|(a & t' & -> & R)]. { exists []. apply d_vain; auto; [apply SH|discriminate]. }
      cbn [pbind] in R. apply Forall_cons_iff in E as [E1 E]. destruct (Z.eqb_spec (ret a) 0) as [RA|RA].
      * apply cleanup_view in R as [W O]. exists []. apply d_vain; auto; [apply SH|]. constructor; [|eapply Forall_impl; [|exact W]; cbn; auto]. cbn [fst vaincall]. auto.
      * eapply OFF; eauto. destruct E1 as (_ & _ & E1 & _). specialize (E1 _ _ _ eq_refl (or_intror eq_refl)). cbn [snd] in E1. unfold two63. lia.
    + apply cleanup_view in R as [W O]. exists []. apply d_refuse; auto. cbn [shape].
      destruct (Z.eqb_spec (leval ch) 0); [contradiction|]. destruct (Z.eqb_spec (leval ch) 1); [contradiction|]. destruct (Z.eqb_spec (leval ch) 2); [contradiction|]. reflexivity.
Qed.

Lemma suite_in : forall x p, suite_prf x = Some p -> In (x, p) suites_prf.
Proof.
  intros x p H. unfold suite_prf in H.
  repeat (match type of H with (if (?a =? ?b) || (?a =? ?c) then _ else _) = _ =>
     destruct (Z.eqb_spec a b); [subst; injection H as <-; cbn; auto 20|]; destruct (Z.eqb_spec a c); [subst; injection H as <-; cbn; auto 20|]; cbn [orb] in H end).
  discriminate.
Qed.

Lemma derive_d : forall ppid curve sk n tr o k m, sizes curve = Some (k, n, m) -> length sk = 66%nat ->
  legal tr -> Forall env_ok tr -> runs (derive fuel ppid curve sk n) tr o -> exists log, dialogue (Peer n) [] tr log o.
Proof.
  intros ppid curve sk n tr o k m SZ LS L E R. unfold derive in R. rewrite native_leval in R.
  assert (NN : 0 <= n <= 133 /\ 0 <= k <= 66 /\ 0 <= m).
  { clear -SZ. unfold sizes in SZ. destruct curve as [|q|q]; try discriminate. repeat (destruct q as [q|q|]; try discriminate SZ; try (injection SZ as <- <- <-; lia)). }
  eapply request_d; [reflexivity|reader_ok|exact L|exact E|exact R|]. clear tr L E R. intros pk t o1 FP _ L E R. cbn beta in R. cbn [app].
  eapply request_d; [reflexivity|reader_ok|exact L|exact E|exact R|]. clear t L E R. intros sid t o2 _ _ L E R. cbn beta in R. cbn [app].
  eapply request_d; [reflexivity|reader_ok|exact L|exact E|exact R|]. clear t L E R. intros ver t o3 _ _ L E R. cbn beta in R. cbn [app].
  eapply request_d; [reflexivity|reader_ok|exact L|exact E|exact R|]. clear t L E R. intros cs t o4 _ _ L E R. cbn beta in R. cbn [app].
  eapply request_d; [reflexivity|reader_ok|exact L|exact E|exact R|]. clear t L E R. intros cr t o5 _ _ L E R. cbn beta in R. cbn [app].
  eapply request_d; [reflexivity|reader_ok|exact L|exact E|exact R|]. clear t L E R. intros sr t o6 _ _ L E R. cbn beta in R. cbn [app].
  cbn [fits] in FP. set (acc := [pk; sid; ver; cs; cr; sr]).
  assert (VAIN : forall t o, Forall (fun e => vaincall (Peer n) acc (fst e)) t -> o <> Wrong -> exists log, dialogue (Peer n) acc t log o).
  { intros t' o' F O. exists []. apply d_vain; auto. }
  assert (WV : forall t, Forall (fun e : event => wipecall (fst e)) t -> Forall (fun e => vaincall (Peer n) acc (fst e)) t).
  { intros t' F. eapply Forall_impl; [|exact F]. cbn. auto. }
  assert (RB : forall j t o, runs (randombytes j) t o -> Forall (fun e => vaincall (Peer n) acc (fst e)) t /\ o <> Wrong).
  { intros j t' o' RR. split; [apply WV; eapply randombytes_wipe; eauto|]. apply randombytes_ok in RR as [[_ ->]|(a & r & _ & -> & _)]; discriminate. }
  apply runs_bind in R as [(x & t1 & t2 & -> & R1 & R)|[[R1 ->]|[R1 ->]]].
  2:{ eapply mul_ok in R1 as [[_ X]|(a & _ & X)]; eauto; discriminate. }
  2:{ apply VAIN; [|discriminate]. eapply mul_ok in R1 as [[-> _]|(a & _ & X)]; eauto; discriminate. }
  eapply mul_ok in R1 as [[_ X]|(a & -> & X)]; eauto; [discriminate|]. injection X as ->.
  set (s := firstn (Z.to_nat k) (clamped curve sk)) in *.
  assert (MV : vaincall (Peer n) acc (Other (bs "mul") (curve :: s) pk)) by (cbn; eauto).
  destruct (Z.eqb_spec (ret a) 0) as [RA|RA].
  { apply cleanup_view in R as [W O]. apply VAIN; auto. constructor; auto. }
  set (shared := filled _ _) in R.
  apply runs_bind in R as [(x & t3 & t4 & -> & R1 & R)|[[R1 ->]|[R1 ->]]].
  2:{ destruct (RB _ _ _ R1) as [? X]. congruence. }
  2:{ destruct (RB _ _ _ R1) as [X ?]. apply VAIN; [constructor; auto|discriminate]. }
  apply randombytes_ok in R1 as [[_ X]|(a2 & x2 & -> & _ & _)]; [discriminate|].
  assert (RV : vaincall (Peer n) acc (Other (bs "randombytes") [Z.of_nat 66] [])) by (cbn; auto).
  destruct (suite_prf (leval cs)) as [prf|] eqn:SP.
  2:{ apply cleanup_view in R as [W O]. apply VAIN; auto. constructor; auto. constructor; auto. }
  apply runs_bind in R as [(x3 & t3 & t5 & -> & R1 & R)|[[R1 ->]|[R1 ->]]].
  2:{ apply runs_sys1 in R1 as [[_ X]|(? & _ & X)]; discriminate. }
  2:{ apply runs_sys1 in R1 as [[-> _]|(? & _ & X)]; [|discriminate]. apply VAIN; [repeat (constructor; auto)|discriminate]. }
  apply runs_sys1 in R1 as [[_ X]|(a3 & -> & X)]; [discriminate|]. 
  assert (DV : vaincall (Peer n) acc (Other (bs "derive") [leval cs; prf] shared)) by (cbn; eauto 10).
  apply runs_bind in R as [(x4 & t3 & t6 & -> & R1 & R)|[[R1 ->]|[R1 ->]]].
  2:{ destruct (RB _ _ _ R1) as [? X']. congruence. }
  2:{ destruct (RB _ _ _ R1) as [X' ?]. apply VAIN; [repeat (constructor; auto)|discriminate]. }
  apply randombytes_ok in R1 as [[_ X']|(a4 & y4 & -> & _ & _)]; [discriminate|].
  repeat (apply legal_app in L as [? L]). repeat (apply Forall_app in E as [? E]).
  destruct (service_d _ _ _ _ _ L E R) as (log & D). exists ((acc, []) :: log).
  apply d_exchange with (ph' := Serving) (t1 := []) (t := [(Other (bs "mul") (curve :: s) pk, a); (Other (bs "randombytes") [66] [], a2);
       (Other (bs "derive") [leval cs; prf] shared, a3); (Other (bs "randombytes") [133] [], a4)]); auto.
  apply w_peer with (m := m); auto.
  - apply suite_in; auto.
  - rewrite SZ. repeat f_equal. unfold s, len. rewrite firstn_length, clamped_len. lia.
  - unfold shared. rewrite filled_len. lia.
Qed.

(** ** Signing *)
Definition pem_ok (c : tls_pem) : Prop := match sec c with Some s => 0 <= seclen c <= len s | None => seclen c = 0 end.

Lemma sign_view : forall pem key nonce hash m t o, pem_ok pem -> runs (sign stream pem key nonce hash m) t o ->
  Forall (fun e => signcall (fst e)) t /\
  match o with
  | Wrong => False
  | Cut => True
  | Fin (buf, n) => n = 0 \/ exists kt b, In (Other (bs "do_sign") [kt; hash] m, b) t /\ buf = filled 2048 (data b) /\ n = ret b
  end.
Proof.
  intros pem key nonce hash m t o P R.
  assert (C : Forall (fun e => signcall (fst e)) t).
  { eapply use_calls; [exact R|]. unfold sign, tls_pem_encrypt, tls_pem_free, randombytes. repeat calls1; cbn; auto 10. }
  split; auto. unfold sign in R.
  assert (FR : forall c t o, runs (tls_pem_free c) t o -> o <> Wrong).
  { intros c t' o' RR. apply free_ok in RR as [_ [->| ->]]; discriminate. }
  apply runs_bind in R as [([nn pem'] & t1 & t2 & -> & R1 & R)|[[R1 ->]|[R1 ->]]].
  3:{ exact Logic.I. }
  2:{ unfold tls_pem_encrypt in R1. apply runs_bind in R1 as [(n & t7 & t8 & -> & R7 & R8)|[[R7 _]|[R7 X]]]; [| |discriminate].
      - unfold pem_ok in P. destruct (sec pem); [|rewrite P in R8; destruct R8; discriminate]. replace ((len l <? seclen pem) || (seclen pem <? 0)) with false in R8 by lia. destruct R8; discriminate.
      - destruct nonce; [destruct R7; discriminate|]. apply randombytes_ok in R7 as [[_ X]|(? & ? & _ & X & _)]; discriminate. }
  apply runs_bind in R as [(a & t3 & t4 & -> & R2 & R)|[[R2 ->]|[R2 ->]]].
  3:{ exact Logic.I. }
  2:{ apply runs_sys1 in R2 as [[_ X]|(? & _ & X)]; discriminate. }
  apply runs_sys1 in R2 as [[_ X]|(aa & -> & X)]; [discriminate|]. inv X.
  destruct (ret aa =? 0).
  - apply runs_bind in R as [(a & t3 & t5 & -> & R2 & R)|[[R2 ->]|[R2 ->]]].
    3:{ exact Logic.I. }
    2:{ apply runs_sys1 in R2 as [[_ X]|(? & _ & X)]; discriminate. }
    apply runs_bind in R as [(a' & t6 & t7 & -> & R3 & R)|[[R3 ->]|[R3 ->]]].
    3:{ exact Logic.I. }
    2:{ apply FR in R3. congruence. }
    destruct R as [-> ->]. auto.
  - apply runs_bind in R as [(a' & t6 & t7 & -> & R3 & R)|[[R3 ->]|[R3 ->]]].
    3:{ exact Logic.I. }
    2:{ apply FR in R3. congruence. }
    apply runs_bind in R as [([buf n] & t8 & t9 & -> & R4 & R)|[[R4 ->]|[R4 ->]]].
    3:{ exact Logic.I. }
    2:{ destruct (_ || _) in R4; [|destruct R4; discriminate]. destruct R4 as [[_ X]|(b & t' & _ & _ & X)]; discriminate. }
    assert (H : n = 0 \/ exists kt b, In (Other (bs "do_sign") [kt; hash] m, b) t8 /\ buf = filled 2048 (data b) /\ n = ret b).
    { destruct (_ || _) in R4; [|destruct R4 as [_ X]; inv X; auto]. destruct R4 as [[_ X]|(b & t' & -> & -> & X)]; [discriminate|]. inv X. right. do 2 eexists. split; [left; reflexivity|auto]. }
    apply runs_bind in R as [(a2 & t3 & t5 & -> & R2 & R)|[[R2 ->]|[R2 ->]]].
    3:{ exact Logic.I. }
    2:{ apply runs_sys1 in R2 as [[_ X]|(? & _ & X)]; discriminate. }
    apply runs_bind in R as [(a3 & ta & tb & -> & R5 & R)|[[R5 ->]|[R5 ->]]].
    3:{ exact Logic.I. }
    2:{ apply FR in R5. congruence. }
    destruct R as [-> ->]. destruct H as [H|(kt & b & I & ? & ?)]; auto. right. exists kt, b. split; auto. rewrite !in_app_iff. auto 10.
Qed.

(** ** Jail, public point, signature *)
Definition safe {A} (p : prog A) : Prop := forall tr, ~ runs p tr Wrong.
Lemma safe_ret : forall A (x : A), safe (Ret x).
Proof. intros A x tr [_ X]. discriminate. Qed.
Lemma safe_bind : forall A B (p : prog A) (f : A -> prog B), safe p -> (forall x, safe (f x)) -> safe (pbind p f).
Proof.
  intros A B p f P F tr R. apply runs_bind in R as [(x & t1 & t2 & -> & R1 & R)|[[R1 _]|[R1 X]]]; [exact (F x _ R)|exact (P _ R1)|discriminate].
Qed.
Lemma safe_sys1 : forall c, safe (sys1 c).
Proof. intros c tr R. apply runs_sys1 in R as [[_ X]|(? & _ & X)]; discriminate. Qed.
Lemma jail_safe : forall a d l, safe (jail a d l).
Proof.
  intros a d l. unfold jail, jail_main, must, mustbe, when, jail_limit_memory.
  repeat (match goal with
   | |- safe (Ret _) => apply safe_ret
   | |- safe (pbind _ _) => apply safe_bind; [|intro]
   | |- safe (sys1 _) => apply safe_sys1
   | |- safe (if ?b then _ else _) => destruct b
   | |- safe ((if ?b then _ else _) _) => destruct b
   | |- safe (match ?x with _ => _ end) => destruct x
   | |- safe ((match ?x with _ => _ end) _) => destruct x
   | _ => cbn beta zeta
   end).
Qed.

Lemma randombytes_filled : forall n tr o, runs (randombytes n) tr o ->
  (tr = [] /\ o = Cut) \/ exists a, tr = [(Other (bs "randombytes") [Z.of_nat n] [], a)] /\ o = Fin (filled n (data a)).
Proof. intros n tr o [[-> ->]|(a & t & -> & -> & ->)]; [left; auto|right]. eauto. Qed.
Lemma handshake_d : forall ppid pem key nonce tr o, pem_ok pem -> legal tr -> Forall env_ok tr ->
  runs (handshake stream fuel nojail account dir ppid pem key nonce) tr o -> exists log, dialogue Naming [[]] tr log o.
Proof.
  intros ppid pem key nonce tr o PO L E R. unfold handshake in R. rewrite native_leval in R.
  cut (forall t, legal t -> Forall env_ok t ->
    runs (request fuel (Exact 1) (fun curve => let curve := leval curve in sk <~ randombytes 66 ;;
      '(x, sk) <~ tls_crypto_scalarmult_base curve sk ;;
      match x with None => cleanup | Some pk => reply fuel pk (len pk) (request fuel (Exact 1) (fun hash => request fuel (Exact 8) (fun datalen =>
        if 2048 <? leval datalen then cleanup else request fuel (Upto (leval datalen)) (fun m =>
        '(buf, n) <~ sign stream pem key nonce (leval hash) m ;; _ <~ randombytes 32 ;; reply fuel buf n (derive fuel ppid curve sk (len pk)))))) end)) t o ->
    exists log, dialogue Curve [] t log o).
  { intros N. apply runs_bind in R as [([r lim] & t1 & t2 & -> & R1 & R)|[[R1 ->]|[R1 ->]]].
    - apply legal_app in L as [L1 L2]. apply Forall_app in E as [E1 E2]. cbn [fst] in R.
      destruct (Z.eqb_spec r (-1)) as [->|RN].
      + destruct nojail; [destruct R1 as [_ X]; inv X|]. apply cleanup_view in R as [W O]. exists []. eapply d_unjailed; eauto. intros r l X. inv X. auto.
      + destruct (N t2 L2 E2 R) as (log & D). exists (([[]], []) :: log). apply d_exchange with (t := t1) (t1 := []) (ph' := Curve); auto.
        destruct nojail eqn:NJ; [destruct R1 as [-> _]; apply w_nojail; auto|]. eapply w_jail; eauto.
    - destruct nojail; [destruct R1; discriminate|]. destruct (jail_safe _ _ _ _ R1).
    - destruct nojail eqn:NJ; [destruct R1; discriminate|]. exists []. rewrite <- (app_nil_r tr). eapply d_unjailed; eauto; discriminate. }
  clear tr L E R. intros t L E R.
  eapply request_d; [reflexivity|reader_ok|exact L|exact E|exact R|]. clear t L E R. intros cv t o1 FC BC L E R. cbn beta zeta in R. cbn [app].
  assert (VAIN : forall t o, Forall (fun e => vaincall Curve [cv] (fst e)) t -> o <> Wrong -> exists log, dialogue Curve [cv] t log o).
  { intros t' o' F O. exists []. apply d_vain; auto. }
  apply runs_bind in R as [(sk & t1 & t2 & -> & R1 & R)|[[R1 ->]|[R1 ->]]].
  2:{ apply randombytes_ok in R1 as [[_ X]|(a & r & _ & X & _)]; discriminate. }
  2:{ apply VAIN; [|discriminate]. apply randombytes_ok in R1 as [[-> _]|(a & r & _ & X & _)]; [constructor|discriminate]. }
  assert (SK : length sk = 66%nat /\ bytes sk /\ exists a, t1 = [(Other (bs "randombytes") [66] [], a)]).
  { apply randombytes_filled in R1 as [[_ X]|(a & -> & X)]; [discriminate|]. injection X as ->. split; [|split; [apply filled_bytes|eauto]].
    pose proof (filled_len 66 (data a)) as FL. unfold len in FL. apply Nat2Z.inj. exact FL. }
  destruct SK as (LS & BS & ra & ->). clear R1.
  apply runs_bind in R as [([x sk'] & t1 & t3 & -> & R1 & R)|[[R1 ->]|[R1 ->]]].
  2:{ apply base_ok in R1; auto. destruct (sizes (leval cv)) as [[[n p] y]|]; [destruct R1 as [[_ X]|(a & _ & _ & X)]|destruct R1 as [_ X]]; discriminate. }
  2:{ apply base_ok in R1; auto. apply VAIN; [|discriminate]. destruct (sizes (leval cv)) as [[[n p] y]|]; [destruct R1 as [[-> _]|(a & _ & _ & X)]|destruct R1 as [-> X]]; try discriminate.
      repeat (constructor; cbn; auto). }
  pose proof (base_ok _ _ _ _ LS BS R1) as HB. destruct (sizes (leval cv)) as [[[kk n] y]|] eqn:SZ.
  2:{ destruct HB as [-> X]. inv X. apply cleanup_view in R as [W O]. apply VAIN; auto. constructor; [cbn; auto|]. eapply Forall_impl; [|exact W]. cbn; auto. }
  destruct HB as [[_ X]|(a & -> & V & X)]; [discriminate|]. injection X as -> ->.
  assert (MV : vaincall Curve [cv] (Other (bs "mulgen") [leval cv] (firstn (Z.to_nat kk) (clamped (leval cv) sk)))) by (cbn; eauto).
  destruct (Z.eqb_spec (ret a) n) as [RA|RA].
  2:{ apply cleanup_view in R as [W O]. apply VAIN; auto. constructor; [cbn; auto|]. constructor; auto. eapply Forall_impl; [|exact W]. cbn; auto. }
  assert (NN : 0 <= n <= 133).
  { clear -SZ. unfold sizes in SZ. destruct (leval cv) as [|q|q]; try discriminate. repeat (destruct q as [q|q|]; try discriminate SZ; try (injection SZ as _ <- _; lia)). }
  assert (LP : len (filled (Z.to_nat n) (data a)) = n) by (rewrite filled_len; lia).
  repeat (apply legal_app in L as [? L]). repeat (apply Forall_app in E as [? E]).
  rewrite app_assoc. set (pk := filled (Z.to_nat n) (data a)) in *. rewrite <- (app_nil_r pk) in R at 1.
  eapply exchange1_d; [reflexivity| |apply legal_app; split; [apply legal_app; split; eassumption|exact L]|exact E| |exact R|].
  { eapply w_gen; eauto.
    - destruct V as ((p & xx & V) & _). rewrite SZ in V. rewrite SZ. injection V as V1 V2 V3. rewrite <- V1. reflexivity.
    - apply filled_delivered. lia. }
  { rewrite LP. unfold two63. lia. }
  clear t3 L E R. intros t L E R. rewrite LP in R.
  (* signing *)
  eapply request_d; [reflexivity|reader_ok|exact L|exact E|exact R|]. clear t L E R. intros h t o2 _ _ L E R. cbn beta in R. cbn [app].
  eapply request_d; [reflexivity|reader_ok|exact L|exact E|exact R|]. clear t L E R. intros mx t o3 _ BM L E R. cbn beta in R. cbn [app].
  pose proof (leval_pos mx BM) as MP. destruct (Z.ltb_spec 2048 (leval mx)) as [MX|MX].
  { apply cleanup_view in R as [W O]. exists []. apply d_refuse; auto. cbn [shape]. replace (leval mx <=? 2048) with false by lia. reflexivity. }
  eapply request_d; [cbn [shape]; replace (leval mx <=? 2048) with true by lia; reflexivity|reader_ok|exact L|exact E|exact R|]. clear t L E R. intros d t o4 FD _ L E R. cbn beta in R. cbn [app].
  assert (VS : forall t o, Forall (fun e => signcall (fst e)) t -> o <> Wrong -> exists log, dialogue (Signing n) [h; mx; d] t log o).
  { intros t' o' F O. exists []. apply d_vain; auto. }
  apply runs_bind in R as [([buf k] & t1 & t2 & -> & R2 & R)|[[R2 ->]|[R2 ->]]].
  2:{ apply sign_view in R2 as [_ []]; auto. }
  2:{ apply sign_view in R2 as [C _]; auto. apply VS; auto. discriminate. }
  apply sign_view in R2 as [C HS]; auto.
  apply legal_app in L as [L1 L]. apply Forall_app in E as [E1 E].
  apply runs_bind in R as [(w & t3 & t4 & -> & R2 & R)|[[R2 ->]|[R2 ->]]].
  2:{ apply randombytes_ok in R2 as [[_ X]|(? & ? & _ & X & _)]; discriminate. }
  2:{ apply VS; [|discriminate]. apply Forall_app. split; auto. apply randombytes_wipe in R2. eapply Forall_impl; [|exact R2]. intros [[] ?]; cbn; try tauto; intros [->| ->]; auto. }
  apply randombytes_wipe in R2.
  assert (C2 : Forall (fun e => signcall (fst e)) (t1 ++ t3)). { apply Forall_app. split; auto. eapply Forall_impl; [|exact R2]. intros [[] ?]; cbn; try tauto; intros [->| ->]; auto. }
  apply legal_app in L as [L3 L]. apply Forall_app in E as [E3 E]. rewrite app_assoc.
  assert (LL : legal ((t1 ++ t3) ++ t4)) by (apply legal_app; split; auto; apply legal_app; auto).
  destruct HS as [->|(kt & b & I & -> & ->)].
  - eapply exchange1_d with (m := []); [reflexivity| |exact LL|exact E| |exact R|].
    + apply w_nosign. auto.
    + unfold len, two63. cbn. lia.
    + intros t5 L5 E5 R5. eapply derive_d; [exact SZ| |exact L5|exact E5|exact R5]. rewrite clamped_len. exact LS.
  - assert (RB : 0 <= ret b <= 2048). { rewrite Forall_forall in E1. apply (E1 _ I) with (x := [kt; leval h]) (d := d). reflexivity. }
    set (g := firstn (Z.to_nat (ret b)) (filled 2048 (data b))).
    assert (LG : len g = ret b). { unfold g, len. rewrite firstn_length. pose proof (filled_len 2048 (data b)). unfold len in *. lia. }
    rewrite <- (firstn_skipn (Z.to_nat (ret b)) (filled 2048 (data b))) in R. fold g in R. rewrite <- LG in R.
    eapply exchange1_d with (m := g); [reflexivity| |exact LL|exact E| |exact R|].
    + eapply w_sign; [exact C2|apply in_or_app; left; exact I|lia|]. split; [auto|]. intros i II. unfold g. unfold len in LG. rewrite nth_firstn' by lia.
      apply (filled_delivered 2048 (data b) 2048 eq_refl). pose proof (filled_len 2048 (data b)). unfold len in *. lia.
    + rewrite LG. unfold two63. lia.
    + intros t5 L5 E5 R5. eapply derive_d; [exact SZ| |exact L5|exact E5|exact R5]. rewrite clamped_len. exact LS.
Qed.

(** ** Files *)
Lemma free_calls : forall c f, calls (filecall f) (tls_pem_free c).
Proof. intros. unfold tls_pem_free. repeat calls1; cbn; auto 6. Qed.
Lemma pem_cleanup_calls : forall fd ok n c f, fd = -1 \/ 2 < fd -> calls (filecall f) (pem_cleanup fd ok n c).
Proof.
  intros fd ok n c f H. unfold pem_cleanup. apply calls_bind; [|intro; repeat calls1; apply free_calls].
  destruct (Z.eqb_spec fd (-1)); cbn [negb]; repeat calls1. cbn. lia.
Qed.
Lemma load_calls : forall line0 fn key nonce c t o, Forall env_ok t ->
  runs (tls_pem_load stream fuel line0 fn key nonce c) t o -> Forall (fun e => filecall fn (fst e)) t.
Proof.
  intros line0 fn key nonce c t o E R. unfold tls_pem_load in R.
  apply runs_bind in R as [(x0 & t0 & u0 & -> & R0 & R)|[[R0 ->]|[R0 ->]]]; try (eapply use_calls; [exact R0|apply free_calls]).
  apply Forall_app in E as [E0 E]. apply Forall_app. split; [eapply use_calls; [exact R0|apply free_calls]|].
  apply runs_bind in R as [(x1 & t1 & u1 & -> & R1 & R)|[[R1 ->]|[R1 ->]]].
  2:{ apply runs_sys1 in R1 as [[_ X]|(? & _ & X)]; discriminate. }
  2:{ apply runs_sys1 in R1 as [[-> _]|(? & _ & X)]; [constructor|discriminate]. }
  apply runs_sys1 in R1 as [[_ X]|(a1 & -> & X)]; [discriminate|]. inv X. apply Forall_app in E as [E1 E]. apply Forall_app. split.
  { constructor; [|constructor]. cbn. auto. }
  apply Forall_cons_iff in E1 as [[E1 _] _]. specialize (E1 fn eq_refl). cbn [snd] in E1. set (fd := ret a1) in *.
  eapply use_calls; [exact R|]. destruct (Z.eqb_spec fd (-1)) as [->|NF]; [apply pem_cleanup_calls; auto|].
  unfold pem_alloc, pemparse, tls_pem_encrypt, randombytes.
  repeat (match goal with |- calls _ (pem_cleanup _ _ _ _) => apply pem_cleanup_calls; auto | _ => calls1 end); try (cbn; auto 10; fail).
  eapply calls_weak; [apply readall_calls|]. intros cc [k ->]. cbn. lia.
Qed.

Lemma last_zero : forall m, m <> [] -> st m (length m - 1) 0 = Ok (removelast m ++ [0]).
Proof.
  intros m N. destruct (exists_last N) as (l & x & ->). rewrite removelast_last, app_length. cbn [length].
  replace (length l + 1 - 1)%nat with (length l) by lia. apply st_app.
Qed.
Lemma upto0_split : forall l, exists rest, l ++ [0] = upto0 l ++ 0 :: rest.
Proof.
  induction l as [|b l (r & IH)]; [exists []; reflexivity|]. cbn [upto0]. destruct (Z.eqb_spec b 0) as [->|N]; [exists (l ++ [0]); reflexivity|].
  exists r. cbn [app]. rewrite IH. reflexivity.
Qed.
Lemma upto0_nonul : forall l, bytes l -> nonul (upto0 l).
Proof.
  induction l as [|b l IH]; intros B; [constructor|]. apply Forall_cons_iff in B as [B1 B]. cbn [upto0]. destruct (Z.eqb_spec b 0); [constructor|].
  constructor; [unfold is_byte in B1; lia|apply IH; auto].
Qed.
Lemma bytes_removelast : forall l, bytes l -> bytes (removelast l).
Proof. intros [|b l] B; [constructor|]. rewrite (app_removelast_last 0 (l := b :: l)) in B by discriminate. apply Forall_app in B. tauto. Qed.
Lemma upto0_id : forall s rest, nonul s -> upto0 (s ++ 0 :: rest) = s.
Proof. induction s as [|b s IH]; intros rest N; [reflexivity|]. apply Forall_cons_iff in N as [B N]. cbn [app upto0]. replace (b =? 0) with false by lia. f_equal. auto. Qed.

(** pipe_writeerrno() with any errno *)
Lemma errno_view : forall e tr o, legal tr -> 0 <= e < 2 ^ 31 -> runs (pipe_writeerrno fuel 1 e) tr o ->
  Forall (fun e => writecall (fst e)) tr /\
  match o with
  | Wrong => False
  | Fin Good => sent 1 tr = le 8 ((- e) mod 2 ^ 64)
  | _ => is_prefix (sent 1 tr) (le 8 ((- e) mod 2 ^ 64))
  end.
Proof.
  intros e tr o L E R. split.
  { eapply use_calls; [exact R|]. unfold pipe_writeerrno. eapply calls_weak; [apply writeall_calls|]. intros c H. exact H. }
  unfold pipe_writeerrno in R. destruct (writeall_ok _ _ _ _ _ _ R L) as [_ H].
  { change (len (uint64_pack (- e))) with 8. lia. }
  assert (PK : uint64_pack (- e) = le 8 ((- e) mod 2 ^ 64)).
  { destruct (Z.eq_dec e 0) as [->|N]; [reflexivity|]. rewrite pack_neg by (unfold two63; lia).
    replace ((- e) mod 2 ^ 64) with (2 ^ 64 - e). { reflexivity. }
    apply Z.mod_unique with (q := -1); lia. }
  rewrite PK in H. clear PK R. set (w := le 8 ((- e) mod 2 ^ 64)) in *. assert (W : length w = 8%nat) by apply le_length.
  destruct o as [[|x]| |]; try contradiction.
  - destruct H as [-> _]. apply firstn_all2. lia.
  - destruct H as [(k & -> & _) _]. apply is_prefix_firstn.
  - destruct H as [(k & -> & _) _]. apply is_prefix_firstn.
Qed.

Lemma files_d : forall line0, length line0 = 65%nat -> forall n ppid pem key nonce tr o, pem_ok pem -> legal tr -> Forall env_ok tr ->
  runs (files stream fuel nojail account dir n ppid line0 pem key nonce) tr o -> exists log, dialogue Naming [] tr log o.
Proof.
  intros line0 L0. induction n as [|n IH]; intros ppid pem key nonce tr o PO L E R; cbn [files] in R.
  { destruct R as [-> ->]. exists []. change (@nil event) with (@nil event ++ @nil event). eapply d_stall with (r := Upto 1024); try apply needed_nil; try constructor; discriminate. }
  eapply request_d; [reflexivity|reader_ok|exact L|exact E|exact R|]. clear tr L E R. intros m t o1 FM BM L E R. cbn beta in R. cbn [app].
  destruct m as [|b m]; [change (len (@nil Z) =? 0) with true in R; cbv iota in R; eapply handshake_d; eauto|].
  set (m' := b :: m) in *. assert (NM : m' <> []) by discriminate.
  replace (len m' =? 0) with false in R by (unfold m'; rewrite len_cons; pose proof (len_nonneg _ m); lia).
  rewrite last_zero in R by auto. cbn [lift pbind] in R.
  destruct (upto0_split (removelast m')) as (rest & SP). rewrite SP in R.
  pose proof (upto0_nonul _ (bytes_removelast _ BM)) as NU.
  destruct (fixpath_ok (upto0 (removelast m')) rest NU) as (junk & _ & FX). rewrite FX in R. cbn [lift pbind] in R. fold (filename m') in R.
  assert (NF : nonul (filename m')).
  { unfold filename. apply sanitized_nonul. auto. }
  destruct (str_len_upto0 (filename m' ++ 0 :: junk ++ rest)) as [SL SF]; [apply in_or_app; right; left; auto|].
  rewrite upto0_id in SL, SF by auto. rewrite SL in R. cbn [lift pbind] in R. rewrite SF in R.
  assert (VAIN : forall t o, Forall (fun e => filecall (filename m') (fst e)) t -> o <> Wrong -> exists log, dialogue Naming [m'] t log o).
  { intros t' o' F O. exists []. apply d_vain; auto. eapply Forall_impl; [|exact F]. cbn. auto. }
  assert (WF : forall t : trace, Forall (fun e => wipecall (fst e)) t -> Forall (fun e => filecall (filename m') (fst e)) t).
  { intros t' F. eapply Forall_impl; [|exact F]. intros [[] ?]; cbn; try tauto; intros [->| ->]; auto 8. }
  apply runs_bind in R as [(key' & t1 & t2 & -> & R1 & R)|[[R1 ->]|[R1 ->]]].
  2:{ apply randombytes_ok in R1 as [[_ X]|(? & ? & _ & X & _)]; discriminate. }
  2:{ apply VAIN; [|discriminate]. apply WF. eapply randombytes_wipe; eauto. }
  apply randombytes_wipe in R1. apply legal_app in L as [L1 L]. apply Forall_app in E as [E1 E].
  apply runs_bind in R as [([[r nonce'] pem'] & t3 & t4 & -> & R2 & R)|[[R2 ->]|[R2 ->]]].
  2:{ destruct (load_ok _ _ _ _ _ _ _ _ _ L0 L (env_fstat _ E) R2). }
  2:{ apply VAIN; [|discriminate]. apply Forall_app. split; auto. eapply load_calls; eauto. }
  apply legal_app in L as [L3 L]. apply Forall_app in E as [E3 E].
  pose proof (load_ok _ _ _ _ _ _ _ _ _ L0 L3 (env_fstat _ E3) R2) as HL. pose proof (load_calls _ _ _ _ _ _ _ E3 R2) as CL. clear R2.
  assert (C13 : Forall (fun e => filecall (filename m') (fst e)) (t1 ++ t3)) by (apply Forall_app; auto).
  destruct HL as [(-> & -> & ->)|(-> & nn & fd & (a & Ia & <- & NA) & (s & bb & Is & NS & DS) & -> & _ & _ & ls & P & S & r1 & r2 & LI & SPL & LP & LS & ->)].
  - cbn [Z.eqb] in R. apply runs_bind in R as [(e & t5 & t6 & -> & R3 & R)|[[R3 ->]|[R3 ->]]].
    2:{ apply runs_sys1 in R3 as [[_ X]|(? & _ & X)]; discriminate. }
    2:{ apply runs_sys1 in R3 as [[-> _]|(? & _ & X)]; [|discriminate]. rewrite app_nil_r. apply VAIN; auto. discriminate. }
    apply runs_sys1 in R3 as [[_ X]|(a & -> & X)]; [discriminate|]. inv X.
    apply legal_app in L as [L5 L]. apply Forall_app in E as [E5 E].
    assert (EB : 0 <= ret a < 2 ^ 31). { apply Forall_cons_iff in E5 as [(_ & _ & _ & _ & E5) _]. apply E5. reflexivity. }
    set (T := (t1 ++ t3) ++ [(Other (bs "errno") [] [], a)]).
    assert (WK : work Naming [m'] T [le 8 ((- ret a) mod 2 ^ 64)] Naming).
    { apply w_nofile; auto; [|exists a; split; [|auto]; apply in_or_app; right; left; auto]. apply Forall_app. split; auto. constructor; [|constructor]. cbn. auto 8. }
    rewrite !app_assoc. fold T. rewrite <- (app_nil_r (T ++ t6)).
    apply runs_bind in R as [(c & t7 & t8 & -> & R4 & R)|[[R4 ->]|[R4 ->]]].
    + apply legal_app in L as [L7 L]. apply Forall_app in E as [E7 E]. apply errno_view in R4 as [W4 H4]; auto. rewrite app_nil_r. destruct c as [|x].
      * destruct (IH ppid pem_zero key' nonce t8 o1) as (log & D); auto; [reflexivity|]. exists (([m'], [le 8 ((- ret a) mod 2 ^ 64)]) :: log).
        eapply d_exchange; eauto.
      * apply cleanup_view in R as [W O]. eexists. eapply d_unsaid; eauto.
    + apply errno_view in R4 as [_ []]; auto.
    + apply errno_view in R4 as [W4 H4]; auto. eexists. rewrite <- app_assoc. eapply d_unsaid; eauto; discriminate.
  - cbn [Z.eqb pub publen] in R. rewrite app_assoc.
    assert (LT : len (PemFile.text P) < two63).
    { rewrite Forall_forall in E3. destruct (E3 _ Is) as (_ & E32 & _). destruct (E32 _ eq_refl NS) as (rr & sz & D & SZ). cbn [snd] in D. rewrite DS in D. injection D as _ D.
      pose proof (len_nonneg _ r2). unfold two63. rewrite <- D in SZ. change (2 ^ 62) with 4611686018427387904 in SZ. lia. }
    eapply exchange1_d with (m := PemFile.text P); [reflexivity| |apply legal_app; split; [apply legal_app; split; eassumption|exact L]|exact E| |exact R|].
    + eapply w_file with (content := got (ret a) t3); eauto. exists a. split; [apply in_or_app; auto|].
      rewrite Forall_forall in E3. destruct (E3 _ Ia) as (E31 & _). destruct (E31 _ eq_refl) as [X|X]; [cbn [snd] in X; congruence|]. split; [exact X|].
      rewrite got_app. cbn [snd] in X. rewrite (got_none _ t1 wipecall); auto.
    + exact LT.
    + intros t5 L5 E5 R5. eapply IH; [|exact L5|exact E5|exact R5]. unfold pem_ok. cbn [sec seclen]. rewrite len_app.
      assert (XL : forall key nonce i x, len (xorfrom stream key nonce i x) = len x).
      { intros k no i x. revert i. induction x as [|y x IHx]; intros i; [reflexivity|]. cbn [xorfrom]. rewrite !len_cons, IHx. reflexivity. }
      rewrite XL. pose proof (len_nonneg _ (PemFile.text S)). pose proof (len_nonneg _ r1). lia.
Qed.

Lemma tls_keyjail_d : forall line0 key0 tr o, length line0 = 65%nat -> legal tr -> Forall env_ok tr ->
  runs (tls_keyjail stream fuel nojail account dir line0 key0) tr o -> exists log, dialogue Naming [] tr log o.
Proof.
  intros line0 key0 tr o L0 L E R. unfold tls_keyjail in R.
  apply runs_bind in R as [(p & t1 & t2 & -> & R1 & R)|[[R1 ->]|[R1 ->]]].
  - apply runs_sys1 in R1 as [[_ X]|(a & -> & X)]; [discriminate|]. inv X. apply legal_app in L as [_ L]. apply Forall_app in E as [_ E].
    destruct (files_d line0 L0 fuel _ pem_zero key0 None t2 o eq_refl L E R) as (log & D). exists log. apply d_check. auto.
  - apply runs_sys1 in R1 as [[_ X]|(? & _ & X)]; discriminate.
  - apply runs_sys1 in R1 as [[-> _]|(? & _ & X)]; [|discriminate]. exists []. change (@nil event) with (@nil event ++ @nil event). eapply d_stall with (r := Upto 1024); try apply needed_nil; try constructor; discriminate.
Qed.
End K.
