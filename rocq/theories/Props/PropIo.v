(** C16-C19: exact reads and writes, framed messages. *)
From Verif.Model Require Import Base Sys Io.
From Verif.Spec Require Import Stream.
From Verif.Proof Require Import Tac SysP IoP FrameP.

(** ** C16  readall *)

(** Every run, whatever the kernel answers: never UB; on success exactly the requested
    bytes were taken from the descriptor and stored in order; on failure fewer were
    available and the kernel reported end of file or a hard error; nothing but reads on
    that descriptor; memory behind the bytes received is unchanged. *)
Theorem C16_readall : forall fuel fd x xlen tr o,
  runs (readall fuel fd x xlen) tr o -> legal tr -> 0 <= xlen <= len x ->
  Forall (fun e => exists n, fst e = Read fd n) tr /\
  match o with
  | Wrong => False
  | Cut => len (got fd tr) <= xlen /\ quiet tr
  | Fin (Good, x') => len (got fd tr) = xlen /\ x' = got fd tr ++ skipn (Z.to_nat xlen) x
  | Fin (Fail e, x') => len (got fd tr) < xlen /\ x' = got fd tr ++ skipn (length (got fd tr)) x /\ ends_hard tr
  end.
Proof.
  intros fuel fd x xlen tr o R L X. destruct (readall_ok _ _ _ _ _ _ R L) as [O H]; [lia|]. split; [exact O|].
  destruct o as [[[|e] x']| |]; auto.
  - destruct H as (H1 & H2 & _). split; auto. lia.
  - destruct H as (H1 & H2 & _). split; auto. lia.
Qed.
Print Assumptions C16_readall.

(** It finishes as soon as the bytes are there: an unfinished run (not stopped by the
    model's loop bound) has not yet received all bytes and has seen no end or error. *)
Theorem C16_readall_progress : forall fuel fd x xlen tr,
  runs (readall fuel fd x xlen) tr Cut -> legal tr -> 0 <= xlen <= len x -> (length tr < fuel)%nat ->
  len (got fd tr) < xlen /\ quiet tr.
Proof.
  intros fuel fd x xlen tr R L X F. destruct (readall_ok _ _ _ _ _ _ R L) as [O (H1 & H2 & H3)]; [lia|]. auto.
Qed.
Print Assumptions C16_readall_progress.

Definition rd (b : list Z) : ans := mkans (len b) 0 b.
Definition er (e : Z) : ans := mkans (-1) e [].

Example C16_ex : snd (exec (readall 9 5 [7;7;7;7;7] 4) [er EINTR; rd [1;2]; er EAGAIN; rd [3]; rd [4]])
  = Fin (Good, [1;2;3;4;7]).
Proof. reflexivity. Qed.
Example C16_ex2 : snd (exec (readall 9 5 [7;7;7;7] 4) [rd [1;2]; rd []]) = Fin (Fail EPIPE, [1;2;7;7]).
Proof. reflexivity. Qed.

(** ** C17  writeall *)
Theorem C17_writeall : forall fuel fd x xlen tr o,
  runs (writeall fuel fd x xlen) tr o -> legal tr -> 0 <= xlen <= len x ->
  Forall (fun e => (exists b, fst e = Write fd b) \/ fst e = Poll [(fd, 4)] (-1)) tr /\
  match o with
  | Wrong => False
  | Cut => (exists k, sent fd tr = firstn k x /\ Z.of_nat k <= xlen) /\ quiet tr
  | Fin Good => sent fd tr = firstn (Z.to_nat xlen) x
  | Fin (Fail e) => (exists k, sent fd tr = firstn k x /\ Z.of_nat k < xlen) /\ ends_hard tr
  end.
Proof.
  intros fuel fd x xlen tr o R L X. destruct (writeall_ok _ _ _ _ _ _ R L) as [O H]; [lia|]. split; [exact O|].
  destruct o as [[|e]| |]; auto; [tauto|]. destruct H as ((k & H1 & H2) & H3). split; auto. exists k. split; auto. lia.
Qed.
Print Assumptions C17_writeall.

Definition wr (n : Z) : ans := mkans n 0 [].
Example C17_ex : let r := exec (writeall 9 5 [1;2;3;4;5] 4) [wr 1; er EAGAIN; wr 1; er EINTR; wr 1; wr 3] in
  snd r = Fin Good /\ sent 5 (fst r) = [1;2;3;4].
Proof. split; reflexivity. Qed.
Example C17_ex2 : let r := exec (writeall 9 5 [1;2;3;4] 4) [wr 3; wr 0] in
  snd r = Fin (Fail EPIPE) /\ sent 5 (fst r) = [1;2;3].
Proof. split; reflexivity. Qed.

(** ** C18  framed messages *)

(** What the writer sends is the concatenation of the frames. *)
Theorem C18_frames_sent : forall fuel fd ms tr o, runs (write_msgs fuel fd ms) tr o -> legal tr ->
  Forall (fun m => len m < 2 ^ 63) ms ->
  match o with
  | Wrong => False
  | Fin Good => sent fd tr = concat (map frame ms)
  | Fin (Fail _) => is_prefix (sent fd tr) (concat (map frame ms)) /\ ends_hard tr
  | Cut => is_prefix (sent fd tr) (concat (map frame ms))
  end.
Proof.
  intros fuel fd ms tr o R L F. pose proof (write_msgs_ok _ _ _ _ _ R L F) as H. destruct o as [[|]| |]; tauto.
Qed.
Print Assumptions C18_frames_sent.

(** Reader and writer of any lengths: if all messages were sent and the reader's descriptor
    delivers that stream (followed by anything), the reader gets the same messages and has
    consumed exactly the frames; it stops earlier only on a reported end or error, and what
    it got so far is an initial part of the messages. *)
Theorem C18_frames_roundtrip : forall fw fr wfd rfd ms rs rest trw trr o,
  runs (write_msgs fw wfd ms) trw (Fin Good) -> legal trw ->
  runs (read_msgs fr rfd rs) trr o -> legal trr ->
  Forall2 admits rs ms ->
  is_prefix (got rfd trr) (sent wfd trw ++ rest) ->
  match o with
  | Wrong => False
  | Cut => quiet trr
  | Fin (ms', true) => ms' = ms /\ got rfd trr = sent wfd trw
  | Fin (ms', false) => (exists u, ms = ms' ++ u) /\ ends_hard trr
  end.
Proof.
  intros fw fr wfd rfd ms rs rest trw trr o W LW R LR A P.
  assert (F : Forall (fun m : list Z => len m < two63) ms).
  { clear - A. induction A as [|r m rs ms H A IH]; constructor; auto. destruct r; cbn in H; unfold two63; lia. }
  destruct (write_msgs_ok _ _ _ _ _ W LW F) as [S _]. rewrite S in *.
  pose proof (read_msgs_ok _ _ _ _ _ _ _ R LR A P) as H. destruct o as [[ms' [|]]| |]; tauto.
Qed.
Print Assumptions C18_frames_roundtrip.

Example C18_ex : 
  let w := exec (write_msgs 9 3 [[1;2;3]; []; [4]]) [wr 8; wr 2; wr 1; wr 8; wr 5; wr 3; wr 1] in
  let s := sent 3 (fst w) in
  snd w = Fin Good /\ 
  snd (exec (read_msgs 9 4 [Upto 5; Exact 0; Fresh])
        [rd (firstn 3 s); rd (firstn 5 (skipn 3 s)); rd (firstn 3 (skipn 8 s));
         rd (firstn 8 (skipn 11 s)); rd (firstn 8 (skipn 19 s)); wr 1; rd (skipn 27 s)])
  = Fin ([[1;2;3]; []; [4]], true).
Proof. split; reflexivity. Qed.

(** A negative length is refused before anything is written. *)
Theorem C18_negative_refused : forall fuel fd x n tr o, n < 0 -> runs (pipe_write fuel fd x n) tr o -> tr = [] /\ o = Fin (Fail 22).
Proof. intros fuel fd x n tr o N R. unfold pipe_write in R. replace (n <? 0) with true in R by lia. exact R. Qed.
Print Assumptions C18_negative_refused.

(** ** C19  readers and hostile streams *)
Theorem C19_exact_reader : forall fuel fd out outlen tr o,
  runs (pipe_readall fuel fd out outlen) tr o -> legal tr -> 0 <= outlen <= len out -> outlen <= 1048576 ->
  match o with
  | Wrong => False
  | Cut => quiet tr
  | Fin (Good, out') => exists m, len m = outlen /\ got fd tr = frame m /\ out' = m ++ skipn (Z.to_nat outlen) out
  | Fin (Fail e, out') =>
      (ends_hard tr /\ exists p, out' = p ++ skipn (length p) out /\ len p <= outlen) \/
      (out' = out /\ length (got fd tr) = 8%nat /\ leval (got fd tr) <> outlen)
  end.
Proof.
  intros fuel fd out outlen tr o R L X C. destruct (pipe_readall_ok _ _ _ _ _ _ R L X C) as [_ H].
  destruct o as [[[|e] x']| |]; auto.
  - destruct H as (m & H1 & H2 & H3 & _). eauto.
  - tauto.
Qed.
Print Assumptions C19_exact_reader.

Theorem C19_bounded_reader : forall fuel fd out outlen tr o,
  runs (pipe_readmax fuel fd out outlen) tr o -> legal tr -> 0 <= outlen <= len out -> outlen <= 1048576 ->
  match o with
  | Wrong => False
  | Cut => quiet tr
  | Fin (Good, out', n) => exists m, len m = n /\ n <= outlen /\ got fd tr = frame m /\ out' = m ++ skipn (length m) out
  | Fin (Fail e, out', n) => n = outlen /\
      ((ends_hard tr /\ exists p, out' = p ++ skipn (length p) out /\ len p <= outlen) \/
      (out' = out /\ length (got fd tr) = 8%nat /\ leval (got fd tr) > outlen))
  end.
Proof.
  intros fuel fd out outlen tr o R L X C. destruct (pipe_readmax_ok _ _ _ _ _ _ R L X C) as [_ H].
  destruct o as [[[[|e] x'] n]| |]; auto.
  - destruct H as (m & H1 & H2 & H3 & H4 & _). eauto 6.
  - tauto.
Qed.
Print Assumptions C19_bounded_reader.

(** A buffer larger than the limit is refused without reading anything. *)
Theorem C19_oversized_refused : forall fuel fd out outlen tr o, 1048576 < outlen ->
  (runs (pipe_readall fuel fd out outlen) tr o -> tr = [] /\ o = Fin (Fail 22, out)) /\
  (forall o', runs (pipe_readmax fuel fd out outlen) tr o' -> tr = [] /\ o' = Fin (Fail 22, out, outlen)).
Proof.
  intros fuel fd out outlen tr o H. unfold pipe_readall, pipe_readmax, CHUNK.
  destruct (Z.ltb_spec 1048576 outlen); [|lia]. split; auto.
Qed.
Print Assumptions C19_oversized_refused.

(** The allocating reader: a block of exactly the announced length, or a failure carrying
    the announced error number (as a C int); the only input without defined behaviour is
    the most negative length. *)
Theorem C19_allocating_reader : forall fuel fd tr o,
  runs (pipe_readalloc fuel fd) tr o -> legal tr ->
  match o with
  | Wrong => got fd tr = le 8 (2 ^ 63)
  | Cut => quiet tr
  | Fin (inr m) => got fd tr = frame m /\ exists a, In (Alloc (len m), a) tr /\ ret a = 1
  | Fin (inl e) => ends_hard tr \/
      (exists v, 0 < v < 2 ^ 63 /\ got fd tr = errframe v /\ e = toint v)
  end.
Proof.
  intros fuel fd tr o R L. pose proof (pipe_readalloc_ok _ _ _ _ R L) as H.
  destruct o as [[e|m]| |]; auto; tauto.
Qed.
Print Assumptions C19_allocating_reader.

(** An error number written by pipe_writeerrno is what the allocating reader reports. *)
Theorem C19_errno_roundtrip : forall fw fr wfd rfd e rest trw trr o,
  0 < e < 2 ^ 31 ->
  runs (pipe_writeerrno fw wfd e) trw (Fin Good) -> legal trw ->
  runs (pipe_readalloc fr rfd) trr o -> legal trr ->
  is_prefix (got rfd trr) (sent wfd trw ++ rest) ->
  match o with
  | Wrong => False
  | Cut => True
  | Fin (inr m) => False
  | Fin (inl e') => e' = e \/ ends_hard trr
  end.
Proof.
  intros fw fr wfd rfd e rest trw trr o E W LW R LR P.
  destruct (pipe_writeerrno_ok _ _ _ _ _ W LW) as [_ [S _]]; [unfold two63; lia|]. rewrite S in P.
  assert (K : forall v, 0 <= v < two64 -> is_prefix (le 8 v) (errframe e ++ rest) -> v = 2 ^ 64 - e).
  { intros v V [u X]. unfold errframe in X. apply app_eq_len in X as [X _]; [|rewrite !le_length; reflexivity].
    apply (f_equal leval) in X. rewrite !leval_le in X by (change (256 ^ Z.of_nat 8) with two64; unfold two64 in *; lia). lia. }
  pose proof (pipe_readalloc_ok _ _ _ _ R LR) as H. destruct o as [[e'|m]| |]; auto.
  - destruct H as [H|(_ & v & V & G & ->)]; auto. left. rewrite G in P. unfold errframe in P at 1. apply K in P; [|unfold two64; lia].
    assert (v = e) as -> by lia. unfold toint, u32. rewrite Z.mod_small by lia. destruct (Z.ltb_spec e 2147483648); lia.
  - destruct H as (G & _ & BL & _). rewrite G in P. unfold frame in P. apply (fun X => is_prefix_trans (le 8 (len m)) _ _ X) in P; [|exists m; reflexivity].
    pose proof (len_nonneg _ m). apply K in P; unfold two64, two63 in *; lia.
  - rewrite H in P. apply K in P; unfold two64 in *; lia.
Qed.
Print Assumptions C19_errno_roundtrip.

(** The most negative length is undefined behaviour (negation overflows). *)
Theorem C19_most_negative_length_refuted : exists s, legal (fst (exec (pipe_readalloc 3 4) s)) /\
  snd (exec (pipe_readalloc 3 4) s) = Wrong.
Proof.
  exists [rd [0;0;0;0;0;0;0;128]]. split; [|reflexivity]. apply Forall_cons; [|apply Forall_nil]. right. split; [split; discriminate|]. split; [reflexivity|]. repeat (apply Forall_cons; [unfold is_byte; lia|]). apply Forall_nil.
Qed.
Print Assumptions C19_most_negative_length_refuted.

Example C19_ex1 : snd (exec (pipe_readmax 9 4 [9;9;9] 3) [rd [4;0;0;0;0;0;0;0]]) = Fin (Fail stale, [9;9;9], 3).
Proof. reflexivity. Qed.
Example C19_ex2 : snd (exec (pipe_readmax 9 4 [9;9;9] 3) [rd [255;255;255;255;255;255;255;255]]) = Fin (Fail stale, [9;9;9], 3).
Proof. reflexivity. Qed.
Example C19_ex3 : snd (exec (pipe_readalloc 9 4) [rd [254;255;255;255;255;255;255;255]]) = Fin (inl 2).
Proof. reflexivity. Qed.
