(** C09, C12, C13: string helpers. *)
From Verif.Model Require Import Base Str.
From Verif.Spec Require Import Text.
From Verif.Proof Require Import Tac HostportP StrP.

(** ** C09  fixpath *)

(** The buffer after the call: the sanitised text, its terminator, as many unspecified
    bytes as the text became shorter, and the untouched memory behind the string. *)
Theorem C09_fixpath_exact : forall s rest, nonul s ->
  exists junk, length junk = (length s - length (sanitized s))%nat /\
    fixpath (s ++ 0 :: rest) = Ok (sanitized s ++ 0 :: junk ++ rest).
Proof. exact fixpath_ok. Qed.
Print Assumptions C09_fixpath_exact.

(** What the sanitised text looks like. *)
Theorem C09_sanitized_safe : forall s,
  ~ adjacent 47 46 (sanitized s) /\ ~ adjacent 47 47 (sanitized s) /\
  (length (sanitized s) <= length s)%nat /\ hd_error (sanitized s) = hd_error s /\
  (forall c, In c (sanitized s) -> In c s \/ c = 58 /\ In 46 s).
Proof.
  intros s. destruct (sanitized_clean s). repeat split; auto using sanitized_len, sanitized_hd, sanitized_chars.
Qed.
Print Assumptions C09_sanitized_safe.

(** Running fixpath on its own result changes nothing. *)
Theorem C09_fixpath_idempotent : forall s rest b, nonul s -> fixpath (s ++ 0 :: rest) = Ok b ->
  fixpath b = Ok b.
Proof.
  intros s rest b N E. destruct (fixpath_ok s rest N) as (junk & _ & E'). rewrite E' in E. injection E as <-.
  destruct (fixpath_ok (sanitized s) (junk ++ rest) (sanitized_nonul s N)) as (j2 & L2 & E2).
  rewrite sanitized_idem in *. destruct j2; [|cbn in L2; lia]. exact E2.
Qed.
Print Assumptions C09_fixpath_idempotent.

(** A path without the dangerous pairs is left alone. *)
Theorem C09_clean_unchanged : forall s rest, nonul s -> ~ adjacent 47 46 s -> ~ adjacent 47 47 s ->
  fixpath (s ++ 0 :: rest) = Ok (s ++ 0 :: rest).
Proof.
  intros s rest N A B. destruct (fixpath_ok s rest N) as (j & L & E).
  destruct (sanitized_fx s) as [F _]. rewrite fx_id in F by (auto; discriminate). rewrite F in *.
  destruct j; [exact E|cbn in L; lia].
Qed.
Print Assumptions C09_clean_unchanged.

Example C09_ex1 : exists junk, fixpath (bs "a///..//./b.pem" ++ [0]) = Ok (bs "a/:./:/b.pem" ++ 0 :: junk) /\ length junk = 3%nat.
Proof. eexists. split; [vm_compute; reflexivity|reflexivity]. Qed.

(** ** fixname (used by C11) *)
Theorem C11_fixname_exact : forall s rest, nonul s ->
  exists junk, length junk = (length s - length (before 64 s))%nat /\
    fixname (s ++ 0 :: rest) = Ok (before 64 s ++ 0 :: junk ++ rest) /\
    ~ In 64 (before 64 s) /\ (before 64 s = s \/ exists v, s = before 64 s ++ 64 :: v).
Proof.
  intros s rest N. destruct (fixname_ok s rest N) as (j & L & E). destruct (before_spec 64 s). exists j. auto.
Qed.
Print Assumptions C11_fixname_exact.
Example C11_fixname_ex : fixname (bs "joe@example.com" ++ [0]) = Ok (bs "joe" ++ 0 :: bs "example.com" ++ [0]).
Proof. reflexivity. Qed.

(** ** C12  case.c *)
Theorem C12_case_diffs : forall a b ra rb, nonul a -> nonul b ->
  exists d, case_diffs (a ++ 0 :: ra) (b ++ 0 :: rb) = Ok d /\
    firstdiff (map lower a ++ [0]) (map lower b ++ [0]) d /\ (d = 0 <-> map lower a = map lower b).
Proof.
  intros a b ra rb Na Nb. destruct (case_diffs_ok a b ra rb Na Nb) as (d & E & F). exists d. repeat split; auto.
  - intro X. apply (firstdiff_zero _ _ _ F) in X. apply app_inj_tail in X as [X _]. exact X.
  - intro X. apply (firstdiff_zero _ _ _ F). rewrite X. reflexivity.
Qed.
Print Assumptions C12_case_diffs.

Theorem C12_case_diffb : forall a b ra rb, bytes a -> bytes b -> length a = length b ->
  exists d, case_diffb (a ++ ra) (len a) (b ++ rb) = Ok d /\
    firstdiff (map lower a) (map lower b) d /\ (d = 0 <-> map lower a = map lower b).
Proof.
  intros a b ra rb Na Nb L. destruct (case_diffb_ok a b ra rb Na Nb L) as (d & E & F). exists d.
  pose proof (firstdiff_zero _ _ _ F). auto.
Qed.
Print Assumptions C12_case_diffb.

Theorem C12_case_startb : forall b a ra rb, bytes a -> nonul b ->
  exists v, case_startb (a ++ ra) (len a) (b ++ 0 :: rb) = Ok v /\ (v = 1 \/ v = 0) /\
    (v = 1 <-> prefix (map lower b) (map lower a)).
Proof. exact case_startb_ok. Qed.
Print Assumptions C12_case_startb.

Theorem C12_case_starts : forall b a ra rb, nonul a -> nonul b ->
  exists v, case_starts (a ++ 0 :: ra) (b ++ 0 :: rb) = Ok v /\ (v = 1 \/ v = 0) /\
    (v = 1 <-> prefix (map lower b) (map lower a)).
Proof. exact case_starts_ok. Qed.
Print Assumptions C12_case_starts.

Theorem C12_case_lower :
  (forall a r, bytes a -> case_lowerb (a ++ r) (len a) = Ok (map lower a ++ r)) /\
  (forall a r, nonul a -> case_lowers (a ++ 0 :: r) = Ok (map lower a ++ 0 :: r)).
Proof. split; [exact case_lowerb_ok|exact case_lowers_ok]. Qed.
Print Assumptions C12_case_lower.

Example C12_ex1 : case_diffs (bs "MAIL FROM" ++ [0]) (bs "mail from" ++ [0]) = Ok 0.
Proof. reflexivity. Qed.
Example C12_ex2 : case_diffs [91; 0] [123; 0] = Ok (-32).
Proof. reflexivity. Qed.
Example C12_ex3 : case_startb (bs "EHLO x") 6 (bs "ehlo" ++ [0]) = Ok 1.
Proof. reflexivity. Qed.

(** ** C13  str.c *)
Theorem C13_str_len : forall s rest, nonul s -> str_len (s ++ 0 :: rest) = Ok (len s).
Proof. exact str_len_ok. Qed.
Print Assumptions C13_str_len.

Theorem C13_str_start : forall s t r r', nonul s -> nonul t ->
  exists v, str_start (s ++ 0 :: r) (t ++ 0 :: r') = Ok v /\ (v = 1 \/ v = 0) /\ (v = 1 <-> prefix t s).
Proof. exact str_start_ok. Qed.
Print Assumptions C13_str_start.

Theorem C13_str_chr : forall s c rest, nonul s ->
  exists i, str_chr (s ++ 0 :: rest) c = Ok (Z.of_nat i) /\ first_index s (c mod 256) i.
Proof. exact str_chr_ok. Qed.
Print Assumptions C13_str_chr.

Theorem C13_str_rchr : forall s c rest, nonul s ->
  exists i, str_rchr (s ++ 0 :: rest) c = Ok (Z.of_nat i) /\ last_index s (c mod 256) i.
Proof. exact str_rchr_ok. Qed.
Print Assumptions C13_str_rchr.

Theorem C13_str_diff : forall s t r r', nonul s -> nonul t ->
  exists d, str_diff (s ++ 0 :: r) (t ++ 0 :: r') = Ok d /\ firstdiff (s ++ [0]) (t ++ [0]) d /\ (d = 0 <-> s = t).
Proof.
  intros a b ra rb Na Nb. destruct (str_diff_ok a b ra rb Na Nb) as (d & E & F). exists d. repeat split; auto.
  - intro X. apply (firstdiff_zero _ _ _ F) in X. apply app_inj_tail in X as [X _]. exact X.
  - intro X. apply (firstdiff_zero _ _ _ F). rewrite X. reflexivity.
Qed.
Print Assumptions C13_str_diff.

Theorem C13_str_copy : forall t d rest, nonul t -> (length t < length d)%nat ->
  str_copy d (t ++ 0 :: rest) = Ok (t ++ 0 :: skipn (S (length t)) d, len t).
Proof. exact str_copy_ok. Qed.
Print Assumptions C13_str_copy.

(** str_diffn compares the first [n] bytes, provided the second string is not a proper
    extension of an [n]-byte first string. *)
Theorem C13_str_diffn : forall s t r r' n, nonul s -> nonul t ->
  ~ (length s = n /\ exists x u, t = s ++ x :: u) ->
  exists d, str_diffn (s ++ 0 :: r) (t ++ 0 :: r') (Z.of_nat n) = Ok d /\
            firstdiff (firstn n (s ++ [0])) (firstn n (t ++ [0])) d.
Proof. exact str_diffn_ok. Qed.
Print Assumptions C13_str_diffn.

(** In the excluded case the documented result 0 is never returned, although the first
    [n] bytes match. *)
Theorem C13_str_diffn_excluded : forall s x u r r', nonul s -> 0 < x < 256 ->
  firstn (length s) (s ++ [0]) = firstn (length s) ((s ++ x :: u) ++ [0]) /\
  str_diffn (s ++ 0 :: r) ((s ++ x :: u) ++ 0 :: r') (len s) = Ok (- x).
Proof.
  intros. split; [|apply str_diffn_bad; assumption].
  rewrite <- app_assoc, !firstn_app, Nat.sub_diag, !firstn_O. reflexivity.
Qed.
Print Assumptions C13_str_diffn_excluded.

(** The header comment of str_diffn ("returns 0 when the first len bytes match") is false. *)
Theorem C13_str_diffn_comment_refuted : exists s t n d, nonul s /\ nonul t /\
  firstn n (s ++ [0]) = firstn n (t ++ [0]) /\
  str_diffn (s ++ [0]) (t ++ [0]) (Z.of_nat n) = Ok d /\ d <> 0.
Proof.
  exists (bs "ab"), (bs "abc"), 2%nat, (-99). repeat split; repeat constructor; lia.
Qed.
Print Assumptions C13_str_diffn_comment_refuted.

Example C13_ex1 : str_rchr (bs "a/b/c" ++ [0]) 47 = Ok 3.
Proof. reflexivity. Qed.
Example C13_ex2 : str_diff [200; 0] [100; 0] = Ok 100.
Proof. reflexivity. Qed.
Example C13_ex3 : str_diffn (bs "abX" ++ [0]) (bs "abY" ++ [0]) 2 = Ok 0.
Proof. reflexivity. Qed.
Example C13_ex4 : str_diffn (bs "ab" ++ [0]) (bs "abc" ++ [0]) 2 = Ok (-99).
Proof. reflexivity. Qed.
Example C13_ex5 : str_copy [9;9;9;9;9] (bs "abc" ++ [0]) = Ok ([97;98;99;0;9], 3).
Proof. reflexivity. Qed.
Example C13_ex6 : str_start (bs "abc" ++ [0]) (bs "ab" ++ [0]) = Ok 1 /\ str_chr (bs "abc" ++ [0]) (256 + 98) = Ok 1.
Proof. split; reflexivity. Qed.
