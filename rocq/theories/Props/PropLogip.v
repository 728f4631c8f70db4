(** C97: the address texts of the log. *)
From Verif.Model Require Import Base Sys Io Stralloc Inet InetIsc Log Logip.
From Verif.Spec Require Import Num Grow Stream Ip LogText Logaddr.
From Verif.Proof Require Import Tac NumP SysP IoP BufferP StrallocP HostportP IpP InetIscP LogP LogipP.

Lemma same_ip : forall a m a' m', addr6 a -> addr6 a' -> a ++ m = a' ++ m' -> a = a'.
Proof.
  intros a m a' m' [L _] [L' _] E. apply (f_equal (firstn 16)) in E. rewrite !firstn_app, L, L', Nat.sub_diag, !firstn_O, !app_nil_r in E.
  rewrite !firstn_all2 in E by lia. exact E.
Qed.

Section C97.
Variable I : inet.
Hypothesis OK : inet_ok I.
(** The text of an address, of an address and a port. *)
Theorem C97_address : forall r ip a, rok r -> ip_at ip a ->
  exists r' p t rest, log_ip I r (Some ip) = Ok (r', p) /\ rtext r' p = t ++ 0 :: rest /\ addrtext I a t.
Proof.
  intros r ip a R (A & more & ->). destruct (arun_ok I OK r (AIp (Some (a ++ more))) R) as (r' & p & t & rest & E & (a' & (A' & more' & EQ) & T) & _ & _ & _ & X & _); [exists a; split; eauto|].
  exists r', p, t, rest. split; [exact E|]. split; [exact X|]. rewrite (same_ip _ _ _ _ A A' EQ). exact T.
Qed.
Theorem C97_place : forall r ip port a v, rok r -> ip_at ip a -> port_at port v ->
  exists r' p t rest, log_ipport I r (Some ip) (Some port) = Ok (r', p) /\ rtext r' p = t ++ 0 :: rest /\ placetext I a v t.
Proof.
  intros r ip port a v R (A & more & ->) P. destruct (arun_ok I OK r (APlace (Some (a ++ more)) (Some port)) R) as (r' & p & t & rest & E & (a' & v' & (A' & more' & EQ) & P' & T) & _ & _ & _ & X & _).
  { split; [exists a; split; eauto|eauto]. }
  exists r', p, t, rest. split; [exact E|]. split; [exact X|]. rewrite (same_ip _ _ _ _ A A' EQ).
  destruct P as (p0 & p1 & m & -> & _ & _ & ->), P' as (q0 & q1 & m' & Q & _ & _ & ->). injection Q as -> -> ->. exact T.
Qed.
(** Different places give different texts. *)
Lemma addrtext_inj : forall a b t, addrtext I a t -> addrtext I b t -> a = b.
Proof.
  intros a b t [(q & -> & D)|(N & P & C)] [(q' & -> & D')|(N' & P' & C')].
  - f_equal. destruct D as (n0 & n1 & n2 & n3 & F & -> & ->), D' as (m0 & m1 & m2 & m3 & F' & -> & E).
    repeat (apply Forall_cons_iff in F as [? F]). repeat (apply Forall_cons_iff in F' as [? F']).
    assert (S : forall x y u v, numeral x -> numeral y -> x ++ 46 :: u = y ++ 46 :: v -> x = y /\ u = v).
    { intros x y u v X Y Q. apply numeral_digits in X as [X _]. apply numeral_digits in Y as [Y _]. clear - X Y Q. revert y Y Q. induction X as [|c x C X IH]; intros y Y Q; destruct Y as [|d y D Y]; cbn [app] in Q.
      - injection Q as Q. auto.
      - injection Q as Q1 Q2. unfold digit in *. lia.
      - injection Q as Q1 Q2. unfold digit in *. lia.
      - injection Q as Q1 Q2. destruct (IH y Y Q2) as [-> ->]. subst d. auto. }
    apply S in E as [-> X1]; auto. apply S in X1 as [-> X2]; auto. apply S in X2 as [-> ->]; auto.
  - exfalso. apply (ok_pton6_colon I OK) in P'. apply dotquad_chars in D. rewrite Forall_forall in D. apply D in P'. unfold digit in P'. lia.
  - exfalso. apply (ok_pton6_colon I OK) in P. apply dotquad_chars in D'. rewrite Forall_forall in D'. apply D' in P. unfold digit in P. lia.
  - congruence.
Qed.
Theorem C97_injective : forall a b v w t, placetext I a v t -> placetext I b w t -> a = b /\ v = w.
Proof.
  assert (S : forall x y u v, Forall digit x -> Forall digit y -> u ++ 58 :: x = v ++ 58 :: y -> u = v /\ x = y).
  { intros x y u. induction u as [|c u IH]; intros [|d v] X Y Q; cbn [app] in Q.
    - injection Q as ->. auto.
    - injection Q as <- Q. exfalso. subst x. rewrite Forall_app in X. destruct X as [_ X]. inv X. unfold digit in *. lia.
    - injection Q as -> Q. exfalso. subst y. rewrite Forall_app in Y. destruct Y as [_ Y]. inv Y. unfold digit in *. lia.
    - injection Q as -> Q. destruct (IH v X Y Q) as [-> ->]. auto. }
  assert (HD : forall h, (exists q, dotquad q h) -> forall r, h <> 91 :: r).
  { intros h (q & D) r ->. apply dotquad_chars in D. inv D. unfold digit in *. lia. }
  intros a b v w t (h & n & N & V & T & K) (h' & n' & N' & V' & T' & K'). pose proof (proj1 (numeral_digits _ N)) as D. pose proof (proj1 (numeral_digits _ N')) as D'.
  assert (V4 : forall a h, addrtext I a h -> (exists q, a = v4prefix ++ q) -> exists q, dotquad q h) by (intros x y [(q & _ & Q)|(Q & _)] (q' & E); [eauto|destruct (Q _ E)]).
  destruct K as [[A ->]|[A ->]], K' as [[B E]|[B E]]; cbn [bs map String.list_ascii_of_string app] in E.
  - destruct (S _ _ _ _ D D' E) as [-> ->]. split; [eapply addrtext_inj; eauto|congruence].
  - exfalso. apply V4 in T; [|exact A]. destruct T as (q & Q). destruct h as [|c h]; cbn [app] in E; injection E as E1 E2; [discriminate E1|]. subst c. exact (HD _ (ex_intro _ q Q) h eq_refl).
  - exfalso. apply V4 in T'; [|exact B]. destruct T' as (q & Q). destruct h' as [|c h']; cbn [app] in E; injection E as E1 E2; [discriminate E1|]. subst c. exact (HD _ (ex_intro _ q Q) h' eq_refl).
  - injection E as E. change (h ++ 93 :: 58 :: n = h' ++ 93 :: 58 :: n') in E.
    replace (h ++ 93 :: 58 :: n) with ((h ++ [93]) ++ 58 :: n) in E by (rewrite <- app_assoc; reflexivity). replace (h' ++ 93 :: 58 :: n') with ((h' ++ [93]) ++ 58 :: n') in E by (rewrite <- app_assoc; reflexivity).
    destruct (S _ _ _ _ D D' E) as [E1 ->]. apply app_inj_tail in E1 as [-> _]. split; [eapply addrtext_inj; eauto|congruence].
Qed.
(** Every text is a C string of its own 68 bytes and stays so during the next eight requests, of all kinds. *)
Theorem C97_nine : forall r o l, rok r -> awf o -> Forall awf l -> (length l <= 8)%nat ->
  exists r' p t rest r'', arun I r o = Ok (r', p) /\ aruns I r' l = Ok r'' /\ aspec I o t /\
    rtext r' p = t ++ 0 :: rest /\ rtext r'' p = t ++ 0 :: rest.
Proof.
  intros r o l R W WL L. destruct (arun_ok I OK r o R W) as (r' & p & t & rest & E & F & R' & P & C & T & _).
  assert (B : (rnext r < 9)%nat) by (apply Nat.mod_upper_bound; lia).
  destruct (aruns_keep I OK l r' (rnext r) 0 R' WL B) as (r'' & E2 & _ & K); [rewrite Nat.add_0_r, Nat.mod_small; auto|lia|].
  exists r', p, t, rest, r''. split; auto. split; auto. split; auto. split; auto. unfold rtext in *. rewrite P in *. rewrite K. exact T.
Qed.
End C97.
Print Assumptions C97_address.
Print Assumptions C97_place.
Print Assumptions C97_injective.
Print Assumptions C97_nine.

(** ** Examples *)
Definition rot0 : rot := mkrot 8 (repeat (repeat 1 68) 9).
Definition home4 : list Z := v4prefix ++ [127; 0; 0; 1].
Definition long6 : list Z := concat (repeat [171; 205] 8).
Example ex_rot : rok rot0 /\ ip_at home4 home4 /\ ip_at (long6 ++ [7]) long6 /\ port_at [255; 255] 65535.
Proof.
  split; [split; [reflexivity|split; [cbn; lia|repeat constructor]]|].
  split; [split; [split; [reflexivity|repeat constructor; unfold is_byte; lia]|exists []; reflexivity]|].
  split; [split; [split; [reflexivity|repeat constructor; unfold is_byte; lia]|exists [7]; reflexivity]|].
  exists 255, 255, []. repeat split; unfold is_byte; lia.
Qed.
Definition shown_as (r : res (rot * ptr)) (t : list Z) : bool :=
  match r with Ok (r', p) => if list_eq_dec Z.eq_dec (firstn (length t + 1) (rtext r' p)) (t ++ [0]) then true else false | _ => false end.
Example ex_texts :
  shown_as (log_ip isc rot0 (Some home4)) (bs "127.0.0.1") = true /\
  shown_as (log_ipport isc rot0 (Some home4) (Some [0; 25])) (bs "127.0.0.1:25") = true /\
  shown_as (log_ipport isc rot0 (Some (long6 ++ [7])) (Some [255; 255])) (bs "[abcd:abcd:abcd:abcd:abcd:abcd:abcd:abcd]:65535") = true /\
  shown_as (log_ipport isc rot0 None (Some [0; 25])) (bs "(null)") = true.
Proof. vm_compute. auto. Qed.
