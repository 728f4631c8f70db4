(** log_ip and log_ipport. *)
From Verif.Model Require Import Base Sys Io Stralloc Inet Log Logip.
From Verif.Spec Require Import Num Grow Stream Ip LogText Logaddr.
From Verif.Proof Require Import Tac NumP SysP IoP BufferP StrallocP IpP LogP.

Lemma ldn_app : forall a b c, ldn (a ++ b ++ c) (length a) (length b) = Ok b.
Proof.
  intros a b c. unfold ldn. rewrite !app_length. destruct (Nat.leb_spec (length a + length b) (length a + (length b + length c))); [|lia].
  rewrite skipn_app, skipn_all, Nat.sub_diag. cbn [app skipn]. rewrite firstn_app, Nat.sub_diag, firstn_all. cbn [firstn]. rewrite app_nil_r. reflexivity.
Qed.
Lemma ntop_at : forall x off size t, (off + length t < length x)%nat -> len t + 1 <= size -> ntop x off size t = Ok (firstn off x ++ t ++ 0 :: skipn (off + length t + 1) x, true).
Proof.
  intros x off size t L S. unfold ntop. destruct (Z.leb_spec (len t + 1) size); [|lia]. rewrite stl_at by (rewrite app_length; cbn [length]; lia).
  cbn [bind]. rewrite app_length. cbn [length]. rewrite <- app_assoc. cbn [app]. rewrite Nat.add_assoc. reflexivity.
Qed.

Lemma skipn_add : forall (x : list Z) i j, skipn j (skipn i x) = skipn (i + j) x.
Proof. induction x as [|c x IH]; intros [|i] j; cbn [skipn Nat.add]; auto. destruct j; reflexivity. Qed.

Section LogipP.
Variable I : inet.
Hypothesis OK : inet_ok I.
Definition arun (r : rot) (o : aop) : res (rot * ptr) :=
  match o with AOld o => frun r o | AIp p => log_ip I r p | APlace p q => log_ipport I r p q end.
Fixpoint aruns (r : rot) (l : list aop) : res rot :=
  match l with [] => Ok r | o :: l' => '(r', _) <- arun r o ;; aruns r' l' end.

(** the two kinds of addresses *)
Lemma addr_cases : forall a more, addr6 a ->
  ((exists q t, a = v4prefix ++ q /\ ldn (a ++ more) 0 12 = Ok v4prefix /\ ldn (a ++ more) 12 4 = Ok q /\ ntop4 I q = t /\ addrtext I a t /\ nonul t /\ (length t <= 45)%nat) \/
   (exists h t, h <> v4prefix /\ (forall q, a <> v4prefix ++ q) /\ ldn (a ++ more) 0 12 = Ok h /\ ldn (a ++ more) 0 16 = Ok a /\ ntop6 I a = t /\ addrtext I a t /\ nonul t /\ (length t <= 45)%nat)).
Proof.
  intros a more A. destruct (iptostr_chars I OK a A) as (CH & LT & _). unfold iptostr in CH, LT. destruct (prefix_dec a A) as [(q & Q & E & E1 & E2)|N].
  - left. exists q, (ntop4 I q). rewrite E2 in CH, LT. destruct (list_eq_dec Z.eq_dec (firstn 12 a) v4prefix) as [_|X]; [|congruence]. subst a.
    split; [reflexivity|]. split; [rewrite <- app_assoc; apply (ldn_app [] v4prefix)|].
    split. { rewrite <- app_assoc. pose proof (ldn_app v4prefix q more) as X. destruct Q as [LQ _]. rewrite LQ in X. exact X. }
    split; [reflexivity|]. split; [left; exists q; split; auto; apply (ok_ntop4 I OK q Q)|]. split; [apply ipchars_nonul; exact CH|lia].
  - right. exists (firstn 12 a), (ntop6 I a). destruct (list_eq_dec Z.eq_dec (firstn 12 a) v4prefix) as [X|_]; [congruence|].
    destruct A as [LA BA]. assert (NQ : forall q, a <> v4prefix ++ q) by (intros q ->; apply N; reflexivity). split; [exact N|]. split; [exact NQ|].
    split. { unfold ldn. rewrite app_length, LA. cbn [Nat.leb Nat.add]. change (12 <=? 16 + length more)%nat with true. cbv iota. rewrite skipn_O, firstn_app, LA. cbn [Nat.sub firstn]. rewrite app_nil_r. reflexivity. }
    split. { pose proof (ldn_app [] a more) as X. rewrite LA in X. exact X. }
    split; [reflexivity|]. destruct (ok_ntop6 I OK a (conj LA BA)) as (P1 & P2 & P3 & P4).
    split; [right; auto|]. split; [apply ipchars_nonul; exact CH|lia].
Qed.
Lemma widenum_num : forall v t, 0 <= v -> widenum v 0 t -> numeral t /\ decval t = v.
Proof.
  intros v t V [(_ & z & m & -> & M & D & Z)|(X & _)]; [|lia]. pose proof (len_nonneg _ m). replace z with O by lia. cbn [repeat app]. auto.
Qed.

Lemma arun_ok : forall r o, rok r -> awf o ->
  exists r' p t rest, arun r o = Ok (r', p) /\ aspec I o t /\ rok r' /\ fst p = rnext r /\ rcount r' = rnext r /\
    rtext r' p = t ++ 0 :: rest /\ (forall j, j <> rnext r -> nth j (rslots r') [] = nth j (rslots r) []).
Proof.
  intros r o R W. destruct o as [o|ip|ip port]; [exact (frun_ok r o R W)| |]; destruct (rslot_ok r R) as (x & RS & X).
  - assert (FIN : forall t y z, length z = 68%nat -> z = t ++ 0 :: y -> aspec I (AIp ip) t -> log_ip I r ip = Ok (rput r (rnext r) z, (rnext r, O)) ->
       exists r' p t rest, arun r (AIp ip) = Ok (r', p) /\ aspec I (AIp ip) t /\ rok r' /\ fst p = rnext r /\ rcount r' = rnext r /\
       rtext r' p = t ++ 0 :: rest /\ (forall j, j <> rnext r -> nth j (rslots r') [] = nth j (rslots r) [])).
    { intros t y z Z SK SP E. destruct (rput_ok r z R Z) as (A & B & C). exists (rput r (rnext r) z), (rnext r, O), t, y.
      split; auto. split; auto. split; auto. split; auto. split; auto. split; auto. unfold rtext. cbn [fst snd skipn]. rewrite B. exact SK. }
    destruct ip as [p|].
    + destruct W as (a & A & more & ->). destruct (addr_cases a more A) as [(q & t & EA & E1 & E2 & E3 & AT & NN & LT)|(h & t & NH & NQ & E1 & E2 & E3 & AT & NN & LT)].
      * eapply (FIN t); [|reflexivity|exists a; split; [split; [exact A|eauto]|exact AT]|].
        2:{ unfold log_ip. cbn zeta. rewrite RS. cbn [bind]. rewrite E1. cbn [bind]. destruct (list_eq_dec Z.eq_dec v4prefix v4prefix); [|congruence]. rewrite E2. cbn [bind]. rewrite E3.
            rewrite ntop_at by (unfold len, STATICBUFSIZE; lia). cbn [bind firstn app]. reflexivity. }
        rewrite app_length. cbn [length]. rewrite skipn_length. lia.
      * eapply (FIN t); [|reflexivity|exists a; split; [split; [exact A|eauto]|exact AT]|].
        2:{ unfold log_ip. cbn zeta. rewrite RS. cbn [bind]. rewrite E1. cbn [bind]. destruct (list_eq_dec Z.eq_dec h v4prefix); [congruence|]. rewrite E2. cbn [bind]. rewrite E3.
            rewrite ntop_at by (unfold len, STATICBUFSIZE; lia). cbn [bind firstn app]. reflexivity. }
        rewrite app_length. cbn [length]. rewrite skipn_length. lia.
    + destruct (null_ok x X) as (y & E & Y). eapply (FIN (bs "(null)") y); [exact Y|reflexivity|reflexivity|].
      unfold log_ip. cbn zeta. rewrite RS. cbn [bind]. rewrite E. reflexivity.
  - assert (FIN : forall t y z, length z = 68%nat -> z = t ++ 0 :: y -> aspec I (APlace ip port) t -> log_ipport I r ip port = Ok (rput r (rnext r) z, (rnext r, O)) ->
       exists r' p t rest, arun r (APlace ip port) = Ok (r', p) /\ aspec I (APlace ip port) t /\ rok r' /\ fst p = rnext r /\ rcount r' = rnext r /\
       rtext r' p = t ++ 0 :: rest /\ (forall j, j <> rnext r -> nth j (rslots r') [] = nth j (rslots r) [])).
    { intros t y z Z SK SP E. destruct (rput_ok r z R Z) as (A & B & C). exists (rput r (rnext r) z), (rnext r, O), t, y.
      split; auto. split; auto. split; auto. split; auto. split; auto. split; auto. unfold rtext. cbn [fst snd skipn]. rewrite B. exact SK. }
    assert (NUL : exists y, stl x 0 (bs "(null)" ++ [0]) = Ok (bs "(null)" ++ 0 :: y) /\ length (bs "(null)" ++ 0 :: y) = 68%nat) by (apply null_ok; exact X).
    destruct NUL as (y0 & EN & YN).
    destruct ip as [p|]; [destruct port as [q|]|].
    2, 3: eapply (FIN (bs "(null)") y0); [exact YN|reflexivity|reflexivity|]; unfold log_ipport; cbn zeta; rewrite RS; cbn [bind]; rewrite EN; reflexivity.
    destruct W as ((a & A & more & ->) & v & p0 & p1 & mp & -> & B0 & B1 & V).
    (* the second half: the host text, the colon and the number *)
    assert (HALF : forall h rest, nonul h -> (length h <= 47)%nat -> length (h ++ 0 :: rest) = 68%nat ->
      exists n w, numeral n /\ decval n = v /\ length (h ++ 58 :: n ++ 0 :: w) = 68%nat /\
        (plen <- cstrlen (h ++ 0 :: rest) ;;
         x <- st (h ++ 0 :: rest) (Z.to_nat plen) 58 ;;
         p2 <- ld (p0 :: p1 :: mp) 0 ;; p3 <- ld (p0 :: p1 :: mp) 1 ;;
         '(y, _) <- numtostr (skipn (Z.to_nat (plen + 1)) x) (STATICBUFSIZE - plen - 1) (Z.lor (Z.shiftl p2 8) p3) 0 ;;
         Ok (rput r (rnext r) (firstn (Z.to_nat (plen + 1)) x ++ y), (rnext r, O))) =
        Ok (rput r (rnext r) (h ++ 58 :: n ++ 0 :: w), (rnext r, O))).
    { intros h rest NN LH LX. rewrite app_length in LX. cbn [length] in LX. rewrite cstrlen_ok by exact NN. cbn [bind]. unfold len at 1. rewrite Nat2Z.id, st_app. cbn [bind ld nth_error].
      replace (Z.to_nat (len h + 1)) with (length (h ++ [58])) by (rewrite app_length; cbn [length]; unfold len; lia).
      replace (h ++ 58 :: rest) with ((h ++ [58]) ++ rest) by (rewrite <- app_assoc; reflexivity).
      rewrite skipn_app, skipn_all, Nat.sub_diag, firstn_app, firstn_all, Nat.sub_diag. cbn [app skipn firstn]. rewrite app_nil_r.
      rewrite Z.shiftl_mul_pow2 by lia. change 8 with (Z.of_nat 8). rewrite lor_add by (unfold is_byte in *; cbn; lia). change (2 ^ Z.of_nat 8) with 256.
      destruct (numtostr_ok rest (STATICBUFSIZE - len h - 1) (p0 * 256 + p1) 0 5) as (n & NW & LN & EN2).
      - unfold is_byte, in_s64, two63 in *. lia.
      - unfold is_byte in *. change (10 ^ Z.of_nat 5) with 100000. lia.
      - lia.
      - lia.
      - unfold STATICBUFSIZE, len. lia.
      - rewrite EN2. cbn [bind]. replace (Z.min 0 (STATICBUFSIZE - len h - 1 - 1)) with 0 in NW by (unfold STATICBUFSIZE, len; lia).
        apply widenum_num in NW as [N1 N2]; [|unfold is_byte in *; lia]. exists n, (skipn (length n + 1) rest). split; [exact N1|]. split; [lia|].
        split; [rewrite !app_length; cbn [length]; rewrite app_length; cbn [length]; rewrite skipn_length; lia|]. rewrite <- app_assoc. reflexivity. }
    destruct (addr_cases a more A) as [(q & t & EA & E1 & E2 & E3 & AT & NN & LT)|(h & t & NH & NQ & E1 & E2 & E3 & AT & NN & LT)].
    + destruct (HALF t (skipn (length t + 1) x)) as (n & w & N1 & N2 & LZ & E); [exact NN|lia|rewrite app_length; cbn [length]; rewrite skipn_length; lia|].
      eapply (FIN (t ++ bs ":" ++ n) w _ LZ); [rewrite <- !app_assoc; reflexivity| |].
      * exists a, v. split; [split; [exact A|eauto]|]. split; [exists p0, p1, mp; auto|]. exists t, n. split; auto. split; auto. split; auto. left. split; [eauto|reflexivity].
      * unfold log_ipport. cbn zeta. rewrite RS. cbn [bind]. rewrite E1. cbn [bind]. destruct (list_eq_dec Z.eq_dec v4prefix v4prefix); [|congruence]. rewrite E2. cbn [bind]. rewrite E3.
        rewrite ntop_at by (unfold len, STATICBUFSIZE; lia). cbn [bind firstn app Nat.add]. exact E.
    + destruct x as [|x0 x]; [discriminate X|]. cbn [length] in X.
      destruct (HALF (91 :: t ++ [93]) (skipn (length t + 2) x)) as (n & w & N1 & N2 & LZ & E).
      { apply Forall_cons; [lia|]. apply Forall_app. split; [exact NN|]. apply Forall_cons; [lia|constructor]. }
      { cbn [length]. rewrite app_length. cbn [length]. lia. }
      { cbn [app length]. rewrite !app_length. cbn [length]. rewrite skipn_length. lia. }
      eapply (FIN (bs "[" ++ t ++ bs "]:" ++ n) w _ LZ); [cbn [bs map String.list_ascii_of_string app]; rewrite <- !app_assoc; reflexivity| |].
      * exists a, v. split; [split; [exact A|eauto]|]. split; [exists p0, p1, mp; auto|]. exists t, n. split; auto.
      * unfold log_ipport. cbn zeta. rewrite RS. cbn [bind]. rewrite E1. cbn [bind]. destruct (list_eq_dec Z.eq_dec h v4prefix); [congruence|]. rewrite E2. cbn [bind]. rewrite E3.
        cbn [st upd length Nat.ltb Nat.leb bind]. rewrite ntop_at by (cbn [length]; unfold len, STATICBUFSIZE; lia). cbn [bind firstn app Nat.add skipn].
        assert (CL : cstrlen (91 :: t ++ 0 :: skipn (length t + 1) x) = Ok (len (91 :: t))) by (apply (cstrlen_ok (91 :: t)); apply Forall_cons; [lia|exact NN]).
        rewrite CL. cbn [bind].
        assert (S1 : st (91 :: t ++ 0 :: skipn (length t + 1) x) (Z.to_nat (len (91 :: t))) 93 = Ok (91 :: t ++ 93 :: skipn (length t + 1) x)) by (unfold len; rewrite Nat2Z.id; apply (st_app (91 :: t))).
        rewrite S1. cbn [bind].
        assert (S2 : st (91 :: t ++ 93 :: skipn (length t + 1) x) (Z.to_nat (len (91 :: t) + 1)) 0 = Ok ((91 :: t ++ [93]) ++ 0 :: skipn (length t + 2) x)).
        { replace (Z.to_nat (len (91 :: t) + 1)) with (length (91 :: t ++ [93])) by (cbn [length]; rewrite app_length; unfold len; cbn [length]; lia).
          destruct (skipn (length t + 1) x) as [|x1 xs] eqn:SX; [apply (f_equal (@length Z)) in SX; rewrite skipn_length in SX; cbn [length] in SX; lia|].
          assert (Q : skipn (length t + 2) x = xs) by (pose proof (skipn_add x (length t + 1) 1) as K; rewrite SX in K; cbn [skipn] in K; rewrite K; f_equal; lia). rewrite Q.
          replace (91 :: t ++ 93 :: x1 :: xs) with ((91 :: t ++ [93]) ++ x1 :: xs) by (cbn [app]; rewrite <- app_assoc; reflexivity). apply st_app. }
        rewrite S2. cbn [bind]. exact E.
Qed.

Lemma aruns_keep : forall l r i k, rok r -> Forall awf l -> (i < 9)%nat -> rcount r = ((i + k) mod 9)%nat -> (k + length l <= 8)%nat ->
  exists r', aruns r l = Ok r' /\ rok r' /\ nth i (rslots r') [] = nth i (rslots r) [].
Proof.
  induction l as [|o l IH]; intros r i k R W IN C K; cbn [aruns].
  - exists r. auto.
  - inv W. destruct (arun_ok r o R H1) as (r1 & p & t & rest & E & _ & R1 & _ & C1 & _ & N). rewrite E. cbn [bind]. cbn [length] in K.
    assert (C2 : rcount r1 = ((i + (k + 1)) mod 9)%nat).
    { rewrite C1. unfold rnext. rewrite C, Nat.add_mod_idemp_l by lia. f_equal. lia. }
    destruct (IH r1 i (k + 1)%nat R1 H2 IN C2) as (r' & E' & R' & K'); [lia|]. exists r'. split; auto. split; auto. rewrite K'. apply N.
    rewrite <- C1, C2. intros Q. symmetry in Q. revert Q. apply rnext_ne; lia.
Qed.
End LogipP.
