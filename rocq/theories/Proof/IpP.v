(** Lemmas about parseip.c and iptostr.c under the libc interface. *)
From Verif.Model Require Import Base Inet InetIsc Parsehostport.
From Verif.Spec Require Import Num Ip Hostport.
From Verif.Proof Require Import Tac NumP HostportP InetIscP.

Lemma numeral_digits : forall s, numeral s -> Forall digit s /\ s <> [].
Proof.
  intros s [->|(c & s' & -> & C & D)].
  - split; [apply digit0|discriminate].
  - split; [|discriminate]. constructor; auto. unfold digit. lia.
Qed.

Lemma dotquad_chars : forall a s, dotquad a s -> Forall (fun c => digit c \/ c = 46) s.
Proof.
  intros a s (n0 & n1 & n2 & n3 & F & _ & ->).
  repeat (apply Forall_cons_iff in F as [? F]).
  assert (G : forall n, numeral n -> Forall (fun c => digit c \/ c = 46) n).
  { intros n Hn. apply numeral_digits in Hn as [Hn _]. eapply Forall_impl; [|exact Hn]. cbn. auto. }
  repeat (apply Forall_app; split; [auto|]; apply Forall_cons; [auto|]). auto.
Qed.

Lemma ipchars_nonul : forall s, Forall ip6_char s -> nonul s.
Proof. intros. eapply Forall_impl; [|eassumption]. intros c. unfold ip6_char, digit. cbn. lia. Qed.

Section IP.
Variable I : inet.
Hypothesis OK : inet_ok I.

Lemma prefix_dec : forall a, addr6 a ->
  (exists q, addr4 q /\ a = v4prefix ++ q /\ firstn 12 a = v4prefix /\ skipn 12 a = q) \/ firstn 12 a <> v4prefix.
Proof.
  intros a [L B]. destruct (list_eq_dec Z.eq_dec (firstn 12 a) v4prefix) as [E|N]; auto. left.
  exists (skipn 12 a). repeat split; auto.
  - rewrite skipn_length. lia.
  - unfold bytes in *. rewrite <- (firstn_skipn 12 a), Forall_app in B. tauto.
  - rewrite <- E. symmetry. apply firstn_skipn.
Qed.

Lemma iptostr_chars : forall a, addr6 a -> Forall ip6_char (iptostr I a) /\ (length (iptostr I a) < 46)%nat /\ iptostr I a <> [].
Proof.
  intros a A. unfold iptostr. destruct (prefix_dec a A) as [(q & Q & Ea & E1 & E2)|N].
  - destruct (list_eq_dec Z.eq_dec (firstn 12 a) v4prefix); [|contradiction]. rewrite E2.
    destruct (ok_ntop4 I OK q Q) as [D _]. split; [|split].
    + eapply Forall_impl; [|eapply dotquad_chars; exact D]. unfold ip6_char. cbn. tauto.
    + destruct D as (n0 & n1 & n2 & n3 & F & Eq & ->). destruct Q as [_ B].
      repeat (apply Forall_cons_iff in F as [? F]). rewrite Eq in B. unfold bytes in B. cbn [map] in B.
      repeat (apply Forall_cons_iff in B as [? B]). unfold is_byte in *.
      assert (G : forall n, numeral n -> decval n < 256 -> (length n < 6)%nat) by (intros; apply numeral_big; auto; lia).
      repeat (rewrite app_length || cbn [length]).
      pose proof (G n0 ltac:(auto) ltac:(lia)). pose proof (G n1 ltac:(auto) ltac:(lia)).
      pose proof (G n2 ltac:(auto) ltac:(lia)). pose proof (G n3 ltac:(auto) ltac:(lia)). lia.
    + destruct D as (n0 & n1 & n2 & n3 & F & Eq & ->). intro X. apply app_eq_nil in X as [_ X]. discriminate.
  - destruct (list_eq_dec Z.eq_dec (firstn 12 a) v4prefix); [contradiction|].
    destruct (ok_ntop6 I OK a A) as (L & C & F & _). repeat split; auto; [lia|]. intro X. rewrite X in C. destruct C.
Qed.

Lemma parseip_iptostr : forall a rest, addr6 a -> parseip I (iptostr I a ++ 0 :: rest) = Ok (Some a).
Proof.
  intros a rest A. destruct (iptostr_chars a A) as [CH _]. apply ipchars_nonul in CH.
  unfold parseip, parseip4_, parseip6_. rewrite cstr_ok by assumption. cbn [bind].
  unfold iptostr in *. destruct (prefix_dec a A) as [(q & Q & Ea & E1 & E2)|N].
  - destruct (list_eq_dec Z.eq_dec (firstn 12 a) v4prefix); [|contradiction]. rewrite E2.
    destruct (ok_ntop4 I OK q Q) as [_ ->]. rewrite <- Ea. reflexivity.
  - destruct (list_eq_dec Z.eq_dec (firstn 12 a) v4prefix); [contradiction|].
    destruct (ok_ntop6 I OK a A) as (_ & C & _ & P).
    destruct (pton4 I (ntop6 I a)) as [q|] eqn:E4.
    + exfalso. apply (ok_pton4_chars I OK) in E4. rewrite Forall_forall in E4. apply E4 in C. unfold digit in C. lia.
    + rewrite P. reflexivity.
Qed.

Lemma iptostr_v4 : forall q, addr4 q -> dotquad q (iptostr I (v4prefix ++ q)).
Proof.
  intros q Q. unfold iptostr.
  replace (firstn 12 (v4prefix ++ q)) with v4prefix by reflexivity.
  replace (skipn 12 (v4prefix ++ q)) with q by reflexivity.
  destruct (list_eq_dec Z.eq_dec v4prefix v4prefix); [|congruence].
  apply (ok_ntop4 I OK). assumption.
Qed.

Lemma iptostr_v6 : forall a, addr6 a -> firstn 12 a <> v4prefix -> In 58 (iptostr I a).
Proof.
  intros a A N. unfold iptostr. destruct (list_eq_dec Z.eq_dec (firstn 12 a) v4prefix); [contradiction|].
  apply (ok_ntop6 I OK a A).
Qed.

Lemma parseip_addr : forall s rest a, nonul s -> parseip I (s ++ 0 :: rest) = Ok (Some a) -> addr6 a.
Proof.
  intros s rest a N E. unfold parseip, parseip4_, parseip6_ in E. rewrite cstr_ok in E by assumption. cbn [bind] in E.
  destruct (pton4 I s) as [q|] eqn:Q.
  - inv E. apply (ok_pton4_addr I OK) in Q as [L B]. split. { cbn [length]. rewrite L. reflexivity. }
    repeat (apply Forall_cons; [unfold is_byte; lia|]). exact B.
  - injection E as E. apply (ok_pton6_addr I OK) in E. assumption.
Qed.
End IP.
