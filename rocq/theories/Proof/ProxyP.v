(** Lemmas about the PROXY protocol reader and writer. *)
From Verif.Model Require Import Base Sys Io Parsenum Inet Str Buffer Stralloc Proxy.
From Verif.Spec Require Import Num Ip Text Stream Proxy Grow.
From Verif.Proof Require Import Tac NumP SysP IoP StrP HostportP IpP BufferP StrallocP.

(** ** Splitting at separators *)
Lemma split_first : forall cut rest g, bytes g -> exists w c q, g ++ 0 :: rest = w ++ c :: q /\ nonul w /\ ~ In cut w /\
  (c = 0 \/ c = cut) /\ ((exists g2, g = w ++ c :: g2 /\ q = g2 ++ 0 :: rest) \/ (w = g /\ c = 0 /\ q = rest)).
Proof.
  intros cut rest. induction g as [|x g IH]; intros B.
  - exists [], 0, rest. split; [reflexivity|]. split; [constructor|]. split; auto.
  - apply Forall_cons_iff in B as [X B]. unfold is_byte in X. destruct (Z.eq_dec x 0) as [->|NZ]; [|destruct (Z.eq_dec x cut) as [->|NC]].
    + exists [], 0, (g ++ 0 :: rest). split; [reflexivity|]. split; [constructor|]. split; [auto|]. split; [auto|]. left. exists g. auto.
    + exists [], cut, (g ++ 0 :: rest). split; [reflexivity|]. split; [constructor|]. split; [auto|]. split; [auto|]. left. exists g. auto.
    + destruct (IH B) as (w & c & q & E & N & NI & C & H). exists (x :: w), c, q. cbn [app]. rewrite E. split; auto.
      split; [constructor; auto; lia|]. split; [intros [->|I]; auto|]. split; auto.
      destruct H as [(g2 & -> & ->)|(-> & -> & ->)]; [left; exists g2; auto|right; auto].
Qed.

Lemma str_chr_at : forall cut w c q, nonul w -> ~ In cut w -> 0 < cut < 256 -> (c = 0 \/ c = cut) ->
  str_chr (w ++ c :: q) cut = Ok (len w).
Proof.
  intros cut. induction w as [|x w IH]; intros c q N NI R C; cbn [app str_chr].
  - rewrite len_nil. destruct (Z.eqb_spec c 0); auto. rewrite u8_id by lia. destruct C as [->| ->]; [lia|]. rewrite Z.eqb_refl. reflexivity.
  - apply Forall_cons_iff in N as [X N]. destruct (Z.eqb_spec x 0); [lia|]. rewrite u8_id by lia.
    destruct (Z.eqb_spec x cut) as [->|]; [exfalso; apply NI; left; auto|]. rewrite IH; auto.
    + cbn [bind]. rewrite len_cons. reflexivity.
    + intros I. apply NI. right. auto.
Qed.

Lemma split_unique : forall (P : Z -> Prop) w1 c1 q1 w2 c2 q2,
  Forall (fun x => ~ P x) w1 -> Forall (fun x => ~ P x) w2 -> P c1 -> P c2 ->
  w1 ++ c1 :: q1 = w2 ++ c2 :: q2 -> w1 = w2 /\ c1 = c2 /\ q1 = q2.
Proof.
  intros P. induction w1 as [|x w1 IH]; intros c1 q1 [|y w2] c2 q2 F1 F2 P1 P2 E; cbn [app] in E; inv E; auto.
  - apply Forall_cons_iff in F2 as [F2 _]. contradiction.
  - apply Forall_cons_iff in F1 as [F1 _]. contradiction.
  - apply Forall_cons_iff in F1 as [_ F1]. apply Forall_cons_iff in F2 as [_ F2].
    destruct (IH _ _ _ _ _ F1 F2 P1 P2 H1) as (-> & -> & ->). auto.
Qed.

Lemma ends_tail : forall u w (c d : Z) g2, u ++ [d] = w ++ c :: g2 -> c <> d -> exists u2, g2 = u2 ++ [d].
Proof.
  intros u w c d g2 E N. destruct (exists_last (l := c :: g2)) as (v & z & E2); [discriminate|].
  rewrite E2, app_assoc in E. apply app_inj_tail in E as [_ <-].
  destruct v as [|y v]; cbn [app] in E2; inv E2; [contradiction|]. eauto.
Qed.

Definition plain (c : Z) : Prop := c <> 0 /\ c <> 32 /\ c <> 10 /\ c <> 13.

Lemma plain_sep : forall w, Forall plain w -> Forall (fun x => ~ sep x) w.
Proof. intros w. apply Forall_impl. unfold plain, sep. lia. Qed.

(** ** Fields *)
Section FIELD.
Context {A : Type}.
Variable parse : list Z -> res (option A).
Variable P : list Z -> A -> Prop.
Hypothesis parse_ok : forall w rest, nonul w -> exists r, parse (w ++ 0 :: rest) = Ok r /\
  match r with Some a => P w a | None => forall a, ~ P w a end.
Hypothesis P_plain : forall w a, P w a -> Forall plain w.
Hypothesis P_fun : forall w a b, P w a -> P w b -> a = b.

Lemma field_ok : forall g rest u, bytes g -> g = u ++ [10] ->
  exists r, pp_field parse (g ++ 0 :: rest) = Ok r /\
  match r with
  | Some (a, p) => exists w c g2 u2, g = w ++ c :: g2 /\ sep c /\ P w a /\ p = g2 ++ 0 :: rest /\ g2 = u2 ++ [10] /\
      (forall w' c' g2' a', g = w' ++ c' :: g2' -> sep c' -> P w' a' -> w' = w /\ g2' = g2 /\ a' = a)
  | None => forall w c g2 a, g = w ++ c :: g2 -> sep c -> ~ P w a
  end.
Proof.
  intros g rest u B E. destruct (split_first 32 rest g B) as (w & c & q & E2 & N & NI & C & H).
  unfold pp_field. rewrite E2. rewrite str_chr_at by (auto; lia). cbn [bind]. unfold len. rewrite Nat2Z.id, st_app. cbn [bind].
  assert (SK : skipn (S (length w)) (w ++ 0 :: q) = q).
  { replace (S (length w)) with (length w + 1)%nat by lia. rewrite <- skipn_skipn. rewrite skipn_app, skipn_all, Nat.sub_diag. reflexivity. }
  rewrite SK. destruct (parse_ok w q N) as (r & -> & R). cbn [bind]. eexists. split; [reflexivity|].
  assert (NS : Forall (fun x => ~ sep x) w).
  { apply Forall_forall. intros x X [->| ->]; [auto|]. unfold nonul in N. rewrite Forall_forall in N. specialize (N _ X). lia. }
  assert (SC : sep c) by (destruct C as [->| ->]; [right|left]; auto).
  destruct r as [a|].
  - destruct H as [(g2 & -> & ->)|(-> & -> & ->)].
    + destruct (ends_tail u w c 10 g2) as (u2 & U2); [auto|destruct SC; lia|].
      exists w, c, g2, u2. repeat (split; auto). 
      * destruct (split_unique sep w' c' g2' w c g2) as (? & ? & ?); auto. apply plain_sep. eapply P_plain; eauto.
      * destruct (split_unique sep w' c' g2' w c g2) as (? & ? & ?); auto. apply plain_sep. eapply P_plain; eauto.
      * destruct (split_unique sep w' c' g2' w c g2) as (-> & ? & ?); auto. { apply plain_sep. eapply P_plain; eauto. } eapply P_fun; eauto.
    + exfalso. apply P_plain in R. rewrite E in R. apply Forall_app in R as [_ R]. inv R. unfold plain in *. lia.
  - intros w' c' g2' a' E3 S3 P3. destruct H as [(g2 & -> & ->)|(-> & -> & ->)].
    + destruct (split_unique sep w c g2 w' c' g2') as (-> & ? & ?); auto. { apply plain_sep. eapply P_plain; eauto. } eapply R; eauto.
    + rewrite E3 in NS. apply Forall_app in NS as [_ NS]. inv NS. contradiction.
Qed.
End FIELD.

Definition eol (c : Z) : Prop := c = 13 \/ c = 10 \/ c = 0.

(** The last field ends at NUL, LF or CR. *)
Lemma last_field : forall g rest u, bytes g -> g = u ++ [10] ->
  exists w c g2 q, g = w ++ c :: g2 /\ eol c /\ nonul w /\ Forall (fun x => ~ eol x) w /\
  (n <- str_chr (g ++ 0 :: rest) 10 ;; buf <- st (g ++ 0 :: rest) (Z.to_nat n) 0 ;;
   m <- str_chr buf 13 ;; buf <- st buf (Z.to_nat m) 0 ;; parseport_ buf) = parseport_ (w ++ 0 :: q).
Proof.
  intros g rest u B E. destruct (split_first 10 rest g B) as (w & c & q & E2 & N & NI & C & H).
  rewrite E2. rewrite str_chr_at by (auto; lia). cbn [bind]. unfold len. rewrite Nat2Z.id, st_app. cbn [bind].
  assert (BW : bytes w). { eapply Forall_impl; [|exact N]. unfold is_byte. lia. }
  destruct (split_first 13 q w BW) as (w2 & c2 & q2 & E3 & N2 & NI2 & C2 & H2).
  rewrite E3. rewrite str_chr_at by (auto; lia). cbn [bind]. unfold len. rewrite Nat2Z.id, st_app. cbn [bind].
  assert (G : exists g2, g = w ++ c :: g2).
  { destruct H as [(g2 & -> & _)|(-> & -> & _)]; eauto. exfalso. apply NI. rewrite E. apply in_or_app. right. left. auto. }
  destruct G as (g2 & G).
  assert (NE : Forall (fun x => ~ eol x) w2).
  { apply Forall_forall. intros x X [->|[->| ->]]; auto.
    - apply NI. destruct H2 as [(g3 & -> & _)|(-> & _)]; auto. apply in_or_app. auto.
    - unfold nonul in N2. rewrite Forall_forall in N2. specialize (N2 _ X). lia. }
  destruct H2 as [(g3 & -> & ->)|(-> & -> & ->)].
  - exists w2, c2, (g3 ++ c :: g2), (g3 ++ 0 :: q). rewrite G, <- app_assoc. cbn [app]. split; auto. split; [|auto].
    destruct C2 as [->| ->]; unfold eol; auto.
  - exists w, c, g2, q. split; auto. split; [|auto]. unfold eol. lia.
Qed.

Lemma nonul_dec : forall s, forallb (fun b => (0 <? b) && (b <? 256)) s = true -> nonul s.
Proof. intros s H. apply Forall_forall. intros x X. rewrite forallb_forall in H. specialize (H _ X). lia. Qed.

(** ** Prefix tests *)
Lemma bytes_nonul_split : forall g, bytes g -> nonul g \/ exists s g2, g = s ++ 0 :: g2 /\ nonul s.
Proof.
  induction g as [|x g IH]; intros B; [left; constructor|]. apply Forall_cons_iff in B as [X B]. unfold is_byte in X.
  destruct (Z.eq_dec x 0) as [->|N]; [right; exists [], g; split; auto; constructor|].
  destruct (IH B) as [H|(s & g2 & -> & H)]; [left; constructor; auto; lia|right; exists (x :: s), g2; split; auto; constructor; auto; lia].
Qed.

Lemma start_gen : forall g t rest, bytes g -> nonul t ->
  exists v, str_start (g ++ 0 :: rest) (t ++ [0]) = Ok v /\ (v = 1 \/ v = 0) /\ (v = 1 <-> prefix t g).
Proof.
  intros g t rest B T. destruct (bytes_nonul_split g B) as [N|(s & g2 & -> & N)].
  - apply str_start_ok; auto.
  - rewrite <- app_assoc. cbn [app]. destruct (str_start_ok s t (g2 ++ 0 :: rest) [] N T) as (v & -> & V & H).
    exists v. split; auto. split; auto. rewrite H. split.
    + intros (x & ->). exists (x ++ 0 :: g2). rewrite <- app_assoc. reflexivity.
    + clear - T. revert t T. induction s as [|y s IH]; intros [|z t] T (x & E); try (apply prefix_nil).
      * cbn [app] in E. inv E. inv T. lia.
      * cbn [app] in E. inv E. apply Forall_cons_iff in T as [_ T]. destruct (IH t T) as (x2 & ->); [exists x; auto|]. exists x2. reflexivity.
Qed.

Lemma ip4_parse : forall I, inet_ok I -> (forall w rest, nonul w -> exists r, parseip4_ I (w ++ 0 :: rest) = Ok r /\
  match r with Some a => fam4 I w a | None => forall a, ~ fam4 I w a end).
Proof.
  intros I O w rest N. unfold parseip4_. rewrite cstr_ok by auto. cbn [bind]. eexists. split; [reflexivity|].
  destruct (pton4 I w) as [q|] eqn:E; [exists q; auto|]. intros a (q & Q & _). congruence.
Qed.
Lemma ip6_parse : forall I, inet_ok I -> (forall w rest, nonul w -> exists r, parseip6_ I (w ++ 0 :: rest) = Ok r /\
  match r with Some a => fam6 I w a | None => forall a, ~ fam6 I w a end).
Proof.
  intros I O w rest N. unfold parseip6_. rewrite cstr_ok by auto. cbn [bind]. eexists. split; [reflexivity|].
  destruct (pton6 I w) as [q|] eqn:E; [exact E|]. intros a Q. unfold fam6 in Q. congruence.
Qed.
Lemma ip4_plain : forall I, inet_ok I -> forall w a, fam4 I w a -> Forall plain w.
Proof.
  intros I O w a (q & Q & _). apply (ok_pton4_chars I O) in Q. eapply Forall_impl; [|exact Q]. unfold plain, digit. intros c. cbn. lia.
Qed.
Lemma ip6_plain : forall I, inet_ok I -> forall w a, fam6 I w a -> Forall plain w.
Proof.
  intros I O w a Q. apply (ok_pton6_chars I O) in Q. eapply Forall_impl; [|exact Q]. unfold plain, ip6_in, ip6_char, digit. intros c. cbn. lia.
Qed.
Definition portP (w : list Z) (a : Z * Z) : Prop := port2 w [fst a; snd a].
Lemma port_parse : forall w rest, nonul w -> exists r, parseport_ (w ++ 0 :: rest) = Ok r /\
  match r with Some a => portP w a | None => forall a, ~ portP w a end.
Proof.
  intros w rest N. destruct (parseport_correct w rest N) as (r & -> & H). eexists. split; [reflexivity|].
  destruct r as [[p0 p1]|].
  - destruct H as (A & B & C & D). split; auto. exists p0, p1. unfold port_val in D. cbn [fst snd]. auto.
  - intros [p0 p1] (C & a & b & E & A & B & D). cbn [fst snd] in E. inv E. apply H. unfold is_byte in *. split; auto. lia.
Qed.
Lemma numeral_plain : forall w, numeral w -> Forall plain w.
Proof.
  intros w N. apply numeral_digits in N as [D _]. eapply Forall_impl; [|exact D]. unfold plain, digit. intros c. cbn. lia.
Qed.
Lemma port_plain : forall w a, portP w a -> Forall plain w.
Proof. intros w a (N & _). apply numeral_plain. auto. Qed.
Lemma port2_fun : forall w a b, port2 w a -> port2 w b -> a = b.
Proof.
  intros w a b (_ & a0 & a1 & -> & A0 & A1 & A) (_ & b0 & b1 & -> & B0 & B1 & B). unfold is_byte in *. f_equal; [|f_equal]; lia.
Qed.
Lemma port_fun : forall w a b, portP w a -> portP w b -> a = b.
Proof. intros w [a0 a1] [b0 b1] A B. pose proof (port2_fun _ _ _ A B) as E. cbn [fst snd] in E. inv E. reflexivity. Qed.

Lemma last_fun : forall w c g2 w' c' g2' lp, w ++ c :: g2 = w' ++ c' :: g2' -> eol c -> eol c' -> Forall (fun x => ~ eol x) w ->
  port2 w' lp -> w' = w.
Proof.
  intros w c g2 w' c' g2' lp E C C' F Q. destruct (split_unique eol w c g2 w' c' g2') as (-> & _); auto.
  destruct Q as (N & _). apply numeral_plain in N. eapply Forall_impl; [|exact N]. unfold plain, eol. intros x. cbn. lia.
Qed.

Lemma fam_dec : forall (v6 : bool) I, inet_ok I ->
  let parse := if v6 then parseip6_ I else parseip4_ I in
  let P := fun s a => if v6 then fam6 I s a else fam4 I s a in
  (forall w rest, nonul w -> exists r, parse (w ++ 0 :: rest) = Ok r /\
     match r with Some a => P w a | None => forall a, ~ P w a end) /\
  (forall w a, P w a -> Forall plain w) /\ (forall w a b, P w a -> P w b -> a = b).
Proof.
  intros [] I O; cbn.
  - split; [apply ip6_parse; auto|]. split; [apply ip6_plain; auto|]. unfold fam6. intros; congruence.
  - split; [apply ip4_parse; auto|]. split; [apply ip4_plain; auto|]. intros w a b (q & Q & ->) (q' & Q' & ->). congruence.
Qed.

Lemma bytes_app : forall a b, bytes (a ++ b) -> bytes a /\ bytes b.
Proof. intros a b H. apply Forall_app in H. exact H. Qed.

Lemma pp_rest_ok : forall I (v6 : bool) g rest u, inet_ok I -> bytes g -> g = u ++ [10] ->
  exists r,
    (f1 <- pp_field (if v6 then parseip6_ I else parseip4_ I) (g ++ 0 :: rest) ;;
      match f1 with
      | None => Ok None
      | Some (ra, buf) =>
          f2 <- pp_field (if v6 then parseip6_ I else parseip4_ I) buf ;;
          match f2 with
          | None => Ok None
          | Some (la, buf) =>
              f3 <- pp_field parseport_ buf ;;
              match f3 with
              | None => Ok None
              | Some ((rp0, rp1), buf) =>
                  n <- str_chr buf 10 ;; buf <- st buf (Z.to_nat n) 0 ;;
                  m <- str_chr buf 13 ;; buf <- st buf (Z.to_nat m) 0 ;;
                  r <- parseport_ buf ;;
                  match r with
                  | None => Ok None
                  | Some (lp0, lp1) => Ok (Some (mkep la [lp0; lp1] ra [rp0; rp1]))
                  end
              end
          end
      end) = Ok r /\
  let L := fun e => exists r l rp lp s1 s2 s3 s4 t, 
    (if v6 then fam6 I r (rip e) else fam4 I r (rip e)) /\ (if v6 then fam6 I l (lip e) else fam4 I l (lip e)) /\
    port2 rp (rport e) /\ port2 lp (lport e) /\ sep s1 /\ sep s2 /\ sep s3 /\ eol s4 /\
    g = r ++ s1 :: l ++ s2 :: rp ++ s3 :: lp ++ s4 :: t in
  match r with Some e => L e /\ forall e', L e' -> e' = e | None => forall e, ~ L e end.
Proof.
  intros I v6 g rest u O B E. destruct (fam_dec v6 I O) as (FP & FL & FF).
  set (parse := if v6 then parseip6_ I else parseip4_ I) in *. set (P := fun s a => if v6 then fam6 I s a else fam4 I s a) in *.
  destruct (field_ok parse P FP FL FF g rest u B E) as (r1 & -> & H1). cbn [bind].
  destruct r1 as [[ra b1]|].
  2:{ eexists. split; [reflexivity|]. cbn zeta. intros e (r & l & rp & lp & s1 & s2 & s3 & s4 & t & A1 & A2 & A3 & A4 & S1 & S2 & S3 & S4 & G).
      exact (H1 _ _ _ _ G S1 A1). }
  destruct H1 as (w1 & c1 & g1 & u1 & G1 & C1 & P1 & -> & U1 & Q1).
  assert (B1 : bytes g1). { rewrite G1 in B. apply bytes_app in B as [_ B]. apply Forall_cons_iff in B. tauto. }
  destruct (field_ok parse P FP FL FF g1 rest u1 B1 U1) as (r2 & -> & H2). cbn [bind].
  destruct r2 as [[la b2]|].
  2:{ eexists. split; [reflexivity|]. cbn zeta. intros e (r & l & rp & lp & s1 & s2 & s3 & s4 & t & A1 & A2 & A3 & A4 & S1 & S2 & S3 & S4 & G).
      destruct (Q1 _ _ _ _ G S1 A1) as (_ & <- & _). exact (H2 _ _ _ _ eq_refl S2 A2). }
  destruct H2 as (w2 & c2 & g2 & u2 & G2 & C2 & P2 & -> & U2 & Q2).
  assert (B2 : bytes g2). { rewrite G2 in B1. apply bytes_app in B1 as [_ B1]. apply Forall_cons_iff in B1. tauto. }
  destruct (field_ok parseport_ portP port_parse port_plain port_fun g2 rest u2 B2 U2) as (r3 & -> & H3). cbn [bind].
  assert (PT : forall w p, port2 w p -> exists a, p = [fst a; snd a] /\ portP w a).
  { intros w p HP. pose proof HP as (_ & a & b & -> & _). exists (a, b). split; auto. }
  destruct r3 as [[[rp0 rp1] b3]|].
  2:{ eexists. split; [reflexivity|]. cbn zeta. intros e (r & l & rp & lp & s1 & s2 & s3 & s4 & t & A1 & A2 & A3 & A4 & S1 & S2 & S3 & S4 & G).
      destruct (Q1 _ _ _ _ G S1 A1) as (_ & GG & _). rewrite <- GG in *. destruct (Q2 _ _ _ _ eq_refl S2 A2) as (_ & GG2 & _). rewrite <- GG2 in *.
      apply PT in A3 as (a & _ & A3). exact (H3 _ _ _ _ eq_refl S3 A3). }
  destruct H3 as (w3 & c3 & g3 & u3 & G3 & C3 & P3 & -> & U3 & Q3).
  assert (B3 : bytes g3). { rewrite G3 in B2. apply bytes_app in B2 as [_ B2]. apply Forall_cons_iff in B2. tauto. }
  destruct (last_field g3 rest u3 B3 U3) as (w4 & c4 & g4 & q & G4 & C4 & N4 & F4 & EQ).
  assert (EQ2 : forall (K : option (Z * Z) -> res (option endpoints)),
    (n <- str_chr (g3 ++ 0 :: rest) 10 ;; buf <- st (g3 ++ 0 :: rest) (Z.to_nat n) 0 ;;
     m <- str_chr buf 13 ;; buf <- st buf (Z.to_nat m) 0 ;; (r <- parseport_ buf ;; K r)) = (r <- parseport_ (w4 ++ 0 :: q) ;; K r)).
  { intros K. rewrite <- EQ. destruct (str_chr (g3 ++ 0 :: rest) 10); cbn [bind]; auto.
    destruct (st (g3 ++ 0 :: rest) (Z.to_nat a) 0); cbn [bind]; auto. destruct (str_chr a0 13); cbn [bind]; auto.
    destruct (st a0 (Z.to_nat a1) 0); cbn [bind]; auto. }
  rewrite EQ2. destruct (port_parse w4 q N4) as (r4 & -> & H4). cbn [bind]. clear EQ EQ2.
  destruct r4 as [[lp0 lp1]|].
  - eexists. split; [reflexivity|]. cbn zeta. split.
    + exists w1, w2, w3, w4, c1, c2, c3, c4, g4. cbn [rip lip rport lport]. repeat (split; [assumption|]). rewrite G1, G2, G3, G4. reflexivity.
    + intros [eli elp eri erp] (r & l & rp & lp & s1 & s2 & s3 & s4 & t & A1 & A2 & A3 & A4 & S1 & S2 & S3 & S4 & G). cbn [rip lip rport lport] in *.
      destruct (Q1 _ _ _ _ G S1 A1) as (_ & GG & ->). rewrite <- GG in *. destruct (Q2 _ _ _ _ eq_refl S2 A2) as (_ & GG2 & ->). rewrite <- GG2 in *.
      apply PT in A3 as (a & -> & A3). destruct (Q3 _ _ _ _ eq_refl S3 A3) as (_ & GG3 & ->). rewrite <- GG3 in *. cbn [fst snd].
      rewrite (last_fun w4 c4 g4 lp s4 t elp) in A4; auto. f_equal. eapply port2_fun; [exact A4|exact H4].
  - eexists. split; [reflexivity|]. cbn zeta. intros [eli elp eri erp] (r & l & rp & lp & s1 & s2 & s3 & s4 & t & A1 & A2 & A3 & A4 & S1 & S2 & S3 & S4 & G). cbn [rip lip rport lport] in *.
      destruct (Q1 _ _ _ _ G S1 A1) as (_ & GG & ->). rewrite <- GG in *. destruct (Q2 _ _ _ _ eq_refl S2 A2) as (_ & GG2 & ->). rewrite <- GG2 in *.
      apply PT in A3 as (a & -> & A3). destruct (Q3 _ _ _ _ eq_refl S3 A3) as (_ & GG3 & _). rewrite <- GG3 in *.
      rewrite (last_fun w4 c4 g4 lp s4 t elp) in A4; auto. apply PT in A4 as (a' & _ & A4). eapply H4; eauto.
Qed.

Lemma prefix_lit : forall t g : list Z, prefix t g -> g = t ++ skipn (length t) g.
Proof. intros t g (u & ->). rewrite skipn_app, skipn_all, Nat.sub_diag. reflexivity. Qed.

Lemma bytes_lit : forall (s : list Z) n, bytes s -> bytes (skipn n s).
Proof. intros s n B. rewrite <- (firstn_skipn n s) in B. apply bytes_app in B. tauto. Qed.

Lemma pp_parse_ok : forall I g rest u, inet_ok I -> bytes g -> g = u ++ [10] ->
  exists r, pp_parse I (g ++ 0 :: rest) = Ok r /\
  match r with Some e => pp_line I g e /\ (forall e', pp_line I g e' -> e' = e) | None => forall e, ~ pp_line I g e end.
Proof.
  intros I g rest u O B E. unfold pp_parse.
  destruct (start_gen g (bs "PROXY UNKNOWN") rest B) as (v0 & -> & V0 & H0). { apply nonul_dec. reflexivity. }
  cbn [bind]. 
  assert (X04 : forall e, prefix (bs "PROXY UNKNOWN") g -> pp_line I g e -> e = ep_zero).
  { intros e (x & ->) L. inv L; auto. exfalso. destruct v6; cbv [bs] in H; cbn in H; discriminate. }
  destruct (Z.eqb_spec v0 0) as [->|N0]; cbn [negb].
  2:{ eexists. split; [reflexivity|]. assert (PF : prefix (bs "PROXY UNKNOWN") g) by (apply H0; lia). split.
      - rewrite (prefix_lit _ _ PF). constructor.
      - intros e' L. apply X04; auto. }
  destruct (start_gen g (bs "PROXY TCP4 ") rest B) as (v4 & -> & V4 & H4). { apply nonul_dec. reflexivity. }
  cbn [bind].
  assert (NU : forall t, g <> bs "PROXY UNKNOWN" ++ t). { intros t ->. destruct H0 as [_ H0]. assert (0 = 1) by (apply H0; exists t; auto). lia. }
  (* common continuation *)
  assert (CONT : forall v6 : bool, prefix (if v6 then bs "PROXY TCP6 " else bs "PROXY TCP4 ") g ->
    exists r : option endpoints,
      (f1 <- pp_field (if v6 then parseip6_ I else parseip4_ I) (skipn 11 (g ++ 0 :: rest)) ;;
      match f1 with
      | None => Ok None
      | Some (ra, buf) =>
          f2 <- pp_field (if v6 then parseip6_ I else parseip4_ I) buf ;;
          match f2 with
          | None => Ok None
          | Some (la, buf) =>
              f3 <- pp_field parseport_ buf ;;
              match f3 with
              | None => Ok None
              | Some ((rp0, rp1), buf) =>
                  n <- str_chr buf 10 ;; buf <- st buf (Z.to_nat n) 0 ;;
                  m <- str_chr buf 13 ;; buf <- st buf (Z.to_nat m) 0 ;;
                  r <- parseport_ buf ;;
                  match r with
                  | None => Ok None
                  | Some (lp0, lp1) => Ok (Some (mkep la [lp0; lp1] ra [rp0; rp1]))
                  end
              end
          end
      end) = Ok r /\
      match r with Some e => pp_line I g e /\ (forall e', pp_line I g e' -> e' = e) | None => forall e, ~ pp_line I g e end).
  { intros v6 PF. set (lit := if v6 then bs "PROXY TCP6 " else bs "PROXY TCP4 ") in *.
    assert (LL : length lit = 11%nat) by (destruct v6; reflexivity).
    pose proof (prefix_lit _ _ PF) as EG. rewrite LL in EG. set (g' := skipn 11 g) in *.
    assert (NL : ~ In 10 lit). { unfold lit. destruct v6; cbv; intuition lia. }
    assert (U' : exists u', g' = u' ++ [10]).
    { destruct (exists_last (l := g')) as (v & z & EV). { intros EN. rewrite EN, app_nil_r in EG. apply NL. rewrite <- EG, E. apply in_or_app. right. left. auto. }
      exists v. rewrite EV. f_equal. f_equal. rewrite EG, EV, app_assoc in E. apply app_inj_tail in E. tauto. }
    destruct U' as (u' & EU). assert (B' : bytes g') by (unfold g'; apply bytes_lit; auto).
    replace (skipn 11 (g ++ 0 :: rest)) with (g' ++ 0 :: rest).
    2:{ rewrite EG at 1. rewrite <- app_assoc. rewrite skipn_app, LL, Nat.sub_diag. rewrite <- LL, skipn_all. reflexivity. }
    destruct (pp_rest_ok I v6 g' rest u' O B' EU) as (r & ER & HR). exists r. split; [exact ER|]. cbn zeta in HR.
    assert (FWD : forall e', pp_line I g e' -> exists r l rp lp s1 s2 s3 s4 t, 
      (if v6 then fam6 I r (rip e') else fam4 I r (rip e')) /\ (if v6 then fam6 I l (lip e') else fam4 I l (lip e')) /\
      port2 rp (rport e') /\ port2 lp (lport e') /\ sep s1 /\ sep s2 /\ sep s3 /\ eol s4 /\
      g' = r ++ s1 :: l ++ s2 :: rp ++ s3 :: lp ++ s4 :: t).
    { intros e' L. inversion L as [t Et Ee|v6' r0 l rp lp s1 s2 s3 s4 t ra la rpb lpb A1 A2 A3 A4 S1 S2 S3 S4 Eg Ee]; [symmetry in Et; apply NU in Et; destruct Et|].
      rewrite EG in Eg. assert (v6' = v6) as ->. { unfold lit in Eg. destruct v6, v6'; auto; cbv [bs] in Eg; cbn in Eg; discriminate. }
      unfold lit in Eg. apply app_inv_head in Eg. exists r0, l, rp, lp, s1, s2, s3, s4, t. cbn [rip lip rport lport]. repeat (split; [assumption|]). auto. }
    destruct r as [e|].
    - destruct HR as [(r0 & l & rp & lp & s1 & s2 & s3 & s4 & t & A1 & A2 & A3 & A4 & S1 & S2 & S3 & S4 & G) UQ]. split.
      + rewrite EG. destruct e as [eli elp eri erp]. cbn [rip lip rport lport] in *. rewrite G. unfold lit. constructor; auto.
      + intros e' L. apply UQ. apply FWD. exact L.
    - intros e L. eapply HR. apply FWD. exact L. }
  destruct (Z.eqb_spec v4 0) as [->|N4]; cbn [negb].
  - destruct (start_gen g (bs "PROXY TCP6 ") rest B) as (v6 & -> & V6 & H6). { apply nonul_dec. reflexivity. }
    cbn [bind]. destruct (Z.eqb_spec v6 0) as [->|N6]; cbn [andb].
    + eexists. split; [reflexivity|]. intros e L. inversion L as [t Et Ee|v6 r0 l rp lp s1 s2 s3 s4 t ra la rpb lpb A1 A2 A3 A4 S1 S2 S3 S4 Eg Ee].
      * symmetry in Et. apply NU in Et. destruct Et.
      * destruct v6; [destruct H6 as [_ H6]; assert (0 = 1); [apply H6; eexists; symmetry; exact Eg|lia]|
                      destruct H4 as [_ H4]; assert (0 = 1); [apply H4; eexists; symmetry; exact Eg|lia]].
    + apply (CONT true). apply H6. lia.
  - cbn [bind andb]. apply (CONT false). apply H4. lia.
Qed.

(** ** The reader *)
Definition bytereads (fd : Z) (tr : trace) : Prop := Forall (fun e => fst e = Read fd 1) tr.

Lemma oneread_only : forall fuel fd tr o, runs (oneread fuel fd 1 1) tr o -> bytereads fd tr.
Proof.
  induction fuel as [|f IH]; intros fd tr o R; cbn [oneread] in R; [destruct R as [-> _]; constructor|].
  change (BUFSIZE <? 1) with false in R. cbn [orb] in R. change (1 <? 0) with false in R. change (1 <? 1) with false in R. cbn [orb] in R.
  destruct R as [[-> _]|(a & tr' & -> & R)]; [constructor|]. constructor; [reflexivity|].
  destruct ((ret a =? -1) && (err a =? EINTR)); [exact (IH _ _ _ R)|]. destruct R as [-> _]. constructor.
Qed.

Definition nobuf (fd : Z) : buffer := mkbuf [] 0 0 fd.

Lemma getc0 : forall fuel fd tr o, runs (buffer_GETC fuel (nobuf fd)) tr o -> legal tr ->
  bytereads fd tr /\
  match o with
  | Wrong => False
  | Cut => got fd tr = []
  | Fin (r, e, b, s') => s' = nobuf fd /\ got fd tr = b /\ ((r = 1 /\ exists c, b = [c]) \/ (r <= 0 /\ b = [] /\ lastread fd r tr))
  end.
Proof.
  intros fuel fd tr o R L. unfold buffer_GETC in R. change (0 <? bp (nobuf fd)) with false in R. cbn iota in R.
  unfold buffer_get in R. change (1 <? 0) with false in R. change (0 <? bp (nobuf fd)) with false in R.
  change (bn (nobuf fd) <=? 1) with true in R. cbn iota in R. change (bfd (nobuf fd)) with fd in R.
  apply runs_bind in R as [([[r e] b] & t1 & t2 & -> & R1 & R2)|[[R1 ->]|[R1 ->]]].
  - destruct R2 as [-> ->]. rewrite app_nil_r in *. split; [eapply oneread_only; eauto|].
    destruct (oneread_ok _ _ _ _ _ _ R1 L ltac:(lia)) as (G & B & RR & LR). split; auto. split; auto.
    assert (r = 1 \/ r <= 0) as [->|] by lia.
    + left. split; auto. destruct b as [|c [|d b]]; [unfold len in B; cbn in B; lia|eauto|unfold len in B; cbn [length] in B; lia].
    + right. split; auto. split; [|apply LR; lia]. destruct b; auto. rewrite len_cons in B. pose proof (len_nonneg _ b). lia.
  - split; [eapply oneread_only; eauto|]. exact (oneread_ok _ _ _ _ _ _ R1 L ltac:(lia)).
  - split; [eapply oneread_only; eauto|]. exact (oneread_ok _ _ _ _ _ _ R1 L ltac:(lia)).
Qed.

Lemma pp_read_ok : forall fuel fd k g tr o,
  runs (pp_read fuel k (nobuf fd) (length g) (g ++ repeat 0 (S k))) tr o -> legal tr ->
  bytereads fd tr /\
  match o with
  | Wrong => False
  | Cut => ~ In 10 (got fd tr) /\ (length (got fd tr) <= k)%nat
  | Fin None => ~ In 10 (got fd tr) /\ (length (got fd tr) <= k)%nat /\ exists r, r <= 0 /\ lastread fd r tr
  | Fin (Some (buf, pos)) =>
      (exists u, got fd tr = u ++ [10] /\ ~ In 10 u /\ pos = (length g + length u)%nat /\ (length u < k)%nat /\
        buf = g ++ u ++ [10] ++ repeat 0 (k - length u)) \/
      (~ In 10 (got fd tr) /\ length (got fd tr) = k /\ pos = (length g + k)%nat /\ buf = g ++ got fd tr ++ [0])
  end.
Proof.
  intros fuel fd. induction k as [|k IH]; intros g tr o R L; cbn [pp_read] in R.
  { destruct R as [-> ->]. split; [constructor|]. right. cbn. repeat split; auto. }
  apply runs_bind in R as [([[[r e] b] s'] & t1 & t2 & -> & R1 & R2)|[[R1 ->]|[R1 ->]]].
  - apply legal_app in L as [L1 L2]. destruct (getc0 _ _ _ _ R1 L1) as (B1 & -> & G1 & H).
    destruct H as [(-> & c & ->)|(RN & -> & LR)].
    + change (1 =? 1) with true in R2. cbn [negb deref lift pbind] in R2. change (repeat 0 (S (S k))) with (0 :: repeat 0 (S k)) in R2. rewrite st_app in R2. cbn [lift pbind] in R2.
      destruct (Z.eqb_spec c 10) as [EC|NC].
      * rewrite EC in *. destruct R2 as [-> ->]. rewrite app_nil_r, G1. split; auto. left. exists []. cbn [app length]. rewrite Nat.sub_0_r. repeat split; auto; lia.
      * replace (S (length g)) with (length (g ++ [c])) in R2 by (rewrite app_length; cbn; lia).
        replace (g ++ c :: repeat 0 (S k)) with ((g ++ [c]) ++ repeat 0 (S k)) in R2 by (rewrite <- app_assoc; reflexivity).
        destruct (IH _ _ _ R2 L2) as (B2 & H). split; [apply Forall_app; auto|]. rewrite got_app, G1. cbn [app].
        rewrite app_length in H. cbn [length] in H.
        destruct o as [[[buf pos]|]| |]; auto.
        -- destruct H as [(u & -> & NU & -> & LU & ->)|(NI & LG & -> & ->)].
           ++ left. exists (c :: u). cbn [app length]. rewrite <- app_assoc. cbn [app]. replace (S k - S (length u))%nat with (k - length u)%nat by lia.
              split; auto. split; [intros [X|X]; auto|]. split; [lia|]. split; [lia|auto].
           ++ right. split; [intros [X|X]; auto|]. cbn [length]. split; [lia|]. split; [lia|]. rewrite <- app_assoc. reflexivity.
        -- destruct H as (NI & LG & r & RN & t & n & a & -> & AN & AR). split; [intros [X|X]; auto|]. split; [cbn; lia|]. exists r. split; auto.
           exists (t1 ++ t), n, a. rewrite app_assoc. auto.
        -- destruct H as (NI & LG). split; [intros [X|X]; auto|cbn; lia].
    + destruct (Z.eqb_spec r 1); [lia|]. cbn [negb] in R2. destruct R2 as [-> ->]. rewrite app_nil_r, G1. split; auto. cbn. split; auto. split; [lia|eauto].
  - destruct (getc0 _ _ _ _ R1 L) as (B1 & []).
  - destruct (getc0 _ _ _ _ R1 L) as (B1 & G). split; auto. rewrite G. cbn. split; [auto|lia].
Qed.

Lemma got_bytes : forall fd tr, legal tr -> bytes (got fd tr).
Proof.
  intros fd. induction tr as [|[c a] tr IH]; intros L; [constructor|]. apply legal_cons in L as [S L]. specialize (IH L).
  destruct c; cbn [got]; auto. destruct (fd0 =? fd); auto. apply Forall_app. split; auto.
  cbn [sys_ok] in S. destruct S as [[_ ->]|(_ & _ & S)]; [constructor|exact S].
Qed.

Lemma get_v1_ok : forall fuel I fd out tr o, inet_ok I -> runs (proxyprotocol_v1_get fuel I fd out) tr o -> legal tr ->
  bytereads fd tr /\ len (got fd tr) <= 127 /\
  match o with
  | Wrong => False
  | Cut => ~ In 10 (got fd tr)
  | Fin (r, e) =>
      (r = 1 /\ exists u, got fd tr = u ++ [10] /\ ~ In 10 u /\ pp_line I (got fd tr) e) \/
      (r = 0 /\ e = out /\
       ((~ In 10 (got fd tr) /\ ((exists r, r <= 0 /\ lastread fd r tr) \/ len (got fd tr) = 127)) \/
        (exists u, got fd tr = u ++ [10] /\ ~ In 10 u /\ forall e', ~ pp_line I (got fd tr) e')))
  end.
Proof.
  intros fuel I fd out tr o O R L. unfold proxyprotocol_v1_get in R.
  apply runs_bind in R as [(r & t1 & t2 & -> & R1 & R2)|[[R1 ->]|[R1 ->]]].
  - apply legal_app in L as [L1 L2]. change (buffer_init fd [] 0) with (nobuf fd) in R1.
    destruct (pp_read_ok fuel fd 127 [] t1 _ R1 L1) as (B & H). cbn [length app] in H.
    destruct r as [[buf pos]|].
    2:{ destruct R2 as [-> ->]. rewrite app_nil_r. destruct H as (NI & LG & X). split; auto. split; [unfold len; lia|]. right. split; auto. }
    destruct H as [(u & G & NU & -> & LU & ->)|(NI & LG & -> & ->)].
    + rewrite Nat.add_0_l in R2. cbn [app] in R2.
      assert (LD : ld (u ++ 10 :: repeat 0 (127 - length u)) (length u) = Ok 10). { apply ld_app. }
      rewrite LD in R2. cbn [lift pbind] in R2. cbn [Z.eqb Pos.eqb negb] in R2.
      remember (repeat 0 (127 - length u)) as z eqn:EZ. destruct z as [|z0 z]. { apply (f_equal (@length Z)) in EZ. rewrite repeat_length in EZ. cbn [length] in EZ. lia. }
      replace (u ++ 10 :: z0 :: z) with ((u ++ [10]) ++ z0 :: z) in R2 by (rewrite <- app_assoc; reflexivity).
      replace (S (length u)) with (length (u ++ [10])) in R2 by (rewrite app_length; cbn; lia).
      rewrite st_app in R2. cbn [lift pbind] in R2.
      destruct (pp_parse_ok I (u ++ [10]) z u O) as (r & E & HP); auto. { rewrite <- G. apply got_bytes. auto. }
      rewrite E in R2. cbn [lift pbind] in R2.
      assert (LL : len (u ++ [10]) <= 127). { unfold len. rewrite app_length. cbn [length]. lia. }
      destruct r as [e|]; destruct R2 as [-> ->]; rewrite app_nil_r, G; split; auto; split; auto.
      * left. split; auto. exists u. split; auto. split; auto. tauto.
      * right. split; auto. split; auto. right. exists u. auto.
    + change (0 + 127)%nat with 127%nat in R2. rewrite <- LG in R2. rewrite ld_app in R2. cbn [lift pbind] in R2. cbn [Z.eqb Pos.eqb negb] in R2. destruct R2 as [-> ->].
      rewrite app_nil_r. split; auto. split; [unfold len; lia|]. right. split; auto. split; auto. left. split; auto. right. unfold len. lia.
  - change (buffer_init fd [] 0) with (nobuf fd) in R1. destruct (pp_read_ok fuel fd 127 [] tr _ R1 L) as (_ & []).
  - change (buffer_init fd [] 0) with (nobuf fd) in R1. destruct (pp_read_ok fuel fd 127 [] tr _ R1 L) as (B & NI & LG). split; auto. split; auto. unfold len. lia.
Qed.

(** ** The generator *)
Definition is2 (p : list Z) : Prop := exists a b, p = [a; b] /\ is_byte a /\ is_byte b.

Lemma portstr_ok : forall p, is2 p -> exists s z, portstr p = Ok (s ++ 0 :: z) /\ port2 s p /\ (length s <= 5)%nat.
Proof.
  intros p (a & b & -> & A & B). destruct (porttostr_correct a b (repeat 0 PORTTOSTR_LEN) [] A B) as (s & N & V & L & E).
  { apply repeat_length. }
  exists s, (repeat 0 (5 - length s)). unfold portstr. cbn [ld nth_error bind]. rewrite app_nil_r in E. rewrite E. cbn [bind skipn].
  replace (6 - length s)%nat with (S (5 - length s)) by lia. cbn [repeat app]. rewrite app_nil_r. split; auto. split; auto.
  split; auto. exists a, b. unfold port_val in V. auto.
Qed.

Lemma cats_ok2 : forall r m z tr o, runs (stralloc_cats r (Some (m ++ 0 :: z))) tr o -> nonul m -> sinv r ->
  slen r + len m < 2 ^ 61 -> sok r m tr o.
Proof.
  intros r m z tr o R NU S B. unfold stralloc_cats in R. rewrite str_len_ok in R by assumption. cbn [lift pbind] in R.
  apply (catb_ok r m (0 :: z)); auto.
Qed.

Definition step_ok (f : stralloc -> prog (rc * stralloc)) (arg : list Z) : Prop :=
  forall r tr o, runs (f r) tr o -> sinv r -> slen r + len arg < 2 ^ 61 -> sok r arg tr o.

Lemma chain_ok : forall l args, Forall2 step_ok l args -> forall r tr o, runs (sa_chain r l) tr o -> sinv r ->
  slen r + len (concat args) < 2 ^ 61 ->
  match o with
  | Wrong => False
  | Cut => True
  | Fin (Good, r') => sinv r' /\ content r' = content r ++ concat args
  | Fin (Fail _, _) => nomem tr
  end.
Proof.
  intros l args F. induction F as [|f arg l args H F IH]; intros r tr o R S B; cbn [sa_chain concat] in *.
  - destruct R as [-> ->]. rewrite app_nil_r. auto.
  - rewrite len_app in B. pose proof (len_nonneg _ (concat args)). pose proof (len_nonneg _ arg).
    apply runs_bind in R as [([c r1] & t1 & t2 & -> & R1 & R2)|[[R1 ->]|[R1 ->]]].
    + specialize (H _ _ _ R1 S ltac:(lia)). destruct c as [|e]; cbn [sok] in H.
      * destruct H as [S1 C1]. assert (slen r1 = slen r + len arg).
        { rewrite <- (content_len r1 S1), C1, len_app, content_len; auto. }
        specialize (IH _ _ _ R2 S1 ltac:(lia)). destruct o as [[[|e] r2]| |]; auto.
        -- destruct IH as [S2 C2]. split; auto. rewrite C2, C1, <- app_assoc. reflexivity.
        -- destruct IH as (t & n & a & -> & A). exists (t1 ++ t), n, a. rewrite app_assoc. auto.
      * destruct R2 as [-> ->]. rewrite app_nil_r. tauto.
    + exact (H _ _ _ R1 S ltac:(lia)).
    + exact Logic.I.
Qed.

Lemma ip6c_nonul : forall s, Forall ip6_char s -> nonul s.
Proof. intros s. apply Forall_impl. unfold ip6_char, digit. intros a. lia. Qed.

Lemma header_len : forall I e, inet_ok I -> addr6 (lip e) -> addr6 (rip e) -> forall h, header I e h -> len h <= 116.
Proof.
  intros I e O AL AR h (rp & lp & P1 & P2 & ->).
  destruct (iptostr_chars I O _ AL) as (CL & LL & _). destruct (iptostr_chars I O _ AR) as (CR & LR & _).
  assert (L5 : forall w p, port2 w p -> (length w <= 5)%nat).
  { intros w p (N & a & b & -> & A & B & D). unfold is_byte in *. pose proof (numeral_big w N). lia. }
  specialize (L5 _ _ P1) as X1. specialize (L5 _ _ P2) as X2.
  unfold len. rewrite !app_length. change (length (bs " ")) with 1%nat. change (length [13; 10]) with 2%nat.
  assert (LP : forall b : {firstn 12 (rip e) = v4prefix} + {firstn 12 (rip e) <> v4prefix}, length (if b then bs "PROXY TCP4 " else bs "PROXY TCP6 ") = 11%nat) by (intros []; reflexivity).
  rewrite LP. lia.
Qed.

Lemma gen_ok : forall I buf buflen e tr o, inet_ok I -> addr6 (lip e) -> addr6 (rip e) -> is2 (lport e) -> is2 (rport e) ->
  runs (proxyprotocol_v1 I buf buflen e) tr o ->
  match buf with Some b => buflen <= len b | None => True end ->
  match o with
  | Wrong => False
  | Cut => True
  | Fin (n, buf') =>
      (n = 0 /\ buf' = buf /\ (e = ep_zero \/ nomem tr \/ buf = None \/ exists h, header I e h /\ buflen < len h)) \/
      (e <> ep_zero /\ exists h b, header I e h /\ buf = Some b /\ n = len h /\ len h <= buflen /\ buf' = Some (h ++ skipn (length h) b))
  end.
Proof.
  intros I buf buflen e tr o O AL AR PL PR R HB.
  destruct (iptostr_chars I O _ AL) as (CL & LL & _). destruct (iptostr_chars I O _ AR) as (CR & LR & _).
  destruct (portstr_ok _ PR) as (rp & rz & ERP & PRP & LRP). destruct (portstr_ok _ PL) as (lp & lz & ELP & PLP & LLP).
  pose proof (header_len I e O AL AR) as LEN.
  unfold proxyprotocol_v1 in R.
  assert (AZ : forall l n, all_zero l = true -> length l = n -> l = repeat 0 n).
  { induction l as [|x l IH]; intros n A <-; cbn in *; auto. apply andb_prop in A as [A1 A2]. rewrite <- IH by auto. f_equal. lia. }
  destruct (all_zero (lip e) && all_zero (rip e) && all_zero (lport e) && all_zero (rport e)) eqn:Z0.
  { destruct R as [-> ->]. left. split; auto. split; auto. left. apply andb_prop in Z0 as [Z0 Z4]. apply andb_prop in Z0 as [Z0 Z3]. apply andb_prop in Z0 as [Z1 Z2].
    destruct e as [l lpp r rpp]. cbn [lip lport rip rport] in *. unfold ep_zero. destruct PL as (? & ? & -> & _), PR as (? & ? & -> & _).
    rewrite (AZ l 16%nat), (AZ r 16%nat), (AZ _ 2%nat Z3), (AZ _ 2%nat Z4) by (auto; apply AL || apply AR). reflexivity. }
  assert (NZ : e <> ep_zero). { intros ->. cbn in Z0. discriminate. }
  rewrite ERP, ELP in R. cbn [lift pbind] in R.
  set (proto := if list_eq_dec Z.eq_dec (firstn 12 (rip e)) v4prefix then bs "PROXY TCP4 " else bs "PROXY TCP6 ") in *.
  assert (NP : nonul proto) by (unfold proto; destruct (list_eq_dec _ _ _); apply nonul_dec; reflexivity).
  set (h := proto ++ iptostr I (rip e) ++ bs " " ++ iptostr I (lip e) ++ bs " " ++ rp ++ bs " " ++ lp ++ [13; 10]).
  assert (HH : header I e h). { exists rp, lp. split; auto. }
  specialize (LEN _ HH) as LH.
  match type of R with runs (pbind ?c _) _ _ => assert (CH : forall t oo, runs c t oo -> match oo with
    | Wrong => False | Cut => True | Fin (Good, r') => sinv r' /\ content r' = h ++ [0] | Fin (Fail _, _) => nomem t end) end.
  { intros t oo RR. 
    assert (S0 : sinv sa_empty) by (split; cbn; auto; lia).
    assert (ST : forall m z, nonul m -> step_ok (fun r => stralloc_cats r (Some (m ++ 0 :: z))) m).
    { intros m z NM r tt ot RT SI BB. eapply cats_ok2; eauto. }
    assert (NPT : forall w p, port2 w p -> nonul w) by (intros w p (N & _); apply numeral_nonul; auto).
    pose proof (chain_ok
      [ (fun r => stralloc_cats r (Some (proto ++ [0])));
        cats (iptostr I (rip e)); cats (bs " "); cats (iptostr I (lip e)); cats (bs " ");
        (fun r => stralloc_cats r (Some (rp ++ 0 :: rz))); cats (bs " "); (fun r => stralloc_cats r (Some (lp ++ 0 :: lz)));
        cats [13; 10]; stralloc_0 ]
      [proto; iptostr I (rip e); bs " "; iptostr I (lip e); bs " "; rp; bs " "; lp; [13; 10]; [0]]) as C.
    assert (EC : concat [proto; iptostr I (rip e); bs " "; iptostr I (lip e); bs " "; rp; bs " "; lp; [13; 10]; [0]] = h ++ [0]).
    { unfold h. cbn [concat]. rewrite <- !app_assoc. reflexivity. }
    rewrite EC in C. apply (fun F => C F sa_empty t oo RR S0).
    - repeat (apply Forall2_cons); try apply Forall2_nil; try (apply ST; first [assumption | apply ip6c_nonul; assumption | apply nonul_dec; reflexivity | eapply NPT; eassumption]).
      intros r tt ot RT SI BB. apply (catb_ok r [0] []); auto.
    - rewrite len_app. change (len [0]) with 1. change (slen sa_empty) with 0. lia. }
  apply runs_bind in R as [([c sa] & t1 & t2 & -> & R1 & R2)|[[R1 ->]|[R1 ->]]]; [|exact (CH _ _ R1)|exact Logic.I].
  specialize (CH _ _ R1). cbn beta iota in CH. destruct c as [|err].
  2:{ destruct R2 as [-> ->]. rewrite app_nil_r. left. auto. }
  destruct CH as [S C]. pose proof (content_len _ S) as CL2. rewrite C, len_app in CL2. change (len [0]) with 1 in CL2.
  replace (slen sa - 1) with (len h) in R2 by lia. pose proof (len_nonneg _ h).
  destruct buf as [b|].
  2:{ destruct R2 as [-> ->]. left. split; auto. }
  destruct S as [S1 S2]. unfold content in C. destruct (sm sa) as [m|]; [|destruct h; discriminate].
  destruct (Z.leb_spec (len h) buflen).
  - destruct (copyin_ok b 0 m (len h)) as (d & Ed & D1 & D2 & D3 & D4); try lia. rewrite Ed in R2. cbn [lift pbind] in R2. destruct R2 as [-> ->].
    right. split; auto. exists h, b. repeat (split; auto). f_equal.
    rewrite Z.add_0_l in *. change (firstn (Z.to_nat 0) b) with (@nil Z) in D2. cbn [app] in D2.
    assert (Z.to_nat (len h) = length h) as NL by (unfold len; lia). rewrite NL in *.
    rewrite <- (firstn_skipn (length h) d). rewrite D2, D4. f_equal.
    apply (f_equal (firstn (length h))) in C. rewrite firstn_firstn in C.
    replace (Nat.min (length h) (Z.to_nat (slen sa))) with (length h) in C by (unfold len in *; lia).
    rewrite C, firstn_app, Nat.sub_diag, firstn_all, firstn_O, app_nil_r. reflexivity.
  - destruct R2 as [-> ->]. left. split; auto. split; auto. right. right. right. exists h. split; auto.
Qed.

(** ** Reading back a generated header *)
Lemma pfx_dec : forall a, addr6 a -> (exists q, addr4 q /\ a = v4prefix ++ q) \/ firstn 12 a <> v4prefix.
Proof.
  intros a [LA BA]. destruct (list_eq_dec Z.eq_dec (firstn 12 a) v4prefix) as [E|E]; [left|right; auto].
  exists (skipn 12 a). rewrite <- E, firstn_skipn. split; auto. split; [rewrite skipn_length; lia|].
  rewrite <- (firstn_skipn 12 a) in BA. apply bytes_app in BA. tauto.
Qed.

Lemma header_ends : forall I e h, inet_ok I -> addr6 (lip e) -> addr6 (rip e) -> is2 (lport e) -> is2 (rport e) -> header I e h ->
  exists u, h = u ++ [10] /\ ~ In 10 u.
Proof.
  intros I e h O AL AR PL PR (rp & lp & P1 & P2 & ->).
  assert (NL : forall c, In c (iptostr I (lip e)) \/ In c (iptostr I (rip e)) -> ip6_char c).
  { intros c [H|H]; [pose proof (iptostr_chars I O _ AL) as (X & _)|pose proof (iptostr_chars I O _ AR) as (X & _)]; rewrite Forall_forall in X; auto. }
  assert (NN : forall w p c, port2 w p -> In c w -> digit c). { intros w p c (N & _) H. apply numeral_digits in N as [N _]. rewrite Forall_forall in N. auto. }
  exists ((if list_eq_dec Z.eq_dec (firstn 12 (rip e)) v4prefix then bs "PROXY TCP4 " else bs "PROXY TCP6 ")
      ++ iptostr I (rip e) ++ bs " " ++ iptostr I (lip e) ++ bs " " ++ rp ++ bs " " ++ lp ++ [13]).
    rewrite <- !app_assoc. split; auto. rewrite !in_app_iff. intros H.
    assert (~ In 10 (bs " ")) by (cbv; intuition lia).
    assert (~ In 10 [13]) by (cbn; intuition lia).
    assert (~ ip6_char 10) by (unfold ip6_char, digit; lia). assert (~ digit 10) by (unfold digit; lia).
    assert (~ In 10 (if list_eq_dec Z.eq_dec (firstn 12 (rip e)) v4prefix then bs "PROXY TCP4 " else bs "PROXY TCP6 ")) by (destruct (list_eq_dec _ _ _); cbv; intuition lia).
    specialize (NL 10). pose proof (NN _ _ 10 P1). pose proof (NN _ _ 10 P2). tauto.
Qed.

Lemma header_line : forall I e h, inet_ok I -> addr6 (lip e) -> addr6 (rip e) -> is2 (lport e) -> is2 (rport e) ->
  (firstn 12 (lip e) = v4prefix <-> firstn 12 (rip e) = v4prefix) -> header I e h ->
  pp_line I h e /\ exists u, h = u ++ [10] /\ ~ In 10 u.
Proof.
  intros I e h O AL AR PL PR F (rp & lp & P1 & P2 & ->).
  split.
  - destruct e as [li lpo ri rpo]. cbn [lip lport rip rport] in *.
    change (bs " " ++ ?x) with (32 :: x).
    pose proof (pp_tcp I (if list_eq_dec Z.eq_dec (firstn 12 ri) v4prefix then false else true) (iptostr I ri) (iptostr I li) rp lp 32 32 32 13 [10] ri li rpo lpo) as T.
    assert (D : forall a, addr6 a -> if (if list_eq_dec Z.eq_dec (firstn 12 a) v4prefix then false else true) then fam6 I (iptostr I a) a else fam4 I (iptostr I a) a).
    { intros a A. unfold iptostr. destruct (list_eq_dec Z.eq_dec (firstn 12 a) v4prefix) as [E|E].
      - destruct (pfx_dec a A) as [(q & Q & ->)|N]; [|contradiction]. exists q. split; auto.
        change (skipn 12 (v4prefix ++ q)) with q. apply (ok_ntop4 I O q Q).
      - apply (ok_ntop6 I O a A). }
    assert (SAME : (if list_eq_dec Z.eq_dec (firstn 12 li) v4prefix then false else true) = (if list_eq_dec Z.eq_dec (firstn 12 ri) v4prefix then false else true)).
    { destruct (list_eq_dec Z.eq_dec (firstn 12 li) v4prefix), (list_eq_dec Z.eq_dec (firstn 12 ri) v4prefix); tauto. }
    pose proof (D li AL) as D1. rewrite SAME in D1. pose proof (D ri AR) as D2.
    specialize (T D2 D1 P1 P2 (or_introl eq_refl) (or_introl eq_refl) (or_introl eq_refl) (or_introl eq_refl)).
    destruct (list_eq_dec Z.eq_dec (firstn 12 ri) v4prefix); exact T.
  - apply (header_ends I e _ O AL AR PL PR). exists rp, lp. auto.
Qed.

(** The other way round: mixed families are never accepted. *)
Lemma mixed_rejected : forall I e h e', inet_ok I -> addr6 (lip e) -> addr6 (rip e) ->
  ~ (firstn 12 (lip e) = v4prefix <-> firstn 12 (rip e) = v4prefix) -> header I e h -> ~ pp_line I h e'.
Proof.
  intros I e h e' O AL AR M (rp & lp & P1 & P2 & ->) L.
  assert (PL : forall w, Forall ip6_char w -> Forall (fun x => ~ sep x) w).
  { intros w. apply Forall_impl. unfold ip6_char, digit, sep. lia. }
  assert (FP : forall (v6 : bool) w a, (if v6 then fam6 I w a else fam4 I w a) -> Forall (fun x => ~ sep x) w).
  { intros v6 w a H. apply plain_sep. destruct v6; [eapply ip6_plain|eapply ip4_plain]; eauto. }
  destruct (iptostr_chars I O _ AL) as (CL & _). destruct (iptostr_chars I O _ AR) as (CR & _).
  assert (V6 : forall a, addr6 a -> firstn 12 a <> v4prefix -> In 58 (iptostr I a)) by (apply (iptostr_v6 I O)).
  assert (S32 : sep 32) by (left; reflexivity).
  set (pr := if list_eq_dec Z.eq_dec (firstn 12 (rip e)) v4prefix then bs "PROXY TCP4 " else bs "PROXY TCP6 ") in L.
  assert (EP : (pr = bs "PROXY TCP4 " /\ firstn 12 (rip e) = v4prefix) \/ (pr = bs "PROXY TCP6 " /\ firstn 12 (rip e) <> v4prefix)).
  { unfold pr. destruct (list_eq_dec Z.eq_dec (firstn 12 (rip e)) v4prefix); auto. }
  clearbody pr. remember (pr ++ iptostr I (rip e) ++ bs " " ++ iptostr I (lip e) ++ bs " " ++ rp ++ bs " " ++ lp ++ [13; 10]) as h eqn:Eh.
  destruct L as [t|v6 r l rp' lp' s1 s2 s3 s4 t ra la rpb lpb A1 A2 A3 A4 S1 S2 S3 S4].
  - destruct EP as [[-> _]|[-> _]]; cbv [bs] in Eh; cbn [app String.list_ascii_of_string map] in Eh; discriminate.
  - assert (V : (v6 = false /\ firstn 12 (rip e) = v4prefix) \/ (v6 = true /\ firstn 12 (rip e) <> v4prefix)).
    { destruct EP as [[-> X]|[-> X]], v6; auto; exfalso; cbv [bs] in Eh; cbn [app String.list_ascii_of_string map] in Eh; discriminate. }
    assert (E2 : r ++ s1 :: l ++ s2 :: rp' ++ s3 :: lp' ++ s4 :: t =
      iptostr I (rip e) ++ 32 :: iptostr I (lip e) ++ 32 :: rp ++ 32 :: lp ++ [13; 10]).
    { destruct EP as [[-> X]|[-> X]], V as [[-> Y]|[-> Y]]; try contradiction; apply app_inv_head in Eh; exact Eh. }
    destruct (split_unique sep r s1 _ (iptostr I (rip e)) 32 _ (FP _ _ _ A1) (PL _ CR) S1 S32 E2) as (-> & -> & E3).
    destruct (split_unique sep l s2 _ (iptostr I (lip e)) 32 _ (FP _ _ _ A2) (PL _ CL) S2 S32 E3) as (-> & -> & E4).
    clear - V A2 M O AL V6. destruct V as [[-> ER]|[-> ER]]; cbn iota in A2.
    + assert (NLI : firstn 12 (lip e) <> v4prefix) by tauto. specialize (V6 _ AL NLI). destruct A2 as (q & Q & _).
      apply (ok_pton4_chars I O) in Q. rewrite Forall_forall in Q. specialize (Q _ V6). unfold digit in Q. lia.
    + assert (LI : firstn 12 (lip e) = v4prefix) by (destruct (list_eq_dec Z.eq_dec (firstn 12 (lip e)) v4prefix); [auto|exfalso; tauto]). destruct (pfx_dec _ AL) as [(q & Q & E)|N]; [|contradiction].
      unfold fam6 in A2. apply (ok_pton6_colon I O) in A2. rewrite E in A2. pose proof (iptostr_v4 I O q Q) as (n0 & n1 & n2 & n3 & FN & _ & ES).
      rewrite ES in A2. inversion FN as [|? ? F0 FN1]; subst. inversion FN1 as [|? ? F1 FN2]; subst. inversion FN2 as [|? ? F2 FN3]; subst. inversion FN3 as [|? ? F3 FN4]; subst.
      assert (ND : forall n, numeral n -> ~ In 58 n). { intros n N IN. apply numeral_digits in N as [N _]. rewrite Forall_forall in N. specialize (N _ IN). unfold digit in N. lia. }
      apply in_app_or in A2 as [A|[A|A]]; [exact (ND _ F0 A)|lia|]. apply in_app_or in A as [A|[A|A]]; [exact (ND _ F1 A)|lia|].
      apply in_app_or in A as [A|[A|A]]; [exact (ND _ F2 A)|lia|]. exact (ND _ F3 A).
Qed.

Lemma line_unique : forall I g u e1 e2, inet_ok I -> bytes g -> g = u ++ [10] -> pp_line I g e1 -> pp_line I g e2 -> e1 = e2.
Proof.
  intros I g u e1 e2 O B E L1 L2. destruct (pp_parse_ok I g [] u O B E) as ([e|] & _ & H).
  - destruct H as [_ H]. rewrite (H _ L1), (H _ L2). reflexivity.
  - destruct (H _ L1).
Qed.
