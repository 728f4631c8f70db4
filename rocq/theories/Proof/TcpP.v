(** The TCP relay. *)
From Verif.Model Require Import Base Sys Io Fdio Relay.
From Verif.Spec Require Import Waiting Flow.
From Verif.Proof Require Import Tac SysP FdioP WpP.

(** ** Facts about histories *)
Lemma closed_app : forall f t u, closed f (t ++ u) <-> closed f t \/ closed f u.
Proof. intros f t u. unfold closed. split; [intros (a & I); apply in_app_or in I as [I|I]; eauto|intros [(a & I)|(a & I)]; exists a; apply in_or_app; auto]. Qed.
Lemma closed_one : forall f c a, closed f [(c, a)] <-> c = Close f.
Proof. intros f c a. unfold closed. split; [intros (b & [I|[]]); congruence|intros ->; exists a; left; auto]. Qed.
Lemma eof_app : forall f t u, eof f t -> eof f (t ++ u).
Proof. intros f t u (n & a & I & H). exists n, a. split; auto. apply in_or_app. auto. Qed.
Lemma broken_app : forall f t u, broken f t -> broken f (t ++ u).
Proof. intros f t u (n & a & I & H). exists n, a. split; auto. apply in_or_app. auto. Qed.
Lemma reported_app : forall f t u, reported f t -> reported f (t ++ u).
Proof. intros f t u (n & rd & wr & us & a & I & H). exists n, rd, wr, us, a. split; auto. apply in_or_app. auto. Qed.
Lemma eof_now : forall f t n a, ret a <= 0 -> again (ret a) (err a) = false -> eof f (t ++ [(Read f n, a)]).
Proof. intros f t n a L A. exists n, a. split; [apply in_or_app; right; left; auto|]. split; auto. intros [S1 S2]. unfold again in A. rewrite S1, Z.eqb_refl in A. lia. Qed.
Lemma broken_now : forall f t b a, ret a <= 0 -> again (ret a) (err a) = false -> broken f (t ++ [(Write f b, a)]).
Proof. intros f t n a L A. exists n, a. split; [apply in_or_app; right; left; auto|]. split; auto. intros [S1 S2]. unfold again in A. rewrite S1, Z.eqb_refl in A. lia. Qed.
Lemma read_got : forall f n a, got f [(Read f n, a)] = data a.
Proof. intros. cbn [got]. rewrite Z.eqb_refl, app_nil_r. reflexivity. Qed.
Lemma read_none : forall f n a, sys_ok (Read f n, a) -> ret a <= 0 -> data a = [].
Proof. intros f n a H L. cbn [sys_ok] in H. destruct H as [[_ H]|(H1 & H2 & _)]; auto. destruct (data a) as [|x d]; auto. rewrite len_cons in H2. pose proof (len_nonneg _ d). lia. Qed.
Lemma write_sent : forall f b a, sys_ok (Write f b, a) -> sent f [(Write f b, a)] = firstn (Z.to_nat (ret a)) b.
Proof. intros f b a H. cbn [sent]. rewrite Z.eqb_refl, app_nil_r. reflexivity. Qed.
Lemma again_ret : forall r e, again r e = true -> r = -1.
Proof. intros r e H. unfold again in H. lia. Qed.
Lemma write_none : forall f b a, sys_ok (Write f b, a) -> ret a <= 0 -> sent f [(Write f b, a)] = [].
Proof. intros f b a H L. rewrite write_sent by auto. replace (Z.to_nat (ret a)) with 0%nat by lia. reflexivity. Qed.

Section Tcp.
Variables timeout ri ro self : Z.
Variable h : list Z.
Hypothesis ND : NoDup [0; 1; ri; ro; self].
Hypothesis FD : (0 <= ri < 1024) /\ (0 <= ro < 1024) /\ (0 <= self < 1024).
Hypothesis HL : len h <= 8192.

Lemma nd : ri <> 0 /\ ri <> 1 /\ ro <> 0 /\ ro <> 1 /\ ri <> ro /\ self <> 0 /\ self <> 1 /\ self <> ri /\ self <> ro.
Proof.
  inversion_clear ND as [|? ? N1 M1]. inversion_clear M1 as [|? ? N2 M2]. inversion_clear M2 as [|? ? N3 M3]. inversion_clear M3 as [|? ? N4 M4]. cbn [In] in *.
  repeat split; intros E; subst; tauto.
Qed.

Definition bal (g : list Z) (i o : Z) (t : trace) : Prop := exists p, g ++ got i t = sent o t ++ p /\ len p <= 8192.
Definition tok (t : trace) (e : event) : Prop :=
  conveys h 0 ro 8192 t e /\ conveys [] ri 1 8192 t e /\ usable t e /\ tcp_close ri ro self h t e /\ tcp_select ri ro self h t e /\ tcp_serve ri ro t e /\
  bal h 0 ro (t ++ [e]) /\ bal [] ri 1 (t ++ [e]).

(** Variable [v] and descriptor [f]: open, or closed for the reason [W]. *)
Definition var (t : trace) (v f : Z) (W : Prop) : Prop := (v = f /\ ~ closed f t) \/ (v = -1 /\ closed f t /\ W).
Record core (t : trace) (s : tcp) : Prop := mkcore {
  k_in : bufok 8192 (inb s); k_out : bufok 8192 (outb s);
  k_ins : h ++ got 0 t = sent ro t ++ content (inb s); k_outs : got ri t = sent 1 t ++ content (outb s) }.
(** A descriptor at its end is closed. *)
Definition ends (t : trace) : Prop := (eof 0 t -> closed 0 t) /\ (eof ri t -> closed ri t).
Record tinv (t : trace) (s : tcp) : Prop := mktinv {
  v_core : core t s;
  v_li : var t (localin s) 0 (eof 0 t); v_ri : var t (remotein s) ri (eof ri t);
  v_lo : var t (localout s) 1 (eof ri t /\ got ri t = sent 1 t); v_ro : var t (remoteout s) ro (eof 0 t /\ h ++ got 0 t = sent ro t);
  v_end : ends t }.
Lemma eof_snoc : forall f t c a, eof f (t ++ [(c, a)]) -> eof f t \/ ((exists n, c = Read f n) /\ ret a <= 0 /\ ~ soft a).
Proof. intros f t c a (n & b & I & L & S). apply in_app_or in I as [I|[I|[]]]; [left; exists n, b; auto|]. injection I as -> ->. right. eauto. Qed.
Lemma ends_still : forall t c a, (match c with Read _ _ => False | _ => True end) -> ends t -> ends (t ++ [(c, a)]).
Proof. intros t c a S [A B]. split; intros E; apply eof_snoc in E as [E|((n & ->) & _)]; try contradiction; apply closed_app; auto. Qed.
Lemma ends_again : forall t f n a, again (ret a) (err a) = true -> ends t -> ends (t ++ [(Read f n, a)]).
Proof.
  intros t f n a AG [A B]. assert (S : soft a) by (unfold again in AG; unfold soft; lia).
  split; intros E; apply eof_snoc in E as [E|(_ & _ & E)]; try contradiction; apply closed_app; auto.
Qed.
Lemma ends_data : forall t f n a, 0 < ret a -> ends t -> ends (t ++ [(Read f n, a)]).
Proof. intros t f n a L [A B]. split; intros E; apply eof_snoc in E as [E|(_ & E & _)]; try lia; apply closed_app; auto. Qed.
Lemma ends_shut : forall t f y n a b c, ends t -> ends ((t ++ [(Read f n, a)]) ++ [(Shutdown f y, b); (Close f, c)]).
Proof.
  intros t f y n a b c [A B].
  assert (G : forall g, (eof g t -> closed g t) -> eof g ((t ++ [(Read f n, a)]) ++ [(Shutdown f y, b); (Close f, c)]) -> closed g ((t ++ [(Read f n, a)]) ++ [(Shutdown f y, b); (Close f, c)])).
  { intros g H (m & d & I & K). destruct (Z.eq_dec f g) as [->|N]; [exists c; apply in_or_app; right; right; left; auto|].
    apply closed_app; left. apply closed_app; left. apply H. exists m, d. split; auto.
    apply in_app_or in I as [I|[I|[I|[]]]]; try discriminate. apply in_app_or in I as [I|[I|[]]]; auto. congruence. }
  split; apply G; auto.
Qed.
Lemma ends_shut' : forall t f y b c, ends t -> ends (t ++ [(Shutdown f y, b); (Close f, c)]).
Proof. intros t f y b c H. replace (t ++ [(Shutdown f y, b); (Close f, c)]) with ((t ++ [(Shutdown f y, b)]) ++ [(Close f, c)]) by (rewrite <- app_assoc; auto). apply ends_still; [exact I|]. apply ends_still; [exact I|auto]. Qed.
Definition quiet (t : trace) : Prop := forall t0 n rd wr us a, t = t0 ++ [(Select n rd wr us, a)] -> 0 < ret a ->
  ~ (In ro wr /\ In (-1 - ro) (data a)) /\ ~ (In 1 wr /\ In (-1 - 1) (data a)) /\ ~ (In 0 rd /\ In 0 (data a)) /\ ~ (In ri rd /\ In ri (data a)).
Definition finished (t : trace) : Prop := tcp_end ri ro self h t.
(** After the loop. *)
Definition tend (t : trace) (s : tcp) : Prop :=
  core t s /\ var t (remotein s) ri True /\ var t (remoteout s) ro True /\ finished t /\ quiet t.

Lemma quiet_serve : forall t e, quiet t -> tcp_serve ri ro t e.
Proof. intros t e Q t0 n rd wr us a E P. destruct (Q t0 n rd wr us a E P) as (A & B & C & D). cbv zeta. tauto. Qed.
Lemma quiet_snoc : forall t c a, match c with Select _ _ _ _ => False | _ => True end -> quiet (t ++ [(c, a)]).
Proof. intros t c a H t0 n rd wr us b E. apply app_inj_tail in E as [_ E]. injection E as -> _. destruct H. Qed.
Lemma core_bal : forall t s, core t s -> bal h 0 ro t /\ bal [] ri 1 t.
Proof. intros t s K. destruct K as [A B C D]. split; [exists (content (inb s))|exists (content (outb s))]; cbn [app]; (split; [auto|]); erewrite content_len by eauto; unfold bufok in *; lia. Qed.
Lemma neq : forall t s, core t s -> (fill (inb s) = 0 <-> h ++ got 0 t = sent ro t) /\ (fill (outb s) = 0 <-> got ri t = sent 1 t).
Proof.
  intros t s [A B C D]. apply content_len in A, B. split; rewrite ?C, ?D.
  - split; intros E; [rewrite E in A; destruct (content (inb s)); [apply app_nil_r|rewrite len_cons in A; pose proof (len_nonneg _ l); lia]|].
    apply (f_equal (@length Z)) in E. rewrite app_length in E. unfold len in A. lia.
  - split; intros E; [rewrite E in B; destruct (content (outb s)); [apply app_nil_r|rewrite len_cons in B; pose proof (len_nonneg _ l); lia]|].
    apply (f_equal (@length Z)) in E. rewrite app_length in E. unfold len in B. lia.
Qed.
(** Calls that move no data. *)
Definition still (c : sys) : Prop := match c with Read _ _ | Write _ _ => False | _ => True end.
Lemma still_got : forall f t c a, still c -> got f (t ++ [(c, a)]) = got f t.
Proof. intros f t c a S. rewrite got_app. destruct c; try contradiction; cbn [got]; apply app_nil_r. Qed.
Lemma still_sent : forall f t c a, still c -> sent f (t ++ [(c, a)]) = sent f t.
Proof. intros f t c a S. rewrite sent_app. destruct c; try contradiction; cbn [sent]; apply app_nil_r. Qed.
Lemma still_core : forall t s c a, still c -> core t s -> core (t ++ [(c, a)]) s.
Proof. intros t s c a S [A B C D]. split; auto; rewrite ?still_got, ?still_sent by auto; auto. Qed.
Lemma still_conveys : forall g i o N t c a, still c -> conveys g i o N t (c, a).
Proof. intros g i o N t c a S. unfold conveys. cbn [fst]. destruct c; auto; contradiction. Qed.
Lemma var_snoc : forall t c a v f (W W' : Prop), c <> Close f -> (W -> W') -> var t v f W -> var (t ++ [(c, a)]) v f W'.
Proof.
  intros t c a v f W W' N I [[A B]|(A & B & C)]; [left|right]; rewrite closed_app, closed_one; repeat split; auto. intros [K|K]; auto.
Qed.
Lemma still_fin : forall t c a, still c -> finished t -> finished (t ++ [(c, a)]).
Proof.
  intros t c a S [(A & B & C & D)|[A|[A|A]]].
  - left. rewrite !still_got, !still_sent by auto. auto using eof_app.
  - right. left. apply broken_app. auto.
  - right. right. left. apply broken_app. auto.
  - right. right. right. apply reported_app. auto.
Qed.
Lemma still_tinv : forall t s c a, still c -> (forall f, c <> Close f) -> tinv t s -> tinv (t ++ [(c, a)]) s.
Proof.
  intros t s c a S N [K A B C D VE]. split; [apply still_core; auto| | | | |apply ends_still; [destruct c; auto|exact VE]]; (eapply var_snoc; [apply N| |eassumption]); rewrite ?still_got, ?still_sent by auto; auto using eof_app; intros []; auto using eof_app.
Qed.
(** Closing a descriptor. *)
Lemma tok_shut : forall t s how f a b, core t s -> quiet t -> ~ closed f t ->
  (f = 0 /\ eof 0 t) \/ (f = 1 /\ (broken 1 t \/ (eof ri t /\ got ri t = sent 1 t))) \/
  (f = ri /\ (eof ri t \/ broken 1 t \/ broken ro t \/ reported self t)) \/
  (f = ro /\ (broken ro t \/ (eof 0 t /\ h ++ got 0 t = sent ro t) \/ broken 1 t \/ reported self t)) ->
  tok t (Shutdown f how, a) /\ tok (t ++ [(Shutdown f how, a)]) (Close f, b).
Proof.
  intros t s how f a b K Q NC W. pose proof (still_core _ _ (Shutdown f how) a I K) as K1. pose proof (still_core _ _ (Close f) b I K1) as K2.
  split; unfold tok, usable, tcp_close, tcp_select; cbn [fst].
  - repeat (split; [solve [auto|apply still_conveys; exact I|apply quiet_serve; auto]|]). apply (core_bal _ _ K1).
  - rewrite !(still_got _ t), !(still_sent _ t) by exact I. split; [apply still_conveys; exact I|]. split; [apply still_conveys; exact I|]. split; [rewrite closed_app, closed_one; intros [X|X]; [auto|discriminate]|].
    split; [|split; auto; split; [apply quiet_serve, quiet_snoc; exact I|apply (core_bal _ _ K2)]].
    destruct W as [[E W]|[[E W]|[[E W]|[E W]]]].
    + left. auto using eof_app.
    + right. left. split; auto. destruct W as [W|[W1 W2]]; [left|right]; auto using eof_app, broken_app.
    + right. right. left. split; auto. destruct W as [W|[W|[W|W]]]; auto using eof_app, broken_app, reported_app.
    + right. right. right. split; auto. destruct W as [W|[[W1 W2]|[W|W]]]; auto using eof_app, broken_app, reported_app.
Qed.
Lemma two_snoc : forall (t : trace) x y, t ++ [x; y] = (t ++ [x]) ++ [y].
Proof. intros. rewrite <- app_assoc. reflexivity. Qed.
Lemma shut_core : forall t s x y a b, core t s -> core (t ++ [(Shutdown x y, a); (Close x, b)]) s.
Proof. intros. rewrite two_snoc. apply still_core; [exact I|]. apply still_core; [exact I|auto]. Qed.
Lemma shut_fin : forall t x y a b, finished t -> finished (t ++ [(Shutdown x y, a); (Close x, b)]).
Proof. intros. rewrite two_snoc. apply still_fin; [exact I|]. apply still_fin; [exact I|auto]. Qed.
Lemma shut_var : forall t x y a b v f (W W' : Prop), f <> x -> (W -> W') -> var t v f W -> var (t ++ [(Shutdown x y, a); (Close x, b)]) v f W'.
Proof. intros t x y a b v f W W' N I V. rewrite two_snoc. eapply var_snoc; [congruence|exact I|]. eapply var_snoc; [discriminate| |exact V]. auto. Qed.
Lemma shut_this : forall t x y a b (W : Prop), W -> var (t ++ [(Shutdown x y, a); (Close x, b)]) (-1) x W.
Proof. intros. right. repeat split; auto. exists b. apply in_or_app. right. right. left. auto. Qed.
Lemma shut_quiet : forall t x y a b, quiet (t ++ [(Shutdown x y, a); (Close x, b)]).
Proof. intros. rewrite two_snoc. apply quiet_snoc. exact I. Qed.
Lemma shut_got : forall t x y a b f, got f (t ++ [(Shutdown x y, a); (Close x, b)]) = got f t.
Proof. intros. rewrite two_snoc, !still_got by exact I. auto. Qed.
Lemma shut_sent : forall t x y a b f, sent f (t ++ [(Shutdown x y, a); (Close x, b)]) = sent f t.
Proof. intros. rewrite two_snoc, !still_sent by exact I. auto. Qed.

Lemma openT : forall t v f (W : Prop), var t v f W -> 0 <= f -> open v = true -> v = f /\ ~ closed f t.
Proof. intros t v f W [H|(-> & _)] F O; auto. discriminate. Qed.
Lemma openF : forall t v f (W : Prop), var t v f W -> 0 <= f -> open v = false -> v = -1 /\ closed f t /\ W.
Proof. intros t v f W [[-> H]|H] F O; auto. unfold open in O. lia. Qed.
Lemma open_iff : forall t v f (W : Prop), var t v f W -> 0 <= f -> (open v = true <-> ~ closed f t).
Proof. intros t v f W V F. split; intros O; [apply (openT _ _ _ _ V F O)|]. destruct V as [[-> H]|(_ & H & _)]; [unfold open; lia|tauto]. Qed.

(** End of file has been passed on. *)
Definition passed (s : tcp) : Prop :=
  (open (localin s) = false -> open (remoteout s) = true -> 0 < fill (inb s)) /\ (open (remotein s) = false -> open (localout s) = true -> 0 < fill (outb s)).
Definition passed1 (s : tcp) : Prop := open (localin s) = false -> open (remoteout s) = true -> 0 < fill (inb s).
Lemma wp_eof : forall t s, tinv t s -> quiet t -> wp tok t (tcp_eof s) (fun t s => tinv t s /\ quiet t /\ passed s).
Proof.
  intros t s V Q. destruct nd as (N1 & N2 & N3 & N4 & N5 & N6 & N7 & N8 & N9). unfold tcp_eof.
  apply wp_bind with (M := fun t s => tinv t s /\ quiet t /\ passed1 s).
  - destruct (negb (open (localin s)) && open (remoteout s) && (fill (inb s) =? 0)) eqn:C.
    2:{ apply wp_ret. repeat (split; auto). intros E1 E2. rewrite E1, E2 in C. cbn [negb andb] in C. pose proof (k_in _ _ (v_core _ _ V)) as [_ F]. lia. }
    rewrite !andb_true_iff, negb_true_iff, Z.eqb_eq in C. destruct C as [[C1 C2] C3]. destruct V as [K V1 V2 V3 V4 VE].
    destruct (openT _ _ _ _ V4 ltac:(lia) C2) as [E NC]. destruct (openF _ _ _ _ V1 ltac:(lia) C1) as (E1 & CL & EO).
    pose proof (proj1 (proj1 (neq _ _ K)) C3) as DL. eapply wp_bind.
    + apply wp_shut_w; [lia|]. intros _ a b. rewrite E. destruct (tok_shut t s 1 ro a b K Q NC) as [T1 T2]; [auto 10|]. split; [exact T1|]. split; [exact T2|].
      instantiate (1 := fun t' v => v = -1 /\ exists a b, t' = t ++ [(Shutdown ro 1, a); (Close ro, b)]). cbn. eauto.
    + cbn beta. intros t' v (-> & a & b & ->). apply wp_ret. split; [|split; [apply shut_quiet|intros _ X; discriminate]]. split; cbn [localin localout remotein remoteout inb outb].
      * destruct (shut_core t s ro 1 a b K) as [A B X D]. split; auto.
      * eapply shut_var; [lia| |exact V1]. apply eof_app.
      * eapply shut_var; [lia| |exact V2]. apply eof_app.
      * eapply shut_var; [lia| |exact V3]. rewrite shut_got, shut_sent. intros []. auto using eof_app.
      * apply shut_this. rewrite shut_got, shut_sent. auto using eof_app.
      * apply ends_shut'. exact VE.
  - clear t s V Q. intros t s (V & Q & PA). destruct (negb (open (remotein s)) && open (localout s) && (fill (outb s) =? 0)) eqn:C.
    2:{ apply wp_ret. split; auto. split; auto. split; auto. intros E1 E2. rewrite E1, E2 in C. cbn [negb andb] in C. pose proof (k_out _ _ (v_core _ _ V)) as [_ F]. lia. }
    rewrite !andb_true_iff, negb_true_iff, Z.eqb_eq in C. destruct C as [[C1 C2] C3]. destruct V as [K V1 V2 V3 V4 VE].
    destruct (openT _ _ _ _ V3 ltac:(lia) C2) as [E NC]. destruct (openF _ _ _ _ V2 ltac:(lia) C1) as (E1 & CL & EO).
    pose proof (proj1 (proj2 (neq _ _ K)) C3) as DL. eapply wp_bind.
    + apply wp_shut_w; [lia|]. intros _ a b. rewrite E. destruct (tok_shut t s 1 1 a b K Q NC) as [T1 T2]; [auto 10|]. split; [exact T1|]. split; [exact T2|].
      instantiate (1 := fun t' v => v = -1 /\ exists a b, t' = t ++ [(Shutdown 1 1, a); (Close 1, b)]). cbn. eauto.
    + cbn beta. intros t' v (-> & a & b & ->). apply wp_ret. split; [|split; [apply shut_quiet|split; [exact PA|intros _ X; discriminate]]]. split; cbn [localin localout remotein remoteout inb outb].
      * destruct (shut_core t s 1 1 a b K) as [A B X D]. split; auto.
      * eapply shut_var; [lia| |exact V1]. apply eof_app.
      * eapply shut_var; [lia| |exact V2]. apply eof_app.
      * apply shut_this. rewrite shut_got, shut_sent. auto using eof_app.
      * eapply shut_var; [lia| |exact V4]. rewrite shut_got, shut_sent. intros []. auto using eof_app.
      * apply ends_shut'. exact VE.
Qed.

Lemma got_other : forall f g n a t, f <> g -> got f (t ++ [(Read g n, a)]) = got f t.
Proof. intros. rewrite got_app. cbn [got]. replace (g =? f) with false by lia. apply app_nil_r. Qed.
Lemma got_this : forall f n a t, got f (t ++ [(Read f n, a)]) = got f t ++ data a.
Proof. intros. rewrite got_app, read_got. reflexivity. Qed.
Lemma got_write : forall f g b a t, got f (t ++ [(Write g b, a)]) = got f t.
Proof. intros. rewrite got_app. cbn [got]. apply app_nil_r. Qed.
Lemma sent_read : forall f g n a t, sent f (t ++ [(Read g n, a)]) = sent f t.
Proof. intros. rewrite sent_app. cbn [sent]. apply app_nil_r. Qed.
Lemma sent_other : forall f g b a t, f <> g -> sent f (t ++ [(Write g b, a)]) = sent f t.
Proof. intros. rewrite sent_app. cbn [sent]. replace (g =? f) with false by lia. apply app_nil_r. Qed.
Lemma sent_this : forall f b a t, sent f (t ++ [(Write f b, a)]) = sent f t ++ firstn (Z.to_nat (ret a)) b.
Proof. intros. rewrite sent_app. cbn [sent]. rewrite Z.eqb_refl, app_nil_r. reflexivity. Qed.

(** A read or write that moved nothing. *)
Lemma nothing_core : forall t s c a, (match c with Read _ _ | Write _ _ => True | _ => False end) -> sys_ok (c, a) -> ret a <= 0 -> core t s -> core (t ++ [(c, a)]) s.
Proof.
  intros t s c a D O R [A B X Y]. destruct c as [f n|f b| | | | | | |]; try contradiction.
  - assert (G : forall g, got g (t ++ [(Read f n, a)]) = got g t).
    { intros g. destruct (Z.eq_dec g f) as [->|N]; [rewrite got_this, (read_none f n a O R), app_nil_r; auto|apply got_other; auto]. }
    split; auto; rewrite !G, !sent_read; auto.
  - assert (G : forall g, sent g (t ++ [(Write f b, a)]) = sent g t).
    { intros g. destruct (Z.eq_dec g f) as [->|N]; [rewrite sent_app, write_none, app_nil_r; auto|apply sent_other; auto]. }
    split; auto; rewrite !G, !got_write; auto.
Qed.

Definition next (t : trace) (x : nxt tcp tcp) : Prop := match x with Again s => tinv t s /\ quiet t | Stop s => tend t s end.
Lemma var_weak : forall t v f (W W' : Prop), (W -> W') -> var t v f W -> var t v f W'.
Proof. intros t v f W W' I [A|(A & B & C)]; [left|right]; auto. Qed.
Lemma firstn_len_le : forall (l : list Z) n, len (firstn n l) <= len l.
Proof. intros. unfold len. rewrite firstn_length. lia. Qed.

Lemma wp_toremote : forall t s, tinv t s -> open (remoteout s) = true -> 0 < fill (inb s) -> (forall b a, tcp_serve ri ro t (Write ro b, a)) ->
  wp tok t (tcp_toremote s) next.
Proof.
  intros t s V O F S. destruct nd as (N1 & N2 & N3 & N4 & N5 & N6 & N7 & N8 & N9). destruct V as [K V1 V2 V3 V4 VE]. destruct (openT _ _ _ _ V4 ltac:(lia) O) as [E NC].
  unfold tcp_toremote. replace (0 <? fill (inb s)) with true by lia. rewrite E. destruct K as [A B X Y]. destruct A as [A1 A2].
  set (c := content (inb s)). assert (CL : len c = fill (inb s)) by (apply (content_len 8192); split; auto).
  eapply wp_bind with (M := fun t' x => exists a, t' = t ++ [(Write ro c, a)] /\ x = (ret a, err a) /\ sys_ok (Write ro c, a)).
  - apply wp_write; [unfold CHUNK; lia|lia|]. intros a SO. fold (content (inb s)) in SO |- *. fold c in SO |- *. split; [|eauto]. unfold tok, usable, tcp_close, tcp_select. cbn [fst].
    split. { intros _. split; [intros Z0; rewrite Z0, len_nil in CL; lia|exact X]. }
    split; [intros Z0; lia|]. split; [exact NC|]. split; [exact I|]. split; [exact I|]. split; [apply S|].
    split.
    + exists (skipn (Z.to_nat (ret a)) c). rewrite got_write, sent_this, <- app_assoc, firstn_skipn. split; [exact X|]. unfold len. rewrite skipn_length. unfold len in CL. lia.
    + exists (content (outb s)). cbn [app]. rewrite got_write, sent_other by lia. split; [exact Y|]. rewrite (content_len _ _ B). unfold bufok in B. lia.
  - intros t' x (a & -> & -> & SO). pose proof (conj A1 A2 : bufok 8192 (inb s)) as A.
    assert (VS : forall v f (W W' : Prop), (W -> W') -> var t v f W -> var (t ++ [(Write ro c, a)]) v f W') by (intros v f W W' IW; apply var_snoc; [discriminate|auto]).
    destruct (again (ret a) (err a)) eqn:AG; [|destruct (Z.leb_spec (ret a) 0) as [L|L]].
    + pose proof AG as AG'. apply again_ret in AG. assert (L : ret a <= 0) by lia. assert (K : core t s) by (split; auto). apply (nothing_core t s (Write ro c) a I SO L) in K.
      apply wp_ret. split; [|apply quiet_snoc; exact I]. split; [exact K| | | | |apply ends_still; [exact I|exact VE]]; (eapply VS; [|eassumption]); auto using eof_app.
      * rewrite got_write, sent_other by lia. intros []; auto using eof_app.
      * rewrite got_write, sent_app, (write_none _ _ _ SO L), app_nil_r. intros []; auto using eof_app.
    + assert (K : core t s) by (split; auto). apply (nothing_core t s (Write ro c) a I SO L) in K. pose proof (broken_now ro t c a L AG) as BR.
      assert (Q : quiet (t ++ [(Write ro c, a)])) by (apply quiet_snoc; exact I).
      eapply wp_bind.
      * apply wp_shut_w; [lia|]. intros _ a1 b1. destruct (tok_shut (t ++ [(Write ro c, a)]) s 1 ro a1 b1 K Q) as [T1 T2]; [|auto 10|].
        { rewrite closed_app, closed_one. intros [Z0|Z0]; [auto|discriminate]. }
        split; [exact T1|]. split; [exact T2|].
        instantiate (1 := fun t' v => v = -1 /\ exists a1 b1, t' = (t ++ [(Write ro c, a)]) ++ [(Shutdown ro 1, a1); (Close ro, b1)]). cbn. eauto.
      * cbn beta. intros t' v (-> & a1 & b1 & ->). apply wp_ret. split; [|split; [|split; [|split]]]; cbn [localin localout remotein remoteout inb outb].
        -- destruct (shut_core _ _ ro 1 a1 b1 K) as [Z1 Z2 Z3 Z4]. split; auto.
        -- eapply shut_var; [lia| |eapply VS; [|exact V2]]; eauto.
        -- apply shut_this. exact I.
        -- apply shut_fin. right. left. exact BR.
        -- apply shut_quiet.
    + cbn [sys_ok] in SO. assert (RL : 0 <= ret a <= fill (inb s)) by lia. destruct (consume_ok 8192 (inb s) (ret a) A ltac:(unfold CHUNK; lia) RL) as (b' & E1 & E2 & E3 & E4).
      eapply wp_bind; [eapply wp_lift with (Q := fun t' b => t' = t ++ [(Write ro c, a)] /\ b = b'); [exact E1|auto]|]. cbn beta. intros t' b [-> ->]. apply wp_ret. split; [|apply quiet_snoc; exact I]. split; cbn [localin localout remotein remoteout inb outb].
      * split; cbn [inb outb]; auto; rewrite got_write.
        -- rewrite sent_this, <- app_assoc. unfold c. rewrite <- E3. exact X.
        -- rewrite sent_other by lia. exact Y.
      * eapply VS; [|exact V1]. apply eof_app.
      * eapply VS; [|exact V2]. apply eof_app.
      * eapply VS; [|exact V3]. rewrite got_write, sent_other by lia. intros []. auto using eof_app.
      * left. split; auto. rewrite closed_app, closed_one. intros [Z0|Z0]; [auto|discriminate].
      * apply ends_still; [exact I|exact VE].
Qed.
Lemma wp_tolocal : forall t s, tinv t s -> open (localout s) = true -> 0 < fill (outb s) -> (forall b a, tcp_serve ri ro t (Write 1 b, a)) ->
  wp tok t (tcp_tolocal s) next.
Proof.
  intros t s V O F S. destruct nd as (N1 & N2 & N3 & N4 & N5 & N6 & N7 & N8 & N9). destruct V as [K V1 V2 V3 V4 VE]. destruct (openT _ _ _ _ V3 ltac:(lia) O) as [E NC].
  unfold tcp_tolocal. rewrite E. destruct K as [A B X Y]. destruct B as [A1 A2].
  set (c := content (outb s)). assert (CL : len c = fill (outb s)) by (apply (content_len 8192); split; auto).
  eapply wp_bind with (M := fun t' x => exists a, t' = t ++ [(Write 1 c, a)] /\ x = (ret a, err a) /\ sys_ok (Write 1 c, a)).
  - apply wp_write; [unfold CHUNK; lia|lia|]. intros a SO. fold (content (outb s)) in SO |- *. fold c in SO |- *. split; [|eauto]. unfold tok, usable, tcp_close, tcp_select. cbn [fst].
    split; [intros Z0; lia|].
    split. { intros _. split; [intros Z0; rewrite Z0, len_nil in CL; lia|exact Y]. }
    split; [exact NC|]. split; [exact I|]. split; [exact I|]. split; [apply S|].
    split.
    + exists (content (inb s)). rewrite got_write, sent_other by lia. split; [exact X|]. rewrite (content_len _ _ A). unfold bufok in A. lia.
    + exists (skipn (Z.to_nat (ret a)) c). cbn [app]. rewrite got_write, sent_this, <- app_assoc, firstn_skipn. split; [exact Y|]. unfold len. rewrite skipn_length. unfold len in CL. lia.
  - intros t' x (a & -> & -> & SO). pose proof (conj A1 A2 : bufok 8192 (outb s)) as B.
    assert (VS : forall v f (W W' : Prop), (W -> W') -> var t v f W -> var (t ++ [(Write 1 c, a)]) v f W') by (intros v f W W' IW; apply var_snoc; [discriminate|auto]).
    destruct (again (ret a) (err a)) eqn:AG; [|destruct (Z.leb_spec (ret a) 0) as [L|L]].
    + pose proof AG as AG'. apply again_ret in AG. assert (L : ret a <= 0) by lia. assert (K : core t s) by (split; auto). apply (nothing_core t s (Write 1 c) a I SO L) in K.
      apply wp_ret. split; [|apply quiet_snoc; exact I]. split; [exact K| | | | |apply ends_still; [exact I|exact VE]]; (eapply VS; [|eassumption]); auto using eof_app.
      * rewrite got_write, sent_app, (write_none _ _ _ SO L), app_nil_r. intros []; auto using eof_app.
      * rewrite got_write, sent_other by lia. intros []; auto using eof_app.
    + assert (K : core t s) by (split; auto). apply (nothing_core t s (Write 1 c) a I SO L) in K. pose proof (broken_now 1 t c a L AG) as BR.
      assert (Q : quiet (t ++ [(Write 1 c, a)])) by (apply quiet_snoc; exact I).
      eapply wp_bind.
      * apply wp_shut_w; [lia|]. intros _ a1 b1. destruct (tok_shut (t ++ [(Write 1 c, a)]) s 1 1 a1 b1 K Q) as [T1 T2]; [|auto 10|].
        { rewrite closed_app, closed_one. intros [Z0|Z0]; [auto|discriminate]. }
        split; [exact T1|]. split; [exact T2|].
        instantiate (1 := fun t' v => v = -1 /\ exists a1 b1, t' = (t ++ [(Write 1 c, a)]) ++ [(Shutdown 1 1, a1); (Close 1, b1)]). cbn. eauto.
      * cbn beta. intros t' v (-> & a1 & b1 & ->). apply wp_ret. split; [|split; [|split; [|split]]]; cbn [localin localout remotein remoteout inb outb].
        -- destruct (shut_core _ _ 1 1 a1 b1 K) as [Z1 Z2 Z3 Z4]. split; auto.
        -- eapply shut_var; [lia| |eapply VS; [|exact V2]]; eauto.
        -- eapply shut_var; [lia| |eapply VS; [|exact V4]]; eauto.
        -- apply shut_fin. right. right. left. exact BR.
        -- apply shut_quiet.
    + cbn [sys_ok] in SO. assert (RL : 0 <= ret a <= fill (outb s)) by lia. destruct (consume_ok 8192 (outb s) (ret a) B ltac:(unfold CHUNK; lia) RL) as (b' & E1 & E2 & E3 & E4).
      eapply wp_bind; [eapply wp_lift with (Q := fun t' b => t' = t ++ [(Write 1 c, a)] /\ b = b'); [exact E1|auto]|]. cbn beta. intros t' b [-> ->]. apply wp_ret. split; [|apply quiet_snoc; exact I]. split; cbn [localin localout remotein remoteout inb outb].
      * split; cbn [inb outb]; auto; rewrite got_write.
        -- rewrite sent_other by lia. exact X.
        -- rewrite sent_this, <- app_assoc. unfold c. rewrite <- E3. exact Y.
      * eapply VS; [|exact V1]. apply eof_app.
      * eapply VS; [|exact V2]. apply eof_app.
      * left. split; auto. rewrite closed_app, closed_one. intros [Z0|Z0]; [auto|discriminate].
      * eapply VS; [|exact V4]. rewrite got_write, sent_other by lia. intros []. auto using eof_app.
      * apply ends_still; [exact I|exact VE].
Qed.
Lemma tok_alarm : forall t s a, core t s -> quiet t -> tok t (Other (bs "alarm") [timeout] [], a).
Proof.
  intros t s a K Q. unfold tok, usable, tcp_close, tcp_select. cbn [fst]. repeat (split; [solve [exact I|apply quiet_serve; auto]|]).
  apply (core_bal _ s). apply still_core; [exact I|auto].
Qed.
Lemma wp_fromlocal : forall t s, tinv t s -> open (localin s) = true -> open (remoteout s) = true -> fill (inb s) < 8192 -> (forall b a, tcp_serve ri ro t (Read 0 b, a)) ->
  wp tok t (tcp_fromlocal timeout s) next.
Proof.
  intros t s V O O2 F S. destruct nd as (N1 & N2 & N3 & N4 & N5 & N6 & N7 & N8 & N9). destruct V as [K V1 V2 V3 V4 VE]. destruct (openT _ _ _ _ V1 ltac:(lia) O) as [E NC]. destruct (openT _ _ _ _ V4 ltac:(lia) O2) as [E2 NC2].
  unfold tcp_fromlocal. rewrite E. destruct K as [A B X Y]. pose proof A as [A1 A2]. pose proof (content_len _ _ A) as CL.
  assert (U : u64 (BUFFER - fill (inb s)) = 8192 - fill (inb s)) by (unfold u64, two64, BUFFER; apply Z.mod_small; lia). rewrite U. set (n := 8192 - fill (inb s)).
  eapply wp_bind with (M := fun t' x => exists a, t' = t ++ [(Read 0 n, a)] /\ x = (ret a, err a, data a) /\ sys_ok (Read 0 n, a)).
  - apply wp_read; [unfold CHUNK; lia|lia|]. intros a SO. split; [|eauto]. unfold tok, usable, tcp_close, tcp_select. cbn [fst].
    split. { intros _. split; [lia|]. exists (content (inb s)). split; [exact X|lia]. }
    split; [intros Z0; lia|]. split; [exact NC|]. split; [exact I|]. split; [exact I|]. split; [apply S|].
    split.
    + exists (content (inb s) ++ data a). rewrite got_this, sent_read, !app_assoc, X. split; [auto|]. rewrite len_app, CL. cbn [sys_ok] in SO.
      destruct SO as [[_ Z0]|(Z1 & Z0 & _)]; [rewrite Z0, len_nil; lia|lia].
    + exists (content (outb s)). cbn [app]. rewrite got_other, sent_read by lia. split; [exact Y|]. rewrite (content_len _ _ B). unfold bufok in B. lia.
  - intros t' x (a & -> & -> & SO).
    assert (VS : forall v f (W W' : Prop), (W -> W') -> var t v f W -> var (t ++ [(Read 0 n, a)]) v f W') by (intros v f W W' IW; apply var_snoc; [discriminate|auto]).
    assert (V4' : forall W, var (t ++ [(Read 0 n, a)]) (remoteout s) ro W). { intros W. left. split; auto. rewrite closed_app, closed_one. intros [Z0|Z0]; [auto|discriminate]. }
    destruct (again (ret a) (err a)) eqn:AG; [|destruct (Z.leb_spec (ret a) 0) as [L|L]].
    + pose proof AG as AG'. apply again_ret in AG. assert (L : ret a <= 0) by lia. assert (K : core t s) by (split; auto). apply (nothing_core t s (Read 0 n) a I SO L) in K.
      apply wp_ret. split; [|apply quiet_snoc; exact I]. split; [exact K| | | |auto|apply ends_again; auto]; (eapply VS; [|eassumption]); auto using eof_app.
      rewrite got_other, sent_read by lia. intros []; auto using eof_app.
    + assert (K : core t s) by (split; auto). apply (nothing_core t s (Read 0 n) a I SO L) in K. pose proof (eof_now 0 t n a L AG) as BR.
      assert (Q : quiet (t ++ [(Read 0 n, a)])) by (apply quiet_snoc; exact I).
      eapply wp_bind.
      * apply wp_shut_r; [lia|]. intros _ a1 b1. destruct (tok_shut (t ++ [(Read 0 n, a)]) s 0 0 a1 b1 K Q) as [T1 T2]; [|auto 10|].
        { rewrite closed_app, closed_one. intros [Z0|Z0]; [auto|discriminate]. }
        split; [exact T1|]. split; [exact T2|].
        instantiate (1 := fun t' v => v = -1 /\ exists a1 b1, t' = (t ++ [(Read 0 n, a)]) ++ [(Shutdown 0 0, a1); (Close 0, b1)]). cbn. eauto.
      * cbn beta. intros t' v (-> & a1 & b1 & ->). apply wp_ret. split; [|apply shut_quiet]. split; cbn [localin localout remotein remoteout inb outb].
        -- destruct (shut_core _ _ 0 0 a1 b1 K) as [Z1 Z2 Z3 Z4]. split; auto.
        -- apply shut_this. apply eof_app. exact BR.
        -- eapply shut_var; [lia| |eapply VS; [|exact V2]]; [apply eof_app|apply eof_app].
        -- eapply shut_var; [lia| |eapply VS; [intros W; exact W|exact V3]]. rewrite shut_got, shut_sent, got_other, sent_read by lia. intros []. auto using eof_app.
        -- eapply shut_var; [lia|intros W; exact W|apply V4'].
        -- apply ends_shut. exact VE.
    + cbn [sys_ok] in SO. destruct SO as [[Z0 _]|(Z1 & Z0 & _)]; [lia|].
      destruct (append_ok 8192 (inb s) (ret a) (data a) A ltac:(unfold CHUNK; lia) ltac:(lia) ltac:(lia)) as (E3 & E4).
      set (s' := mktcp 0 (localout s) (remotein s) (remoteout s) (append (inb s) (ret a) (data a)) (outb s)).
      assert (K : core (t ++ [(Read 0 n, a)]) s').
      { split; cbn [s' inb outb]; auto; rewrite ?sent_read; [rewrite got_this, E4, !app_assoc, X; auto|rewrite got_other by lia; exact Y]. }
      assert (Q : quiet (t ++ [(Read 0 n, a)])) by (apply quiet_snoc; exact I).
      eapply wp_bind with (M := fun t' _ => exists a', t' = (t ++ [(Read 0 n, a)]) ++ [(Other (bs "alarm") [timeout] [], a')]); [apply wp_alarm; intros a'; split; [apply (tok_alarm _ s'); auto|eauto]|].
      cbn beta. intros t' _ (a' & ->). apply wp_ret. split; [|apply quiet_snoc; exact I]. apply still_tinv; [exact I|discriminate|]. split; cbn [localin localout remotein remoteout inb outb]; auto.
      * left. split; auto. rewrite closed_app, closed_one. intros [W|W]; [auto|discriminate].
      * eapply VS; [|exact V2]. apply eof_app.
      * eapply VS; [|exact V3]. rewrite got_other, sent_read by lia. intros []. auto using eof_app.
      * apply ends_data; auto.
Qed.
Lemma wp_fromremote : forall t s, tinv t s -> open (remotein s) = true -> open (localout s) = true -> fill (outb s) < 8192 -> (forall b a, tcp_serve ri ro t (Read ri b, a)) ->
  wp tok t (tcp_fromremote timeout s) next.
Proof.
  intros t s V O O2 F S. destruct nd as (N1 & N2 & N3 & N4 & N5 & N6 & N7 & N8 & N9). destruct V as [K V1 V2 V3 V4 VE]. destruct (openT _ _ _ _ V2 ltac:(lia) O) as [E NC]. destruct (openT _ _ _ _ V3 ltac:(lia) O2) as [E2 NC2].
  unfold tcp_fromremote. rewrite E. destruct K as [A B X Y]. pose proof B as [A1 A2]. pose proof (content_len _ _ B) as CL.
  assert (U : u64 (BUFFER - fill (outb s)) = 8192 - fill (outb s)) by (unfold u64, two64, BUFFER; apply Z.mod_small; lia). rewrite U. set (n := 8192 - fill (outb s)).
  eapply wp_bind with (M := fun t' x => exists a, t' = t ++ [(Read ri n, a)] /\ x = (ret a, err a, data a) /\ sys_ok (Read ri n, a)).
  - apply wp_read; [unfold CHUNK; lia|lia|]. intros a SO. split; [|eauto]. unfold tok, usable, tcp_close, tcp_select. cbn [fst].
    split; [intros Z0; lia|].
    split. { intros _. split; [lia|]. exists (content (outb s)). split; [exact Y|lia]. }
    split; [exact NC|]. split; [exact I|]. split; [exact I|]. split; [apply S|].
    split.
    + exists (content (inb s)). rewrite got_other, sent_read by lia. split; [exact X|]. rewrite (content_len _ _ A). unfold bufok in A. lia.
    + exists (content (outb s) ++ data a). cbn [app]. rewrite got_this, sent_read, !app_assoc, Y. split; [auto|]. rewrite len_app, CL. cbn [sys_ok] in SO.
      destruct SO as [[_ Z0]|(Z1 & Z0 & _)]; [rewrite Z0, len_nil; lia|lia].
  - intros t' x (a & -> & -> & SO).
    assert (VS : forall v f (W W' : Prop), (W -> W') -> var t v f W -> var (t ++ [(Read ri n, a)]) v f W') by (intros v f W W' IW; apply var_snoc; [discriminate|auto]).
    assert (V3' : forall W, var (t ++ [(Read ri n, a)]) (localout s) 1 W). { intros W. left. split; auto. rewrite closed_app, closed_one. intros [Z0|Z0]; [auto|discriminate]. }
    destruct (again (ret a) (err a)) eqn:AG; [|destruct (Z.leb_spec (ret a) 0) as [L|L]].
    + pose proof AG as AG'. apply again_ret in AG. assert (L : ret a <= 0) by lia. assert (K : core t s) by (split; auto). apply (nothing_core t s (Read ri n) a I SO L) in K.
      apply wp_ret. split; [|apply quiet_snoc; exact I]. split; [exact K| | |auto| |apply ends_again; auto]; (eapply VS; [|eassumption]); auto using eof_app.
      rewrite got_other, sent_read by lia. intros []; auto using eof_app.
    + assert (K : core t s) by (split; auto). apply (nothing_core t s (Read ri n) a I SO L) in K. pose proof (eof_now ri t n a L AG) as BR.
      assert (Q : quiet (t ++ [(Read ri n, a)])) by (apply quiet_snoc; exact I).
      eapply wp_bind.
      * apply wp_shut_r; [lia|]. intros _ a1 b1. destruct (tok_shut (t ++ [(Read ri n, a)]) s 0 ri a1 b1 K Q) as [T1 T2]; [|auto 10|].
        { rewrite closed_app, closed_one. intros [Z0|Z0]; [auto|discriminate]. }
        split; [exact T1|]. split; [exact T2|].
        instantiate (1 := fun t' v => v = -1 /\ exists a1 b1, t' = (t ++ [(Read ri n, a)]) ++ [(Shutdown ri 0, a1); (Close ri, b1)]). cbn. eauto.
      * cbn beta. intros t' v (-> & a1 & b1 & ->). apply wp_ret. split; [|apply shut_quiet]. split; cbn [localin localout remotein remoteout inb outb].
        -- destruct (shut_core _ _ ri 0 a1 b1 K) as [Z1 Z2 Z3 Z4]. split; auto.
        -- eapply shut_var; [lia| |eapply VS; [|exact V1]]; [apply eof_app|apply eof_app].
        -- apply shut_this. apply eof_app. exact BR.
        -- eapply shut_var; [lia|intros W; exact W|apply V3'].
        -- eapply shut_var; [lia| |eapply VS; [intros W; exact W|exact V4]]. rewrite shut_got, shut_sent, got_other, sent_read by lia. intros []. auto using eof_app.
        -- apply ends_shut. exact VE.
    + cbn [sys_ok] in SO. destruct SO as [[Z0 _]|(Z1 & Z0 & _)]; [lia|].
      destruct (append_ok 8192 (outb s) (ret a) (data a) B ltac:(unfold CHUNK; lia) ltac:(lia) ltac:(lia)) as (E3 & E4).
      set (s' := mktcp (localin s) (localout s) ri (remoteout s) (inb s) (append (outb s) (ret a) (data a))).
      assert (K : core (t ++ [(Read ri n, a)]) s').
      { split; cbn [s' inb outb]; auto; rewrite ?sent_read; [rewrite got_other by lia; exact X|rewrite got_this, E4, !app_assoc, Y; auto]. }
      assert (Q : quiet (t ++ [(Read ri n, a)])) by (apply quiet_snoc; exact I).
      eapply wp_bind with (M := fun t' _ => exists a', t' = (t ++ [(Read ri n, a)]) ++ [(Other (bs "alarm") [timeout] [], a')]); [apply wp_alarm; intros a'; split; [apply (tok_alarm _ s'); auto|eauto]|].
      cbn beta. intros t' _ (a' & ->). apply wp_ret. split; [|apply quiet_snoc; exact I]. apply still_tinv; [exact I|discriminate|]. split; cbn [localin localout remotein remoteout inb outb]; auto.
      * eapply VS; [|exact V1]. apply eof_app.
      * left. split; auto. rewrite closed_app, closed_one. intros [W|W]; [auto|discriminate].
      * eapply VS; [|exact V4]. rewrite got_other, sent_read by lia. intros []. auto using eof_app.
      * apply ends_data; auto.
Qed.

Lemma wready_in : forall a c f, wready a (c, f, POLLIN) = true <-> c = true /\ 0 < ret a /\ In f (data a).
Proof. intros a c f. unfold wready. change (POLLIN =? POLLIN) with true. cbv iota. rewrite !andb_true_iff, Z.ltb_lt. destruct (in_dec Z.eq_dec f (data a)); [tauto|]. split; [intros []; discriminate|tauto]. Qed.
Lemma wready_out : forall a c f, wready a (c, f, POLLOUT) = true <-> c = true /\ 0 < ret a /\ In (-1 - f) (data a).
Proof. intros a c f. unfold wready. change (POLLOUT =? POLLIN) with false. cbv iota. rewrite !andb_true_iff, Z.ltb_lt. destruct (in_dec Z.eq_dec (-1 - f) (data a)); [tauto|]. split; [intros []; discriminate|tauto]. Qed.

Lemma wp_body : forall t s, tinv t s -> quiet t -> wp tok t (tcp_body timeout self s) next.
Proof.
  intros t s V Q. destruct nd as (N1 & N2 & N3 & N4 & N5 & N6 & N7 & N8 & N9). unfold tcp_body. eapply wp_bind; [apply wp_eof; auto|]. clear t s V Q. cbn beta. intros t s (V & Q & PA).
  pose proof V as [K V1 V2 V3 V4 VE]. destruct (tcp_done s) eqn:D.
  { unfold tcp_done in D. rewrite !andb_true_iff, !negb_true_iff, !Z.eqb_eq in D. destruct D as [[[[[D1 D2] D3] D4] D5] D6]. apply wp_ret.
    destruct (openF _ _ _ _ V1 ltac:(lia) D1) as (_ & _ & L1). destruct (openF _ _ _ _ V2 ltac:(lia) D2) as (_ & _ & L2). destruct (neq _ _ K) as [M1 M2].
    split; auto. split; [eapply var_weak; [|exact V2]; auto|]. split; [eapply var_weak; [|exact V4]; auto|]. split; auto. left. tauto. }
  set (c0 := open (localin s) && open (remoteout s) && (fill (inb s) <? BUFFER)).
  set (c1 := open (localout s) && (0 <? fill (outb s))).
  set (cto := open (remoteout s) && ((0 <? fill (inb s)) || negb (open (localin s)))).
  set (cfr := open (remotein s) && open (localout s) && (fill (outb s) <? BUFFER)).
  assert (Q0 : 0 <= 0) by lia. assert (Q1 : 0 <= 1) by lia. assert (Q2 : 0 <= ri) by lia. assert (Q4 : 0 <= ro) by lia.
  destruct (neq _ _ K) as [M1 M2]. pose proof (k_in _ _ K) as [KI1 KI2]. pose proof (k_out _ _ K) as [KO1 KO2].
  assert (C0 : c0 = true <-> ~ closed 0 t /\ ~ closed ro t /\ exists p, h ++ got 0 t = sent ro t ++ p /\ len p < 8192).
  { unfold c0. rewrite !andb_true_iff, (open_iff _ _ _ _ V1 Q0), (open_iff _ _ _ _ V4 Q4). unfold BUFFER. rewrite Z.ltb_lt. rewrite <- (content_len _ _ (k_in _ _ K)). split.
    - intros [[A B] C]. repeat split; auto. exists (content (inb s)). split; auto. apply (k_ins _ _ K).
    - intros (A & B & p & P1 & P2). repeat split; auto. rewrite (k_ins _ _ K) in P1. apply app_inv_head in P1. rewrite P1. auto. }
  assert (CF : cfr = true <-> ~ closed ri t /\ ~ closed 1 t /\ exists p, got ri t = sent 1 t ++ p /\ len p < 8192).
  { unfold cfr. rewrite !andb_true_iff, (open_iff _ _ _ _ V2 Q2), (open_iff _ _ _ _ V3 Q1). unfold BUFFER. rewrite Z.ltb_lt. rewrite <- (content_len _ _ (k_out _ _ K)). split.
    - intros [[A B] C]. repeat split; auto. exists (content (outb s)). split; auto. apply (k_outs _ _ K).
    - intros (A & B & p & P1 & P2). repeat split; auto. rewrite (k_outs _ _ K) in P1. apply app_inv_head in P1. rewrite P1. auto. }
  assert (CT : cto = true <-> ~ closed ro t /\ h ++ got 0 t <> sent ro t).
  { unfold cto. rewrite andb_true_iff, orb_true_iff, negb_true_iff, Z.ltb_lt, <- M1, <- (open_iff _ _ _ _ V4) by exact Q4. destruct PA as [PA PA2]. clear - PA KI2. destruct (open (localin s)); intuition (try discriminate; try lia). }
  assert (C1 : c1 = true <-> ~ closed 1 t /\ got ri t <> sent 1 t).
  { unfold c1. rewrite andb_true_iff, Z.ltb_lt, <- M2, <- (open_iff _ _ _ _ V3) by exact Q1. clear - KO2. intuition lia. }
  assert (D0 : c0 = true -> localin s = 0) by (intros C; unfold c0 in C; rewrite !andb_true_iff in C; apply (openT _ _ _ _ V1 Q0); tauto).
  assert (D1 : c1 = true -> localout s = 1) by (intros C; unfold c1 in C; rewrite !andb_true_iff in C; apply (openT _ _ _ _ V3 Q1); tauto).
  assert (D2 : cto = true -> remoteout s = ro) by (intros C; unfold cto in C; rewrite !andb_true_iff in C; apply (openT _ _ _ _ V4 Q4); tauto).
  assert (D3 : cfr = true -> remotein s = ri) by (intros C; unfold cfr in C; rewrite !andb_true_iff in C; apply (openT _ _ _ _ V2 Q2); tauto).
  eapply wp_bind with (M := fun t' x => exists n rd wr a, t' = t ++ [(Select n rd wr None, a)] /\ x = map (wready a) (tcp_watch self s) /\
    (In 0 rd <-> c0 = true) /\ (In ri rd <-> cfr = true) /\ (In ro wr <-> cto = true) /\ (In 1 wr <-> c1 = true)).
  - apply wp_watch.
    { unfold tcp_watch. fold c0 c1 cto cfr. repeat apply Forall_cons; [..|apply Forall_nil]; intros C.
      - rewrite (D0 C). auto using Z.lt_0_1 with zarith.
      - rewrite (D1 C). auto with zarith.
      - rewrite (D2 C). split; [apply FD|auto].
      - rewrite (D3 C). split; [apply FD|auto].
      - split; [apply FD|auto]. }
    intros n rd wr a RD WR. unfold tcp_watch in RD, WR. fold c0 c1 cto cfr in RD, WR.
    assert (R0 : In 0 rd <-> c0 = true).
    { rewrite RD. cbn [In]. split; [intros [E|[E|[E|[E|[E|[]]]]]]; try discriminate E; injection E; intros; try assumption; [rewrite D3 in * by assumption; congruence|congruence]|].
      intros C. left. rewrite C, D0; auto. }
    assert (R1 : In ri rd <-> cfr = true).
    { rewrite RD. cbn [In]. split; [intros [E|[E|[E|[E|[E|[]]]]]]; try discriminate E; injection E; intros; try assumption; [rewrite D0 in * by assumption; congruence|congruence]|].
      intros C. right. right. right. left. rewrite C, D3; auto. }
    assert (W0 : In ro wr <-> cto = true).
    { rewrite WR. cbn [In]. split; [intros [E|[E|[E|[E|[E|[]]]]]]; try discriminate E; injection E; intros; try assumption; rewrite D1 in * by assumption; congruence|].
      intros C. right. right. left. rewrite C, D2; auto. }
    assert (W1 : In 1 wr <-> c1 = true).
    { rewrite WR. cbn [In]. split; [intros [E|[E|[E|[E|[E|[]]]]]]; try discriminate E; injection E; intros; try assumption; rewrite D2 in * by assumption; congruence|].
      intros C. right. left. rewrite C, D1; auto. }
    split; [|exists n, rd, wr, a; auto 10].
    unfold tok, usable, tcp_close. cbn [fst]. split; [exact I|]. split; [exact I|]. split; [exact I|]. split; [exact I|]. split; [|split; [apply quiet_serve; auto|apply (core_bal _ s); apply still_core; [exact I|auto]]].
    unfold tcp_select. cbn [fst]. rewrite R0, R1, W0, W1, C0, CF, CT, C1. split; auto. split; [|split; [tauto|split; [tauto|split; [tauto|split; [tauto|split; intros EF DL]]]]].
    + rewrite RD. cbn [In]. auto 10.
    + apply M1 in DL. apply (proj1 VE) in EF. destruct PA as [PA _]. destruct (open (remoteout s)) eqn:OR; [|apply (openF _ _ _ _ V4 Q4 OR)]. destruct (open (localin s)) eqn:OL; [|specialize (PA eq_refl eq_refl); lia]. apply (open_iff _ _ _ _ V1 Q0) in OL. contradiction.
    + apply M2 in DL. apply (proj2 VE) in EF. destruct PA as [_ PA]. destruct (open (localout s)) eqn:OR; [|apply (openF _ _ _ _ V3 Q1 OR)]. destruct (open (remotein s)) eqn:OL; [|specialize (PA eq_refl eq_refl); lia]. apply (open_iff _ _ _ _ V2 Q2) in OL. contradiction.
  - intros t' x (n & rd & wr & a & -> & -> & R0 & R1 & W0 & W1). unfold tcp_watch. fold c0 c1 cto cfr. cbn [map].
    pose proof (still_tinv t s (Select n rd wr None) a I ltac:(discriminate) V) as V'.
    assert (SV : forall t0 n' rd' wr' us' a', t ++ [(Select n rd wr None, a)] = t0 ++ [(Select n' rd' wr' us', a')] -> n = n' /\ rd = rd' /\ wr = wr' /\ a = a') by (intros t0 n' rd' wr' us' a' E; apply app_inj_tail in E as [_ E]; injection E; auto).
    destruct (wready a (cto, remoteout s, POLLOUT)) eqn:RT.
    { apply wready_out in RT as (RT & P & RI). rewrite (D2 RT) in RI. assert (OP : open (remoteout s) = true /\ 0 < fill (inb s)).
      { apply CT in RT. rewrite <- M1 in RT. split; [apply (open_iff _ _ _ _ V4 Q4); tauto|lia]. }
      apply wp_toremote; try tauto. intros b a2 t0 n' rd' wr' us' a' E P'. apply SV in E as (-> & -> & -> & ->). cbv zeta. cbn [fst]. split; eauto. tauto. }
    destruct (wready a (c1, localout s, POLLOUT)) eqn:R1'.
    { apply wready_out in R1' as (RT1 & P & RI). rewrite (D1 RT1) in RI. assert (OP : open (localout s) = true /\ 0 < fill (outb s)).
      { apply C1 in RT1. rewrite <- M2 in RT1. split; [apply (open_iff _ _ _ _ V3 Q1); tauto|lia]. }
      apply wp_tolocal; try tauto. intros b a2 t0 n' rd' wr' us' a' E P'. apply SV in E as (-> & -> & -> & ->). cbv zeta. cbn [fst].
      assert (NW : ~ (In ro wr' /\ In (-1 - ro) (data a'))). { rewrite W0. intros [A B]. rewrite <- (D2 A) in B. rewrite (proj2 (wready_out a' cto (remoteout s))) in RT by auto. discriminate. }
      split; [tauto|]. split; [eauto|]. tauto. }
    destruct (wready a (c0, localin s, POLLIN)) eqn:R0'.
    { apply wready_in in R0' as (RT1 & P & RI). rewrite (D0 RT1) in RI. pose proof RT1 as OP. unfold c0 in OP. rewrite !andb_true_iff, Z.ltb_lt in OP.
      apply wp_fromlocal; try tauto. intros b a2 t0 n' rd' wr' us' a' E P'. apply SV in E as (-> & -> & -> & ->). cbv zeta. cbn [fst].
      assert (NW : ~ (In ro wr' /\ In (-1 - ro) (data a'))). { rewrite W0. intros [A B]. rewrite <- (D2 A) in B. rewrite (proj2 (wready_out a' cto (remoteout s))) in RT by auto. discriminate. }
      assert (NW1 : ~ (In 1 wr' /\ In (-1 - 1) (data a'))). { rewrite W1. intros [A B]. rewrite (proj2 (wready_out a' c1 (localout s))) in R1' by (rewrite (D1 A); auto). discriminate. }
      split; [tauto|]. split; [tauto|]. split; [eauto|]. tauto. }
    destruct (wready a (cfr, remotein s, POLLIN)) eqn:R2'.
    { apply wready_in in R2' as (RT1 & P & RI). rewrite (D3 RT1) in RI. pose proof RT1 as OP. unfold cfr in OP. rewrite !andb_true_iff, Z.ltb_lt in OP.
      apply wp_fromremote; try tauto. intros b a2 t0 n' rd' wr' us' a' E P'. apply SV in E as (-> & -> & -> & ->). cbv zeta. cbn [fst].
      assert (NW : ~ (In ro wr' /\ In (-1 - ro) (data a'))). { rewrite W0. intros [A B]. rewrite <- (D2 A) in B. rewrite (proj2 (wready_out a' cto (remoteout s))) in RT by auto. discriminate. }
      assert (NW1 : ~ (In 1 wr' /\ In (-1 - 1) (data a'))). { rewrite W1. intros [A B]. rewrite (proj2 (wready_out a' c1 (localout s))) in R1' by (rewrite (D1 A); auto). discriminate. }
      assert (NR : ~ (In 0 rd' /\ In 0 (data a'))). { rewrite R0. intros [A B]. rewrite <- (D0 A) in B. rewrite (proj2 (wready_in a' c0 (localin s))) in R0' by auto. discriminate. }
      split; [tauto|]. split; [tauto|]. split; [tauto|]. eauto. }
    assert (QT : quiet (t ++ [(Select n rd wr None, a)])).
    { intros t0 n' rd' wr' us' a' E P'. apply SV in E as (-> & -> & -> & ->).
      split. { rewrite W0. intros [A B]. rewrite <- (D2 A) in B. rewrite (proj2 (wready_out a' cto (remoteout s))) in RT by auto. discriminate. }
      split. { rewrite W1. intros [A B]. rewrite (proj2 (wready_out a' c1 (localout s))) in R1' by (rewrite (D1 A); auto). discriminate. }
      split. { rewrite R0. intros [A B]. rewrite <- (D0 A) in B. rewrite (proj2 (wready_in a' c0 (localin s))) in R0' by auto. discriminate. }
      rewrite R1. intros [A B]. rewrite <- (D3 A) in B. rewrite (proj2 (wready_in a' cfr (remotein s))) in R2' by auto. discriminate. }
    destruct (wready a (true, self, POLLIN)) eqn:RS.
    + apply wready_in in RS as (_ & P & RI). apply wp_ret. destruct V' as [K' V1' V2' V3' V4' VE']. split; auto. split; [eapply var_weak; [|exact V2']; auto|]. split; [eapply var_weak; [|exact V4']; auto|]. split; auto.
      right. right. right. exists n, rd, wr, None, a. split; [apply in_or_app; right; left; auto|auto].
    + apply wp_ret. split; auto.
Qed.

Lemma wp_relay : forall fuel, wp tok [] (tcp_relay timeout self fuel ri ro h)
  (fun t r => r = 0 /\ finished t /\ closed ri t /\ closed ro t).
Proof.
  intros fuel. destruct nd as (N1 & N2 & N3 & N4 & N5 & N6 & N7 & N8 & N9). unfold tcp_relay. apply wp_bind with (M := tend).
  - apply wp_iter with (I := fun t s => tinv t s /\ quiet t).
    + intros t s [V Q]. eapply wp_conseq; [apply wp_body; auto|]. intros t1 [s1|s1] N; exact N.
    + assert (BE : bufok 8192 empty) by (split; [reflexivity|cbn; lia]). split; [|intros t0 n rd wr us a E; destruct t0; discriminate].
      destruct (append_ok 8192 empty (len h) h BE ltac:(unfold CHUNK; lia) eq_refl ltac:(cbn [empty fill]; lia)) as [A B].
      split; cbn [localin localout remotein remoteout inb outb]; try (left; split; [reflexivity|intros (a & [])]).
      * split; cbn [inb outb]; auto. cbn [got sent]. rewrite B, app_nil_r. reflexivity.
      * split; intros (n & a & [] & _).
  - intros t s (K & V2 & V4 & F & Q).
    assert (WHY : forall f : Z, (f = ri \/ f = ro) -> forall t, finished t -> core t s ->
      (f = 0 /\ eof 0 t) \/ (f = 1 /\ (broken 1 t \/ (eof ri t /\ got ri t = sent 1 t))) \/
      (f = ri /\ (eof ri t \/ broken 1 t \/ broken ro t \/ reported self t)) \/
      (f = ro /\ (broken ro t \/ (eof 0 t /\ h ++ got 0 t = sent ro t) \/ broken 1 t \/ reported self t))).
    { intros f [-> | ->] t1 [(A & B & C & D)|[A|[A|A]]] _; right; right; [left|left|left|left|right|right|right|right]; (split; [auto|]); auto. }
    apply wp_bind with (M := fun t _ => core t s /\ var t (remoteout s) ro True /\ finished t /\ quiet t /\ closed ri t).
    + apply wp_shut_r.
      * intros E. repeat (split; auto). destruct V2 as [[A B]|(A & B & _)]; auto. lia.
      * intros E a b. destruct V2 as [[A B]|(A & B & _)]; [|lia]. rewrite A. destruct (tok_shut t s 0 ri a b K Q B (WHY ri ltac:(auto) t F K)) as [T1 T2]. split; auto. split; auto.
        split; [apply shut_core; auto|]. split; [eapply shut_var; [lia| |exact V4]; auto|]. split; [apply shut_fin; auto|]. split; [apply shut_quiet|].
        exists b. apply in_or_app. right. right. left. auto.
    + clear t K V2 V4 F Q. intros t _ (K & V4 & F & Q & C). apply wp_bind with (M := fun t _ => finished t /\ closed ri t /\ closed ro t).
      * apply wp_shut_w.
        -- intros E. repeat (split; auto). destruct V4 as [[A B]|(A & B & _)]; auto. lia.
        -- intros E a b. destruct V4 as [[A B]|(A & B & _)]; [|lia]. rewrite A. destruct (tok_shut t s 1 ro a b K Q B (WHY ro ltac:(auto) t F K)) as [T1 T2]. split; auto. split; auto.
           split; [apply shut_fin; auto|]. split; [apply closed_app; auto|]. exists b. apply in_or_app. right. right. left. auto.
      * intros t1 _ (F1 & C1 & C2). apply wp_ret. auto.
Qed.
End Tcp.
