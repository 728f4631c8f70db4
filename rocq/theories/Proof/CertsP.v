(** Lemmas for C88 and C89. *)
From Verif.Model Require Import Base Sys Io Str Buffer Stralloc Applet Keyjail Certs.
From Verif.Spec Require Import Text Pemobj.
From Verif.Proof Require Import Tac SysP StrP BufferP StrallocP CallsP SafeP.

(** ** Triples with safety *)

Definition sq {R} (A OK : trace -> event -> Prop) (h : trace) (p : prog R) (Q : trace -> R -> Prop) : Prop :=
  forall tr o, runs p tr o -> holds A h tr -> o <> Wrong /\ holds OK h tr /\ (forall r, o = Fin r -> Q (h ++ tr) r).

Lemma sq_ret : forall R A OK h (r : R) (Q : trace -> R -> Prop), Q h r -> sq A OK h (Ret r) Q.
Proof. intros R A OK h r Q H tr o [-> ->] _. split; [discriminate|]. split; [apply holds_nil|]. intros x E. injection E as <-. rewrite app_nil_r. auto. Qed.
Lemma sq_halt : forall R A OK h (Q : trace -> R -> Prop), sq A OK h Halt Q.
Proof. intros R A OK h Q tr o [-> ->] _. split; [discriminate|]. split; [apply holds_nil|]. discriminate. Qed.
Lemma sq_do : forall R (A OK : trace -> event -> Prop) h c (k : ans -> prog R) Q,
  (forall a, A h (c, a) -> OK h (c, a) /\ sq A OK (h ++ [(c, a)]) (k a) Q) -> sq A OK h (Do c k) Q.
Proof.
  intros R A OK h c k Q H tr o RU L. destruct RU as [[-> ->]|(a & t & -> & RU)]; [split; [discriminate|]; split; [apply holds_nil|discriminate]|].
  apply holds_cons in L as [L1 L2]. destruct (H a L1) as [O B]. destruct (B t o RU L2) as (W & O2 & F). split; auto. split; [apply holds_cons; auto|].
  intros r E. specialize (F r E). rewrite <- app_assoc in F. exact F.
Qed.
Lemma sq_bind : forall S R A OK h (p : prog S) (f : S -> prog R) (M : trace -> S -> Prop) Q,
  sq A OK h p M -> (forall t a, M t a -> sq A OK t (f a) Q) -> sq A OK h (pbind p f) Q.
Proof.
  intros S R A OK h p f M Q P F tr o RU L. apply runs_bind in RU as [(a & t1 & t2 & -> & R1 & R2)|[[R1 ->]|[R1 ->]]].
  - apply holds_app in L as [L1 L2]. destruct (P _ _ R1 L1) as (_ & O1 & Q1). destruct (F _ _ (Q1 a eq_refl) _ _ R2 L2) as (W & O2 & Q2).
    split; auto. split; [apply holds_app; auto|]. intros r E. specialize (Q2 r E). rewrite <- app_assoc in Q2. auto.
  - destruct (P _ _ R1 L) as (W & _). congruence.
  - destruct (P _ _ R1 L) as (_ & O1 & _). split; [discriminate|]. split; auto. discriminate.
Qed.
Lemma sq_conseq : forall R A OK h (p : prog R) (Q Q' : trace -> R -> Prop), sq A OK h p Q -> (forall t r, Q t r -> Q' t r) -> sq A OK h p Q'.
Proof. intros R A OK h p Q Q' P H tr o RU L. destruct (P _ _ RU L) as (W & O & F). auto. Qed.
Lemma sq_sys1 : forall (A OK : trace -> event -> Prop) h c Q, (forall a, A h (c, a) -> OK h (c, a) /\ Q (h ++ [(c, a)]) a) -> sq A OK h (sys1 c) Q.
Proof. intros A OK h c Q H. apply sq_do. intros a L. destruct (H a L). split; auto. apply sq_ret. auto. Qed.
Lemma sq_lift : forall R A OK h (x : res R) r (Q : trace -> R -> Prop), x = Ok r -> Q h r -> sq A OK h (lift x) Q.
Proof. intros R A OK h x r Q -> H. apply sq_ret. auto. Qed.

Lemma sq_push : forall (S : Type) (A OK : trace -> event -> Prop) (c : sys) (cb : S -> list Z -> prog S) (I : trace -> S -> Prop) (Q : trace -> Z * S -> Prop),
  (forall h s a, I h s -> ret a = -1 -> A h (c, a) -> OK h (c, a) /\ sq A OK (h ++ [(c, a)]) (cb s (data a)) I) ->
  (forall h s a, I h s -> ret a <> -1 -> A h (c, a) -> OK h (c, a) /\ Q (h ++ [(c, a)]) (ret a, s)) ->
  forall fuel h s, I h s -> sq A OK h (push fuel c cb s) Q.
Proof.
  intros S A OK c cb I Q H1 H2. induction fuel as [|f IH]; intros h s Hs; cbn [push]; [apply sq_halt|].
  apply sq_do. intros a Ha. destruct (Z.eqb_spec (ret a) (-1)) as [E|E].
  - destruct (H1 _ _ _ Hs E Ha) as [O B]. split; auto. eapply sq_bind; [exact B|]. intros t s' Ht. apply IH. auto.
  - destruct (H2 _ _ _ Hs E Ha) as [O B]. split; auto. apply sq_ret. auto.
Qed.

(** ** Names *)

Lemma str_equal_ok : forall n m, nonul n -> nonul m ->
  str_equal (n ++ [0]) (m ++ [0]) = Ok (if list_eq_dec Z.eq_dec n m then true else false).
Proof.
  intros n m N M. unfold str_equal. destruct (str_diff_ok n m [] [] N M) as (d & -> & F). cbn [bind]. f_equal.
  apply firstdiff_zero in F. destruct (list_eq_dec Z.eq_dec n m) as [E|E].
  - apply Z.eqb_eq. apply F. rewrite E. reflexivity.
  - apply Z.eqb_neq. intro X. apply F in X. apply app_inv_tail in X. auto.
Qed.

Lemma sq_one_of : forall A OK names h n (Q : trace -> bool -> Prop), nonul n -> Forall nonul names ->
  Q h (among names n) -> sq A OK h (one_of names n) Q.
Proof.
  intros A OK names h n Q N F. revert Q. induction F as [|m names M F IH]; intros Q H; cbn [one_of].
  - apply sq_ret. exact H.
  - eapply sq_bind with (M := fun t e => t = h /\ e = if list_eq_dec Z.eq_dec n m then true else false).
    { eapply sq_lift; [apply str_equal_ok; auto|auto]. }
    cbn beta. intros t e [-> ->]. unfold among in *. destruct (list_eq_dec Z.eq_dec n m) as [E|E].
    + apply sq_ret. destruct (in_dec (list_eq_dec Z.eq_dec) n (m :: names)) as [_|X]; auto. elim X. left. auto.
    + apply IH. destruct (in_dec (list_eq_dec Z.eq_dec) n (m :: names)) as [X|X], (in_dec (list_eq_dec Z.eq_dec) n names) as [Y|Y]; auto.
      * destruct X; [congruence|contradiction].
      * elim X. right. auto.
Qed.

Lemma among_in : forall names n, among names n = true <-> In n names.
Proof. intros names n. unfold among. destruct (in_dec (list_eq_dec Z.eq_dec) n names); split; auto; discriminate. Qed.

(** ** Reports *)

Lemma said_app : forall a b, said (a ++ b) = said a ++ said b.
Proof. intros. unfold said. rewrite map_app, concat_app. reflexivity. Qed.
Lemma took_app : forall a b, took (a ++ b) = took a + took b.
Proof. induction a as [|e a IH]; intros b; [reflexivity|]. change (took ((e :: a) ++ b)) with (took1 e + took (a ++ b)). rewrite IH. change (took (e :: a)) with (took1 e + took a). lia. Qed.
Lemma given_app : forall a b, given (a ++ b) = given a + given b.
Proof. induction a as [|e a IH]; intros b; [reflexivity|]. change (given ((e :: a) ++ b)) with (given1 e + given (a ++ b)). rewrite IH. change (given (e :: a)) with (given1 e + given a). lia. Qed.
Lemma given1_nonneg : forall e, 0 <= given1 e.
Proof. intros [c a]. unfold given1. cbn [fst snd]. destruct c; try lia. destruct (ret a =? -1); [apply len_nonneg|lia]. Qed.
Lemma given_nonneg : forall t, 0 <= given t.
Proof. induction t as [|e t IH]; [cbn; lia|]. change (given (e :: t)) with (given1 e + given t). pose proof (given1_nonneg e). lia. Qed.
Lemma said_one : forall h e, said (h ++ [e]) = said h ++ said1 e.
Proof. intros. rewrite said_app. unfold said at 2. cbn [map concat]. rewrite app_nil_r. reflexivity. Qed.
Lemma took_one : forall h e, took (h ++ [e]) = took h + took1 e.
Proof. intros. rewrite took_app. change (took [e]) with (took1 e + 0). lia. Qed.
Lemma given_one : forall h e, given (h ++ [e]) = given h + given1 e.
Proof. intros. rewrite given_app. change (given [e]) with (given1 e + 0). lia. Qed.

Lemma last_begin_app : forall a b, last_begin (a ++ b) = match last_begin b with Some n => Some n | None => last_begin a end.
Proof.
  induction a as [|e a IH]; intros b; cbn [app last_begin]; [destruct (last_begin b); auto|]. rewrite IH.
  destruct (last_begin b); auto.
Qed.
Lemma last_begin_chunks : forall bs, last_begin (map Chunk bs) = None.
Proof. induction bs as [|b bs IH]; cbn [map last_begin]; auto. rewrite IH. auto. Qed.
Lemma amid_last : forall l os n b, amid l os n b -> last_begin l = Some n.
Proof.
  intros l os n b (l0 & bs & -> & _ & _). rewrite last_begin_app. cbn [last_begin]. rewrite last_begin_chunks. reflexivity.
Qed.
Lemma amid_chunk : forall l os n b c, amid l os n b -> amid (l ++ [Chunk c]) os n (b ++ c).
Proof.
  intros l os n b c (l0 & bs & -> & W & ->). exists l0, (bs ++ [c]). split; [|split; auto].
  - rewrite map_app, <- app_assoc. reflexivity.
  - rewrite concat_app. cbn [concat]. rewrite app_nil_r. reflexivity.
Qed.
Lemma amid_end : forall l os n b, amid l os n b -> whole (l ++ [End n]) (os ++ [(n, b)]).
Proof. intros l os n b (l0 & bs & -> & W & ->). rewrite <- app_assoc. cbn [app]. apply whole_obj. auto. Qed.
Lemma amid_begin : forall l os n, whole l os -> amid (l ++ [Begin n]) os n [].
Proof. intros l os n W. exists l, []. auto. Qed.
Lemma pick_snoc : forall names os n b, pick names (os ++ [(n, b)]) = pick names os ++ (if among names n then [b] else []).
Proof. intros. unfold pick. rewrite filter_app, map_app. cbn [filter fst]. destruct (among names n); reflexivity. Qed.

(** Allocations say nothing. *)
Definition quiet (h t : trace) : Prop := exists u, t = h ++ u /\ Forall (fun e => exists n, fst e = Alloc n) u.
Lemma quiet_refl : forall h, quiet h h.
Proof. intros h. exists []. rewrite app_nil_r. auto. Qed.
Lemma quiet_trans : forall a b c, quiet a b -> quiet b c -> quiet a c.
Proof. intros a b c (u & -> & F) (v & -> & G). exists (u ++ v). rewrite app_assoc. split; auto. apply Forall_app. auto. Qed.
Lemma quiet_same : forall h t, quiet h t -> said t = said h /\ took t = took h /\ given t = given h /\ filter is_x509 t = filter is_x509 h.
Proof.
  intros h t (u & -> & F). rewrite said_app, took_app, given_app, filter_app.
  assert (X : said u = [] /\ took u = 0 /\ given u = 0 /\ filter is_x509 u = []).
  { induction F as [|[c a] u (n & E) F (I1 & I2 & I3 & I4)]; [cbn; auto|]. cbn [fst] in E. subst c. repeat split.
    - unfold said in *. cbn [map concat]. rewrite I1. reflexivity.
    - unfold took in *. cbn [fold_right]. rewrite I2. reflexivity.
    - unfold given in *. cbn [fold_right]. rewrite I3. reflexivity.
    - cbn [filter]. rewrite I4. reflexivity. }
  destruct X as (-> & -> & -> & ->). rewrite !app_nil_r. repeat split; lia.
Qed.

Definition mem (h : trace) : Prop := forall n a, In (Alloc n, a) h -> ret a <> 0.
Lemma mem_app : forall a b, mem a -> mem b -> mem (a ++ b).
Proof. intros a b A B n x I. apply in_app_iff in I as [I|I]; [eapply A|eapply B]; eauto. Qed.
Lemma mem_one : forall h c a, mem h -> (forall n, c <> Alloc n) -> mem (h ++ [(c, a)]).
Proof. intros h c a M N. apply mem_app; auto. intros n x [E|[]]. injection E as E _. elim (N n). auto. Qed.
Lemma no_memory_app : forall a b, no_memory a -> no_memory (a ++ b).
Proof. intros a b (n & x & I & E). exists n, x. split; auto. apply in_app_iff. auto. Qed.

(** ** Copies *)

Definition TT : trace -> event -> Prop := fun _ _ => True.

Lemma fresh_copy : forall src n, 0 <= n <= len src -> copyin (repeat 0 (Z.to_nat n)) 0 src n = Ok (firstn (Z.to_nat n) src).
Proof.
  intros src n N. unfold copyin. destruct (Z.leb_spec n 0) as [L|L].
  - assert (n = 0) as -> by lia. reflexivity.
  - assert (len (repeat 0 (Z.to_nat n)) = n) as E by (unfold len; rewrite repeat_length; lia). rewrite E.
    destruct (Z.ltb_spec 0 0); [lia|]. destruct (Z.ltb_spec n (0 + n)); [lia|]. destruct (Z.ltb_spec (len src) n); [lia|]. cbn [orb].
    change (Z.to_nat 0) with 0%nat. cbn [firstn app]. rewrite skipn_all2 by (rewrite repeat_length; lia). rewrite app_nil_r. reflexivity.
Qed.

Lemma sq_xmemdup : forall h src n, 0 <= n <= len src ->
  sq decoders TT h (xmemdup src n) (fun t r => quiet h t /\
    match r with None => no_memory t | Some d => d = firstn (Z.to_nat n) src /\ (mem h -> mem t) end).
Proof.
  intros h src n N. unfold xmemdup. apply sq_do. intros a (_ & _ & Ha & _). split; [exact I|].
  assert (Q : quiet h (h ++ [(Alloc n, a)])) by (exists [(Alloc n, a)]; split; [reflexivity|]; constructor; [eexists; reflexivity|constructor]).
  destruct (Z.eqb_spec (ret a) 0) as [E|E].
  - apply sq_ret. split; auto. exists n, a. split; auto. apply in_app_iff. right. left. auto.
  - eapply sq_bind with (M := fun t d => t = h ++ [(Alloc n, a)] /\ d = firstn (Z.to_nat n) src).
    { eapply sq_lift; [apply fresh_copy; auto|auto]. }
    cbn beta. intros t d [-> ->]. apply sq_ret. split; auto. split; auto. intros M. apply mem_app; auto.
    intros m x [X|[]]. inversion X. subst. auto.
Qed.

(** ** The growing buffer *)

Definition sane (x : sa) (h : trace) : Prop := sinv (ss x) /\ slen (ss x) <= given h.

Lemma catb_quiet : forall r b n tr o, runs (stralloc_catb r b n) tr o -> Forall (fun e => exists n, fst e = Alloc n) tr.
Proof.
  intros r b n tr o R. assert (C : calls (fun c => exists n, c = Alloc n) (stralloc_catb r b n)).
  { unfold stralloc_catb, stralloc_readyplus, stralloc_store. repeat calls1; eauto. }
  exact (C _ _ R).
Qed.

Lemma sq_append : forall h x b, sane x h -> slen (ss x) + len b <= given h -> given h < 2 ^ 60 ->
  (serror x = 0 /\ mem h \/ serror x <> 0 /\ no_memory h) ->
  sq decoders TT h (append x b) (fun t x' => quiet h t /\ sane x' t /\
     (serror x' = 0 /\ mem t /\ content (ss x') = content (ss x) ++ b \/ serror x' <> 0 /\ no_memory t)).
Proof.
  intros h x b [SI SL] B G E. unfold append. destruct (Z.eqb_spec (serror x) 0) as [Z0|Z0]; cbn [negb].
  2: { apply sq_ret. split; [apply quiet_refl|]. split; [split; auto|]. right. destruct E as [[? _]|[_ ?]]; auto. contradiction. }
  destruct E as [[_ M]|[? _]]; [|contradiction].
  intros tr o RU HA. apply runs_bind in RU as [([c s] & t1 & t2 & -> & R1 & R2)|[[R1 ->]|[R1 ->]]].
  - apply holds_app in HA as [HA _]. cbn beta iota in R2. destruct R2 as [-> ->]. rewrite app_nil_r in *.
    pose proof (catb_quiet _ _ _ _ _ R1) as F. rewrite <- (app_nil_r b) in R1 at 1. pose proof (catb_ok _ _ _ _ _ R1 SI) as C.
    specialize (C ltac:(lia)). assert (Q : quiet h (h ++ t1)) by (eexists; eauto). pose proof (quiet_same _ _ Q) as (_ & _ & QG & _).
    split; [discriminate|]. split; [intros ? ? ? ?; exact I|]. intros r E. injection E as <-. split; auto. unfold sane. cbn [ss serror]. rewrite QG.
    destruct c as [|e]; cbn [sok] in C.
    + destruct C as [SI' C]. split.
      * split; auto. rewrite <- (content_len _ SI'), C, len_app, content_len by auto. lia.
      * left. split; auto. split; auto. apply mem_app; auto. intros n a In. pose proof HA as HA'.
        apply in_split in In as (u & v & ->). specialize (HA' u (Alloc n, a) v eq_refl). destruct HA' as (_ & _ & HA' & _).
        destruct (HA' n eq_refl) as [[A0 _]|A1]; [|lia]. exfalso.
        (* a successful call ends with a successful allocation *)
        clear - R1 A0 SI B G. unfold stralloc_catb in R1. pose proof (len_nonneg _ b).
        destruct (len b <? 0); [destruct R1 as [_ R1]; discriminate|]. destruct (len b =? 0); [destruct R1 as [R1 _]; destruct u; discriminate|].
        apply runs_bind in R1 as [([c r1] & w1 & w2 & E & Ra & Rb)|[[Ra ?]|[Ra ?]]]; try discriminate.
        destruct c as [|e]; [|destruct Rb as [_ Rb]; discriminate].
        assert (w2 = []) as ->. { unfold stralloc_store in Rb. destruct (sm r1); [|destruct Rb as [_ ?]; discriminate]. apply runs_bind in Rb as [(d & v1 & v2 & -> & Rb1 & Rb2)|[[Rb ?]|[Rb ?]]]; try discriminate. apply runs_lift in Rb1 as [-> _]. destruct Rb2 as [-> _]. reflexivity. }
        rewrite app_nil_r in E. subst w1. unfold stralloc_readyplus in Ra.
        destruct (len b <? 0); [destruct Ra as [_ Ra]; discriminate|]. destruct (len b =? 0); [destruct Ra as [Ra _]; destruct u; discriminate|].
        destruct (negb _); [destruct Ra as [Ra _]; destruct u; discriminate|]. destruct (_ <? _); [|destruct Ra as [Ra _]; destruct u; discriminate].
        apply runs_bind in Ra as [(na & w1 & w2 & E & Ra1 & Ra2)|[[Ra ?]|[Ra ?]]]; try discriminate. apply runs_lift in Ra1 as [-> _]. cbn [app] in E. subst w2.
        destruct Ra2 as [[X _]|(xa & w & X & Ra2)]; [destruct u; discriminate|]. destruct (Z.eqb_spec (ret xa) 0) as [E0|E0]; [destruct Ra2 as [_ ?]; discriminate|].
        assert (w = []) as ->. { destruct (sm (ss _)); [|destruct Ra2; auto]. apply runs_bind in Ra2 as [(d & v1 & v2 & -> & Rb1 & Rb2)|[[Rb1 ?]|[Rb1 ?]]]; try discriminate. apply runs_lift in Rb1 as [-> _]. destruct Rb2 as [-> _]. reflexivity. }
        destruct u as [|? u]; [injection X as _ X _; subst; contradiction|]. destruct u; discriminate.
    + destruct C as [-> (t & n & a & -> & A0)]. split; [split; auto|]. right. apply holds_app in HA as [_ HA].
      assert (In (Alloc n, a) (h ++ t ++ [(Alloc n, a)])) as IN by (apply in_app_iff; right; apply in_app_iff; right; left; auto).
      split; [|exists n, a; auto].
      (* the error number of the failed allocation *)
      rewrite app_nil_r in R1. clear - R1 HA A0. specialize (HA [] (Alloc n, a) [] eq_refl). destruct HA as (_ & _ & HA & _).
      destruct (HA n eq_refl) as [[_ A1]|A1]; [|lia]. assert (e = err a); [|congruence].
      unfold stralloc_catb in R1. destruct (len b <? 0); [destruct R1 as [R1 _]; destruct t; discriminate|].
      destruct (len b =? 0); [destruct R1 as [_ R1]; discriminate|].
      apply runs_bind in R1 as [([c r1] & w1 & w2 & E & Ra & Rb)|[[Ra ?]|[Ra ?]]]; try discriminate.
      destruct c as [|e'].
      { exfalso. unfold stralloc_store in Rb. destruct (sm r1); [|destruct Rb as [_ ?]; discriminate].
        apply runs_bind in Rb as [(d & v1 & v2 & -> & Rb1 & Rb2)|[[Rb ?]|[Rb ?]]]; try discriminate. destruct Rb2 as [_ ?]. discriminate. }
      destruct Rb as [-> Rb]. injection Rb as <-. rewrite app_nil_r in E. subst w1. unfold stralloc_readyplus in Ra.
      destruct (len b <? 0); [destruct Ra as [Ra _]; destruct t; discriminate|]. destruct (len b =? 0); [destruct Ra as [Ra _]; destruct t; discriminate|].
      destruct (negb _); [destruct Ra as [Ra _]; destruct t; discriminate|]. destruct (_ <? _); [|destruct Ra as [Ra _]; destruct t; discriminate].
      apply runs_bind in Ra as [(na & w1 & w2 & E & Ra1 & Ra2)|[[Ra ?]|[Ra ?]]]; try discriminate. apply runs_lift in Ra1 as [-> _]. cbn [app] in E. subst w2.
      destruct Ra2 as [[X _]|(xa & w & X & Ra2)]; [destruct t; discriminate|]. destruct (Z.eqb_spec (ret xa) 0) as [E0|E0].
      * destruct Ra2 as [-> Ra2]. injection Ra2 as ->. destruct t as [|? t]; [injection X as _ X; subst; auto|destruct t; discriminate].
      * exfalso. destruct (sm (ss _)); [|destruct Ra2 as [_ ?]; discriminate]. apply runs_bind in Ra2 as [(d & v1 & v2 & -> & Rb1 & Rb2)|[[Rb1 ?]|[Rb1 ?]]]; try discriminate. destruct Rb2 as [_ ?]. discriminate.
  - exfalso. rewrite <- (app_nil_r b) in R1 at 1. pose proof (catb_ok _ _ _ _ _ R1 SI) as C. exact (C ltac:(lia)).
  - split; [discriminate|]. split; [intros ? ? ? ?; exact I|]. discriminate.
Qed.

Lemma content_copy : forall x, sinv (ss x) -> 0 <= slen (ss x) <= len (sa_bytes x) /\ firstn (Z.to_nat (slen (ss x))) (sa_bytes x) = content (ss x).
Proof.
  intros x [A B]. unfold sa_bytes, content. destruct (sm (ss x)) as [m|]; [split; [lia|reflexivity]|].
  destruct B as [-> _]. split; [|reflexivity]. change (len (@nil Z)) with 0. lia.
Qed.

(** ** The X.509 decoder *)

Definition still (h t : trace) : Prop := said t = said h /\ took t = took h.
Lemma still_quiet : forall h t u, still h t -> quiet t u -> still h u.
Proof. intros h t u [A B] Q. destruct (quiet_same _ _ Q) as (C & D & _). split; congruence. Qed.
Lemma still_one : forall h t c a, still h t -> said1 (c, a) = [] -> took1 (c, a) = 0 -> still h (t ++ [(c, a)]).
Proof. intros h t c a [A B] S T. split; [rewrite said_one, S, app_nil_r; auto|rewrite took_one, T; lia]. Qed.

Lemma x509_one : forall t c a, filter is_x509 (t ++ [(c, a)]) = filter is_x509 t ++ if is_x509 (c, a) then [(c, a)] else [].
Proof. intros. rewrite filter_app. cbn [filter]. destruct (is_x509 (c, a)); reflexivity. Qed.

(** the state of the buffer *)
Definition status (x : sa) (t : trace) (b : list Z) : Prop :=
  sane x t /\ (serror x = 0 /\ mem t /\ content (ss x) = b \/ serror x <> 0 /\ no_memory t).

Lemma sq_x509_push : forall fuel h x der, status x h [] ->
  sq decoders TT h (push fuel (x509_push der) append x) (fun t r => still h t /\ given h <= given t /\
    exists cbs a, Forall (fun x => ret x = -1) cbs /\ ret a <> -1 /\
      filter is_x509 t = filter is_x509 h ++ map (fun x => (x509_push der, x)) cbs ++ [(x509_push der, a)] /\
      status (snd r) t (concat (map data cbs))).
Proof.
  intros fuel h x der ST.
  eapply sq_push with (I := fun t x' => still h t /\ given h <= given t /\
    exists cbs, Forall (fun x => ret x = -1) cbs /\
      filter is_x509 t = filter is_x509 h ++ map (fun x => (x509_push der, x)) cbs /\ status x' t (concat (map data cbs))).
  - intros t x' a (SL & GV & cbs & F & EX & [SN ST']) E (_ & _ & _ & _ & HG). split; [exact I|].
    set (t1 := t ++ [(x509_push der, a)]).
    assert (G1 : given t1 = given t + len (data a)). { unfold t1. rewrite given_one. unfold given1. cbn [fst snd x509_push]. rewrite E. reflexivity. }
    assert (HG' : given t1 < 2 ^ 60). { unfold t1. rewrite given_one. exact HG. } clear HG.
    assert (S1 : still h t1) by (apply still_one; [auto|reflexivity|reflexivity]).
    pose proof (len_nonneg _ (data a)) as LN.
    eapply sq_conseq; [apply sq_append|].
    + destruct SN as [SI SLn]. split; auto. lia.
    + destruct SN as [SI SLn]. lia.
    + auto.
    + destruct ST' as [(A & M & _)|(A & M)]; [left; split; auto; apply mem_one; auto; discriminate|right; split; auto; apply no_memory_app; auto].
    + cbn beta. intros u x2 (Q & SN2 & ST2). pose proof (quiet_same _ _ Q) as (_ & _ & QG & QX). split; [eapply still_quiet; eauto|]. split; [lia|].
      exists (cbs ++ [a]). split; [apply Forall_app; auto|]. split.
      * rewrite QX. unfold t1. rewrite x509_one. change (is_x509 (x509_push der, a)) with true. rewrite EX, map_app, <- app_assoc. reflexivity.
      * split; auto. rewrite map_app, concat_app. cbn [map concat]. rewrite app_nil_r.
        destruct ST2 as [(A2 & M2 & C2)|(A2 & M2)]; [left|right; auto]. split; auto. split; auto. rewrite C2. f_equal.
        destruct ST' as [(_ & _ & C)|(A & M)]; auto. exfalso. destruct M as (n & y & In & Y). apply (M2 n y); auto.
        destruct Q as (v & -> & _). unfold t1. rewrite !in_app_iff. auto.
  - intros t x' a (SL & GV & cbs & F & EX & [SN ST']) E (_ & _ & _ & _ & HG). split; [exact I|]. cbn [snd].
    split; [apply still_one; [auto|reflexivity|reflexivity]|]. rewrite given_one. pose proof (given1_nonneg (x509_push der, a)). split; [lia|].
    exists cbs, a. split; auto. split; auto. split.
    + rewrite x509_one. change (is_x509 (x509_push der, a)) with true. rewrite EX, <- app_assoc. reflexivity.
    + split; [destruct SN; split; auto; rewrite given_one; lia|].
      destruct ST' as [(A & M & C)|(A & M)]; [left; split; auto; split; auto; apply mem_one; auto; discriminate|right; split; auto; apply no_memory_app; auto].
  - split; [split; reflexivity|]. split; [lia|]. exists []. split; auto. cbn [map app concat]. rewrite app_nil_r. auto.
Qed.

Lemma quiet_in : forall h t e, quiet h t -> In e h -> In e t.
Proof. intros h t e (u & -> & _) I. apply in_app_iff. auto. Qed.

Lemma sq_pub_key : forall h p, (ret p = 2 -> data p <> []) -> (ret p = 1 -> exists n e, data p = len n :: n ++ e) ->
  In (x509_pkey, p) h ->
  sq decoders TT h (pub_key p) (fun t r => quiet h t /\
    match r with
    | None => no_memory t \/ bad_cert t
    | Some (k, ty) => pubkey p k /\ ty = type_of k /\ (mem h -> mem t)
    end).
Proof.
  intros h p H2 H1 IN. unfold pub_key. change EC with 2. change RSA with 1. destruct (Z.eqb_spec (ret p) 2) as [E2|E2].
  - specialize (H2 E2). destruct (data p) as [|cv q] eqn:D; [contradiction|].
    eapply sq_bind; [apply sq_xmemdup; pose proof (len_nonneg _ q); lia|]. cbn beta. intros t r [Q R]. apply sq_ret. split; auto.
    destruct r as [d|]; [|auto]. destruct R as [-> M]. unfold len. rewrite Nat2Z.id, firstn_all. split; [apply pubkey_ec; auto|]. auto.
  - destruct (Z.eqb_spec (ret p) 1) as [E1|E1].
    + destruct (H1 E1) as (n & e & D). rewrite D. pose proof (len_nonneg _ n). pose proof (len_nonneg _ e). destruct (Z.ltb_spec (len n) 0); [lia|].
      rewrite len_app. destruct (Z.ltb_spec (len n + len e) (len n)); [lia|]. cbn [orb].
      assert (E3 : firstn (Z.to_nat (len n)) (n ++ e) = n) by (unfold len; rewrite Nat2Z.id; apply firstn_app_exact).
      assert (E4 : skipn (Z.to_nat (len n)) (n ++ e) = e) by (unfold len; rewrite Nat2Z.id, skipn_app, Nat.sub_diag, skipn_all, skipn_O; reflexivity).
      rewrite E3, E4. clear E3 E4.
      eapply sq_bind; [apply sq_xmemdup; lia|]. cbn beta. intros t r [Q R]. destruct r as [d|]; [|apply sq_ret; auto].
      destruct R as [-> M]. assert (E3 : firstn (Z.to_nat (len n)) n = n) by (unfold len; rewrite Nat2Z.id; apply firstn_all). rewrite E3.
      eapply sq_bind; [apply sq_xmemdup; lia|]. cbn beta. intros t2 r [Q2 R]. apply sq_ret. split; [eapply quiet_trans; eauto|].
      destruct r as [d|]; [|auto]. destruct R as [-> M2]. assert (E4 : firstn (Z.to_nat (len e)) e = e) by (unfold len; rewrite Nat2Z.id; apply firstn_all).
      rewrite E4. split; [apply pubkey_rsa; auto|]. auto.
    + apply sq_ret. split; [apply quiet_refl|]. right. right. exists p. auto.
Qed.

Lemma sq_pub_cert : forall fuel h x c b, status x h b -> serror x = 0 -> len (crt c) < 16 -> len (ta c) = len (crt c) ->
  sq decoders TT h (pub_cert fuel x c) (fun t r => still h t /\
    match r with
    | None => no_memory t \/ bad_cert t
    | Some (x', c') => status x' t (content (ss x')) /\ serror x' = 0 /\ crt c' = crt c ++ [b] /\
        exists k u, ta c' = ta c ++ [k] /\ filter is_x509 t = filter is_x509 h ++ u /\ consult b k u /\
          key_type c' = if len (crt c) =? 0 then type_of (key k) else key_type c
    end).
Proof.
  intros fuel h x c b [SN ST] E0 L16 LT. destruct ST as [(_ & M & C)|(A & _)]; [|contradiction].
  unfold pub_cert. change MAXCERTS with 16. destruct (Z.leb_spec 16 (len (crt c))); [lia|].
  destruct (content_copy x (proj1 SN)) as [CL CC].
  eapply sq_bind; [apply sq_xmemdup; exact CL|]. cbn beta. intros t1 d [Q1 D]. pose proof (still_quiet h h t1 (conj eq_refl eq_refl) Q1) as S1.
  destruct d as [der|]; [|apply sq_ret; auto]. destruct D as [-> M1]. specialize (M1 M). rewrite CC, C. clear CC CL.
  pose proof (quiet_same _ _ Q1) as (_ & _ & G1 & X1). destruct SN as [SI SL].
  eapply sq_bind.
  { apply sq_x509_push. unfold status, sane, sa_zero. cbn [ss serror]. destruct (clear_inv _ SI) as [CI CE]. split.
    - split; auto. cbn [sa_clear slen]. pose proof (given_nonneg t1). lia.
    - left. auto. }
  cbn beta. intros t2 [tl x2] (S2 & G2 & cbs & a & F & NA & X2 & [SN2 ST2]). cbn [snd] in *.
  assert (S2' : still h t2) by (destruct S1, S2; split; congruence). clear S1 S2.
  destruct (Z.eqb_spec (serror x2) 0) as [E2|E2]; cbn [negb].
  2: { apply sq_ret. split; auto. left. destruct ST2 as [(? & _)|(_ & ?)]; [contradiction|auto]. }
  destruct ST2 as [(_ & M2 & C2)|(? & _)]; [|contradiction].
  eapply sq_bind. { apply sq_sys1 with (Q := fun t e => t = t2 ++ [(x509_last_error, e)]). intros e _. split; [exact I|reflexivity]. }
  cbn beta. intros t3 e ->. destruct (Z.eqb_spec (ret e) 0) as [Er|Er]; cbn [negb].
  2: { apply sq_ret. split; [apply still_one; auto|]. right. left. exists e. split; auto. apply in_app_iff. right. left. auto. }
  eapply sq_bind.
  { apply sq_sys1 with (Q := fun t p => t = (t2 ++ [(x509_last_error, e)]) ++ [(x509_pkey, p)] /\ ((ret p = 2 -> data p <> []) /\ (ret p = 1 -> exists n e, data p = len n :: n ++ e))).
    intros p (_ & _ & _ & Hp & _). split; [exact I|auto]. }
  cbn beta. intros t3 p [-> [P2 P1]]. set (t3 := (t2 ++ [(x509_last_error, e)]) ++ [(x509_pkey, p)]).
  assert (S3 : still h t3) by (apply still_one; auto; apply still_one; auto).
  assert (IN3 : In (x509_pkey, p) t3) by (unfold t3; apply in_app_iff; right; left; auto).
  destruct (Z.eqb_spec (ret p) (-1)) as [Ep|Ep].
  { apply sq_ret. split; auto. right. right. exists p. split; auto. lia. }
  destruct (Z.leb_spec 16 (len (ta c))); [lia|].
  assert (M3 : mem t3) by (apply mem_one; [apply mem_one; auto; discriminate|discriminate]).
  assert (G3 : given t2 <= given t3). { unfold t3. rewrite !given_one. pose proof (given1_nonneg (x509_last_error, e)). pose proof (given1_nonneg (x509_pkey, p)). lia. }
  assert (X3 : filter is_x509 t3 = filter is_x509 t2 ++ [(x509_last_error, e); (x509_pkey, p)]).
  { unfold t3. rewrite !x509_one. change (is_x509 (x509_last_error, e)) with true. change (is_x509 (x509_pkey, p)) with true. rewrite <- app_assoc. reflexivity. }
  clearbody t3. destruct (content_copy x2 (proj1 SN2)) as [CL CC].
  eapply sq_bind; [apply sq_xmemdup; exact CL|]. cbn beta. intros t4 d [Q4 D]. pose proof (still_quiet _ _ _ S3 Q4) as S4.
  destruct d as [name|]; [|apply sq_ret; auto]. destruct D as [-> M4]. specialize (M4 M3). rewrite CC, C2. clear CC CL.
  pose proof (quiet_same _ _ Q4) as (_ & _ & G4 & X4). pose proof (quiet_in _ _ _ Q4 IN3) as IN4.
  eapply sq_bind. { apply sq_sys1 with (Q := fun t a => t = t4 ++ [(x509_isca, a)]). intros ? _. split; [exact I|reflexivity]. }
  cbn beta. intros t5 ca ->. set (t5 := t4 ++ [(x509_isca, ca)]).
  assert (S5 : still h t5) by (apply still_one; auto). assert (M5 : mem t5) by (apply mem_one; auto; discriminate).
  assert (G5 : given t4 <= given t5). { unfold t5. rewrite given_one. pose proof (given1_nonneg (x509_isca, ca)). lia. }
  assert (X5 : filter is_x509 t5 = filter is_x509 t4 ++ [(x509_isca, ca)]).
  { unfold t5. rewrite x509_one. reflexivity. }
  assert (IN5 : In (x509_pkey, p) t5) by (unfold t5; apply in_app_iff; auto). clearbody t5.
  eapply sq_bind; [apply sq_pub_key; auto|]. cbn beta. intros t6 k [Q6 K]. pose proof (still_quiet _ _ _ S5 Q6) as S6.
  pose proof (quiet_same _ _ Q6) as (_ & _ & G6 & X6).
  destruct k as [[k ty]|]; [|apply sq_ret; auto]. destruct K as (PK & -> & M6). specialize (M6 M5). apply sq_ret. split; auto.
  split; [|split; [auto|]].
  { split; [|left; auto]. destruct SN2. split; auto. lia. }
  split; auto. eexists _, _. split; [reflexivity|]. split; [|split].
  - rewrite X6, X5, X4, X3, X2, X1. rewrite <- !app_assoc. reflexivity.
  - cbn [app]. apply consult_intro; auto. destruct (Z.eqb_spec (ret ca) 0); cbn [negb]; auto.
  - reflexivity.
Qed.

(** ** The loop of tls_pubcrt_parse *)

Section PUB.
Variable buflen : Z.

Definition core (h : trace) (c : pubcrt) (os : list obj) : Prop :=
  crt c = pick cert_objects os /\ len (crt c) <= 16 /\ len (ta c) = len (crt c) /\
  consults (crt c) (ta c) (filter is_x509 h) /\
  (crt c = [] \/ exists t ts, ta c = t :: ts /\ key_type c = type_of (key t)).

(** within an object, or between objects *)
Definition place (h : trace) (inobj dest : bool) (x : sa) (c : pubcrt) (os : list obj) : Prop :=
  if inobj then exists nm b, amid (said h) os nm b /\
    if among cert_objects nm then dest = true /\ len (crt c) < 16 /\ (serror x = 0 -> content (ss x) = b) else dest = false
  else whole (said h) os.

Definition pinv (h : trace) (n : Z) (inobj dest : bool) (x : sa) (c : pubcrt) : Prop :=
  took h + n = buflen /\ 0 <= n /\ sane x h /\ (serror x = 0 /\ mem h \/ serror x <> 0 /\ no_memory h) /\
  exists os, core h c os /\ place h inobj dest x c os.

Definition reject (t : trace) : Prop :=
  no_memory t \/ bad_cert t \/ malformed (said t) \/ too_many (said t) \/
  (took t = buflen /\ (unfinished (said t) \/ no_certs (said t))).

Lemma core_x509 : forall h t c os, core h c os -> filter is_x509 t = filter is_x509 h -> core t c os.
Proof. intros h t c os (A & B & C & D & E) X. unfold core. rewrite X. auto. Qed.

(** the PEM decoder delivers data *)
Lemma sq_pem_push : forall fuel h n inobj dest x c, 0 < n -> pinv h n inobj dest x c ->
  sq decoders TT h (push fuel (pem_push n) (if dest then append else parsedummy) x)
    (fun t r => 0 <= fst r <= n /\ pinv t (n - fst r) inobj dest (snd r) c).
Proof.
  intros fuel h n inobj dest x c N PI.
  eapply sq_push with (I := fun t x' => pinv t n inobj dest x' c); [| |exact PI].
  - intros t x' a (T & N0 & SN & ST & os & CO & PL) E (_ & _ & _ & _ & HG). split; [exact I|].
    set (t1 := t ++ [(pem_push n, a)]).
    assert (G1 : given t1 = given t + len (data a)). { unfold t1. rewrite given_one. unfold given1. cbn [fst snd pem_push]. rewrite E. reflexivity. }
    assert (HG' : given t1 < 2 ^ 60). { unfold t1. rewrite given_one. exact HG. } clear HG.
    assert (T1 : took t1 = took t). { unfold t1. rewrite took_one. unfold took1. cbn [fst snd]. rewrite E. change (is_pem_push (pem_push n)) with true. cbn. lia. }
    assert (D1 : said t1 = said t ++ [Chunk (data a)]). { unfold t1. rewrite said_one. unfold said1. cbn [fst snd]. rewrite E. reflexivity. }
    assert (X1 : filter is_x509 t1 = filter is_x509 t). { unfold t1. rewrite x509_one. change (is_x509 (pem_push n, a)) with false. apply app_nil_r. }
    pose proof (len_nonneg _ (data a)) as LN.
    assert (ST1 : serror x' = 0 /\ mem t1 \/ serror x' <> 0 /\ no_memory t1).
    { destruct ST as [[A M]|[A M]]; [left; split; auto; apply mem_one; auto; discriminate|right; split; auto; apply no_memory_app; auto]. }
    assert (SN1 : sane x' t1) by (destruct SN; split; auto; lia).
    destruct dest.
    + eapply sq_conseq; [apply sq_append; auto; destruct SN; lia|]. cbn beta. intros u x2 (Q & SN2 & ST2).
      pose proof (quiet_same _ _ Q) as (QS & QT & QG & QX). split; [lia|]. split; [auto|]. split; [auto|]. split; [tauto|].
      exists os. split; [eapply core_x509; [exact CO|congruence]|]. unfold place in *. rewrite QS, D1. destruct inobj.
      * destruct PL as (nm & b & AM & PL). exists nm, (b ++ data a). split; [apply amid_chunk; auto|].
        destruct (among cert_objects nm); [|discriminate]. destruct PL as (_ & L & CB). split; auto. split; auto. intros Z2.
        destruct ST2 as [(_ & M2 & C2)|[? _]]; [|contradiction]. rewrite C2. f_equal.
        destruct ST as [[A _]|[_ M]]; [auto|]. exfalso. destruct M as (k & y & In & Y). apply (M2 k y); auto.
        apply (quiet_in _ _ _ Q). unfold t1. apply in_app_iff. auto.
      * apply whole_stray. auto.
    + apply sq_ret. split; [lia|]. split; [auto|]. split; [auto|]. split; [auto|]. exists os. split; [eapply core_x509; [exact CO|congruence]|].
      unfold place in *. rewrite D1. destruct inobj.
      * destruct PL as (nm & b & AM & PL). exists nm, (b ++ data a). split; [apply amid_chunk; auto|].
        destruct (among cert_objects nm); [|auto]. destruct PL as [? _]. discriminate.
      * apply whole_stray. auto.
  - intros t x' a (T & N0 & SN & ST & os & CO & PL) E (HP & _). split; [exact I|]. cbn [fst snd].
    destruct (HP n eq_refl) as [|R]; [contradiction|]. split; auto.
    assert (E1 : (ret a =? -1) = false) by lia.
    split; [rewrite took_one; unfold took1; cbn [fst snd]; change (is_pem_push (pem_push n)) with true; rewrite E1; cbn iota; lia|]. split; [lia|].
    split; [destruct SN; split; auto; rewrite given_one; pose proof (given1_nonneg (pem_push n, a)); lia|].
    split. { destruct ST as [[A M]|[A M]]; [left; split; auto; apply mem_one; auto; discriminate|right; split; auto; apply no_memory_app; auto]. }
    exists os. split; [eapply core_x509; [exact CO|rewrite x509_one; change (is_x509 (pem_push n, a)) with false; apply app_nil_r]|].
    unfold place in *. assert (said (t ++ [(pem_push n, a)]) = said t) as ->. { rewrite said_one. unfold said1. cbn [fst snd]. change (is_pem_push (pem_push n)) with true. rewrite E1. apply app_nil_r. }
    auto.
Qed.

Lemma nonul_certs : Forall nonul cert_names.
Proof. repeat constructor; try (intro; discriminate); lia. Qed.

Lemma sq_pub_loop : forall fuel h n inobj dest x c, pinv h n inobj dest x c -> serror x = 0 ->
  sq decoders TT h (pub_loop fuel n inobj dest x c) (fun t r =>
    match r with
    | None => reject t
    | Some c => took t = buflen /\ mem t /\ exists os, whole (said t) os /\ chain_of os t c
    end).
Proof.
  induction fuel as [|f IH]; intros h n inobj dest x c PI E0; cbn [pub_loop]; [apply sq_halt|].
  destruct (Z.ltb_spec 0 n) as [N|N].
  2: { destruct PI as (T & N0 & SN & ST & os & CO & PL). assert (took h = buflen) as T' by lia. destruct CO as (C1 & C2 & C3 & C4 & C5).
    destruct ST as [[_ M]|[? _]]; [|contradiction]. unfold place in PL. destruct inobj.
    - apply sq_ret. do 4 right. split; auto. left. destruct PL as (nm & b & AM & _). exists os, nm, b. auto.
    - destruct (Z.eqb_spec (len (crt c)) 0) as [L|L].
      + apply sq_ret. do 4 right. split; auto. right. exists os. split; auto. rewrite <- C1. destruct (crt c); auto. rewrite len_cons in L. pose proof (len_nonneg _ l0). lia.
      + apply sq_ret. split; auto. split; auto. exists os. split; auto. pose proof (len_nonneg _ (crt c)). split; auto. split; [lia|]. split; auto.
        destruct C5 as [C5|C5]; auto. rewrite C5 in L. elim L. reflexivity. }
  eapply sq_bind; [apply sq_pem_push; eauto|]. cbn beta. intros t1 [tlen x1] [R PI1]. cbn [fst snd] in *.
  destruct (Z.eqb_spec (serror x1) 0) as [E1|E1]; cbn [negb].
  2: { apply sq_ret. left. destruct PI1 as (_ & _ & _ & [[? _]|[_ ?]] & _); [contradiction|auto]. }
  destruct (Z.ltb_spec tlen 0); [lia|]. destruct (Z.ltb_spec n tlen); [lia|]. cbn [orb]. cbv zeta.
  destruct PI1 as (T & N0 & SN & ST & os & CO & PL). destruct ST as [[_ M]|[? _]]; [|contradiction].
  eapply sq_bind.
  { apply sq_sys1 with (Q := fun t e => t = t1 ++ [(pem_event, e)] /\ Forall (fun x => 0 < x < 256) (data e) /\ (ret e = 2 -> forall n, last_begin (said t1) = Some n -> data e = n)).
    intros e (_ & He & _). split; [exact I|]. destruct (He eq_refl). auto. }
  cbn beta. intros t2 e (-> & NU & NM). set (t2 := t1 ++ [(pem_event, e)]).
  assert (T2 : took t2 = took t1). { unfold t2. rewrite took_one. change (took1 (pem_event, e)) with 0. lia. }
  assert (G2 : given t1 <= given t2). { unfold t2. rewrite given_one. pose proof (given1_nonneg (pem_event, e)). lia. }
  assert (X2 : filter is_x509 t2 = filter is_x509 t1). { unfold t2. rewrite x509_one. change (is_x509 (pem_event, e)) with false. apply app_nil_r. }
  assert (M2 : mem t2) by (apply mem_one; auto; discriminate).
  assert (D2 : said t2 = said t1 ++ said1 (pem_event, e)) by apply said_one.
  assert (SN2 : sane x1 t2) by (destruct SN; split; auto; lia).
  assert (CO2 : core t2 c os) by (eapply core_x509; eauto). clearbody t2.
  unfold said1 in D2. cbn [fst snd] in D2. change (is_pem_push pem_event) with false in D2. change (is_pem_event pem_event) with true in D2. cbn iota in D2.
  change PEM_BEGIN with 1. change PEM_END with 2. change PEM_ERROR with 3. change MAXCERTS with 16.
  destruct (Z.eqb_spec (ret e) 1) as [K1|K1].
  - unfold place in PL. destruct inobj.
    { apply sq_ret. right. right. left. exists (said t1), (Begin (data e)). split; auto. right. left. destruct PL as (nm & b & AM & _). exists (data e), os, nm, b. auto. }
    eapply sq_bind. { apply sq_one_of with (Q := fun t b => t = t2 /\ b = among cert_objects (data e)); [exact NU|apply nonul_certs|auto]. }
    cbn beta. intros t b [-> ->]. destruct (among cert_objects (data e)) eqn:AM.
    + destruct (Z.leb_spec 16 (len (crt c))) as [L|L].
      * apply sq_ret. do 3 right. left. exists (said t1), (data e), os. split; auto. split; [apply among_in; auto|]. split; auto.
        destruct CO as (C1 & C2 & _). rewrite <- C1. lia.
      * destruct (clear_inv _ (proj1 SN2)) as [CI CE]. apply IH; [|auto]. split; [lia|]. split; [lia|]. split; [split; [exact CI|]|].
        { cbn [sa_zero ss sa_clear slen]. apply given_nonneg. }
        split; [left; auto|]. exists os. split; auto. unfold place. rewrite D2. exists (data e), []. split; [apply amid_begin; auto|]. rewrite AM.
        split; auto.
    + apply IH; [|auto]. split; [lia|]. split; [lia|]. split; auto. split; [auto|]. exists os. split; auto. unfold place. rewrite D2.
      exists (data e), []. split; [apply amid_begin; auto|]. rewrite AM. auto.
  - destruct (Z.eqb_spec (ret e) 2) as [K2|K2].
    + unfold place in PL. destruct inobj; cbn [negb].
      2: { apply sq_ret. right. right. left. exists (said t1), (End (data e)). split; auto. right. right. exists (data e), os. auto. }
      destruct PL as (nm & b & AM & PL). specialize (NM K2 nm (amid_last _ _ _ _ AM)). rewrite NM in *.
      eapply sq_bind. { apply sq_one_of with (Q := fun t b => t = t2 /\ b = among cert_objects nm); [exact NU|apply nonul_certs|auto]. }
      cbn beta. intros t bb [-> ->]. pose proof (amid_end _ _ _ _ AM) as W. pose proof (pick_snoc cert_objects os nm b) as PK.
      destruct (among cert_objects nm) eqn:AMG.
      * destruct PL as (-> & L & CB). destruct CO2 as (C1 & C2 & C3 & C4 & C5).
        eapply sq_bind; [apply sq_pub_cert with (b := b); auto|].
        { split; auto. }
        cbn beta. intros t3 r [[S3 T3] RR]. destruct r as [[x3 c3]|]; [|apply sq_ret; destruct RR; [left|right; left]; auto].
        destruct RR as ([SN3 ST3] & E3 & CR & k & u & TA & X3 & CN & KT). apply IH; [|auto]. split; [lia|]. split; [lia|]. split; auto.
        split; [left; split; auto; destruct ST3 as [(_ & ? & _)|[? _]]; [auto|contradiction]|].
        exists (os ++ [(nm, b)]). split; [|unfold place; rewrite S3, D2; exact W].
        unfold core. rewrite CR, C1, TA, X3, !len_app. change (len [b]) with 1. change (len [k]) with 1. rewrite C1 in *. split; [symmetry; exact PK|]. split; [lia|]. split; [lia|].
        split; [apply consults_snoc; auto|]. right. destruct C5 as [C5|(k0 & ks & C5 & C6)].
        -- assert (ta c = []) as TN. { destruct (ta c); auto. rewrite C5, len_cons in C3. pose proof (len_nonneg _ l). change (len (@nil (list Z))) with 0 in C3. lia. }
           rewrite C5 in KT. rewrite TN. exists k, []. split; auto.
        -- rewrite C5. exists k0, (ks ++ [k]). split; auto. rewrite KT. destruct (Z.eqb_spec (len (pick cert_objects os)) 0) as [Z0|Z0]; auto.
           exfalso. rewrite C5, len_cons in C3. pose proof (len_nonneg _ ks). lia.
      * apply IH; [|auto]. split; [lia|]. split; [lia|]. split; auto. split; [auto|]. exists (os ++ [(nm, b)]).
        split; [|unfold place; rewrite D2; exact W]. rewrite app_nil_r in PK. unfold core in *. destruct CO2 as (C1 & C2). split; [rewrite C1; symmetry; exact PK|exact C2].
    + destruct (Z.eqb_spec (ret e) 3) as [K3|K3].
      * apply sq_ret. right. right. left. exists (said t1), Broken. auto.
      * apply IH; [|auto]. split; [lia|]. split; [lia|]. split; auto. split; [auto|]. exists os. split; auto. unfold place in *. rewrite D2, app_nil_r. exact PL.
Qed.
End PUB.

(** ** The loop of tls_seccrt_parse *)

Definition depth1 (e : ev) : Z := match e with Begin _ => 1 | End _ => -1 | _ => 0 end.
Definition depth (l : list ev) : Z := fold_right (fun e s => depth1 e + s) 0 l.
Lemma depth_app : forall a b, depth (a ++ b) = depth a + depth b.
Proof. induction a as [|e a IH]; intros b; [reflexivity|]. change (depth ((e :: a) ++ b)) with (depth1 e + depth (a ++ b)). rewrite IH. change (depth (e :: a)) with (depth1 e + depth a). lia. Qed.
Lemma depth_chunks : forall bs, depth (map Chunk bs) = 0.
Proof. induction bs as [|b bs IH]; [reflexivity|]. exact IH. Qed.
Lemma whole_depth : forall l os, whole l os -> depth l = 0.
Proof.
  induction 1 as [|l os b W IH|l os n bs W IH]; [reflexivity| |].
  - rewrite depth_app, IH. reflexivity.
  - rewrite depth_app, IH. change (depth (Begin n :: map Chunk bs ++ [End n])) with (1 + depth (map Chunk bs ++ [End n])). rewrite depth_app, depth_chunks. reflexivity.
Qed.
Lemma whole_amid : forall l os os' n b, whole l os -> amid l os' n b -> False.
Proof.
  intros l os os' n b W (l0 & bs & -> & W0 & _). apply whole_depth in W. apply whole_depth in W0. rewrite depth_app, W0 in W.
  change (depth (Begin n :: map Chunk bs)) with (1 + depth (map Chunk bs)) in W. rewrite depth_chunks in W. discriminate.
Qed.

Lemma skey_one : forall t c a, filter is_skey (t ++ [(c, a)]) = filter is_skey t ++ if is_skey (c, a) then [(c, a)] else [].
Proof. intros. rewrite filter_app. cbn [filter]. destruct (is_skey (c, a)); reflexivity. Qed.
Lemma known_one : forall t e, known (t ++ [e]) = known1 (known t) e.
Proof. intros. unfold known. rewrite fold_left_app. reflexivity. Qed.

Section SEC.
Variable buflen : Z.

(** no key yet, or one *)
Definition kept (h : trace) (c : seccrt) (os : list obj) : Prop :=
  (pick key_objects os = [] /\ skey c = None /\ filter is_skey h = [] /\ known h = Some 0) \/
  (exists pl t, pick key_objects os = [pl] /\ skey c = Some t /\ skeytype c = t /\ decoding pl t (filter is_skey h) /\ known h = Some t).

Definition begun (h : trace) (c : seccrt) (os : list obj) (b : list Z) : Prop :=
  pick key_objects os = [] /\ skey c = None /\
  exists z i ps, filter is_skey h = (skey_type, z) :: (skey_init, i) :: map (fun p => (skey_push (fst p), snd p)) ps /\ concat (map fst ps) = b.

Definition sinv (h : trace) (n : Z) (inobj dest : bool) (c : seccrt) : Prop :=
  took h + n = buflen /\ 0 <= n /\
  exists os, if inobj then exists nm b, amid (said h) os nm b /\ (if among key_objects nm then dest = true /\ begun h c os b else dest = false /\ kept h c os)
             else whole (said h) os /\ kept h c os.

Lemma kept_same : forall h t c os, kept h c os -> filter is_skey t = filter is_skey h -> known t = known h -> kept t c os.
Proof. intros h t c os K E F. unfold kept in *. rewrite E, F. exact K. Qed.
Lemma begun_same : forall h t c os b, begun h c os b -> filter is_skey t = filter is_skey h -> begun t c os b.
Proof. intros h t c os b K E. unfold begun in *. rewrite E. exact K. Qed.

Lemma sq_sec_push : forall fuel h n inobj dest c, 0 < n -> sinv h n inobj dest c ->
  sq key_decoders only_key h (push fuel (pem_push n) (if dest then parsekey else parsedummy) tt)
    (fun t r => 0 <= fst r <= n /\ sinv t (n - fst r) inobj dest c).
Proof.
  intros fuel h n inobj dest c N PI.
  eapply sq_push with (I := fun t _ => sinv t n inobj dest c); [| |exact PI].
  - intros t u a (T & N0 & os & PL) E (HP & _). split; [discriminate|].
    destruct (HP n eq_refl) as [(_ & os' & m & b' & AM')|?]; [|lia].
    destruct inobj; [|exfalso; destruct PL as [W _]; eapply whole_amid; eauto]. destruct PL as (nm & b & AM & PL).
    set (t1 := t ++ [(pem_push n, a)]).
    assert (T1 : took t1 = took t). { unfold t1. rewrite took_one. unfold took1. cbn [fst snd]. rewrite E. change (is_pem_push (pem_push n)) with true. cbn. lia. }
    assert (D1 : said t1 = said t ++ [Chunk (data a)]). { unfold t1. rewrite said_one. unfold said1. cbn [fst snd]. rewrite E. reflexivity. }
    assert (X1 : filter is_skey t1 = filter is_skey t). { unfold t1. rewrite skey_one. change (is_skey (pem_push n, a)) with false. apply app_nil_r. }
    assert (K1 : known t1 = known t). { unfold t1. rewrite known_one. reflexivity. }
    pose proof (amid_chunk _ _ _ _ (data a) AM) as AM1. rewrite <- D1 in AM1.
    destruct dest.
    + destruct (among key_objects nm) eqn:AG; [|destruct PL; discriminate]. destruct PL as (_ & B1 & B2 & z & i & ps & B3 & B4).
      unfold parsekey. eapply sq_bind.
      { apply sq_sys1 with (Q := fun u r => u = t1 ++ [(skey_push (data a), r)]). intros r _. split; [|reflexivity]. intros b0 E0.
        assert (b0 = data a) as -> by (cbn [fst] in E0; unfold skey_push in E0; congruence). exists os, nm, b. split; auto. split; [apply among_in; auto|]. exists t, (pem_push n), a. auto. }
      cbn beta. intros u2 r ->. apply sq_ret. split; [rewrite took_one; change (took1 (skey_push (data a), r)) with 0; lia|]. split; [auto|].
      exists os, nm, (b ++ data a). assert (said (t1 ++ [(skey_push (data a), r)]) = said t1) as -> by (rewrite said_one; apply app_nil_r).
      split; auto. rewrite AG. split; auto. split; auto. split; auto. exists z, i, (ps ++ [(data a, r)]). split.
      * rewrite skey_one, X1, B3. change (is_skey (skey_push (data a), r)) with true. cbn [app]. rewrite map_app. reflexivity.
      * rewrite map_app, concat_app, B4. cbn [map fst concat]. rewrite app_nil_r. reflexivity.
    + apply sq_ret. split; [lia|]. split; [auto|]. exists os, nm, (b ++ data a). split; auto. destruct (among key_objects nm); [destruct PL; discriminate|].
      destruct PL as [_ K]. split; auto. eapply kept_same; eauto.
  - intros t u a (T & N0 & os & PL) E (HP & _). split; [discriminate|]. cbn [fst snd].
    destruct (HP n eq_refl) as [[? _]|R]; [contradiction|]. split; auto.
    assert (E1 : (ret a =? -1) = false) by lia.
    split; [rewrite took_one; unfold took1; cbn [fst snd]; change (is_pem_push (pem_push n)) with true; rewrite E1; cbn iota; lia|]. split; [lia|].
    assert (D1 : said (t ++ [(pem_push n, a)]) = said t). { rewrite said_one. unfold said1. cbn [fst snd]. change (is_pem_push (pem_push n)) with true. rewrite E1. apply app_nil_r. }
    assert (X1 : filter is_skey (t ++ [(pem_push n, a)]) = filter is_skey t). { rewrite skey_one. change (is_skey (pem_push n, a)) with false. apply app_nil_r. }
    assert (K1 : known (t ++ [(pem_push n, a)]) = known t) by (rewrite known_one; reflexivity).
    exists os. rewrite D1. destruct inobj.
    + destruct PL as (nm & b & AM & PL). exists nm, b. split; auto. destruct (among key_objects nm); destruct PL as [D K]; split; auto; [eapply begun_same|eapply kept_same]; eauto.
    + destruct PL as [W K]. split; auto. eapply kept_same; eauto.
Qed.

Definition sreject (t : trace) : Prop :=
  bad_key t \/ malformed (said t) \/ second_key (said t) \/ (took t = buflen /\ (unfinished (said t) \/ no_key (said t))).

Lemma sq_sec_key : forall h c os b, begun h c os b ->
  sq key_decoders only_key h sec_key (fun t r => still h t /\
    match r with
    | None => bad_key t
    | Some c' => exists ty, skey c' = Some ty /\ skeytype c' = ty /\ decoding b ty (filter is_skey t) /\ known t = Some ty
    end).
Proof.
  intros h c os b (B1 & B2 & z & i & ps & B3 & B4). unfold sec_key.
  eapply sq_bind. { apply sq_sys1 with (Q := fun t e => t = h ++ [(skey_last_error, e)]). intros e _. split; [discriminate|reflexivity]. }
  cbn beta. intros t1 e ->. assert (S1 : still h (h ++ [(skey_last_error, e)])) by (apply still_one; [split| |]; reflexivity).
  destruct (Z.eqb_spec (ret e) 0) as [E|E]; cbn [negb].
  2: { apply sq_ret. split; auto. left. exists e. split; auto. apply in_app_iff. right. left. auto. }
  eapply sq_bind. { apply sq_sys1 with (Q := fun t k => t = (h ++ [(skey_last_error, e)]) ++ [(skey_type, k)]). intros k _. split; [discriminate|reflexivity]. }
  cbn beta. intros t2 k ->. change RSA with 1. change EC with 2.
  assert (S2 : still h ((h ++ [(skey_last_error, e)]) ++ [(skey_type, k)])) by (apply still_one; [exact S1| |]; reflexivity).
  destruct (Z.eqb_spec (ret k) 1) as [K1|K1].
  - eapply sq_bind. { apply sq_sys1 with (Q := fun t g => t = ((h ++ [(skey_last_error, e)]) ++ [(skey_type, k)]) ++ [(skey_rsa, g)]). intros g _. split; [discriminate|reflexivity]. }
    cbn beta. intros t3 g ->. apply sq_ret. split; [apply still_one; [exact S2| |]; reflexivity|]. exists 1. cbn [skey skeytype]. split; auto. split; auto. split.
    + exists z, i, ps, e, k, g. rewrite !skey_one, B3. split; [|auto]. cbn. rewrite <- !app_assoc. reflexivity.
    + rewrite !known_one. cbn. rewrite K1. reflexivity.
  - destruct (Z.eqb_spec (ret k) 2) as [K2|K2].
    + eapply sq_bind. { apply sq_sys1 with (Q := fun t g => t = ((h ++ [(skey_last_error, e)]) ++ [(skey_type, k)]) ++ [(skey_ec, g)]). intros g _. split; [discriminate|reflexivity]. }
      cbn beta. intros t3 g ->. apply sq_ret. split; [apply still_one; [exact S2| |]; reflexivity|]. exists 2. cbn [skey skeytype]. split; auto. split; auto. split.
      * exists z, i, ps, e, k, g. rewrite !skey_one, B3. split; [|auto]. cbn. rewrite <- !app_assoc. reflexivity.
      * rewrite !known_one. cbn. rewrite K2. reflexivity.
    + apply sq_ret. split; auto. right. exists h, e, k. rewrite <- app_assoc. auto.
Qed.

Lemma nonul_keys : Forall nonul key_names.
Proof. repeat constructor; try (intro; discriminate); lia. Qed.

Lemma sq_sec_loop : forall fuel h n inobj dest c, sinv h n inobj dest c ->
  sq key_decoders only_key h (sec_loop fuel n inobj dest c) (fun t r =>
    match r with
    | None => sreject t
    | Some c => took t = buflen /\ exists os pl ty, whole (said t) os /\ pick key_objects os = [pl] /\
                  decoding pl ty (filter is_skey t) /\ skey c = Some ty /\ skeytype c = ty
    end).
Proof.
  induction fuel as [|f IH]; intros h n inobj dest c PI; cbn [sec_loop]; [apply sq_halt|].
  destruct (Z.ltb_spec 0 n) as [N|N].
  2: { destruct PI as (T & N0 & os & PL). assert (took h = buflen) as T' by lia. destruct inobj.
    - apply sq_ret. do 3 right. split; auto. left. destruct PL as (nm & b & AM & _). exists os, nm, b. auto.
    - destruct PL as [W [(K1 & K2 & K3 & K4)|(pl & ty & K1 & K2 & K3 & K4 & K5)]]; rewrite K2; apply sq_ret.
      + do 3 right. split; auto. right. exists os. auto.
      + split; auto. exists os, pl, ty. auto. }
  eapply sq_bind; [apply sq_sec_push; eauto|]. cbn beta. intros t1 [tlen u] [R PI1]. cbn [fst snd] in *. clear u.
  destruct (Z.ltb_spec tlen 0); [lia|]. destruct (Z.ltb_spec n tlen); [lia|]. cbn [orb]. cbv zeta.
  destruct PI1 as (T & N0 & os & PL).
  eapply sq_bind.
  { apply sq_sys1 with (Q := fun t e => t = t1 ++ [(pem_event, e)] /\ Forall (fun x => 0 < x < 256) (data e) /\ (ret e = 2 -> forall n, last_begin (said t1) = Some n -> data e = n)).
    intros e (_ & He & _). split; [discriminate|]. destruct (He eq_refl). auto. }
  cbn beta. intros t2 e (-> & NU & NM). set (t2 := t1 ++ [(pem_event, e)]).
  assert (T2 : took t2 = took t1). { unfold t2. rewrite took_one. change (took1 (pem_event, e)) with 0. lia. }
  assert (X2 : filter is_skey t2 = filter is_skey t1). { unfold t2. rewrite skey_one. change (is_skey (pem_event, e)) with false. apply app_nil_r. }
  assert (KN2 : known t2 = known t1). { unfold t2. rewrite known_one. reflexivity. }
  assert (D2 : said t2 = said t1 ++ said1 (pem_event, e)) by apply said_one. clearbody t2.
  unfold said1 in D2. cbn [fst snd] in D2. change (is_pem_push pem_event) with false in D2. change (is_pem_event pem_event) with true in D2. cbn iota in D2.
  change PEM_BEGIN with 1. change PEM_END with 2. change PEM_ERROR with 3.
  destruct (Z.eqb_spec (ret e) 1) as [K1|K1].
  - destruct inobj.
    { apply sq_ret. right. left. exists (said t1), (Begin (data e)). split; auto. right. left. destruct PL as (nm & b & AM & _). exists (data e), os, nm, b. auto. }
    destruct PL as [W K]. pose proof (amid_begin _ _ (data e) W) as AM1. rewrite <- D2 in AM1.
    eapply sq_bind. { apply sq_one_of with (Q := fun t b => t = t2 /\ b = among key_objects (data e)); [exact NU|apply nonul_keys|auto]. }
    cbn beta. intros t b [-> ->]. destruct (among key_objects (data e)) eqn:AM.
    + eapply sq_bind.
      { apply sq_sys1 with (Q := fun t k => t = t2 ++ [(skey_type, k)] /\ forall v, known t2 = Some v -> ret k = v). intros k (_ & _ & Hk). split; [discriminate|auto]. }
      cbn beta. intros t3 k [-> HK]. rewrite KN2 in HK. assert (D3 : said (t2 ++ [(skey_type, k)]) = said t2) by (rewrite said_one; apply app_nil_r).
      destruct K as [(Q1 & Q2 & Q3 & Q4)|(pl & ty & Q1 & Q2 & Q3 & Q4 & Q5)].
      * rewrite (HK 0 Q4). cbn [Z.eqb negb].
        eapply sq_bind. { apply sq_sys1 with (Q := fun t i => t = (t2 ++ [(skey_type, k)]) ++ [(skey_init, i)]). intros i _. split; [discriminate|reflexivity]. }
        cbn beta. intros t4 i ->. apply IH. split; [rewrite !took_one; change (took1 (skey_type, k)) with 0; change (took1 (skey_init, i)) with 0; lia|]. split; [lia|].
        exists os, (data e), []. assert (said ((t2 ++ [(skey_type, k)]) ++ [(skey_init, i)]) = said t2) as -> by (rewrite said_one, D3; apply app_nil_r).
        split; auto. rewrite AM. split; auto. split; auto. split; auto. exists k, i, []. split; auto. rewrite !skey_one, X2, Q3. reflexivity.
      * destruct (Z.eqb_spec (ret k) 0) as [K0|K0]; cbn [negb].
        { exfalso. rewrite (HK ty Q5) in K0. destruct Q4 as (? & ? & ? & ? & ? & ? & _ & _ & _ & _ & [Y|Y]); lia. }
        apply sq_ret. right. right. left. exists (said t1), (data e), os. rewrite D3. split; auto. split; [apply among_in; auto|]. split; auto. rewrite Q1. reflexivity.
    + apply IH. split; [lia|]. split; [lia|]. exists os, (data e), []. split; auto. rewrite AM. split; auto. eapply kept_same; eauto.
  - destruct (Z.eqb_spec (ret e) 2) as [K2|K2].
    + destruct inobj; cbn [negb].
      2: { apply sq_ret. right. left. exists (said t1), (End (data e)). split; auto. right. right. destruct PL as [W _]. exists (data e), os. auto. }
      destruct PL as (nm & b & AM & PL). specialize (NM K2 nm (amid_last _ _ _ _ AM)). rewrite NM in *.
      eapply sq_bind. { apply sq_one_of with (Q := fun t b => t = t2 /\ b = among key_objects nm); [exact NU|apply nonul_keys|auto]. }
      cbn beta. intros t bb [-> ->]. pose proof (amid_end _ _ _ _ AM) as W. pose proof (pick_snoc key_objects os nm b) as PK.
      rewrite <- D2 in W. destruct (among key_objects nm) eqn:AMG.
      * destruct PL as (-> & B). pose proof B as (B1 & B2 & _).
        eapply sq_bind; [apply sq_sec_key with (c := c) (os := os) (b := b); eapply begun_same; eauto|].
        cbn beta. intros t3 r [[S3 T3] RR]. destruct r as [c3|]; [|apply sq_ret; left; auto].
        destruct RR as (ty & R1 & R2 & R3 & R4). apply IH. split; [lia|]. split; [lia|]. exists (os ++ [(nm, b)]). rewrite S3. split; auto.
        right. exists b, ty. split; [rewrite B1 in PK; exact PK|]. auto.
      * destruct PL as [-> K]. apply IH. split; [lia|]. split; [lia|]. exists (os ++ [(nm, b)]). split; auto. rewrite app_nil_r in PK.
        pose proof (kept_same _ _ _ _ K X2 KN2) as K'. unfold kept in *.
        destruct K' as [(Q1 & Q2)|(pl & ty & Q1 & Q2)]; [left; split; [etransitivity; [exact PK|exact Q1]|exact Q2]|right; exists pl, ty; split; [etransitivity; [exact PK|exact Q1]|exact Q2]].
    + destruct (Z.eqb_spec (ret e) 3) as [K3|K3].
      * apply sq_ret. right. left. exists (said t1), Broken. auto.
      * apply IH. split; [lia|]. split; [lia|]. exists os. rewrite D2, app_nil_r. destruct inobj.
        -- destruct PL as (nm & b & AM & PL). exists nm, b. split; auto. destruct (among key_objects nm); destruct PL as [D K]; split; auto; [eapply begun_same|eapply kept_same]; eauto.
        -- destruct PL as [W K]. split; auto. eapply kept_same; eauto.
Qed.
End SEC.
