(** The SMTP front end as a state machine: judgements and string operations. *)
From Verif.Model Require Import Base Sys Io Str Buffer Stralloc Fdio Smtp.
From Verif.Spec Require Import Text Stream Waiting SmtpSpec.
From Verif.Proof Require Import Tac SysP CallsP IoP HostportP StrP FrameP BufferP StrallocP FdioP SmtpIoP.

(** ** Text *)
Lemma until_app : forall f x, exists r, x = until f x ++ r.
Proof. intros f x. induction x as [|b x [r IH]]; cbn [until]; [exists []; auto|]. destruct (f b); [exists (b :: x); auto|exists r; cbn; congruence]. Qed.
Lemma until_none : forall f x, Forall (fun b => f b = false) x -> until f x = x.
Proof. intros f x H. induction H; cbn [until]; auto. rewrite H. congruence. Qed.
Lemma until_stop : forall f x b r, Forall (fun b => f b = false) x -> f b = true -> until f (x ++ b :: r) = x.
Proof. intros f x b r H B. induction H; cbn [until app]; [rewrite B; auto|]. rewrite H. congruence. Qed.
Lemma until_all : forall f x, Forall (fun b => f b = false) (until f x).
Proof. intros f x. induction x as [|b x IH]; cbn [until]; [constructor|]. destruct (f b) eqn:E; constructor; auto. Qed.
Lemma until_len : forall f x, len (until f x) <= len x.
Proof. intros f x. induction x as [|b x IH]; cbn [until]; [lia|]. destruct (f b); rewrite ?len_cons, ?len_nil; pose proof (len_nonneg _ x); lia. Qed.

Lemma chop_nil : forall b, chop b [] = [].
Proof. reflexivity. Qed.
Lemma chop_snoc : forall b x y, chop b (x ++ [y]) = if y =? b then x else x ++ [y].
Proof. intros. unfold chop. rewrite rev_app_distr. cbn [rev app]. rewrite rev_involutive. reflexivity. Qed.
Lemma chop_cases : forall b x, chop b x = x \/ x = chop b x ++ [b].
Proof.
  intros b x. destruct x as [|z x _] using rev_ind; [left; reflexivity|]. rewrite chop_snoc. destruct (Z.eqb_spec z b); subst; auto.
Qed.
Lemma chop_len : forall b x, len (chop b x) <= len x.
Proof. intros b x. destruct (chop_cases b x) as [->|E]; [lia|]. rewrite E at 2. rewrite len_app. change (len [b]) with 1. lia. Qed.
Lemma chop_Forall : forall (P : Z -> Prop) b x, Forall P x -> Forall P (chop b x).
Proof. intros P b x H. destruct (chop_cases b x) as [->|E]; auto. rewrite E in H. apply Forall_app in H. tauto. Qed.

(** ** Judgements *)

(** Nothing but memory and clock calls. *)
Definition still {A} (m : M A) (s : st) (Q : A -> st -> Prop) : Prop := forall tr o,
  runs (m s) tr o -> fine tr ->
  core tr = [] /\
  match o with Wrong => False | Cut => True | Fin (Exit x) => x = 111 /\ (forall sec, failed sec tr) | Fin (Go (s', a)) => Q a s' end.

Lemma still_weak : forall A (m : M A) s (Q Q' : A -> st -> Prop), still m s Q -> (forall a s', Q a s' -> Q' a s') -> still m s Q'.
Proof. intros A m s Q Q' S H tr o R F. destruct (S tr o R F) as [S1 S2]. split; auto. destruct o as [[[s' a]|x]| |]; auto. Qed.
Lemma still_ret : forall A (a : A) s (Q : A -> st -> Prop), Q a s -> still (mret a) s Q.
Proof. intros A a s Q H tr o [-> ->] F. split; auto. Qed.
Lemma still_bind : forall A B (m : M A) (f : A -> M B) s Q Q', still m s Q -> (forall a s', Q a s' -> still (f a) s' Q') -> still (mbind m f) s Q'.
Proof.
  intros A B m f s Q Q' S H tr o R F. unfold mbind in R. apply runs_obind in R as [([s' a] & t1 & t2 & -> & R1 & R2)|[(y & R1 & ->)|[[R1 ->]|[R1 ->]]]].
  - apply fine_app in F as [F1 F2]. destruct (S _ _ R1 F1) as [S1 S2]. destruct (H _ _ S2 _ _ R2 F2) as [S3 S4].
    rewrite core_app, S1, S3. split; auto. destruct o as [[[s2 b]|x]| |]; auto. destruct S4 as [-> S4]. split; auto. intros sec. apply failed_app; auto.
  - destruct (S _ _ R1 F) as [S1 S2]. auto.
  - destruct (S _ _ R1 F) as [S1 S2]. auto.
  - destruct (S _ _ R1 F) as [S1 S2]. auto.
Qed.
Lemma still_lift : forall A (x : res A) a s (Q : A -> st -> Prop), x = Ok a -> Q a s -> still (mlift x) s Q.
Proof. intros A x a s Q -> H tr o R F. unfold mlift in R. cbn [lift pbind] in R. destruct R as [-> ->]. split; auto. Qed.
Lemma still_the : forall f s (Q : stralloc -> st -> Prop), Q (sa s f) s -> still (the f) s Q.
Proof. intros f s Q H tr o [-> ->] F. split; auto. Qed.
Lemma still_get : forall s (Q : st -> st -> Prop), Q s s -> still mget s Q.
Proof. intros s Q H tr o [-> ->] F. split; auto. Qed.
Lemma still_set : forall g s (Q : unit -> st -> Prop), Q tt (g s) -> still (mset g) s Q.
Proof. intros g s Q H tr o [-> ->] F. split; auto. Qed.

(** [s'] is [s] with another string [f]. *)
Definition frame1 (f : field) (s s' : st) : Prop :=
  bf s' = bf s /\ (forall g, g <> f -> sa s' g = sa s g) /\ rcptcount s' = rcptcount s.
Lemma frame1_refl : forall f s, frame1 f s s.
Proof. intros. repeat split. Qed.
Lemma frame1_trans : forall f a b c0, frame1 f a b -> frame1 f b c0 -> frame1 f a c0.
Proof. intros f a b c0 (A1 & A2 & A3) (B1 & B2 & B3). repeat split; try congruence. intros g G. rewrite B2, A2; auto. Qed.
Lemma feqb_refl : forall f, feqb f f = true.
Proof. destruct f; reflexivity. Qed.
Lemma feqb_neq : forall g f, g <> f -> feqb g f = false.
Proof. destruct g, f; auto; congruence. Qed.
Lemma sa_setsa : forall f x s, sa (setsa f x s) f = x.
Proof. intros. cbn. rewrite feqb_refl. reflexivity. Qed.
Lemma frame1_setsa : forall f x s, frame1 f s (setsa f x s).
Proof. intros. repeat split. intros g G. cbn. rewrite feqb_neq; auto. Qed.

(** [f] now holds [x]. *)
Definition now (f : field) (x : list Z) (s s' : st) : Prop := frame1 f s s' /\ sinv (sa s' f) /\ content (sa s' f) = x.
Lemma now_trans : forall f x y a b c0, now f x a b -> now f y b c0 -> now f y a c0.
Proof. intros f x y a b c0 (A1 & A2 & A3) (B1 & B2 & B3). split; auto. eapply frame1_trans; eauto. Qed.
Definition small (x : list Z) : Prop := len x < 2 ^ 60.

Lemma core_allocs : forall tr, Forall (fun e => exists n, fst e = Alloc n) tr -> core tr = [].
Proof. intros tr H. induction H as [|[k a] tr [n E] H IH]; [reflexivity|]. cbn [fst] in E. subst k. exact IH. Qed.
Lemma nomem_failed : forall tr, nomem tr -> forall sec, failed sec tr.
Proof. intros tr (t & n & a & -> & H) sec. exists t, (Alloc n, a). split; auto. Qed.

Lemma still_sado : forall f k s arg, sinv (sa s f) ->
  (forall tr o, runs (k (sa s f)) tr o -> sok (sa s f) arg tr o) ->
  (forall tr o, runs (k (sa s f)) tr o -> core tr = []) ->
  still (sado f k) s (fun _ s' => now f (content (sa s f) ++ arg) s s').
Proof.
  intros f k s arg I S C tr o R F. unfold sado in R. apply runs_bind in R as [([r x] & t1 & t2 & -> & R1 & R2)|[[R1 ->]|[R1 ->]]].
  - specialize (S _ _ R1). specialize (C _ _ R1). destruct r as [|e]; destruct R2 as [-> ->]; rewrite app_nil_r; split; auto; cbn [sok] in S.
    + destruct S as [S1 S2]. unfold now. rewrite sa_setsa. split; auto. apply frame1_setsa.
    + split; auto. apply nomem_failed. tauto.
  - destruct (S _ _ R1).
  - split; auto. eapply C; eauto.
Qed.
Lemma still_sado0 : forall f k k0 s arg, sinv (sa s f) -> (forall x, k x = k0 (sa_clear x)) ->
  (forall tr o, runs (k0 (sa_clear (sa s f))) tr o -> sok (sa_clear (sa s f)) arg tr o) ->
  (forall tr o, runs (k0 (sa_clear (sa s f))) tr o -> core tr = []) ->
  still (sado f k) s (fun _ s' => now f arg s s').
Proof.
  intros f k k0 s arg I K S C tr o R F. unfold sado in R. rewrite K in R. apply runs_bind in R as [([r x] & t1 & t2 & -> & R1 & R2)|[[R1 ->]|[R1 ->]]].
  - specialize (S _ _ R1). specialize (C _ _ R1). destruct r as [|e]; destruct R2 as [-> ->]; rewrite app_nil_r; split; auto; cbn [sok] in S.
    + destruct S as [S1 S2]. destruct (clear_inv _ I) as [_ CC]. rewrite CC in S2. unfold now. rewrite sa_setsa. split; auto. apply frame1_setsa.
    + split; auto. apply nomem_failed. tauto.
  - destruct (S _ _ R1).
  - split; auto. eapply C; eauto.
Qed.

Lemma catb_core : forall r x n tr o, runs (stralloc_catb r x n) tr o -> core tr = [].
Proof. intros r x n tr o R. apply core_allocs. exact (use_calls _ allocs _ _ _ R (catb_calls r x n)). Qed.
Lemma cats_core : forall r x tr o, runs (stralloc_cats r x) tr o -> core tr = [].
Proof. intros r x tr o R. apply core_allocs. exact (use_calls _ allocs _ _ _ R (cats_calls r x)). Qed.

Lemma still_catb : forall f m extra n s, sinv (sa s f) -> n = len m -> small (content (sa s f)) -> small m ->
  still (sado f (fun x => stralloc_catb x (Some (m ++ extra)) n)) s (fun _ s' => now f (content (sa s f) ++ m) s s').
Proof.
  intros f m extra n s I -> S1 S2. apply still_sado; auto.
  - intros tr o R. eapply catb_ok; eauto. rewrite <- content_len by auto. unfold small in *. lia.
  - intros. eapply catb_core; eauto.
Qed.
Lemma still_append : forall f ch s, sinv (sa s f) -> small (content (sa s f)) ->
  still (sado f (fun x => stralloc_append x (Some [ch]))) s (fun _ s' => now f (content (sa s f) ++ [ch]) s s').
Proof. intros f ch s I S. apply (still_catb f [ch] []); auto. unfold small. change (len [ch]) with 1. lia. Qed.
Lemma still_copyb : forall f m extra n s, sinv (sa s f) -> n = len m -> small m ->
  still (sado f (fun x => stralloc_copyb x (Some (m ++ extra)) n)) s (fun _ s' => now f m s s').
Proof.
  intros f m extra n s I -> S. destruct (clear_inv _ I) as [I' C].
  apply still_sado0 with (k0 := fun x => stralloc_catb x (Some (m ++ extra)) (len m)); auto.
  - intros tr o R. eapply catb_ok; eauto. unfold sa_clear. cbn [slen]. unfold small in *. lia.
  - intros. eapply catb_core; eauto.
Qed.

(** The bytes before the terminator. *)
Definition cstring (p x : list Z) : Prop := exists rest, p = x ++ 0 :: rest.
Lemma str_len_shown : forall x rest, str_len (x ++ 0 :: rest) = Ok (len (shown x)).
Proof.
  induction x as [|b x IH]; intros rest; cbn [app str_len shown until]; [reflexivity|].
  rewrite (Z.eqb_sym b 0). destruct (0 =? b); [reflexivity|]. rewrite IH. cbn [bind]. rewrite len_cons. reflexivity.
Qed.
Lemma shown_prefix : forall x rest, exists r, x ++ 0 :: rest = shown x ++ r.
Proof. intros x rest. destruct (until_app (Z.eqb 0) x) as [r E]. exists (r ++ 0 :: rest). unfold shown. rewrite app_assoc, <- E. reflexivity. Qed.
Lemma shown_nonul : forall x, nonul x -> shown x = x.
Proof. intros x N. apply until_none. eapply Forall_impl; [|exact N]. cbn beta. intros. lia. Qed.

Lemma still_cats : forall f p m s, sinv (sa s f) -> cstring p m -> nonul m -> small (content (sa s f)) -> small m ->
  still (sado f (fun x => stralloc_cats x (Some p))) s (fun _ s' => now f (content (sa s f) ++ m) s s').
Proof.
  intros f p m s I (rest & ->) N S1 S2. apply still_sado; auto.
  - intros tr o R. unfold stralloc_cats in R. rewrite str_len_ok in R by auto. cbn [lift pbind] in R. eapply catb_ok; eauto. rewrite <- content_len by auto. unfold small in *. lia.
  - intros. eapply cats_core; eauto.
Qed.
Lemma still_copys : forall f p m s, sinv (sa s f) -> cstring p m -> nonul m -> small m ->
  still (sado f (fun x => stralloc_copys x (Some p))) s (fun _ s' => now f m s s').
Proof.
  intros f p m s I (rest & ->) N S. destruct (clear_inv _ I) as [I' C].
  apply still_sado0 with (k0 := fun x => stralloc_cats x (Some (m ++ 0 :: rest))); auto.
  - intros tr o R. unfold stralloc_cats in R. rewrite str_len_ok in R by auto. cbn [lift pbind] in R. eapply catb_ok; eauto. unfold sa_clear. cbn [slen]. unfold small in *. lia.
  - intros. eapply cats_core; eauto.
Qed.
Lemma still_copys0 : forall f s, sinv (sa s f) -> still (sado f (fun x => stralloc_copys x (lit []))) s (fun _ s' => now f [] s s').
Proof. intros f s I. apply still_copys; auto; [exists []; reflexivity|constructor|reflexivity]. Qed.

Ltac nn := unfold nonul; repeat first [apply Forall_nil | apply Forall_cons; [lia|]].
Lemma still_lit : forall f m s, sinv (sa s f) -> nonul m -> small (content (sa s f)) -> small m ->
  still (sado f (fun x => stralloc_cats x (lit m))) s (fun _ s' => now f (content (sa s f) ++ m) s s').
Proof. intros. apply still_cats; auto. exists []. reflexivity. Qed.
Lemma still_setlit : forall f m s, sinv (sa s f) -> nonul m -> small m ->
  still (sado f (fun x => stralloc_copys x (lit m))) s (fun _ s' => now f m s s').
Proof. intros. apply still_copys; auto. exists []. reflexivity. Qed.

(** content and memory *)
Lemma content_mem : forall r x, sinv r -> content r = x -> x <> [] -> exists rest, sm r = Some (x ++ rest).
Proof.
  intros r x [I1 I2] <- N. unfold content in *. destruct (sm r) as [m|]; [|congruence]. exists (skipn (Z.to_nat (slen r)) m). rewrite firstn_skipn. reflexivity.
Qed.
Definition zterm (r : stralloc) (x : list Z) : Prop := exists p, sm r = Some p /\ cstring p x.
Lemma zterm_content : forall r x, sinv r -> content r = x ++ [0] -> zterm r x.
Proof. intros r x I C. destruct (content_mem r _ I C) as [rest E]; [destruct x; discriminate|]. exists ((x ++ [0]) ++ rest). split; auto. exists rest. rewrite <- app_assoc. reflexivity. Qed.

Lemma still_0 : forall f s, sinv (sa s f) -> small (content (sa s f)) ->
  still (sado f stralloc_0) s (fun _ s' => now f (content (sa s f) ++ [0]) s s').
Proof. intros. apply still_append; auto. Qed.

Lemma still_setlen : forall f n s, sinv (sa s f) -> 0 <= n <= slen (sa s f) ->
  still (setlen f n) s (fun _ s' => now f (firstn (Z.to_nat n) (content (sa s f))) s s' /\ sm (sa s' f) = sm (sa s f)).
Proof.
  intros f n s [I1 I2] N. unfold setlen. apply still_set. unfold now. rewrite sa_setsa. cbn [sm]. split; auto. split; [apply frame1_setsa|].
  split; [split; cbn; [lia|]; destruct (sm (sa s f)); auto; lia|]. unfold content. cbn [sm slen]. destruct (sm (sa s f)); [|rewrite firstn_nil; reflexivity].
  rewrite firstn_firstn. f_equal. lia.
Qed.
Lemma still_declen : forall f s x b, sinv (sa s f) -> content (sa s f) = x ++ [b] ->
  still (declen f) s (fun _ s' => now f x s s' /\ sm (sa s' f) = sm (sa s f)).
Proof.
  intros f s x b I C. assert (L : slen (sa s f) = len x + 1) by (rewrite <- content_len, C, len_app by auto; reflexivity).
  pose proof (len_nonneg _ x). eapply still_weak.
  - unfold declen. exact (still_setlen f (slen (sa s f) - 1) s I ltac:(lia)).
  - cbn beta. intros _ s' (N & E). split; auto. rewrite C in N. replace (slen (sa s f) - 1) with (len x) in N by lia. unfold len in N. rewrite Nat2Z.id, firstn_app_exact in N. exact N.
Qed.

Lemma still_zero : forall f s, sinv (sa s f) -> small (content (sa s f)) ->
  still (zero f) s (fun _ s' => now f (content (sa s f)) s s' /\ zterm (sa s' f) (content (sa s f))).
Proof.
  intros f s I S. unfold zero. eapply still_bind; [apply still_0; auto|]. cbn beta. intros _ s1 N1. pose proof N1 as (F1 & I1 & C1).
  eapply still_weak; [eapply still_declen; eauto|]. cbn beta. intros _ s2 (N2 & E2). split; [eapply now_trans; eauto|].
  destruct (zterm_content _ _ I1 C1) as (p & E & Z). exists p. split; auto. congruence.
Qed.

Lemma still_at : forall f i s x b, sinv (sa s f) -> content (sa s f) = x -> 0 <= i -> nth_error x (Z.to_nat i) = Some b ->
  still (at_ f i) s (fun a s' => a = b /\ s' = s).
Proof.
  intros f i s x b I C P E. unfold at_. destruct (content_mem (sa s f) x I C) as [rest M]. { intros ->. destruct (Z.to_nat i); discriminate. }
  eapply still_bind; [apply still_the with (Q := fun a s' => a = sa s f /\ s' = s); auto|]. intros a s' [-> ->].
  eapply still_bind; [apply still_lift with (a := x ++ rest) (Q := fun a s' => a = x ++ rest /\ s' = s); [unfold ptr; rewrite M; reflexivity|auto]|]. intros a s' [-> ->].
  destruct (Z.ltb_spec i 0); [lia|]. apply still_lift with (a := b); auto. unfold ld. rewrite nth_error_app1, E; auto. apply nth_error_Some. congruence.
Qed.

Lemma still_strip_sm : forall f ch s x, sinv (sa s f) -> content (sa s f) = x ->
  still (strip f ch) s (fun _ s' => now f (chop ch x) s s' /\ sm (sa s' f) = sm (sa s f)).
Proof.
  intros f ch s x I C. unfold strip. assert (L : slen (sa s f) = len x) by (rewrite <- content_len, C; auto).
  eapply still_bind; [apply still_the with (Q := fun a s' => a = sa s f /\ s' = s); auto|]. intros a s' [-> ->].
  destruct x as [|b x _] using rev_ind.
  - rewrite L. change (len (@nil Z)) with 0. cbn [Z.ltb Z.compare]. apply still_ret. split; auto. split; [apply frame1_refl|]. auto.
  - rewrite L, len_app. change (len [b]) with 1. pose proof (len_nonneg _ x). destruct (Z.ltb_spec 0 (len x + 1)); [|lia].
    eapply still_bind; [eapply still_at with (b := b); eauto; [lia|]|].
    + replace (Z.to_nat (len x + 1 - 1)) with (length x) by (unfold len; lia). rewrite nth_error_app2, Nat.sub_diag by lia. reflexivity.
    + cbn beta. intros a s' [-> ->]. rewrite chop_snoc. destruct (b =? ch).
      * eapply still_weak; [eapply still_declen; eauto|]. cbn beta. tauto.
      * apply still_ret. split; auto. split; [apply frame1_refl|]. auto.
Qed.
Lemma still_strip : forall f ch s x, sinv (sa s f) -> content (sa s f) = x ->
  still (strip f ch) s (fun _ s' => now f (chop ch x) s s').
Proof. intros. eapply still_weak; [eapply still_strip_sm; eauto|]. cbn beta. tauto. Qed.

Lemma still_ptr : forall f s p (Q : list Z -> st -> Prop), sm (sa s f) = Some p -> Q p s -> still (mlift (ptr (sa s f))) s Q.
Proof. intros f s p Q E H. apply still_lift with (a := p); auto. unfold ptr. rewrite E. reflexivity. Qed.
Lemma still_logs : forall f s x, zterm (sa s f) x -> still (logs f) s (fun _ s' => s' = s).
Proof.
  intros f s x (p & E & rest & ->). unfold logs. eapply still_bind; [apply still_the with (Q := fun a s' => a = sa s f /\ s' = s); auto|]. intros a s' [-> ->].
  eapply still_bind; [eapply still_ptr with (Q := fun p s' => p = _ /\ s' = s); eauto|]. intros a s' [-> ->].
  eapply still_bind; [eapply still_lift with (Q := fun p s' => s' = s); [apply str_len_shown|auto]|]. intros a s' ->. apply still_ret. auto.
Qed.

(** The plan is followed. *)
Section Sim.
Variable g : setting.
Definition sim {A} (m : M A) (s : st) (v : view) (P : plan) (Q : A -> st -> view -> plan -> Prop) : Prop := forall tr o,
  runs (m s) tr o -> fine tr ->
  exists t1 t2 l v' P', core tr = t1 ++ t2 /\ story g v t1 l v' /\ follows g P l P' /\
    match o with
    | Wrong => False
    | Cut => partial g P' v' t2
    | Fin (Exit x) => ended g P' v' t2 tr x
    | Fin (Go (s', a)) => t2 = [] /\ Q a s' v' P'
    end.

Lemma partial_nil : forall p v, partial g p v [].
Proof. intros [] v; cbn; try constructor; auto; try constructor; eexists; reflexivity. Qed.
Lemma follows_app : forall p l q l' r, follows g p l q -> follows g q l' r -> follows g p (l ++ l') r.
Proof. intros p l q l' r A. induction A; intros B; cbn [app]; auto. econstructor; eauto. Qed.
Lemma story_app : forall v t l v1 t' l' v2, story g v t l v1 -> story g v1 t' l' v2 -> story g v (t ++ t') (l ++ l') v2.
Proof. intros v t l v1 t' l' v2 A. induction A; intros B; cbn [app]; auto. rewrite <- app_assoc. econstructor; eauto. Qed.
Lemma follows1 : forall p a q, step g p a q -> follows g p [a] q.
Proof. intros. econstructor; eauto. constructor. Qed.
Lemma story1 : forall v a t v', does g a v t v' -> story g v t [a] v'.
Proof. intros. rewrite <- (app_nil_r t). econstructor; eauto. constructor. Qed.
Lemma ended_app : forall p v t a b x, ended g p v t b x -> ended g p v t (a ++ b) x.
Proof. intros p v t a b x [H|[H|(H1 & H2 & H3)]]; [left; auto|right; left; auto|right; right]. split; auto. split; auto. apply failed_app; auto. Qed.

Lemma sim_weak : forall A (m : M A) s v P (Q Q' : A -> st -> view -> plan -> Prop), sim m s v P Q -> (forall a s' v' P', Q a s' v' P' -> Q' a s' v' P') -> sim m s v P Q'.
Proof.
  intros A m s v P Q Q' S H tr o R F. destruct (S tr o R F) as (t1 & t2 & l & v' & P' & E & A1 & A2 & A3). exists t1, t2, l, v', P'. repeat (split; auto).
  destruct o as [[[s' a]|x]| |]; auto. destruct A3; auto.
Qed.
Lemma sim_ret : forall A (a : A) s v P (Q : A -> st -> view -> plan -> Prop), Q a s v P -> sim (mret a) s v P Q.
Proof. intros A a s v P Q H tr o [-> ->] F. exists [], [], [], v, P. repeat (split; auto); constructor. Qed.
Lemma sim_bind : forall A B (m : M A) (f : A -> M B) s v P Q Q', sim m s v P Q -> (forall a s' v' P', Q a s' v' P' -> sim (f a) s' v' P' Q') -> sim (mbind m f) s v P Q'.
Proof.
  intros A B m f s v P Q Q' S H tr o R F. unfold mbind in R. apply runs_obind in R as [([s' a] & t1 & t2 & -> & R1 & R2)|[(y & R1 & ->)|[[R1 ->]|[R1 ->]]]].
  - apply fine_app in F as [F1 F2]. destruct (S _ _ R1 F1) as (u1 & u2 & l & v' & P' & E & A1 & A2 & -> & A3). rewrite app_nil_r in E.
    destruct (H _ _ _ _ A3 _ _ R2 F2) as (w1 & w2 & l' & v2 & P2 & E2 & B1 & B2 & B3).
    exists (u1 ++ w1), w2, (l ++ l'), v2, P2. rewrite core_app, E, E2, app_assoc. split; auto. split; [eapply story_app; eauto|]. split; [eapply follows_app; eauto|].
    destruct o as [[[s2 b]|x]| |]; auto. apply ended_app. auto.
  - destruct (S _ _ R1 F) as (u1 & u2 & l & v' & P' & E & A1 & A2 & A3). exists u1, u2, l, v', P'. auto.
  - destruct (S _ _ R1 F) as (u1 & u2 & l & v' & P' & E & A1 & A2 & A3). exists u1, u2, l, v', P'. auto.
  - destruct (S _ _ R1 F) as (u1 & u2 & l & v' & P' & E & A1 & A2 & A3). exists u1, u2, l, v', P'. auto.
Qed.
Lemma sim_still : forall A (m : M A) s v P (Q : A -> st -> Prop), still m s Q -> sim m s v P (fun a s' v' P' => Q a s' /\ v' = v /\ P' = P).
Proof.
  intros A m s v P Q S tr o R F. destruct (S _ _ R F) as [C H]. exists [], [], [], v, P. rewrite C. split; auto. split; [constructor|]. split; [constructor|].
  destruct o as [[[s' a]|x]| |]; auto.
  - destruct H as [-> H]. right. right. split; auto. split; auto. apply partial_nil.
  - apply partial_nil.
Qed.
Lemma sim_sbind : forall A B (m : M A) (f : A -> M B) s v P Q Q', still m s Q -> (forall a s', Q a s' -> sim (f a) s' v P Q') -> sim (mbind m f) s v P Q'.
Proof. intros A B m f s v P Q Q' S H. eapply sim_bind; [apply sim_still; exact S|]. cbn beta. intros a s' v' P' (H1 & -> & ->). auto. Qed.
Lemma sim_die : forall A s v (Q : A -> st -> view -> plan -> Prop), sim (mdie 111) s v Die Q.
Proof. intros A s v Q tr o [-> ->] F. exists [], [], [], v, Die. split; auto. split; [constructor|]. split; [constructor|]. left. auto. Qed.
End Sim.
