(** tlswrapper-smtp as a whole: what leads to the session. *)
From Coq Require Import Permutation.
From Verif.Model Require Import Base Sys Io Str Buffer Inet Parsenum Fdio Relay Session Jail Pem Proxy Conninfo Conn Resolve Main Getopt Lookup Smtpmain.
From Verif.Model Require Smtp.
From Verif.Spec Require Import Text Num Ip Proxy Program Descriptors Flow Restrict Process Endpoints Resolver Forward Server Attempt SmtpView SmtpSpec Mailer Blame.
From Verif.Proof Require Import Tac SysP BufferP StrP IpP CallsP MainCallsP ChildP ResolveP ConnP ConnFailP ToldP ForwardP SmtpIoP SmtpStP SmtpP TcpJailP TcpmainP ServerP BlameP SmtpResolveP SmtpDestP.
From Verif.Props Require Import PropJail PropSmtp.

Section Walk.
Variable I : inet.
Hypothesis OK : inet_ok I.
Variable fuel : nat.
Variables buf0 ip0 : list Z.
Variable env : environment.
Hypothesis ENV : strings env.
Variable nojail : bool.
Variable logid idtext : option (list Z).
Hypothesis ID : match logid, idtext with
  | None, None => True
  | Some m, Some i => cstring m i /\ nonul i /\ len i <= 2 ^ 32
  | _, _ => False
  end.
Variable cmd : smtpcmd.
Variable grey : option (list Z * Z).
Hypothesis GREY : grey_kept grey (shost cmd).
Variables (acc : option (list Z)) (dir : list Z).
Hypothesis ACC : cstr_opt (saccount (sset cmd)) = Ok acc.
Hypothesis DIR : cstr (sdir (sset cmd)) = Ok dir.
Hypothesis CRW : 1 <= scrw cmd <= 86400.
Variable L0 : list Z.
Hypothesis IN0 : In 0 L0.
Hypothesis IN1 : In 1 L0.
Notation quiet t := (Forall (fun e => wordless (fst e)) t).
Notation fails := (sfailclosed (sset cmd)).

Notation gives_up := (smtp_gives_up gai_list nojail acc dir (scrw cmd) grey fails).

Definition story (t : trace) (o : outcome ending) : Prop :=
  (quiet t /\ closes_open L0 t /\ (o = Cut \/ (o = Fin (Exit 111) /\ gives_up t))) \/
  exists t0 u g L1, t = t0 ++ u /\ closes_open L0 t0 /\ fdrun L0 t0 = Some L1 /\ Permutation L1 (wired g ++ L0) /\
    opened I env gai_list nojail (stimeout cmd) (scrw cmd) grey t0 g /\ strict g = fails /\ patience g = scrw cmd /\ SmtpSpec.id g = idtext /\ distinct g /\
    conforms g u (code o) /\ (o = Cut \/ exists x, o = Fin (Exit x)).
(** fstat succeeds for open descriptors only *)
Definition stats (h t : trace) : Prop :=
  forall t1 fd a t2 L, t = t1 ++ (Other (bs "fstat") [fd] [], a) :: t2 -> ret a = 0 -> fdrun L0 (h ++ t1) = Some L -> In fd L.
Lemma stats_app : forall h t1 t2, stats h (t1 ++ t2) -> stats h t1 /\ stats (h ++ t1) t2.
Proof.
  intros h t1 t2 S. split.
  - intros u fd a v L -> R E. apply (S u fd a (v ++ t2) L); auto. rewrite <- app_assoc. reflexivity.
  - intros u fd a v L -> R E. apply (S (t1 ++ u) fd a v L); auto; [rewrite <- app_assoc; reflexivity|]. rewrite app_assoc. exact E.
Qed.
Definition at0 (h : trace) (L : list Z) : Prop := quiet h /\ fdrun L0 h = Some L /\ closes_open L0 h /\ good L.
Definition go (h : trace) (L : list Z) (p : prog ending) : Prop :=
  forall tr o L', runs p tr o -> fdrun L tr = Some L' -> Forall tame tr -> stats h tr -> o <> Wrong /\ story (h ++ tr) o.
Lemma go_111 : forall h L, at0 h L -> gives_up h -> go h L (Ret (Exit 111)).
Proof. intros h L (Q & _ & C & _) G tr o L' R E F S. destruct R as [-> ->]. rewrite app_nil_r. split; [discriminate|]. left. auto. Qed.
Lemma go_bind : forall A (p : prog A) (f : A -> prog ending) h L Q, calls wordless p -> hoare tame L p Q -> at0 h L ->
  (forall L1 t x, Q L1 t x -> runs p t (Fin x) -> Forall tame t -> stats h t -> fdrun L t = Some L1 -> at0 (h ++ t) L1 -> go (h ++ t) L1 (f x)) -> go h L (pbind p f).
Proof.
  intros A p f h L Q C HP (QH & EH & CH & GH) HF tr o L' R E F S. apply runs_bind in R as [(x & t1 & t2 & -> & R1 & R2)|[[R1 ->]|[R1 ->]]].
  - rewrite fdrun_app in E. destruct (fdrun L t1) as [L1|] eqn:E1; [|discriminate]. apply Forall_app in F as [F1 F2]. apply stats_app in S as [S1 S2].
    destruct (HP _ _ _ R1 E1 F1) as (_ & C1 & Q1). rewrite app_assoc. apply (HF L1 t1 x (Q1 x eq_refl) R1 F1 S1 E1) with (L' := L'); auto.
    split; [apply Forall_app; split; [exact QH|exact (C _ _ R1)]|]. split; [rewrite fdrun_app, EH; exact E1|]. split; [|exact (good_run t1 L L1 GH (tame_low _ F1) E1)].
    apply closes_app; [exact CH|]. intros L2 E2. rewrite EH in E2. injection E2 as <-. exact C1.
  - destruct (HP _ _ _ R1 E F) as (W & _). congruence.
  - destruct (HP _ _ _ R1 E F) as (_ & C1 & _). split; [discriminate|]. left. split; [apply Forall_app; split; [exact QH|exact (C _ _ R1)]|]. split; [|auto].
    apply closes_app; [exact CH|]. intros L2 E2. rewrite EH in E2. injection E2 as <-. exact C1.
Qed.
Lemma go_lift : forall A (r : res A) x (f : A -> prog ending) h L, r = Ok x -> go h L (f x) -> go h L (pbind (lift r) f).
Proof. intros A r x f h L -> H. exact H. Qed.
Lemma go_idle : forall A (p : prog A) (f : A -> prog ending) h L, calls idle p -> (forall tr o, runs p tr o -> Forall tame tr -> o <> Wrong) -> at0 h L ->
  (forall t x, runs p t (Fin x) -> Forall tame t -> stats h t -> Forall (fun e => idle (fst e)) t -> at0 (h ++ t) L -> go (h ++ t) L (f x)) -> go h L (pbind p f).
Proof.
  intros A p f h L C W Q K. apply go_bind with (Q := fun L' _ _ => L' = L); auto.
  - eapply calls_weak; [exact C|exact idle_wordless].
  - apply h_inert; [eapply calls_weak; [exact C|exact idle_inert]|exact W].
  - intros L1 t x -> R F S _ Q1. apply K; auto. exact (C _ _ R).
Qed.
Lemma go_close : forall d (f : unit -> prog ending) h L, In d L -> at0 h L ->
  (forall e, fst e = Close d -> at0 (h ++ [e]) (filter (fun x => negb (x =? d)) L) -> go (h ++ [e]) (filter (fun x => negb (x =? d)) L) (f tt)) -> go h L (pbind (do (Close d)) f).
Proof.
  intros d f h L D A K. apply go_bind with (Q := fun L' _ _ => L' = filter (fun x => negb (x =? d)) L); auto.
  - unfold do. quick.
  - apply h_shut. exact D.
  - intros L1 t [] -> R _ _ _ A1. unfold do in R. apply fin_sys in R as (a & t2 & -> & [-> _]). apply K; auto.
Qed.
Lemma filter_none : forall (d : Z) L, ~ In d L -> filter (fun x => negb (x =? d)) L = L.
Proof.
  intros d L. induction L as [|x L IH]; intros N; [reflexivity|]. cbn [filter]. destruct (Z.eqb_spec x d) as [->|_]; [destruct N; left; reflexivity|]. cbn [negb]. f_equal. apply IH. intros X. apply N. right. exact X.
Qed.
Lemma filter_first : forall d L, ~ In d L -> filter (fun x => negb (x =? d)) (d :: L) = L.
Proof. intros d L N. cbn [filter]. rewrite Z.eqb_refl. cbn [negb]. apply filter_none. exact N. Qed.
Lemma idle_unread : forall h t : trace, Forall (fun e => noread (fst e)) h -> Forall (fun e => idle (fst e)) t -> Forall (fun e => noread (fst e)) (h ++ t).
Proof. intros h t A B. apply Forall_app. split; [exact A|]. eapply Forall_impl; [|exact B]. intros e. apply idle_noread. Qed.

(** ** The session *)
(** what was done up to the start of the mail server, whatever follows *)
Definition begun (tls : bool) (child t1 f0 : Z) (h : trace) : Prop :=
  exists a tp p1 p2 f c1 c2 s1 s2 rest r1 w2,
    h = a ++ tp ++ p1 ++ p2 ++ [(Other (bs "fork") [] [], f)] ++ [c1; c2] ++ s1 ++ s2 ++ rest /\
    map fst a = [Other (bs "signal") [13; 1] []; Other (bs "signal") [14; 2] []; Other (bs "alarm") [30] []] /\
    probed tls tp /\ piped r1 t1 p1 /\ piped f0 w2 p2 /\ ret f = child /\ 0 <> child /\ -1 <> child /\
    fst c1 = Close w2 /\ fst c2 = Close r1 /\ switched f0 true s1 /\ switched t1 true s2.
Lemma begun_more : forall tls child t1 f0 h t, begun tls child t1 f0 h -> begun tls child t1 f0 (h ++ t).
Proof.
  intros tls child t1 f0 h t (a & tp & p1 & p2 & f & c1 & c2 & s1 & s2 & rest & r1 & w2 & -> & H). exists a, tp, p1, p2, f, c1, c2, s1, s2, (rest ++ t), r1, w2. split; [|exact H]. rewrite <- !app_assoc. reflexivity.
Qed.
Lemma observed_more : forall h t i, observed I env false t i -> observed I env false (h ++ t) i.
Proof.
  intros h t i [H|(H & [(x & y & a & b & c & d & X & Y & Z0)|(nm & x & N & X & Z0)])]; [left; exact H|right; split; [exact H|left]|right; split; [exact H|right]].
  - exists x, y, a, b, c, d. split; [apply in_or_app; auto|]. split; [apply in_or_app; auto|exact Z0].
  - exists nm, x. split; [exact N|]. split; [apply in_or_app; auto|exact Z0].
Qed.
Lemma observed_less : forall h t i, observed I env false h i -> observed I env false (h ++ t) i.
Proof.
  intros h t i [H|(H & [(x & y & a & b & c & d & X & Y & Z0)|(nm & x & N & X & Z0)])]; [left; exact H|right; split; [exact H|left]|right; split; [exact H|right]].
  - exists x, y, a, b, c, d. split; [apply in_or_app; auto|]. split; [apply in_or_app; auto|exact Z0].
  - exists nm, x. split; [exact N|]. split; [apply in_or_app; auto|exact Z0].
Qed.
Notation settled := (policed gai_list nojail (scrw cmd) grey fails).
Lemma settled_more : forall (h t : trace) p, settled h p -> settled (h ++ t) p.
Proof.
  intros h t p H. unfold policed in *. destruct grey as [[host port]|]; [|exact H]. destruct H as (x & C & H). exists x. split; [apply chosen_more; exact C|]. destruct p as [fd|].
  - destruct H as (d & H). exists d. apply linked_more. exact H.
  - destruct H as (F & u1 & u & u2 & -> & H). split; [exact F|]. exists u1, u, (u2 ++ t). split; [rewrite <- !app_assoc; reflexivity|exact H].
Qed.
Section Session.
Variable tls : bool.
Variables child t1 f0 : Z.
Hypothesis TLS : tls = true -> In 5 L0 /\ In 6 L0.
Notation K := (f0 :: t1 :: L0).
Definition last_fd (p : option Z) : Z := match p with Some d => d | None => -1 end.
Notation finish p := (
    i <~ connection I env ;;
    _ <~ alarm (stimeout cmd) ;;
    x <~ Smtp.smtp fuel (Smtp.mkcfg (scrw cmd) logid (iptostr I (remoteip i) ++ [0]) p fails tls child f0 t1) ;;
    Ret (Exit x)).
Lemma finish_go : forall h L p, at0 h L -> begun tls child t1 f0 h -> Permutation L (f0 :: t1 :: match p with Some d => [d] | None => [] end ++ L0) ->
  (forall f, In f L -> got f h = []) -> settled h p -> go h L (finish (last_fd p)).
Proof.
  intros h L p A B P U S.
  apply go_idle; [apply connection_idle|intros tr o R _; exact (proj1 (connection_whole I OK env tr o ENV R))|exact A|]. intros u1 i RI _ _ T1 A1.
  pose proof (proj2 (connection_whole I OK env u1 (Fin i) ENV RI) i eq_refl) as (_ & _ & WI & _). destruct (connection_ok I OK env u1 i ENV RI) as [_ OB].
  apply go_idle; [unfold alarm, do; quick|intros ? ? R _; exact (do_nowrong _ _ _ R)|exact A1|]. intros u2 [] RA _ _ T2 A2.
  unfold alarm in RA. apply fin_sys in RA as (al & t & -> & [-> _]).
  set (g := mkset idtext (iptostr I (remoteip i)) p fails tls child f0 t1 (scrw cmd)).
  assert (INL : forall f, In f (f0 :: t1 :: match p with Some d => [d] | None => [] end ++ L0) -> In f L) by (intros f X; eapply Permutation_in; [apply Permutation_sym; exact P|exact X]).
  destruct A as (_ & _ & _ & ND & LO). rewrite Forall_forall in LO.
  assert (ND1 : NoDup (f0 :: t1 :: match p with Some d => [d] | None => [] end ++ L0)) by (eapply Permutation_NoDup; eauto).
  assert (SU : setup (Smtp.mkcfg (scrw cmd) logid (iptostr I (remoteip i) ++ [0]) (last_fd p) fails tls child f0 t1) g).
  { split; [split; [exact CRW|reflexivity]|]. split; [exact ID|]. split.
    - cbn [Smtp.ipstr SmtpSpec.ip g]. destruct (iptostr_chars I OK _ WI) as (C & LE & _). pose proof (ipchars_nonul _ C) as NN. split; [exists []; reflexivity|]. split; [exact NN|]. unfold len. lia.
    - split; [|split; [reflexivity|]; split; [reflexivity|]; split; [reflexivity|]].
      + cbn [SmtpSpec.policy g Smtp.greyfd]. destruct p as [d|]; [|reflexivity]. split; [reflexivity|]. apply LO, INL. right. right. left. reflexivity.
      + split; split; try reflexivity; apply LO, INL; cbn [In]; auto. }
  assert (D : distinct g).
  { inversion ND1 as [|? ? N1 N2]; subst. inversion N2 as [|? ? N3 N4]; subst. unfold distinct, gfd. cbn [SmtpSpec.policy toprog fromprog offers g In].
    assert (X0 : forall x, In x L0 -> f0 <> x) by (intros x X ->; apply N1; right; apply in_or_app; auto).
    assert (X1 : forall x, In x L0 -> t1 <> x) by (intros x X ->; apply N3; apply in_or_app; auto).
    assert (P0 : 0 <= f0 < 1024) by (apply LO, INL; left; reflexivity). assert (P1 : 0 <= t1 < 1024) by (apply LO, INL; right; left; reflexivity).
    assert (T56 : tls = true -> t1 <> 5 /\ f0 <> 6) by (intros E; destruct (TLS E); split; auto).
    pose proof (X0 0 IN0). pose proof (X1 1 IN1).
    destruct p as [d|].
    - cbn [app] in *. inversion N4 as [|? ? N5 N6]; subst. assert (d <> 0 /\ d <> 1) as [D0 D1] by (split; intros ->; auto).
      assert (f0 <> d) by (intros ->; apply N1; right; left; reflexivity). assert (t1 <> d) by (intros ->; apply N3; left; reflexivity).
      split; [intros [X|[X|[]]]; congruence|]. split; [intros [X|[X|[]]]; congruence|]. auto.
    - split; [intros [X|[X|[]]]; [congruence|lia]|]. split; [intros [X|[X|[]]]; [congruence|lia]|]. split; [exact T56|]. split; discriminate. }
  assert (UN : forall f, In f L -> got f ((h ++ u1) ++ [(Other (bs "alarm") [stimeout cmd] [], al)]) = []) by (intros f X; rewrite !got_idle by assumption; auto).
  assert (OP : opened I env gai_list nojail (stimeout cmd) (scrw cmd) grey ((h ++ u1) ++ [(Other (bs "alarm") [stimeout cmd] [], al)]) g).
  { constructor.
    - apply A2.
    - destruct B as (a & tp & p1 & p2 & f & c1 & c2 & s1 & s2 & rest & r1 & w2 & -> & B1 & B2 & B3 & B4 & B5 & B6 & B7 & B8 & B9 & B10 & B11).
      exists a, tp, p1, p2, f, c1, c2, s1, s2, (rest ++ u1), (Other (bs "alarm") [stimeout cmd] [], al), r1, w2. split; [rewrite <- !app_assoc; reflexivity|]. repeat (split; [assumption|]). reflexivity.
    - split; [apply UN, INL; right; right; apply in_or_app; auto|]. split; [apply UN, INL; left; reflexivity|]. intros fd EF. cbn [SmtpSpec.policy g] in EF. subst p. apply UN, INL. right. right. left. reflexivity.
    - apply settled_more, settled_more. exact S.
    - exists i. split; [apply observed_less, observed_more; exact OB|reflexivity]. }
  intros tr o L' R E F _.
  assert (FI : forall t', Forall tame t' -> fine t').
  { intros t' FT. split; [apply tame_legal; exact FT|]. eapply Forall_impl; [|exact FT]. intros e TE. unfold FdioP.clock_ok. destruct (fst e) eqn:EC; auto. destruct TE as (_ & (TS & _) & _). exact (TS EC). }
  destruct A2 as (_ & EA & CA & _).
  assert (END : forall q, o = q -> conforms g tr (code q) -> (q = Cut \/ exists x, q = Fin (Exit x)) -> story (((h ++ u1) ++ [(Other (bs "alarm") [stimeout cmd] [], al)]) ++ tr) o).
  { intros q -> CF OQ. right. exists ((h ++ u1) ++ [(Other (bs "alarm") [stimeout cmd] [], al)]), tr, g, L. split; [reflexivity|]. split; [exact CA|]. split; [exact EA|]. split; [exact P|]. split; [exact OP|]. split; [reflexivity|]. split; [reflexivity|]. split; [reflexivity|]. split; [exact D|]. split; [exact CF|exact OQ]. }
  apply runs_bind in R as [(y & v1 & v2 & -> & R1 & R2)|[[R1 ->]|[R1 ->]]].
  - destruct R2 as [-> ->]. rewrite app_nil_r in *. destruct (C51_session _ _ _ SU _ _ R1 (FI _ F)) as [_ CF]. split; [discriminate|]. apply (END (Fin (Exit y)) eq_refl); [exact CF|eauto].
  - destruct (C51_session _ _ _ SU _ _ R1 (FI _ F)) as [W _]. congruence.
  - destruct (C51_session _ _ _ SU _ _ R1 (FI _ F)) as [_ CF]. split; [discriminate|]. apply (END Cut eq_refl); [exact CF|auto].
Qed.

(** ** The policy server *)
Lemma grey_cases : grey = None \/ exists host port, grey = Some (host, port).
Proof. destruct grey as [[host port]|]; [right; exists host, port|left]; reflexivity. Qed.
Lemma go_if : forall (b : bool) h L p q, (b = true -> go h L p) -> (b = false -> go h L q) -> go h L (if b then p else q).
Proof. intros [] h L p q A B; auto. Qed.
Definition resfd (r : resolver) : list Z := match r with Some (fd, _) => [fd] | None => [] end.
(** what conn_init has prepared, if there is a policy server *)
Definition prepared1 (h : trace) (L : list Z) (r : resolver) (sl : slots) : Prop :=
  match grey with
  | None => L = K
  | Some _ => ConnP.inv (resfd r ++ K) L sl /\ ConnP.filled 1 sl /\ doubled h 0 1 sl /\ (nojail = false -> r <> None) /\ (nojail = true -> r = None)
  end.
Lemma doubled_more : forall h t n sl, doubled h 0 n sl -> doubled (h ++ t) 0 n sl.
Proof. intros h t n sl D k x y KK N. destruct (D k x y KK N) as (r & G1 & G2). exists r. split; [apply in_or_app; auto|exact G2]. Qed.
Lemma inv_close : forall fd L sl, ConnP.inv ([fd] ++ K) L sl -> In fd L /\ ConnP.inv K (filter (fun x => negb (x =? fd)) L) sl.
Proof.
  intros fd L sl [A B C D]. cbn [app] in B. split; [eapply Permutation_in; [apply Permutation_sym; exact B|left; reflexivity]|].
  assert (N : NoDup (fd :: K ++ tracked sl)) by (eapply Permutation_NoDup; [exact B|exact C]). inversion N as [|? ? N1 N2]; subst. constructor.
  - exact A.
  - eapply perm_trans; [apply perm_filter; exact B|]. change (f0 :: t1 :: L0 ++ tracked sl) with (K ++ tracked sl). rewrite filter_first by exact N1. apply Permutation_refl.
  - apply NoDup_filter. exact C.
  - apply Forall_forall. intros x X. apply filter_In in X as [X _]. rewrite Forall_forall in D. auto.
Qed.
Lemma conn_go : forall h L host port x sl, grey = Some (host, port) -> at0 h L -> begun tls child t1 f0 h -> Forall (fun e => noread (fst e)) h ->
  ConnP.inv K L sl -> ConnP.filled 1 sl -> doubled h 0 1 sl -> length x = 16%nat -> chosen gai_list nojail host h x ->
  go h L ('(w, _, _) <~ conn fuel sl (scrw cmd) x 16 [port / 256; port mod 256] ;;
      match w with
      | None => if fails then Ret (Exit 111) else finish (-1)
      | Some (g0, g1) => _ <~ do (Close g1) ;; finish g0
      end).
Proof.
  intros h L host port x sl GR A B NR IV FL DB LX CH.
  eapply go_bind; [apply conn_wordless| |exact A|].
  { apply h_and with (R := fun t '(w, _, _) => w = None -> in_vain [x] [port / 256; port mod 256] (scrw cmd) t).
    - eapply h_weak; [|eapply (h_conn K L fuel sl 1 (scrw cmd) x 16 [port / 256; port mod 256]); [exact IV|exact FL|lia|lia| | |]].
      + intros e T. apply T.
      + unfold len. lia.
      + change (len [port / 256; port mod 256]) with 2. lia.
      + reflexivity || (change (Z.min 16 128 / 16) with 1; lia).
    - intros t [[w ip'] sl'] R ->. apply conn_fail in R; [|lia|lia|eapply inv_tracked; exact IV].
      change (Z.to_nat (Z.min 16 128 / 16)) with 1%nat in R. cbn [seq map firstn] in R. replace (ConnP.addr x 0) with x in R; [exact R|].
      unfold ConnP.addr. change (skipn (16 * 0) x) with x. symmetry. apply firstn_all2. lia. }
  cbn beta. intros L1 t [[w ip'] sl'] [Q VA] R F _ E A1.
  assert (UN : forall f, In f L1 -> got f (h ++ t) = []).
  { intros f FL1. rewrite got_app, (noread_got f h NR). cbn [app]. apply unread_got. intros m a N. apply (conn_tidy _ _ _ _ _ _ _ _ R) in N. apply (noopen_closed t L L1 f) in N; auto. exact (conn_noopen _ _ _ _ _ _ _ _ R). }
  destruct w as [[g0 g1]|].
  - destruct Q as (k & KK & _ & J & NG & SL & PM). assert (k = 0%nat) by lia. subst k. specialize (FL 0%nat _ SL). cbn in FL.
    assert (ND : NoDup (g0 :: g1 :: K)) by (eapply Permutation_NoDup; [exact PM|apply A1]). inversion ND as [|? ? ND1 ND2]; subst. inversion ND2 as [|? ? ND3 ND4]; subst.
    apply go_close; [eapply Permutation_in; [apply Permutation_sym; exact PM|right; left; reflexivity]|exact A1|]. intros e EC A2.
    change g0 with (last_fd (Some g0)). apply finish_go; [exact A2|apply begun_more, begun_more; exact B| | |].
    + eapply perm_trans; [apply perm_filter; exact PM|]. cbn [filter]. destruct (Z.eqb_spec g0 g1) as [X|_]; [exfalso; apply ND1; left; auto|]. cbn [negb]. rewrite Z.eqb_refl. cbn [negb].
      change (filter (fun x0 : Z => negb (x0 =? g1)) K) with (filter (fun x0 : Z => negb (x0 =? g1)) K).
      match goal with |- Permutation (g0 :: ?l) _ => replace l with K by (symmetry; exact (filter_none g1 K ND3)) end.
      change (Permutation ([g0] ++ [f0; t1] ++ L0) ([f0; t1] ++ [g0] ++ L0)). rewrite !app_assoc. apply Permutation_app_tail, Permutation_app_comm.
    + intros f X. apply filter_In in X as [X _]. rewrite got_app, (UN f X). destruct e as [c a]. cbn [fst] in EC. subst c. reflexivity.
    + unfold policed. rewrite GR. exists x. split; [apply chosen_more, chosen_more; exact CH|]. exists g1. split.
      * destruct J as (a & J1 & J2). exists x, a. split; [left; reflexivity|]. unfold conn_call in J1. cbn [firstn] in J1. replace (ConnP.addr x 0) with x in J1 by (unfold ConnP.addr; change (skipn (16 * 0) x) with x; symmetry; apply firstn_all2; lia).
        split; [apply in_or_app; left; apply in_or_app; right; exact J1|]. destruct J2 as [J2|(q & J2 & J3)]; [auto|]. right. exists q. split; [apply in_or_app; left; apply in_or_app; right; exact J2|exact J3].
      * destruct (DB 0%nat g0 g1 ltac:(lia) SL) as (r & D1 & D2). exists r. split; [apply in_or_app; left; apply in_or_app; left; exact D1|exact D2].
  - destruct Q as [PM _]. apply go_if; intros FC; [eapply go_111; [exact A1|]; do 3 right; exists host, port; split; [exact GR|]; do 3 right; split; [exact FC|]; exists x; split; [apply chosen_more; exact CH|apply within_end, VA; reflexivity]|].
    change (-1) with (last_fd None). apply finish_go; [exact A1|apply begun_more; exact B|exact PM|exact UN|].
    unfold policed. rewrite GR. exists x. split; [apply chosen_more; exact CH|]. split; [exact FC|]. exists h, t, []. split; [rewrite app_nil_r; reflexivity|auto].
Qed.
Lemma jailed_go : forall h L r sl, at0 h L -> begun tls child t1 f0 h -> Forall (fun e => noread (fst e)) h -> prepared1 h L r sl ->
  go h L (smtp_jailed I fuel env nojail logid cmd tls child t1 f0 r sl).
Proof.
  intros h L r sl A B NR P. unfold smtp_jailed. eapply go_lift; [exact ACC|]. eapply go_lift; [exact DIR|].
  apply go_idle; [destruct nojail; [quick|apply jail_idle]| |exact A|].
  { intros tr o R F. destruct nojail; [destruct R as [_ ->]; discriminate|]. exact (proj1 (C36_no_ub _ _ _ _ _ R (tame_pids _ F))). }
  intros u z RJ FT _ T A1. destruct (Z.eqb_spec (fst z) (-1)) as [RE|RE].
  { eapply go_111; [exact A1|]. right. right. left. destruct nojail; [destruct RJ as [_ RJ]; injection RJ as ->; discriminate|]. split; [reflexivity|]. apply within_end. eapply jail_blame; [exact RJ|apply tame_pids; exact FT|exact RE]. }
  clear RJ FT RE.
  pose proof (begun_more _ _ _ _ _ u B) as B1. pose proof (idle_unread _ _ NR T) as NR1. clear A B NR T z.
  unfold prepared1 in P. unfold grey_connect. pose proof GREY as GK. unfold grey_kept in GK. destruct grey_cases as [GR|(host & port & GR)]; rewrite GR in GK, P.
  2: { destruct GK as (NH & rest & E). rewrite E. destruct P as (IV & FL & DB & RN & RT).
    assert (D1 : doubled (h ++ u) 0 1 sl) by (apply doubled_more; exact DB). clear DB. revert A1 B1 NR1 D1. generalize (h ++ u : trace). clear h u. intros h A B NR DB.
    apply go_idle; [| |exact A|].
    + destruct nojail; [apply calls_bind; [apply resolve_idle|]; intros [[? ?] ?]; apply calls_ret|]. destruct r as [[fd pid]|]; [apply request_idle|apply calls_bad].
    + intros t o R F. exact (proj1 (asked nojail host rest NH r t o F R RN)).
    + intros t [n x] R F _ T A1. destruct (asked nojail host rest NH r t _ F R RN) as [_ AN]. specialize (AN _ _ eq_refl). destruct (Z.leb_spec n 0) as [N0|N0]; [eapply go_111; [exact A1|]; do 3 right; exists host, port; split; [exact GR|]; right; right; left; apply within_end; eapply asked_nowhere; eauto|]. destruct AN as [AN|(-> & LX & CH)]; [lia|].
      assert (C1 : chosen gai_list nojail host (h ++ t) x).
      { unfold chosen in *. destruct nojail.
        - destruct CH as (y & a & C1 & C2). exists y, a. split; [apply in_or_app; auto|exact C2].
        - destruct CH as (cs & fd & v1 & s & v2 & a & v3 & -> & C). exists cs, fd, (h ++ v1), s, v2, a, v3. split; [rewrite <- app_assoc; reflexivity|exact C]. }
      pose proof (begun_more _ _ _ _ _ t B) as B1. pose proof (idle_unread _ _ NR T) as NR1. pose proof (doubled_more _ t _ _ DB) as D1. clear A B NR DB CH T.
      revert A1 B1 NR1 D1 C1. generalize (h ++ t : trace). clear h t R F. intros h A B NR DB CH.
      apply go_bind with (Q := fun L' t _ => ConnP.inv K L' sl /\ Forall (fun e => noread (fst e)) t); [| |exact A|].
      * destruct nojail; [quick|]. destruct r as [[fd pid]|]; unfold resolvehost_close, do, Send; quick; try (repeat split; fail). eapply calls_weak; [apply wait_idle|exact idle_wordless].
      * apply h_and with (R := fun t _ => Forall (fun e => noread (fst e)) t).
        -- destruct nojail; [rewrite (RT eq_refl) in IV; apply h_ret; exact IV|]. destruct r as [[fd pid]|]; [|destruct (RN eq_refl eq_refl)]. cbn [resolvehost_close]. destruct (inv_close _ _ _ IV) as [IF IV1].
           eapply h_bind; [apply h_inert; [unfold do, Send; quick|intros ? ? R _; exact (do_nowrong _ _ _ R)]|]. cbn beta. intros L1 t y -> _ _.
           eapply h_bind; [apply h_shut; exact IF|]. cbn beta. intros L1 t2 y2 -> _ _.
           eapply h_bind; [apply h_inert; [eapply calls_weak; [apply wait_idle|exact idle_inert]|intros ? ? R _; exact (wait_nowrong _ _ _ _ R)]|]. cbn beta. intros L1 t3 y3 -> _ _. apply h_ret. exact IV1.
        -- intros t y R. assert (C : calls noread (if nojail then Ret tt else resolvehost_close fuel r)); [|exact (C _ _ R)].
           destruct nojail; [quick|]. destruct r as [[fd pid]|]; unfold resolvehost_close, do, Send; quick; try (repeat split; fail). eapply calls_weak; [apply wait_idle|exact idle_noread].
      * intros L1 t y [IV1 NT] _ _ _ _ A1. eapply conn_go; eauto; [apply begun_more; exact B|apply Forall_app; auto|apply doubled_more; exact DB|apply chosen_more; exact CH]. }
  rewrite GK. subst L. change (-1) with (last_fd None). apply finish_go; [exact A1|exact B1|apply Permutation_refl|intros f _; apply noread_got; exact NR1|]. unfold policed. rewrite GR. reflexivity.
Qed.
End Session.

(** ** From the pipes to the jail *)
Lemma opens_two : forall nm L, nm = bs "pipe" \/ nm = bs "socketpair" ->
  hoare tame L (sys1 (Other nm [] [])) (fun L' t a => t = [(Other nm [] [], a)] /\ (L' = L /\ ret a = -1 \/
    (L' = nth 1 (data a) 0 :: nth 0 (data a) 0 :: L /\ ~ In (nth 0 (data a) 0) L /\ ~ In (nth 1 (data a) 0) (nth 0 (data a) 0 :: L)))).
Proof.
  intros nm L N. apply h_sys; [discriminate|]. intros a L' _ E. assert (E2 : opens2 L a = Some L') by (destruct N as [-> | ->]; exact E). split; [reflexivity|].
  apply opens2_ok in E2 as [[E2 ->]|(r0 & s0 & <- & <- & P1 & P2 & P3 & P4 & ->)]; [left; auto|right; auto].
Qed.
Lemma pipe_go : forall h L k, at0 h L -> (forall r w p, piped r w p -> ~ In r L -> ~ In w (r :: L) -> Forall (fun e => noread (fst e)) p -> at0 (h ++ p) (w :: r :: L) -> go (h ++ p) (w :: r :: L) (k r w)) -> go h L (open_pipe k).
Proof.
  intros h L k A K. unfold open_pipe. eapply go_bind; [quick|apply opens_two; left; reflexivity|exact A|]. cbn beta. intros L1 t a (-> & PI) _ _ _ _ A1.
  destruct (Z.eqb_spec (ret a) (-1)) as [EA|EA]; [eapply go_111; [exact A1|]; left; apply within_end; exists a; auto|]. destruct PI as [[_ X]|(-> & N0 & N1)]; [contradiction|]. cbv zeta.
  set (r := nth 0 (data a) 0) in *. set (w := nth 1 (data a) 0) in *.
  apply go_idle; [unfold do; quick|intros ? ? R _; exact (do_nowrong _ _ _ R)|exact A1|]. intros u1 [] R1 _ _ T1 A2.
  assert (BI : forall d b, calls idle (blocking d b)) by (intros; unfold blocking; quick; unfold do; quick).
  assert (BW : forall d b tr o, runs (blocking d b) tr o -> Forall tame tr -> o <> Wrong).
  { intros d b tr o R _. unfold blocking in R. destruct R as [[_ ->]|(x & t & -> & R)]; [discriminate|]. cbn [pbind] in R. destruct (ret x =? -1); [destruct R as [_ ->]; discriminate|]. exact (do_nowrong _ _ _ R). }
  apply go_idle; [apply BI|apply BW|exact A2|]. intros u2 [] R2 _ _ T2 A3. apply blocking_switched in R2.
  apply go_idle; [unfold do; quick|intros ? ? R _; exact (do_nowrong _ _ _ R)|exact A3|]. intros u3 [] R3 _ _ T3 A4.
  apply go_idle; [apply BI|apply BW|exact A4|]. intros u4 [] R4 _ _ T4 A5. apply blocking_switched in R4.
  unfold do in R1, R3. apply fin_sys in R1 as (b & v1 & -> & [-> _]). apply fin_sys in R3 as (c & v3 & -> & [-> _]).
  assert (EQ : (((((h ++ [(Other (bs "pipe") [] [], a)]) ++ [(Other (bs "fcntl") [r; F_SETFD; 1] [], b)]) ++ u2) ++ [(Other (bs "fcntl") [w; F_SETFD; 1] [], c)]) ++ u4) =
    h ++ (Other (bs "pipe") [] [], a) :: ((Other (bs "fcntl") [r; 2; 1] [], b) :: u2) ++ ((Other (bs "fcntl") [w; 2; 1] [], c) :: u4)) by (rewrite <- !app_assoc; reflexivity).
  match type of A5 with at0 ?x _ => replace x with (h ++ (Other (bs "pipe") [] [], a) :: ((Other (bs "fcntl") [r; 2; 1] [], b) :: u2) ++ ((Other (bs "fcntl") [w; 2; 1] [], c) :: u4)) in A5 |- * by (symmetry; exact EQ) end.
  apply K; auto.
  - exists a, b, c, u2, u4. split; [reflexivity|]. auto 10.
  - constructor; [exact Logic.I|]. apply Forall_app. split; (constructor; [exact Logic.I|]); (eapply Forall_impl; [|eassumption]); intros e; apply idle_noread.
Qed.
Lemma parent_go : forall h L tls child p0 t1 f0 q1 a tp p1 p2 f, (tls = true -> In 5 L0 /\ In 6 L0) ->
  h = a ++ tp ++ p1 ++ p2 ++ [(Other (bs "fork") [] [], f)] -> map fst a = [Other (bs "signal") [13; 1] []; Other (bs "signal") [14; 2] []; Other (bs "alarm") [30] []] ->
  probed tls tp -> piped p0 t1 p1 -> piped f0 q1 p2 -> ret f = child -> 0 <> child -> -1 <> child ->
  at0 h L -> Forall (fun e => noread (fst e)) h -> L = q1 :: f0 :: t1 :: p0 :: L0 ->
  go h L (smtp_parent I fuel buf0 ip0 env nojail logid cmd tls child p0 t1 f0 q1).
Proof.
  intros h L tls child p0 t1 f0 q1 a tp p1 p2 f TLS EH M B2 B3 B4 B5 B6 B7 A NR EL. unfold smtp_parent.
  assert (ND : NoDup (q1 :: f0 :: t1 :: p0 :: L0)) by (rewrite <- EL; apply A). inversion ND as [|? ? N1 ND1]; subst. inversion ND1 as [|? ? N2 ND2]; subst. inversion ND2 as [|? ? N3 ND3]; subst. inversion ND3 as [|? ? N4 ND4]; subst.
  apply go_close; [left; reflexivity|exact A|]. intros c1 C1 A1. rewrite filter_first in * by exact N1.
  apply go_close; [right; right; left; reflexivity|exact A1|]. intros c2 C2 A2.
  assert (FI : filter (fun x => negb (x =? p0)) (f0 :: t1 :: p0 :: L0) = f0 :: t1 :: L0).
  { cbn [filter]. rewrite Z.eqb_refl. rewrite (proj2 (Z.eqb_neq f0 p0)) by (intros ->; apply N2; right; left; reflexivity). rewrite (proj2 (Z.eqb_neq t1 p0)) by (intros ->; apply N3; left; reflexivity). cbn [negb]. rewrite (filter_none p0 L0 N4). reflexivity. }
  rewrite FI in *. clear FI.
  assert (BI : forall d b, calls idle (blocking d b)) by (intros; unfold blocking; quick; unfold do; quick).
  assert (BW : forall d b tr o, runs (blocking d b) tr o -> Forall tame tr -> o <> Wrong).
  { intros d b tr o R _. unfold blocking in R. destruct R as [[_ ->]|(x & t & -> & R)]; [discriminate|]. cbn [pbind] in R. destruct (ret x =? -1); [destruct R as [_ ->]; discriminate|]. exact (do_nowrong _ _ _ R). }
  apply go_idle; [apply BI|apply BW|exact A2|]. intros s1 [] R1 _ _ T1 A3. apply blocking_switched in R1.
  apply go_idle; [apply BI|apply BW|exact A3|]. intros s2 [] R2 _ _ T2 A4. apply blocking_switched in R2.
  match type of A4 with at0 ?x _ => set (z := x) in * end.
  assert (BG : begun tls (ret f) t1 f0 z).
  { exists a, tp, p1, p2, f, c1, c2, s1, s2, [], p0, q1. split; [unfold z; rewrite <- !app_assoc, app_nil_r; reflexivity|]. auto 20. }
  assert (NR2 : Forall (fun e => noread (fst e)) z).
  { unfold z. apply idle_unread; [|exact T2]. apply idle_unread; [|exact T1]. apply Forall_app. split; [apply Forall_app; split; [exact NR|]|]; (constructor; [|constructor]); [rewrite C1|rewrite C2]; exact Logic.I. }
  clearbody z. revert A4 BG NR2. generalize z. clear z. clear a tp p1 p2 c1 c2 s1 s2 M B2 B3 B4 C1 C2 R1 R2 T1 T2 A A1 A2 A3 NR BI BW. intros h A BG NR.
  apply go_idle; [unfold Pem.randombytes; quick| |exact A|].
  { intros t o RX _. unfold Pem.randombytes in RX. destruct RX as [[_ ->]|(x & u & _ & [_ ->])]; discriminate. }
  intros t x _ _ _ T A1. pose proof (begun_more _ _ _ _ _ t BG) as B1. pose proof (idle_unread _ _ NR T) as NR1. clear A BG NR T. revert A1 B1 NR1. generalize (h ++ t : trace). clear h t. intros h A B NR.
  pose proof GREY as GK. unfold grey_kept in GK. destruct grey_cases as [GR|(host & port & GR)]; rewrite GR in GK.
  { rewrite GK. apply jailed_go; auto. unfold prepared1. rewrite GR. reflexivity. }
  destruct GK as (NH & rest & E). rewrite E.
  assert (K : forall v L r, at0 v L -> begun tls (ret f) t1 f0 v -> Forall (fun e => noread (fst e)) v -> L = resfd r ++ f0 :: t1 :: L0 -> (nojail = false -> r <> None) -> (nojail = true -> r = None) ->
    go v L ('(ok, sl) <~ conn_init conn_start_state 1 ;; if negb ok then Ret (Exit 111) else smtp_jailed I fuel env nojail logid cmd tls (ret f) t1 f0 r sl)).
  { clear h A B NR. intros v L r A B NR EL RN RT. eapply go_bind; [apply init_calls| |exact A|].
    - apply h_and with (R := fun t '(ok, sl') => (ok : bool) = true -> doubled t 0 (Z.to_nat (Z.min 1 8)) sl').
      + apply h_init, start_inv; [apply A|]. destruct A as (_ & _ & _ & _ & PO). eapply Forall_impl; [|exact PO]. cbn beta. intros; lia.
      + intros tr [ok sl'] R ->. eapply init_dups; eauto.
    - cbn beta. intros L1 t [ok sl] [[IV FL] DU] R F _ _ A1. destruct ok; cbn [negb]; [|eapply go_111; [exact A1|]; do 3 right; exists host, port; split; [exact GR|]; right; left; apply within_r; eapply init_blame; exact R]. change (Z.to_nat (Z.min 1 8)) with 1%nat in *. specialize (DU eq_refl).
      apply jailed_go; auto; [apply begun_more; exact B|apply Forall_app; split; [exact NR|exact (proj2 (init_calls _ _) _ _ R)]|]. unfold prepared1. rewrite GR. split; [rewrite <- EL; exact IV|]. split; [exact FL|]. split; [|auto].
      intros k y z KK N. destruct (DU k y z KK N) as (r0 & G1 & G2). exists r0. split; [apply in_or_app; auto|exact G2]. }
  apply go_if; intros NJ.
  { apply K; auto. congruence. }
  unfold resolvehost_init. eapply go_bind; [quick|apply opens_two; right; reflexivity|exact A|]. cbn beta. intros L1 t b (-> & PI) _ _ _ _ A1.
  destruct (Z.eqb_spec (ret b) (-1)) as [EA|EA]; [eapply go_111; [exact A1|]; do 3 right; exists host, port; split; [exact GR|]; left; split; [exact NJ|]; apply within_end; exists b; auto|]. destruct PI as [[_ X]|(-> & M0 & M1)]; [contradiction|]. cbv zeta.
  pose proof (begun_more _ _ _ _ _ [(Other (bs "socketpair") [] [], b)] B) as B1.
  assert (NR1 : Forall (fun e => noread (fst e)) (h ++ [(Other (bs "socketpair") [] [], b)])) by (apply Forall_app; split; [exact NR|constructor; [exact Logic.I|constructor]]).
  set (s0 := nth 0 (data b) 0) in *. set (s1 := nth 1 (data b) 0) in *. revert A1 B1 NR1. generalize (h ++ [(Other (bs "socketpair") [] [], b)] : trace). clearbody s0 s1. clear h A B NR b EA. intros h A B NR.
  apply go_idle; [quick|intros ? ? R _; exact (sys_nowrong _ _ _ R)|exact A|]. intros t y RF FF _ T A1. pose proof (fork_tame _ _ RF FF) as Y0.
  apply runs_sys1 in RF as [[_ RF]|(y' & EU & RF)]; [discriminate|]. injection RF as <-.
  destruct (Z.eqb_spec (ret y) (-1)) as [EF|EF].
  - apply go_close; [right; left; reflexivity|exact A1|]. intros e1 _ A2. apply go_close; [apply filter_keeps; [left; reflexivity|intros X; apply M1; left; auto]|exact A2|]. intros e2 _ A3. eapply go_111; [exact A3|]. right. left. apply within_l, within_l, within_end. exists y. auto.
  - destruct (Z.eqb_spec (ret y) 0); [contradiction|]. apply go_close; [right; left; reflexivity|exact A1|]. intros e1 E1 A2.
    assert (FI : filter (fun x => negb (x =? s0)) (s1 :: s0 :: f0 :: t1 :: L0) = s1 :: f0 :: t1 :: L0).
    { assert (N : s1 <> s0) by (intros X; apply M1; left; auto). change (filter (fun x => negb (x =? s0)) (s1 :: s0 :: f0 :: t1 :: L0)) with ((if negb (s1 =? s0) then [s1] else []) ++ filter (fun x => negb (x =? s0)) (s0 :: f0 :: t1 :: L0)) || idtac.
      cbn [filter]. rewrite (proj2 (Z.eqb_neq s1 s0) N). cbn [negb]. f_equal. exact (filter_first s0 (f0 :: t1 :: L0) M0). }
    rewrite FI in *. apply K; auto; try discriminate; try congruence.
    + apply begun_more, begun_more. exact B.
    + apply Forall_app. split; [apply idle_unread; assumption|]. constructor; [rewrite E1; exact Logic.I|constructor].
Qed.
Hypothesis GL : good L0.
Lemma begin_go : go [] L0 (_ <~ signal SIGPIPE IGN ;; _ <~ signal Session.SIGALRM HANDLER ;; _ <~ alarm 30 ;;
    tls <~ has_starttls ;;
    open_pipe (fun t0 t1 => open_pipe (fun f0 f1 =>
    f <~ sys1 (Other (bs "fork") [] []) ;;
    if ret f =? -1 then Ret (Exit 111)
    else if ret f =? 0 then server_main cmd t0 t1 f0 f1
    else smtp_parent I fuel buf0 ip0 env nojail logid cmd tls (ret f) t0 t1 f0 f1))).
Proof.
  assert (A : at0 [] L0) by (split; [constructor|]; split; [reflexivity|]; split; [exact Logic.I|exact GL]).
  apply go_idle; [unfold signal, do; quick|intros ? ? R _; exact (do_nowrong _ _ _ R)|exact A|]. intros u1 [] R1 _ _ T1 A1.
  apply go_idle; [unfold signal, do; quick|intros ? ? R _; exact (do_nowrong _ _ _ R)|exact A1|]. intros u2 [] R2 _ _ T2 A2.
  apply go_idle; [unfold alarm, do; quick|intros ? ? R _; exact (do_nowrong _ _ _ R)|exact A2|]. intros u3 [] R3 _ _ T3 A3.
  unfold signal, alarm, do in R1, R2, R3. apply fin_sys in R1 as (b1 & v1 & -> & [-> _]). apply fin_sys in R2 as (b2 & v2 & -> & [-> _]). apply fin_sys in R3 as (b3 & v3 & -> & [-> _]).
  match goal with |- go ?x _ _ => set (a := x) in * end.
  assert (M : map fst a = [Other (bs "signal") [13; 1] []; Other (bs "signal") [14; 2] []; Other (bs "alarm") [30] []]) by reflexivity.
  assert (NR : Forall (fun e => noread (fst e)) a) by (subst a; repeat (constructor; [exact Logic.I|]); constructor).
  clearbody a. clear A A1 A2 T1 T2 T3 b1 b2 b3.
  apply go_idle; [unfold has_starttls; quick| |exact A3|].
  { intros tr o R _. unfold has_starttls in R. destruct R as [[_ ->]|(x & t & -> & R)]; [discriminate|]. cbn [pbind] in R. destruct (negb (ret x =? 0)); [destruct R as [_ ->]; discriminate|]. destruct R as [[_ ->]|(y & t2 & -> & R)]; [discriminate|]. destruct R as [_ ->]. discriminate. }
  intros tp tls RP _ ST TP A4. apply fin_probe in RP.
  assert (TLS : tls = true -> In 5 L0 /\ In 6 L0).
  { intros ->. destruct RP as (x & [(_ & X & _)|(X & y & -> & Y)]); [discriminate|]. assert (E0 : fdrun L0 a = Some L0) by apply A3. split.
    - apply (ST [] 5 x [(Other (bs "fstat") [6] [], y)] L0); auto. rewrite app_nil_r. exact E0.
    - apply (ST [(Other (bs "fstat") [5] [], x)] 6 y [] L0); [reflexivity|apply Y; reflexivity|]. rewrite fdrun_app, E0. reflexivity. }
  pose proof (idle_unread _ _ NR TP) as NR1.
  apply pipe_go; [exact A4|]. intros p0 t1 p1 P1 M0 M1 N1 A5. apply pipe_go; [exact A5|]. intros f0 q1 p2 P2 M2 M3 N2 A6.
  apply go_idle; [quick|intros ? ? R _; exact (sys_nowrong _ _ _ R)|exact A6|]. intros u f RF FF _ T A7. pose proof (fork_tame _ _ RF FF) as Y0.
  apply runs_sys1 in RF as [[_ RF]|(f' & EU & RF)]; [discriminate|]. injection RF as <-. subst u.
  destruct (Z.eqb_spec (ret f) (-1)) as [EF|EF]; [eapply go_111; [exact A7|]; right; left; apply within_end; exists f; auto|]. destruct (Z.eqb_spec (ret f) 0); [contradiction|].
  eapply (parent_go _ _ tls (ret f) p0 t1 f0 q1 a tp p1 p2 f); auto; try (intros X; congruence).
  - rewrite <- !app_assoc. reflexivity.
  - apply Forall_app. split; [apply Forall_app; split; [apply Forall_app; split; assumption|exact N2]|constructor; [exact Logic.I|constructor]].
Qed.
End Walk.
