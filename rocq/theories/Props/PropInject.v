(** C98: what was sent in clear and is obeyed after STARTTLS. *)
From Verif.Model Require Import Base Sys Io Fdio Relay Session Smtp.
From Verif.Spec Require Import Flow Starttls Inject SmtpView.
From Verif.Proof Require Import Tac SysP SmtpIoP SmtpStP SmtpP SmtpSessP SmtpViewP SmtpFactsP PlayP WpP TcpP CurP ClearP.
From Verif.Spec Require Import SmtpSpec.
From Verif.Props Require Import PropClear PropTlsphase PropSmtp.

Lemma part_app : forall x a b, part x (a ++ b) = part x a ++ part x b.
Proof. intros. unfold part. rewrite filter_app, map_app. reflexivity. Qed.
Lemma part_split : forall x j t1 e t2, part x j = t1 ++ e :: t2 -> exists j1 j2, j = j1 ++ (x, e) :: j2 /\ part x j1 = t1 /\ part x j2 = t2.
Proof.
  intros x j. induction j as [|[y d] j IH]; intros t1 e t2 E; [destruct t1; discriminate|]. change ((y, d) :: j) with ([(y, d)] ++ j) in E. rewrite part_app in E.
  destruct (is_who x y) eqn:W.
  - assert (y = x) by (destruct x, y; try discriminate; reflexivity). subst y. unfold part at 1 in E. cbn [filter fst map snd] in E. rewrite W in E. cbn [map snd app] in E. destruct t1 as [|d' t1].
    + injection E as -> E. exists [], j. auto.
    + injection E as -> E. destruct (IH _ _ _ E) as (j1 & j2 & -> & A & B). exists ((x, d') :: j1), j2. split; [reflexivity|]. split; [|exact B]. unfold part in *. cbn [filter fst]. rewrite W. cbn [map snd]. rewrite A. reflexivity.
  - unfold part at 1 in E. cbn [filter fst map snd] in E. rewrite W in E. cbn [map app] in E. destruct (IH _ _ _ E) as (j1 & j2 & -> & A & B). exists ((y, d) :: j1), j2. split; [reflexivity|]. split; [|exact B].
    unfold part in *. cbn [filter fst]. rewrite W. exact A.
Qed.
Lemma core_split : forall t x e y, core t = x ++ e :: y -> exists t1 t2, t = t1 ++ e :: t2 /\ core t1 = x /\ core t2 = y.
Proof.
  intros t. induction t as [|d t IH]; intros x e y E; [destruct x; discriminate|]. unfold core in *. cbn [filter] in E. destruct (negb (noise d)) eqn:N.
  - destruct x as [|d' x]; cbn [app] in E; injection E as -> E; [exists [], t; auto|]. destruct (IH _ _ _ E) as (t1 & t2 & -> & A & B). exists (d' :: t1), t2. cbn [filter]. rewrite N, A. auto.
  - destruct (IH _ _ _ E) as (t1 & t2 & -> & A & B). exists (d :: t1), t2. cbn [filter]. rewrite N. auto.
Qed.
Lemma takes_more : forall l b r x, takes l b r -> takes l (b ++ x) (r ++ x).
Proof. intros l b r x T. induction T; rewrite <- ?app_assoc; cbn [app]; constructor; auto. Qed.
Lemma sent_none : forall f t, (forall b a, ~ In (Write f b, a) t) -> sent f t = [].
Proof.
  intros f t. induction t as [|[c a] t IH]; intros H; [reflexivity|]. assert (sent f t = []) as E by (apply IH; intros b' a' I; apply (H b' a'); right; exact I).
  destruct c; cbn [sent]; rewrite ?E; try reflexivity. destruct (Z.eqb_spec fd f); [|reflexivity]. subst. exfalso. eapply H. left. reflexivity.
Qed.
Lemma sent_some : forall f t, sent f t <> [] -> exists t1 b a t2, t = t1 ++ (Write f b, a) :: t2.
Proof.
  intros f t. induction t as [|[c a] t IH]; intros N; [destruct N; reflexivity|].
  assert (D : sent f t <> [] \/ exists b, c = Write f b).
  { destruct c; cbn [sent] in N; auto. destruct (Z.eqb_spec fd f); auto. subst. right. eexists. reflexivity. }
  destruct D as [D|(b & ->)]; [|exists [], b, a, t; reflexivity]. destruct (IH D) as (t1 & b & a' & t2 & ->). exists ((c, a) :: t1), b, a', t2. reflexivity.
Qed.

Section Phase.
Variables timeout finish pi po ci co cc ck self f1 f2 : Z.
Variables m1 m2 : list Z.
Variable fuel : nat.
Hypothesis SETUP : clear_setup pi po ci co cc ck self.
Hypothesis MEM : len m1 = 8192 /\ len m2 = 8192.
(** The wrapper: something, the cleartext phase, encryption; or less of it. *)
Variables w0 wc wt : trace.
Variable o : outcome (Z * sess).
Hypothesis RUN : runs (cleartext timeout finish self fuel (mksess pi po ci co cc ck (mkrbuf m1 f1) (mkrbuf m2 f2))) wc o.
Hypothesis LEGAL : legal wc.
Variable j : joint.
Hypothesis WRAP : part Wrap j = w0 ++ wc ++ wt.
(** Input of the program. *)
Variable ki : Z.
Hypothesis INPUT : pipe Wrap ci Prog ki j.

(** After the acknowledgement nothing more goes to the program in this phase. *)
Lemma quiet : forall c1 c2, wc = c1 ++ c2 -> sent ck c1 <> [] -> sent ci c2 = [].
Proof.
  intros c1 c2 E N. pose proof (C58_boundary timeout finish pi po ci co cc ck self f1 f2 m1 m2 fuel SETUP MEM wc _ RUN LEGAL) as BO.
  destruct (sent_some _ _ N) as (t1 & b & a & t2 & ->). rewrite <- app_assoc in E. cbn [app] in E. pose proof (BO _ _ _ E) as B. unfold clear_boundary in B. cbn [fst] in B. rewrite Z.eqb_refl in B. destruct B as (_ & G & _).
  apply sent_none. intros b' a' I. apply in_split in I as (d1 & d2 & D). rewrite D in E.
  assert (E' : wc = (t1 ++ (Write ck b, a) :: t2 ++ d1) ++ (Write ci b', a') :: d2) by (rewrite E, <- !app_assoc; cbn [app]; rewrite <- !app_assoc; reflexivity).
  pose proof (BO _ _ _ E') as B. unfold clear_boundary in B. cbn [fst] in B. destruct (Z.eqb_spec ci ck) as [C|C].
  - destruct SETUP as [ND _]. rewrite C in ND. inversion ND as [|? ? _ N1]; subst. inversion N1 as [|? ? _ N2]; subst. inversion N2 as [|? ? NI _]; subst. apply NI. cbn. tauto.
  - rewrite got_app, G in B. discriminate.
Qed.

(** ** Any program *)
(** [ka]: where the program reads the acknowledgement. *)
Theorem C98_acknowledged : forall ka, pipe Wrap ck Prog ka j -> sent ck w0 = [] ->
  forall j1 j2, j = j1 ++ j2 -> got ka (part Prog j1) <> [] -> exists x y, wt = x ++ y /\ sent ci (part Wrap j2) = sent ci y.
Proof.
  intros ka [PA _] Z0 j1 j2 E N. destruct (PA _ _ E) as (u & S).
  assert (NS : sent ck (part Wrap j1) <> []) by (rewrite S; destruct (got ka (part Prog j1)); [destruct N; reflexivity|discriminate]).
  pose proof WRAP as W. rewrite E, part_app in W. destruct (app_eq_app _ _ _ _ W) as (k & [[A B]|[A B]]).
  - rewrite A, sent_app, Z0 in NS. cbn [app] in NS. symmetry in B. destruct (app_eq_app _ _ _ _ B) as (k' & [[C D]|[C D]]).
    + exists k', (part Wrap j2). auto.
    + exists [], wt. split; [reflexivity|]. rewrite D, sent_app, (quiet k k' C NS). reflexivity.
  - rewrite A, sent_app in Z0. apply app_eq_nil in Z0 as [Z0 _]. contradiction.
Qed.
(** A program that empties its input after it has read the acknowledgement takes nothing for protected that was
    sent in clear. *)
Theorem C98_drained : forall ka, pipe Wrap ck Prog ka j -> sent ck w0 = [] ->
  forall j1 n a j2, j = j1 ++ (Prog, (Read ki n, a)) :: j2 -> got ka (part Prog j1) <> [] -> 0 < n -> ret a = 0 \/ (ret a = -1 /\ err a = EAGAIN) ->
  exists x y u, wt = x ++ y /\ sent ci y = got ki (part Prog j2) ++ u.
Proof.
  intros ka PK Z0 j1 n a j2 E N P R. destruct INPUT as [I1 I2]. pose proof (I2 _ _ _ _ E P R) as EM.
  assert (E' : j = (j1 ++ [(Prog, (Read ki n, a))]) ++ j2) by (rewrite <- app_assoc; exact E).
  destruct (C98_acknowledged ka PK Z0 _ _ E') as (x & y & A & B). { rewrite part_app, got_app. destruct (got ka (part Prog j1)); [destruct N; reflexivity|discriminate]. }
  exists x, y. destruct (I1 _ _ E') as (u1 & F1). rewrite !part_app in F1. change (part Wrap [(Prog, (Read ki n, a))]) with (@nil event) in F1. rewrite app_nil_r, got_app, EM, <- app_assoc in F1.
  rewrite <- (app_nil_r (got ki (part Prog j1))) in F1 at 1. apply app_inv_head in F1. symmetry in F1. apply app_eq_nil in F1 as [F1 _].
  destruct (I1 j [] (eq_sym (app_nil_r j))) as (u & F). exists u. split; [exact A|]. rewrite E', !part_app, !sent_app, !got_app in F. change (part Wrap [(Prog, (Read ki n, a))]) with (@nil event) in F. cbn [sent] in F.
  rewrite F1, EM, !app_nil_r, <- app_assoc in F. apply app_inv_head in F. rewrite <- B. exact F.
Qed.
End Phase.

(** ** tlswrapper-smtp *)
Section Smtp.
Variables w0 wc wt : trace.
Variable j : joint.
Hypothesis WRAP : part Wrap j = w0 ++ wc ++ wt.
Variable ci : Z.
Hypothesis INPUT : pipe Wrap ci Prog 0 j.
Variable fuel : nat.
Variable c : cfg.
Variable g : setting.
Hypothesis SU : setup c g.
Hypothesis D : distinct g.
(** What it obeys after the drain: what the wrapper passed on in clear after that moment, followed by what came
    out of TLS. *)
Theorem C98_smtp : forall o, runs (smtp fuel c) (part Prog j) o -> fine (part Prog j) ->
  exists l P, follows g (SmtpSpec.start g) l P /\
    forall l1 l2, l = l1 ++ ADrain :: l2 ->
      exists j1 n a j2, j = j1 ++ (Prog, (Read 0 n, a)) :: j2 /\ 0 < n /\ (ret a = 0 \/ (ret a = -1 /\ err a = EAGAIN)) /\
        (exists r u, takes l2 (got 0 (part Prog j2)) r /\ sent ci (part Wrap j2) = got 0 (part Prog j2) ++ u) /\
        ((exists c1 c2, w0 ++ wc = c1 ++ c2 /\ part Wrap j1 = c1 /\ part Wrap j2 = c2 ++ wt) \/
         (exists x, part Wrap j1 = w0 ++ wc ++ x /\ wt = x ++ part Wrap j2)).
Proof.
  intros o R F. destruct (conf fuel c g SU _ _ R F) as (_ & (t1 & t2 & l & v & P & C & S & FO & _)). exists l, P. split; [exact FO|]. intros l1 l2 ->.
  assert (SP : forall v t l1 l2 v', story g v t (l1 ++ l2) v' -> exists ta tb w, t = ta ++ tb /\ story g v ta l1 w /\ story g w tb l2 v').
  { clear. intros v t l1. revert v t. induction l1 as [|a l1 IH]; intros v t l2 v' H; [exists [], t, v; split; auto; split; auto; constructor|]. cbn [app] in H. inversion H; subst.
    destruct (IH _ _ _ _ H6) as (ta & tb & w & -> & A & B). exists (t1 ++ ta), tb, w. rewrite app_assoc. split; auto. split; auto. econstructor; eauto. }
  destruct (SP _ _ _ _ _ S) as (ta & tx & w & -> & S1 & S2). inversion S2 as [|v0 a0 td w1 l0 tb v2 DO S3]; subst.
  pose proof (story_client g D _ _ _ _ S3) as K2. cbn [does] in DO. destruct DO as ((e1 & w2 & e2 & n & a & -> & _ & PN & RE & _ & (a2 & ->)) & CU & _). rewrite CU in K2. cbn [app] in K2.
  assert (C' : core (part Prog j) = (ta ++ e1 :: w2) ++ (Read 0 n, a) :: (Other (bs "fd_blocking_enable") [0] [], a2) :: tb ++ t2) by (rewrite C, <- !app_assoc; cbn [app]; rewrite <- !app_assoc; reflexivity).
  destruct (core_split _ _ _ _ C') as (p1 & p2 & E & _ & C2). destruct (part_split _ _ _ _ _ E) as (j1 & j2 & -> & A & B).
  exists j1, n, a, j2. split; [reflexivity|]. split; [exact PN|]. split; [exact RE|].
  destruct INPUT as [I1 I2]. pose proof (I2 _ _ _ _ eq_refl PN RE) as EM. split.
  - assert (G : got 0 (part Prog j2) = got 0 tb ++ got 0 t2) by (rewrite B, <- (got_core 0 p2), C2; cbn [got]; rewrite got_app; reflexivity).
    rewrite G. destruct (I1 _ [] (eq_sym (app_nil_r _))) as (u & FF). destruct (I1 (j1 ++ [(Prog, (Read 0 n, a))]) j2 ltac:(rewrite <- app_assoc; reflexivity)) as (u1 & F1).
    rewrite !part_app in F1. change (part Wrap [(Prog, (Read 0 n, a))]) with (@nil event) in F1. rewrite app_nil_r, got_app, EM, <- app_assoc in F1.
    rewrite <- (app_nil_r (got 0 (part Prog j1))) in F1 at 1. apply app_inv_head in F1. symmetry in F1. apply app_eq_nil in F1 as [F1 _].
    exists (cu v ++ got 0 t2), u. split; [apply takes_more; exact K2|]. change ((Prog, (Read 0 n, a)) :: j2) with ([(Prog, (Read 0 n, a))] ++ j2) in FF.
    rewrite !part_app, !sent_app, !got_app in FF. change (part Wrap [(Prog, (Read 0 n, a))]) with (@nil event) in FF. cbn [sent app] in FF. rewrite F1, EM, <- !app_assoc in FF. cbn [app] in FF. apply app_inv_head in FF. rewrite <- G. exact FF.
  - pose proof WRAP as W. change ((Prog, (Read 0 n, a)) :: j2) with ([(Prog, (Read 0 n, a))] ++ j2) in W. rewrite !part_app in W. change (part Wrap [(Prog, (Read 0 n, a))]) with (@nil event) in W. cbn [app] in W.
    rewrite app_assoc in W. destruct (app_eq_app _ _ _ _ W) as (k & [[X Y]|[X Y]]).
    + right. exists k. rewrite app_assoc. auto.
    + left. exists (part Wrap j1), k. auto.
Qed.
End Smtp.
Print Assumptions C98_acknowledged. Print Assumptions C98_drained. Print Assumptions C98_smtp.

(** ** Two runs woven together *)
(** true: the next call is the wrapper's *)
Fixpoint weave (l : list bool) (a b : trace) : joint :=
  match l with
  | [] => map (pair Wrap) a ++ map (pair Prog) b
  | true :: l => match a with e :: a => (Wrap, e) :: weave l a b | [] => weave l a b end
  | false :: l => match b with e :: b => (Prog, e) :: weave l a b | [] => weave l a b end
  end.
Lemma part_cons : forall x y e j, part x ((y, e) :: j) = (if is_who x y then [e] else []) ++ part x j.
Proof. intros x y e j. unfold part. cbn [filter fst]. destruct (is_who x y); reflexivity. Qed.
Lemma part_map : forall x y t, part x (map (pair y) t) = if is_who x y then t else [].
Proof. intros x y t. induction t as [|e t IH]; [destruct (is_who x y); reflexivity|]. cbn [map]. rewrite part_cons, IH. destruct (is_who x y); reflexivity. Qed.
Lemma weave_part : forall l a b, part Wrap (weave l a b) = a /\ part Prog (weave l a b) = b.
Proof.
  intros l. induction l as [|[|] l IH]; intros a b; cbn [weave].
  - rewrite !part_app, !part_map. cbn [is_who app]. rewrite app_nil_r. auto.
  - destruct a as [|e a]; [apply IH|]. rewrite !part_cons. cbn [is_who app]. destruct (IH a b) as [-> ->]. auto.
  - destruct b as [|e b]; [apply IH|]. rewrite !part_cons. cbn [is_who app]. destruct (IH a b) as [-> ->]. auto.
Qed.
Definition beginning (x y : list Z) : bool := same (firstn (length x) y) x.
Definition nothing (y : who) (g : Z) (e : who * event) : bool :=
  is_who y (fst e) && match fst (snd e) with Read h n => (h =? g) && (0 <? n) | _ => false end &&
  ((ret (snd (snd e)) =? 0) || ((ret (snd (snd e)) =? -1) && (err (snd (snd e)) =? EAGAIN))).
Fixpoint pipe_b (x : who) (f : Z) (y : who) (g : Z) (j1 j : joint) : bool :=
  beginning (got g (part y j1)) (sent f (part x j1)) &&
  match j with
  | [] => true
  | e :: j => (negb (nothing y g e) || same (sent f (part x j1)) (got g (part y j1))) && pipe_b x f y g (j1 ++ [e]) j
  end.
Lemma pipe_b_ok : forall x f y g j, pipe_b x f y g [] j = true -> pipe x f y g j.
Proof.
  intros x f y g j H.
  assert (X : forall j j0, pipe_b x f y g j0 j = true ->
    (forall j1 j2, j = j1 ++ j2 -> exists u, sent f (part x (j0 ++ j1)) = got g (part y (j0 ++ j1)) ++ u) /\
    (forall j1 n a j2, j = j1 ++ (y, (Read g n, a)) :: j2 -> 0 < n -> ret a = 0 \/ (ret a = -1 /\ err a = EAGAIN) -> sent f (part x (j0 ++ j1)) = got g (part y (j0 ++ j1)))).
  { clear. intros j. induction j as [|e j IH]; intros j0 H; cbn [pipe_b] in H; apply andb_prop in H as [H1 H2]; unfold beginning in H1; apply same_true in H1.
    - split; [|intros [|] ? ? ? E; discriminate E]. intros j1 j2 E. symmetry in E. apply app_eq_nil in E as [-> ->]. rewrite app_nil_r. exists (skipn (length (got g (part y j0))) (sent f (part x j0))).
      rewrite <- H1 at 1. symmetry. apply firstn_skipn.
    - apply andb_prop in H2 as [H2 H3]. destruct (IH _ H3) as [A B]. split.
      + intros [|e' j1] j2 E.
        * rewrite app_nil_r. exists (skipn (length (got g (part y j0))) (sent f (part x j0))). rewrite <- H1 at 1. symmetry. apply firstn_skipn.
        * injection E as <- E. destruct (A _ _ E) as (u & U). rewrite <- app_assoc in U. exists u. exact U.
      + intros [|e' j1] n a j2 E P R.
        * injection E as -> E. rewrite app_nil_r. apply orb_true_iff in H2 as [H2|H2]; [|apply same_true; exact H2]. exfalso. unfold nothing in H2. cbn [fst snd] in H2.
          assert (is_who y y = true) as W by (destruct y; reflexivity). rewrite W, Z.eqb_refl in H2. apply Z.ltb_lt in P. rewrite P in H2. cbn [andb] in H2.
          apply negb_true_iff, orb_false_iff in H2 as [Q1 Q2]. destruct R as [R|[R1 R2]]; [rewrite R in Q1; discriminate|]. rewrite R1, R2 in Q2. discriminate Q2.
        * injection E as <- E. pose proof (B _ _ _ _ E P R) as U. rewrite <- app_assoc in U. exact U. }
  exact (X j [] H).
Qed.

(** ** The attack *)
(** In clear: STARTTLS, then a command.  The peer does not take the reply at once.  The program empties its input
    and waits for the acknowledgement; the wrapper, which cannot hand over the reply and so does not look at the
    control pipe, passes the command on.  Nothing is encrypted yet when the program obeys it, after RSET. *)
Definition injected : list Z := crlf (bs "MAIL FROM:<x@x>").
Definition wrapper_script : list ans :=
  [ready [3]; PlayP.rd (crlf (bs "220 hi")); ok 0; ready [-2]; ok 8;
   ready [0]; PlayP.rd (crlf (bs "STARTTLS")); ok 0; ready [-5]; ok 10;
   ready [3]; PlayP.rd (crlf (bs "220 ready to start TLS (#2.0.0)")); ok 0; ready [0]; PlayP.rd injected; ok 0; ready [-5]; ok 17;
   ready [-2]; ok 33; ready [5]; PlayP.rd [0]; ok 0; ok 0; ok 1; ok 0; ok 0].
Definition wrapper_run : trace * outcome (Z * sess) := follow wrapper_script (cleartext 60 10 7 (Z.to_nat 40) PropClear.start).
Definition program_world : world := [(0, [crlf (bs "STARTTLS"); []; injected]); (9, hello ++ [crlf (bs "250 reset")]); (6, [[0]])].
Definition program_run : trace * outcome Z := play 53 program_world (smtp budget (c1 7 true)).
Definition order : list bool := repeat false 12 ++ repeat true 10 ++ repeat false 20 ++ repeat true 17 ++ repeat false 21.
Definition attack : joint := weave order (fst wrapper_run) (fst program_run).
Lemma wrapper_runs : runs (cleartext 60 10 7 (Z.to_nat 40) PropClear.start) (fst wrapper_run) (snd wrapper_run).
Proof. exact (follow_runs _ wrapper_script (cleartext 60 10 7 (Z.to_nat 40) PropClear.start)). Qed.
Lemma wrapper_ends : exists s, runs (cleartext 60 10 7 (Z.to_nat 40) PropClear.start) (fst wrapper_run) (Fin (1, s)).
Proof.
  pose proof wrapper_runs as RW. assert (O : match snd wrapper_run with Fin (r, _) => r =? 1 | _ => false end = true) by (vm_compute; reflexivity).
  destruct (snd wrapper_run) as [[r s]| |]; try discriminate O. apply Z.eqb_eq in O. subst r. exists s. exact RW.
Qed.
Lemma program_runs : runs (smtp budget (c1 7 true)) (fst program_run) (snd program_run).
Proof. exact (play_runs _ 53 program_world (smtp budget (c1 7 true))). Qed.
Lemma fine_by : forall t, forallb sys_okb t = true -> forallb clock_okb t = true -> fine t.
Proof.
  intros t H1 H2. split; [apply legal_dec; exact H1|]. apply Forall_forall. intros e I. rewrite forallb_forall in H2. specialize (H2 e I). unfold FdioP.clock_ok, clock_okb in *. destruct (fst e); auto. lia.
Qed.
Lemma cut_at : forall A (l : list A) n e, nth_error l n = Some e -> l = firstn n l ++ e :: skipn (S n) l.
Proof. intros A l. induction l as [|x l IH]; intros [|n] e H; try discriminate H; cbn in *; [congruence|]. f_equal. apply IH. exact H. Qed.
Definition all_pipes (j : joint) : Prop := pipe Wrap 4 Prog 0 j /\ pipe Prog 1 Wrap 3 j /\ pipe Prog 5 Wrap 5 j /\ pipe Wrap 6 Prog 6 j.
Definition all_pipes_b (j : joint) : bool := pipe_b Wrap 4 Prog 0 [] j && pipe_b Prog 1 Wrap 3 [] j && pipe_b Prog 5 Wrap 5 [] j && pipe_b Wrap 6 Prog 6 [] j.
Lemma attack_pipes : all_pipes attack.
Proof.
  assert (H : all_pipes_b attack = true) by (vm_compute; reflexivity). unfold all_pipes_b in H. apply andb_prop in H as [H H4]. apply andb_prop in H as [H H3]. apply andb_prop in H as [H1 H2].
  split; [apply pipe_b_ok; exact H1|]. split; [apply pipe_b_ok; exact H2|]. split; apply pipe_b_ok; assumption.
Qed.
Theorem C98_injection_refuted : exists fuel c g j s o t1 a t2,
  setup c g /\ distinct g /\ clear_setup 0 1 4 3 5 6 7 /\ all_pipes j /\
  runs (cleartext 60 10 7 (Z.to_nat 40) PropClear.start) (part Wrap j) (Fin (1, s)) /\ legal (part Wrap j) /\
  runs (smtp fuel c) (part Prog j) o /\ fine (part Prog j) /\
  (* all the wrapper has passed on came in clear from the peer *)
  got 0 (part Wrap j) = crlf (bs "STARTTLS") ++ injected /\ sent 4 (part Wrap j) = got 0 (part Wrap j) /\
  (* after the acknowledgement the program gives the injected command to the mail server *)
  part Prog j = t1 ++ (Read 6 1, a) :: t2 /\ data a = [0] /\ sent (toprog g) t1 = [] /\ sent (toprog g) t2 = crlf (bs "RSET") ++ injected.
Proof.
  exists budget, (c1 7 true), (g1 (Some 7) true), attack.
  destruct (weave_part order (fst wrapper_run) (fst program_run)) as [W P]. fold attack in W, P. rewrite W, P.
  destruct wrapper_ends as (s & RW). exists s, (snd program_run), (firstn 35 (fst program_run)), (mkans 1 0 [0]), (skipn 36 (fst program_run)).
  split; [apply setup1|]. split; [apply ex_setup|]. split; [apply PropClear.ex_starttls|]. split; [exact attack_pipes|]. split; [exact RW|].
  split; [apply legal_dec; vm_compute; reflexivity|]. split; [exact program_runs|]. split; [apply fine_by; vm_compute; reflexivity|].
  split; [vm_compute; reflexivity|]. split; [vm_compute; reflexivity|]. split; [|split; [reflexivity|split; vm_compute; reflexivity]].
  apply cut_at. vm_compute. reflexivity.
Qed.
Print Assumptions C98_injection_refuted.

(** ** Example *)
(** A program that empties its input after the acknowledgement: the same command is thrown away. *)
Definition careful : trace :=
  [(Write 1 (crlf (bs "220 hi")), ok 8); (Read 0 100, PlayP.rd (crlf (bs "STARTTLS"))); (Write 1 (crlf (bs "220 ready to start TLS (#2.0.0)")), ok 33); (Write 5 [0], ok 1);
   (Read 6 1, PlayP.rd [0]); (Read 0 100, PlayP.rd injected); (Read 0 100, later); (Read 0 100, PlayP.rd (crlf (bs "QUIT")))].
Definition protected : trace := [(Write 4 (crlf (bs "QUIT")), ok 6)].
Definition careful_order : list bool := [false] ++ repeat true 10 ++ repeat false 3 ++ repeat true 17 ++ repeat false 3 ++ [true; false].
Example ex_drained : let j := weave careful_order (fst wrapper_run ++ protected) careful in
  (exists s, runs (cleartext 60 10 7 (Z.to_nat 40) PropClear.start) (fst wrapper_run) (Fin (1, s))) /\ legal (fst wrapper_run) /\ part Wrap j = [] ++ fst wrapper_run ++ protected /\ all_pipes j /\
  exists j1 j2, j = j1 ++ (Prog, (Read 0 100, later)) :: j2 /\ got 6 (part Prog j1) = [0] /\ got 0 (part Prog j1) = crlf (bs "STARTTLS") ++ injected /\ got 0 (part Prog j2) = sent 4 protected.
Proof.
  intros j. destruct (weave_part careful_order (fst wrapper_run ++ protected) careful) as [W P]. fold j in W, P. split.
  { exact wrapper_ends. }
  split; [apply legal_dec; vm_compute; reflexivity|]. split; [exact W|]. split.
  - assert (H : all_pipes_b j = true) by (vm_compute; reflexivity). unfold all_pipes_b in H. apply andb_prop in H as [H H4]. apply andb_prop in H as [H H3]. apply andb_prop in H as [H1 H2].
    split; [apply pipe_b_ok; exact H1|]. split; [apply pipe_b_ok; exact H2|]. split; apply pipe_b_ok; assumption.
  - destruct (part_split Prog j (firstn 6 careful) (Read 0 100, later) (skipn 7 careful)) as (j1 & j2 & E & A & B); [exact P|]. exists j1, j2. rewrite A, B. split; [exact E|]. split; [reflexivity|]. split; reflexivity.
Qed.
