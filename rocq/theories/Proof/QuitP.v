(** Why the main program gives up. *)
From Verif.Model Require Import Base Sys Io Str Inet Config Parsenum Fdio Relay Session Tlsphase Jail Pem Keyjail Proxy Conninfo Options Main.
From Verif.Spec Require Import Text Num Stream Flow Ip Restrict Process Blame Forward Quit.
From Verif.Proof Require Import Tac SysP ProxyP CallsP StrP IoP ConfigP OptionsP SafeP MainCallsP MainP ChildP BlameP.
From Verif.Props Require Import PropJail.

(** ** Pipes *)
Lemma hard_of : forall fd n b a (w : bool), ret a <= 0 -> transient (if ret a =? 0 then EPIPE else err a) = false ->
  hard (if w then Write fd b else Read fd n, a).
Proof.
  intros fd n b a w L T. assert (H : ret a = 0 \/ (ret a < 0 /\ err a <> 4 /\ err a <> 11)).
  { destruct (Z.eqb_spec (ret a) 0); [left; auto|right]. split; [lia|]. unfold transient, EINTR, EAGAIN in T. apply orb_false_iff in T as [T1 T2]. lia. }
  destruct w; exact H.
Qed.
Lemma writeall_blame : forall fuel fd x n tr e, runs (writeall fuel fd x n) tr (Fin (Fail e)) -> within (unwritten fd) tr.
Proof.
  induction fuel as [|fuel IH]; intros fd x n tr e R; cbn [writeall] in R; [destruct R as [_ R]; discriminate|].
  destruct (0 <? n); [|destruct R as [_ R]; discriminate]. destruct (len x <? _); [destruct R as [_ R]; discriminate|].
  destruct R as [[_ R]|(a & t & -> & R)]; [discriminate|]. cbv zeta in R. destruct (Z.leb_spec (ret a) 0) as [L|L].
  - destruct (transient _) eqn:T.
    + apply (within_r _ [_]). destruct R as [[_ R]|(p & t1 & -> & R)]; [discriminate|]. destruct ((ret p =? -1) && negb (err p =? EINTR)) eqn:C.
      * destruct R as [-> _]. apply within_here. eexists. split; [reflexivity|]. split; [|right; eexists; reflexivity]. cbn [hard]. unfold EINTR in C. lia.
      * apply (within_r _ [_]). eapply IH. exact R.
    + destruct R as [-> _]. apply within_here. eexists. split; [reflexivity|]. split; [exact (hard_of fd 0 _ a true L T)|left; eexists; reflexivity].
  - apply (within_r _ [_]). eapply IH. exact R.
Qed.
Lemma pipe_write_blame : forall fuel fd x n tr e, 0 <= n -> runs (pipe_write fuel fd x n) tr (Fin (Fail e)) -> within (unwritten fd) tr.
Proof.
  intros fuel fd x n tr e N R. unfold pipe_write in R. rewrite (proj2 (Z.ltb_ge _ _)) in R by lia. apply fin_bind in R as (c & t1 & t2 & -> & R1 & R2).
  destruct c as [|e1]; [apply within_r|apply within_l]; eapply writeall_blame; eauto.
Qed.
Lemma readalloc_blame : forall fuel fd tr e, legal tr -> runs (pipe_readalloc fuel fd) tr (Fin (inl e)) -> within (unread fd) tr \/ within (declined fd) tr.
Proof.
  intros fuel fd tr e L R. pose proof (pipe_readalloc_calls _ _ _ _ R) as C. destruct (pipe_readalloc_ok _ _ _ _ R L) as [(t & x & -> & H & _)|(_ & v & V & G & _)].
  - left. apply within_end. exists x. split; [reflexivity|]. split; [exact H|]. apply Forall_app in C as [_ C]. inversion C as [|? ? C1 _]; subst. destruct C1 as [C1|C1]; auto.
  - right. apply within_here. exists v. auto.
Qed.
Lemma str_len_pos : forall s n, str_len s = Ok n -> 0 <= n.
Proof.
  induction s as [|x s IH]; intros n EN; cbn [str_len] in EN; [discriminate|]. destruct (x =? 0); [injection EN as <-; lia|].
  destruct (str_len s) as [m| |]; cbn [bind] in EN; try discriminate. injection EN as <-. specialize (IH m eq_refl). lia.
Qed.
Lemma report_blame : forall fuel fd s tr, runs (report_user fuel fd s) tr (Fin true) -> within (unwritten fd) tr.
Proof.
  intros fuel fd s tr R. unfold report_user in R. apply fin_lift in R as (n & EN & R). apply fin_bind in R as (c & t1 & t2 & -> & R1 & R2).
  destruct c as [|e]; destruct R2 as [-> R2]; [discriminate|]. apply within_l. eapply pipe_write_blame; [|exact R1].
  pose proof (str_len_pos _ _ EN). lia.
Qed.

(** ** The TLS phase *)
Section Phase.
Variables timeout fin self : Z.
Variable usercert : bool.
Variable d : Z.
Definition ours (f : sess) : Prop := childin f = d \/ childin f = -1.
Definition tidy (told : bool) (s : tsess) : Prop := ours (fds s) /\ (told = true -> told_user s = true).
Definition vok (told : bool) (v : tverdict) : Prop := match v with Again s => tidy told s | Stop (r, _) => r = 0 end.

Lemma shut_gives : forall v how, gives (fun x => x = v \/ x = -1) (match how with true => shut_w v | false => shut_r v end).
Proof.
  intros v how tr x R. assert (E : exists h, runs ('(x, _) <~ fd_close_ h (Some v) stale ;; match x with Some x => Ret x | None => Bad end) tr (Fin x)) by (destruct how; eexists; exact R).
  clear R. destruct E as [h R]. unfold fd_close_ in R. destruct (v =? -1).
  - cbn [pbind] in R. destruct R as [_ R]. injection R as ->. auto.
  - apply fin_bind in R as ([y z] & t1 & t2 & -> & R1 & R2). apply fin_bind in R1 as ([? ?] & u1 & u2 & -> & _ & R1). apply fin_bind in R1 as ([? ?] & ? & ? & -> & _ & R1).
    destruct R1 as [-> R1]. injection R1 as -> ->. destruct R2 as [_ R2]. injection R2 as ->. auto.
Qed.
Lemma gives_bind2 : forall S R (V : S -> Prop) (P : R -> Prop) (p : prog S) (f : S -> prog R), gives V p -> (forall a, V a -> gives P (f a)) -> gives P (pbind p f).
Proof. intros S R V P p f G H tr x RU. apply fin_bind in RU as (a & t1 & t2 & -> & R1 & R2). exact (H _ (G _ _ R1) _ _ R2). Qed.
Lemma ours_shut : forall f v, ours f -> v = childin f \/ v = -1 -> ours (set_childin f v).
Proof. intros f v [H|H] [->| ->]; unfold ours; cbn; auto. Qed.
Ltac shut :=
  match goal with
  | |- gives _ (pbind (shut_w ?v) _) => apply (gives_bind2 _ _ (fun x => x = v \/ x = -1)); [exact (shut_gives v true)|let a := fresh "v" in let H := fresh "V" in intros a H]
  | |- gives _ (pbind (shut_r ?v) _) => apply (gives_bind2 _ _ (fun x => x = v \/ x = -1)); [exact (shut_gives v false)|let a := fresh "v" in let H := fresh "V" in intros a H]
  end.
Lemma self_gives : forall f, ours f -> gives (fun x => ours (snd x)) (selfpipe_event fin self f).
Proof. intros f H. unfold selfpipe_event. repeat (shut || gives1); cbn [snd]; auto; apply ours_shut; auto. Qed.

Definition phase_why (t : trace) : Prop :=
  (usercert = true /\ within (answering (bs "clientcrt") [] [] (fun a => ret a = 0)) t) \/ exists fd, (fd = d \/ fd = -1) /\ within (unwritten fd) t.
Lemma phase_why_l : forall t u, phase_why t -> phase_why (t ++ u).
Proof. intros t u [(H & W)|(fd & F & W)]; [left|right; exists fd]; split; auto; apply within_l; auto. Qed.
Lemma phase_why_r : forall t u, phase_why u -> phase_why (t ++ u).
Proof. intros t u [(H & W)|(fd & F & W)]; [left|right; exists fd]; split; auto; apply within_r; auto. Qed.
Lemma eof1_gives : forall st f, ours f -> gives ours (tls_eof1 st f).
Proof. intros st f H. unfold tls_eof1. repeat (shut || gives1); auto. apply ours_shut; auto. Qed.
Lemma eof2_gives : forall n st f, ours f -> gives ours (tls_eof2 n st f).
Proof. intros n st f H. unfold tls_eof2. destruct (_ && _); [|apply gives_ret; exact H]. apply gives_bind. intros [|]; [apply gives_ret; exact H|]. repeat (shut || gives1). apply ours_shut; auto. Qed.
Lemma eof3_gives : forall st f, ours f -> gives ours (tls_eof3 st f).
Proof. intros st f H. unfold tls_eof3. repeat (shut || gives1); auto. Qed.
Lemma hand_blame : forall fuel st told s tr x, tidy told s -> runs (report_handshake timeout usercert fuel st s) tr (Fin x) ->
  match x with Some s' => tidy told s' /\ fds s' = fds s | None => told = false /\ phase_why tr end.
Proof.
  intros fuel st told s tr x [H T] R. unfold report_handshake in R. destruct (shaken s); [destruct R as [_ R]; injection R as ->; split; [split; auto|reflexivity]|].
  destruct (negb _); [destruct R as [_ R]; injection R as ->; split; [split; auto|reflexivity]|].
  destruct (told_user s) eqn:TU.
  - apply fin_bind in R as (? & t1 & t2 & -> & _ & R). destruct R as [_ R]. injection R as ->. split; [split; [exact H|auto]|reflexivity].
  - assert (TF : told = false) by (destruct told; auto; symmetry; auto).
    apply fin_bind in R as (b & t1 & t2 & -> & R1 & R2). destruct b as [b|].
    + apply fin_bind in R2 as (bad & t3 & t4 & -> & R2 & R3). destruct bad.
      * destruct R3 as [-> R3]. injection R3 as ->. split; [auto|]. apply phase_why_r. right. exists (childin (fds s)). split; [exact H|]. apply within_l. eapply report_blame. exact R2.
      * apply fin_bind in R3 as (? & t5 & t6 & -> & _ & R). destruct R as [_ R]. injection R as ->. split; [split; [exact H|auto]|reflexivity].
    + destruct R2 as [-> R2]. injection R2 as ->. split; [auto|]. apply phase_why_l. destruct usercert eqn:U; [left; split; [exact U|]|destruct R1 as [_ R1]; discriminate].
      apply fin_sys in R1 as (a & t & -> & R1). destruct (Z.eqb_spec (ret a) 0) as [E|E]; [|apply fin_lift in R1 as (? & _ & [_ R1]); discriminate].
      destruct R1 as [-> _]. apply within_here. exists a. auto.
Qed.
Lemma tochild_gives : forall told s, tidy told s -> gives (vok told) (tls_tochild s).
Proof. intros told s H. unfold tls_tochild. repeat (shut || gives1); cbn [vok]; auto. Qed.
Lemma topeer_gives : forall told s, tidy told s -> gives (vok told) (tls_topeer s).
Proof. intros told s H. unfold tls_topeer. repeat (shut || gives1); cbn [vok]; auto. Qed.
Lemma frompeer_gives : forall told s, tidy told s -> gives (vok told) (tls_frompeer timeout s).
Proof. intros told s H. unfold tls_frompeer. repeat (shut || gives1); cbn [vok]; auto. Qed.
Lemma fromchild_gives : forall told s, tidy told s -> gives (vok told) (tls_fromchild timeout s).
Proof. intros told s H. unfold tls_fromchild. repeat (shut || gives1); cbn [vok]; auto. Qed.
Lemma signal_gives : forall told s, tidy told s -> gives (vok told) (tls_signal fin self s).
Proof.
  intros told s [H T]. unfold tls_signal. eapply gives_bind2; [apply (self_gives _ H)|]. intros [[|] f] V; apply gives_ret; cbn [vok]; auto. split; [exact V|exact T].
Qed.
Lemma body_blame : forall told fuel s tr v, tidy told s -> runs (tls_body timeout fin self usercert fuel s) tr (Fin v) ->
  vok told v \/ (exists s', v = Stop (111, s')) /\ told = false /\ phase_why tr.
Proof.
  intros told fuel s tr v [H T] R. unfold tls_body in R.
  apply fin_bind in R as (st & ta & tb & -> & _ & R). apply fin_bind in R as (f1 & t1 & t2 & -> & R1 & R). pose proof (eof1_gives _ _ H _ _ R1) as H1.
  apply fin_bind in R as (f2 & t3 & t4 & -> & R2 & R). pose proof (eof2_gives _ _ _ H1 _ _ R2) as H2.
  apply fin_bind in R as (f3 & t5 & t6 & -> & R3 & R). pose proof (eof3_gives _ _ H2 _ _ R3) as H3.
  apply fin_bind in R as (st' & t7 & t8 & -> & _ & R). apply fin_bind in R as (s' & t9 & t10 & -> & R4 & R).
  assert (TD : tidy told (with_fds s f3)) by (split; [exact H3|exact T]).
  pose proof (hand_blame _ _ _ _ _ _ TD R4) as H4. destruct s' as [s'|].
  - left. destruct H4 as [H4 _].
    assert (G : gives (vok told) (if has st' CLOSED && negb (shaken s') then Ret (Stop (0, s'))
      else if has st' CLOSED && negb (has st' SENDREC) then Ret (Stop (0, s'))
      else if negb (can_recvrec st' f3) && negb (can_sendrec st' f3) && negb (can_sendapp st' f3) && negb (can_recvapp st' f3) then Ret (Stop (0, s'))
      else
      h <~ watch (tls_watch self st' f3) ;;
      match h with
      | [wtopeer; wfrompeer; wtochild; wfromchild; wself] =>
        if (wtochild : bool) then tls_tochild s'
        else if (wtopeer : bool) then tls_topeer s'
        else if (wfrompeer : bool) then tls_frompeer timeout s'
        else if (wfromchild : bool) then tls_fromchild timeout s'
        else if (wself : bool) then tls_signal fin self s'
        else Ret (Again s')
      | _ => Bad
      end)); [|exact (G _ _ R)].
    do 3 (match goal with |- gives _ (if ?b then _ else _) => destruct b end; [apply gives_ret; reflexivity|]). apply gives_bind.
    intros [|b1 [|b2 [|b3 [|b4 [|b5 [|b6 h]]]]]]; try apply gives_bad.
    destruct b3; [apply tochild_gives; auto|]. destruct b1; [apply topeer_gives; auto|]. destruct b2; [apply frompeer_gives; auto|]. destruct b4; [apply fromchild_gives; auto|].
    destruct b5; [apply signal_gives; auto|]. apply gives_ret. exact H4.
  - right. destruct R as [-> R]. injection R as ->. split; [eauto|]. split; [tauto|]. do 5 apply phase_why_r. apply phase_why_l. tauto.
Qed.
Lemma phase_blame : forall told fuel s tr s', tidy told s -> runs (tls_phase timeout fin self usercert fuel s) tr (Fin (111, s')) -> told = false /\ phase_why tr.
Proof.
  intros told fuel s tr s' H R. unfold tls_phase in R. remember fuel as n eqn:E in R at 1. clear E. revert s tr H R. induction n as [|n IH]; intros s tr H R; cbn [iter] in R; [destruct R as [_ R]; discriminate|].
  apply fin_bind in R as (v & t1 & t2 & -> & R1 & R2). destruct (body_blame _ _ _ _ _ H R1) as [V|((s1 & ->) & F & W)].
  - destruct v as [s1|[r s1]]; cbn [vok] in V.
    + destruct (IH _ _ V R2) as [F W]. split; [exact F|apply phase_why_r; exact W].
    + destruct R2 as [_ R2]. congruence.
  - split; [exact F|apply phase_why_l; exact W].
Qed.
End Phase.

(** ** The process *)
Lemma original_app : forall a b, original (a ++ b) -> original a /\ original b.
Proof. intros a b O. unfold original in *. rewrite forks_app in O. split; intros H; apply O; apply in_or_app; auto. Qed.
Lemma pids_app : forall a b, pids (a ++ b) -> pids a /\ pids b.
Proof. intros a b P. split; intros x H; apply P; apply in_or_app; auto. Qed.
Lemma wait_waits : forall n pid tr a, runs (wait n pid) tr (Fin a) -> waits tr <> [].
Proof.
  intros [|n] pid tr a R; cbn [wait] in R; [destruct R as [_ R]; discriminate|]. apply fin_sys in R as (x & t & -> & _). unfold waits. cbn [filter]. discriminate.
Qed.
Section Quit.
Variable I : inet.
Variable stream : list Z -> list Z -> nat -> Z.
Variable fuel : nat.
Variables junk portbuf line0 key0 : list Z.
Variable env : environment.
Variable nojail : bool.
Variables (acc : option (list Z)) (dir : list Z).
Variables delay usercert anchored : bool.

(** the reasons, with known ends of pipes *)
Definition why (W0 W1 : Z -> Prop) (t : trace) : Prop :=
  (exists n, within (answering (bs "sigaction") [n] [] (fun a => ret a = -1)) t) \/
  within (failing (bs "pipe")) t \/ within (failing (bs "fork")) t \/
  (delay = true /\
   ((exists fd, (fd = 5 \/ fd = 6) /\ within (answering (bs "fstat") [fd] [] (fun a => ret a <> -1)) t) \/
    within (answering (bs "open") [] (bs "/dev/null") (fun a => ret a = -1)) t)) \/
  (nojail = false /\ within (unconfined acc dir) t) \/
  (exists fd, (W1 fd \/ pipe_end 1 fd t \/ (delay = false /\ fd = -1)) /\ within (unwritten fd) t) \/
  (anchored = true /\
   ((exists fd, (W0 fd \/ pipe_end 0 fd t) /\ (within (unread fd) t \/ within (declined fd) t)) \/
    exists pem, within (answering (bs "tls_pubcrt_parse") [] pem (fun a => ret a = 0)) t)) \/
  (usercert = true /\ delay = false /\ within (answering (bs "clientcrt") [] [] (fun a => ret a = 0)) t).
Lemma pipe_end_l : forall k fd t u, pipe_end k fd t -> pipe_end k fd (t ++ u).
Proof. intros k fd t u (a & A & B). exists a. split; [apply in_or_app; auto|exact B]. Qed.
Lemma pipe_end_r : forall k fd t u, pipe_end k fd u -> pipe_end k fd (t ++ u).
Proof. intros k fd t u (a & A & B). exists a. split; [apply in_or_app; auto|exact B]. Qed.
Ltac mono W P :=
  intros [(n & H)|[H|[H|[(D & [(fd & F & H)|H])|[(N & H)|[(fd & F & H)|[(A & [(fd & F & H)|(pem & H)])|(U & D & H)]]]]]]];
  [left; exists n; apply W; exact H|right; left; apply W; exact H|right; right; left; apply W; exact H|
   right; right; right; left; split; [exact D|left; exists fd; split; [exact F|apply W; exact H]]|
   right; right; right; left; split; [exact D|right; apply W; exact H]|
   right; right; right; right; left; split; [exact N|apply W; exact H]|
   right; right; right; right; right; left; exists fd; split; [destruct F as [F|[F|F]]; [left; exact F|right; left; apply P; exact F|right; right; exact F]|apply W; exact H]|
   right; right; right; right; right; right; left; split; [exact A|left; exists fd; split; [destruct F as [F|F]; [left; exact F|right; apply P; exact F]|destruct H as [H|H]; [left|right]; apply W; exact H]]|
   right; right; right; right; right; right; left; split; [exact A|right; exists pem; apply W; exact H]|
   right; right; right; right; right; right; right; split; [exact U|split; [exact D|apply W; exact H]]].
Lemma why_l : forall W0 W1 t u, why W0 W1 t -> why W0 W1 (t ++ u).
Proof. intros W0 W1 t u. mono within_l pipe_end_l. Qed.
Lemma why_r : forall W0 W1 t u, why W0 W1 u -> why W0 W1 (t ++ u).
Proof. intros W0 W1 t u. mono within_r pipe_end_r. Qed.
Lemma why_pipe : forall (W0 W1 : Z -> Prop) a t, ret a <> -1 -> why (fun fd => W0 fd \/ fd = nth 0 (data a) 0) (fun fd => W1 fd \/ fd = nth 1 (data a) 0) t ->
  why W0 W1 ((Other (bs "pipe") [] [], a) :: t).
Proof.
  intros W0 W1 a t NE H. apply (why_r _ _ [(Other (bs "pipe") [] [], a)]) in H. cbn [app] in H. revert H.
  assert (P : forall k, pipe_end k (nth k (data a) 0) ((Other (bs "pipe") [] [], a) :: t)) by (intros k; exists a; split; [left; reflexivity|auto]).
  intros [H|[H|[H|[H|[H|[(fd & F & H)|[(A & [(fd & F & H)|H])|H]]]]]]].
  - left; exact H.
  - right; left; exact H.
  - right; right; left; exact H.
  - right; right; right; left; exact H.
  - right; right; right; right; left; exact H.
  - right; right; right; right; right; left. exists fd. split; [|exact H]. destruct F as [[F| ->]|F]; auto.
  - right; right; right; right; right; right; left. split; [exact A|]. left. exists fd. split; [|exact H]. destruct F as [[F| ->]|F]; auto.
  - right; right; right; right; right; right; left. split; [exact A|right; exact H].
  - right; right; right; right; right; right; right. exact H.
Qed.

Definition blames (W0 W1 : Z -> Prop) (p : prog ending) : Prop :=
  forall tr, runs p tr (Fin (Exit 111)) -> original tr -> pids tr -> legal tr -> waits tr = [] -> why W0 W1 tr.
Lemma blames_bind2 : forall A W0 W1 (p : prog A) f (V : A -> Prop), gives V p -> (forall a, V a -> blames W0 W1 (f a)) -> blames W0 W1 (pbind p f).
Proof.
  intros A W0 W1 p f V G H tr R O P L W. apply fin_bind in R as (a & t1 & t2 & -> & R1 & R2). apply original_app in O as [_ O]. apply pids_app in P as [_ P]. apply legal_app in L as [_ L].
  rewrite waits_app in W. apply app_eq_nil in W as [_ W]. apply why_r. eapply H; eauto.
Qed.
Lemma blames_bind : forall A W0 W1 (p : prog A) f, (forall a, blames W0 W1 (f a)) -> blames W0 W1 (pbind p f).
Proof. intros A W0 W1 p f H. eapply blames_bind2; [apply gives_any|]. auto. Qed.
(** a part that decides: [bad] outcomes are reasons *)
Lemma blames_part : forall A W0 W1 (p : prog A) f, (forall tr a, runs p tr (Fin a) -> legal tr -> pids tr -> why W0 W1 tr \/ blames W0 W1 (f a)) -> blames W0 W1 (pbind p f).
Proof.
  intros A W0 W1 p f H tr R O P L W. apply fin_bind in R as (a & t1 & t2 & -> & R1 & R2). apply original_app in O as [_ O]. apply pids_app in P as [P1 P]. apply legal_app in L as [L1 L].
  rewrite waits_app in W. apply app_eq_nil in W as [_ W]. destruct (H _ _ R1 L1 P1) as [X|X]; [apply why_l; exact X|apply why_r; eapply X; eauto].
Qed.
Lemma finish_blame : forall W0 W1 child key fk tk s, blames W0 W1 (finish fuel child key fk tk s).
Proof.
  intros W0 W1 child key fk tk s tr R _ _ _ W. exfalso. unfold finish in R. do 6 (apply fin_bind in R as (? & ? & ? & -> & _ & R)). apply fin_bind in R as (? & t1 & t2 & -> & R1 & _).
  rewrite !waits_app in W. do 6 (apply app_eq_nil in W as [_ W]). apply app_eq_nil in W as [W _]. exact (wait_waits _ _ _ _ R1 W).
Qed.
Lemma blames_ret : forall W0 W1 c, c <> 111 -> blames W0 W1 (Ret (Exit c)).
Proof. intros W0 W1 c N tr [_ R]. congruence. Qed.
Lemma why_unwritten : forall (W0 W1 : Z -> Prop) fd t, W1 fd -> within (unwritten fd) t -> why W0 W1 t.
Proof. intros W0 W1 fd t F H. right; right; right; right; right; left. exists fd. auto. Qed.
Lemma need_blame : forall (W0 W1 : Z -> Prop) fd x n k, 0 <= n -> W1 fd -> blames W0 W1 k -> blames W0 W1 (need (pipe_write fuel fd x n) k).
Proof.
  intros W0 W1 fd x n k N F K. unfold need. apply blames_part. intros tr [|e] R _ _; [right; exact K|left]. eapply why_unwritten; [exact F|]. eapply pipe_write_blame; eauto.
Qed.
Lemma sigaction_blame : forall W0 W1 n k, blames W0 W1 k -> blames W0 W1 (sigaction n k).
Proof.
  intros W0 W1 n k K. unfold sigaction. apply blames_part. intros tr a R _ _. apply runs_sys1 in R as [[_ E]|(b & -> & E)]; [discriminate|]. injection E as ->.
  destruct (Z.eqb_spec (ret b) (-1)); [left|right; exact K]. left. exists n. apply within_here. exists b. auto.
Qed.
Lemma relay_blame : forall (W0 W1 : Z -> Prop) cmd n self s fin, delayed (settings cmd) = delay -> (match certuser (settings cmd) with Some _ => true | None => false end) = usercert ->
  W1 (childin s) -> (forall s, blames W0 W1 (fin s)) -> blames W0 W1 (relay fuel cmd n self s fin).
Proof.
  intros W0 W1 cmd n self s fin ED EU F FIN. unfold relay. cbv zeta. rewrite ED, EU. apply blames_bind. intros _. apply blames_bind. intros _.
  assert (T : forall s1, (delay = false -> childin s1 = childin s) -> blames W0 W1
    (_ <~ init_tls (settings cmd) n ;; '(r, t) <~ tls_phase (timeout cmd) 1 self usercert fuel (mkts s1 false delay) ;; if r =? 0 then fin (fds t) else Ret (Exit r))).
  { intros s1 E. apply blames_bind. intros _. apply blames_part. intros tr [r ts] R _ _. destruct (Z.eqb_spec r 0); [right; apply FIN|].
    destruct (Z.eq_dec r 111) as [->|N]; [left|right; apply blames_ret; exact N].
    assert (TD : tidy (childin s1) delay (mkts s1 false delay)) by (split; [left; reflexivity|auto]).
    destruct (phase_blame _ _ _ _ _ _ _ _ _ _ TD R) as (DF & [(U & H)|(fd & D & H)]).
    - right; right; right; right; right; right; right. auto.
    - right; right; right; right; right; left. exists fd. split; [|exact H]. destruct D as [->| ->]; [left; rewrite (E DF); exact F|auto]. }
  destruct delay.
  - apply blames_part. intros tr bad R _ _. destruct bad; [left; eapply why_unwritten; [exact F|eapply report_blame; exact R]|right].
    apply sigaction_blame. apply blames_bind. intros _. apply blames_bind. intros [r s1]. destruct (r =? 0); [apply FIN|]. apply blames_bind. intros _. apply T. discriminate.
  - apply blames_bind. intros v. apply blames_bind. intros w. apply sigaction_blame. apply T. reflexivity.
Qed.
Lemma anchor_blame : forall (W0 W1 : Z -> Prop) fn fk tk k, (match fn with Some _ => true | None => false end) = anchored -> W0 fk -> W1 tk -> (forall n, blames W0 W1 (k n)) -> blames W0 W1 (anchor fuel fn fk tk k).
Proof.
  intros W0 W1 fn fk tk k EA F0 F1 K. unfold anchor. destruct fn as [fn|]; [|apply K]. apply blames_bind. intros x. apply (blames_bind2 _ _ _ _ _ (fun n => 0 <= n)).
  { intros tr n R. apply runs_lift in R as [_ R]. destruct (str_len x) as [m| |] eqn:E; try discriminate. injection R as ->. eapply str_len_pos. exact E. }
  intros n N. apply need_blame; [lia|exact F1|]. apply blames_part. intros tr y R L _. destruct y as [e|pem]; [left|right].
  - right; right; right; right; right; right; left. split; [auto|left]. exists fk. split; [auto|]. eapply readalloc_blame; eauto.
  - apply blames_part. intros t a R2 _ _. apply runs_sys1 in R2 as [[_ E]|(b & -> & E)]; [discriminate|]. injection E as ->. destruct (Z.eqb_spec (ret b) 0); [left|right; apply K].
    right; right; right; right; right; right; left. split; [auto|right]. exists pem. apply within_here. exists b. auto.
Qed.
Lemma tell_blame : forall (W0 W1 : Z -> Prop) fd i k, W1 fd -> blames W0 W1 k -> blames W0 W1 (tell fuel fd i k).
Proof. intros W0 W1 fd i k F K. unfold tell. do 4 (apply need_blame; [lia|exact F|]). exact K. Qed.
Lemma peer_blame : forall (W0 W1 : Z -> Prop) pp k, (forall i, blames W0 W1 (k i)) -> blames W0 W1 (peer_info I fuel env pp k).
Proof.
  intros W0 W1 pp k K. unfold peer_info. destruct pp.
  - apply blames_bind. intros [r e]. destruct (r =? 0); [apply blames_ret; discriminate|apply K].
  - apply blames_bind. exact K.
Qed.
Lemma pipe_blame : forall (W0 W1 : Z -> Prop) k, (forall r w, blames (fun fd => W0 fd \/ fd = r) (fun fd => W1 fd \/ fd = w) (k r w)) -> blames W0 W1 (open_pipe k).
Proof.
  intros W0 W1 k K tr R O P L W. unfold open_pipe in R. apply fin_sys in R as (a & t & -> & R). destruct (Z.eqb_spec (ret a) (-1)) as [E|E].
  - right. left. apply (within_l _ [_]). apply within_here. exists a. auto.
  - apply why_pipe; [exact E|]. cbv zeta in R. apply (original_app [_]) in O as [_ O]. apply (pids_app [_]) in P as [_ P]. apply (legal_app [_]) in L as [_ L].
    change ((Other (bs "pipe") [] [], a) :: t) with ([(Other (bs "pipe") [] [], a)] ++ t) in W. rewrite waits_app in W. apply app_eq_nil in W as [_ W].
    revert t R O P L W. do 4 (apply blames_bind; intros _). apply K.
Qed.
Lemma fork_blame : forall W0 W1 (k0 : prog ending) k, (forall f, blames W0 W1 (k f)) ->
  blames W0 W1 (f <~ sys1 (Other (bs "fork") [] []) ;; if ret f =? -1 then Ret (Exit 111) else if ret f =? 0 then k0 else k f).
Proof.
  intros W0 W1 k0 k K tr R O P L W. apply fin_sys in R as (a & t & -> & R). destruct (Z.eqb_spec (ret a) (-1)) as [E|E].
  - right. right. left. apply (within_l _ [_]). apply within_here. exists a. auto.
  - destruct (Z.eqb_spec (ret a) 0) as [E0|E0]; [exfalso; apply O; left; exact E0|]. apply (why_r _ _ [_]).
    apply (original_app [_]) in O as [_ O]. apply (pids_app [_]) in P as [_ P]. apply (legal_app [_]) in L as [_ L].
    change ((Other (bs "fork") [] [], a) :: t) with ([(Other (bs "fork") [] [], a)] ++ t) in W. rewrite waits_app in W. apply app_eq_nil in W as [_ W].
    eapply K; eauto.
Qed.
Lemma jailed_main_blame : forall (W0 W1 : Z -> Prop) cmd p child key fk tk self, delayed (settings cmd) = delay -> (match certuser (settings cmd) with Some _ => true | None => false end) = usercert ->
  (match anchorfn (cfg (settings cmd)) with Some _ => true | None => false end) = anchored ->
  cstr_opt (jailaccount (settings cmd)) = Ok acc -> cstr (jaildir (settings cmd)) = Ok dir -> W0 fk -> W1 tk -> W1 (toc_w p) ->
  blames W0 W1 (jailed_main I fuel env nojail cmd p child key fk tk self).
Proof.
  intros W0 W1 cmd p child key fk tk self ED EU EA EJ EDI F0 F1 F2. unfold jailed_main. rewrite EJ, EDI. cbn [lift pbind]. apply blames_part. intros tr r R _ P.
  destruct (Z.eqb_spec (fst r) (-1)) as [E|E].
  - left. right; right; right; right; left. destruct nojail; [destruct R as [_ R]; injection R as ->; discriminate|]. split; [reflexivity|]. apply within_here. eapply jail_blame; eauto.
  - right. apply anchor_blame; auto. intros n. apply peer_blame. intros i. cbv zeta. apply tell_blame; [exact F2|]. apply relay_blame; auto. intros s. apply finish_blame.
Qed.
Lemma parent_blame : forall (W0 W1 : Z -> Prop) cmd p child, delayed (settings cmd) = delay -> (match certuser (settings cmd) with Some _ => true | None => false end) = usercert ->
  (match anchorfn (cfg (settings cmd)) with Some _ => true | None => false end) = anchored ->
  cstr_opt (jailaccount (settings cmd)) = Ok acc -> cstr (jaildir (settings cmd)) = Ok dir -> W1 (toc_w p) ->
  blames W0 W1 (parent_main I stream fuel line0 key0 env nojail cmd p child).
Proof.
  intros W0 W1 cmd p child ED EU EA EJ EDI F2. unfold parent_main. do 9 (apply blames_bind; intros _). apply pipe_blame. intros fr fw. apply pipe_blame. intros kr kw. apply fork_blame. intros f.
  do 4 (apply blames_bind; intros _). apply pipe_blame. intros sr sw. apply jailed_main_blame; auto.
Qed.
Lemma devnull_blame : forall W0 W1 n k, delay = true -> blames W0 W1 k -> blames W0 W1 (devnull n k).
Proof.
  intros W0 W1 n k D K. induction n as [|n IH]; cbn [devnull]; [intros tr [_ R]; discriminate|]. apply blames_part. intros tr a R _ _. apply runs_sys1 in R as [[_ E]|(b & -> & E)]; [discriminate|]. injection E as ->.
  destruct (Z.eqb_spec (ret b) (-1)); [left|right; destruct (6 <? ret b); [apply blames_bind; intros _; exact K|exact IH]].
  right; right; right; left. split; [exact D|right]. apply within_here. exists b. auto.
Qed.
Lemma start_blame : forall (W0 W1 : Z -> Prop) cmd, delayed (settings cmd) = delay -> (match certuser (settings cmd) with Some _ => true | None => false end) = usercert ->
  (match anchorfn (cfg (settings cmd)) with Some _ => true | None => false end) = anchored ->
  cstr_opt (jailaccount (settings cmd)) = Ok acc -> cstr (jaildir (settings cmd)) = Ok dir ->
  blames W0 W1 (start_child I stream fuel junk portbuf line0 key0 env nojail cmd).
Proof.
  intros W0 W1 cmd ED EU EA EJ EDI. unfold start_child. apply blames_bind. intros _.
  match goal with |- blames _ _ (_ ?k) => assert (K : blames W0 W1 k) end.
  { apply pipe_blame. intros t0 t1. apply pipe_blame. intros f0 f1. apply pipe_blame. intros c0 c1. apply pipe_blame. intros k0 k1. cbv zeta. apply fork_blame. intros f. apply parent_blame; cbn; auto. }
  rewrite ED in *. destruct delay eqn:D; [|exact K]. unfold reserve.
  apply blames_part. intros tr a R _ _. apply runs_sys1 in R as [[_ E]|(b & -> & E)]; [discriminate|]. injection E as ->. destruct (Z.eqb_spec (ret b) (-1)); cbn [negb]; [right|left].
  2:{ right; right; right; left. split; [exact D|left]. exists 5. split; [auto|]. apply within_here. exists b. auto. }
  apply blames_part. intros tr a R _ _. apply runs_sys1 in R as [[_ E]|(b2 & -> & E)]; [discriminate|]. injection E as ->. destruct (Z.eqb_spec (ret b2) (-1)); cbn [negb]; [right|left].
  2:{ right; right; right; left. split; [exact D|left]. exists 6. split; [auto|]. apply within_here. exists b2. auto. }
  apply devnull_blame; auto.
Qed.
Lemma why_up : forall t, why (fun _ => False) (fun _ => False) t -> wrapper_gives_up nojail delay usercert anchored acc dir t.
Proof.
  intros t [H|[H|[H|[H|[H|[(fd & F & H)|[(A & [(fd & F & H)|H])|H]]]]]]].
  - left; exact H.
  - right; left; exact H.
  - right; right; left; exact H.
  - right; right; right; left; exact H.
  - right; right; right; right; left; exact H.
  - right; right; right; right; right; left. exists fd. split; [tauto|exact H].
  - right; right; right; right; right; right; left. split; [exact A|]. left. exists fd. split; [tauto|exact H].
  - right; right; right; right; right; right; left. split; [exact A|right; exact H].
  - right; right; right; right; right; right; right. exact H.
Qed.
End Quit.

(** ** Exit 100 after the processes were started *)
Section Refuse.
Variable I : inet.
Hypothesis IO : inet_ok I.
Variable stream : list Z -> list Z -> nat -> Z.
Variable fuel : nat.
Variables junk portbuf line0 key0 : list Z.
Variable env : environment.
Variable nojail : bool.
Definition unheaded (tr : trace) : Prop := exists t u, tr = t ++ u /\ Forall (fun e => fst e = Read 0 1) u /\ garbled I u.
Definition refuses (p : prog ending) : Prop := forall tr, runs p tr (Fin (Exit 100)) -> original tr -> legal tr -> waits tr = [] -> unheaded tr.
Lemma unheaded_r : forall t u, unheaded u -> unheaded (t ++ u).
Proof. intros t u (a & b & -> & F & G). exists (t ++ a), b. rewrite app_assoc. auto. Qed.
Lemma refuses_bind2 : forall A (p : prog A) f (V : A -> Prop), gives V p -> (forall a, V a -> refuses (f a)) -> refuses (pbind p f).
Proof.
  intros A p f V G H tr R O L W. apply fin_bind in R as (a & t1 & t2 & -> & R1 & R2). apply original_app in O as [_ O]. apply legal_app in L as [_ L].
  rewrite waits_app in W. apply app_eq_nil in W as [_ W]. apply unheaded_r. eapply H; eauto.
Qed.
Lemma refuses_bind : forall A (p : prog A) f, (forall a, refuses (f a)) -> refuses (pbind p f).
Proof. intros A p f H. eapply refuses_bind2; [apply gives_any|]. auto. Qed.
Lemma refuses_ret : forall c, c <> 100 -> refuses (Ret (Exit c)).
Proof. intros c N tr [_ R]. congruence. Qed.
Lemma finish_refuse : forall child key fk tk s, refuses (finish fuel child key fk tk s).
Proof.
  intros child key fk tk s tr R _ _ W. exfalso. unfold finish in R. do 6 (apply fin_bind in R as (? & ? & ? & -> & _ & R)). apply fin_bind in R as (? & t1 & t2 & -> & R1 & _).
  rewrite !waits_app in W. do 6 (apply app_eq_nil in W as [_ W]). apply app_eq_nil in W as [W _]. exact (wait_waits _ _ _ _ R1 W).
Qed.
Lemma need_refuse : forall p k, refuses k -> refuses (need p k).
Proof. intros p k K. unfold need. apply refuses_bind. intros [|e]; [exact K|apply refuses_ret; discriminate]. Qed.
Lemma sigaction_refuse : forall n k, refuses k -> refuses (sigaction n k).
Proof. intros n k K. unfold sigaction. apply refuses_bind. intros a. destruct (ret a =? -1); [apply refuses_ret; discriminate|exact K]. Qed.
Lemma relay_refuse : forall cmd n self s fin, (forall s, refuses (fin s)) -> refuses (relay fuel cmd n self s fin).
Proof.
  intros cmd n self s fin FIN. unfold relay. cbv zeta. apply refuses_bind. intros _. apply refuses_bind. intros _.
  assert (T : forall cu s1 b, refuses
    (_ <~ init_tls (settings cmd) n ;; '(r, t) <~ tls_phase (timeout cmd) 1 self cu fuel (mkts s1 false b) ;; if r =? 0 then fin (fds t) else Ret (Exit r))).
  { intros cu s1 b. apply refuses_bind. intros _. eapply refuses_bind2; [apply tls_gives|]. intros [r ts] V. cbn [fst] in V. destruct (Z.eqb_spec r 0); [apply FIN|apply refuses_ret; lia]. }
  destruct (delayed (settings cmd)).
  - apply refuses_bind. intros bad. destruct bad; [apply refuses_ret; discriminate|].
    apply sigaction_refuse. apply refuses_bind. intros _. apply refuses_bind. intros [r s1]. destruct (r =? 0); [apply FIN|]. apply refuses_bind. intros _. apply T.
  - apply refuses_bind. intros v. apply refuses_bind. intros w. apply sigaction_refuse. apply T.
Qed.
Lemma peer_refuse : forall pp k, (forall i, refuses (k i)) -> refuses (peer_info I fuel env pp k).
Proof.
  intros pp k K. unfold peer_info. destruct pp; [|apply refuses_bind; exact K].
  intros tr R O L W. apply fin_bind in R as ([r e] & t1 & t2 & -> & R1 & R2). apply original_app in O as [_ O]. apply legal_app in L as [L1 L].
  rewrite waits_app in W. apply app_eq_nil in W as [_ W]. destruct (Z.eqb_spec r 0) as [->|N]; [|apply unheaded_r; eapply K; eauto].
  destruct R2 as [-> _]. rewrite app_nil_r. exists [], t1. split; [reflexivity|]. destruct (get_v1_ok _ _ _ _ _ _ IO R1 L1) as (F & _ & [(E & _)|(_ & _ & H)]); [discriminate|]. split; [exact F|].
  destruct H as [(N & H)|(u & H)]; [left|right; eauto]. split; [exact N|]. destruct H as [(n & LE & H)|H]; [left|right; exact H].
  destruct H as (t & m & a & -> & E). exists m, a. split; [apply in_or_app; right; left; reflexivity|lia].
Qed.
Lemma pipe_refuse : forall k, (forall r w, refuses (k r w)) -> refuses (open_pipe k).
Proof. intros k K. unfold open_pipe. apply refuses_bind. intros a. destruct (ret a =? -1); [apply refuses_ret; discriminate|]. cbv zeta. do 4 (apply refuses_bind; intros _). apply K. Qed.
Lemma fork_refuse : forall (k0 : prog ending) k, (forall f, refuses (k f)) ->
  refuses (f <~ sys1 (Other (bs "fork") [] []) ;; if ret f =? -1 then Ret (Exit 111) else if ret f =? 0 then k0 else k f).
Proof.
  intros k0 k K tr R O L W. apply fin_sys in R as (a & t & -> & R). destruct (Z.eqb_spec (ret a) (-1)) as [E|E]; [destruct R; discriminate|].
  destruct (Z.eqb_spec (ret a) 0) as [E0|E0]; [exfalso; apply O; left; exact E0|]. apply (unheaded_r [_]).
  apply (original_app [_]) in O as [_ O]. apply (legal_app [_]) in L as [_ L].
  change ((Other (bs "fork") [] [], a) :: t) with ([(Other (bs "fork") [] [], a)] ++ t) in W. rewrite waits_app in W. apply app_eq_nil in W as [_ W].
  eapply K; eauto.
Qed.
Lemma start_refuse : forall cmd, refuses (start_child I stream fuel junk portbuf line0 key0 env nojail cmd).
Proof.
  intros cmd. unfold start_child. apply refuses_bind. intros _.
  match goal with |- refuses (_ ?k) => assert (K : refuses k) end.
  { apply pipe_refuse. intros t0 t1. apply pipe_refuse. intros f0 f1. apply pipe_refuse. intros c0 c1. apply pipe_refuse. intros k0 k1. cbv zeta. apply fork_refuse. intros f.
    unfold parent_main. do 9 (apply refuses_bind; intros _). apply pipe_refuse. intros fr fw. apply pipe_refuse. intros kr kw. apply fork_refuse. intros g.
    do 4 (apply refuses_bind; intros _). apply pipe_refuse. intros sr sw. unfold jailed_main. do 3 (apply refuses_bind; intro).
    match goal with |- refuses (if ?b then _ else _) => destruct b end; [apply refuses_ret; discriminate|].
    assert (X : forall fn fk tk k, (forall n, refuses (k n)) -> refuses (anchor fuel fn fk tk k)).
    { intros fn fk tk k KK. unfold anchor. destruct fn; [|apply KK]. do 2 (apply refuses_bind; intro). apply need_refuse. apply refuses_bind. intros [e|pem]; [apply refuses_ret; discriminate|].
      apply refuses_bind. intros b. destruct (ret b =? 0); [apply refuses_ret; discriminate|apply KK]. }
    apply X. intros n. apply peer_refuse. intros i. cbv zeta. unfold tell. do 4 apply need_refuse. apply relay_refuse. intros s. apply finish_refuse. }
  destruct (delayed (settings cmd)); [|exact K]. unfold reserve.
  apply refuses_bind. intros a. destruct (negb (ret a =? -1)); [apply refuses_ret; discriminate|].
  apply refuses_bind. intros b. destruct (negb (ret b =? -1)); [apply refuses_ret; discriminate|].
  generalize fuel at 1. intros n. induction n as [|n IH]; cbn [devnull]; [intros tr [_ R]; discriminate|]. apply refuses_bind. intros c.
  destruct (ret c =? -1); [apply refuses_ret; discriminate|]. destruct (6 <? ret c); [apply refuses_bind; intros _; exact K|exact IH].
Qed.
End Refuse.
