(** tlswrapper-smtp: the policy server's address and where connections are opened to. *)
From Verif.Model Require Import Base Sys Io Str Buffer Inet Parsenum Fdio Relay Session Jail Pem Proxy Conninfo Conn Resolve Main Getopt Lookup.
From Verif.Spec Require Import Text Flow Restrict Process Resolver Forward Mailer.
From Verif.Proof Require Import Tac SysP BufferP CallsP SafeP MainCallsP ResolveP ConnP TcpJailP TcpmainP TcpDestP.

(** 16 bytes of buffer: the first address *)
Lemma do_one : forall fd name rest tr o, nonul name -> Forall tame tr ->
  runs (resolvehost_do fd (Some (repeat 0 16)) 16 (Some (name ++ 0 :: rest))) tr o ->
  o <> Wrong /\ forall n x, o = Fin (n, x) -> n <= 0 \/ (n = 16 /\ length x = 16%nat /\ exists cs, answered gai_list false name tr (x :: cs)).
Proof.
  intros fd name rest tr o N F R. pose proof R as R0. unfold resolvehost_do in R. change (16 <? 16) with false in R. cbv iota in R. rewrite namelen_ok in R by auto. cbn [lift pbind] in R.
  destruct (Z.ltb_spec 255 (len name)) as [I255|I255]; [destruct R as [-> ->]; split; [discriminate|]; intros n ip E; injection E as <- <-; left; lia|].
  assert (BAD : forall (t T : trace) (q : outcome (Z * list Z)), t = [] /\ q = Fin (-1, repeat 0 16) -> q <> Wrong /\ forall n x, q = Fin (n, x) -> n <= 0 \/ (n = 16 /\ length x = 16%nat /\ exists cs, answered gai_list false name T (x :: cs))).
  { intros t T q [_ ->]. split; [discriminate|]. intros n ip E. injection E as <- <-. left. lia. }
  destruct (copyin (repeat 0 256) 0 (name ++ 0 :: rest) (len name)) as [buf| |] eqn:CB; cbn [lift pbind] in R.
  2: { destruct R as [-> ->]. exfalso. destruct (do_ok fd (repeat 0 16) 16 name rest [] Wrong) as [(_ & _ & X)|(_ & X & _)]; auto; try constructor; [change (len (repeat 0 16)) with 16; lia|discriminate]. }
  2: { destruct R as [_ ->]. split; discriminate. }
  destruct R as [[-> ->]|(s & t & -> & R)]; [split; discriminate|]. cbn [pbind] in R. destruct (Z.eqb_spec (ret s) 256) as [ES|ES]; cbn [negb] in R; [|eapply BAD; exact R].
  destruct R as [[-> ->]|(a & t1 & -> & R)]; [split; discriminate|]. cbn [pbind] in R. destruct (Z.leb_spec (ret a) 0) as [EA|EA]; [eapply BAD; exact R|].
  assert (T1 : t1 = []). { destruct (copyin buf 0 (data a) (ret a)) as [x| |]; cbn [lift pbind] in R; try (destruct R; auto; fail). destruct (ret a =? 1).
    - destruct (ld x 0) as [x0| |]; cbn [lift pbind] in R; try (destruct R; auto; fail). destruct (u8 x0 =? 255); destruct R; auto.
    - destruct (copyin (repeat 0 16) 0 (skipn 1 x) (if 16 <? ret a - 1 then 16 else ret a - 1)); cbn [lift pbind] in R; destruct R; auto. }
  subst t1. clear R. pose proof (tame_dgram _ F) as D.
  destruct (do_ok fd (repeat 0 16) 16 name rest _ o N ltac:(change (len (repeat 0 16)) with 16; lia) D) with (2 := R0) as [(_ & X & _)|(_ & W & Q)]; [|discriminate|].
  { constructor; [intros _; cbn [fst snd]; lia|]. constructor; [intros _; cbn [fst snd]; lia|constructor]. }
  split; [exact W|]. intros n ip ->. destruct (Q _ eq_refl) as (rep & Q1 & Q2 & Q3 & Q4).
  assert (EB : buf = padded name).
  { unfold dsent, Send, Recv in Q1. cbn [flat_map fst snd] in Q1. change (is_name (bs "send") (bs "send")) with true in Q1. rewrite Z.eqb_refl in Q1. rewrite (proj2 (Z.leb_le 0 (ret s))) in Q1 by lia. cbn in Q1. congruence. }
  assert (ER : rep = data a).
  { unfold drecv, Send, Recv in Q2. cbn [flat_map fst snd] in Q2. change (is_name (bs "recv") (bs "recv")) with true in Q2. rewrite Z.eqb_refl in Q2. rewrite (proj2 (Z.ltb_lt 0 (ret a))) in Q2 by lia. cbn in Q2. congruence. }
  subst rep buf. inversion F as [|? ? F1 F2]; subst. inversion F2 as [|? ? F3 _]; subst. destruct F3 as (_ & _ & _ & HO & _). destruct (HO fd 256 eq_refl EA) as [H|(cs & H)].
  { cbn [snd] in H. rewrite H in Q4. cbn in Q4. injection Q4 as -> _. left. lia. }
  cbn [snd] in H. pose proof H as HH. destruct H as (A & B & E). destruct cs as [|c cs].
  { rewrite E in Q4. cbn in Q4. injection Q4 as -> _. left. rewrite len_nil. change (u8 (16 * 0)) with 0. lia. }
  right. assert (C16 : length c = 16%nat) by (inversion A; auto). clear CB W. 
  assert (T : taken (data a) (repeat 0 16) 16 = (16, c)).
  { rewrite E. unfold taken. destruct (concat (c :: cs)) as [|x l] eqn:EC; [cbn [concat] in EC; destruct c; discriminate|]. rewrite len_cons.
    assert (LL : 16 <= len (x :: l)) by (rewrite <- EC; cbn [concat]; rewrite len_app; unfold len at 1; pose proof (len_nonneg _ (concat cs)); lia).
    replace (Z.min 16 (len (x :: l) + 1 - 1)) with 16 by lia. cbn [tl]. rewrite <- EC. cbn [concat]. change (Z.to_nat 16) with 16%nat.
    rewrite firstn_app, C16, Nat.sub_diag, firstn_O, app_nil_r. rewrite firstn_all2 by lia. change (skipn 16 (repeat 0 16)) with (@nil Z). rewrite app_nil_r. reflexivity. }
  rewrite T in Q4. assert (E1 : n = 16) by congruence. assert (E2 : ip = c) by congruence. clear Q4. rewrite E1, E2. split; [reflexivity|]. split; [exact C16|]. exists cs.
  exists fd, [], s, [], a, []. split; [reflexivity|]. repeat split; auto; apply HH.
Qed.
Lemma resolve_one : forall name rest tr o, Forall tame tr -> runs (resolvehost (Some (repeat 0 16)) 16 (Some (name ++ 0 :: rest))) tr o ->
  o <> Wrong /\ forall n e x, o = Fin (n, e, x) -> n <= 0 \/ (n = 16 /\ length x = 16%nat /\ chosen gai_list true name tr x).
Proof.
  intros name rest tr o F R. change 16 with (len (repeat 0 16)) in R. apply resolvehost_ok in R; [|change (len (repeat 0 16)) with 16; lia|change (len (repeat 0 16)) with 16; lia].
  destruct R as [[_ ->]|(a & t & -> & _ & W & Q)]; [split; discriminate|]. split; [exact W|]. intros n e ip E. destruct (Q n e ip E) as (r & Q1 & Q2 & Q3). destruct r as [cs|]; [|left; lia].
  change (len (repeat 0 16)) with 16 in Q1. change (16 / 16) with 1 in Q1. rewrite repeat_length in Q2.
  destruct Q3 as (A & -> & B & _ & FI). change (len (repeat 0 16)) with 16 in B. destruct cs as [|c [|c2 cs]]; [left; rewrite len_nil; lia| |exfalso; rewrite !len_cons in B; pose proof (len_nonneg _ cs); lia].
  right. split; [reflexivity|]. split; [exact Q2|]. specialize (FI ltac:(discriminate)).
  assert (C16 : length c = 16%nat) by (inversion A; auto). assert (ip = c). { apply nth_error_ext. intros k. destruct (lt_dec k 16) as [K|K].
    - rewrite FI by (cbn; lia). cbn [concat]. rewrite app_nil_r, C16, Nat.mod_small by lia. reflexivity.
    - rewrite !(proj2 (nth_error_None _ _)) by lia. reflexivity. }
  subst ip. exists rest, a. split; [left; reflexivity|]. exact Q1.
Qed.

(** ** Where connections are opened to *)
Ltac kinds := repeat (calls1 || (progress cbv zeta)); try exact Logic.I; try (repeat split; discriminate); try discriminate.
Section Dest.
Variable nojail : bool.
Variables (host : list Z) (port : Z).
Definition direct1 (t : trace) (e : event) : Prop :=
  calling (bs "connect") e = true -> exists x fd, chosen gai_list nojail host t x /\ fst e = Other (bs "connect") [fd] (x ++ [port / 256; port mod 256]).
Notation ok h p := (sp tamed direct1 h p true1).
Lemma part1 : forall A (p : prog A) (f : A -> prog ending) h, calls unconn p ->
  (forall t x, runs p t (Fin x) -> Forall tame t -> ok (h ++ t) (f x)) -> ok h (pbind p f).
Proof.
  intros A p f h C K. eapply sp_bind with (M := fun t x => exists u, t = h ++ u /\ runs p u (Fin x) /\ Forall tame u).
  - intros tr o R H. split.
    + intros t1 e t2 E CC. pose proof (C _ _ R) as F. rewrite E, Forall_app in F. destruct F as [_ F]. inversion F as [|? ? F1 _]; subst. destruct e as [[] a]; try discriminate. apply calling_other in CC. destruct (F1 CC).
    + intros r ->. exists tr. split; auto. split; auto. eapply tamed_all; eauto.
  - intros t x (u & -> & R & T). auto.
Qed.
Lemma rest1 : forall (p : prog ending) h, calls unconn p -> ok h p.
Proof.
  intros p h C tr o R H. split; [|intros; exact Logic.I]. intros t1 e t2 E CC. pose proof (C _ _ R) as F. rewrite E, Forall_app in F. destruct F as [_ F]. inversion F as [|? ? F1 _]; subst. destruct e as [[] a]; try discriminate. apply calling_other in CC. destruct (F1 CC).
Qed.
Definition aimed1 (x : list Z) (k : sys) : Prop := unconn k \/ exists fd, k = Other (bs "connect") [fd] (x ++ [port / 256; port mod 256]).
Lemma conn_aimed1 : forall fuel sl t x, length x = 16%nat -> calls (aimed1 x) (conn fuel sl t x 16 [port / 256; port mod 256]).
Proof.
  intros fuel.
  assert (W : forall A x (p : prog A), calls unconn p -> calls (aimed1 x) p) by (intros A x p C; eapply calls_weak; [exact C|]; intros k K; left; exact K).
  assert (X : forall sl s, calls unconn (closeslot sl s)) by (intros; unfold closeslot; kinds).
  assert (R : forall m i sl, calls unconn (conn_reset_from m i sl)) by (induction m; intros; cbn [conn_reset_from]; kinds; auto).
  assert (C : forall p sl, calls unconn (conn_check p sl)) by (induction p as [|[fd re] p IH]; intros; cbn [conn_check]; kinds; auto; unfold socket_connected; kinds).
  assert (V : forall n d k sl, calls unconn (conn_wait n d k sl)).
  { induction n; intros; cbn [conn_wait]; kinds; auto; try (unfold conn_reset; apply R); try (unfold milliseconds; kinds). unfold jail_poll. kinds. }
  assert (Y : forall m i w sl ip d, calls unconn (copyip_loop m i w sl ip d)) by (induction m; intros; cbn [copyip_loop]; kinds; auto).
  intros sl t x L.
  assert (M : calls (aimed1 x) milliseconds) by (apply W; unfold milliseconds; kinds).
  unfold conn. apply calls_bind; [exact M|]. intros now. apply calls_bind; [apply calls_lift|]. intros d. apply calls_bind; [apply calls_lift|]. intros dl. cbv zeta.
  destruct (_ || _); [kinds|]. change (if MAXIP * 16 <? 16 then MAXIP * 16 else 16) with 16. change (Z.to_nat (16 / 16)) with 1%nat.
  apply calls_bind; [|intros [w sl1]; apply W; apply calls_bind; [destruct w; kinds; auto|]; intros [w1 sl2]; destruct w1; [|kinds]; apply calls_bind; [unfold conn_copyip; kinds; auto|]; intros [[? ?] ?]; kinds].
  cbn [conn_start]. destruct (nth_error sl 0) as [[fd q]|]; [|kinds].
  apply calls_bind; [|intros a; destruct (ret a =? 0); [kinds|]; destruct (_ && _); [apply calls_bind; [apply W; auto|]; intros; kinds|kinds]].
  unfold socket_connect. change (skipn (16 * 0) x) with x. rewrite slice_ok; [|lia|lia|unfold len; lia]. change (Z.to_nat 0) with 0%nat. change (skipn 0 x) with x. change (Z.to_nat 16) with 16%nat. rewrite firstn_all2 by lia.
  cbn [lift pbind]. change (slice [port / 256; port mod 256] 0 2) with (Ok [port / 256; port mod 256] : res (list Z)). cbn [lift pbind]. apply calls_sys1. right. exists fd. reflexivity.
Qed.
Lemma chosen_more : forall h t x, chosen gai_list nojail host h x -> chosen gai_list nojail host (h ++ t) x.
Proof.
  intros h t x H. unfold chosen in *. destruct nojail.
  - destruct H as (y & a & H1 & H2). exists y, a. split; [apply in_or_app; auto|exact H2].
  - destruct H as (cs & H). exists cs. apply (answered_more false host). exact H.
Qed.
Lemma sp_aimed1 : forall A (p : prog A) (f : A -> prog ending) h x, calls (aimed1 x) p -> chosen gai_list nojail host h x ->
  (forall t y, ok t (f y)) -> ok h (pbind p f).
Proof.
  intros A p f h x C AN K. eapply sp_bind with (M := true1).
  - intros tr o R H. split; [|intros; exact Logic.I]. intros t1 e t2 E CC. pose proof (C _ _ R) as F. rewrite E, Forall_app in F. destruct F as [_ F]. inversion F as [|? ? F1 _]; subst.
    destruct F1 as [F1|(fd & F1)]; [destruct e as [[] a]; try discriminate; apply calling_other in CC; destruct (F1 CC)|]. exists x, fd. split; [apply chosen_more; exact AN|exact F1].
  - auto.
Qed.
End Dest.
