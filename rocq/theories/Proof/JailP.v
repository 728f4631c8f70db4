(** Lemmas about jail.c. *)
From Verif.Model Require Import Base Sys Jail.
From Verif.Spec Require Import Restrict.
From Verif.Proof Require Import Tac SysP.

Definition result : Type := (Z * option Z)%type.

(** [k] runs after the steps [l] *)
Fixpoint after (l : list step) (k : prog result) : prog result :=
  match l with
  | [] => k
  | (c, None) :: l' => must c (after l' k)
  | (c, Some v) :: l' => mustbe c v (after l' k)
  end.
Lemma after_app : forall a b k, after (a ++ b) k = after a (after b k).
Proof. induction a as [|[c [v|]] a IH]; intros b k; cbn [app after]; auto; rewrite IH; auto. Qed.

Lemma after_runs : forall l k tr o, runs (after l k) tr o ->
  (exists t1 t2, tr = t1 ++ t2 /\ Forall2 done l t1 /\ runs k t2 o) \/
  (exists l1 s l2 t1 e, l = l1 ++ s :: l2 /\ tr = t1 ++ [e] /\ Forall2 done l1 t1 /\ missed s e /\ o = Fin (-1, None)) \/
  (exists l1 s l2, l = l1 ++ s :: l2 /\ Forall2 done l1 tr /\ o = Cut).
Proof.
  induction l as [|[c w] l IH]; intros k tr o R; cbn [after] in R.
  - left. exists [], tr. auto.
  - assert (G : (tr = [] /\ o = Cut) \/ exists a t, tr = (c, a) :: t /\ ((done (c, w) (c, a) /\ runs (after l k) t o) \/ (missed (c, w) (c, a) /\ t = [] /\ o = Fin (-1, None)))).
    { destruct w as [v|]; cbn [after] in R; unfold must, mustbe in R; destruct R as [[-> ->]|(a & t & -> & R)]; auto; right; exists a, t; split; auto; cbn [pbind] in R.
      - destruct (Z.eqb_spec (u32 (ret a)) v) as [E|E]; [left; split; auto; split; auto|destruct R as [-> ->]; right; repeat split; auto].
      - destruct (Z.eqb_spec (ret a) (-1)) as [E|E]; [destruct R as [-> ->]; right; repeat split; auto|left; split; auto; split; auto]. }
    destruct G as [[-> ->]|(a & t & -> & [[D R1]|(M & -> & ->)])].
    + right. right. exists [], (c, w), l. auto.
    + apply IH in R1 as [(t1 & t2 & -> & F & R1)|[(l1 & s & l2 & t1 & e & -> & -> & F & M & ->)|(l1 & s & l2 & -> & F & ->)]].
      * left. exists ((c, a) :: t1), t2. auto.
      * right. left. exists ((c, w) :: l1), s, l2, ((c, a) :: t1), e. auto.
      * right. right. exists ((c, w) :: l1), s, l2. auto.
    + right. left. exists [], (c, w), l, [], (c, a). auto.
Qed.

Definition mem_part : prog result :=
  r <~ jail_limit_memory RLIMIT_AS DATAMAX ;;
  if r =? -1 then Ret (-1, Some DATAMAX)
  else
    r <~ jail_limit_memory RLIMIT_DATA DATAMAX ;;
    if r =? -1 then Ret (-1, Some DATAMAX) else Ret (0, Some DATAMAX).

Lemma main_after : forall named dir limits uid gid, jail_main named dir limits uid gid = after (restrictions named dir limits uid gid) mem_part.
Proof. intros [|] [d|] [|] uid gid; reflexivity. Qed.

Lemma memory_runs : forall r m tr o, runs (jail_limit_memory r m) tr o ->
  (o = Cut /\ (tr = [] \/ exists a, tr = [(Other (bs "getrlimit") [r] [], a)])) \/ (o = Fin 0 /\ capped r m tr) \/ (o = Fin (-1) /\ uncapped r m tr).
Proof.
  intros r m tr o R. unfold jail_limit_memory in R. destruct R as [[-> ->]|(a & t & -> & R)]; [auto|]. cbn [pbind] in R.
  destruct (Z.eqb_spec (ret a) (-1)) as [E|E].
  - destruct (Z.eqb_spec (err a) EINVAL); destruct R as [-> ->]; right; [left|right]; split; auto; constructor; auto.
  - destruct (Z.leb_spec (u64 (nth 0 (data a) 0)) m) as [C|C]; [destruct R as [-> ->]; right; left; split; auto; apply cap_low; auto|].
    destruct R as [[-> ->]|(b & t' & -> & R)]; [left; split; eauto|].
    assert (HM : (if m <? u64 (nth 1 (data a) 0) then m else u64 (nth 1 (data a) 0)) = Z.min m (u64 (nth 1 (data a) 0))) by (destruct (Z.ltb_spec m (u64 (nth 1 (data a) 0))); lia).
    cbn [pbind] in R. destruct (Z.eqb_spec (ret b) (-1)); [destruct (Z.eqb_spec (err b) EINVAL)|]; destruct R as [-> ->]; right; [left|right|left]; split; auto; econstructor; eauto.
Qed.

Lemma mem_runs : forall tr o, runs mem_part tr o ->
  (o = Cut /\ forall e, In e tr -> exists n l, fst e = Other n l [] /\ (n = bs "getrlimit" \/ n = bs "setrlimit")) \/
  (exists t1 t2, o = Fin (0, Some DATAMAX) /\ tr = t1 ++ t2 /\ capped RLIMIT_AS DATAMAX t1 /\ capped RLIMIT_DATA DATAMAX t2) \/
  (o = Fin (-1, Some DATAMAX) /\ (uncapped RLIMIT_AS DATAMAX tr \/ exists t1 t2, tr = t1 ++ t2 /\ capped RLIMIT_AS DATAMAX t1 /\ uncapped RLIMIT_DATA DATAMAX t2)).
Proof.
  assert (CP : forall r m t e, capped r m t -> In e t -> exists n l, fst e = Other n l [] /\ (n = bs "getrlimit" \/ n = bs "setrlimit")).
  { intros r m t e C I. destruct C; cbn [In] in I; repeat destruct I as [<-|I]; try destruct I; cbn [fst]; eauto. }
  intros tr o R. unfold mem_part in R. apply runs_bind in R as [(r & t1 & t2 & -> & R1 & R)|[[R1 ->]|[R1 ->]]]; apply memory_runs in R1.
  - destruct R1 as [[E _]|[[E C]|[E C]]]; [discriminate| |]; injection E as ->.
    + change (0 =? -1) with false in R. apply runs_bind in R as [(r & t3 & t4 & -> & R1 & R)|[[R1 ->]|[R1 ->]]]; apply memory_runs in R1.
      * destruct R1 as [[E _]|[[E C2]|[E C2]]]; [discriminate| |]; injection E as ->.
        -- change (0 =? -1) with false in R. destruct R as [-> ->]. right. left. exists t1, t3. rewrite app_nil_r. auto.
        -- change (-1 =? -1) with true in R. destruct R as [-> ->]. right. right. split; auto. right. exists t1, t3. rewrite app_nil_r. auto.
      * destruct R1 as [[E _]|[[E _]|[E _]]]; discriminate.
      * destruct R1 as [[_ D]|[[E _]|[E _]]]; try discriminate. left. split; auto. intros e I. apply in_app_iff in I as [I|I]; [eapply CP; eauto|].
        destruct D as [->|(a & ->)]; [destruct I|destruct I as [<-|[]]; cbn [fst]; eauto].
    + change (-1 =? -1) with true in R. destruct R as [-> ->]. right. right. rewrite app_nil_r. auto.
  - destruct R1 as [[E _]|[[E _]|[E _]]]; discriminate.
  - destruct R1 as [[_ D]|[[E _]|[E _]]]; try discriminate. left. split; auto. intros e I.
    destruct D as [->|(a & ->)]; [destruct I|destruct I as [<-|[]]; cbn [fst]; eauto].
Qed.
