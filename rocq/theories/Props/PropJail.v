(** C36, C37: the jail. *)
From Verif.Model Require Import Base Sys Jail.
From Verif.Spec Require Import Restrict.
From Verif.Proof Require Import Tac SysP JailP.

(** [ids account e named uid gid]: the first call [e] of a jail for this account gave
    these ids: from the process id, or from an account entry without any id 0. *)
Inductive ids : option (list Z) -> event -> bool -> Z -> Z -> Prop :=
| ids_pid : forall a id, 0 <= ret a -> id = 141500000 + ret a mod 1000000000 -> ids None (Other (bs "getpid") [] [], a) false id id
| ids_name : forall acc a uid gid, ret a <> 0 -> uid = u32 (nth 0 (data a) 0) -> gid = u32 (nth 1 (data a) 0) -> uid <> 0 -> gid <> 0 ->
    ids (Some acc) (Other (bs "getpwnam") [] acc, a) true uid gid.
(** process ids are not negative *)
Definition pids (tr : trace) : Prop := forall a, In (Other (bs "getpid") [] [], a) tr -> 0 <= ret a.

Lemma jail_cases : forall account dir limits tr o, runs (jail account dir limits) tr o -> pids tr ->
  (tr = [] /\ o = Cut) \/
  (exists e, tr = [e] /\ o = Fin (-1, None) /\
     exists acc a, account = Some acc /\ e = (Other (bs "getpwnam") [] acc, a) /\ (ret a = 0 \/ u32 (nth 0 (data a) 0) = 0 \/ u32 (nth 1 (data a) 0) = 0)) \/
  (exists e t named uid gid, tr = e :: t /\ ids account e named uid gid /\ runs (jail_main named dir limits uid gid) t o).
Proof.
  intros account dir limits tr o R P. unfold jail in R. destruct account as [acc|]; (destruct R as [[-> ->]|(a & t & -> & R)]; [auto|]); cbn [pbind] in R.
  - destruct (Z.eqb_spec (ret a) 0); [destruct R as [-> ->]; right; left; eexists; split; auto; split; auto; exists acc, a; auto|].
    destruct (Z.eqb_spec (u32 (nth 0 (data a) 0)) 0); cbn [orb] in R; [destruct R as [-> ->]; right; left; eexists; split; auto; split; auto; exists acc, a; auto|].
    destruct (Z.eqb_spec (u32 (nth 1 (data a) 0)) 0); cbn [orb] in R; [destruct R as [-> ->]; right; left; eexists; split; auto; split; auto; exists acc, a; auto|].
    right. right. eexists _, t, true, _, _. split; [reflexivity|]. split; [apply ids_name; eauto|]. auto.
  - assert (0 <= ret a) by (apply P; left; reflexivity). rewrite Z.rem_mod_nonneg in R by lia.
    right. right. eexists _, t, false, _, _. split; [reflexivity|]. split; [apply ids_pid; eauto|]. auto.
Qed.

(** ** C36: success means every restriction is in place, in order *)
Theorem C36_success : forall account dir limits tr lim, runs (jail account dir limits) tr (Fin (0, lim)) -> pids tr ->
  exists e named uid gid t t1 t2, tr = e :: t ++ t1 ++ t2 /\ ids account e named uid gid /\
    Forall2 done (restrictions named dir limits uid gid) t /\
    capped 9 134217728 t1 /\ capped 2 134217728 t2 /\ lim = Some 134217728.
Proof.
  intros account dir limits tr lim R P. apply jail_cases in R as [[_ E]|[(e & _ & E & _)|(e & t & named & uid & gid & -> & I & R)]]; auto; [discriminate|discriminate|].
  rewrite main_after in R. apply after_runs in R as [(t1 & t2 & -> & F & R)|[(l1 & s & l2 & t1 & e1 & _ & _ & _ & _ & E)|(l1 & s & l2 & _ & _ & E)]]; [|discriminate|discriminate].
  apply mem_runs in R as [[E _]|[(t3 & t4 & E & -> & C1 & C2)|[E _]]]; [discriminate| |discriminate]. injection E as ->.
  exists e, named, uid, gid, t1, t3, t4. auto 10.
Qed.
Print Assumptions C36_success.

(** any result other than success: the call that failed is the last one *)
Theorem C36_failure : forall account dir limits tr r lim, runs (jail account dir limits) tr (Fin (r, lim)) -> pids tr -> r <> 0 ->
  r = -1 /\
  ((exists acc a, account = Some acc /\ tr = [(Other (bs "getpwnam") [] acc, a)] /\ (ret a = 0 \/ u32 (nth 0 (data a) 0) = 0 \/ u32 (nth 1 (data a) 0) = 0)) \/
   exists e named uid gid, ids account e named uid gid /\
     ((exists l1 s l2 t e1, restrictions named dir limits uid gid = l1 ++ s :: l2 /\ tr = e :: t ++ [e1] /\ Forall2 done l1 t /\ missed s e1) \/
      (exists t t1, tr = e :: t ++ t1 /\ Forall2 done (restrictions named dir limits uid gid) t /\
         (uncapped 9 134217728 t1 \/ exists t2 t3, t1 = t2 ++ t3 /\ capped 9 134217728 t2 /\ uncapped 2 134217728 t3)))).
Proof.
  intros account dir limits tr r lim R P N. apply jail_cases in R as [[_ E]|[(e & -> & E & acc & a & -> & -> & C)|(e & t & named & uid & gid & -> & I & R)]]; auto; [discriminate| |].
  - injection E as -> _. split; auto. left. exists acc, a. auto.
  - rewrite main_after in R. apply after_runs in R as [(t1 & t2 & -> & F & R)|[(l1 & s & l2 & t1 & e1 & L & -> & F & M & E)|(l1 & s & l2 & _ & _ & E)]]; [| |discriminate].
    + apply mem_runs in R as [[E _]|[(t3 & t4 & E & _)|[E D]]]; [discriminate|congruence|]. injection E as -> _. split; auto. right. exists e, named, uid, gid. split; auto.
      right. exists t1, t2. auto.
    + injection E as -> _. split; auto. right. exists e, named, uid, gid. split; auto. left. exists l1, s, l2, t1, e1. auto.
Qed.
Print Assumptions C36_failure.

(** jail always decides; a step is never retried, so the number of calls is bounded *)
Theorem C36_no_ub : forall account dir limits tr o, runs (jail account dir limits) tr o -> pids tr -> o <> Wrong /\ (length tr <= 20)%nat.
Proof.
  assert (LE : forall named dir limits uid gid, (length (restrictions named dir limits uid gid) <= 15)%nat) by (intros [|] [d|] [|] uid gid; cbn; lia).
  assert (F2 : forall l t, Forall2 done l t -> length t = length l) by (intros l t F; induction F; cbn; congruence).
  intros account dir limits tr o R P. apply jail_cases in R as [[-> ->]|[(e & -> & -> & _)|(e & t & named & uid & gid & -> & I & R)]]; auto; try (split; [discriminate|cbn; lia]).
  specialize (LE named dir limits uid gid). rewrite main_after in R.
  apply after_runs in R as [(t1 & t2 & -> & F & R)|[(l1 & s & l2 & t1 & e1 & L & -> & F & M & ->)|(l1 & s & l2 & L & F & ->)]]; apply F2 in F.
  - assert (o <> Wrong /\ (length t2 <= 4)%nat); [|cbn [length]; rewrite app_length; split; [tauto|lia]].
    apply runs_bind in R as [(x & t3 & t4 & -> & R1 & R)|[[R1 ->]|[R1 ->]]]; apply memory_runs in R1.
    + assert (L3 : (length t3 <= 2)%nat). { destruct R1 as [[_ D]|[[_ C]|[_ C]]]; [destruct D as [->|(? & ->)]|destruct C|destruct C]; cbn; lia. }
      rewrite app_length. destruct (x =? -1). { destruct R as [-> ->]. cbn [length]. split; [discriminate|lia]. }
      apply runs_bind in R as [(y & t5 & t6 & -> & R2 & R)|[[R2 ->]|[R2 ->]]]; apply memory_runs in R2.
      * rewrite app_length. assert (L5 : (length t5 <= 2)%nat). { destruct R2 as [[_ D]|[[_ C]|[_ C]]]; [destruct D as [->|(? & ->)]|destruct C|destruct C]; cbn; lia. }
        destruct (y =? -1); destruct R as [-> ->]; cbn [length]; (split; [discriminate|lia]).
      * destruct R2 as [[E _]|[[E _]|[E _]]]; discriminate.
      * destruct R2 as [[_ D]|[[E _]|[E _]]]; try discriminate. split; [discriminate|]. destruct D as [->|(? & ->)]; cbn [length]; lia.
    + destruct R1 as [[E _]|[[E _]|[E _]]]; discriminate.
    + destruct R1 as [[_ D]|[[E _]|[E _]]]; try discriminate. split; [discriminate|]. destruct D as [->|(? & ->)]; cbn [length]; lia.
  - split; [discriminate|]. rewrite L, app_length in LE. cbn [length] in *. rewrite app_length. cbn [length]. lia.
  - split; [discriminate|]. rewrite L, app_length in LE. cbn [length] in *. lia.
Qed.
Print Assumptions C36_no_ub.

(** ** C37: no id 0 *)
Theorem C37_nonzero : forall account dir limits tr o, runs (jail account dir limits) tr o -> pids tr ->
  forall n v l a, In (Other n (v :: l) [], a) tr -> n = bs "setuid" \/ n = bs "setgid" \/ n = bs "setgroups" \/ n = bs "initgroups" -> 0 < v < 4294967296.
Proof.
  intros account dir limits tr o R P n v l a I NM.
  apply jail_cases in R as [[-> ->]|[(e & -> & -> & acc & b & _ & -> & _)|(e & t & named & uid & gid & -> & J & R)]]; auto; [destruct I|destruct I as [I|[]]; discriminate|].
  assert (ID : 0 < uid < 4294967296 /\ 0 < gid < 4294967296).
  { inversion J; subst.
    - pose proof (Z.mod_pos_bound (ret a0) 1000000000 ltac:(lia)). lia.
    - pose proof (Z.mod_pos_bound (nth 0 (data a0) 0) 4294967296 ltac:(lia)). pose proof (Z.mod_pos_bound (nth 1 (data a0) 0) 4294967296 ltac:(lia)). unfold u32 in *. lia. }
  assert (I2 : In (Other n (v :: l) [], a) t). { destruct I as [I|I]; auto. subst e. inversion J. } clear I.
  assert (G : forall s, In s (restrictions named dir limits uid gid) -> fst s = Other n (v :: l) [] -> 0 < v < 4294967296).
  { intros s S E. destruct named, dir, limits; cbn in S; repeat destruct S as [S|S]; try contradiction; subst s; cbn in E;
      try discriminate; injection E as <- <- <-; try lia; destruct NM as [NM|[NM|[NM|NM]]]; discriminate. }
  rewrite main_after in R. assert (DN : forall l1 t1, Forall2 done l1 t1 -> In (Other n (v :: l) [], a) t1 -> exists s, In s l1 /\ fst s = Other n (v :: l) []).
  { clear. induction 1 as [|x y l1 t1 D F IH]; intros [].
    - subst y. exists x. split; [left; auto|]. destruct D as [D _]. cbn [fst] in D. auto.
    - destruct (IH H) as (s & S1 & S2). exists s. split; [right|]; auto. }
  apply after_runs in R as [(t1 & t2 & -> & F & R)|[(l1 & s & l2 & t1 & e1 & L & -> & F & M & ->)|(l1 & s & l2 & L & F & ->)]].
  - apply in_app_iff in I2 as [I2|I2]; [destruct (DN _ _ F I2) as (s & S1 & S2); eauto|]. exfalso.
    assert (BAD : n <> bs "getrlimit" /\ n <> bs "setrlimit") by (split; intros ->; destruct NM as [NM|[NM|[NM|NM]]]; discriminate).
    assert (CP : forall r m x, capped r m x \/ uncapped r m x -> ~ In (Other n (v :: l) [], a) x).
    { intros r m x C IN. destruct C as [C|C]; destruct C; cbn [In] in IN; repeat destruct IN as [IN|IN]; try contradiction; injection IN as E1 E2 E3; subst n; destruct BAD; congruence. }
    apply mem_runs in R as [[_ E]|[(t3 & t4 & _ & -> & C1 & C2)|[_ [C|(t3 & t4 & -> & C1 & C2)]]]].
    + destruct (E _ I2) as (n0 & l0 & E1 & E2). cbn [fst] in E1. injection E1 as <- <-. destruct BAD, E2; contradiction.
    + apply in_app_iff in I2 as [I2|I2]; [apply (CP _ _ _ (or_introl C1) I2)|apply (CP _ _ _ (or_introl C2) I2)].
    + apply (CP _ _ _ (or_intror C) I2).
    + apply in_app_iff in I2 as [I2|I2]; [apply (CP _ _ _ (or_introl C1) I2)|apply (CP _ _ _ (or_intror C2) I2)].
  - apply in_app_iff in I2 as [I2|[I2|[]]].
    + destruct (DN _ _ F I2) as (s1 & S1 & S2). apply (G s1); auto. rewrite L. apply in_or_app. auto.
    + subst e1. destruct M as [M _]. apply (G s); auto. rewrite L. apply in_or_app. right. left. auto.
  - destruct (DN _ _ F I2) as (s1 & S1 & S2). apply (G s1); auto. rewrite L. apply in_or_app. auto.
Qed.
Print Assumptions C37_nonzero.

(** ** Examples *)
Definition ok0 : ans := mkans 0 0 [].
(** jail("nobody", "/var/empty", 1) that succeeds; RLIMIT_DATA is not supported *)
Example ex_jail : snd (exec (jail (Some (bs "nobody")) (Some (bs "/var/empty")) true)
  [mkans 1 0 [65534; 65533]; ok0; mkans 65533 0 []; ok0; ok0; ok0; ok0; mkans 65534 0 []; ok0; ok0; ok0; ok0; ok0; ok0; ok0; ok0;
   mkans 0 0 [18446744073709551615; 18446744073709551615]; ok0; mkans (-1) EINVAL []]) = Fin (0, Some 134217728).
Proof. vm_compute. reflexivity. Qed.
(** the account "root" is refused after one call *)
Example ex_root : exec (jail (Some (bs "root")) None true) [mkans 1 0 [0; 0]] = ([(Other (bs "getpwnam") [] (bs "root"), mkans 1 0 [0; 0])], Fin (-1, None)).
Proof. vm_compute. reflexivity. Qed.
(** a setuid that fails ends the attempt *)
Example ex_setuid : snd (exec (jail None None false) [mkans 77 0 []; ok0; mkans 141500077 0 []; ok0; mkans (-1) 1 []]) = Fin (-1, None).
Proof. vm_compute. reflexivity. Qed.
