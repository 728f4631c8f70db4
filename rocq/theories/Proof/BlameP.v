(** Why the steps before a connection fail. *)
From Verif.Model Require Import Base Sys Io Buffer Fdio Jail Conn Resolve.
From Verif.Spec Require Import Text Num Restrict Process Resolver Forward Attempt Mailer Blame.
From Verif.Proof Require Import Tac SysP BufferP ChildP ResolveP ConnP ConnFailP.
From Verif.Props Require Import PropJail.

Lemma within_l : forall P t u, within P t -> within P (t ++ u).
Proof. intros P t u (t1 & v & t2 & -> & H). exists t1, v, (t2 ++ u). split; [rewrite <- !app_assoc; reflexivity|exact H]. Qed.
Lemma within_r : forall P t u, within P u -> within P (t ++ u).
Proof. intros P t u (t1 & v & t2 & -> & H). exists (t ++ t1), v, t2. split; [rewrite <- !app_assoc; reflexivity|exact H]. Qed.
Lemma within_end : forall (P : trace -> Prop) t u, P u -> within P (t ++ u).
Proof. intros P t u H. exists t, u, []. split; [rewrite app_nil_r; reflexivity|exact H]. Qed.
Lemma within_here : forall (P : trace -> Prop) u, P u -> within P u.
Proof. intros P u H. apply (within_end P []). exact H. Qed.

(** ** The helper *)
Lemma pad_copy : forall name rest, len name <= 255 -> copyin (repeat 0 256) 0 (name ++ 0 :: rest) (len name) = Ok (name ++ repeat 0 (256 - length name)).
Proof.
  intros name rest LN. unfold copyin. destruct (Z.leb_spec (len name) 0) as [I0|I0].
  - assert (name = []) by (apply length_zero_iff_nil; unfold len in *; lia). subst name. reflexivity.
  - change (0 <? 0) with false. change (len (repeat 0 256)) with 256. rewrite (proj2 (Z.ltb_ge _ _)) by lia.
    rewrite (proj2 (Z.ltb_ge _ _)) by (rewrite len_app; pose proof (len_nonneg _ (0 :: rest)); lia). cbn [orb]. f_equal.
    change (Z.to_nat 0) with 0%nat. rewrite firstn_O. cbn [app]. unfold len. rewrite Z.add_0_l, !Nat2Z.id.
    rewrite firstn_app, firstn_all, Nat.sub_diag, firstn_O, app_nil_r. f_equal.
    replace 256%nat with (length name + (256 - length name))%nat at 1 by (unfold len in *; lia). rewrite repeat_app, skipn_app, repeat_length, Nat.sub_diag.
    rewrite skipn_all2 by (rewrite repeat_length; lia). reflexivity.
Qed.
Lemma do_nowhere : forall decode max fd ip iplen name rest tr n ip', nonul name -> 16 <= iplen -> Forall dgram tr -> Forall honest tr ->
  runs (resolvehost_do fd (Some ip) iplen (Some (name ++ 0 :: rest))) tr (Fin (n, ip')) -> n <= 0 -> nowhere decode false max name tr.
Proof.
  intros decode max fd ip iplen name rest tr n ip' N IL D H R NZ. unfold resolvehost_do in R. rewrite (proj2 (Z.ltb_ge _ _)) in R by lia. rewrite namelen_ok in R by auto. cbn [lift pbind] in R. cbn [nowhere].
  destruct (Z.ltb_spec 255 (len name)) as [I255|I255]; [destruct R as [-> _]; left; auto|right].
  rewrite pad_copy in R by lia. cbn [lift pbind] in R. apply fin_sys in R as (s & t & -> & R). exists fd, s, t. split; [reflexivity|].
  destruct (Z.eqb_spec (ret s) 256) as [ES|ES]; cbn [negb] in R; [right|auto].
  apply fin_sys in R as (a & t1 & -> & R). exists a. inversion D as [|? ? _ D1]; subst. inversion D1 as [|? ? D2 _]; subst. inversion H as [|? ? _ H1]; subst. inversion H1 as [|? ? H2 _]; subst. clear D D1 H H1.
  destruct (Z.leb_spec (ret a) 0) as [EA|EA]; [destruct R as [-> _]; auto|].
  unfold dgram, Recv in D2. cbn [fst snd] in D2. destruct (D2 eq_refl) as [X|[LD _]]; [lia|]. specialize (H2 fd 256 eq_refl EA). cbn [snd] in H2.
  destruct (copyin _ 0 (data a) (ret a)) as [x| |]; cbn [lift pbind] in R; [|destruct R; discriminate|destruct R; discriminate].
  destruct (Z.eqb_spec (ret a) 1) as [E1|E1].
  - destruct (ld x 0) as [x0| |]; cbn [lift pbind] in R; [|destruct R; discriminate|destruct R; discriminate].
    assert (t1 = []) by (destruct (u8 x0 =? 255); destruct R as [-> _]; reflexivity). subst t1. split; [reflexivity|]. right. destruct H2 as [H2|(cs & A & B & E)]; [auto|right].
    rewrite E in LD. rewrite len_cons in LD. destruct cs as [|c cs]; [exact E|]. exfalso. inversion A as [|? ? A1 _]; subst. cbn [concat] in LD. rewrite len_app in LD. pose proof (len_nonneg _ (concat cs)).
    unfold Resolver.addr in A1. unfold len at 1 in LD. lia.
  - exfalso. destruct (copyin ip 0 _ _) as [y| |]; cbn [lift pbind] in R; [|destruct R; discriminate|destruct R; discriminate]. destruct R as [_ R]. injection R as -> _. destruct (Z.ltb_spec iplen (ret a - 1)); lia.
Qed.
Lemma lookup_nowhere : forall ip name rest tr n e ip', 16 <= len ip -> len ip <= 2 ^ 55 ->
  runs (resolvehost (Some ip) (len ip) (Some (name ++ 0 :: rest))) tr (Fin (n, e, ip')) -> n <= 0 -> nowhere gai_list true (Z.to_nat (len ip / 16)) name tr.
Proof.
  intros ip name rest tr n e ip' A B R NZ. apply resolvehost_ok in R; auto. destruct R as [[_ E]|(a & t & -> & _ & _ & Q)]; [discriminate|]. destruct (Q n e ip' eq_refl) as (r & L & _ & Q1).
  exists rest, a, t. split; [reflexivity|]. destruct r as [[|c cs]|]; [right; exact L| |left; exact L]. destruct Q1 as (_ & -> & _). rewrite len_cons in NZ. pose proof (len_nonneg _ cs). lia.
Qed.

(** ** Sockets *)
Lemma socket_blame : forall tr, runs socket_tcp tr (Fin (-1)) -> unsocketed tr.
Proof.
  intros tr R. unfold socket_tcp in R. apply fin_sys in R as (a & t & -> & R). exists a, t. split; [reflexivity|]. destruct (Z.eqb_spec (ret a) (-1)) as [EA|EA]; [auto|right].
  apply fin_sys in R as (b & t1 & -> & R). destruct (Z.eqb_spec (ret b) (-1)) as [EB|EB]; [exists b; split; [left; left; reflexivity|exact EB]|].
  apply fin_sys in R as (c & t2 & -> & R). destruct (Z.eqb_spec (ret c) (-1)) as [EC|EC]; [exists c; split; [right; left; right; left; reflexivity|exact EC]|].
  apply fin_bind in R as (? & t3 & t4 & _ & _ & R2). destruct R2 as [_ E]. congruence.
Qed.
Lemma socket_starts : forall tr s, runs socket_tcp tr (Fin s) -> s <> -1 -> exists a v, tr = (Other (bs "socket") [] [], a) :: v /\ ret a = s.
Proof.
  intros tr s R N. unfold socket_tcp in R. apply fin_sys in R as (a & t & -> & R). exists a, t. split; [reflexivity|]. destruct (ret a =? -1); [destruct R as [_ E]; congruence|].
  apply fin_sys in R as (b & t1 & -> & R). destruct (ret b =? -1); [apply fin_sys in R as (? & ? & _ & [_ E]); congruence|].
  apply fin_sys in R as (c & t2 & -> & R). destruct (ret c =? -1); [apply fin_sys in R as (? & ? & _ & [_ E]); congruence|].
  apply fin_bind in R as (? & t3 & t4 & _ & _ & R2). destruct R2 as [_ E]. congruence.
Qed.
Lemma prepare_blame : forall m i sl tr sl', runs (conn_prepare m i sl) tr (Fin (false, sl')) -> within unsocketed tr.
Proof.
  induction m as [|m IH]; intros i sl tr sl' R; cbn [conn_prepare] in R; [destruct R as [_ E]; discriminate|].
  apply fin_bind in R as (fd & t1 & t2 & -> & R1 & R2). destruct (Z.eqb_spec fd (-1)) as [->|EF]; [apply within_l, within_here, socket_blame; exact R1|].
  apply fin_sys in R2 as (d & t3 & -> & R2). destruct (Z.eqb_spec (ret d) (-1)) as [ED|ED].
  - apply within_here. destruct (socket_starts _ _ R1 EF) as (a & v & -> & E). exists a, (v ++ (Other (bs "dup") [fd] [], d) :: t3). split; [reflexivity|]. right. exists d. split; [|exact ED]. right. right. rewrite E. apply in_or_app. right. left. reflexivity.
  - apply within_r. apply (within_r _ [_]). eapply IH. exact R2.
Qed.
Lemma init_blame : forall sl n tr sl', runs (conn_init sl n) tr (Fin (false, sl')) -> within unsocketed tr.
Proof. intros sl n tr sl' R. unfold conn_init in R. apply fin_bind in R as (s & t1 & t2 & -> & _ & R). apply within_r. eapply prepare_blame. exact R. Qed.

(** ** The jail *)
Lemma jail_blame : forall account dir tr r, runs (jail account (Some dir) true) tr (Fin r) -> pids tr -> fst r = -1 -> unconfined account dir tr.
Proof.
  intros account dir tr [r lim] R P E. cbn [fst] in E. destruct (C36_failure _ _ _ _ _ _ R P ltac:(lia)) as [_ [H|(e & named & uid & gid & I & H)]]; [left; exact H|right].
  exists e, named, uid, gid. split; [inversion I; subst; [apply from_pid|eapply from_name]; eauto|exact H].
Qed.
