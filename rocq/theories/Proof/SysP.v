(** Lemmas about runs. *)
From Verif.Model Require Import Base Sys.
From Verif.Proof Require Import Tac.

Lemma runs_ret : forall R (r : R) tr o, runs (Ret r) tr o <-> tr = [] /\ o = Fin r.
Proof. reflexivity. Qed.

(** Runs of a sequential composition. *)
Lemma runs_bind : forall A B (p : prog A) (f : A -> prog B) tr o,
  runs (pbind p f) tr o <->
  (exists a t1 t2, tr = t1 ++ t2 /\ runs p t1 (Fin a) /\ runs (f a) t2 o) \/
  (runs p tr Wrong /\ o = Wrong) \/ (runs p tr Cut /\ o = Cut).
Proof.
  induction p as [a|c k IH| |]; intros f tr o; cbn [pbind runs].
  - split.
    + intros H. left. exists a, [], tr. auto.
    + intros [(a' & t1 & t2 & -> & [-> E] & H)|[[[_ E] _]|[[_ E] _]]]; try discriminate. inv E. exact H.
  - split.
    + intros [[-> ->]|(a & tr' & -> & H)].
      * right. right. auto.
      * apply IH in H as [(r & t1 & t2 & -> & H1 & H2)|[[H ->]|[H ->]]].
        -- left. exists r, ((c, a) :: t1), t2. split; [reflexivity|]. split; auto. right. eauto.
        -- right. left. split; auto. right. eauto.
        -- right. right. split; auto. right. eauto.
    + intros [(r & t1 & t2 & -> & [[-> E]|(a & t' & -> & H1)] & H2)|[[[[_ E]|(a & t' & -> & H)] ->]|[[[-> _]|(a & t' & -> & H)] ->]]];
        try discriminate.
      * right. exists a, (t' ++ t2). split; auto. apply IH. left. eauto 6.
      * right. exists a, t'. split; auto. apply IH. auto.
      * left. auto.
      * right. exists a, t'. split; auto. apply IH. auto.
  - split.
    + intros [-> ->]. right. left. auto.
    + intros [(a & t1 & t2 & -> & [-> E] & H)|[[[-> _] ->]|[[_ E] _]]]; try discriminate. auto.
  - split.
    + intros [-> ->]. right. right. auto.
    + intros [(a & t1 & t2 & -> & [-> E] & H)|[[[_ E] _]|[[-> _] ->]]]; try discriminate. auto.
Qed.

Lemma runs_sys1 : forall c tr o, runs (sys1 c) tr o <->
  (tr = [] /\ o = Cut) \/ (exists a, tr = [(c, a)] /\ o = Fin a).
Proof.
  intros. unfold sys1. cbn [runs]. split; (intros [H|H]; [left; exact H|right]).
  - destruct H as (a & t & -> & -> & ->). eauto.
  - destruct H as (a & -> & ->). eauto.
Qed.

Lemma runs_lift : forall A (x : res A) tr o, runs (lift x) tr o <->
  tr = [] /\ o = match x with Ok a => Fin a | UB => Wrong | Fuel => Cut end.
Proof. intros A [a| |] tr o; reflexivity. Qed.

Lemma exec_runs : forall R (p : prog R) s tr o, exec p s = (tr, o) -> runs p tr o.
Proof.
  induction p as [r|c k IH| |]; intros s tr o E; cbn [exec runs] in *; try (inv E; auto; fail).
  destruct s as [|a s]; [inv E; auto|]. destruct (exec (k a) s) as [tr' o'] eqn:E'. inv E. right. eauto.
Qed.

Lemma legal_app : forall a b, legal (a ++ b) <-> legal a /\ legal b.
Proof. intros. apply Forall_app. Qed.
Lemma legal_cons : forall a b, legal (a :: b) <-> sys_ok a /\ legal b.
Proof. intros. apply Forall_cons_iff. Qed.
Lemma legal_nil : legal [].
Proof. constructor. Qed.

Lemma got_app : forall fd a b, got fd (a ++ b) = got fd a ++ got fd b.
Proof.
  induction a as [|[c x] a IH]; intros b; cbn [app got]; auto.
  destruct c; rewrite ?IH; auto. destruct (fd0 =? fd); auto. rewrite app_assoc. reflexivity.
Qed.
Lemma sent_app : forall fd a b, sent fd (a ++ b) = sent fd a ++ sent fd b.
Proof.
  induction a as [|[c x] a IH]; intros b; cbn [app sent]; auto.
  destruct c; rewrite ?IH; auto. destruct (fd0 =? fd); auto. rewrite app_assoc. reflexivity.
Qed.

(** Decision procedure for legality of a concrete trace. *)
Definition sys_okb (e : event) : bool :=
  match e with
  | (Read fd n, a) => ((ret a =? -1) && (len (data a) =? 0)) ||
      ((0 <=? ret a) && (ret a <=? n) && (len (data a) =? ret a) && forallb (fun b => (0 <=? b) && (b <? 256)) (data a))
  | (Write fd b, a) => (ret a =? -1) || ((0 <=? ret a) && (ret a <=? len b))
  | (Alloc n, a) => (ret a =? 0) || (ret a =? 1)
  | _ => true
  end.
Lemma legal_dec : forall tr, forallb sys_okb tr = true -> legal tr.
Proof.
  intros tr H. apply Forall_forall. intros [c a] I. rewrite forallb_forall in H. specialize (H _ I). clear I.
  destruct c; cbn [sys_okb sys_ok] in *; try exact Logic.I; try lia.
  destruct ((ret a =? -1) && (len (data a) =? 0)) eqn:E.
  - left. split; [lia|]. destruct (data a) as [|x l]; auto. rewrite len_cons in E. pose proof (len_nonneg _ l). lia.
  - right. cbn [orb] in H. apply andb_prop in H as [H B]. split; [lia|]. split; [lia|].
    apply Forall_forall. intros x X. rewrite forallb_forall in B. specialize (B _ X). unfold is_byte. lia.
Qed.
Ltac legal_by := apply legal_dec; reflexivity.
