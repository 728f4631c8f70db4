(** C65: the applet is chosen by the last component of argv[0]. *)
From Verif.Model Require Import Base Str Applet.
From Verif.Spec Require Import Text.
From Verif.Proof Require Import Tac StrP.

(** [x] is the part of the path [s] after its last '/' *)
Definition component (s x : list Z) : Prop :=
  ~ In 47 x /\ (s = x \/ exists d, s = d ++ [47] ++ x).

Lemma component_unique : forall s x y, component s x -> component s y -> x = y.
Proof.
  assert (H : forall (d e x y : list Z), ~ In 47 x -> ~ In 47 y -> d ++ 47 :: x = e ++ 47 :: y -> x = y).
  { induction d as [|a d IH]; intros [|b e] x y X Y E; cbn in E.
    - congruence.
    - injection E as _ E. subst x. destruct X. apply in_or_app. right. left. auto.
    - injection E as _ E. subst y. destruct Y. apply in_or_app. right. left. auto.
    - injection E as _ E. eauto. }
  intros s x y [X [-> |(d & ->)]] [Y [E|(e & E)]]; cbn in E; auto.
  - subst x. destruct X. apply in_or_app. right. left. auto.
  - subst y. destruct Y. apply in_or_app. right. left. auto.
  - eauto.
Qed.

Lemma loop_ok : forall s r0 s0, nonul s -> ~ In 47 r0 ->
  exists x, component (r0 ++ s) x /\
    (x = r0 ++ s \/ exists d, s = d ++ [47] ++ x) /\
    basename_loop (s ++ 0 :: s0) (r0 ++ s ++ 0 :: s0) = Ok (x ++ 0 :: s0).
Proof.
  induction s as [|c s IH]; intros r0 s0 N R; cbn [app basename_loop].
  - exists r0. cbn [Z.eqb]. rewrite app_nil_r. split; [split; auto|]. split; auto.
  - apply Forall_inv in N as NC. apply Forall_inv_tail in N. destruct (Z.eqb_spec c 0); [lia|].
    destruct (Z.eqb_spec c 47) as [->|N47].
    + destruct (IH [] s0 N ltac:(intros [])) as (x & [X C] & D & E). cbn [app] in C, D, E. exists x. split; [split; auto|].
      * right. destruct C as [-> |(d & ->)]; [exists r0; auto|]. exists (r0 ++ 47 :: d). rewrite <- app_assoc. auto.
      * split; auto. right. destruct C as [-> |(d & ->)]; [exists []; auto|]. exists (47 :: d). auto.
    + destruct (IH (r0 ++ [c]) s0 N) as (x & C & D & E).
      { rewrite in_app_iff. intros [I|[I|[]]]; auto. }
      rewrite <- app_assoc in C, D, E. cbn [app] in C, D, E. exists x. split; [exact C|]. split; auto.
      destruct D as [->|(d & ->)]; auto. right. exists (c :: d). auto.
Qed.

Lemma basename_ok : forall s rest, nonul s -> exists x, component s x /\ nonul x /\ basename (s ++ 0 :: rest) = Ok (x ++ 0 :: rest).
Proof.
  intros s rest N. destruct (loop_ok s [] rest N ltac:(intros [])) as (x & C & _ & E). exists x. split; [exact C|]. split; [|exact E].
  destruct C as [_ [E1|(d & E1)]]; cbn [app] in E1; subst s; auto. apply Forall_app in N as [_ N]. apply Forall_inv_tail in N. auto.
Qed.

Lemma equal_ok : forall x t r, nonul x -> nonul t -> str_equal (x ++ 0 :: r) (t ++ [0]) = Ok (if list_eq_dec Z.eq_dec x t then true else false).
Proof.
  intros x t r N T. unfold str_equal. destruct (str_diff_ok x t r [] N T) as (d & E & F). rewrite E. cbn [bind]. f_equal.
  assert (d = 0 <-> x = t).
  { split; intro X.
    - apply (firstdiff_zero _ _ _ F) in X. apply app_inj_tail in X as [X _]. exact X.
    - apply (firstdiff_zero _ _ _ F). rewrite X. reflexivity. }
  destruct (list_eq_dec Z.eq_dec x t); destruct (Z.eqb_spec d 0); tauto.
Qed.

(** ** C65: exactly one component decides, and the two names are matched exactly *)
Theorem C65_applet : forall argc s rest, 1 <= argc -> nonul s ->
  exists x, component s x /\
    main argc (Some (s ++ 0 :: rest)) =
      Ok (if list_eq_dec Z.eq_dec x (bs "tlswrapper-tcp") then Tcp 0
          else if list_eq_dec Z.eq_dec x (bs "tlswrapper-smtp") then Smtp 0
          else Wrapper 0).
Proof.
  intros argc s rest A N. destruct (basename_ok s rest N) as (x & C & NX & E). exists x. split; auto.
  unfold main. destruct (Z.ltb_spec argc 1); [lia|]. rewrite E. cbn [bind].
  rewrite equal_ok by (auto; repeat constructor; vm_compute; intuition discriminate). cbn [bind].
  destruct (list_eq_dec Z.eq_dec x (bs "tlswrapper-tcp")); auto.
  rewrite equal_ok by (auto; repeat constructor; vm_compute; intuition discriminate). cbn [bind].
  destruct (list_eq_dec Z.eq_dec x (bs "tlswrapper-smtp")); auto.
Qed.
Print Assumptions C65_applet.

(** the directory part has no influence *)
Theorem C65_directory : forall argc argc' s t x rest rest', 1 <= argc -> 1 <= argc' -> nonul s -> nonul t ->
  component s x -> component t x -> main argc (Some (s ++ 0 :: rest)) = main argc' (Some (t ++ 0 :: rest')).
Proof.
  intros argc argc' s t x rest rest' A A' N N' C C'.
  destruct (C65_applet argc s rest A N) as (y & D & ->). destruct (C65_applet argc' t rest' A' N') as (z & D' & ->).
  rewrite (component_unique _ _ _ D C), (component_unique _ _ _ D' C'). reflexivity.
Qed.
Print Assumptions C65_directory.

(** no name at all *)
Lemma noname : forall argc a, argc < 1 \/ a = None -> main argc a = Ok (Exit 100).
Proof. intros argc a [H| ->]; unfold main; destruct (Z.ltb_spec argc 1); auto; lia. Qed.

Example C65_ex1 : main 1 (Some (bs "/usr/bin/tlswrapper-tcp" ++ [0])) = Ok (Tcp 0).
Proof. reflexivity. Qed.
Example C65_ex2 : main 3 (Some (bs "tlswrapper-smtp" ++ [0; 45])) = Ok (Smtp 0).
Proof. reflexivity. Qed.
Example C65_ex3 : main 1 (Some (bs "tlswrapper-tcp/" ++ [0])) = Ok (Wrapper 0).
Proof. reflexivity. Qed.
Example C65_ex4 : main 1 (Some (bs "/opt/tlswrapper-smtp2" ++ [0])) = Ok (Wrapper 0).
Proof. reflexivity. Qed.
Example C65_ex5 : component (bs "/opt/x/tls") (bs "tls") /\ nonul (bs "/opt/x/tls").
Proof.
  split; [split; [vm_compute; intuition discriminate|right; exists (bs "/opt/x"); reflexivity]|].
  repeat constructor; vm_compute; auto; discriminate.
Qed.
