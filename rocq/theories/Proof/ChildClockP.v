(** The alarm clock in the processes the wrapper starts. *)
From Verif.Model Require Import Base Sys Io Str Inet Config Parsenum Fdio Buffer Relay Session Tlsphase Jail Pem Scalar Framed Keyjail Proxy Conninfo Options Profile Main.
From Verif.Spec Require Import Flow Process Watchdog.
From Verif.Proof Require Import Tac SysP CallsP SafeP MainCallsP DescP.

(** neither a new process nor a new alarm *)
Definition idler (c : sys) : Prop := match c with Other n _ _ => n <> bs "alarm" /\ n <> bs "fork" | _ => True end.
Ltac iq := repeat (calls1 || (progress cbv zeta)); try exact Logic.I; try (cbn [idler]; split; discriminate).
Lemma readall_idler : forall f fd x n, calls idler (readall f fd x n).
Proof. induction f; intros; cbn [readall]; iq; auto. Qed.
Lemma writeall_idler : forall f fd x n, calls idler (writeall f fd x n).
Proof. induction f; intros; cbn [writeall]; iq; auto. Qed.
Lemma read_msg_idler : forall f fd r, calls idler (read_msg f fd r).
Proof. intros f fd []; cbn [read_msg]; unfold pipe_readall, pipe_readmax, pipe_readalloc; iq; apply readall_idler. Qed.
Lemma pipe_write_idler : forall f fd x n, calls idler (pipe_write f fd x n).
Proof. intros. unfold pipe_write. iq; apply writeall_idler. Qed.
Lemma rand_idler : forall n, calls idler (randombytes n).
Proof. intros. unfold randombytes. iq. Qed.
Lemma cleanup_idler : calls idler cleanup.
Proof. unfold cleanup. iq. apply rand_idler. Qed.
Lemma request_idler : forall f r k, (forall m, calls idler (k m)) -> calls idler (request f r k).
Proof. intros f r k H. unfold request. apply calls_bind; [apply read_msg_idler|]. intros [m|]; [apply H|apply cleanup_idler]. Qed.
Lemma reply_idler : forall f x n k, calls idler k -> calls idler (reply f x n k).
Proof. intros f x n k H. unfold reply. apply calls_bind; [apply pipe_write_idler|]. intros [|e]; [apply H|apply cleanup_idler]. Qed.
Lemma free_idler : forall c, calls idler (tls_pem_free c).
Proof. intros. unfold tls_pem_free. iq. Qed.
Lemma mul_idler : forall c p sk, calls idler (tls_crypto_scalarmult c p sk).
Proof. intros. unfold tls_crypto_scalarmult, mul. iq. Qed.
Lemma base_idler : forall c sk, calls idler (tls_crypto_scalarmult_base c sk).
Proof. intros. unfold tls_crypto_scalarmult_base, mulgen. iq. Qed.
Lemma jail_idler : forall a d l, calls idler (jail a d l).
Proof. intros. unfold jail, jail_main, must, mustbe, when, jail_limit_memory. destruct a, d, l; iq. Qed.
Lemma blocking_idler : forall fd b, calls idler (blocking fd b).
Proof. intros. unfold blocking, do. iq. Qed.
Lemma dup_idler : forall a b k, calls idler k -> calls idler (dup a b k).
Proof. intros. unfold dup. iq. assumption. Qed.
Section Idle.
Variable I : inet.
Variable stream : list Z -> list Z -> nat -> Z.
Variable fuel : nat.
Variables junk portbuf line0 key0 : list Z.
Variable env : environment.
Variable nojail : bool.
Lemma sign_idler : forall pem key nonce hash m, calls idler (sign stream pem key nonce hash m).
Proof. intros. unfold sign, tls_pem_encrypt. iq; solve [apply rand_idler|apply free_idler]. Qed.
Ltac ir := repeat (apply cleanup_idler || (apply request_idler; intro) || apply reply_idler || calls1 || (progress cbv zeta)); try exact Logic.I; try (cbn [idler]; split; discriminate).
Lemma service_idler : forall n pp prf, calls idler (service fuel n pp prf).
Proof. induction n as [|n IH]; intros; cbn [service]; unfold offsets; ir; apply IH. Qed.
Lemma derive_idler : forall pp c sk n, calls idler (derive fuel pp c sk n).
Proof. intros. unfold derive. ir; solve [apply mul_idler|apply rand_idler|apply service_idler]. Qed.
Lemma handshake_idler : forall acc dir pp pem key nonce, calls idler (handshake stream fuel nojail acc dir pp pem key nonce).
Proof.
  intros. unfold handshake. apply calls_bind; [destruct nojail; [apply calls_ret|apply jail_idler]|]. intros j. destruct (_ =? _); [apply cleanup_idler|].
  apply request_idler. intros m. cbv zeta. apply calls_bind; [apply rand_idler|]. intros sk. apply calls_bind; [apply base_idler|]. intros [[pk|] sk']; [|apply cleanup_idler].
  apply reply_idler. apply request_idler. intros hash. apply request_idler. intros dl. destruct (_ <? _); [apply cleanup_idler|]. apply request_idler. intros d.
  apply calls_bind; [apply sign_idler|]. intros [buf n]. apply calls_bind; [apply rand_idler|]. intros _. apply reply_idler. apply derive_idler.
Qed.
Lemma load_idler : forall fn key nonce c, calls idler (tls_pem_load stream fuel line0 fn key nonce c).
Proof.
  intros fn key nonce c. assert (PC : forall fd ok n c, calls idler (pem_cleanup fd ok n c)) by (intros; unfold pem_cleanup; iq; apply free_idler).
  unfold tls_pem_load, pem_alloc, pemparse, tls_pem_encrypt.
  repeat (match goal with |- calls _ (pem_cleanup _ _ _ _) => apply PC | |- calls _ (tls_pem_free _) => apply free_idler | |- calls _ (randombytes _) => apply rand_idler | |- calls _ (readall _ _ _ _) => apply readall_idler | _ => calls1 || (progress cbv zeta) end); try exact Logic.I; try (cbn [idler]; split; discriminate).
Qed.
Lemma files_idler : forall acc dir pp n pem key nonce, calls idler (files stream fuel nojail acc dir n pp line0 pem key nonce).
Proof.
  intros acc dir pp n. induction n as [|n IH]; intros pem key nonce; cbn [files]; [apply calls_halt|]. apply request_idler. intros fn.
  destruct (_ =? 0); [apply handshake_idler|]. do 3 (apply calls_bind; [apply calls_lift|intro]). apply calls_bind; [apply rand_idler|]. intros key'.
  apply calls_bind; [apply load_idler|]. intros [[rr nonce'] pem']. destruct (rr =? 0).
  - apply calls_bind; [iq|]. intros e. unfold pipe_writeerrno. apply calls_bind; [apply writeall_idler|]. intros [|y]; [apply IH|apply cleanup_idler].
  - destruct (pub pem'); [|apply calls_bad]. apply reply_idler. apply IH.
Qed.
Lemma receive_idler : forall n k, (forall x, calls idler (k x)) -> calls idler (receive fuel n k).
Proof. intros n k H. unfold receive, pipe_readall. apply calls_bind; [iq; apply readall_idler|]. intros [[|] y]; [apply H|apply calls_ret]. Qed.
Lemma droppriv_idler : forall x k, calls idler k -> calls idler (droppriv x k).
Proof. intros x k H. unfold droppriv. apply calls_bind; [apply jail_idler|]. intros [r lim]. destruct (_ =? _); [apply calls_ret|exact H]. Qed.
Lemma signal_idler : forall n d, calls idler (signal n d).
Proof. intros. unfold signal, do. iq. Qed.
Lemma start_idler : forall uc us argv, calls idler (child_start I fuel junk portbuf uc us argv).
Proof.
  intros uc us argv. unfold child_start. do 4 (apply receive_idler; intros ?). apply calls_bind; [unfold put_connection, put_env, do; iq|]. intros _.
  match goal with |- calls idler (login _ _ _ ?k) => assert (K : calls idler k) end.
  { apply calls_bind; [apply calls_lift|]. intros u.
    match goal with |- calls idler (_ ?k) => assert (K : calls idler k) end.
    { do 3 (apply calls_bind; [apply signal_idler|]; intros _). apply calls_bind; [apply calls_lift|]. intros v. iq. }
    destruct u; [apply droppriv_idler; exact K|exact K]. }
  unfold login. apply calls_bind; [unfold pipe_readmax; iq; apply readall_idler|]. intros [[[|] acc] n]; [|apply calls_ret]. destruct (_ <=? _); [exact K|].
  apply calls_bind; [apply calls_lift|]. intros a. destruct (negb uc); [exact K|]. apply calls_bind; [apply calls_lift|]. intros z. apply droppriv_idler. exact K.
Qed.
(** the clock is stopped first, and stays so *)
Definition stopped (t : trace) : Prop := t = [] \/ exists a u, t = (Other (bs "alarm") [0] [], a) :: u /\ Forall (fun e => idler (fst e)) u.
Definition stops {R} (p : prog R) : Prop := forall tr o, runs p tr o -> stopped tr.
Lemma stops_alarm : forall S (f : unit -> prog S), calls idler (f tt) -> stops (pbind (alarm 0) f).
Proof.
  intros S f C tr o R. unfold alarm, sys1 in R. cbn [pbind] in R. destruct R as [[-> _]|(a & u & -> & R)]; [left; reflexivity|]. right. exists a, u. split; [reflexivity|]. exact (C _ _ R).
Qed.
Lemma child_stops : forall cmd p, stops (child_main I fuel junk portbuf cmd p).
Proof.
  intros cmd p. unfold child_main. cbv zeta. apply stops_alarm. do 2 (apply calls_bind; [unfold do; iq|intros _]). apply dup_idler. apply calls_bind; [apply blocking_idler|intros _].
  do 2 (apply calls_bind; [unfold do; iq|intros _]). apply dup_idler. apply calls_bind; [apply blocking_idler|intros _]. do 2 (apply calls_bind; [unfold do; iq|intros _]).
  destruct (delayed (settings cmd)).
  - apply dup_idler. apply calls_bind; [apply blocking_idler|intros _]. do 2 (apply calls_bind; [unfold do; iq|intros _]). apply dup_idler. apply calls_bind; [apply blocking_idler|intros _]. apply start_idler.
  - do 2 (apply calls_bind; [unfold do; iq|intros _]). apply start_idler.
Qed.
Lemma key_stops : forall o p a b c d, stops (keyjail_main stream fuel line0 key0 nojail o p a b c d).
Proof.
  intros. unfold keyjail_main. apply stops_alarm. do 7 (apply calls_bind; [unfold do; iq|intros _]). apply dup_idler. apply calls_bind; [unfold do; iq|intros _]. apply dup_idler.
  do 2 (apply calls_bind; [apply blocking_idler|intros _]). do 3 (apply calls_bind; [apply signal_idler|intros _]). do 2 (apply calls_bind; [apply calls_lift|intro]).
  apply calls_bind; [|intros _; apply calls_ret]. unfold tls_keyjail. apply calls_bind; [iq|]. intros g. apply files_idler.
Qed.

(** ** where processes are started *)
Definition nofork (c : sys) : Prop := match c with Other n _ _ => n <> bs "fork" | _ => True end.
Ltac nf := repeat (calls1 || (progress cbv zeta)); try exact Logic.I; try (cbn [nofork]; discriminate).
Definition born {R} (p : prog R) : Prop :=
  forall tr o, runs p tr o -> forall t e t', tr = t ++ e :: t' -> calling (bs "fork") e = true -> ret (snd e) = 0 -> stopped t'.
Lemma nofork_in : forall (t : trace) e, Forall (fun e => nofork (fst e)) t -> In e t -> calling (bs "fork") e = true -> False.
Proof.
  intros t e F IN C. rewrite Forall_forall in F. specialize (F e IN). unfold calling in C. destruct (fst e); try discriminate. cbn [nofork] in F. destruct (list_eq_dec _ _ _); [contradiction|discriminate].
Qed.
Lemma born_calls : forall R (p : prog R), calls nofork p -> born p.
Proof. intros R p C tr o RU t e t' -> F _. exfalso. eapply nofork_in; [exact (C _ _ RU)| |exact F]. apply in_or_app. right. left. reflexivity. Qed.
Lemma born_bind : forall R S (p : prog R) (f : R -> prog S), calls nofork p -> (forall x, born (f x)) -> born (pbind p f).
Proof.
  intros R S p f C K tr o RU t e t' E F Z. apply runs_bind in RU as [(x & t1 & t2 & -> & R1 & R2)|RU].
  - apply app_eq_app in E as (m & [[E1 E2]|[E1 E2]]).
    + destruct m as [|y m]; cbn [app] in E2; [apply (K x t2 o R2 [] e t' (eq_sym E2) F Z)|]. injection E2 as <- ->. exfalso. eapply nofork_in; [exact (C _ _ R1)| |exact F]. rewrite E1. apply in_or_app. right. left. reflexivity.
    + exact (K x t2 o R2 m e t' E2 F Z).
  - assert (FA : Forall (fun e => nofork (fst e)) tr) by (destruct RU as [[R1 _]|[R1 _]]; exact (C _ _ R1)). exfalso. eapply nofork_in; [exact FA| |exact F]. rewrite E. apply in_or_app. right. left. reflexivity.
Qed.
Lemma born_ret : forall R (x : R), born (Ret x).
Proof. intros. apply born_calls, calls_ret. Qed.
Lemma born_fork : forall (f : ans -> prog ending), (forall a, ret a = 0 -> stops (f a) /\ calls (fun c => nofork c) (f a)) -> (forall a, ret a <> 0 -> born (f a)) -> born (pbind (sys1 (Other (bs "fork") [] [])) f).
Proof.
  intros f H0 H1 tr o R t e t' E F Z. unfold sys1 in R. cbn [pbind] in R. destruct R as [[-> _]|(a & u & -> & R)]; [destruct t; discriminate|].
  destruct t as [|y t]; cbn [app] in E.
  - injection E as <- ->. cbn [snd] in Z. exact (proj1 (H0 a Z) _ _ R).
  - injection E as <- ->. destruct (Z.eq_dec (ret a) 0) as [Z0|N].
    + exfalso. eapply nofork_in; [exact (proj2 (H0 a Z0) _ _ R)| |exact F]. apply in_or_app. right. left. reflexivity.
    + exact (H1 a N _ _ R _ _ _ eq_refl F Z).
Qed.
Lemma pipe_born : forall k, (forall r w, born (k r w)) -> born (open_pipe k).
Proof. intros k K. unfold open_pipe. apply born_bind; [nf|]. intros a. destruct (_ =? _); [apply born_ret|]. cbv zeta. do 4 (apply born_bind; [unfold blocking, do; nf|intro]). apply K. Qed.
Lemma stops_nofork : forall R (p : prog R), stops p -> calls nofork p.
Proof.
  intros R p S tr o RU. destruct (S _ _ RU) as [-> |(a & u & -> & F)]; [constructor|]. constructor; [discriminate|]. eapply Forall_impl; [|exact F]. intros e H. unfold idler in H. unfold nofork. destruct (fst e); auto. apply H.
Qed.
Lemma start_born : forall cmd, born (start_child I stream fuel junk portbuf line0 key0 env nojail cmd).
Proof.
  intros cmd. unfold start_child. apply born_bind; [unfold alarm; nf|intros _].
  match goal with |- born (_ ?k) => assert (K : born k) end.
  { do 4 (apply pipe_born; intros ? ?). cbv zeta. apply born_fork.
    - intros a Z. rewrite Z. cbn [Z.eqb]. assert (S := child_stops cmd). split; [apply S|apply stops_nofork, S].
    - intros a N. destruct (ret a =? -1); [apply born_ret|]. rewrite (proj2 (Z.eqb_neq _ _) N). unfold parent_main.
      do 9 (apply born_bind; [unfold blocking, do, randombytes; nf|intros _]). do 2 (apply pipe_born; intros ? ?). apply born_fork.
      + intros b Z. rewrite Z. cbn [Z.eqb]. match goal with |- stops ?p /\ _ => assert (S : stops p) by apply key_stops end. split; [exact S|apply stops_nofork, S].
      + intros b N2. destruct (ret b =? -1); [apply born_ret|]. rewrite (proj2 (Z.eqb_neq _ _) N2). do 4 (apply born_bind; [unfold blocking, do; nf|intros _]). apply pipe_born. intros ? ?.
        apply born_calls. eapply calls_weak; [apply jailed_wcall|]. intros c [M|(x & ->)]; [|discriminate]. unfold mild in M. unfold nofork. destruct c; auto. apply M. }
  destruct (delayed _); [|exact K]. unfold reserve. apply born_bind; [nf|]. intros a. destruct (negb _); [apply born_ret|]. apply born_bind; [nf|]. intros b. destruct (negb _); [apply born_ret|].
  revert K. match goal with |- born ?k -> _ => generalize k end. intros k K. generalize fuel at 1 as n. induction n as [|n IH]; cbn [devnull]; [apply born_calls, calls_halt|].
  apply born_bind; [nf|]. intros c. destruct (_ =? _); [apply born_ret|]. destruct (6 <? _); [|exact IH]. apply born_bind; [unfold do; nf|]. intros _. exact K.
Qed.
End Idle.
