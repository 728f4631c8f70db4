(** tlswrapper-smtp: nothing is exposed before the jail, in the three processes. *)
From Verif.Model Require Import Base Sys Io Str Buffer Inet Parsenum Fdio Relay Session Jail Pem Proxy Conninfo Conn Resolve Main Getopt Lookup Smtpmain.
From Verif.Spec Require Import Flow Restrict Process Forward.
From Verif.Proof Require Import Tac SysP CallsP SafeP MainCallsP MainP TcpJailP SmtpCallsP.
From Verif.Props Require Import PropJail.

Ltac kinds := repeat (calls1 || (progress cbv zeta)); try exact Logic.I; try (repeat split; discriminate).
Lemma session_kind : forall fuel c, calls kind2 (Smtp.smtp fuel c).
Proof.
  intros. eapply calls_weak; [apply smtp_calls|]. intros [] H; cbn in *; auto.
  split; intros ->; repeat destruct H as [H|H]; try discriminate; exact H.
Qed.
Lemma droppriv_kind : forall x k, calls kind0 k -> calls kind0 (droppriv x k).
Proof. intros. unfold droppriv. apply calls_bind; [apply jail_kind|]. intros [r m]. destruct (r =? -1); [kinds|auto]. Qed.
Section Smtp.
Variable I : inet.
Variable fuel : nat.
Variables buf0 ip0 : list Z.
Variable env : environment.
Variable nojail : bool.
Variable logid : option (list Z).
Variables (acc : option (list Z)) (dir : list Z).
Notation guarded := (guarded nojail acc dir).
Notation confined := (confined nojail acc dir).
Notation ok h p := (sp pidok guarded h p true1).
Lemma server_kind : forall cmd a b c d, calls kind0 (server_main cmd a b c d).
Proof.
  intros. unfold server_main, dup, blocking, signal, do, alarm.
  assert (K : calls kind0 (_ <~ signal SIGPIPE DFL ;; _ <~ signal SIGALRM DFL ;; v <~ lift (cstrs (sprogram cmd)) ;; a <~ sys1 (Other (bs "execvp") [] (hd [] v)) ;; Ret (if ret a =? -1 then Exit 111 else Exec v))) by (unfold signal, do; kinds).
  kinds; auto. match goal with |- context [match ?u with Some _ => _ | None => _ end] => destruct u end; [apply droppriv_kind|]; exact K.
Qed.
Lemma sjailed_ok : forall c tls child t1 f0 r sl h, process false h -> cstr_opt (saccount (sset c)) = Ok acc -> cstr (sdir (sset c)) = Ok dir ->
  ok h (smtp_jailed I fuel env nojail logid c tls child t1 f0 r sl).
Proof.
  intros c tls child t1 f0 r sl h P EA ED. unfold smtp_jailed. rewrite EA, ED. cbn [lift pbind].
  set (K := fun grey => i <~ connection I env ;; _ <~ alarm (stimeout c) ;;
    x <~ Smtp.smtp fuel (Smtp.mkcfg (scrw c) logid (iptostr I (remoteip i) ++ [0]) grey (sfailclosed (sset c)) tls child f0 t1) ;; Ret (Exit x)).
  assert (KO : forall g t, process false t -> confined t -> ok t (K g)).
  { clear h P. intros g h P C. unfold K. eapply part_late; [apply connection_kind|exact P|exact C|]. clear h P C. intros h i P C.
    eapply part_late; [unfold alarm; kinds|exact P|exact C|]. clear h P C. intros h _ P C.
    eapply part_late; [apply session_kind|exact P|exact C|]. intros. apply sp_ret. exact Logic.I. }
  assert (G : forall t, process false t -> confined t -> ok t (grey_connect fuel nojail c r sl K)).
  { clear h P. intros h P C. unfold grey_connect. destruct (shost c) as [[host port]|]; [|auto].
    assert (X : forall t n ip, process false t -> confined t -> ok t (
      if n <=? 0 then Ret (Exit 111)
      else
        _ <~ (if nojail then Ret tt else resolvehost_close fuel r) ;;
        '(w, _, _) <~ conn fuel sl (scrw c) ip n port ;;
        match w with
        | None => if sfailclosed (sset c) then Ret (Exit 111) else K (-1)
        | Some (g0, g1) => _ <~ do (Close g1) ;; K g0
        end)).
    { clear h P C. intros h n ip P C. destruct (n <=? 0); [apply sp_ret; exact Logic.I|].
      eapply part_late; [destruct nojail; [kinds|eapply calls_weak; [apply close_kind|]; intros [] X; cbn in *; tauto]|exact P|exact C|]. clear h P C. intros h _ P C.
      eapply part_late; [apply conn_kind|exact P|exact C|]. clear h P C. intros h [[w ip1] sl1] P C.
      destruct w as [[g0 g1]|].
      - eapply part_late; [unfold do; kinds|exact P|exact C|]. intros. apply KO; auto.
      - destruct (sfailclosed (sset c)); [apply sp_ret; exact Logic.I|auto]. }
    destruct nojail.
    - cbn [pbind]. eapply part_free; [kinds; apply resolve_nofork|exact P|reflexivity|].
      intros t [n ip] PT. apply X; auto. left. reflexivity.
    - destruct r as [[fd pid]|]; [|apply sp_bad]. eapply part_late; [eapply calls_weak; [apply do_kind|]; intros [] Y; cbn in *; tauto|exact P|exact C|].
      intros t [n ip] PT CT. apply X; auto. }
  destruct nojail; cbn [pbind].
  - cbn [fst]. change (0 =? -1) with false. cbn iota. apply G; auto. left. reflexivity.
  - eapply jailing; [exact P| |].
    + intros t x PT N R. destruct (Z.eqb_spec (fst x) (-1)); [contradiction|]. apply G; auto. right. exact R.
    + intros t x PT E. rewrite E. apply sp_ret. exact Logic.I.
Qed.
Lemma fork_guarded : forall nj h a, process false h -> TcpJailP.guarded nj acc dir h (Other (bs "fork") [] [], a).
Proof. intros nj h a P. split; [intros N; destruct (P N)|]. intros _. split; [intros [[]|X]; discriminate|discriminate]. Qed.
Lemma process_fork : forall h f, process false h -> ret f <> 0 -> process false (h ++ [(Other (bs "fork") [] [], f)]).
Proof. intros h f P N. cbn [process] in *. rewrite forks_app. intros X. apply in_app_or in X as [X|[X|[]]]; [destruct (P X)|]. cbn in X. congruence. Qed.
Lemma process_child : forall h f, ret f = 0 -> process true (h ++ [(Other (bs "fork") [] [], f)]).
Proof. intros h f E. cbn [process]. rewrite forks_app. apply in_or_app. right. left. exact E. Qed.
Lemma sparent_ok : forall c tls child t0 t1 f0 f1 h, process false h -> cstr_opt (saccount (sset c)) = Ok acc -> cstr (sdir (sset c)) = Ok dir ->
  ok h (smtp_parent I fuel buf0 ip0 env nojail logid c tls child t0 t1 f0 f1).
Proof.
  intros c tls child t0 t1 f0 f1 h P EA ED. unfold smtp_parent.
  assert (CL : forall fd, calls kind1 (do (Close fd))) by (intros; unfold do; kinds).
  do 2 (eapply part_early; [apply CL|exact P|]; clear h P; intros h _ P).
  do 2 (eapply part_early; [unfold blocking, do; kinds|exact P|]; clear h P; intros h _ P).
  eapply part_early; [unfold randombytes; kinds|exact P|]. clear h P. intros h _ P.
  destruct (shost c) as [hp|]; [|apply sjailed_ok; auto].
  assert (K : forall t r, process false t -> ok t ('(ok, sl) <~ conn_init conn_start_state 1 ;; if negb ok then Ret (Exit 111) else smtp_jailed I fuel env nojail logid c tls child t1 f0 r sl)).
  { clear h P. intros h r P. eapply part_early; [apply init_kind|exact P|]. clear h P. intros h [b sl] P. destruct (negb b); [apply sp_ret; exact Logic.I|apply sjailed_ok; auto]. }
  destruct nojail; [apply K; auto|].
  unfold resolvehost_init. eapply part_early; [kinds|exact P|]. clear h P. intros h a P. destruct (ret a =? -1); [apply sp_ret; exact Logic.I|]. cbv zeta.
  unfold sys1 at 1. cbn [pbind]. apply sp_do. intros f _. split; [apply fork_guarded; exact P|].
  destruct (Z.eqb_spec (ret f) (-1)) as [E|N1].
  - pose proof (process_fork h f P ltac:(lia)) as PF. eapply part_early; [apply CL|exact PF|]. clear P PF. intros t _ P. eapply part_early; [apply CL|exact P|]. intros. apply sp_ret. exact Logic.I.
  - destruct (Z.eqb_spec (ret f) 0) as [E|N0].
    + pose proof (process_child h f E) as PT.
      cut (forall t, process true t -> sp pidok (TcpJailP.guarded false acc dir) t (helper_main fuel buf0 ip0 (nth 0 (data a) 0) (nth 1 (data a) 0)) true1); [intros X; apply X; exact PT|].
      clear P PT CL h. intros h P. unfold helper_main.
      eapply part_helper; [kinds|exact P|]. clear h P. intros h pp P. eapply part_helper; [unfold do; kinds|exact P|]. clear h P. intros h _ P.
      eapply part_helper; [unfold fd_blocking_disable; kinds|exact P|]. clear h P. intros h _ P. eapply (jailing _ _ _ _ None None false true); [exact P| |].
      * intros t [r m] PT N R. cbn [fst] in N. destruct (Z.eqb_spec r (-1)); [contradiction|]. eapply part_inside; auto. apply calls_bind; [apply helper_nofork|intros; kinds].
      * intros t [r m] PT E2. cbn [fst] in E2. subst r. apply sp_ret. exact Logic.I.
    + pose proof (process_fork h f P N0) as PF. eapply part_early; [apply CL|exact PF|]. clear P PF. intros t _ P. apply K. exact P.
Qed.
Variable junk : list Z.
Lemma smain_ok : forall name argv c h, process false h -> smtp_command I junk (name :: argv) = Ok (Some c) -> cstr_opt (saccount (sset c)) = Ok acc -> cstr (sdir (sset c)) = Ok dir ->
  ok h (main_smtp I fuel buf0 ip0 junk env nojail logid (name :: argv)).
Proof.
  intros name argv c h P E EA ED. unfold main_smtp. do 2 (eapply part_early; [unfold signal, do; kinds|exact P|]; clear h P; intros h _ P).
  eapply part_early; [unfold alarm; kinds|exact P|]. clear h P. intros h _ P. rewrite E. cbn [lift pbind].
  eapply part_early; [unfold has_starttls; kinds|exact P|]. clear h P. intros h tls P.
  assert (PI : forall k, (forall r w t, process false t -> ok t (k r w)) -> forall t, process false t -> ok t (open_pipe k)).
  { clear h P. intros k K h P. unfold open_pipe. eapply part_early; [kinds|exact P|]. clear h P. intros h a P. destruct (ret a =? -1); [apply sp_ret; exact Logic.I|]. cbv zeta.
    do 4 (eapply part_early; [unfold blocking, do; kinds|exact P|]; clear h P; intros h _ P). auto. }
  apply PI; [|exact P]. clear h P. intros r1 w1 h P. apply PI; [|exact P]. clear h P. intros r2 w2 h P.
  unfold sys1 at 1. cbn [pbind]. apply sp_do. intros f _. split; [apply fork_guarded; exact P|].
  destruct (Z.eqb_spec (ret f) (-1)); [apply sp_ret; exact Logic.I|]. destruct (Z.eqb_spec (ret f) 0) as [E0|N0].
  - pose proof (process_child h f E0) as PT. eapply sp_conseq; [apply (sp_quiet _ _ _ kind0 (process true) _ _ (server_kind c r1 w1 r2 w2) PT)|intros; exact Logic.I].
    intros t e PR KE _. pose proof (kind01 _ KE) as K1. destruct (kind1_quiet e K1) as [X1 X2]. pose proof (kind0_quiet e KE). split; [|apply process_step; auto; apply kind1_nofork; auto].
    split; [tauto|]. intros N. destruct (N PR).
  - apply sparent_ok; auto. apply process_fork; auto.
Qed.
(** the mail server's process *)
Definition silent (t : trace) (e : event) : Prop := hd 1 (forks t) = 0 -> ~ exposed e /\ ~ asks e /\ ~ receives e.
Lemma sp_other : forall R (p : prog R) h x l, forks h = x :: l -> x <> 0 -> sp pidok silent h p true1.
Proof. intros R p h x l E N tr o _ _. split; [|intros; exact Logic.I]. intros t1 e t2 _ H. exfalso. rewrite forks_app, E in H. exact (N H). Qed.
Lemma smain_silent : forall name argv c h, forks h = [] -> smtp_command I junk (name :: argv) = Ok (Some c) ->
  sp pidok silent h (main_smtp I fuel buf0 ip0 junk env nojail logid (name :: argv)) true1.
Proof.
  intros name argv c h P E. unfold main_smtp.
  assert (PE : forall A B (p : prog A) (f : A -> prog B) h, calls nofork p -> forks h = [] -> (forall t x, forks t = [] -> sp pidok silent t (f x) true1) -> sp pidok silent h (pbind p f) true1).
  { clear h P. intros A B p f h C P K. eapply sp_bind; [apply (sp_quiet _ _ _ nofork (fun t => forks t = []) h p C P)|cbn beta; intros; apply K; auto].
    intros t e FE N _. split; [intros H; rewrite FE in H; discriminate H|]. rewrite nofork_forks; auto. }
  do 2 (eapply PE; [unfold signal, do; kinds|exact P|]; clear h P; intros h _ P).
  eapply PE; [unfold alarm; kinds|exact P|]. clear h P. intros h _ P. rewrite E. cbn [lift pbind].
  eapply PE; [unfold has_starttls; kinds|exact P|]. clear h P. intros h tls P.
  assert (PI : forall k, (forall r w t, forks t = [] -> sp pidok silent t (k r w) true1) -> forall t, forks t = [] -> sp pidok silent t (open_pipe k) true1).
  { clear h P. intros k K h P. unfold open_pipe. eapply PE; [kinds|exact P|]. clear h P. intros h a P. destruct (ret a =? -1); [apply sp_ret; exact Logic.I|]. cbv zeta.
    do 4 (eapply PE; [unfold blocking, do; kinds|exact P|]; clear h P; intros h _ P). auto. }
  apply PI; [|exact P]. clear h P. intros r1 w1 h P. apply PI; [|exact P]. clear h P. intros r2 w2 h P.
  unfold sys1 at 1. cbn [pbind]. apply sp_do. intros f _. split; [intros H; rewrite P in H; discriminate H|].
  assert (FF : forks (h ++ [(Other (bs "fork") [] [], f)]) = [ret f]) by (rewrite forks_app, P; reflexivity).
  destruct (Z.eqb_spec (ret f) (-1)) as [E1|N1]; [apply sp_ret; exact Logic.I|]. destruct (Z.eqb_spec (ret f) 0) as [E0|N0].
  - eapply sp_conseq; [apply (sp_quiet _ _ _ kind0 (fun t => True) _ _ (server_kind c r1 w1 r2 w2) Logic.I)|intros; exact Logic.I].
    intros t e _ KE _. split; [|exact Logic.I]. intros _. pose proof (kind01 _ KE) as K1. destruct (kind1_quiet e K1) as [X1 X2]. pose proof (kind0_quiet e KE). tauto.
  - eapply sp_other; [exact FF|exact N0].
Qed.
End Smtp.
