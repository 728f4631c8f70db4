(** tlswrapper-smtp: every connection of the original process is to the policy server. *)
From Verif.Model Require Import Base Sys Io Str Buffer Inet Parsenum Fdio Relay Session Jail Pem Proxy Conninfo Conn Resolve Main Getopt Lookup Smtpmain.
From Verif.Spec Require Import Text Flow Restrict Process Resolver Forward Mailer Blame.
From Verif.Proof Require Import Tac SysP BufferP CallsP SafeP MainCallsP ChildP ResolveP ConnP BlameP SmtpCallsP TcpJailP TcpmainP TcpDestP SmtpResolveP.
From Verif.Model Require Smtp.

(** what the command line says of the policy server and what is kept of it *)
Definition grey_kept (grey : option (list Z * Z)) (h : option (list Z * list Z)) : Prop :=
  match grey with
  | None => h = None
  | Some (host, port) => nonul host /\ exists rest, h = Some (host ++ 0 :: rest, [port / 256; port mod 256])
  end.
Lemma smtp_unconn : forall fuel c, calls unconn (Smtp.smtp fuel c).
Proof.
  intros. eapply calls_weak; [apply smtp_calls|]. intros [] K; cbn in *; auto. intros ->. destruct K as [K|[K|[K|[K|[]]]]]; discriminate K.
Qed.
(** a part of the original process *)
Lemma fork_tame : forall t f, runs (sys1 (Other (bs "fork") [] [])) t (Fin f) -> Forall tame t -> ret f <> 0.
Proof. intros t f R F. apply runs_sys1 in R as [[_ R]|(x & -> & R)]; [discriminate|]. injection R as ->. inversion F as [|? ? F1 _]; subst. apply F1. reflexivity. Qed.

Section Walk.
Variable I : inet.
Variable fuel : nat.
Variables buf0 ip0 junk : list Z.
Variable env : environment.
Variable nojail : bool.
Variable logid : option (list Z).
Variable cmd : smtpcmd.
Lemma session_unconn : forall tls child t1 f0 grey strict, calls unconn (
    i <~ connection I env ;;
    _ <~ alarm (stimeout cmd) ;;
    x <~ Smtp.smtp fuel (Smtp.mkcfg (scrw cmd) logid (iptostr I (remoteip i) ++ [0]) grey strict tls child f0 t1) ;;
    Ret (Exit x)).
Proof.
  intros. apply calls_bind; [apply connection_unconn|]. intros i. apply calls_bind; [unfold alarm, do; kinds|]. intros _. apply calls_bind; [apply smtp_unconn|]. intros. apply calls_ret.
Qed.
Lemma close_unconn : forall r, calls unconn (resolvehost_close fuel r).
Proof. intros; eapply calls_weak; [apply close_kind|exact kind1_unconn]. Qed.

(** without -g *)
Lemma parent_unconn : forall tls child t0 t1 f0 f1, shost cmd = None -> calls unconn (smtp_parent I fuel buf0 ip0 env nojail logid cmd tls child t0 t1 f0 f1).
Proof.
  intros tls child t0 t1 f0 f1 E. unfold smtp_parent. rewrite E. do 5 (apply calls_bind; [unfold blocking, Pem.randombytes; kinds; unfold do; kinds|]; intros ?).
  unfold smtp_jailed, grey_connect. rewrite E. apply calls_bind; [kinds|]. intros. apply calls_bind; [kinds|]. intros.
  apply calls_bind; [destruct nojail; [kinds|apply jail_unconn]|]. intros z. destruct (fst z =? -1); [kinds|]. apply session_unconn.
Qed.

Section Grey.
Variables (host rest : list Z) (port : Z).
Hypothesis NH : nonul host.
Hypothesis HOST : shost cmd = Some (host ++ 0 :: rest, [port / 256; port mod 256]).
Notation ok h p := (sp tamed (direct1 nojail host port) h p true1).
Lemma asked : forall (r : resolver) t o, Forall tame t ->
  runs (if nojail then '(n, _, ip) <~ resolvehost (Some (repeat 0 16)) 16 (Some (host ++ 0 :: rest)) ;; Ret (n, ip)
        else match r with Some (fd, _) => resolvehost_do fd (Some (repeat 0 16)) 16 (Some (host ++ 0 :: rest)) | None => Bad end) t o ->
  (nojail = false -> r <> None) ->
  o <> Wrong /\ forall n x, o = Fin (n, x) -> n <= 0 \/ (n = 16 /\ length x = 16%nat /\ chosen gai_list nojail host t x).
Proof.
  intros r t o F R NR. unfold chosen. destruct nojail eqn:NJ.
  - apply runs_bind in R as [([[n e] x] & t1 & t2 & -> & R1 & R)|[[R1 ->]|[R1 ->]]].
    + destruct R as [-> ->]. rewrite app_nil_r in *. split; [discriminate|]. intros n' x' E. injection E as <- <-. destruct (proj2 (resolve_one _ _ _ _ F R1) n e x eq_refl) as [X|X]; [left; exact X|right; exact X].
    + destruct (proj1 (resolve_one _ _ _ _ F R1) eq_refl).
    + split; discriminate.
  - destruct r as [[fd pid]|]; [|destruct (NR eq_refl eq_refl)]. exact (do_one _ _ _ _ _ NH F R).
Qed.
Lemma asked_nowhere : forall (r : resolver) t n x, Forall tame t ->
  runs (if nojail then '(n, _, ip) <~ resolvehost (Some (repeat 0 16)) 16 (Some (host ++ 0 :: rest)) ;; Ret (n, ip)
        else match r with Some (fd, _) => resolvehost_do fd (Some (repeat 0 16)) 16 (Some (host ++ 0 :: rest)) | None => Bad end) t (Fin (n, x)) ->
  n <= 0 -> nowhere gai_list nojail 1 host t.
Proof.
  intros r t n x F R NZ. destruct nojail.
  - apply fin_bind in R as ([[n' e] y] & t1 & t2 & -> & R1 & [-> E]). injection E as -> ->. rewrite app_nil_r. change 16 with (len (repeat 0 16)) in R1. eapply (lookup_nowhere (repeat 0 16)); [| |exact R1|exact NZ]; change (len (repeat 0 16)) with 16; lia.
  - destruct r as [[fd pid]|]; [|destruct R; discriminate]. eapply do_nowhere; [exact NH| |apply tame_dgram; exact F|apply tame_honest; exact F|exact R|exact NZ]. lia.
Qed.
Lemma asks_unconn : forall r : resolver, calls unconn (if nojail then '(n, _, ip) <~ resolvehost (Some (repeat 0 16)) 16 (Some (host ++ 0 :: rest)) ;; Ret (n, ip)
        else match r with Some (fd, _) => resolvehost_do fd (Some (repeat 0 16)) 16 (Some (host ++ 0 :: rest)) | None => Bad end).
Proof.
  intros r. destruct nojail.
  - apply calls_bind; [apply resolve_unconn|]. intros [[n e] x]. apply calls_ret.
  - destruct r as [[fd pid]|]; [|apply calls_bad]. eapply calls_weak; [apply do_kind|exact kind1_unconn].
Qed.
Lemma jailed_dest1 : forall h tls child t1 f0 r sl, (nojail = false -> r <> None) -> ok h (smtp_jailed I fuel env nojail logid cmd tls child t1 f0 r sl).
Proof.
  intros h tls child t1 f0 r sl NR. unfold smtp_jailed. apply part1; [kinds|]. intros u1 x _ _. apply part1; [kinds|]. intros u2 y _ _.
  apply part1; [destruct nojail; [kinds|apply jail_unconn]|]. intros u3 z _ _. destruct (fst z =? -1); [apply sp_ret; exact Logic.I|].
  generalize ((((h ++ u1) ++ u2) ++ u3) : trace). clear h u1 u2 u3 x y z. intros h.
  unfold grey_connect. rewrite HOST. apply part1; [apply asks_unconn|]. intros u [n x] R F. destruct (asked _ _ _ F R NR) as [_ A]. specialize (A _ _ eq_refl).
  destruct (Z.leb_spec n 0); [apply sp_ret; exact Logic.I|]. destruct A as [A|(-> & LX & CH)]; [lia|].
  assert (C1 : chosen gai_list nojail host (h ++ u) x).
  { unfold chosen in *. destruct nojail.
    - destruct CH as (y & a & C1 & C2). exists y, a. split; [apply in_or_app; auto|exact C2].
    - destruct CH as (cs & fd & v1 & s & v2 & a & v3 & -> & C). exists cs, fd, (h ++ v1), s, v2, a, v3. split; [rewrite <- app_assoc; reflexivity|exact C]. }
  apply part1; [destruct nojail; [kinds|apply close_unconn]|]. intros u1 _ _ _.
  eapply sp_aimed1; [apply conn_aimed1; exact LX|apply chosen_more; exact C1|]. intros v [[w ip'] sl']. apply rest1. destruct w as [[g0 g1]|].
  - unfold do. apply calls_bind; [kinds|]. intros. apply session_unconn.
  - destruct (sfailclosed (sset cmd)); [kinds|apply session_unconn].
Qed.
Lemma parent_dest1 : forall h tls child t0 t1 f0 f1, ok h (smtp_parent I fuel buf0 ip0 env nojail logid cmd tls child t0 t1 f0 f1).
Proof.
  intros h tls child t0 t1 f0 f1. unfold smtp_parent. do 5 (apply part1; [unfold blocking, Pem.randombytes; kinds; unfold do; kinds|]; intros ? ? _ _). rewrite HOST.
  assert (K : forall v r, (nojail = false -> r <> None) -> ok v ('(ok, sl) <~ conn_init conn_start_state 1 ;; if negb ok then Ret (Exit 111) else smtp_jailed I fuel env nojail logid cmd tls child t1 f0 r sl)).
  { intros v r NR. apply part1; [eapply calls_weak; [apply init_kind|exact kind1_unconn]|]. intros u [b sl] _ _. destruct (negb b); [apply sp_ret; exact Logic.I|]. apply jailed_dest1. exact NR. }
  match goal with |- sp _ _ ?v _ _ => generalize (v : trace) end. clear h. intros h.
  destruct nojail eqn:NJ; [rewrite <- NJ in *; apply K; congruence|]. rewrite <- NJ in *.
  unfold resolvehost_init. apply part1; [kinds|]. intros v1 a _ _. destruct (ret a =? -1); [apply sp_ret; exact Logic.I|].
  apply part1; [kinds|]. intros v2 f R F. destruct (ret f =? -1); [unfold do; do 2 (apply part1; [kinds|]; intros ? ? _ _); apply sp_ret; exact Logic.I|].
  pose proof (fork_tame _ _ R F). destruct (Z.eqb_spec (ret f) 0); [contradiction|]. apply part1; [unfold do; kinds|]. intros v3 y1 _ _. apply K. discriminate.
Qed.
End Grey.

Lemma dest1 : forall grey tls child t0 t1 f0 f1 h, grey_kept grey (shost cmd) ->
  sp tamed (fun t e => calling (bs "connect") e = true -> exists host port x fd, grey = Some (host, port) /\ chosen gai_list nojail host t x /\ fst e = Other (bs "connect") [fd] (x ++ [port / 256; port mod 256])) h
    (smtp_parent I fuel buf0 ip0 env nojail logid cmd tls child t0 t1 f0 f1) true1.
Proof.
  intros grey tls child t0 t1 f0 f1 h GK. destruct grey as [[host port]|].
  - destruct GK as (NH & rest & E). intros tr o R H. destruct (parent_dest1 host rest port NH E h tls child t0 t1 f0 f1 tr o R H) as [A B]. split; [|exact B].
    intros u e v EV CC. destruct (A u e v EV CC) as (x & fd & X & Y). exists host, port, x, fd. auto.
  - cbn in GK. intros tr o R H. split; [|intros; exact Logic.I]. intros u e v EV CC. pose proof (parent_unconn tls child t0 t1 f0 f1 GK _ _ R) as F. rewrite EV, Forall_app in F. destruct F as [_ F]. inversion F as [|? ? F1 _]; subst. destruct e as [[] a]; try discriminate. apply calling_other in CC. destruct (F1 CC).
Qed.
End Walk.
