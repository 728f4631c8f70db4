(** tlswrapper-tcp: where connections are opened to. *)
From Verif.Model Require Import Base Sys Io Str Buffer Inet Parsenum Fdio Relay Session Jail Pem Proxy Conninfo Conn Resolve Main Getopt Lookup Tcpmain.
From Verif.Spec Require Import Text Flow Restrict Process Resolver Forward.
From Verif.Proof Require Import Tac SysP BufferP CallsP SafeP MainCallsP ResolveP ConnP TcpJailP TcpmainP.

Definition unconn (c : sys) : Prop := match c with Other n _ _ => n <> bs "connect" | _ => True end.
Lemma kind1_unconn : forall c, kind1 c -> unconn c.
Proof. intros [] K; cbn in *; tauto. Qed.

Section Dest.
Variable I : inet.
Variable fuel : nat.
Variables buf0 ip0 : list Z.
Variable env : environment.
Variable nojail : bool.
Variable c : tcpcmd.
Variables (host rest : list Z) (port : Z).
Hypothesis HOST : nonul host /\ thost c = host ++ 0 :: rest.
Hypothesis PORT : tport c = [port / 256; port mod 256].

Definition tamed (t : trace) (e : event) : Prop := tame e.
Definition direct (t : trace) (e : event) : Prop :=
  calling (bs "connect") e = true -> exists cs x fd, answered gai_list nojail host t cs /\ In x cs /\ fst e = Other (bs "connect") [fd] (x ++ [port / 256; port mod 256]).
Notation ok h p := (sp tamed direct h p true1).
Lemma tamed_all : forall h t, holds tamed h t -> Forall tame t.
Proof. intros h t H. apply Forall_forall. intros e X. apply in_split in X as (t1 & t2 & E). exact (H _ _ _ E). Qed.
Lemma part : forall A (p : prog A) (f : A -> prog ending) h, calls unconn p ->
  (forall t x, runs p t (Fin x) -> Forall tame t -> ok (h ++ t) (f x)) -> ok h (pbind p f).
Proof.
  intros A p f h C K. eapply sp_bind with (M := fun t x => exists u, t = h ++ u /\ runs p u (Fin x) /\ Forall tame u).
  - intros tr o R H. split.
    + intros t1 e t2 E CC. pose proof (C _ _ R) as F. rewrite E, Forall_app in F. destruct F as [_ F]. inversion F as [|? ? F1 _]; subst. destruct e as [[] a]; try discriminate. apply calling_other in CC. destruct (F1 CC).
    + intros r ->. exists tr. split; auto. split; auto. eapply tamed_all; eauto.
  - intros t x (u & -> & R & T). auto.
Qed.
Ltac kinds := repeat (calls1 || (progress cbv zeta)); try exact Logic.I; try (repeat split; discriminate); try discriminate.

(** ** Calls *)
Lemma relay_unconn : forall t self ri ro x, calls unconn (tcp_relay t self fuel ri ro x).
Proof.
  assert (SR : forall v, calls unconn (shut_r v)) by (intros; unfold shut_r, fd_close_read, fd_close_, tryshutdown, tryclose; kinds).
  assert (SW : forall v, calls unconn (shut_w v)) by (intros; unfold shut_w, fd_close_write, fd_close_, tryshutdown, tryclose; kinds).
  intros. unfold tcp_relay. apply calls_bind; [|intros; kinds; auto]. apply iter_calls. intros s.
  unfold tcp_body, tcp_eof, tcp_toremote, tcp_tolocal, tcp_fromlocal, tcp_fromremote, fd_read, fd_write, watch, jail_poll, alarm. kinds; auto.
Qed.
Lemma jail_unconn : forall a d l, calls unconn (jail a d l).
Proof. intros. eapply calls_weak; [apply jail_kind|]. intros k K. apply kind1_unconn, kind01; exact K. Qed.
Lemma connection_unconn : forall e, calls unconn (connection I e).
Proof. intros. unfold connection, socket_name. kinds. Qed.
Lemma resolve_unconn : forall ip n h, calls unconn (resolvehost ip n h).
Proof.
  intros. unfold resolvehost. kinds. unfold sortip. kinds.
  assert (S : forall k s, calls unconn (shuffle k s)).
  { induction k as [|k IH]; intros s; cbn [shuffle]; kinds. - unfold randommod. kinds. unfold randombytes. kinds. - auto. }
  apply S.
Qed.

Lemma proxy_unconn : forall fd o, calls unconn (proxyprotocol_v1_get fuel I fd o).
Proof.
  assert (O : forall f fd a n, calls unconn (oneread f fd a n)) by (induction f; intros; cbn [oneread]; kinds; auto).
  assert (G : forall f b, calls unconn (buffer_GETC f b)) by (intros; unfold buffer_GETC, buffer_get, buffer_feed; kinds; auto).
  assert (R : forall f k b n l, calls unconn (pp_read f k b n l)) by (intros f k; induction k as [|k IH]; intros; cbn [pp_read]; kinds; auto).
  intros. unfold proxyprotocol_v1_get. cbv zeta. apply calls_bind; [apply R|intros; kinds].
Qed.

(** ** The connection attempts *)
Definition aimed (cs : list (list Z)) (k : sys) : Prop := unconn k \/ exists x fd, In x cs /\ k = Other (bs "connect") [fd] (x ++ [port / 256; port mod 256]).
Lemma conn_aimed : forall sl t ip n cs, fits ip n cs -> calls (aimed cs) (conn fuel sl t ip n (tport c)).
Proof.
  assert (W : forall A cs (p : prog A), calls unconn p -> calls (aimed cs) p) by (intros A cs p C; eapply calls_weak; [exact C|]; intros k K; left; exact K).
  assert (X : forall sl s, calls unconn (closeslot sl s)) by (intros; unfold closeslot; kinds).
  assert (R : forall m i sl, calls unconn (conn_reset_from m i sl)) by (induction m; intros; cbn [conn_reset_from]; kinds; auto).
  assert (C : forall p sl, calls unconn (conn_check p sl)) by (induction p as [|[fd re] p IH]; intros; cbn [conn_check]; kinds; auto; unfold socket_connected; kinds).
  assert (V : forall n d k sl, calls unconn (conn_wait n d k sl)).
  { induction n; intros; cbn [conn_wait]; kinds; auto; try (unfold conn_reset; apply R); try (unfold milliseconds; kinds). unfold jail_poll. kinds. }
  assert (Y : forall m i w sl ip d, calls unconn (copyip_loop m i w sl ip d)) by (induction m; intros; cbn [copyip_loop]; kinds; auto).
  intros sl t ip n cs FI.
  assert (S : forall m i sl, (i + m <= length cs)%nat -> calls (aimed cs) (conn_start m i sl ip (tport c))).
  { induction m as [|m IH]; intros i sl0 LE; cbn [conn_start]; [kinds|]. destruct (nth_error sl0 i) as [[fd d]|]; [|kinds].
    apply calls_bind; [|intros a; destruct (ret a =? 0); [kinds|]; destruct (_ && _); [apply calls_bind; [apply W; auto|]; intros|]; apply IH; lia].
    unfold socket_connect. rewrite PORT. assert (A : slice (skipn (16 * i) ip) 0 16 = Ok (ConnP.addr ip i)).
    { destruct FI as (L & _ & _ & B & _). unfold ConnP.addr. rewrite slice_ok; [reflexivity|lia|lia|]. unfold len in *. rewrite skipn_length, L. lia. }
    rewrite A. cbn [lift pbind]. change (slice [port / 256; port mod 256] 0 2) with (Ok [port / 256; port mod 256] : res (list Z)). cbn [lift pbind]. apply calls_sys1. right. exists (ConnP.addr ip i), fd. split; [|reflexivity].
    eapply fits_addr; [exact FI|]. destruct FI as (_ & -> & _). unfold len. lia. }
  assert (M : calls (aimed cs) milliseconds) by (apply W; unfold milliseconds; kinds).
  unfold conn. apply calls_bind; [exact M|]. intros now. apply calls_bind; [apply calls_lift|]. intros d. apply calls_bind; [apply calls_lift|]. intros dl. cbv zeta.
  destruct (_ || _); [kinds|]. destruct FI as (_ & NE & _ & B & _).
  assert (N8 : (if MAXIP * 16 <? n then MAXIP * 16 else n) = n) by (unfold MAXIP; destruct (Z.ltb_spec (8 * 16) n); lia). rewrite !N8.
  apply calls_bind; [apply S; subst n; rewrite Z.mul_comm, Z.div_mul by lia; unfold len; lia|]. intros [w sl1]. apply W. apply calls_bind; [destruct w; kinds; auto|]. intros [w1 sl2]. destruct w1; [|kinds]. apply calls_bind; [unfold conn_copyip; kinds; auto|]. intros [[? ?] ?]. kinds.
Qed.
Lemma sp_aimed : forall A (p : prog A) (f : A -> prog ending) h cs, calls (aimed cs) p -> answered gai_list nojail host h cs ->
  (forall t x, ok t (f x)) -> ok h (pbind p f).
Proof.
  intros A p f h cs C AN K. eapply sp_bind with (M := true1).
  - intros tr o R H. split; [|intros; exact Logic.I]. intros t1 e t2 E CC. pose proof (C _ _ R) as F. rewrite E, Forall_app in F. destruct F as [_ F]. inversion F as [|? ? F1 _]; subst.
    destruct F1 as [F1|(x & fd & F1 & F2)]; [destruct e as [[] a]; try discriminate; apply calling_other in CC; destruct (F1 CC)|]. exists cs, x, fd. split; [apply answered_more; exact AN|]. auto.
  - auto.
Qed.

(** ** The parts of main_tcp *)
Lemma jailed_dest : forall h self sl ip n cs, fits ip n cs -> answered gai_list nojail host h cs -> ok h (tcp_jailed I fuel env nojail c self sl ip n).
Proof.
  intros h self sl ip n cs FI AN. unfold tcp_jailed. apply part; [kinds|]. intros t1 x _ _. apply part; [kinds|]. intros t2 y _ _.
  apply part; [destruct nojail; [kinds|apply jail_unconn]|]. intros t3 r _ _. destruct (fst r =? -1); [apply sp_ret; exact Logic.I|].
  assert (AN1 : answered gai_list nojail host (((h ++ t1) ++ t2) ++ t3) cs) by (do 3 apply answered_more; exact AN). revert AN1. generalize (((h ++ t1) ++ t2) ++ t3 : trace). clear h AN t1 t2 t3 x y r. intros h AN.
  assert (K : forall t i, ok (h ++ t) ('(w, ip, _) <~ conn fuel sl (tconnect c) ip n (tport c) ;;
    match w with
    | None => Ret (Exit 111)
    | Some (ri, ro) => tcp_header I c i (fun h => _ <~ signal SIGTERM HANDLER ;; _ <~ signal SIGALRM HANDLER ;; _ <~ alarm (ttimeout c) ;; x <~ tcp_relay (ttimeout c) self fuel ri ro h ;; Ret (Exit x))
    end)).
  { intros t i. eapply sp_aimed; [apply conn_aimed; exact FI|apply answered_more; exact AN|]. clear t AN h. intros h [[w ip1] sl1]. destruct w as [[ri ro]|]; [|apply sp_ret; exact Logic.I].
    assert (K : forall t x, ok t (_ <~ signal SIGTERM HANDLER ;; _ <~ signal SIGALRM HANDLER ;; _ <~ alarm (ttimeout c) ;; y <~ tcp_relay (ttimeout c) self fuel ri ro x ;; Ret (Exit y))).
    { clear h. intros h x. unfold signal, do, alarm. do 3 (apply part; [kinds|]; intros ? ? _ _). apply part; [apply relay_unconn|]. intros. apply sp_ret. exact Logic.I. }
    unfold tcp_header. destruct (tppout (tset c)); [|apply K].
    apply part; [eapply calls_weak; [apply header_allocs|]; intros q [x ->]; exact Logic.I|]. intros t [k b] _ _. destruct (u64 k =? 0); [apply sp_ret; exact Logic.I|]. destruct b; [apply K|apply sp_bad]. }
  unfold peer_info. destruct (tppin (tset c)).
  - apply part; [apply proxy_unconn|]. intros t [r e] _ _. destruct (r =? 0); [apply sp_ret; exact Logic.I|apply K].
  - apply part; [apply connection_unconn|]. intros t i _ _. apply K.
Qed.
Lemma resolved_dest : forall h r ip n, n <= 0 \/ (exists cs, fits ip n cs /\ answered gai_list nojail host h cs) -> ok h (tcp_resolved I fuel env nojail c r ip n).
Proof.
  assert (CL : forall r, calls unconn (resolvehost_close fuel r)) by (intros; eapply calls_weak; [apply close_kind|exact kind1_unconn]).
  intros h r ip n AN. unfold tcp_resolved. destruct (Z.leb_spec n 0).
  - unfold tcp_die. apply part; [apply CL|]. intros. apply sp_ret. exact Logic.I.
  - destruct AN as [AN|(cs & FI & AN)]; [lia|]. apply part; [kinds|]. intros t1 x _ _. apply part; [apply CL|]. intros t2 y _ _. apply part; [kinds|]. intros t3 a _ _. destruct (ret a =? -1); [apply sp_ret; exact Logic.I|].
    apply part; [eapply calls_weak; [apply init_kind|exact kind1_unconn]|]. intros t4 [b sl] _ _. destruct (negb b); [apply sp_ret; exact Logic.I|]. apply jailed_dest with (cs := cs); [exact FI|]. do 4 apply answered_more. exact AN.
Qed.
Lemma resolve_dest : forall h, ok h (tcp_resolve fuel buf0 ip0 nojail c (tcp_resolved I fuel env nojail c)).
Proof.
  intros h. unfold tcp_resolve. destruct HOST as [NH HO]. rewrite HO. destruct nojail eqn:NJ.
  - apply part; [apply resolve_unconn|]. intros t [[n e] ip] R F. rewrite <- NJ. apply resolved_dest. destruct (proj2 (resolve_any _ _ _ _ F R) n e ip eq_refl) as [X|(cs & X & Y)]; [left; exact X|]. right. exists cs. split; [exact X|].
    destruct Y as (x & a & Y1 & Y2). rewrite NJ. exists x, a. split; [apply in_or_app; auto|exact Y2].
  - unfold resolvehost_init. apply part; [kinds|]. intros t a _ _. destruct (ret a =? -1); [apply sp_ret; exact Logic.I|]. generalize (h ++ t : trace). clear h t. intros h.
    apply part; [kinds|]. intros t f R F. destruct (ret f =? -1); [unfold do; do 2 (apply part; [kinds|]; intros ? ? _ _); apply sp_ret; exact Logic.I|].
    assert (FZ : ret f <> 0). { apply runs_sys1 in R as [[_ R]|(x & -> & R)]; [discriminate|]. injection R as ->. inversion F as [|? ? F1 _]; subst. apply F1. reflexivity. }
    destruct (Z.eqb_spec (ret f) 0); [contradiction|]. apply part; [unfold do; kinds|]. intros t1 x1 _ _. apply part; [eapply calls_weak; [apply do_kind|exact kind1_unconn]|].
    intros t2 [n0 ip] R2 F2. rewrite <- NJ. apply resolved_dest. destruct (proj2 (do_any _ _ _ _ _ NH F2 R2) n0 ip eq_refl) as [X|(cs & X & Y)]; [left; exact X|]. right. exists cs. split; [exact X|].
    rewrite NJ. destruct Y as (fd & u1 & sn & u2 & rc & u3 & E & Y). exists fd, (((h ++ t) ++ t1) ++ u1), sn, u2, rc, u3. split; [|exact Y]. rewrite E. rewrite <- !app_assoc. reflexivity.
Qed.
End Dest.
