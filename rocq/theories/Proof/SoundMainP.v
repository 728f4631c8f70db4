(** The three processes from their start on: no undefined behaviour, with two exceptions. *)
From Verif.Model Require Import Base Sys Io Str Inet Config Parsenum Fdio Buffer Relay Session Tlsphase Jail Pem Keyjail Proxy Conninfo Options Profile Main.
From Verif.Spec Require Import Num Ip Text Stream Flow Restrict Starttls Tlsrelay Proxy Endpoints Cmdline Process Program Fdtable.
From Verif.Proof Require Import Tac SysP CallsP PlayP StrP FrameP IoP IpP ProxyP FdioP ConfigP OptionsP SafeP MainCallsP MainP ChildP DescP WpP CurP ClearP ToldP SoundP.
From Verif.Props Require Import PropConninfo PropOptions PropJail PropClear PropTlsphase.

(** no undefined behaviour as long as the answers are legal *)
Definition safe {R} (p : prog R) : Prop := forall tr o, runs p tr o -> legal tr -> pids tr -> o <> Wrong.
Lemma pids_app : forall s t, pids (s ++ t) -> pids s /\ pids t.
Proof. intros s t P. split; intros a IN; apply P; apply in_or_app; auto. Qed.
Lemma safe_total : forall R (p : prog R), total p -> safe p.
Proof. intros R p T tr o RU _ _. eapply T; eauto. Qed.
Lemma safe_bind : forall S R (p : prog S) (f : S -> prog R), safe p -> (forall x t, runs p t (Fin x) -> legal t -> safe (f x)) -> safe (pbind p f).
Proof.
  intros S R p f P F tr o RU L D. apply runs_bind in RU as [(a & t1 & t2 & -> & R1 & R2)|[[R1 ->]|[R1 ->]]]; [|destruct (P _ _ R1 L D eq_refl)|discriminate].
  apply legal_app in L as [L1 L2]. apply pids_app in D as [D1 D2]. exact (F a _ R1 L1 _ _ R2 L2 D2).
Qed.
Lemma safe_then : forall S R (p : prog S) (f : S -> prog R), safe p -> (forall x, safe (f x)) -> safe (pbind p f).
Proof. intros. apply safe_bind; auto. Qed.
Lemma safe_ret : forall R (x : R), safe (Ret x). Proof. intros. apply safe_total, total_ret. Qed.
Lemma safe_sys : forall R c (f : ans -> prog R), (forall a, safe (f a)) -> safe (a <~ sys1 c ;; f a).
Proof. intros R c f H. apply safe_then; [apply safe_total; repeat total1|exact H]. Qed.
Lemma safe_tot : forall S R (p : prog S) (f : S -> prog R), total p -> (forall x, safe (f x)) -> safe (pbind p f).
Proof. intros. apply safe_then; auto. apply safe_total. assumption. Qed.
Ltac tot := apply safe_tot; [solve [repeat total1|auto using blocking_total, alarm_total, signal_total, rand_total]|intro].

Lemma jail_safe : forall a d l, safe (jail a d l).
Proof. intros a d l tr o RU _ D. apply (C36_no_ub _ _ _ _ _ RU D). Qed.
Lemma readall_safe : forall f fd x n, 0 <= n <= len x -> n <= CHUNK -> safe (pipe_readall f fd x n).
Proof. intros f fd x n H C tr o RU L _ ->. destruct (pipe_readall_ok _ _ _ _ _ _ RU L H C) as [_ []]. Qed.
Lemma readmax_safe : forall f fd x n, 0 <= n <= len x -> n <= CHUNK -> safe (pipe_readmax f fd x n).
Proof. intros f fd x n H C tr o RU L _ ->. destruct (pipe_readmax_ok _ _ _ _ _ _ RU L H C) as [_ []]. Qed.
Lemma pipe_write_safe : forall f fd m x, len m < two63 -> safe (pipe_write f fd (m ++ x) (len m)).
Proof. intros f fd m x H tr o RU L _ ->. destruct (pipe_write_ok _ _ _ _ _ _ RU L H) as [_ []]. Qed.
Lemma need_safe : forall p k, safe p -> safe k -> safe (need p k).
Proof. intros p k P K. unfold need. apply safe_then; auto. intros [|e]; [exact K|apply safe_ret]. Qed.
Lemma shut_r_total : forall v, total (shut_r v).
Proof.
  intros v tr o R. unfold shut_r in R. apply runs_bind in R as [([y e] & t1 & t2 & -> & R1 & R2)|[[R1 ->]|[R1 ->]]]; [|apply fd_close_ok in R1 as [W _]; congruence|discriminate].
  apply fd_close_ok in R1 as (_ & H1 & H2). destruct (Z.eq_dec v (-1)) as [E|N]; [destruct (H1 E) as [_ X]|destruct (H2 N) as (n & _ & [X|[_ X]])]; try discriminate X; injection X as -> _; destruct R2 as [_ ->]; discriminate.
Qed.
Lemma shut_w_total : forall v, total (shut_w v).
Proof.
  intros v tr o R. unfold shut_w in R. apply runs_bind in R as [([y e] & t1 & t2 & -> & R1 & R2)|[[R1 ->]|[R1 ->]]]; [|apply fd_close_ok in R1 as [W _]; congruence|discriminate].
  apply fd_close_ok in R1 as (_ & H1 & H2). destruct (Z.eq_dec v (-1)) as [E|N]; [destruct (H1 E) as [_ X]|destruct (H2 N) as (n & _ & [X|[_ X]])]; try discriminate X; injection X as -> _; destruct R2 as [_ ->]; discriminate.
Qed.
Lemma wait_total : forall n pid, total (wait n pid).
Proof. induction n; intros; cbn [wait]; repeat total1. apply IHn. Qed.
Lemma cstr_points : forall w p, points w p -> cstr p = Ok w.
Proof. intros w p (N & r & ->). apply cstr_ok. exact N. Qed.
Lemma cstr_opt_maybe : forall w p, maybe w p -> cstr_opt p = Ok w.
Proof. intros [w|] [p|] M; try contradiction; cbn [cstr_opt]; [rewrite (cstr_points _ _ M)|]; reflexivity. Qed.
Lemma cstrs_all : forall ws ps, Forall2 points ws ps -> cstrs ps = Ok ws.
Proof. intros ws ps F. induction F as [|w p ws ps P F IH]; [reflexivity|]. cbn [cstrs]. rewrite (cstr_points _ _ P). cbn [bind]. rewrite IH. reflexivity. Qed.

Lemma len_zeros : forall n, 0 <= n -> len (zeros n) = n.
Proof. intros n H. unfold len, zeros. rewrite repeat_length. lia. Qed.
Lemma sanitized_nonul : forall w, nonul w -> nonul (sanitized w).
Proof. intros w N. unfold nonul in *. rewrite Forall_forall in *. intros c IN. destruct (sanitized_chars _ _ IN) as [X|[-> _]]; [auto|lia]. Qed.
Section Processes.
Variable I : inet.
Hypothesis OK : inet_ok I.
Variable fuel : nat.
Variables junk portbuf : list Z.
Hypothesis JUNK : length junk = 256%nat.
Hypothesis PORT : length portbuf = 6%nat.
Variable env : environment.
Hypothesis ENV : strings env.
Variable nojail : bool.

(** ** the program's process *)
Lemma received_safe : forall n (k : list Z -> prog ending), 0 <= n <= CHUNK -> (forall m, len m = n -> bytes m -> safe (k m)) -> safe (receive fuel n k).
Proof.
  intros n k H K. unfold receive. apply safe_bind; [apply readall_safe; [rewrite len_zeros by lia|]; lia|].
  intros [[|e] x] t RU L; [|apply safe_ret]. destruct (pipe_readall_ok _ _ _ _ _ _ RU L) as [_ (m & LM & G & E & _)]; [rewrite len_zeros by lia; lia|lia|].
  assert (X : skipn (Z.to_nat n) (zeros n) = []) by (apply skipn_all2; unfold zeros; rewrite repeat_length; lia). rewrite X, app_nil_r in E. subst x. apply K; [exact LM|].
  pose proof (got_bytes 0 _ L) as Y. rewrite G in Y. unfold frame in Y. apply Forall_app in Y as [_ Y]. exact Y.
Qed.
Lemma droppriv_safe : forall x k, safe k -> safe (droppriv x k).
Proof. intros x k K. unfold droppriv. apply safe_then; [apply jail_safe|]. intros [r m]. destruct (_ =? _); [apply safe_ret|exact K]. Qed.
Lemma login_safe : forall uc k, safe k -> safe (Main.login fuel junk uc k).
Proof.
  intros uc k K. unfold Main.login. apply safe_bind; [apply readmax_safe; [unfold len; rewrite JUNK|unfold CHUNK]; lia|].
  intros [[[|e] x] n] t RU L; [|apply safe_ret]. destruct (pipe_readmax_ok _ _ _ _ _ _ RU L) as [_ (m & LM & LE & _ & E & _)]; [unfold len; rewrite JUNK; lia|unfold CHUNK; lia|].
  destruct (Z.leb_spec n 1); [exact K|]. subst x n. destruct (st_last (fun _ _ _ => 0) O m (skipn (length m) junk)) as (b & S); [unfold len in *; lia|]. rewrite S. cbn [lift pbind].
  destruct (negb uc); [exact K|]. rewrite cstr_before. cbn [lift pbind]. apply droppriv_safe. exact K.
Qed.
Lemma put_safe : forall i (k : prog ending), endpoints i -> safe k -> safe (_ <~ put_connection I portbuf i ;; k).
Proof.
  intros [li lp ri rp] k (A1 & A2 & L1 & B1 & L2 & B2) K. cbn [localip localport remoteip remoteport] in *.
  destruct lp as [|l0 [|l1 [|]]]; try discriminate L1. destruct rp as [|r0 [|r1 [|]]]; try discriminate L2.
  pose proof (Forall_inv B1) as Hl0. pose proof (Forall_inv (Forall_inv_tail B1)) as Hl1.
  pose proof (Forall_inv B2) as Hr0. pose proof (Forall_inv (Forall_inv_tail B2)) as Hr1.
  destruct (porttext_ok portbuf r0 r1 PORT Hr0 Hr1) as (rs & ER & RT & _). destruct (porttext_ok portbuf l0 l1 PORT Hl0 Hl1) as (ls & EL & LT & _).
  apply safe_tot; [|intros; exact K]. unfold put_connection, put_env. cbn [localip localport remoteip remoteport]. rewrite ER, EL. cbn [lift pbind]. repeat total1.
Qed.
Lemma start_safe : forall uc w u ws ps, maybe w u -> Forall2 points ws ps -> safe (child_start I fuel junk portbuf uc u ps).
Proof.
  intros uc w u ws ps MU MP. unfold child_start.
  apply received_safe; [unfold CHUNK; lia|]. intros lip L1 B1. apply received_safe; [unfold CHUNK; lia|]. intros lp L2 B2.
  apply received_safe; [unfold CHUNK; lia|]. intros rip L3 B3. apply received_safe; [unfold CHUNK; lia|]. intros rp L4 B4.
  apply put_safe. { unfold endpoints, addr6. cbn [localip localport remoteip remoteport]. unfold len in *. repeat split; auto; lia. }
  apply login_safe. rewrite (cstr_opt_maybe _ _ MU). cbn [lift pbind].
  assert (E : safe (_ <~ signal SIGPIPE DFL ;; _ <~ signal SIGCHLD DFL ;; _ <~ signal SIGTERM DFL ;; v <~ lift (cstrs ps) ;; a <~ sys1 (Other (bs "execvp") [] (hd [] v)) ;; Ret (if ret a =? -1 then Exit 111 else Exec v))).
  { rewrite (cstrs_all _ _ MP). cbn [lift pbind]. do 3 tot. apply safe_sys. intros a. apply safe_ret. }
  destruct w; [apply droppriv_safe|]; exact E.
Qed.
Lemma dup_safe : forall fd n k, safe k -> safe (dup fd n k).
Proof. intros fd n k K. unfold dup. apply safe_sys. intros a. destruct (_ =? _); [exact K|apply safe_ret]. Qed.
Lemma child_safe : forall cmd p w ws, maybe w (user (settings cmd)) -> Forall2 points ws (program cmd) -> safe (child_main I fuel junk portbuf cmd p).
Proof.
  intros cmd p w ws MU MP. unfold child_main. do 3 tot. apply dup_safe. do 3 tot. apply dup_safe. do 3 tot.
  assert (E : safe (_ <~ do (Close (toctl_w p)) ;; _ <~ do (Close 6) ;;
    (if delayed (settings cmd) then fun k => dup (toctl_r p) 6 (_ <~ blocking 6 true ;; k) else fun k => k) (
    child_start I fuel junk portbuf (match certuser (settings cmd) with Some _ => true | None => false end) (user (settings cmd)) (program cmd)))).
  { do 2 tot. destruct (delayed _); [apply dup_safe; tot|]; eapply start_safe; eauto. }
  destruct (delayed _); [apply dup_safe; tot|]; exact E.
Qed.

(** ** the wrapper *)
Section Wrapper.
Variable cmd : command.
Variable p : pipes.
Variables child key fk tk self : Z.
Hypothesis SETUP : NoDup [0; 1; toc_w p; fromc_r p; fromctl_r p; toctl_w p; self] /\ Forall (fun f => 0 <= f < 1024) [0; 1; toc_w p; fromc_r p; fromctl_r p; toctl_w p; self].
Variable l : list item.
Hypothesis OID : exists x, name_oid (certuser (settings cmd)) = Ok x.
Notation uc := (match certuser (settings cmd) with Some _ => true | None => false end).

Lemma finish_safe : forall s, safe (finish fuel child key fk tk s).
Proof. intros s. unfold finish. apply safe_total. repeat (total1; auto using shut_r_total, shut_w_total, wait_total, signal_total). Qed.
Lemma phase_safe : forall ci co b1 b2 d, (ci = toc_w p \/ ci = -1) -> (co = fromc_r p \/ co = -1) ->
  safe (tls_phase (timeout cmd) 1 self uc fuel (mkts (mksess 0 1 ci co (-1) (-1) b1 b2) false d)).
Proof.
  intros ci co b1 b2 d HC HO tr o RU L _.
  set (ci' := if ci =? -1 then -2 else ci). set (co' := if co =? -1 then -3 else co).
  destruct SETUP as [ND RG]. repeat match goal with H : Forall _ (_ :: _) |- _ => apply Forall_cons_iff in H as [? H] end. repeat match goal with H : NoDup (_ :: _) |- _ => apply NoDup_cons_iff in H as [? H] end. cbn [In] in *.
  assert (E : ci = closed_as ci' /\ co = closed_as co').
  { unfold closed_as, ci', co'. split; [destruct (Z.eqb_spec ci (-1))|destruct (Z.eqb_spec co (-1))]; cbn; try assumption; match goal with |- _ = if ?a <? 0 then _ else _ => destruct (Z.ltb_spec a 0) end; intuition lia. }
  assert (S : tls_setup 0 1 ci' co' self).
  { unfold ci', co'. split; [|split; [lia|split; [lia|split; [lia|]]]].
    - destruct (Z.eqb_spec ci (-1)), (Z.eqb_spec co (-1)); repeat (apply NoDup_cons; [cbn [In]; intuition lia|]); apply NoDup_nil.
    - destruct (Z.eqb_spec ci (-1)), (Z.eqb_spec co (-1)); intuition lia. }
  destruct E as [E1 E2]. rewrite E1, E2 in RU. exact (proj1 (C60_handing _ _ _ _ _ _ _ _ _ _ _ _ S _ _ RU L)).
Qed.
Lemma relay_safe : forall n, safe (relay fuel cmd n self (mksess 0 1 (toc_w p) (fromc_r p) (fromctl_r p) (toctl_w p) empty empty) (finish fuel child key fk tk)).
Proof.
  intros n. unfold relay. cbv zeta. do 2 tot.
  assert (P2 : forall ci co b1 b2 d, (ci = toc_w p \/ ci = -1) -> (co = fromc_r p \/ co = -1) -> safe (_ <~ init_tls (settings cmd) n ;;
    '(r, t) <~ tls_phase (timeout cmd) 1 self uc fuel (mkts (mksess 0 1 ci co (-1) (-1) b1 b2) false d) ;; if r =? 0 then finish fuel child key fk tk (fds t) else Ret (Exit r))).
  { intros ci co b1 b2 d HC HO. apply safe_then.
    - unfold init_tls. destruct OID as (oid & ->). cbn [lift pbind]. apply safe_total. unfold tls_profile, client_certificates, br, randombytes. repeat total1.
    - intros _. apply safe_then; [apply phase_safe; auto|]. intros [r t]. destruct (_ =? _); [apply finish_safe|apply safe_ret]. }
  destruct (delayed (settings cmd)) eqn:D.
  - apply safe_then.
    + unfold report_user. cbn [childin]. rewrite (eq_refl : str_len [0] = Ok 0). cbn [lift pbind]. apply safe_then; [apply (pipe_write_safe fuel (toc_w p) [0] []); reflexivity|]. intros [|e]; apply safe_ret.
    + intros [|]; [apply safe_ret|]. unfold sigaction. apply safe_sys. intros a. destruct (_ =? _); [apply safe_ret|]. tot.
      assert (CW : forall tr o, runs (cleartext (timeout cmd) 1 self fuel (mksess 0 1 (toc_w p) (fromc_r p) (fromctl_r p) (toctl_w p) empty empty)) tr o -> legal tr ->
        o <> Wrong /\ (forall r, o = Fin r -> cstop 0 1 (toc_w p) (fromc_r p) (fromctl_r p) (toctl_w p) self tr (fst r) (snd r))).
      { intros tr o RU L. unfold empty in RU. assert (M8 : len (repeat 0 (Z.to_nat 8192)) = 8192) by (unfold len; rewrite repeat_length; reflexivity). pose proof (wp_run _ _ _ _ (wp_cleartext (timeout cmd) 1 0 1 (toc_w p) (fromc_r p) (fromctl_r p) (toctl_w p) self SETUP fuel _ _ 0 0 M8 M8) _ _ RU L) as (W & _ & F). auto. }
      apply safe_bind.
      * intros tr o RU L _. apply (CW _ _ RU L).
      * intros [r s] t RU L. destruct (Z.eqb_spec r 0) as [|NZ]; [apply finish_safe|]. tot. destruct (CW _ _ RU L) as [_ F]. destruct (F _ eq_refl) as (b1 & b2 & S & [(_ & T & _)|(X & _)]); [|contradiction]. cbn [snd] in S. subst s.
        destruct T as (_ & _ & _ & N1 & N2 & N3 & N4). apply closedb_iff in N3, N4. unfold here. rewrite (cur_is 0), (cur_is 1) by assumption. unfold cur. rewrite N3, N4.
        clear N3 N4 F RU. apply P2; match goal with |- context [closedb ?f t] => destruct (closedb f t) end; auto.
  - apply safe_bind; [apply safe_total, shut_r_total|]. intros v1 t1 R1 _. apply safe_bind; [apply safe_total, shut_w_total|]. intros v2 t2 R2 _.
    assert (v1 = -1) by (symmetry; eapply shut_r_gives; eauto). assert (v2 = -1) by (symmetry; eapply shut_w_gives; eauto). subst v1 v2.
    unfold sigaction. apply safe_sys. intros a. destruct (_ =? _); [apply safe_ret|]. unfold set_childack, set_childctl. cbn [peerin peerout childin childout childctl childack toc ton]. apply P2; auto.
Qed.
Lemma tell_safe : forall i k, sized i -> safe k -> safe (tell fuel (toc_w p) i k).
Proof.
  intros i k (S1 & S2 & S3 & S4) K. unfold tell.
  assert (N : forall m n k, length m = n -> (n <= 16)%nat -> safe k -> safe (need (pipe_write fuel (toc_w p) m (Z.of_nat n)) k)).
  { intros m n k0 <- LE KK. apply need_safe; [|exact KK]. rewrite <- (app_nil_r m) at 1. change (Z.of_nat (length m)) with (len m). apply pipe_write_safe. unfold len, two63. lia. }
  apply (N _ 16%nat); [exact S1|lia|]. apply (N _ 2%nat); [exact S2|lia|]. apply (N _ 16%nat); [exact S3|lia|]. apply (N _ 2%nat); [exact S4|lia|]. exact K.
Qed.
Lemma info_safe : forall pp k, (forall i, sized i -> safe (k i)) -> safe (peer_info I fuel env pp k).
Proof.
  intros [] k K; unfold peer_info.
  - apply safe_bind; [intros tr o RU L _ ->; destruct (get_v1_ok _ _ _ _ _ _ OK RU L) as (_ & _ & [])|].
    intros [r e] t RU L. destruct (Z.eqb_spec r 0); [apply safe_ret|]. apply K. destruct (get_v1_ok _ _ _ _ _ _ OK RU L) as (_ & _ & [(_ & u & _ & _ & PL)|(X & _)]); [eapply pp_sized; eauto|contradiction].
  - apply safe_bind; [|intros i t RU L; apply K; eapply connection_ok; eauto].
    unfold connection. destruct (fromenv_ok I env zero_info ENV) as [(j & _ & ->)|(j & _ & ->)]; cbn [lift pbind]; apply safe_total; unfold socket_name; repeat total1.
Qed.
(** no read from [fd] *)
Definition noread (fd : Z) (c : sys) : Prop := match c with Read f _ => f <> fd | _ => True end.
Lemma noread_got : forall fd t, Forall (fun e => noread fd (fst e)) t -> got fd t = [].
Proof. intros fd t F. induction F as [|[c a] t S F IH]; [reflexivity|]. destruct c; cbn [got]; auto. cbn [fst noread] in S. destruct (Z.eqb_spec fd0 fd); [contradiction|exact IH]. Qed.
(** [p] without undefined behaviour, except after reading the most negative length from [fk] *)
Definition but (q : prog ending) : Prop := forall tr o, runs q tr o -> legal tr -> pids tr -> o = Wrong -> got fk tr = le 8 (2 ^ 63).
Lemma but_skip : forall S (q : prog S) f, safe q -> calls (noread fk) q -> (forall x, but (f x)) -> but (pbind q f).
Proof.
  intros S q f Q C F tr o RU L D E. apply runs_bind in RU as [(a & t1 & t2 & -> & R1 & R2)|[[R1 ->]|[R1 ->]]]; [|destruct (Q _ _ R1 L D eq_refl)|discriminate].
  apply legal_app in L as [L1 L2]. apply pids_app in D as [D1 D2]. rewrite got_app, (noread_got _ _ (C _ _ R1)). exact (F a _ _ R2 L2 D2 E).
Qed.
Lemma but_safe : forall q, safe q -> but q.
Proof. intros q Q tr o RU L D E. destruct (Q _ _ RU L D E). Qed.
Lemma jailed_safe : forall d acc, points d (jaildir (settings cmd)) -> maybe acc (jailaccount (settings cmd)) ->
  (forall a, anchorfn (cfg (settings cmd)) = Some a -> exists w, points w a /\ len w < 2 ^ 62) ->
  but (jailed_main I fuel env nojail cmd p child key fk tk self) /\ (anchorfn (cfg (settings cmd)) = None -> safe (jailed_main I fuel env nojail cmd p child key fk tk self)).
Proof.
  intros d acc PD PA AN. unfold jailed_main. cbv zeta. rewrite (cstr_points _ _ PD), (cstr_opt_maybe _ _ PA). cbn [lift pbind].
  set (rest := fun talen => peer_info I fuel env (ppin (settings cmd)) _).
  assert (RS : forall n, safe (rest n)) by (intros n; apply info_safe; intros i SI; apply tell_safe; [exact SI|apply relay_safe]). clearbody rest.
  assert (J : safe (if nojail then Ret (0, None) else jail acc (Some d) true)) by (destruct nojail; [apply safe_ret|apply jail_safe]).
  split.
  - apply but_skip; [exact J| |].
    + destruct nojail; [repeat calls1|]. unfold jail, jail_main, must, mustbe, when, jail_limit_memory. destruct acc; repeat (calls1 || (progress cbv zeta)); exact Logic.I.
    + intros r. destruct (_ =? _); [apply but_safe, safe_ret|]. unfold anchor. destruct (anchorfn _) as [a|]; [|apply but_safe, RS].
      destruct (AN a eq_refl) as (w & (NW & u & ->) & LW). destruct (fixpath_ok w u NW) as (jk & LJ & E). rewrite E. cbn [lift pbind].
      assert (NS : nonul (sanitized w)) by (apply sanitized_nonul; exact NW).
      rewrite (str_len_ok _ _ NS). cbn [lift pbind]. unfold need. apply but_skip.
      * replace (sanitized w ++ 0 :: jk ++ u) with ((sanitized w ++ [0]) ++ (jk ++ u)) by (rewrite <- app_assoc; reflexivity).
        replace (len (sanitized w) + 1) with (len (sanitized w ++ [0])) by (rewrite len_app; reflexivity). apply pipe_write_safe. pose proof (sanitized_len w). rewrite len_app. unfold len, two63 in *. cbn [length]. lia.
      * eapply calls_weak; [apply pipe_write_calls|]. intros c [(b & ->)| ->]; exact Logic.I.
      * intros [|e]; [|apply but_safe, safe_ret]. intros tr o RU L D X. apply runs_bind in RU as [(x & t1 & t2 & -> & R1 & R2)|[[R1 ->]|[R1 ->]]]; [exfalso| |discriminate X].
        -- apply legal_app in L as [L1 L2]. apply pids_app in D as [D1 D2]. revert X. eapply (fun H : safe _ => H _ _ R2 L2 D2). destruct x as [e|pem]; [apply safe_ret|]. apply safe_sys. intros a. destruct (_ =? _); [apply safe_ret|apply RS].
        -- apply (pipe_readalloc_ok _ _ _ _ R1 L).
  - intros NA. rewrite NA. cbn [anchor]. apply safe_then; [exact J|]. intros r. destruct (_ =? _); [apply safe_ret|apply RS].
Qed.
End Wrapper.
End Processes.
