(** The processes of the main program: their ends, and the jail before the first transfer. *)
From Verif.Model Require Import Base Sys Io Str Inet Config Parsenum Fdio Buffer Relay Session Tlsphase Jail Pem Scalar Framed Keyjail Proxy Conninfo Options Main.
From Verif.Spec Require Import Flow Restrict Process.
From Verif.Proof Require Import Tac SysP CallsP SafeP MainCallsP.
From Verif.Props Require Import PropJail.

Lemma forks_app : forall a b, forks (a ++ b) = forks a ++ forks b.
Proof. intros. unfold forks. rewrite filter_app, map_app. reflexivity. Qed.
Lemma waits_app : forall a b, waits (a ++ b) = waits a ++ waits b.
Proof. intros. unfold waits. apply filter_app. Qed.
Lemma plain_quiet : forall e, plain (fst e) -> forks [e] = [] /\ waits [e] = [].
Proof.
  intros [c a] P. unfold forks, waits. cbn [filter]. unfold calling. cbn [fst] in *. destruct c; auto. destruct P as [P1 P2].
  destruct (list_eq_dec Z.eq_dec name (bs "fork")); [contradiction|]. destruct (list_eq_dec Z.eq_dec name (bs "waitpid")); [contradiction|]. auto.
Qed.
(** processes started so far, none waited for *)
Definition live (l : list Z) (t : trace) : Prop := forks t = l /\ waits t = [].
Lemma live_plain : forall l t e, live l t -> plain (fst e) -> live l (t ++ [e]).
Proof. intros l t e [F W] P. destruct (plain_quiet e P) as [P1 P2]. split; [rewrite forks_app, P1, app_nil_r; auto|rewrite waits_app, P2, app_nil_r; auto]. Qed.

Lemma restricted_app : forall acc dir lim t u, restricted acc dir lim t -> restricted acc dir lim (t ++ u).
Proof.
  intros acc dir lim t u (b & e & n & ui & gi & s & t1 & t2 & af & -> & H). exists b, e, n, ui, gi, s, t1, t2, (af ++ u).
  split; [rewrite <- !app_assoc; reflexivity|exact H].
Qed.
Lemma jail_restricted : forall acc dir lim h tr x, runs (jail acc dir lim) tr (Fin x) -> pids tr -> fst x <> -1 -> restricted acc dir lim (h ++ tr).
Proof.
  intros acc dir lim h tr [r m] R P N. cbn [fst] in N. destruct (Z.eq_dec r 0) as [->|NZ].
  - destruct (C36_success _ _ _ _ _ R P) as (e & n & u & g & t & t1 & t2 & -> & I & D & C1 & C2 & _).
    exists h, e, n, u, g, t, t1, t2, []. split; [rewrite app_nil_r; reflexivity|]. split; [|auto]. inversion I; subst; [apply from_pid|eapply from_name]; eauto.
  - destruct (C36_failure _ _ _ _ _ _ R P NZ) as [E _]. contradiction.
Qed.

(** The kernel's answers for the original process: fork does not answer 0, process ids are not negative. *)
Definition answers (t : trace) (e : event) : Prop :=
  (calling (bs "fork") e = true -> ret (snd e) <> 0) /\ (fst e = Other (bs "getpid") [] [] -> 0 <= ret (snd e)).
Lemma answers_pids : forall h tr, holds answers h tr -> pids tr.
Proof. intros h tr H a I. apply in_split in I as (t1 & t2 & E). destruct (H _ _ _ E) as [_ P]. apply P. reflexivity. Qed.

Section Wrapper.
Variable I : inet.
Variable stream : list Z -> list Z -> nat -> Z.
Variable fuel : nat.
Variables junk portbuf line0 key0 : list Z.
Variable env : environment.
Variable nojail : bool.
Variables (acc : option (list Z)) (dir : list Z).

Definition confined (t : trace) : Prop := nojail = true \/ restricted acc (Some dir) true t.
Definition jail_first (t : trace) (e : event) : Prop := transfers e -> confined t.
Definition after (l : list Z) (t : trace) : Prop := live l t /\ confined t.
Lemma confined_app : forall t u, confined t -> confined (t ++ u).
Proof. intros t u [H|H]; [left; auto|right; apply restricted_app; auto]. Qed.

Lemma still_ok : forall t c a, still c -> jail_first t (c, a).
Proof. intros t c a S T. unfold transfers in T. cbn [fst] in T. destruct c; contradiction. Qed.
Lemma part_before : forall R (p : prog R) l h, calls local p -> live l h -> sp answers jail_first h p (fun t _ => live l t).
Proof.
  intros R p l h C L. apply (sp_quiet _ _ _ local); auto. intros t [c a] LV [P S] _. split; [apply still_ok; auto|apply live_plain; auto].
Qed.
Lemma part_after : forall R (p : prog R) V l h, calls plain p -> gives V p -> after l h -> sp answers jail_first h p (fun t r => after l t /\ V r).
Proof.
  intros R p V l h C G L. apply (sp_part _ _ _ plain); auto. intros t e [LV CO] P _. split; [intros _; exact CO|].
  split; [apply live_plain; auto|apply confined_app; auto].
Qed.
Definition any {R} (r : R) : Prop := True.
Lemma gives_any : forall R (p : prog R), gives any p.
Proof. intros R p tr r _. exact Logic.I. Qed.

(** how the wrapper may end *)
Definition ends (pp : bool) (t : trace) (x : ending) : Prop :=
  match x with
  | Exec _ => False
  | Exit c =>
    (c = 111 /\ waits t = []) \/
    (c = 100 /\ pp = true /\ waits t = [] /\ exists child key, forks t = [child; key]) \/
    (exists child key t0 a, forks t = [child; key] /\ t = t0 ++ [(Other (bs "waitpid") [child] [], a)] /\ reported_status child a c)
  end.
Lemma ends_111 : forall pp l t, live l t -> ends pp t (Exit 111).
Proof. intros pp l t [_ W]. left. auto. Qed.
Lemma bind_after : forall R S (p : prog R) (k : R -> prog S) V l h Q, calls plain p -> gives V p -> after l h ->
  (forall t r, after l t -> V r -> sp answers jail_first t (k r) Q) -> sp answers jail_first h (pbind p k) Q.
Proof. intros R S p k V l h Q C G A K. eapply sp_bind; [apply (part_after _ p V l h C G A)|]. intros t r [H1 H2]. auto. Qed.
Lemma bind_before : forall R S (p : prog R) (k : R -> prog S) l h Q, calls local p -> live l h ->
  (forall t r, live l t -> sp answers jail_first t (k r) Q) -> sp answers jail_first h (pbind p k) Q.
Proof. intros R S p k l h Q C A K. eapply sp_bind; [apply (part_before _ p l h C A)|]. intros t r H1. auto. Qed.

(** ** after the relay *)
Lemma do_plain : forall c, plain c -> calls plain (do c).
Proof. intros c H. unfold do. steps. auto. Qed.
Lemma do_local : forall c, local c -> calls local (do c).
Proof. intros c H. unfold do. steps. auto. Qed.
(** waitpid may be called again; [k] gets the last answer *)
Lemma wait_end : forall n pid h (k : ans -> prog ending) Q, confined h ->
  (forall t a u, t = h ++ u ++ [(Other (bs "waitpid") [pid] [], a)] -> forks t = forks h -> confined t -> sp answers jail_first t (k a) Q) ->
  sp answers jail_first h (pbind (wait n pid) k) Q.
Proof.
  induction n as [|n IH]; intros pid h k Q C K; cbn [wait pbind sys1]; [apply sp_halt|].
  apply sp_do. intros a _. split; [apply still_ok; exact Logic.I|].
  assert (F : forks (h ++ [(Other (bs "waitpid") [pid] [], a)]) = forks h) by (rewrite forks_app; cbn; apply app_nil_r).
  destruct (_ && _).
  - apply IH; [apply confined_app; auto|]. intros t b u -> F2 C2. eapply K; [rewrite <- app_assoc; cbn [app]; rewrite app_comm_cons; reflexivity|congruence|exact C2].
  - cbn [pbind]. eapply (K _ a []); [reflexivity|exact F|apply confined_app; auto].
Qed.
Definition forked (l : list Z) (t : trace) : Prop := forks t = l /\ confined t.
Lemma bind_forked : forall R S (p : prog R) (k : R -> prog S) l h Q, calls plain p -> forked l h ->
  (forall t r, forked l t -> sp answers jail_first t (k r) Q) -> sp answers jail_first h (pbind p k) Q.
Proof.
  intros R S p k l h Q C A K. eapply sp_bind; [apply (sp_quiet _ _ _ plain (forked l) h p C A)|].
  - intros t e [F CO] P _. split; [intros _; exact CO|]. destruct (plain_quiet e P) as [P1 _]. split; [rewrite forks_app, P1, app_nil_r; auto|apply confined_app; auto].
  - intros t r H1. auto.
Qed.
Lemma low_bits : forall w, (Z.land w 127 =? 0) = (w mod 128 =? 0).
Proof. intros. change 127 with (Z.ones 7). rewrite Z.land_ones by lia. reflexivity. Qed.
Lemma code_bits : forall w, Z.land (Z.shiftr w 8) 255 = (w / 256) mod 256.
Proof. intros. change 255 with (Z.ones 8). rewrite Z.land_ones, Z.shiftr_div_pow2 by lia. reflexivity. Qed.
Ltac plains := auto with plain; try (apply do_plain; here); try (apply weak_plain; apply blocking_local).
Lemma finish_sp : forall pp child key fk tk s h, after [child; key] h ->
  sp answers jail_first h (finish fuel child key fk tk s) (ends pp).
Proof.
  intros pp child key fk tk s h A. assert (F : forked [child; key] h) by (destruct A as [[A1 A2] A3]; split; auto). clear A. unfold finish, signal.
  do 6 (eapply bind_forked; [plains|exact F|]; clear h F; intros h _ F). destruct F as [F C].
  apply wait_end; auto. intros t a u _ F2 C2. assert (FK : forked [child; key] t) by (split; congruence). clear dependent h. clear u a C2.
  do 4 (eapply bind_forked; [plains|exact FK|]; clear t FK; intros t _ FK). destruct FK as [F C].
  apply wait_end; auto. intros t1 a u E F1 _. apply sp_ret. right. right. exists child, key, (t ++ u), a. split; [congruence|]. split; [rewrite E, <- app_assoc; reflexivity|].
  destruct (Z.eqb_spec (ret a) child) as [R|R]; cbn [negb]; [|apply not_waited; auto]. unfold exited, exitstatus. rewrite low_bits, code_bits.
  destruct (Z.eqb_spec (nth 0 (data a) 0 mod 128) 0); [eapply exited_with|eapply killed]; eauto.
Qed.

(** ** between the jail and the relay *)
Lemma need_sp : forall pp l p k h, calls plain p -> after l h -> (forall t, after l t -> sp answers jail_first t k (ends pp)) ->
  sp answers jail_first h (need p k) (ends pp).
Proof.
  intros pp l p k h C A K. unfold need. eapply bind_after; [exact C|apply gives_any|exact A|]. intros t [|e] T _; [auto|]. apply sp_ret. eapply ends_111. exact (proj1 T).
Qed.
Lemma tls_gives : forall t f self u n s, gives (fun x => fst x = 0 \/ fst x = 111) (tls_phase t f self u n s).
Proof.
  intros. unfold tls_phase. apply gives_iter. clear s. intros s.
  unfold tls_body, tls_tochild, tls_topeer, tls_frompeer, tls_fromchild, tls_signal. repeat gives1; cbn [fst]; auto.
Qed.
Lemma relay_sp : forall pp cmd n self s fin child key h, after [child; key] h ->
  (forall t s, after [child; key] t -> sp answers jail_first t (fin s) (ends pp)) ->
  sp answers jail_first h (relay fuel cmd n self s fin) (ends pp).
Proof.
  intros pp cmd n self s fin child key h A FIN. unfold relay.
  do 2 (eapply bind_after; [plains|apply gives_any|exact A|]; clear h A; intros h _ A _).
  assert (K : forall t s, after [child; key] t -> sp answers jail_first t
    (sigaction SIGALRM ((if delayed (settings cmd)
      then _ <~ alarm (timeout cmd) ;; '(r, s) <~ cleartext (timeout cmd) 1 self fuel s ;; if r =? 0 then fin s else _ <~ alarm (hstimeout cmd) ;;
           (_ <~ init_tls (settings cmd) n ;; '(r, t) <~ tls_phase (timeout cmd) 1 self (match certuser (settings cmd) with Some _ => true | None => false end) fuel (mkts s false (delayed (settings cmd))) ;;
            if r =? 0 then fin (fds t) else Ret (Exit r))
      else _ <~ init_tls (settings cmd) n ;; '(r, t) <~ tls_phase (timeout cmd) 1 self (match certuser (settings cmd) with Some _ => true | None => false end) fuel (mkts s false (delayed (settings cmd))) ;;
            if r =? 0 then fin (fds t) else Ret (Exit r)))) (ends pp)).
  { clear h A s. intros h s A. unfold sigaction.
    assert (T : forall t s, after [child; key] t -> sp answers jail_first t (_ <~ init_tls (settings cmd) n ;; '(r, t) <~ tls_phase (timeout cmd) 1 self (match certuser (settings cmd) with Some _ => true | None => false end) fuel (mkts s false (delayed (settings cmd))) ;;
            if r =? 0 then fin (fds t) else Ret (Exit r)) (ends pp)).
    { clear h A s. intros h s A. eapply bind_after; [plains|apply gives_any|exact A|]. clear h A. intros h _ A _.
      eapply bind_after; [apply tls_phase_plain|apply tls_gives|exact A|]. clear h A. intros h [r ts] A V. cbn [fst] in V. destruct (Z.eqb_spec r 0); [apply FIN; auto|].
      destruct V as [V|V]; [contradiction|]. subst r. apply sp_ret. eapply ends_111. exact (proj1 A). }
    eapply bind_after; [apply calls_sys1; here|apply gives_any|exact A|]. clear h A. intros h a A _. destruct (ret a =? -1); [apply sp_ret; eapply ends_111; exact (proj1 A)|].
    destruct (delayed (settings cmd)); [|apply T; auto].
    eapply bind_after; [plains|apply gives_any|exact A|]. clear h A. intros h _ A _.
    eapply bind_after; [apply cleartext_plain|apply gives_any|exact A|]. clear h A. intros h [r s'] A _. destruct (r =? 0); [apply FIN; auto|].
    eapply bind_after; [plains|apply gives_any|exact A|]. clear h A. intros h _ A _. apply T. auto. }
  destruct (delayed (settings cmd)) eqn:D.
  - eapply bind_after; [plains|apply gives_any|exact A|]. clear h A. intros h bad A _. destruct bad; [apply sp_ret; eapply ends_111; exact (proj1 A)|]. apply K. auto.
  - eapply bind_after; [plains|apply gives_any|exact A|]. clear h A. intros h v A _. eapply bind_after; [plains|apply gives_any|exact A|]. clear h A. intros h w A _. apply K. auto.
Qed.
Lemma anchor_sp : forall pp fn fk tk k l h, after l h -> (forall t n, after l t -> sp answers jail_first t (k n) (ends pp)) ->
  sp answers jail_first h (anchor fuel fn fk tk k) (ends pp).
Proof.
  intros pp fn fk tk k l h A K. unfold anchor. destruct fn as [fn|]; [|auto].
  eapply sp_bind; [apply (sp_lift _ _ _ _ _ (fun t _ => t = h)); auto|]. intros t x ->.
  eapply sp_bind; [apply (sp_lift _ _ _ _ _ (fun t _ => t = h)); auto|]. intros t n ->.
  eapply need_sp; [plains|exact A|]. clear h A. intros h A.
  eapply bind_after; [plains|apply gives_any|exact A|]. clear h A. intros h [e|pem] A _; [apply sp_ret; eapply ends_111; exact (proj1 A)|].
  eapply bind_after; [apply calls_sys1; here|apply gives_any|exact A|]. clear h A. intros h a A _. destruct (ret a =? 0); [apply sp_ret; eapply ends_111; exact (proj1 A)|auto].
Qed.
Lemma tell_sp : forall pp fd i k l h, after l h -> (forall t, after l t -> sp answers jail_first t k (ends pp)) ->
  sp answers jail_first h (tell fuel fd i k) (ends pp).
Proof. intros pp fd i k l h A K. unfold tell. do 4 (eapply need_sp; [plains|exact A|]; clear h A; intros h A). auto. Qed.
Lemma peer_sp : forall pp k child key h, after [child; key] h -> (forall t i, after [child; key] t -> sp answers jail_first t (k i) (ends pp)) ->
  sp answers jail_first h (peer_info I fuel env pp k) (ends pp).
Proof.
  intros pp k child key h A K. unfold peer_info. destruct pp.
  - eapply bind_after; [apply proxy_plain|apply gives_any|exact A|]. clear h A. intros h [r e] A _. destruct (r =? 0); [|auto].
    apply sp_ret. right. left. destruct A as [[A1 A2] _]. eauto 10.
  - eapply bind_after; [apply connection_plain|apply gives_any|exact A|]. auto.
Qed.
Lemma jailed_sp : forall cmd p child key fk tk self h, live [child; key] h ->
  cstr_opt (jailaccount (settings cmd)) = Ok acc -> cstr (jaildir (settings cmd)) = Ok dir ->
  sp answers jail_first h (jailed_main I fuel env nojail cmd p child key fk tk self) (ends (ppin (settings cmd))).
Proof.
  intros cmd p child key fk tk self h L EA ED. unfold jailed_main. rewrite EA, ED. cbn [lift pbind].
  assert (K : forall t, after [child; key] t -> sp answers jail_first t
    (anchor fuel (anchorfn (cfg (settings cmd))) fk tk (fun n => peer_info I fuel env (ppin (settings cmd)) (fun i =>
      let s := mksess 0 1 (toc_w p) (fromc_r p) (fromctl_r p) (toctl_w p) empty empty in
      tell fuel (childin s) i (relay fuel cmd n self s (finish fuel child key fk tk))))) (ends (ppin (settings cmd)))).
  { clear h L. intros h A. eapply anchor_sp; [exact A|]. clear h A. intros h n A. eapply peer_sp; [exact A|]. clear h A. intros h i A. cbv zeta.
    eapply tell_sp; [exact A|]. clear h A. intros h A. eapply relay_sp; [exact A|]. clear h A. intros h s A. apply finish_sp. auto. }
  cbv zeta in *. destruct nojail eqn:NJ.
  - cbn [pbind]. apply K. split; auto. left. exact NJ.
  - eapply (sp_bind _ _ _ _ _ _ _ (fun t x => live [child; key] t /\ (fst x <> -1 -> restricted acc (Some dir) true t))).
    + intros tr o R H. destruct (part_before _ _ _ h (jail_local acc (Some dir) true) L _ _ R H) as [H1 H2]. split; [exact H1|]. intros r ->. split; [apply (H2 r); reflexivity|].
      intros N. eapply jail_restricted; [exact R|eapply answers_pids; exact H|exact N].
    + intros t x [L1 L2]. destruct (Z.eqb_spec (fst x) (-1)); [apply sp_ret; eapply ends_111; exact L1|]. apply K. split; auto. right. auto.
Qed.

(** ** before the jail *)
Lemma pipe_sp : forall pp l h k, live l h -> (forall t r w, live l t -> sp answers jail_first t (k r w) (ends pp)) ->
  sp answers jail_first h (open_pipe k) (ends pp).
Proof.
  intros pp l h k L K. unfold open_pipe. eapply bind_before; [apply calls_sys1; here|exact L|]. clear h L. intros h a L.
  destruct (ret a =? -1); [apply sp_ret; eapply ends_111; exact L|].
  do 4 (eapply bind_before; [(apply do_local; here) || apply blocking_local|exact L|]; clear h L; intros h _ L). auto.
Qed.
Lemma fork_live : forall l h r, live l h -> live (l ++ [ret r]) (h ++ [(Other (bs "fork") [] [], r)]).
Proof. intros l h r [F W]. split; [rewrite forks_app, F; reflexivity|rewrite waits_app, W; reflexivity]. Qed.
Lemma parent_sp : forall cmd p child h, live [child] h ->
  cstr_opt (jailaccount (settings cmd)) = Ok acc -> cstr (jaildir (settings cmd)) = Ok dir ->
  sp answers jail_first h (parent_main I stream fuel line0 key0 env nojail cmd p child) (ends (ppin (settings cmd))).
Proof.
  intros cmd p child h L EA ED. unfold parent_main.
  do 9 (eapply bind_before; [(apply do_local; here) || apply blocking_local || apply random_local|exact L|]; clear h L; intros h ? L).
  eapply pipe_sp; [exact L|]. clear h L. intros h fk_r fk_w L. eapply pipe_sp; [exact L|]. clear h L. intros h tk_r tk_w L.
  unfold sys1 at 1. cbn [pbind]. apply sp_do. intros f [NZ _]. split; [apply still_ok; exact Logic.I|]. specialize (NZ eq_refl). cbn [snd] in NZ.
  pose proof (fork_live _ _ f L) as L2. cbn [app] in L2. clear L. generalize dependent (h ++ [(Other (bs "fork") [] [], f)]). clear h. intros h L.
  destruct (ret f =? -1); [apply sp_ret; eapply ends_111; exact L|]. destruct (Z.eqb_spec (ret f) 0); [contradiction|].
  do 4 (eapply bind_before; [(apply do_local; here) || apply blocking_local|exact L|]; clear h L; intros h ? L).
  eapply pipe_sp; [exact L|]. clear h L. intros h s_r s_w L. apply jailed_sp; auto.
Qed.
Lemma devnull_sp : forall pp l n k h, live l h -> (forall t, live l t -> sp answers jail_first t k (ends pp)) ->
  sp answers jail_first h (devnull n k) (ends pp).
Proof.
  intros pp l n. induction n as [|n IH]; intros k h L K; cbn [devnull]; [apply sp_halt|].
  eapply bind_before; [apply calls_sys1; here|exact L|]. clear h L. intros h a L. destruct (ret a =? -1); [apply sp_ret; eapply ends_111; exact L|].
  destruct (6 <? ret a); [|auto]. eapply bind_before; [apply do_local; here|exact L|]. auto.
Qed.
Lemma start_sp : forall cmd h, live [] h ->
  cstr_opt (jailaccount (settings cmd)) = Ok acc -> cstr (jaildir (settings cmd)) = Ok dir ->
  sp answers jail_first h (start_child I stream fuel junk portbuf line0 key0 env nojail cmd) (ends (ppin (settings cmd))).
Proof.
  intros cmd h L EA ED. unfold start_child. eapply bind_before; [unfold alarm; steps|exact L|]. clear h L. intros h _ L.
  match goal with |- sp _ _ _ (_ ?k) _ => assert (K : forall t, live [] t -> sp answers jail_first t k (ends (ppin (settings cmd)))) end.
  { clear h L. intros h L. eapply pipe_sp; [exact L|]. clear h L. intros h t0 t1 L. eapply pipe_sp; [exact L|]. clear h L. intros h f0 f1 L.
    eapply pipe_sp; [exact L|]. clear h L. intros h c0 c1 L. eapply pipe_sp; [exact L|]. clear h L. intros h k0 k1 L. cbv zeta.
    unfold sys1 at 1. cbn [pbind]. apply sp_do. intros f [NZ _]. split; [apply still_ok; exact Logic.I|]. specialize (NZ eq_refl). cbn [snd] in NZ.
    pose proof (fork_live _ _ f L) as L2. cbn [app] in L2. clear L. generalize dependent (h ++ [(Other (bs "fork") [] [], f)]). clear h. intros h L.
    destruct (ret f =? -1); [apply sp_ret; eapply ends_111; exact L|]. destruct (Z.eqb_spec (ret f) 0); [contradiction|]. apply parent_sp; auto. }
  destruct (delayed (settings cmd)); [|apply K; auto]. unfold reserve.
  eapply bind_before; [apply calls_sys1; here|exact L|]. clear h L. intros h a L. destruct (negb _); [apply sp_ret; eapply ends_111; exact L|].
  eapply bind_before; [apply calls_sys1; here|exact L|]. clear h L. intros h b L. destruct (negb _); [apply sp_ret; eapply ends_111; exact L|].
  eapply devnull_sp; [exact L|]. exact K.
Qed.
End Wrapper.
