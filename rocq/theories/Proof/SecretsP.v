(** The secrets in the memory of the key process. *)
From Verif.Model Require Import Base Sys Io Framed Str Buffer Pem Jail Scalar Keyjail.
From Verif.Spec Require Import Flow Secrets.
From Verif.Proof Require Import Tac SysP CallsP SafeP.
From Coq Require Import Bool.

Ltac nonamed := repeat (refine (conj _ _); [intros X; discriminate X|]); intros [X|[X|X]]; discriminate X.
Definition any (t : trace) (e : event) : Prop := True.
Lemma kept_snoc : forall t e, kept (t ++ [e]) = note (kept t) e.
Proof. intros. unfold kept. rewrite fold_left_app. reflexivity. Qed.

(** Talking, and calls that mean nothing here. *)
Definition talk (c : sys) : Prop := match c with Read _ _ | Write _ _ | Poll _ _ => True | _ => False end.
Definition unmarked (n : list Z) : bool :=
  negb (eqs n (bs "mulgen") || eqs n (bs "mul") || eqs n (bs "seccrt_parse") || eqs n (bs "derive") || eqs n (bs "alloc_free") ||
        eqs n (bs "randombytes") || eqs n (bs "do_sign") || eqs n (bs "prf") || eqs n (bs "encrypt") || eqs n (bs "decrypt")).
Definition plain (c : sys) : Prop := match c with Other n _ _ => unmarked n = true | _ => ~ talk c end.
(** Calls that keep [none] and are in order there. *)
Definition mild (c : sys) : Prop := match c with
  | Other n _ _ => unmarked n = true \/ n = bs "alloc_free" \/ n = bs "randombytes"
  | _ => True
  end.
Definition mute (s : secrets) : Prop := private s = false /\ file s = false /\ filekey s = false /\ shared s = false.

Lemma eqs_no : forall n m, eqs n m = false -> n <> m.
Proof. intros n m E ->. unfold eqs in E. destruct (list_eq_dec Z.eq_dec m m); [discriminate|contradiction]. Qed.
Lemma unmarked_note : forall n l d, unmarked n = true -> (forall s a, note s (Other n l d, a) = s) /\ (forall h a, discreet h (Other n l d, a)).
Proof.
  intros n l d U. unfold unmarked in U. apply negb_true_iff in U. repeat match goal with H : _ || _ = false |- _ => apply orb_false_iff in H as [? ?] end.
  split.
  - intros s a. unfold note. cbn [fst]. repeat match goal with H : eqs n _ = false |- _ => rewrite H; clear H end. reflexivity.
  - intros h a. unfold discreet. cbn [fst]. repeat match goal with H : eqs n _ = false |- _ => apply eqs_no in H end. repeat (refine (conj _ _); [intros ->; contradiction|]); intros [-> |[-> | ->]]; contradiction.
Qed.
Lemma plain_step : forall c, plain c -> (forall s a, note s (c, a) = s) /\ (forall h a, discreet h (c, a)).
Proof. intros c P. destruct c; try (exfalso; apply P; exact Logic.I); try (split; intros; [reflexivity|exact Logic.I]). apply unmarked_note. exact P. Qed.

Lemma talk_quiet : forall R (p : prog R) h s, mute s -> calls (fun c => talk c \/ plain c) p -> kept h = s -> sp any discreet h p (fun t _ => kept t = s).
Proof.
  intros R p h s M C H. apply (sp_quiet R any discreet (fun c => talk c \/ plain c) (fun t => kept t = s)); auto.
  intros t [c a] E [T|P] _; [|destruct (plain_step c P) as [P1 P2]; split; [apply P2|rewrite kept_snoc, P1; exact E]].
  destruct M as (M1 & M2 & M3 & M4). cbn [fst] in T. split; [|rewrite kept_snoc; destruct c; try contradiction; exact E].
  unfold discreet. cbn [fst]. rewrite E. destruct c; try contradiction; auto.
Qed.
Lemma mild_step : forall h c a, mild c -> kept h = none -> discreet h (c, a) /\ kept (h ++ [(c, a)]) = none.
Proof.
  intros h c a M E. rewrite kept_snoc, E. destruct c; try (split; [unfold discreet; cbn [fst]; rewrite ?E; repeat split|reflexivity]).
  destruct M as [U|[-> | ->]].
  - destruct (unmarked_note _ args data U) as [N D]. auto.
  - split; [unfold discreet; cbn [fst]; nonamed|].
    unfold note. cbn [fst]. change (eqs (bs "alloc_free") (bs "mulgen")) with false. change (eqs (bs "alloc_free") (bs "mul")) with false. change (eqs (bs "alloc_free") (bs "seccrt_parse")) with false. change (eqs (bs "alloc_free") (bs "derive")) with false.
    repeat match goal with |- context [eqs ?x ?y] => destruct (eqs x y) end; reflexivity.
  - split; [unfold discreet; cbn [fst]; nonamed|].
    unfold note. cbn [fst]. change (eqs (bs "randombytes") (bs "mulgen")) with false. change (eqs (bs "randombytes") (bs "mul")) with false. change (eqs (bs "randombytes") (bs "seccrt_parse")) with false.
    change (eqs (bs "randombytes") (bs "derive")) with false. change (eqs (bs "randombytes") (bs "alloc_free")) with false.
    repeat match goal with |- context [eqs ?x ?y] => destruct (eqs x y) end; reflexivity.
Qed.
Lemma mild_quiet : forall R (p : prog R) h, calls mild p -> kept h = none -> sp any discreet h p (fun t _ => kept t = none).
Proof. intros R p h C H. apply (sp_quiet R any discreet mild (fun t => kept t = none)); auto. intros t [c a] E M _. apply mild_step; auto. Qed.

(** The parts of the program. *)
Definition tp (c : sys) : Prop := talk c \/ plain c.
Ltac sq := repeat (calls1 || (progress cbv zeta)); try (right; (reflexivity || exact (fun x => x))); try (left; exact Logic.I).
Lemma readall_tp : forall f fd x n, calls tp (readall f fd x n).
Proof. induction f; intros; cbn [readall]; sq; auto. Qed.
Lemma writeall_tp : forall f fd x n, calls tp (writeall f fd x n).
Proof. induction f; intros; cbn [writeall]; sq; auto. Qed.
Lemma read_msg_tp : forall f fd r, calls tp (read_msg f fd r).
Proof. intros f fd []; cbn [read_msg]; unfold pipe_readall, pipe_readmax, pipe_readalloc; sq; apply readall_tp. Qed.
Lemma pipe_write_tp : forall f fd x n, calls tp (pipe_write f fd x n).
Proof. intros. unfold pipe_write. sq; apply writeall_tp. Qed.
Lemma jail_tp : forall a d l, calls tp (jail a d l).
Proof. intros. unfold jail, jail_main, must, mustbe, when, jail_limit_memory. destruct a, d, l; sq. Qed.
Lemma tp_mild : forall c, tp c -> mild c.
Proof. intros c [T|P]; destruct c; try contradiction; try exact Logic.I. left. exact P. Qed.
Ltac mq := repeat (calls1 || (progress cbv zeta)); try exact Logic.I; try (left; reflexivity); try (right; left; reflexivity); try (right; right; reflexivity).
Lemma free_mild : forall c, calls mild (tls_pem_free c).
Proof. intros. unfold tls_pem_free. mq. Qed.
Lemma rand_mild : forall n, calls mild (randombytes n).
Proof. intros. unfold randombytes. mq. Qed.
Lemma load_mild : forall stream fuel line0 fn key nonce c, calls mild (tls_pem_load stream fuel line0 fn key nonce c).
Proof.
  intros stream fuel line0 fn key nonce c. assert (PC : forall fd ok n c, calls mild (pem_cleanup fd ok n c)) by (intros; unfold pem_cleanup; mq; apply free_mild).
  unfold tls_pem_load, pem_alloc, pemparse, tls_pem_encrypt.
  repeat (match goal with |- calls _ (pem_cleanup _ _ _ _) => apply PC | |- calls _ (tls_pem_free _) => apply free_mild | |- calls _ (randombytes _) => apply rand_mild
          | |- calls _ (readall _ _ _ _) => eapply calls_weak; [apply readall_tp|apply tp_mild] | _ => calls1 || (progress cbv zeta) end); try exact Logic.I; try (left; reflexivity).
Qed.

(** The end: the last call overwrites the key of the file, and what is left. *)
Definition over (t : trace) : Prop :=
  (exists u a, t = u ++ [(Other (bs "randombytes") [32] [], a)]) /\ private (kept t) = false /\ file (kept t) = false /\ filekey (kept t) = false /\
  (derived (kept t) = true -> kept t = session_only).
Definition loose (s : secrets) : Prop := private s = false /\ file s = false /\ (derived s = true -> scalar s = false /\ shared s = false).
Lemma random_ok : forall h l d a, discreet h (Other (bs "randombytes") l d, a).
Proof. intros. unfold discreet. cbn [fst]. nonamed. Qed.
Lemma cleanup_sp : forall h s, loose s -> kept h = s -> sp any discreet h cleanup (fun t _ => over t).
Proof.
  intros h s (L1 & L2 & L3) E. unfold cleanup, randombytes. eapply sp_bind with (M := fun t _ => over t); [|intros t x H; apply sp_ret; exact H].
  apply sp_do. intros a _. split; [apply random_ok|]. apply sp_ret. split; [exists h, a; reflexivity|].
  rewrite kept_snoc, E. change (note s (Other (bs "randombytes") [Z.of_nat 32] [], a)) with (mksecrets (scalar s) (shared s) (private s) (file s) false (derived s)).
  cbn [private file filekey derived]. repeat split; auto. intros D. destruct (L3 D) as [A B]. rewrite A, B, L1, L2, D. reflexivity.
Qed.
Section Parts.
Variable stream : list Z -> list Z -> nat -> Z.
Variable fuel : nat.
Lemma request_sp : forall h s r k, mute s -> loose s -> kept h = s -> (forall t m, kept t = s -> sp any discreet t (k m) (fun t _ => over t)) ->
  sp any discreet h (request fuel r k) (fun t _ => over t).
Proof.
  intros h s r k M L E H. unfold request. eapply sp_bind; [apply (talk_quiet _ _ h s M); [apply read_msg_tp|exact E]|].
  intros t [m|] Ht; cbn beta in Ht; [apply H; exact Ht|apply (cleanup_sp t s); auto].
Qed.
Lemma reply_sp : forall h s x n k, mute s -> loose s -> kept h = s -> (forall t, kept t = s -> sp any discreet t k (fun t _ => over t)) ->
  sp any discreet h (reply fuel x n k) (fun t _ => over t).
Proof.
  intros h s x n k M L E H. unfold reply. eapply sp_bind; [apply (talk_quiet _ _ h s M); [apply pipe_write_tp|exact E]|].
  intros t [|e] Ht; cbn beta in Ht; [apply H; exact Ht|apply (cleanup_sp t s); auto].
Qed.
Lemma so_mute : mute session_only. Proof. repeat split. Qed.
Lemma so_loose : loose session_only. Proof. repeat split. Qed.
Lemma offsets_sp : forall h x k, kept h = session_only -> (forall t, kept t = session_only -> sp any discreet t k (fun t _ => over t)) ->
  sp any discreet h (offsets fuel x k) (fun t _ => over t).
Proof.
  intros h x k E H. unfold offsets. cbv zeta. destruct (_ || _); [apply (cleanup_sp _ _ so_loose E)|].
  apply (reply_sp _ _ _ _ _ so_mute so_loose E). intros t Et. apply (reply_sp _ _ _ _ _ so_mute so_loose Et). exact H.
Qed.
Lemma service_sp : forall n pp prf h, kept h = session_only -> sp any discreet h (service fuel n pp prf) (fun t _ => over t).
Proof.
  assert (W : forall h n l d a, kept h = session_only -> n = bs "prf" \/ n = bs "encrypt" \/ n = bs "decrypt" -> discreet h (Other n l d, a) /\ kept (h ++ [(Other n l d, a)]) = session_only).
  { intros h n l d a E N. split; [|rewrite kept_snoc, E; destruct N as [-> |[-> | ->]]; reflexivity]. unfold discreet. cbn [fst]. repeat (refine (conj _ _); [intros ->; destruct N as [N|[N|N]]; discriminate N|]). intros _. exact E. }
  induction n as [|n IH]; intros pp prf h E; cbn [service]; [apply sp_halt|].
  eapply sp_bind with (M := fun t _ => kept t = session_only); [apply (talk_quiet _ _ h _ so_mute); [sq|exact E]|]. intros t g Et.
  destruct (negb _); [apply (cleanup_sp _ _ so_loose Et)|]. apply (request_sp _ _ _ _ so_mute so_loose Et). clear h E t g Et. intros t ch Et. cbv zeta.
  destruct (_ =? 0).
  - apply (request_sp _ _ _ _ so_mute so_loose Et). clear t Et. intros t label Et. apply (request_sp _ _ _ _ so_mute so_loose Et). clear t Et. intros t sl Et.
    destruct (_ <? _); [apply (cleanup_sp _ _ so_loose Et)|]. apply (request_sp _ _ _ _ so_mute so_loose Et). clear t Et. intros t seed Et.
    eapply sp_bind with (M := fun t _ => kept t = session_only); [apply sp_lift; intros; exact Et|]. clear t Et. intros t l Et.
    eapply sp_bind with (M := fun t _ => kept t = session_only); [apply sp_sys1; intros a _; apply W; auto|]. clear t Et. intros t a Et.
    apply (reply_sp _ _ _ _ _ so_mute so_loose Et). intros u Eu. apply IH. exact Eu.
  - destruct (_ =? 1); [|destruct (_ =? 2); [|apply (cleanup_sp _ _ so_loose Et)]].
    + apply (request_sp _ _ _ _ so_mute so_loose Et). clear t Et. intros t ty Et. apply (request_sp _ _ _ _ so_mute so_loose Et). clear t Et. intros t ver Et.
      apply (request_sp _ _ _ _ so_mute so_loose Et). clear t Et. intros t m Et.
      eapply sp_bind with (M := fun t _ => kept t = session_only); [apply sp_sys1; intros a _; apply W; auto|]. clear t Et. intros t a Et.
      destruct (_ =? 0); [|apply offsets_sp; [exact Et|intros; apply IH; assumption]].
      apply (reply_sp _ _ _ _ _ so_mute so_loose Et). clear t Et. intros t Et. apply (reply_sp _ _ _ _ _ so_mute so_loose Et). intros u Eu. apply IH. exact Eu.
    + apply (request_sp _ _ _ _ so_mute so_loose Et). clear t Et. intros t ty Et. apply (request_sp _ _ _ _ so_mute so_loose Et). clear t Et. intros t ver Et.
      apply (request_sp _ _ _ _ so_mute so_loose Et). clear t Et. intros t m Et.
      eapply sp_bind with (M := fun t _ => kept t = session_only); [apply sp_sys1; intros a _; apply W; auto|]. clear t Et. intros t a Et.
      destruct (_ =? 0); [apply (cleanup_sp _ _ so_loose Et)|apply offsets_sp; [exact Et|intros; apply IH; assumption]].
Qed.

(** during the key exchange: the scalar *)
Notation exchanging := scalar_only.
Lemma ex_mute : mute exchanging. Proof. repeat split. Qed.
Lemma ex_loose : loose exchanging. Proof. repeat split; discriminate. Qed.
Lemma no_mute : mute none. Proof. repeat split. Qed.
Lemma no_loose : loose none. Proof. repeat split; discriminate. Qed.
Definition mixing : secrets := mksecrets true true false false false false.
Lemma mul_sp : forall h c p sk, kept h = exchanging -> sp any discreet h (tls_crypto_scalarmult c p sk) (fun t r => kept t = mixing \/ (r = None /\ kept t = exchanging)).
Proof.
  intros h c p sk E.
  assert (M : forall a b x y sk', sp any discreet h (mul a b x y sk') (fun t _ => kept t = mixing)).
  { intros. unfold mul. destruct (_ || _); [apply sp_bad|]. eapply sp_bind with (M := fun t _ => kept t = mixing); [|intros t q H; apply sp_ret; exact H].
    apply sp_sys1. intros z _. split; [unfold discreet; cbn [fst]; rewrite E; repeat (refine (conj _ _); [intros X; discriminate X|]); refine (conj _ _); [reflexivity|nonamed]|]. rewrite kept_snoc, E. reflexivity. }
  unfold tls_crypto_scalarmult.
  destruct (_ =? _); [eapply sp_bind; [apply M|]; intros t [ok q] H; apply sp_ret; left; exact H|].
  assert (G : forall (cl : res (list Z)) a b x n, sp any discreet h (sk' <~ lift cl ;; '(ok, p') <~ mul a b x p sk' ;; s <~ lift (dropfirst n p') ;; Ret (if ok : bool then Some s else None)) (fun t r => kept t = mixing \/ (r = None /\ kept t = exchanging))).
  { intros cl a b x n. eapply sp_bind with (M := fun t _ => t = h); [apply sp_lift; auto|]. intros t sk' ->. eapply sp_bind; [apply M|]. intros t [ok q] H. cbn beta in H.
    eapply sp_bind with (M := fun u _ => kept u = mixing); [apply sp_lift; auto|]. intros u s Hu. apply sp_ret. left. exact Hu. }
  destruct (_ =? _); [apply G|]. destruct (_ =? _); [apply G|]. destruct (_ =? _); [apply G|]. apply sp_ret. right. auto.
Qed.
Lemma base_sp : forall h c sk, kept h = none -> sp any discreet h (tls_crypto_scalarmult_base c sk) (fun t r => kept t = exchanging \/ (fst r = None /\ kept t = none)).
Proof.
  intros h c sk E.
  assert (M : forall a b x sk', sp any discreet h (mulgen a b x sk') (fun t r => kept t = exchanging \/ (fst r = None /\ kept t = none))).
  { intros. unfold mulgen. destruct (_ <? _); [apply sp_bad|]. eapply sp_bind with (M := fun t _ => kept t = exchanging); [|intros t q H; apply sp_ret; left; exact H].
    apply sp_sys1. intros z _. split; [unfold discreet; cbn [fst]; rewrite E; repeat (refine (conj _ _); [intros X; discriminate X|]); refine (conj _ _); [reflexivity|nonamed]|]. rewrite kept_snoc, E. reflexivity. }
  assert (G : forall (cl : res (list Z)) a b x, sp any discreet h (sk' <~ lift cl ;; mulgen a b x sk') (fun t r => kept t = exchanging \/ (fst r = None /\ kept t = none))).
  { intros. eapply sp_bind with (M := fun t _ => t = h); [apply sp_lift; auto|]. intros t sk' ->. apply M. }
  unfold tls_crypto_scalarmult_base. destruct (_ =? _); [apply M|]. destruct (_ =? _); [apply G|]. destruct (_ =? _); [apply G|]. destruct (_ =? _); [apply G|]. apply sp_ret. right. auto.
Qed.
Lemma derive_sp : forall pp c sk n h, kept h = exchanging -> sp any discreet h (derive fuel pp c sk n) (fun t _ => over t).
Proof.
  intros pp c sk n h E. unfold derive.
  do 6 (apply (request_sp _ _ _ _ ex_mute ex_loose E); clear h E; intros h ? E).
  eapply sp_bind; [apply mul_sp; exact E|]. clear h E. intros h [x|] [E|[X E]]; try discriminate X; [|apply (cleanup_sp _ mixing); [repeat split; discriminate|exact E]|apply (cleanup_sp _ _ ex_loose E)].
  eapply sp_bind with (M := fun t _ => kept t = mksecrets false true false false false false).
  { apply sp_do. intros a _. split; [apply random_ok|]. apply sp_ret. rewrite kept_snoc, E. reflexivity. }
  clear h E. intros h sk' E. destruct (suite_prf _) as [prf|]; [|eapply cleanup_sp; [|exact E]; repeat split; discriminate].
  eapply sp_bind with (M := fun t _ => kept t = mksecrets false true false false false true).
  { apply sp_sys1. intros a _. split; [|rewrite kept_snoc, E; reflexivity]. unfold discreet. cbn [fst]. rewrite E. repeat (refine (conj _ _); [intros X; discriminate X|]). refine (conj _ _); [intros _; repeat split|nonamed]. }
  clear h E. intros h a E. eapply sp_bind with (M := fun t _ => kept t = session_only).
  { apply sp_do. intros b _. split; [apply random_ok|]. apply sp_ret. rewrite kept_snoc, E. reflexivity. }
  intros t b Et. apply service_sp. exact Et.
Qed.
Lemma free_ok : forall h d a, discreet h (Other (bs "alloc_free") [] d, a).
Proof. intros. unfold discreet. cbn [fst]. nonamed. Qed.
(** tls_pem_free: nothing but the file disappears *)
Lemma free_sp : forall c h s, kept h = s -> (sec c = None -> file s = false) ->
  sp any discreet h (tls_pem_free c) (fun t r => kept t = mksecrets (scalar s) (shared s) (private s) false (filekey s) (derived s) /\ r = pem_zero).
Proof.
  intros c h s E N. unfold tls_pem_free. set (s' := mksecrets _ _ _ _ _ _).
  eapply sp_bind with (M := fun t _ => kept t = s').
  { destruct (sec c); [apply sp_sys1; intros a _; split; [apply free_ok|]; rewrite kept_snoc, E; reflexivity|]. apply sp_ret. rewrite E. subst s'. specialize (N eq_refl). destruct s. cbn in *. subst. reflexivity. }
  intros t _ Et. eapply sp_bind with (M := fun t _ => kept t = s'); [|intros u _ Hu; apply sp_ret; auto].
  destruct (pub c); [apply sp_sys1; intros a _; split; [apply free_ok|]; rewrite kept_snoc, Et; reflexivity|apply sp_ret; exact Et].
Qed.
Lemma wipe_sp : forall h s, kept h = s -> sp any discreet h (sys1 (Other (bs "randombytes") [] (bs "keycrt"))) (fun t _ => kept t = mksecrets (scalar s) (shared s) false (file s) (filekey s) (derived s)).
Proof. intros h s E. apply sp_sys1. intros a _. split; [apply random_ok|]. rewrite kept_snoc, E. reflexivity. Qed.
Lemma sign_sp : forall pem key nonce hash m h, kept h = exchanging -> sp any discreet h (sign stream pem key nonce hash m) (fun t _ => kept t = mksecrets true false false false true false).
Proof.
  intros pem key nonce hash m h E. unfold sign.
  eapply sp_bind with (M := fun t _ => kept t = exchanging).
  { unfold tls_pem_encrypt. eapply sp_bind with (M := fun t _ => kept t = exchanging).
    - destruct nonce; [apply sp_ret; exact E|]. apply sp_do. intros a _. split; [apply random_ok|]. apply sp_ret. rewrite kept_snoc, E. reflexivity.
    - intros t x Et. destruct (sec pem); [destruct (_ || _)|destruct (_ =? 0)]; first [apply sp_bad|apply sp_ret; exact Et]. }
  clear h E. intros h [n c] E. set (d := match sec c with Some _ => _ | None => _ end).
  eapply sp_bind with (M := fun t _ => kept t = mksecrets true false true (negb (eqs d [])) true false).
  { apply sp_sys1. intros a _. split; [|rewrite kept_snoc, E; reflexivity]. unfold discreet. cbn [fst]. rewrite E. repeat (refine (conj _ _); [intros X; discriminate X|]). refine (conj _ _); [reflexivity|nonamed]. }
  clear h E. intros h a E.
  assert (N : sec c = None -> negb (eqs d []) = false) by (intros N; subst d; rewrite N; reflexivity). clearbody d.
  destruct (ret a =? 0).
  - eapply sp_bind; [apply (wipe_sp _ _ E)|]. cbn. intros t _ Et. eapply sp_bind; [apply (free_sp c _ _ Et); cbn; exact N|]. cbn. intros u r [Eu _]. apply sp_ret. exact Eu.
  - eapply sp_bind; [apply (free_sp c _ _ E); cbn; exact N|]. cbn beta. intros t r [Et ->]. cbn in Et. set (s := mksecrets _ _ _ _ _ _) in Et.
    eapply sp_bind with (M := fun t _ => kept t = s).
    { destruct (_ || _); [|apply sp_ret; exact Et]. eapply sp_bind with (M := fun t _ => kept t = s); [|intros u b Hu; apply sp_ret; exact Hu].
      apply sp_sys1. intros b _. split; [|rewrite kept_snoc, Et; reflexivity]. unfold discreet. cbn [fst]. rewrite Et. repeat (refine (conj _ _); [intros X; discriminate X|]). refine (conj _ _); [intros _; repeat split|nonamed]. }
    clear t Et h E. intros t x Et. eapply sp_bind; [apply (wipe_sp _ _ Et)|]. cbn. clear t Et. intros t _ Et.
    apply sp_ret. exact Et.
Qed.
Lemma handshake_sp : forall nojail acc dir pp pem key nonce h, kept h = none -> sp any discreet h (handshake stream fuel nojail acc dir pp pem key nonce) (fun t _ => over t).
Proof.
  intros nojail acc dir pp pem key nonce h E. unfold handshake.
  eapply sp_bind with (M := fun t _ => kept t = none); [destruct nojail; [apply sp_ret; exact E|apply (talk_quiet _ _ h _ no_mute); [apply jail_tp|exact E]]|].
  clear h E. intros h j E. destruct (_ =? _); [apply (cleanup_sp _ _ no_loose E)|]. apply (request_sp _ _ _ _ no_mute no_loose E). clear h E. intros h curve E. cbv zeta.
  eapply sp_bind; [apply (mild_quiet _ _ _ (rand_mild 66) E)|]. clear h E. intros h sk E. eapply sp_bind; [apply (base_sp _ _ _ E)|]. clear h E.
  intros h [[pk|] sk'] [E|[X E]]; try discriminate X; [|apply (cleanup_sp _ _ ex_loose E)|apply (cleanup_sp _ _ no_loose E)].
  apply (reply_sp _ _ _ _ _ ex_mute ex_loose E). clear h E. intros h E. do 2 (apply (request_sp _ _ _ _ ex_mute ex_loose E); clear h E; intros h ? E).
  destruct (_ <? _); [apply (cleanup_sp _ _ ex_loose E)|]. apply (request_sp _ _ _ _ ex_mute ex_loose E). clear h E. intros h d E.
  eapply sp_bind; [apply sign_sp; exact E|]. clear h E. intros h [buf n] E. cbn beta in E. eapply sp_bind with (M := fun t _ => kept t = exchanging).
  { apply sp_do. intros b _. split; [apply random_ok|]. apply sp_ret. rewrite kept_snoc, E. reflexivity. }
  clear h E. intros h x E. apply (reply_sp _ _ _ _ _ ex_mute ex_loose E). clear h E. intros h E. apply derive_sp. exact E.
Qed.
Lemma files_sp : forall line0 nojail acc dir n pp pem key nonce h, kept h = none -> sp any discreet h (files stream fuel nojail acc dir n pp line0 pem key nonce) (fun t _ => over t).
Proof.
  intros line0 nojail acc dir n. induction n as [|n IH]; intros pp pem key nonce h E; cbn [files]; [apply sp_halt|].
  apply (request_sp _ _ _ _ no_mute no_loose E). clear h E. intros h fn E. destruct (_ =? 0); [apply handshake_sp; exact E|].
  do 3 (eapply sp_bind with (M := fun t _ => kept t = none); [apply sp_lift; intros; exact E|]; clear h E; intros h ? E).
  eapply sp_bind; [apply (mild_quiet _ _ _ (rand_mild 32) E)|]. clear h E. intros h key' E.
  eapply sp_bind; [apply (mild_quiet _ _ _ (load_mild _ _ _ _ _ _ _) E)|]. clear h E. intros h [[r nonce'] pem'] E. destruct (r =? 0).
  - eapply sp_bind with (M := fun t _ => kept t = none); [apply (talk_quiet _ _ h _ no_mute); [sq|exact E]|]. clear h E. intros h e E.
    eapply sp_bind with (M := fun t _ => kept t = none); [apply (talk_quiet _ _ h _ no_mute); [unfold pipe_writeerrno; sq; apply writeall_tp|exact E]|]. clear h E. intros h [|y] E; [apply IH; exact E|apply (cleanup_sp _ _ no_loose E)].
  - destruct (pub pem'); [|apply sp_bad]. apply (reply_sp _ _ _ _ _ no_mute no_loose E). clear h E. intros h E. apply IH. exact E.
Qed.
Lemma keyjail_sp : forall nojail acc dir line0 key0, sp any discreet [] (tls_keyjail stream fuel nojail acc dir line0 key0) (fun t _ => over t).
Proof.
  intros. unfold tls_keyjail. eapply sp_bind with (M := fun t _ => kept t = none); [apply (talk_quiet _ _ [] _ no_mute); [sq|reflexivity]|].
  intros t p E. apply files_sp. exact E.
Qed.
End Parts.
