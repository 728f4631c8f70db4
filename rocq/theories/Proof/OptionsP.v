(** Lemmas about the command line. *)
From Verif.Model Require Import Base Sys Str Inet Config Parsenum Options.
From Verif.Spec Require Import Text Num Settings Cmdline.
From Verif.Proof Require Import Tac SysP StrP NumP ConfigP.

(** [p] points to the string [w] *)
Definition is_ptr (w p : list Z) : Prop := nonul w /\ exists r, p = w ++ 0 :: r.
Lemma ptr_cstr : forall w p, is_ptr w p -> is_cstr p /\ text p = w.
Proof. intros w p (N & r & ->). split; [exists w, r; auto|apply text_ok; auto]. Qed.
Lemma cstr_ptr : forall w p, is_ptr w p -> cstr p = Ok w.
Proof.
  intros w p (N & r & ->). induction N as [|c s C N IH]; cbn [app cstr]; auto.
  destruct (Z.eqb_spec c 0); [lia|]. rewrite IH. reflexivity.
Qed.
Lemma streq_ok : forall s w p, nonul s -> is_ptr w p -> streq s p = Ok (same s w).
Proof.
  intros s w p N (M & r & ->). unfold streq. destruct (str_diff_ok s w [] r N M) as (d & E & F).
  change (s ++ [0]) with (s ++ 0 :: []). rewrite E. cbn [bind]. f_equal.
  apply firstdiff_zero in F. destruct (same_spec s w) as [->|D]; destruct (Z.eqb_spec d 0) as [Z0|Z0]; auto; exfalso.
  - apply Z0. apply F. reflexivity.
  - apply D. apply F in Z0. apply app_inj_tail in Z0 as [X _]. exact X.
Qed.

(** ** Lists of items *)
Lemma args_app : forall c l m, args c (l ++ m) = args c l ++ args c m.
Proof. intros. unfold args. apply flat_map_app. Qed.
Lemma entries_app : forall l m, entries (l ++ m) = entries l ++ entries m.
Proof. intros. unfold entries. apply flat_map_app. Qed.
Lemma args_opt : forall c d a, args c [Opt d a] = if d =? c then [a] else [].
Proof. intros. unfold args. cbn [flat_map]. destruct (d =? c); reflexivity. Qed.
Lemma args_flag : forall c d, args c [Flag d] = [].
Proof. reflexivity. Qed.
Lemma last_flag_snoc : forall on off s l i, last_flag on off s (l ++ [i]) =
  match i with Flag c => if c =? on then true else if c =? off then false else last_flag on off s l | Opt _ _ => last_flag on off s l end.
Proof. intros. unfold last_flag. rewrite fold_left_app. reflexivity. Qed.
Lemma last_arg_snoc : forall c l i, last_arg c (l ++ [i]) = match i with Opt d a => if d =? c then Some a else last_arg c l | Flag _ => last_arg c l end.
Proof.
  intros c l i. unfold last_arg. rewrite args_app, rev_app_distr. destruct i as [d|d a]; [reflexivity|]. rewrite args_opt. destruct (d =? c); reflexivity.
Qed.

(** an optional string *)
Definition opt_is (x : option (list Z)) (p : option (list Z)) : Prop :=
  match x, p with Some w, Some p => is_ptr w p | None, None => True | _, _ => False end.
Definition str_is (x : option (list Z)) (d : list Z) (p : list Z) : Prop :=
  is_ptr (match x with Some w => w | None => d end) p.

(** what the options given so far mean *)
Record cfg_means (l : list item) (ss : list setting) : Prop := {
  cm_cipher : cipher_names ss = args 99 l;
  cm_curve : curve_names ss = args 101 l;
  cm_vmin : vmin_names ss = args 109 l;
  cm_vmax : vmax_names ss = args 77 l;
  cm_anchor : map text (anchors ss) = args 97 l;
  cm_certs : map (fun e => (text (fst e), snd e)) (certs ss) = entries l }.
Record means (l : list item) (o : opts) : Prop := {
  m_cfg : exists ss, holds ss (cfg o) /\ cfg_means l ss;
  m_prefer : prefer o = last_flag 115 83 true l;
  m_delay : delayed o = delay l;
  m_pp : ppin o = existsb (same (bs "1")) (args 112 l);
  m_certuser : opt_is (last_arg 85 l) (certuser o);
  m_user : opt_is (last_arg 117 l) (user o);
  m_hs : str_is (last_arg 84 l) (bs "30") (hstimeoutstr o);
  m_to : str_is (last_arg 116 l) (bs "60") (timeoutstr o);
  m_dir : str_is (last_arg 74 l) (bs "/var/lib/tlswrapper/empty") (jaildir o);
  m_acc : opt_is (last_arg 106 l) (jailaccount o) }.

Lemma opts_eta : forall o, set_cfg o (cfg o) = o. Proof. destruct o. reflexivity. Qed.

(** an option without effect on the configuration *)
Definition silent (i : item) : Prop := match i with Flag _ => True | Opt c _ => ~ In c [99; 101; 109; 77; 97; 100; 102] end.
Lemma cfg_silent : forall l ss i, cfg_means l ss -> silent i -> cfg_means (l ++ [i]) ss.
Proof.
  intros l ss i [A B C D E F] S.
  assert (Q : forall c, In c [99; 101; 109; 77; 97; 100; 102] -> args c [i] = []).
  { intros c I. destruct i as [d|d a]; [reflexivity|]. rewrite args_opt. destruct (Z.eqb_spec d c); auto. subst. destruct (S I). }
  assert (N : entries [i] = []).
  { destruct i as [d|d a]; [reflexivity|]. unfold entries. cbn [flat_map]. cbn [silent In] in S. destruct (Z.eqb_spec d 100); [exfalso; apply S; auto 10|]. destruct (Z.eqb_spec d 102); [exfalso; apply S; auto 10|]. reflexivity. }
  constructor; rewrite ?args_app, ?entries_app, ?N, ?Q, ?app_nil_r; auto; cbn; auto 10.
Qed.

Ltac flags := rewrite ?last_flag_snoc, ?last_arg_snoc, ?args_app, ?args_opt, ?args_flag, ?app_nil_r.

(** a letter without argument *)
Lemma plain_ok : forall c o, match plain c o with
  | Some o' => In c flag_letters /\ forall l, means l o -> means (l ++ [Flag c]) o'
  | None => ~ In c flag_letters end.
Proof.
  intros c o. unfold plain.
  assert (FL : flag_letters = [113; 81; 118; 115; 83; 110; 78]) by reflexivity.
  repeat match goal with |- context [if ?c =? ?n then Some _ else _] => destruct (Z.eqb_spec c n);
    [subst c; split; [rewrite FL; cbn [In]; auto 10|]; intros l [(ss & H & M) A B C D E F G I J]; constructor; cbn;
      [exists ss; split; auto; apply cfg_silent; cbn; auto|..]; unfold delay in *; flags; auto|] end.
  rewrite FL. cbn [In]. intuition.
Qed.

(** ** An option with an argument *)
Lemma configured_ok : forall o s tr out, is_cstr (arg s) -> (exists ss, holds ss (cfg o)) -> runs (configured o s) tr out ->
  tr = [] /\ forall ss, holds ss (cfg o) ->
  (exists c, out = Fin (Some (set_cfg o c)) /\ holds (ss ++ [s]) c /\ ~ refused ss s) \/ (out = Fin None /\ refused ss s).
Proof.
  intros o s tr out C (ss0 & H0) R. unfold configured in R.
  destruct (apply_setting (cfg o) s) as [r| |] eqn:E.
  2,3: destruct (step_holds ss0 _ s H0 C) as (r & E2 & _); congruence.
  cbn [lift pbind] in R. destruct R as [-> ->]. split; auto. intros ss H.
  destruct (step_holds ss _ s H C) as (r' & E2 & H2). rewrite E in E2. injection E2 as <-.
  destruct r as [c|]; [left; exists c; tauto|right; auto].
Qed.

Lemma cfg_snoc : forall l ss i s, cfg_means l ss ->
  cipher_names [s] = args 99 [i] -> curve_names [s] = args 101 [i] -> vmin_names [s] = args 109 [i] -> vmax_names [s] = args 77 [i] ->
  map text (anchors [s]) = args 97 [i] -> map (fun e => (text (fst e), snd e)) (certs [s]) = entries [i] ->
  cfg_means (l ++ [i]) (ss ++ [s]).
Proof.
  intros l ss i s [A B C D E F] H1 H2 H3 H4 H5 H6.
  constructor; rewrite ?args_app, ?entries_app; unfold cipher_names, curve_names, vmin_names, vmax_names, anchors, certs in *; rewrite flat_map_app, ?map_app; congruence.
Qed.

(** the rest of [means] after a change of the configuration only *)
Lemma means_cfg : forall l o c i ss, means l o -> holds ss c -> cfg_means (l ++ [i]) ss ->
  match i with Opt d _ => In d [99; 101; 109; 77; 97; 100; 102] | Flag _ => False end -> means (l ++ [i]) (set_cfg o c).
Proof.
  intros l o c i ss [(ss0 & _ & _) A B C D E F G I J] H M S. destruct i as [d|d a]; [destruct S|].
  assert (Q : forall c, ~ In c [99; 101; 109; 77; 97; 100; 102] -> (d =? c) = false) by (intros c0 N; apply Z.eqb_neq; intros ->; auto).
  constructor; cbn; [eauto|..]; unfold delay in *; flags; rewrite ?Q by (cbn; intuition discriminate); rewrite ?app_nil_r; auto.
Qed.

Lemma in_args : forall c : Z, In c arg_letters <-> takes c = true.
Proof.
  intros c. unfold takes. rewrite existsb_exists. split.
  - intros I. exists c. split; [exact I|apply Z.eqb_refl].
  - intros (d & I & E). apply Z.eqb_eq in E. subst. exact I.
Qed.

(** number of calls an option makes *)
Definition cost (i : item) : nat := match i with Opt c _ => if (c =? 100) || (c =? 102) || (c =? 97) then 1 else 0 | Flag _ => 0 end.
Lemma allowed_cost : forall l i t, allowed l i t -> length t = cost i.
Proof.
  intros l [c|c a] t A; cbn [allowed] in A; [subst; reflexivity|]. unfold cost.
  assert (O : forall b1 b2, b1 || b2 = true -> b1 = true \/ b2 = true) by (intros [] []; auto).
  destruct (c =? 112) eqn:E1; [apply Z.eqb_eq in E1; subst c; destruct A as [_ ->]; reflexivity|].
  destruct (c =? 85) eqn:E2; [apply Z.eqb_eq in E2; subst c; destruct A as [_ ->]; reflexivity|].
  destruct ((c =? 109) || (c =? 77)) eqn:E3; [apply O in E3 as [E3|E3]; apply Z.eqb_eq in E3; subst c; destruct A as [_ ->]; reflexivity|].
  destruct (c =? 101) eqn:E4; [apply Z.eqb_eq in E4; subst c; destruct A as [_ ->]; reflexivity|].
  destruct (c =? 99) eqn:E5; [apply Z.eqb_eq in E5; subst c; destruct A as [_ ->]; reflexivity|].
  destruct (c =? 100); [destruct A as (e & -> & _); reflexivity|].
  destruct (c =? 102); [destruct A as (e & -> & _); reflexivity|].
  destruct (c =? 97); [destruct A as (e & -> & _); reflexivity|].
  subst. reflexivity.
Qed.
Definition fits (l : list item) (i : item) (tr : trace) (out : outcome (option opts)) : Prop :=
  (exists o', out = Fin (Some o') /\ allowed l i tr /\ means (l ++ [i]) o') \/
  (out = Fin None /\ length tr = cost i /\ ~ allowed l i tr) \/ (out = Cut /\ tr = []).

Lemma conf_fits : forall l o i s tr out, means l o -> is_cstr (arg s) -> runs (configured o s) tr out ->
  (forall ss, cfg_means l ss -> cfg_means (l ++ [i]) (ss ++ [s])) ->
  match i with Opt d _ => In d [99; 101; 109; 77; 97; 100; 102] | Flag _ => False end ->
  (forall ss, cfg_means l ss -> (allowed l i [] <-> ~ refused ss s)) -> cost i = 0%nat ->
  fits l i tr out.
Proof.
  intros l o i s tr out M C R S I A CO. destruct (m_cfg _ _ M) as (ss & H & CM).
  apply configured_ok in R as [-> R]; eauto. destruct (R ss H) as [(c & -> & H2 & N)|(-> & N)].
  - left. exists (set_cfg o c). split; auto. split; [apply (A ss CM); auto|]. eapply means_cfg; eauto.
  - right. left. split; auto. split; auto. intros X. apply (A ss CM) in X. auto.
Qed.

Lemma stat_fits : forall l o i a f tr out x, means l o -> is_ptr a x -> runs (statted o x f) tr out ->
  (forall m, is_cstr (arg (f m))) ->
  (forall ss m, cfg_means l ss -> cfg_means (l ++ [i]) (ss ++ [f m])) ->
  match i with Opt d _ => In d [99; 101; 109; 77; 97; 100; 102] | Flag _ => False end ->
  (forall ss e, cfg_means l ss -> fst e = Other (bs "stat") [] a -> (allowed l i [e] <-> ~ refused ss (f (if ret (snd e) =? -1 then None else Some (u32 (nth 0 (data (snd e)) 0)))))) -> cost i = 1%nat ->
  fits l i tr out.
Proof.
  intros l o i a f tr out x M P R C S I A CO. unfold statted in R. rewrite (cstr_ptr _ _ P) in R. cbn [lift pbind] in R.
  destruct R as [[-> ->]|(an & t & -> & R)]; [right; right; auto|]. cbn [pbind] in R.
  destruct (m_cfg _ _ M) as (ss & H & CM).
  apply configured_ok in R as [-> R]; eauto. destruct (R ss H) as [(c & -> & H2 & N)|(-> & N)].
  - left. exists (set_cfg o c). split; auto. split; [apply (A ss (_, an)); auto|]. eapply means_cfg; eauto.
  - right. left. split; auto. split; auto. intros X. apply (A ss _ CM) in X; auto.
Qed.

Lemma refused_dec : forall ss s, refused ss s \/ ~ refused ss s.
Proof.
  intros ss s. unfold refused.
  assert (D : forall m t, (exists v, m = Some v /\ Z.land v S_IFMT = t) \/ ~ (exists v, m = Some v /\ Z.land v S_IFMT = t)).
  { intros [v|] t; [|right; intros (v & E & _); discriminate]. destruct (Z.eq_dec (Z.land v S_IFMT) t); [left; eauto|right; intros (w & E & F); congruence]. }
  destruct s; cbn [stat_ok].
  1,2,3,4: match goal with |- context [lookup ?t ?x = None] => destruct (lookup t x); [right; intros [X|X]; [apply X; auto|discriminate]|left; auto] end.
  - destruct (D mode S_IFREG); [|left; auto]. destruct (anchors ss); [right; intros [X|X]; auto|left; right; discriminate].
  - destruct (D mode S_IFDIR); [|left; auto]. destruct (Compare_dec.le_dec 4 (length (certs ss))); [left; auto|right; intros [X|X]; auto].
  - destruct (D mode S_IFREG); [|left; auto]. destruct (Compare_dec.le_dec 4 (length (certs ss))); [left; auto|right; intros [X|X]; auto].
Qed.

Lemma entries_length : forall l ss, cfg_means l ss -> length (certs ss) = length (entries l).
Proof. intros l ss M. rewrite <- (cm_certs _ _ M), map_length. reflexivity. Qed.

Lemma set_ok : forall c a x l o tr out, In c arg_letters -> is_ptr a x -> means l o ->
  runs (set_option c x o) tr out -> fits l (Opt c a) tr out.
Proof.
  intros c a x l o tr out I P M R. destruct (ptr_cstr _ _ P) as [C T].
  assert (PL : forall o', runs (Ret (Some o')) tr out -> allowed l (Opt c a) [] -> means (l ++ [Opt c a]) o' -> fits l (Opt c a) tr out).
  { intros o' [-> ->] A B. left. eauto. }
  assert (ST : forall (k : event) ty, (exists v, (if ret (snd k) =? -1 then None else Some (u32 (nth 0 (data (snd k)) 0))) = Some v /\ Z.land v S_IFMT = ty) <->
    (ret (snd k) <> -1 /\ Z.land (nth 0 (data (snd k)) 0 mod 4294967296) 61440 = ty)).
  { intros k ty. unfold u32, S_IFMT. destruct (Z.eqb_spec (ret (snd k)) (-1)) as [E|E]; split.
    - intros (v & V & _). discriminate.
    - intros [V _]. congruence.
    - intros (v & V & W). injection V as <-. auto.
    - intros [_ V]. eauto. }
  unfold set_option in R.
  destruct (Z.eqb_spec c 112) as [->|N1].
  { unfold pp_incoming in R. rewrite (streq_ok (bs "0") _ _ ltac:(repeat constructor) P), (streq_ok (bs "1") _ _ ltac:(repeat constructor) P) in R. cbn [bind] in R.
    destruct (same_spec (bs "0") a) as [<-|D0]; [|destruct (same_spec (bs "1") a) as [<-|D1]]; cbn [lift] in R.
    - apply (PL _ R); [cbn; auto|]. destruct M as [(ss & H & M) A B Cc D E F G J K]. constructor; auto;
        [exists ss; split; auto; apply cfg_silent; cbn; intuition discriminate|..]; unfold delay in *; flags; auto.
      rewrite existsb_app, Cc. symmetry. apply orb_false_r.
    - apply (PL _ R); [cbn; auto|]. destruct M as [(ss & H & M) A B Cc D E F G J K]. constructor; auto;
        [exists ss; split; auto; apply cfg_silent; cbn; intuition discriminate|..]; unfold delay in *; flags; auto.
      rewrite existsb_app. symmetry. apply orb_true_r.
    - destruct R as [-> ->]. right. left. split; auto. split; auto. intros [[X|X] _]; symmetry in X; auto. }
  destruct (Z.eqb_spec c 85) as [->|N2].
  { unfold certuser_add in R. rewrite (streq_ok (bs "commonName") _ _ ltac:(repeat constructor) P), (streq_ok (bs "emailAddress") _ _ ltac:(repeat constructor) P) in R. cbn [bind] in R.
    assert (MM : means (l ++ [Opt 85 a]) (set_certuser o (Some x))).
    { destruct M as [(ss & H & M) A B Cc D E F G J K]. constructor; auto;
        [exists ss; split; auto; apply cfg_silent; cbn; intuition discriminate|..]; unfold delay in *; flags; auto. }
    destruct (same_spec (bs "commonName") a) as [<-|D0]; [|destruct (same_spec (bs "emailAddress") a) as [<-|D1]]; cbn [lift] in R.
    - apply (PL _ R); [cbn; auto|auto].
    - apply (PL _ R); [cbn; auto|auto].
    - destruct R as [-> ->]. right. left. split; auto. split; auto. intros [[X|X] _]; symmetry in X; auto. }
  destruct (Z.eqb_spec c 117) as [->|N3].
  { apply (PL _ R); [reflexivity|]. destruct M as [(ss & H & M) A B Cc D E F G J K]. constructor; auto;
      [exists ss; split; auto; apply cfg_silent; cbn; intuition discriminate|..]; unfold delay in *; flags; auto. }
  destruct (Z.eqb_spec c 109) as [->|N4].
  { eapply conf_fits; [exact M| |exact R| | | |]; auto; [|cbn; auto 10|].
    - intros ss CM. apply cfg_snoc; auto. cbn. rewrite T. reflexivity.
    - intros ss CM. cbn [allowed Z.eqb Pos.eqb orb]. unfold refused. cbn [stat_ok]. rewrite T. intuition. }
  destruct (Z.eqb_spec c 77) as [->|N5].
  { eapply conf_fits; [exact M| |exact R| | | |]; auto; [|cbn; auto 10|].
    - intros ss CM. apply cfg_snoc; auto. cbn. rewrite T. reflexivity.
    - intros ss CM. cbn [allowed Z.eqb Pos.eqb orb]. unfold refused. cbn [stat_ok]. rewrite T. intuition. }
  destruct (Z.eqb_spec c 84) as [->|N6].
  { apply (PL _ R); [reflexivity|]. destruct M as [(ss & H & M) A B Cc D E F G J K]. constructor; auto;
      [exists ss; split; auto; apply cfg_silent; cbn; intuition discriminate|..]; unfold delay in *; flags; auto. }
  destruct (Z.eqb_spec c 116) as [->|N7].
  { apply (PL _ R); [reflexivity|]. destruct M as [(ss & H & M) A B Cc D E F G J K]. constructor; auto;
      [exists ss; split; auto; apply cfg_silent; cbn; intuition discriminate|..]; unfold delay in *; flags; auto. }
  destruct (Z.eqb_spec c 100) as [->|N8].
  { eapply stat_fits; [exact M|exact P|exact R| | | | |]; [intros m; exact C| |cbn; auto 10| |reflexivity].
    - intros ss m CM. apply cfg_snoc; auto. cbn. rewrite T. reflexivity.
    - intros ss e CM FE. cbn [allowed Z.eqb Pos.eqb orb]. unfold refused. cbn [stat_ok]. rewrite (ST e), (entries_length _ _ CM). unfold looked. split.
      + intros (e0 & E0 & (L1 & L2 & L3) & L4). injection E0 as <-. intros [X|X]; [apply X; auto|lia].
      + intros X. exists e. split; auto.
        destruct (Z.eq_dec (ret (snd e)) (-1)) as [Y|Y]; [exfalso; apply X; left; intros [Z1 _]; auto|].
        match goal with |- (_ /\ _ /\ ?z = _) /\ _ => destruct (Z.eq_dec z 16384) as [W|W]; [|exfalso; apply X; left; intros [_ Z1]; auto] end.
        split; [auto|]. destruct (Compare_dec.le_dec 4 (length (entries l))); [exfalso; apply X; auto|lia]. }
  destruct (Z.eqb_spec c 102) as [->|N9].
  { eapply stat_fits; [exact M|exact P|exact R| | | | |]; [intros m; exact C| |cbn; auto 10| |reflexivity].
    - intros ss m CM. apply cfg_snoc; auto. cbn. rewrite T. reflexivity.
    - intros ss e CM FE. cbn [allowed Z.eqb Pos.eqb orb]. unfold refused. cbn [stat_ok]. rewrite (ST e), (entries_length _ _ CM). unfold looked. split.
      + intros (e0 & E0 & (L1 & L2 & L3) & L4). injection E0 as <-. intros [X|X]; [apply X; auto|lia].
      + intros X. exists e. split; auto.
        destruct (Z.eq_dec (ret (snd e)) (-1)) as [Y|Y]; [exfalso; apply X; left; intros [Z1 _]; auto|].
        match goal with |- (_ /\ _ /\ ?z = _) /\ _ => destruct (Z.eq_dec z 32768) as [W|W]; [|exfalso; apply X; left; intros [_ Z1]; auto] end.
        split; [auto|]. destruct (Compare_dec.le_dec 4 (length (entries l))); [exfalso; apply X; auto|lia]. }
  destruct (Z.eqb_spec c 97) as [->|N10].
  { eapply stat_fits; [exact M|exact P|exact R| | | | |]; [intros m; exact C| |cbn; auto 10| |reflexivity].
    - intros ss m CM. apply cfg_snoc; auto. cbn. rewrite T. reflexivity.
    - intros ss e CM FE. cbn [allowed Z.eqb Pos.eqb orb]. unfold refused. cbn [stat_ok]. rewrite (ST e). unfold looked.
      assert (AN : args 97 l = [] <-> anchors ss = []). { rewrite <- (cm_anchor _ _ CM). destruct (anchors ss); cbn; split; congruence. } split.
      + intros (e0 & E0 & (L1 & L2 & L3) & L4). injection E0 as <-. intros [X|X]; [apply X; auto|tauto].
      + intros X. exists e. split; auto.
        destruct (Z.eq_dec (ret (snd e)) (-1)) as [Y|Y]; [exfalso; apply X; left; intros [Z1 _]; auto|].
        match goal with |- (_ /\ _ /\ ?z = _) /\ _ => destruct (Z.eq_dec z 32768) as [W|W]; [|exfalso; apply X; left; intros [_ Z1]; auto] end.
        split; [auto|]. apply AN. destruct (anchors ss); auto. exfalso. apply X. right. discriminate. }
  destruct (Z.eqb_spec c 101) as [->|N11].
  { eapply conf_fits; [exact M| |exact R| | | |]; auto; [|cbn; auto 10|].
    - intros ss CM. apply cfg_snoc; auto. cbn. rewrite T. reflexivity.
    - intros ss CM. cbn [allowed Z.eqb Pos.eqb orb]. unfold refused. cbn [stat_ok]. rewrite T. intuition. }
  destruct (Z.eqb_spec c 99) as [->|N12].
  { eapply conf_fits; [exact M| |exact R| | | |]; auto; [|cbn; auto 10|].
    - intros ss CM. apply cfg_snoc; auto. cbn. rewrite T. reflexivity.
    - intros ss CM. cbn [allowed Z.eqb Pos.eqb orb]. unfold refused. cbn [stat_ok]. rewrite T. intuition. }
  destruct (Z.eqb_spec c 74) as [->|N13].
  { apply (PL _ R); [reflexivity|]. destruct M as [(ss & H & M) A B Cc D E F G J K]. constructor; auto;
      [exists ss; split; auto; apply cfg_silent; cbn; intuition discriminate|..]; unfold delay in *; flags; auto. }
  assert (c = 106). { change arg_letters with [112; 85; 117; 109; 77; 84; 116; 100; 102; 97; 101; 99; 74; 106] in I. cbn [In] in I. intuition. }
  subst c. apply (PL _ R); [reflexivity|]. destruct M as [(ss & H & M) A B Cc D E F G J K]. constructor; auto;
    [exists ss; split; auto; apply cfg_silent; cbn; intuition discriminate|..]; unfold delay in *; flags; auto.
Qed.

(** ** The words *)
Lemma plain_takes : forall c, In c flag_letters -> takes c = false.
Proof.
  intros c I. change flag_letters with [113; 81; 118; 115; 83; 110; 78] in I. cbn [In] in I.
  repeat (destruct I as [<-|I]; [reflexivity|]). destruct I.
Qed.
Lemma allowed_app : forall l l1 t1 l2 t2, all_allowed l l1 t1 -> all_allowed (l ++ l1) l2 t2 -> all_allowed l (l1 ++ l2) (t1 ++ t2).
Proof.
  intros l l1 t1 l2 t2 A. revert l2 t2. induction A as [l|l i l1 t t1 A B IH]; intros l2 t2 C; cbn [app].
  - rewrite app_nil_r in C. exact C.
  - rewrite <- app_assoc. apply allowed_cons; auto. apply IH. rewrite <- app_assoc. exact C.
Qed.
Lemma allowed_one : forall l i t, allowed l i t -> all_allowed l [i] t.
Proof. intros l i t A. rewrite <- (app_nil_r t). apply allowed_cons; auto. constructor. Qed.
Lemma app_cut : forall (a b c d : trace), length a = length c -> a ++ b = c ++ d -> a = c /\ b = d.
Proof.
  induction a as [|x a IH]; intros b [|y c] d L E; try discriminate; [auto|]. cbn in E, L. injection E as -> E. injection L as L.
  destruct (IH _ _ _ L E) as [-> ->]. auto.
Qed.
Lemma not_allowed : forall l i l2 tr t2, length tr = cost i -> ~ allowed l i tr -> ~ all_allowed l (i :: l2) (tr ++ t2).
Proof.
  intros l i l2 tr t2 C N A. inversion A as [|b j m t1 t3 B1 B2]; subst. apply N.
  match goal with H : t1 ++ t3 = _ |- _ => apply app_cut in H as [<- _]; [exact B1|] end. rewrite (allowed_cost _ _ _ B1). auto.
Qed.
Lemma allowed_cut : forall l l1 t1 l2 t2, all_allowed l l1 t1 -> all_allowed l (l1 ++ l2) (t1 ++ t2) -> all_allowed (l ++ l1) l2 t2.
Proof.
  intros l l1 t1 l2 t2 A. revert l2 t2. induction A as [l|l i l1 t t1 A B IH]; intros l2 t2 C; cbn [app] in C.
  - rewrite app_nil_r. exact C.
  - rewrite <- app_assoc in C. inversion C as [|b j m s1 s2 B1 B2]; subst.
    match goal with H : s1 ++ s2 = _ |- _ => rename H into Y end. apply app_cut in Y as [-> ->]; [|rewrite (allowed_cost _ _ _ A), (allowed_cost _ _ _ B1); reflexivity].
    apply IH in B2. rewrite <- app_assoc in B2. exact B2.
Qed.

Definition group_ends (t : list Z) (ws : list (list Z)) (l : list item) (tr : trace) (out : outcome letters) : Prop :=
  match out with
  | Fin (Next o) => exists l', group t ws l' ws /\ all_allowed l l' tr /\ means (l ++ l') o
  | Fin (Ate o) => exists l' w ws', ws = w :: ws' /\ group t ws l' ws' /\ all_allowed l l' tr /\ means (l ++ l') o
  | Fin Usage => forall l' ws' l2 t2, group t ws l' ws' -> ~ all_allowed l (l' ++ l2) (tr ++ t2)
  | Wrong => False
  | Cut => True
  end.

Lemma cluster_ok : forall t r ws ps l o tr out, nonul t -> Forall2 is_ptr ws ps -> means l o ->
  runs (cluster (t ++ 0 :: r) (hd_error ps) o) tr out -> group_ends t ws l tr out.
Proof.
  induction t as [|c t IH]; intros r ws ps l o tr out N F M R; cbn [app cluster] in R.
  - cbn [Z.eqb] in R. destruct R as [-> ->]. exists []. rewrite app_nil_r. split; [constructor|]. split; [constructor|auto].
  - apply Forall_inv in N as NC. apply Forall_inv_tail in N. destruct (Z.eqb_spec c 0); [lia|].
    pose proof (plain_ok c o) as P. destruct (plain c o) as [o1|].
    + destruct P as [P1 P2]. specialize (IH r ws ps (l ++ [Flag c]) o1 tr out N F (P2 l M) R).
      destruct out as [[|o2|o2]| |]; cbn [group_ends] in *; auto.
      * intros l' ws' l2 u2 G A. inversion G; subst.
        -- cbn [app] in A. inversion A as [|b j m t1 t2 B1 B2]; subst. cbn [allowed] in B1. subst t1. cbn [app] in *. subst t2. eapply IH; eauto.
        -- match goal with H : In c arg_letters |- _ => apply in_args in H; rewrite plain_takes in H by auto; discriminate end.
        -- match goal with H : In c arg_letters |- _ => apply in_args in H; rewrite plain_takes in H by auto; discriminate end.
      * destruct IH as (l' & G & A & B). exists (Flag c :: l'). split; [constructor; auto|]. rewrite <- app_assoc in B. split; auto.
        change tr with ([] ++ tr). constructor; auto. reflexivity.
      * destruct IH as (l' & w & ws' & -> & G & A & B). exists (Flag c :: l'), w, ws'. split; auto. split; [constructor; auto|]. rewrite <- app_assoc in B. split; auto.
        change tr with ([] ++ tr). constructor; auto. reflexivity.
    + destruct (takes c) eqn:T.
      2: { destruct R as [-> ->]. intros l' ws' l2 u2 G. inversion G; subst; [contradiction| |]; (match goal with H : In c arg_letters |- _ => apply in_args in H; congruence end). }
      apply in_args in T.
      assert (D : deref (t ++ 0 :: r) = Ok (hd 0 t)) by (destruct t; reflexivity). rewrite D in R. cbn [lift pbind] in R.
      destruct t as [|c1 t]; cbn [hd] in R.
      * cbn [Z.eqb negb app] in R. destruct ps as [|p ps]; cbn [hd_error] in R.
        -- destruct R as [-> ->]. inversion F; subst. intros l' ws' l2 u2 G. inversion G; subst; contradiction.
        -- inversion F as [|w ? ws' ? W F']; subst.
           apply runs_bind in R as [(x & t1 & t2 & -> & R1 & R2)|[[R1 ->]|[R1 ->]]].
           ++ destruct R2 as [-> ->]. rewrite app_nil_r. apply (set_ok _ _ _ _ _ _ _ T W M) in R1 as [(o' & E & A & B)|[(E & C & A)|[E _]]]; [| |discriminate]; injection E as ->.
              ** exists [Opt c w], w, ws'. split; auto. split; [constructor; auto|]. split; auto. apply allowed_one. auto.
              ** intros l' ws2 l2 u2 G. inversion G; subst; try contradiction. cbn [app]. apply not_allowed; auto.
           ++ apply (set_ok _ _ _ _ _ _ _ T W M) in R1 as [(o' & E & _)|[(E & _)|[E _]]]; discriminate.
           ++ exact Logic.I.
      * pose proof (Forall_inv N) as NC1. cbn beta in NC1. destruct (Z.eqb_spec c1 0); [lia|]. cbn [negb] in R.
        assert (W : is_ptr (c1 :: t) ((c1 :: t) ++ 0 :: r)) by (split; eauto).
        apply runs_bind in R as [(x & t1 & t2 & -> & R1 & R2)|[[R1 ->]|[R1 ->]]].
        -- destruct R2 as [-> ->]. rewrite app_nil_r. apply (set_ok _ _ _ _ _ _ _ T W M) in R1 as [(o' & E & A & B)|[(E & C & A)|[E _]]]; [| |discriminate]; injection E as ->.
           ++ exists [Opt c (c1 :: t)]. split; [constructor; auto; discriminate|]. split; auto. apply allowed_one. auto.
           ++ intros l' ws2 l2 u2 G. inversion G; subst; try contradiction. cbn [app]. apply not_allowed; auto.
        -- apply (set_ok _ _ _ _ _ _ _ T W M) in R1 as [(o' & E & _)|[(E & _)|[E _]]]; discriminate.
        -- exact Logic.I.
Qed.

Definition line_ends (ws : list (list Z)) (l : list item) (tr : trace) (out : outcome (option (list (list Z) * opts))) : Prop :=
  match out with
  | Fin (Some (ps, o)) => exists l' prg, line ws l' prg /\ Forall2 is_ptr prg ps /\ all_allowed l l' tr /\ means (l ++ l') o
  | Fin None => forall l' prg t2, line ws l' prg -> ~ all_allowed l l' (tr ++ t2)
  | Wrong => False
  | Cut => True
  end.

Lemma group_rest : forall t ws l ws', group t ws l ws' -> ws' = ws \/ exists w, ws = w :: ws'.
Proof. induction 1; eauto. Qed.
Lemma group_fun : forall t ws l ws', group t ws l ws' -> forall l2 ws2, group t ws l2 ws2 -> l2 = l /\ ws2 = ws'.
Proof.
  assert (X : forall c, In c flag_letters -> ~ In c arg_letters) by (intros c A B; apply in_args in B; rewrite plain_takes in B by auto; discriminate).
  induction 1 as [ws|c t ws l ws' I G IH|c t ws I NE|c w ws I]; intros l2 ws2 H; inversion H; subst; try (exfalso; eapply X; eauto; fail); auto; try contradiction.
  match goal with H : group t _ _ _ |- _ => destruct (IH _ _ H) as [-> ->] end. auto.
Qed.

Lemma options_ok : forall n ws ps l o tr out, (length ps <= n)%nat -> Forall2 is_ptr ws ps -> means l o ->
  runs (options ps o) tr out -> line_ends ws l tr out.
Proof.
  induction n as [|n IH]; intros ws ps l o tr out LN F M R.
  { destruct ps; [|cbn [length] in LN; lia]. inversion F; subst. destruct R as [-> ->]. exists [], []. rewrite app_nil_r. repeat (split; [constructor|]). auto. }
  destruct ps as [|p ps]; [inversion F; subst; destruct R as [-> ->]; exists [], []; rewrite app_nil_r; repeat (split; [constructor|]); auto|].
  inversion F as [|w ? ws' ? W F']; subst. destruct W as (N & r & ->). cbn [options] in R. cbn [length] in LN.
  assert (D : deref (w ++ 0 :: r) = Ok (hd 0 w)) by (destruct w; reflexivity). rewrite D in R. cbn [lift pbind] in R.
  destruct (Z.eqb_spec (hd 0 w) 45) as [H45|H45]; cbn [negb] in R.
  2: { destruct R as [-> ->]. exists [], (w :: ws'). rewrite app_nil_r. split; [constructor; auto|]. split; [constructor; auto; split; eauto|]. split; [constructor|auto]. }
  destruct w as [|c t]; [discriminate|]. cbn [hd] in H45. subst c. pose proof (Forall_inv_tail N) as NT.
  assert (DD : dashes ((45 :: t) ++ 0 :: r) = Ok (match t with [] => true | [c] => c =? 45 | _ => false end)).
  { unfold dashes. destruct t as [|c1 t]; cbn [app ld nth_error bind]; [reflexivity|].
    pose proof (Forall_inv NT) as NC1. cbn beta in NC1. destruct (Z.eqb_spec c1 0); [lia|]. destruct (Z.eqb_spec c1 45) as [->|N1].
    - destruct t as [|c2 t]; cbn [app]; [reflexivity|]. pose proof (Forall_inv (Forall_inv_tail NT)) as NC2. cbn beta in NC2. replace (ld (45 :: 45 :: c2 :: t ++ 0 :: r) 2) with (Ok c2) by reflexivity. cbn [bind]. f_equal. apply Z.eqb_neq. lia.
    - destruct t; [|reflexivity]. destruct (Z.eqb_spec c1 45); auto. }
  rewrite DD in R. cbn [lift pbind] in R. clear DD D.
  assert (DC : (t = [] \/ t = bs "-") \/ (t <> [] /\ t <> bs "-")).
  { destruct t as [|c1 [|c2 t]]; auto; [|right; split; discriminate]. destruct (Z.eq_dec c1 45) as [->|X]; [left; right; reflexivity|right; split; [discriminate|]].
    intros E. injection E as E. auto. }
  destruct DC as [[-> | ->]|[T0 T1]].
  { destruct R as [-> ->]. exists [], ws'. rewrite app_nil_r. split; [apply line_dash|]. split; auto. split; [constructor|auto]. }
  { destruct R as [-> ->]. exists [], ws'. rewrite app_nil_r. split; [apply line_dashes|]. split; auto. split; [constructor|auto]. }
  assert (B : (match t with [] => true | [c] => c =? 45 | _ => false end) = false).
  { destruct t as [|c1 [|c2 t]]; auto; [congruence|]. apply Z.eqb_neq. intros ->. apply T1. reflexivity. }
  rewrite B in R. cbn [app tl] in R.
  assert (INV : forall l' prg, line ((45 :: t) :: ws') l' prg -> exists l1 l2 ws1, l' = l1 ++ l2 /\ group t ws' l1 ws1 /\ line ws1 l2 prg).
  { intros l' prg L. inversion L; subst; try (cbn [hd] in *; congruence); try (exfalso; apply T1; reflexivity). eauto 7. }
  apply runs_bind in R as [(x & t1 & t2 & -> & R1 & R2)|[[R1 ->]|[R1 ->]]]; [| |exact Logic.I];
    apply (cluster_ok t r ws' ps l o) in R1; auto.
  destruct x as [|o1|o1]; cbn [group_ends] in R1.
  - destruct R2 as [-> ->]. rewrite app_nil_r. intros l' prg u2 L. apply INV in L as (l1 & l2 & ws1 & -> & G & _). eauto.
  - destruct R1 as (l1 & G & A & M1). apply (IH ws' ps (l ++ l1) o1) in R2; auto; [|lia].
    destruct out as [[[q o2]|]| |]; cbn [line_ends] in *; auto.
    + destruct R2 as (l2 & prg & L2 & P2 & A2 & M2). exists (l1 ++ l2), prg. split; [econstructor; eauto|]. split; auto. rewrite <- app_assoc in M2. split; auto.
      apply allowed_app; auto.
    + intros l' prg u2 L AL. apply INV in L as (l1' & l2' & ws1 & -> & G' & L'). destruct (group_fun _ _ _ _ G _ _ G') as [-> ->].
      rewrite <- app_assoc in AL. apply (R2 l2' prg u2 L'). eapply allowed_cut; eauto.
  - destruct R1 as (l1 & w & ws1 & -> & G & A & M1). inversion F' as [|? p ? ps' W F2]; subst. cbn [length] in LN.
    apply (IH ws1 ps' (l ++ l1) o1) in R2; auto; [|lia].
    destruct out as [[[q o2]|]| |]; cbn [line_ends] in *; auto.
    + destruct R2 as (l2 & prg & L2 & P2 & A2 & M2). exists (l1 ++ l2), prg. split; [econstructor; eauto|]. split; auto. rewrite <- app_assoc in M2. split; auto.
      apply allowed_app; auto.
    + intros l' prg u2 L AL. apply INV in L as (l1' & l2' & ws2 & -> & G' & L'). destruct (group_fun _ _ _ _ G _ _ G') as [-> ->].
      rewrite <- app_assoc in AL. apply (R2 l2' prg u2 L'). eapply allowed_cut; eauto.
Qed.

Lemma line_fun : forall ws l prg, line ws l prg -> forall l2 prg2, line ws l2 prg2 -> l2 = l /\ prg2 = prg.
Proof.
  induction 1 as [|w ws H|ws|ws|t ws l ws' l' ws'' N1 N2 G L IH]; intros l2 prg2 L2; inversion L2; subst; try (cbn [hd] in *; congruence); auto;
    try (exfalso; apply H; reflexivity); try (exfalso; match goal with H : _ <> _ |- _ => apply H; reflexivity end).
  match goal with X : group t ws _ _ |- _ => destruct (group_fun _ _ _ _ G _ _ X) as [-> ->] end.
  match goal with X : line ws' _ _ |- _ => destruct (IH _ _ X) as [-> ->] end. auto.
Qed.

Lemma timeout_ok : forall a d p, str_is a d p -> exists r, timeout_parse p = Ok r /\
  match r with Some v => seconds a d v | None => forall v, ~ seconds a d v end.
Proof.
  intros a d p (N & r & ->). unfold timeout_parse, seconds. destruct (parsenum_correct _ r 1 86400 N) as (ret & num & E & H).
  rewrite E. cbn [bind]. eexists. split; [reflexivity|].
  destruct H as [(-> & S & I)|(-> & -> & S)]; cbn [Z.eqb].
  - unfold in_range in I. split; [exact S|lia].
  - intros v [V I]. apply (S v V). unfold in_range, in_s64, two63. lia.
Qed.
Lemma seconds_fun : forall a d v w, seconds a d v -> seconds a d w -> v = w.
Proof.
  intros a d v w [A A2] [B B2]. revert A B. generalize (match a with Some s => s | None => d end) as s. intros s A B.
  inversion A; subst; inversion B; subst; auto; try lia;
    match goal with H : numeral (_ :: _) |- _ => destruct H as [H|(? & ? & H & ? & ?)]; [discriminate|injection H as <- <-; lia] end.
Qed.

Lemma start_means : forall c, holds [] c -> means [] (start_opts c).
Proof.
  intros c H. constructor; try reflexivity; cbn; auto.
  - exists []. split; auto. constructor; reflexivity.
  - split; [repeat constructor|exists []; reflexivity].
  - split; [repeat constructor|exists []; reflexivity].
  - split; [repeat constructor|exists []; reflexivity].
Qed.

Lemma last_arg_none : forall c l, last_arg c l = None <-> args c l = [].
Proof.
  intros c l. unfold last_arg. split; [|intros ->; reflexivity]. intros H. rewrite <- (rev_involutive (args c l)). destruct (rev (args c l)); [reflexivity|discriminate].
Qed.

Definition command_ends (ws : list (list Z)) (tr : trace) (out : outcome (option command)) : Prop :=
  match out with
  | Fin (Some cmd) => exists l prg, accepted ws l prg (timeout cmd) (hstimeout cmd) tr /\ Forall2 is_ptr prg (program cmd) /\ means l (settings cmd)
  | Fin None => forall l prg t h t2, ~ accepted ws l prg t h (tr ++ t2)
  | Wrong => False
  | Cut => True
  end.

Lemma command_ok : forall a ws ps tr out, Forall2 is_ptr ws ps -> runs (command_line (a :: ps)) tr out -> command_ends ws tr out.
Proof.
  intros a ws ps tr out F R. unfold command_line in R. destruct start_holds as (c & E & H). rewrite E in R. cbn [lift pbind] in R.
  apply runs_bind in R as [(x & t1 & t2 & -> & R1 & R2)|[[R1 ->]|[R1 ->]]]; [| |exact Logic.I];
    apply (options_ok (length ps) ws ps [] (start_opts c)) in R1; auto using start_means.
  destruct x as [[prg o]|]; cbn [line_ends] in R1.
  2: { destruct R2 as [-> ->]. rewrite app_nil_r. intros l prg t h u2 A. apply (R1 l prg u2); apply A. }
  destruct R1 as (l & prg' & L & P & A & M). cbn [app] in M. destruct (m_cfg _ _ M) as (ss & HS & CM).
  assert (NO : runs (Ret None) t2 out -> (forall t h u2, ~ accepted ws l prg' t h (t1 ++ u2)) -> command_ends ws (t1 ++ t2) out).
  { intros [-> ->] X. rewrite app_nil_r. intros l2 prg2 t h u2 Y. destruct (line_fun _ _ _ L _ _ (a_line _ _ _ _ _ _ Y)) as [-> ->]. eapply X; eauto. }
  destruct prg as [|p prg].
  { apply (NO R2). intros t h u2 Y. inversion P; subst. apply (a_program _ _ _ _ _ _ Y). reflexivity. }
  assert (CE : length (certfiles (cfg o)) = length (entries l)).
  { rewrite <- (h_certs _ _ HS). apply entries_length. auto. }
  destruct (certfiles (cfg o)) as [|e es].
  { apply (NO R2). intros t h u2 Y. apply (a_entries _ _ _ _ _ _ Y). destruct (entries l); [reflexivity|discriminate]. }
  pose proof (m_certuser _ _ M) as CU.
  assert (AN : args 97 l = [] <-> anchorfn (cfg o) = None).
  { rewrite <- (cm_anchor _ _ CM), (h_anchor _ _ HS). destruct (anchorfn (cfg o)); cbn; split; congruence. }
  assert (UN : args 85 l = [] <-> certuser o = None).
  { rewrite <- last_arg_none. destruct (last_arg 85 l), (certuser o); cbn [opt_is] in CU; split; try congruence; try contradiction. }
  destruct (match certuser o, anchorfn (cfg o) with Some _, None => true | _, _ => false end) eqn:D1.
  { apply (NO R2). intros t h u2 Y. apply (a_anchor _ _ _ _ _ _ Y); [rewrite UN|apply AN]; destruct (certuser o), (anchorfn (cfg o)); congruence. }
  destruct (match certuser o with Some _ => delayed o | None => false end) eqn:D2.
  { apply (NO R2). intros t h u2 Y. pose proof (a_delay _ _ _ _ _ _ Y) as Z. rewrite <- (m_delay _ _ M) in Z. rewrite UN in Z. destruct (certuser o); [|discriminate]. rewrite Z in D2; discriminate. }
  destruct (timeout_ok _ _ _ (m_to _ _ M)) as (rt & E1 & T1). rewrite E1 in R2. cbn [lift pbind] in R2.
  destruct rt as [t|]; [|apply (NO R2); intros t h u2 Y; apply (T1 t), Y].
  destruct (timeout_ok _ _ _ (m_hs _ _ M)) as (rh & E2 & T2). rewrite E2 in R2. cbn [lift pbind] in R2.
  destruct rh as [h|]; [|apply (NO R2); intros t0 h u2 Y; apply (T2 h), Y].
  destruct R2 as [-> ->]. rewrite app_nil_r. exists l, prg'. cbn [timeout hstimeout program settings]. split; [|auto]. constructor; auto.
  - intros ->. inversion P.
  - intros X. rewrite X in CE. discriminate.
  - rewrite UN, AN. intros X Y. rewrite Y in D1. destruct (certuser o); congruence.
  - rewrite UN, <- (m_delay _ _ M). intros X. destruct (certuser o); congruence.
Qed.
