(** C77, C78: the command lines of tlswrapper-tcp and tlswrapper-smtp. *)
From Verif.Model Require Import Base Str Inet InetIsc Parsenum Parsehostport Getopt Lookup Tcpmain Smtpmain.
From Verif.Spec Require Import Text Num Settings Cmdline Hostport Words.
From Verif.Proof Require Import Tac StrP NumP ConfigP OptionsP GetoptP HostportP.
From Verif.Props Require Import PropOptions.

(** ** tlswrapper-tcp *)
(** what accepted options set *)
Record tcp_sets (l : list item) (o : topts) : Prop := {
  ts_level : tverbose o = loudness l;
  ts_ppin : tppin o = true <-> In (bs "1") (args 112 l);
  ts_ppout : tppout o = true <-> In (bs "1") (args 80 l);
  ts_connect : points (given (last_arg 84 l) (bs "10")) (ctimeoutstr o);
  ts_timeout : points (given (last_arg 116 l) (bs "3600")) (ttimeoutstr o);
  ts_dir : points (given (last_arg 74 l) (bs "/var/lib/tlswrapper/empty")) (tdir o);
  ts_account : maybe (last_arg 106 l) (taccount o) }.
Definition tcp_ok (i : item) : Prop := match i with Opt c a => c = 112 \/ c = 80 -> a = bs "0" \/ a = bs "1" | Flag _ => True end.
Lemma tcp_ok_all : forall l, Forall tcp_ok l <-> forall a, In a (args 112 l) \/ In a (args 80 l) -> a = bs "0" \/ a = bs "1".
Proof.
  intros l. rewrite Forall_forall. unfold args. split.
  - intros H a [I|I]; apply in_flat_map in I as ([c|c b] & I1 & I2); try destruct I2.
    + destruct (Z.eqb_spec c 112); [|destruct I2]. destruct I2 as [->|[]]. apply (H _ I1). auto.
    + destruct (Z.eqb_spec c 80); [|destruct I2]. destruct I2 as [->|[]]. apply (H _ I1). auto.
  - intros H [c|c b] I; [exact Logic.I|]. intros [-> | ->]; apply H; [left|right]; apply in_flat_map; eexists; (split; [exact I|]); left; reflexivity.
Qed.
Ltac snoc := rewrite ?last_flag_snoc, ?last_arg_snoc, ?args_app, ?args_opt, ?args_flag, ?app_nil_r, ?loud_snoc.
Lemma tcp_plain_ok : forall c o, match tcp_plain c o with
  | Some o' => In c (bs "qQv") /\ forall l, tcp_sets l o -> tcp_sets (l ++ [Flag c]) o'
  | None => ~ In c (bs "qQv") end.
Proof.
  intros c o. unfold tcp_plain. assert (FL : bs "qQv" = [113; 81; 118]) by reflexivity. rewrite FL. clear FL.
  repeat match goal with |- context [if ?c =? ?n then Some _ else _] => destruct (Z.eqb_spec c n);
    [subst c; split; [cbn [In]; auto 10|]; intros l [A B C D E F G]; constructor; cbn [tverbose tppin tppout ctimeoutstr ttimeoutstr tdir taccount set_tverbose]; snoc; cbn [Z.eqb Pos.eqb]; auto; lia|] end.
  cbn [In]. intuition.
Qed.
Lemma tcp_takes_ok : forall c, In c (bs "TtpPJj") <-> tcp_takes c = true.
Proof.
  intros c. unfold tcp_takes. rewrite existsb_exists. split.
  - intros I. exists c. split; [exact I|apply Z.eqb_refl].
  - intros (d & I & E). apply Z.eqb_eq in E. subst. exact I.
Qed.
Lemma tcp_disjoint : forall c, In c (bs "qQv") -> tcp_takes c = false.
Proof. intros c I. change (bs "qQv") with [113; 81; 118] in I. cbn [In] in I. repeat (destruct I as [<-|I]; [reflexivity|]). destruct I. Qed.
Lemma tcp_option_ok : forall c a x l o, In c (bs "TtpPJj") -> is_ptr a x -> tcp_sets l o ->
  exists r, tcp_option c x o = Ok r /\ match r with Some o' => tcp_ok (Opt c a) /\ tcp_sets (l ++ [Opt c a]) o' | None => ~ tcp_ok (Opt c a) end.
Proof.
  intros c a x l o I P M. change (bs "TtpPJj") with [84; 116; 112; 80; 74; 106] in I. cbn [In] in I.
  assert (IA : forall (l0 : list (list Z)), In (bs "1") (l0 ++ [bs "0"]) <-> In (bs "1") l0) by (intros l0; rewrite in_app_iff; cbn [In]; intuition discriminate).
  assert (IB : forall (l0 : list (list Z)), In (bs "1") (l0 ++ [bs "1"])) by (intros l0; rewrite in_app_iff; cbn [In]; auto).
  repeat destruct I as [<-|I]; try destruct I; unfold tcp_option; cbn [Z.eqb Pos.eqb].
  1,2,5,6: eexists; split; [reflexivity|]; split; [intros [X|X]; discriminate|]; destruct M as [A B C D E F G];
    constructor; cbn [tverbose tppin tppout ctimeoutstr ttimeoutstr tdir taccount set_ctimeout set_ttimeout set_tdir set_taccount]; snoc; cbn [Z.eqb Pos.eqb given maybe]; rewrite ?app_nil_r; auto.
  all: rewrite (pp_ok _ _ P); cbn [bind]; destruct (same_spec (bs "0") a) as [<-|D0]; [|destruct (same_spec (bs "1") a) as [<-|D1]]; (eexists; split; [reflexivity|]).
  3,6: intros X; destruct X as [->| ->]; auto.
  all: split; [cbn; auto|]; destruct M as [A B C D E F G];
    constructor; cbn [tverbose tppin tppout ctimeoutstr ttimeoutstr tdir taccount set_tppin set_tppout]; snoc; cbn [Z.eqb Pos.eqb given maybe]; rewrite ?app_nil_r, ?IA; auto; split; auto.
Qed.
Lemma tcp_start_sets : tcp_sets [] tcp_start.
Proof.
  constructor; try reflexivity; cbn [args flat_map In tppin tppout tcp_start maybe]; try (split; [discriminate|intros []]); (split; [repeat constructor|exists []; reflexivity]).
Qed.

(** The line is accepted exactly if it is one of the manual, and never is memory outside of the words read. *)
Theorem C77_exact : forall name words argv, Forall2 points words argv ->
  exists r, tcp_command (name :: argv) = Ok r /\
  match r with
  | Some cmd => exists l host port, tcp_line words l host port (ttimeout cmd) (tconnect cmd) /\ tcp_sets l (tset cmd) /\
      points host (thost cmd) /\ tport cmd = [port / 256; port mod 256]
  | None => forall l host port t c, ~ tcp_line words l host port t c
  end.
Proof.
  intros name words argv FW. unfold tcp_command.
  destruct (options_ok topts tcp_plain tcp_takes tcp_option _ _ tcp_ok tcp_sets tcp_plain_ok (fun _ => Logic.I) tcp_takes_ok tcp_disjoint tcp_option_ok
    (length argv) words argv [] tcp_start (le_n _) FW tcp_start_sets) as (r & E & H). rewrite E. cbn [bind].
  destruct r as [[ps o]|]; cbn [line_ends app] in H.
  2: { eexists. split; [reflexivity|]. intros l host port t c [(p & rest & L & _) A _ _]. apply (H _ _ L). apply tcp_ok_all. exact A. }
  destruct H as (l & prg & L & P & A & M).
  assert (FUN := wline_fun tcp_takes _ _ tcp_takes_ok tcp_disjoint _ _ _ L).
  destruct P as [|host hp prg ps HP P].
  { eexists. split; [reflexivity|]. intros l2 host port t c [(p & rest & L2 & _) _ _ _]. destruct (FUN _ _ L2). discriminate. }
  destruct P as [|port pp prg ps PP P].
  { eexists. split; [reflexivity|]. intros l2 host2 port t c [(p & rest & L2 & _) _ _ _]. destruct (FUN _ _ L2). discriminate. }
  destruct (port_ok _ _ PP) as (rp & E1 & H1). rewrite E1. cbn [bind].
  destruct rp as [[p0 p1]|].
  2: { eexists. split; [reflexivity|]. intros l2 host2 p t c [(q & rest & L2 & PQ) _ _ _]. destruct (FUN _ _ L2) as [_ X]. injection X as _ -> _. exact (H1 _ PQ). }
  destruct H1 as (n & H1 & BY).
  destruct (seconds_ok (last_arg 116 l) (bs "3600") _ (ts_timeout _ _ M)) as (rt & E2 & H2). rewrite E2. cbn [bind].
  destruct rt as [t|].
  2: { eexists. split; [reflexivity|]. intros l2 host2 p t c [(q & rest & L2 & PQ) _ T _]. destruct (FUN _ _ L2) as [-> _]. exact (H2 _ T). }
  destruct (seconds_ok (last_arg 84 l) (bs "10") _ (ts_connect _ _ M)) as (rc & E3 & H3). rewrite E3. cbn [bind].
  destruct rc as [c|].
  2: { eexists. split; [reflexivity|]. intros l2 host2 p t' c [(q & rest & L2 & PQ) _ _ T]. destruct (FUN _ _ L2) as [-> _]. exact (H3 _ T). }
  eexists. split; [reflexivity|]. cbn [ttimeout tconnect tset thost tport]. exists l, host, n. split; [|auto].
  constructor; auto; [eauto|]. apply tcp_ok_all. exact A.
Qed.
(** One reading of a line. *)
Theorem C77_unique : forall words l host port t c l' host' port' t' c', tcp_line words l host port t c -> tcp_line words l' host' port' t' c' ->
  l' = l /\ host' = host /\ port' = port /\ t' = t /\ c' = c.
Proof.
  intros words l host port t c l' host' port' t' c' [(p & r & L & P) _ T C] [(p' & r' & L' & P') _ T' C'].
  destruct (wline_fun tcp_takes _ _ tcp_takes_ok tcp_disjoint _ _ _ L _ _ L') as [-> X]. injection X as -> -> ->.
  repeat split; [eapply port_fun; eauto|eapply seconds_fun; eauto|eapply seconds_fun; eauto].
Qed.

Definition tcp_words : list (list Z) := [bs "-qvvP1"; bs "-T"; bs "5"; bs "-p"; bs "0"; bs "--"; bs "-host"; bs "443"; bs "more"].
Example ex_tcp : Forall2 points tcp_words (vec tcp_words) /\ exists cmd, tcp_command (vec (bs "tlswrapper-tcp" :: tcp_words)) = Ok (Some cmd) /\
  tport cmd = [1; 187] /\ tconnect cmd = 5 /\ ttimeout cmd = 3600 /\ tverbose (tset cmd) = 2 /\ tppin (tset cmd) = false /\ tppout (tset cmd) = true.
Proof.
  split; [repeat apply Forall2_cons; try apply Forall2_nil; (split; [repeat constructor|exists []; reflexivity])|].
  eexists. split; [vm_compute; reflexivity|]. repeat split.
Qed.
(** no host; no port; ports that are none; a letter that is none; a missing argument; a timeout of 0; a PROXY version that is none *)
Example ex_tcp_refused : Forall (fun w => tcp_command (vec (bs "tlswrapper-tcp" :: w)) = Ok None)
  [[]; [bs "h"]; [bs "h"; bs "65536"]; [bs "h"; bs "+25"]; [bs "-x"; bs "h"; bs "25"]; [bs "-T"]; [bs "-t0"; bs "h"; bs "25"]; [bs "-P2"; bs "h"; bs "25"]].
Proof. repeat apply Forall_cons; try apply Forall_nil; vm_compute; reflexivity. Qed.
(** "-p 0" and "-P 0" do not disable the PROXY protocol after "-p 1" and "-P 1". *)
Theorem C77_proxy_off_refuted : exists words argv cmd, Forall2 points words argv /\ tcp_command (bs "tlswrapper-tcp" :: argv) = Ok (Some cmd) /\
  (forall l host port t c, tcp_line words l host port t c -> last_arg 112 l = Some (bs "0") /\ last_arg 80 l = Some (bs "0")) /\
  tppin (tset cmd) = true /\ tppout (tset cmd) = true.
Proof.
  pose (w := [bs "-p1"; bs "-P1"; bs "-p0"; bs "-P0"; bs "host"; bs "25"]).
  assert (P : Forall2 points w (vec w)) by (repeat apply Forall2_cons; try apply Forall2_nil; (split; [repeat constructor|exists []; reflexivity])).
  assert (E : exists cmd, tcp_command (bs "tlswrapper-tcp" :: vec w) = Ok (Some cmd) /\ tppin (tset cmd) = true /\ tppout (tset cmd) = true) by (eexists; split; [vm_compute; reflexivity|split; reflexivity]).
  destruct E as (cmd & E & E1 & E2). exists w, (vec w), cmd. split; auto. split; auto. split; auto.
  intros l host port t c [(p & r & L & _) _ _ _].
  assert (LN : wline (bs "qQv") (bs "TtpPJj") w [Opt 112 (bs "1"); Opt 80 (bs "1"); Opt 112 (bs "0"); Opt 80 (bs "0")] [bs "host"; bs "25"]).
  { assert (G : forall c d ws l p, In c (bs "TtpPJj") -> wline (bs "qQv") (bs "TtpPJj") ws l p -> wline (bs "qQv") (bs "TtpPJj") ([45; c; d] :: ws) (Opt c [d] :: l) p).
    { intros c0 d ws l0 p0 I X. change (Opt c0 [d] :: l0) with ([Opt c0 [d]] ++ l0). eapply wline_group; [discriminate|discriminate|apply wgroup_joined; [exact I|discriminate]|exact X]. }
    do 4 (apply G; [cbn; auto 20|]). apply wline_rest. discriminate. }
  destruct (wline_fun tcp_takes _ _ tcp_takes_ok tcp_disjoint _ _ _ LN _ _ L) as [-> _]. split; reflexivity.
Qed.
Print Assumptions C77_exact. Print Assumptions C77_unique. Print Assumptions C77_proxy_off_refuted.

(** ** tlswrapper-smtp *)
Record smtp_sets (l : list item) (o : sopts) : Prop := {
  ss_level : sverbose o = loudness l;
  ss_closed : sfailclosed o = last_flag 99 67 false l;
  ss_user : maybe (last_arg 117 l) (suser o);
  ss_crw : points (given (last_arg 84 l) (bs "15")) (crwstr o);
  ss_timeout : points (given (last_arg 116 l) (bs "600")) (stimeoutstr o);
  ss_grey : maybe (last_arg 103 l) (sgrey o);
  ss_dir : points (given (last_arg 74 l) (bs "/var/lib/tlswrapper/empty")) (sdir o);
  ss_account : maybe (last_arg 106 l) (saccount o) }.
Ltac sfields := cbn [sverbose sfailclosed suser crwstr stimeoutstr sgrey sdir saccount set_sverbose set_failclosed set_suser set_crw set_stimeout set_sgrey set_sdir set_saccount].
Lemma smtp_plain_ok : forall c o, match smtp_plain c o with
  | Some o' => In c (bs "qQvcC") /\ forall l, smtp_sets l o -> smtp_sets (l ++ [Flag c]) o'
  | None => ~ In c (bs "qQvcC") end.
Proof.
  intros c o. unfold smtp_plain. assert (FL : bs "qQvcC" = [113; 81; 118; 99; 67]) by reflexivity. rewrite FL. clear FL.
  repeat match goal with |- context [if ?c =? ?n then Some _ else _] => destruct (Z.eqb_spec c n);
    [subst c; split; [cbn [In]; auto 10|]; intros l [A B C D E F G H]; constructor; sfields; snoc; cbn [Z.eqb Pos.eqb]; auto; lia|] end.
  cbn [In]. intuition.
Qed.
Lemma smtp_takes_ok : forall c, In c (bs "uTtgJj") <-> smtp_takes c = true.
Proof.
  intros c. unfold smtp_takes. rewrite existsb_exists. split.
  - intros I. exists c. split; [exact I|apply Z.eqb_refl].
  - intros (d & I & E). apply Z.eqb_eq in E. subst. exact I.
Qed.
Lemma smtp_disjoint : forall c, In c (bs "qQvcC") -> smtp_takes c = false.
Proof. intros c I. change (bs "qQvcC") with [113; 81; 118; 99; 67] in I. cbn [In] in I. repeat (destruct I as [<-|I]; [reflexivity|]). destruct I. Qed.
Lemma smtp_option_ok : forall c a x l o, In c (bs "uTtgJj") -> is_ptr a x -> smtp_sets l o ->
  exists r, smtp_option c x o = Ok r /\ match r with Some o' => True /\ smtp_sets (l ++ [Opt c a]) o' | None => ~ True end.
Proof.
  intros c a x l o I P [A B C D E F G H]. change (bs "uTtgJj") with [117; 84; 116; 103; 74; 106] in I. cbn [In] in I.
  eexists. split; [reflexivity|]. split; [exact Logic.I|].
  repeat destruct I as [<-|I]; try destruct I; cbn [Z.eqb Pos.eqb]; constructor; sfields; snoc; cbn [Z.eqb Pos.eqb given maybe]; rewrite ?app_nil_r; auto.
Qed.
Lemma smtp_start_sets : smtp_sets [] smtp_start.
Proof.
  constructor; try reflexivity; cbn; auto; (split; [repeat constructor|exists []; reflexivity]).
Qed.

(** -g *)
Lemma host_nonul : forall I s h p, nonul s -> hp_ok I true s h p -> nonul h /\ nonul p.
Proof.
  intros I s h p N (six & F & _). unfold nonul in *. rewrite Forall_forall in N.
  inversion F; subst; split; rewrite Forall_forall; intros x X; apply N; try (destruct X; fail);
    try exact X; repeat (rewrite in_app_iff || cbn [In]); auto 6.
Qed.
Lemma grey_ok : forall I junk a x, length junk = 6%nat -> is_ptr a x -> exists r, grey_command I junk (Some x) = Ok r /\
  match r with
  | Some g => exists host p port, g = Some (stored 256 host, [port / 256; port mod 256]) /\ hp_ok I true a host p /\ is_port p port
  | None => forall host p port, ~ (hp_ok I true a host p /\ is_port p port)
  end.
Proof.
  intros I junk a x J (N & r & ->). unfold grey_command.
  destruct (parsehostport_correct I (repeat 0 256) (Some junk) a r N) as (ret & h & p & E & H); [apply repeat_length|intros q Q; injection Q as <-; exact J|].
  rewrite E. cbn [bind]. destruct H as [(-> & host & port & HP & -> & ->)|(-> & _ & _ & NO)]; cbn [Z.eqb option_map].
  2: { eexists. split; [reflexivity|]. intros host p0 port [X _]. exact (NO _ _ X). }
  destruct (host_nonul _ _ _ _ N HP) as [NH NP].
  assert (LP : (length port <= 5)%nat).
  { destruct HP as (six & _ & _ & _ & W). destruct (W eq_refl) as [-> |[NU D]]; [cbn; lia|].
    destruct NU as [-> |(d & t & -> & D1 & D2)]; [cbn; lia|].
    destruct (Compare_dec.le_lt_dec (length (d :: t)) 5) as [|L]; [auto|exfalso].
    cbn [length] in L. cbn [decval] in D. unfold len in D. pose proof (Z.pow_le_mono_r 10 5 (Z.of_nat (length t)) ltac:(lia) ltac:(lia)).
    change (10 ^ 5) with 100000 in *. pose proof (decval_nonneg t D2). nia. }
  destruct (port_ok port (stored 6 port)) as (rp & E1 & H1).
  { split; auto. unfold stored. destruct (6 - length port)%nat eqn:Q; [lia|]. cbn [repeat]. eauto. }
  change PORTBYTES with 6%nat. rewrite E1. cbn [bind].
  assert (FUN : forall host2 p2, hp_ok I true a host2 p2 -> host2 = host /\ p2 = port).
  { intros host2 p2 (s2 & F2 & _). destruct HP as (s1 & F1 & _). destruct (hp_form_det _ _ _ _ _ _ _ N F1 F2) as (-> & -> & _). auto. }
  destruct rp as [[p0 p1]|].
  - destruct H1 as (n & H1 & BY). eexists. split; [reflexivity|]. exists host, port, n. rewrite BY. auto.
  - eexists. split; [reflexivity|]. intros host2 p2 n [X Y]. destruct (FUN _ _ X) as [-> ->]. exact (H1 _ Y).
Qed.

Theorem C78_exact : forall I junk name words argv, length junk = 6%nat -> Forall2 points words argv ->
  exists r, smtp_command I junk (name :: argv) = Ok r /\
  match r with
  | Some cmd => exists l prg grey, smtp_line I words l prg (stimeout cmd) (scrw cmd) grey /\ smtp_sets l (sset cmd) /\ Forall2 points prg (sprogram cmd) /\
      shost cmd = option_map (fun g => (stored 256 (fst g), [snd g / 256; snd g mod 256])) grey
  | None => forall l prg t c grey, ~ smtp_line I words l prg t c grey
  end.
Proof.
  intros I junk name words argv J FW. unfold smtp_command.
  destruct (options_ok sopts smtp_plain smtp_takes smtp_option _ _ (fun _ => True) smtp_sets smtp_plain_ok (fun _ => Logic.I) smtp_takes_ok smtp_disjoint smtp_option_ok
    (length argv) words argv [] smtp_start (le_n _) FW smtp_start_sets) as (r & E & H). rewrite E. cbn [bind].
  assert (ALL : forall l : list item, Forall (fun _ => True) l) by (intros l; apply Forall_forall; auto).
  destruct r as [[ps o]|]; cbn [line_ends app] in H.
  2: { eexists. split; [reflexivity|]. intros l prg t c g [L _ _ _ _]. apply (H _ _ L). apply ALL. }
  destruct H as (l & prg & L & P & A & M).
  assert (FUN := wline_fun smtp_takes _ _ smtp_takes_ok smtp_disjoint _ _ _ L).
  destruct ps as [|p0 ps].
  { eexists. split; [reflexivity|]. intros l2 prg2 t c g [L2 NE _ _ _]. destruct (FUN _ _ L2) as [_ ->]. inversion P; subst. auto. }
  destruct (seconds_ok (last_arg 116 l) (bs "600") _ (ss_timeout _ _ M)) as (rt & E2 & H2). rewrite E2. cbn [bind].
  destruct rt as [t|].
  2: { eexists. split; [reflexivity|]. intros l2 prg2 t c g [L2 _ T _ _]. destruct (FUN _ _ L2) as [-> _]. exact (H2 _ T). }
  destruct (seconds_ok (last_arg 84 l) (bs "15") _ (ss_crw _ _ M)) as (rc & E3 & H3). rewrite E3. cbn [bind].
  destruct rc as [c|].
  2: { eexists. split; [reflexivity|]. intros l2 prg2 t' c g [L2 _ _ T _]. destruct (FUN _ _ L2) as [-> _]. exact (H3 _ T). }
  assert (NE : prg <> []) by (intros ->; inversion P).
  pose proof (ss_grey _ _ M) as G. destruct (last_arg 103 l) as [a|] eqn:LA, (sgrey o) as [x|]; cbn [maybe] in G; try contradiction.
  - destruct (grey_ok I junk a x J G) as (rg & E4 & H4). rewrite E4. cbn [bind]. eexists. split; [reflexivity|].
    destruct rg as [g|].
    + destruct H4 as (host & p & port & -> & HP & IP). exists l, prg, (Some (host, port)). cbn [stimeout scrw sset sprogram shost option_map fst snd].
      split; [|auto]. constructor; auto. rewrite LA. eauto.
    + intros l2 prg2 t' c' g [L2 _ _ _ T]. destruct (FUN _ _ L2) as [-> _]. rewrite LA in T. destruct g as [[host port]|]; [|destruct T]. destruct T as (p & T). exact (H4 _ _ _ T).
  - cbn [grey_command bind]. eexists. split; [reflexivity|]. exists l, prg, None. cbn [stimeout scrw sset sprogram shost option_map].
    split; [|auto]. constructor; auto. rewrite LA. exact Logic.I.
Qed.
Theorem C78_unique : forall I words l prg t c g l' prg' t' c' g', Forall nonul words -> smtp_line I words l prg t c g -> smtp_line I words l' prg' t' c' g' ->
  l' = l /\ prg' = prg /\ t' = t /\ c' = c /\ g' = g.
Proof.
  intros I words l prg t c g l' prg' t' c' g' N [L _ T C G] [L' _ T' C' G'].
  destruct (wline_fun smtp_takes _ _ smtp_takes_ok smtp_disjoint _ _ _ L _ _ L') as [-> ->].
  repeat split; [eapply seconds_fun; eauto|eapply seconds_fun; eauto|].
  destruct (last_arg 103 l) as [a|] eqn:LA; [|destruct g, g'; tauto]. destruct g as [[h p]|]; [|destruct G]. destruct g' as [[h' p']|]; [|destruct G'].
  destruct G as (q & (s1 & F1 & _) & P1), G' as (q' & (s2 & F2 & _) & P2).
  assert (NA : nonul a).
  { assert (X : forall ws l prg, wline (bs "qQvcC") (bs "uTtgJj") ws l prg -> Forall nonul ws -> forall c a, In (Opt c a) l -> nonul a).
    { assert (Y : forall t ws l ws', wgroup (bs "qQvcC") (bs "uTtgJj") t ws l ws' -> nonul t -> Forall nonul ws -> Forall nonul ws' /\ forall c a, In (Opt c a) l -> nonul a).
      { induction 1 as [ws|c0 t0 ws l0 ws' I0 G0 IH|c0 t0 ws I0 NE|c0 w ws I0]; intros NT NW.
        - split; auto. intros ? ? [].
        - apply Forall_inv_tail in NT. destruct (IH NT NW) as [Y1 Y2]. split; auto. intros c1 a1 [X|X]; [discriminate|eauto].
        - split; auto. intros c1 a1 [X|[]]. injection X as <- <-. apply Forall_inv_tail in NT. exact NT.
        - split; [eapply Forall_inv_tail; eauto|]. intros c1 a1 [X|[]]. injection X as <- <-. eapply Forall_inv; eauto. }
      induction 1 as [|w ws H|ws|ws|t0 ws l0 ws' l1 ws'' N1 N2 G0 L0 IH]; intros NW c0 a0 X; try destruct X.
      apply Y in G0 as [Y1 Y2]; [|apply Forall_inv in NW; apply Forall_inv_tail in NW; exact NW|eapply Forall_inv_tail; eauto].
      apply in_app_or in X as [X|X]; eauto. }
    apply (X _ _ _ L N 103 a). unfold last_arg in LA. destruct (rev (args 103 l)) eqn:R; [discriminate|]. cbn in LA. injection LA as ->.
    assert (IN : In a (args 103 l)) by (apply in_rev; rewrite R; left; reflexivity).
    unfold args in IN. apply in_flat_map in IN as ([d|d b] & I1 & I2); [destruct I2|]. destruct (Z.eqb_spec d 103); [|destruct I2]. destruct I2 as [->|[]]. subst. exact I1. }
  destruct (hp_form_det _ _ _ _ _ _ _ NA F1 F2) as (-> & -> & _). rewrite (port_fun _ _ _ P1 P2). reflexivity.
Qed.

Definition smtp_words : list (list Z) := [bs "-cvg[::1]:10023"; bs "-u"; bs "mail"; bs "-C"; bs "-t900"; bs "smtpd"; bs "-x"].
Example ex_smtp : Forall2 points smtp_words (vec smtp_words) /\ exists cmd, smtp_command isc (repeat 0 6) (vec (bs "tlswrapper-smtp" :: smtp_words)) = Ok (Some cmd) /\
  stimeout cmd = 900 /\ scrw cmd = 15 /\ sverbose (sset cmd) = 2 /\ sfailclosed (sset cmd) = false /\ shost cmd = Some (stored 256 (bs "::1"), [39; 39]) /\ length (sprogram cmd) = 2%nat.
Proof.
  split; [repeat apply Forall2_cons; try apply Forall2_nil; (split; [repeat constructor|exists []; reflexivity])|].
  eexists. split; [vm_compute; reflexivity|]. repeat split.
Qed.
(** no program; greylisting servers without a port or with a wrong one; a letter that is none; a timeout that is too long *)
Example ex_smtp_refused : Forall (fun w => smtp_command isc (repeat 0 6) (vec (bs "tlswrapper-smtp" :: w)) = Ok None)
  [[]; [bs "--"]; [bs "-ghost"; bs "p"]; [bs "-ghost:x"; bs "p"]; [bs "-g[host]:25"; bs "p"]; [bs "-d"; bs "p"]; [bs "-T86401"; bs "p"]].
Proof. repeat apply Forall_cons; try apply Forall_nil; vm_compute; reflexivity. Qed.
Print Assumptions C78_exact. Print Assumptions C78_unique.
