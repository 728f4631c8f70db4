(** C64: the command line. *)
From Verif.Model Require Import Base Sys Str Config Parsenum Options.
From Verif.Spec Require Import Text Num Settings Cmdline.
From Verif.Proof Require Import Tac SysP PlayP StrP NumP ConfigP OptionsP.

(** a pointer to a string *)
Definition points (w p : list Z) : Prop := nonul w /\ exists r, p = w ++ 0 :: r.
Definition maybe (x p : option (list Z)) : Prop :=
  match x, p with Some w, Some p => points w p | None, None => True | _, _ => False end.
Definition given (x : option (list Z)) (d : list Z) : list Z := match x with Some w => w | None => d end.

(** The options end without an error exactly on the lines of tlswrapper(1), with the program and the timeouts;
    the calls are those that look at the certificate and anchor files.  They end with an
    error only if no answers to further calls could make the line acceptable. *)
Theorem C64_exact : forall name words argv tr out, Forall2 points words argv -> runs (command_line (name :: argv)) tr out ->
  out <> Wrong /\
  (forall cmd, out = Fin (Some cmd) -> exists l prg, accepted words l prg (timeout cmd) (hstimeout cmd) tr /\ Forall2 points prg (program cmd)) /\
  (out = Fin None -> forall l prg t h rest, ~ accepted words l prg t h (tr ++ rest)).
Proof.
  intros name words argv tr out F R. pose proof (command_ok _ _ _ _ _ F R) as C. unfold command_ends in C.
  split; [intros ->; auto|]. split.
  - intros cmd ->. destruct C as (l & prg & A & P & _). eauto.
  - intros ->. exact C.
Qed.

(** At most one reading of a line. *)
Theorem C64_unique : forall words l prg t h tr l' prg' t' h' tr', accepted words l prg t h tr -> accepted words l' prg' t' h' tr' ->
  l' = l /\ prg' = prg /\ t' = t /\ h' = h.
Proof.
  intros words l prg t h tr l' prg' t' h' tr' A B. destruct (line_fun _ _ _ (a_line _ _ _ _ _ _ A) _ _ (a_line _ _ _ _ _ _ B)) as [-> ->].
  split; auto. split; auto. split; eapply seconds_fun; (apply B || apply A).
Qed.

(** What the accepted options set. *)
Record sets (l : list item) (o : opts) : Prop := {
  s_ciphers : ciphers (cfg o) = wanted_suites (args 99 l);
  s_curves : forall g, 0 <= g -> (Z.testbit (curves (cfg o)) g = true <-> wanted_groups (args 101 l) g);
  s_vmin : wanted_version (args 109 l) = Some (version_min (cfg o));
  s_vmax : wanted_version (args 77 l) = Some (version_max (cfg o));
  s_anchor : args 97 l = match anchorfn (cfg o) with Some x => [text x] | None => [] end;
  s_anchor_ends : forall x, anchorfn (cfg o) = Some x -> points (text x) x;
  s_entries : entries l = map (fun e => (text (fst e), snd e)) (certfiles (cfg o));
  s_prefer : prefer o = last_flag 115 83 true l;
  s_delay : delayed o = last_flag 110 78 false l;
  s_proxy : ppin o = true <-> In (bs "1") (args 112 l);
  s_certuser : maybe (last_arg 85 l) (certuser o);
  s_user : maybe (last_arg 117 l) (user o);
  s_dir : points (given (last_arg 74 l) (bs "/var/lib/tlswrapper/empty")) (jaildir o);
  s_account : maybe (last_arg 106 l) (jailaccount o) }.
Theorem C64_settings : forall name words argv tr cmd l prg t h, Forall2 points words argv ->
  runs (command_line (name :: argv)) tr (Fin (Some cmd)) -> accepted words l prg t h tr -> sets l (settings cmd).
Proof.
  intros name words argv tr cmd l prg t h F R A. destruct (command_ok _ _ _ _ _ F R) as (l' & prg' & A' & _ & M).
  destruct (C64_unique _ _ _ _ _ _ _ _ _ _ _ A A') as (-> & _). destruct M as [(ss & H & [M1 M2 M3 M4 M5 M6]) N1 N2 N3 N4 N5 N6 N7 N8 N9].
  constructor; auto.
  - destruct (h_ciphers _ _ H) as (_ & X & _). rewrite X, M1. reflexivity.
  - destruct (h_curves _ _ H) as (_ & _ & X & _). rewrite <- M2. exact X.
  - rewrite <- M3. apply H.
  - rewrite <- M4. apply H.
  - rewrite <- M5, (h_anchor _ _ H). destruct (anchorfn _); reflexivity.
  - intros x E. pose proof (h_ptr _ _ H) as P. rewrite (h_anchor _ _ H), E in P. apply (cstr_text x). apply (Forall_inv P).
  - rewrite <- M6, (h_certs _ _ H). reflexivity.
  - rewrite N3, existsb_exists. split.
    + intros (x & I & S). destruct (same_spec (bs "1") x) as [E|]; [subst x; exact I|discriminate].
    + intros I. exists (bs "1"). split; [exact I|reflexivity].
Qed.

(** What the manual asks for, in single statements. *)
Theorem C64_prerequisites : forall name words argv tr cmd, Forall2 points words argv -> runs (command_line (name :: argv)) tr (Fin (Some cmd)) ->
  certfiles (cfg (settings cmd)) <> [] /\ program cmd <> [] /\ 1 <= timeout cmd <= 86400 /\ 1 <= hstimeout cmd <= 86400 /\
  (certuser (settings cmd) <> None -> anchorfn (cfg (settings cmd)) <> None /\ delayed (settings cmd) = false).
Proof.
  intros name words argv tr cmd F R. destruct (C64_exact _ _ _ _ _ F R) as (_ & X & _). destruct (X cmd eq_refl) as (l & prg & A & P).
  pose proof (C64_settings _ _ _ _ _ _ _ _ _ F R A) as S.
  split; [intros E; apply (a_entries _ _ _ _ _ _ A); rewrite (s_entries _ _ S), E; reflexivity|].
  split; [intros E; rewrite E in P; inversion P; subst; apply (a_program _ _ _ _ _ _ A); reflexivity|].
  split; [apply A|]. split; [apply A|]. intros C.
  assert (N : args 85 l <> []). { rewrite <- last_arg_none. pose proof (s_certuser _ _ S) as U. destruct (last_arg 85 l); [discriminate|]. destruct (certuser (settings cmd)); [destruct U|congruence]. }
  split; [|rewrite (s_delay _ _ S); apply A; exact N].
  intros E. apply (a_anchor _ _ _ _ _ _ A N). rewrite (s_anchor _ _ S), E. reflexivity.
Qed.

(** An argument vector and files for it. *)
Definition vec (l : list (list Z)) : list (list Z) := map (fun w => w ++ [0]) l.
Definition dir : ans := mkans 0 0 [16877].
Definition file : ans := mkans 0 0 [33188].
Definition ex_words : list (list Z) :=
  [bs "-sNd/etc/certs"; bs "-t"; bs "+120"; bs "-vfsrv.pem"; bs "-a"; bs "ca.pem"; bs "-UcommonName"; bs "-c"; bs "AES_128_CBC_SHA"; bs "--"; bs "-prog"; bs "-d"].
Definition ex_ok (tr : trace) (o : outcome (option command)) : bool :=
  match o with
  | Fin (Some c) => (timeout c =? 120) && (hstimeout c =? 30) && negb (delayed (settings c)) && (Nat.eqb (length tr) 3) &&
      (Nat.eqb (length (program c)) 2) && (Nat.eqb (length (certfiles (cfg (settings c)))) 2)
  | _ => false
  end.
Example ex_points : Forall2 points ex_words (vec ex_words).
Proof. repeat apply Forall2_cons; try apply Forall2_nil; (split; [repeat constructor|exists []; reflexivity]). Qed.
Example ex_accepted : exists tr o, runs (command_line (vec (bs "tlswrapper" :: ex_words))) tr o /\ legal tr /\ ex_ok tr o = true.
Proof.
  destruct (follow_show _ [dir; file; file] (command_line (vec (bs "tlswrapper" :: ex_words))) ex_ok) as (tr & o & R & L & Q); [vm_compute; reflexivity|]. eauto.
Qed.
Definition is_none {A} (tr : trace) (o : outcome (option A)) : bool := match o with Fin None => true | _ => false end.
(** -U and -n; no program; an unknown letter; a file that is no directory *)
Example ex_refused : Forall (fun w => exists tr o, runs (command_line (vec (bs "tlswrapper" :: w))) tr o /\ legal tr /\ is_none tr o = true)
  [[bs "-n"; bs "-d"; bs "d"; bs "-aca"; bs "-UemailAddress"; bs "p"]; [bs "-d"; bs "d"]; [bs "-d"; bs "d"; bs "-sx"; bs "p"]; [bs "-f"; bs "d"; bs "p"]; [bs "-d"; bs "d"; bs "-t0"; bs "p"]; [bs "-d"]].
Proof.
  repeat apply Forall_cons; try apply Forall_nil.
  all: match goal with |- context [runs ?p _ _] => destruct (follow_show _ [dir; file] p is_none) as (tr & o & R & L & Q); [vm_compute; reflexivity|]; eauto end.
Qed.

(** "-p 0" does not disable the proxy protocol: it leaves an earlier "-p 1" in force. *)
Definition pp_words : list (list Z) := [bs "-p"; bs "1"; bs "-p"; bs "0"; bs "-d"; bs "d"; bs "prog"].
Definition pp_on (tr : trace) (o : outcome (option command)) : bool := match o with Fin (Some c) => ppin (settings c) | _ => false end.
Theorem C64_proxy_off_refuted : exists words argv tr cmd, Forall2 points words argv /\ runs (command_line (bs "tlswrapper" :: argv)) tr (Fin (Some cmd)) /\ legal tr /\
  (forall l prg t h, accepted words l prg t h tr -> last_arg 112 l = Some (bs "0")) /\ ppin (settings cmd) = true.
Proof.
  assert (P : Forall2 points pp_words (vec pp_words)).
  { repeat apply Forall2_cons; try apply Forall2_nil; (split; [repeat constructor|exists []; reflexivity]). }
  destruct (follow_show _ [dir] (command_line (bs "tlswrapper" :: vec pp_words)) pp_on) as (tr & o & R & L & Q); [vm_compute; reflexivity|].
  destruct o as [[cmd|]| |]; try discriminate. exists pp_words, (vec pp_words), tr, cmd. repeat (split; [assumption|]). split; [|exact Q].
  intros l prg t h A. apply a_line in A.
  assert (LN : line pp_words (Opt 112 (bs "1") :: Opt 112 (bs "0") :: Opt 100 (bs "d") :: []) [bs "prog"]).
  { assert (G : forall c w ws l p, In c arg_letters -> line ws l p -> line ([45; c] :: w :: ws) (Opt c w :: l) p).
    { intros c w ws l0 p I X. change (Opt c w :: l0) with ([Opt c w] ++ l0). eapply line_group; [discriminate| |apply group_apart; exact I|exact X].
      intros E. injection E as ->. apply in_args in I. discriminate. }
    apply G; [cbn; auto 20|]. apply G; [cbn; auto 20|]. apply G; [cbn; auto 20|]. apply line_program. discriminate. }
  destruct (line_fun _ _ _ LN _ _ A) as [-> _]. reflexivity.
Qed.
Print Assumptions C64_exact. Print Assumptions C64_unique. Print Assumptions C64_settings. Print Assumptions C64_prerequisites. Print Assumptions C64_proxy_off_refuted.
