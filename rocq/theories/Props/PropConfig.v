(** C39, C40: the TLS options. *)
From Verif.Model Require Import Base Str Config.
From Verif.Spec Require Import Settings.
From Verif.Proof Require Import Tac StrP ConfigP.

(** Every option argument is a C string. *)
Definition good_args (l : list setting) : Prop := Forall (fun o => exists s r, arg o = s ++ 0 :: r /\ nonul s) l.

(** ** C39: the cipher list *)
Theorem C39_suites : forall l c, good_args l -> configure l = Ok (Some c) ->
  ciphers c = wanted_suites (cipher_names l) /\ Forall (fun n => lookup suite_names n <> None) (cipher_names l).
Proof.
  intros l c G E. destruct (configure_ok l G) as [(c' & E' & H & _)|(E' & _)]; [|congruence]. rewrite E in E'. injection E' as <-.
  destruct (h_ciphers _ _ H) as (_ & A & B). auto.
Qed.
Print Assumptions C39_suites.

Lemma suites_inj : forall l, NoDup l -> NoDup (flat_map suites l).
Proof.
  induction 1 as [|n l N _ IH]; cbn [flat_map]; [constructor|].
  assert (D : forall s, In s (suites n) -> ~ In s (flat_map suites l)).
  { intros s I J. apply in_flat_map in J as (m & M & J). assert (n = m); [|subst; auto]. pose proof I as I2. unfold suites in I2. destruct (lookup suite_names n) as [[ec rsa]|] eqn:L; [|destruct I2].
    apply (suites_distinct n m ec rsa s L J). destruct I2 as [->|[->|[]]]; auto. }
  unfold suites in *. destruct (lookup suite_names n) as [[ec rsa]|] eqn:L; [|exact IH]. cbn [app].
  assert (ec <> rsa). { apply lookup_in in L. repeat (destruct L as [L|L]; [injection L as _ <- <-; discriminate|]). destruct L. }
  constructor; [intros [Q|Q]; [congruence|apply (D ec); [left; auto|exact Q]]|]. constructor; [intros Q; apply (D rsa); [right; left; auto|exact Q]|exact IH].
Qed.
(** no suite twice, and the fixed array is never overrun (writing beyond it is UB in the model) *)
Theorem C39_no_duplicates : forall l c, good_args l -> configure l = Ok (Some c) -> NoDup (ciphers c) /\ (length (ciphers c) <= 14)%nat.
Proof.
  intros l c G E. destruct (C39_suites l c G E) as [-> K]. unfold wanted_suites. destruct (cipher_names l) as [|n ns]; [|rewrite <- wanted_cons by discriminate].
  - split; [|cbn; lia]. apply suites_inj. repeat constructor; intros I; repeat (destruct I as [I|I]; [discriminate|]); destruct I.
  - rewrite wanted_cons by discriminate. split; [apply suites_inj, firsts_nodup|]. pose proof (known_length _ K). pose proof (suites_length (firsts (n :: ns))). lia.
Qed.
Print Assumptions C39_no_duplicates.

(** the names are those given, each once, in the order of their first occurrence *)
Theorem C39_first_occurrence : forall names, NoDup (firsts names) /\ (forall n, In n (firsts names) <-> In n names) /\
  (forall n, (In n names -> firsts (names ++ [n]) = firsts names) /\ (~ In n names -> firsts (names ++ [n]) = firsts names ++ [n])).
Proof.
  intros names. split; [apply firsts_nodup|]. split; [apply firsts_in|]. intros n. rewrite firsts_snoc.
  assert (B : existsb (same n) names = true <-> In n names).
  { rewrite existsb_exists. split; [intros (m & I & S); destruct (same_spec n m); congruence|]. intros I. exists n. split; auto. apply same_refl. }
  destruct (existsb (same n) names); split; intros I; auto; exfalso; [apply I; apply B; auto|]. apply B in I. discriminate.
Qed.
Print Assumptions C39_first_occurrence.

(** ** C40: the other options *)
Theorem C40_curves : forall l c, good_args l -> configure l = Ok (Some c) ->
  0 <= curves c /\ forall g, 0 <= g -> (Z.testbit (curves c) g = true <-> wanted_groups (curve_names l) g).
Proof.
  intros l c G E. destruct (configure_ok l G) as [(c' & E' & H & _)|(E' & _)]; [|congruence]. rewrite E in E'. injection E' as <-.
  destruct (h_curves _ _ H) as (_ & A & B & _). auto.
Qed.
Print Assumptions C40_curves.

Theorem C40_versions : forall l c, good_args l -> configure l = Ok (Some c) ->
  wanted_version (vmin_names l) = Some (version_min c) /\ wanted_version (vmax_names l) = Some (version_max c).
Proof.
  intros l c G E. destruct (configure_ok l G) as [(c' & E' & H & _)|(E' & _)]; [|congruence]. rewrite E in E'. injection E' as <-. split; apply H.
Qed.
Print Assumptions C40_versions.

(** at most one anchor, at most four certificate entries, in the order given *)
Theorem C40_files : forall l c, good_args l -> configure l = Ok (Some c) ->
  anchors l = match anchorfn c with Some x => [x] | None => [] end /\
  certfiles c = certs l /\ (length (certfiles c) <= 4)%nat.
Proof.
  intros l c G E. destruct (configure_ok l G) as [(c' & E' & H & _)|(E' & _)]; [|congruence]. rewrite E in E'. injection E' as <-.
  split; [apply H|]. split; [symmetry; apply H|apply H].
Qed.
Print Assumptions C40_files.

(** An option is refused, and the program ends, exactly for these reasons. *)
Definition stat_fits (o : setting) : Prop :=
  match o with
  | Anchor _ m | Certfile _ m => exists v, m = Some v /\ Z.land v S_IFMT = S_IFREG
  | Certdir _ m => exists v, m = Some v /\ Z.land v S_IFMT = S_IFDIR
  | _ => True
  end.
Definition unacceptable (before : list setting) (o : setting) : Prop :=
  ~ stat_fits o \/
  match o with
  | Cipher x => lookup suite_names (text x) = None
  | Curve x => lookup group_names (text x) = None
  | Vmin x | Vmax x => lookup version_names (text x) = None
  | Anchor _ _ => anchors before <> []
  | Certdir _ _ | Certfile _ _ => (4 <= length (certs before))%nat
  end.
Theorem C40_refusal : forall l, good_args l ->
  (configure l = Ok None /\ exists l1 o l2, l = l1 ++ o :: l2 /\ unacceptable l1 o) \/
  (exists c, configure l = Ok (Some c) /\ forall l1 o l2, l = l1 ++ o :: l2 -> ~ unacceptable l1 o).
Proof.
  intros l G. destruct (configure_ok l G) as [(c & E & _ & N)|(E & l1 & o & l2 & Q & R)].
  - right. exists c. auto.
  - left. split; auto. exists l1, o, l2. auto.
Qed.
Print Assumptions C40_refusal.

(** The function itself does change the configuration when it refuses a name: the defaults are gone. *)
Theorem C40_unchanged_refuted : exists c x c', tls_cipher_defaults static_config = Ok c /\ tls_cipher_add c x = Ok (false, c') /\
  length (ciphers c) = 6%nat /\ ciphers c' = [].
Proof. eexists _, (bs "DES" ++ [0]), _. repeat split. Qed.
Print Assumptions C40_unchanged_refuted.

Definition ex_options : list setting :=
  [Cipher (bs "AES_128_CBC_SHA" ++ [0]); Curve (bs "x25519" ++ [0; 7]); Certdir (bs "/etc/certs" ++ [0]) (Some 16877);
   Cipher (bs "CHACHA20_POLY1305_SHA256" ++ [0]); Vmin (bs "tls10" ++ [0]); Vmin (bs "tls11" ++ [0]); Cipher (bs "AES_128_CBC_SHA" ++ [0]);
   Anchor (bs "/ca.pem" ++ [0]) (Some 33188)].
Example C40_example_args : good_args ex_options.
Proof. repeat constructor; cbn [arg]; match goal with |- exists s r, bs ?a ++ 0 :: ?t = _ /\ _ => exists (bs a), t end; split; try reflexivity; repeat constructor. Qed.
Example C40_example : configure ex_options = Ok (Some (mkconfig false [49161; 49171; 52393; 52392] false 536870912 770 771 (Some (bs "/ca.pem" ++ [0])) [(bs "/etc/certs" ++ [0], S_IFDIR)])).
Proof. vm_compute. reflexivity. Qed.
Example C40_example_refused : configure (ex_options ++ [Anchor (bs "/b.pem" ++ [0]) (Some 33188)]) = Ok None.
Proof. vm_compute. reflexivity. Qed.
Example C39_example_default : exists c, configure [] = Ok (Some c) /\ ciphers c = [0xCCA9; 0xCCA8; 0xC02C; 0xC030; 0xC02B; 0xC02F].
Proof. eexists. split; reflexivity. Qed.
