(** Certificate choice: tls_profile.c. *)
From Verif.Model Require Import Base Sys Io Config Choose.
From Verif.Spec Require Import Stream Text Name Settings Choice.
From Verif.Proof Require Import Tac SysP StrP ConfigP ChooseP.

(** ** C10 *)

(** At any point of any run, the bytes written to the key process are requests for the files
    the configured entries stand for: for a directory the join with the client's name, which
    then is a valid host name.  An absent or invalid name never reaches the key process. *)
Theorem C10_requests : forall fuel to from h es c tr o,
  runs (tls_choose fuel to from h es c) tr o -> legal tr ->
  Forall (fun e => is_cstr (fst e) /\ (snd e = 16384 \/ snd e = 32768) /\ len (text (fst e)) < 2 ^ 59) es ->
  (forall p, sni h = Some p -> is_cstr p) -> len (otext (sni h)) < 2 ^ 59 -> len (certfn c) = 1024 ->
  asks to (otext (sni h)) es tr.
Proof. exact choose_asks. Qed.
Print Assumptions C10_requests.

(** The file a directory entry stands for is a direct child of the sanitised directory, named
    by the client's name (or ":" for the root name "."). *)
Theorem C10_direct_child : forall p name f, stands_for name (p, 16384) f ->
  exists dir leaf, f = dir ++ [47] ++ leaf /\
    (sanitized (text p) = dir \/ sanitized (text p) = dir ++ [47]) /\
    (leaf = name \/ (name = bs "." /\ leaf = bs ":")) /\
    ~ In 47 leaf /\ ~ In 0 leaf /\ leaf <> [] /\ hd 0 leaf <> 46 /\ ~ adjacent 47 46 f.
Proof.
  intros p name f S. inversion S as [|p' ls NE V]; subst. destruct (valid_chars name ls V) as [NS N0].
  destruct (dir_slash (text p)) as (D & ED & HD). exists D, (if same name [46] then [58] else name).
  split; [rewrite (child_path _ _ ls V NE), ED, <- app_assoc; reflexivity|]. split; auto.
  split; [|split; [|split; [|split; [|split]]]].
  - destruct (same_spec name [46]); auto.
  - destruct (same name [46]); auto. cbn. intuition lia.
  - destruct (same name [46]); auto. cbn. intuition lia.
  - destruct (same name [46]); auto. discriminate.
  - destruct (same_spec name [46]) as [_|N]; [cbn; lia|]. destruct (valid_head name ls V NE); [contradiction|auto].
  - apply sanitized_clean.
Qed.
Print Assumptions C10_direct_child.

Example C10_ex : stands_for (bs "www.example.com") (bs "/etc//certs/.x" ++ [0], 16384) (bs "/etc/certs/:x/www.example.com").
Proof.
  change (bs "/etc/certs/:x/www.example.com") with (sanitized (text (bs "/etc//certs/.x" ++ [0]) ++ [47] ++ bs "www.example.com")).
  apply (SFdir (bs "www.example.com") (bs "/etc//certs/.x" ++ [0]) [bs "www"; bs "example"; bs "com"]); [discriminate|].
  split; [left; reflexivity|]. split; [|cbn; lia].
  repeat constructor; try discriminate; cbn; try lia; repeat constructor; unfold lab_char; lia.
Qed.

(** ** C41 *)

(** A successful choice: the entries before the chosen one were tried in order and each was
    unusable; the chosen one was loaded; the suite is the first one offered by the client that
    suits its key, and the signature algorithm follows the client's hashes. *)
Theorem C41_choice : forall fuel to from h es c tr x,
  runs (tls_choose fuel to from h es c) tr (Fin (Some x)) -> legal tr ->
  Forall (fun e => is_cstr (fst e) /\ (snd e = 16384 \/ snd e = 32768) /\ len (text (fst e)) < 2 ^ 59) es ->
  (forall p, sni h = Some p -> is_cstr p) -> len (otext (sni h)) < 2 ^ 59 -> len (certfn c) = 1024 ->
  exists pre e post trs t f kt,
    es = pre ++ e :: post /\ tr = concat trs ++ t /\
    Forall2 (unusable to from (otext (sni h)) (offered h)) pre trs /\
    stands_for (otext (sni h)) e f /\ loads to from f t kt (c_chain x) /\
    answers (offered h) (version h) (hashes h) kt (c_suite x) (c_algo x).
Proof. intros fuel to from h es c tr x R L F CS BS LC. exact (choose_ok _ _ _ _ _ _ _ _ R L F CS BS LC). Qed.
Print Assumptions C41_choice.

(** No choice: every entry was unusable, or the search was ended by a file that could not be
    loaded, or by a directory with an error other than "not found" or in the last place. *)
Theorem C41_failure : forall fuel to from h es c tr,
  runs (tls_choose fuel to from h es c) tr (Fin None) -> legal tr ->
  Forall (fun e => is_cstr (fst e) /\ (snd e = 16384 \/ snd e = 32768) /\ len (text (fst e)) < 2 ^ 59) es ->
  (forall p, sni h = Some p -> is_cstr p) -> len (otext (sni h)) < 2 ^ 59 -> len (certfn c) = 1024 ->
  (exists trs, tr = concat trs /\ Forall2 (unusable to from (otext (sni h)) (offered h)) es trs) \/
  (exists pre e post trs t, es = pre ++ e :: post /\ tr = concat trs ++ t /\
     Forall2 (unusable to from (otext (sni h)) (offered h)) pre trs /\
     fatal to from (otext (sni h)) (post = []) e t).
Proof. intros fuel to from h es c tr R L F CS BS LC. exact (choose_ok _ _ _ _ _ _ _ _ R L F CS BS LC). Qed.
Print Assumptions C41_failure.

(** Nothing undefined happens unless the key process sends the length field 2^63. *)
Theorem C41_no_ub : forall fuel to from h es c tr,
  runs (tls_choose fuel to from h es c) tr Wrong -> legal tr ->
  Forall (fun e => is_cstr (fst e) /\ (snd e = 16384 \/ snd e = 32768) /\ len (text (fst e)) < 2 ^ 59) es ->
  (forall p, sni h = Some p -> is_cstr p) -> len (otext (sni h)) < 2 ^ 59 -> len (certfn c) = 1024 ->
  exists t1 t2, tr = t1 ++ t2 /\ got from t2 = le 8 (2 ^ 63).
Proof.
  intros fuel to from h es c tr R L F CS BS LC. destruct (choose_ok _ _ _ _ _ _ _ _ R L F CS BS LC) as (a & b & -> & u & v & -> & _ & G).
  exists (a ++ u), v. rewrite app_assoc. auto.
Qed.
Print Assumptions C41_no_ub.

(** The client offers an RSA and an ECDSA suite; the directory has no such file, the file is an
    EC certificate. *)
Definition ex_hello : hello := mkhello [(49199, 4113); (49195, 8209)] (2 ^ 4 + 2 ^ 6 + 2 ^ 13 + 2 ^ 10) (Some (bs "a.b" ++ [0; 7])) 771.
Definition ex_entries : list (list Z * Z) := [(bs "/d" ++ [0], 16384); (bs "/f.pem" ++ [0], 32768)].
Definition ok (n : Z) : ans := mkans n 0 [].
Definition ex_script : list ans :=
  [ok 1; ok 8; ok 7; mkans 8 0 (errframe 2);
   ok 1; ok 8; ok 7; mkans 8 0 (le 8 3); ok 1; mkans 3 0 [9; 9; 9]; mkans 2 0 [77]].
Example C41_ex : exists tr, runs (tls_choose 5 3 4 ex_hello ex_entries (mkcctx (repeat 0 1024) 0 [])) tr
    (Fin (Some (mkchoice [77] 49195 (65280 + 5)))) /\ legal tr /\
  Forall (fun e => is_cstr (fst e) /\ (snd e = 16384 \/ snd e = 32768) /\ len (text (fst e)) < 2 ^ 59) ex_entries.
Proof.
  eexists. split; [apply (exec_runs _ _ ex_script); vm_compute; reflexivity|]. split; [apply legal_dec; vm_compute; reflexivity|].
  constructor; [|constructor; [|constructor]]; cbn [fst snd].
  - split; [exists (bs "/d"), []; split; [reflexivity|repeat constructor; lia]|]. split; [auto|vm_compute; reflexivity].
  - split; [exists (bs "/f.pem"), []; split; [reflexivity|repeat constructor; lia]|]. split; [auto|vm_compute; reflexivity].
Qed.

(** A hash outside the client's list can be announced: with TLS 1.2 and none of the four hashes
    offered, the answer is still given, with hash number 0. *)
Theorem C41_advertised_hash_refuted : exists h tr x,
  runs (tls_choose 5 3 4 h [(bs "/f.pem" ++ [0], 32768)] (mkcctx (repeat 0 1024) 0 [])) tr (Fin (Some x)) /\ legal tr /\
  771 <= version h /\ c_algo x = 65280 /\ hashes h = 2 ^ 3.
Proof.
  exists (mkhello [(49199, 4113)] (2 ^ 3) None 771). eexists. eexists.
  split; [apply (exec_runs _ _ [ok 1; ok 8; ok 7; mkans 8 0 (le 8 3); ok 1; mkans 3 0 [9; 9; 9]; mkans 1 0 [77]]); vm_compute; reflexivity|].
  split; [apply legal_dec; vm_compute; reflexivity|]. cbn. split; [lia|]. split; reflexivity.
Qed.
Print Assumptions C41_advertised_hash_refuted.

(** ** C42 *)
Theorem C42_strongest_hash : forall mask, best_hash mask (hash_choose mask).
Proof. exact hash_choose_ok. Qed.
Print Assumptions C42_strongest_hash.

(** The two statements determine the value. *)
Theorem C42_unique : forall mask h, best_hash mask h <-> h = hash_choose mask.
Proof.
  intros mask h. split; [|intros ->; apply hash_choose_ok]. intros H. pose proof (hash_choose_ok mask) as G. revert H G. generalize (hash_choose mask) as g.
  intros g [[-> H]|(I & B & H)] [[-> G]|(J & C & G)]; auto.
  - rewrite H in C by assumption. discriminate.
  - rewrite G in B by assumption. discriminate.
  - specialize (H g J C). specialize (G h I B). lia.
Qed.
Print Assumptions C42_unique.

Example C42_ex : hash_choose (2 ^ 2 + 2 ^ 3 + 2 ^ 5) = 5.
Proof. reflexivity. Qed.

(** SHA-224 (number 3) is never used, even when it is all the client offers. *)
Theorem C42_sha224_refuted : exists mask, Z.testbit mask 3 = true /\ hash_choose mask = 0.
Proof. exists (2 ^ 3). split; reflexivity. Qed.
Print Assumptions C42_sha224_refuted.
