(** C88, C89: the certificates and the private key of a PEM file. *)
From Verif.Model Require Import Base Sys Certs.
From Verif.Spec Require Import Pemobj.
From Verif.Proof Require Import Tac SysP SafeP CertsP.

(** C88: whatever the file, tls_pubcrt_parse stays inside its arrays.  If it succeeds, it has
    read all of the file, the file is a sequence of complete objects, and the chain consists of
    the contents of its certificates in order, 1 to 16 of them, every one with the name, flag
    and key the X.509 decoder reports for it.  If it fails, there is a reason: memory, the
    X.509 decoder, a malformed file, more than 16 certificates, or a file that ends within an
    object or has no certificate.  The decoders' memory is overwritten at the end. *)
Theorem C88_chain : forall fuel buflen tr o,
  runs (tls_pubcrt_parse fuel buflen) tr o -> decoder decoders tr -> 0 <= buflen ->
  o <> Wrong /\
  forall r, o = Fin r ->
    exists t a1 a2, tr = t ++ [(wipe (bs "pc"), a1); (wipe (bs "dc5"), a2)] /\
    match r with
    | Some c => took t = buflen /\ ~ no_memory t /\ exists os, whole (said t) os /\ chain_of os t c
    | None => no_memory t \/ bad_cert t \/ malformed (said t) \/ too_many (said t) \/
              (took t = buflen /\ (unfinished (said t) \/ no_certs (said t)))
    end.
Proof.
  intros fuel buflen tr o RU D B.
  assert (X : sq decoders TT [] (tls_pubcrt_parse fuel buflen) (fun tr r => exists t a1 a2, tr = t ++ [(wipe (bs "pc"), a1); (wipe (bs "dc5"), a2)] /\
    match r with
    | Some c => took t = buflen /\ mem t /\ exists os, whole (said t) os /\ chain_of os t c
    | None => reject buflen t
    end)).
  { unfold tls_pubcrt_parse. eapply sq_bind.
    { apply sq_pub_loop with (buflen := buflen); [|reflexivity]. split; [change (took []) with 0; lia|]. split; auto. split.
      - split; [|cbn; lia]. split; [cbn; lia|cbn; auto].
      - split; [left; split; [reflexivity|intros n a []]|]. exists []. split.
        + split; [reflexivity|]. split; [discriminate|]. split; [reflexivity|]. split; [constructor|left; reflexivity].
        + apply whole_nil. }
    cbn beta. intros t r H.
    eapply sq_bind. { apply sq_sys1 with (Q := fun u a => u = t ++ [(wipe (bs "pc"), a)]). intros a _. split; [exact I|reflexivity]. }
    cbn beta. intros u a1 ->.
    eapply sq_bind. { apply sq_sys1 with (Q := fun u a => u = (t ++ [(wipe (bs "pc"), a1)]) ++ [(wipe (bs "dc5"), a)]). intros a _. split; [exact I|reflexivity]. }
    cbn beta. intros u a2 ->. apply sq_ret. exists t, a1, a2. split; [rewrite <- app_assoc; reflexivity|exact H]. }
  destruct (X tr o RU D) as (W & _ & Q). split; auto. intros r E. destruct (Q r E) as (t & a1 & a2 & E2 & H). cbn [app] in E2. subst tr. exists t, a1, a2. split; auto.
  destruct r as [c|]; [|exact H]. destruct H as (T & M & os & H). split; auto. split; [|eauto]. intros (n & a & I & Z0). exact (M n a I Z0).
Qed.
Print Assumptions C88_chain.

(** C89: whatever the file, at every moment all that the key decoder has been given are
    contents of objects named as private keys.  If tls_seccrt_parse succeeds, the file is a
    sequence of complete objects with exactly one private key; the key decoder was started
    once and given its contents and nothing else, it reports no error and a key of the type
    set, RSA or EC.  If it fails, there is a reason. *)
Theorem C89_key : forall fuel buflen tr o,
  runs (tls_seccrt_parse fuel buflen) tr o -> decoder key_decoders tr -> 0 <= buflen ->
  o <> Wrong /\ decoder only_key tr /\
  forall r, o = Fin r ->
    exists t a, tr = t ++ [(wipe (bs "pc"), a)] /\
    match r with
    | Some c => took t = buflen /\ exists os payload ty, whole (said t) os /\ pick key_objects os = [payload] /\
        decoding payload ty (filter is_skey t) /\ skey c = Some ty /\ skeytype c = ty
    | None => bad_key t \/ malformed (said t) \/ second_key (said t) \/
              (took t = buflen /\ (unfinished (said t) \/ no_key (said t)))
    end.
Proof.
  intros fuel buflen tr o RU D B.
  assert (X : sq key_decoders only_key [] (tls_seccrt_parse fuel buflen) (fun tr r => exists t a, tr = t ++ [(wipe (bs "pc"), a)] /\
    match r with
    | Some c => took t = buflen /\ exists os payload ty, whole (said t) os /\ pick key_objects os = [payload] /\
        decoding payload ty (filter is_skey t) /\ skey c = Some ty /\ skeytype c = ty
    | None => sreject buflen t
    end)).
  { unfold tls_seccrt_parse. eapply sq_bind.
    { apply sq_sec_loop with (buflen := buflen). split; [change (took []) with 0; lia|]. split; auto. exists []. split; [apply whole_nil|]. left. auto. }
    cbn beta. intros t r H.
    eapply sq_bind. { apply sq_sys1 with (Q := fun u a => u = t ++ [(wipe (bs "pc"), a)]). intros a _. split; [discriminate|reflexivity]. }
    cbn beta. intros u a1 ->. apply sq_ret. exists t, a1. split; [reflexivity|exact H]. }
  destruct (X tr o RU D) as (W & OK & Q). auto.
Qed.
Print Assumptions C89_key.

(** ** Examples *)

(** Checkers for the assumptions on decoders. *)
Definition same (a b : list Z) : bool := if list_eq_dec Z.eq_dec a b then true else false.
Fixpoint checked (A : trace -> event -> bool) (h tr : trace) : bool :=
  match tr with [] => true | e :: t => A h e && checked A (h ++ [e]) t end.
Lemma checked_ok : forall (B : trace -> event -> bool) (A : trace -> event -> Prop), (forall h e, B h e = true -> A h e) ->
  forall tr h, checked B h tr = true -> holds A h tr.
Proof.
  intros B A H. induction tr as [|e tr IH]; intros h C; [apply holds_nil|]. cbn [checked] in C. apply andb_prop in C as [C1 C2]. apply holds_cons. auto.
Qed.
Lemma decoder_ok : forall (B : trace -> event -> bool) (A : trace -> event -> Prop), (forall h e, B h e = true -> A h e) ->
  forall tr, checked B [] tr = true -> decoder A tr.
Proof. intros B A H tr C. exact (checked_ok B A H tr [] C). Qed.
Definition namesb (h : trace) (a : ans) : bool :=
  forallb (fun x => (0 <? x) && (x <? 256)) (data a) &&
  (if ret a =? 2 then match last_begin (said h) with Some n => same (data a) n | None => true end else true).
Lemma namesb_ok : forall h a, namesb h a = true ->
  Forall (fun x => 0 < x < 256) (data a) /\ (ret a = 2 -> forall n, last_begin (said h) = Some n -> data a = n).
Proof.
  intros h a H. unfold namesb in H. apply andb_prop in H as [H1 H2]. split.
  - apply Forall_forall. intros x I. rewrite forallb_forall in H1. specialize (H1 x I). lia.
  - intros E n L. rewrite E, L in H2. cbn [Z.eqb Pos.eqb] in H2. unfold same in H2. destruct (list_eq_dec Z.eq_dec (data a) n); [auto|discriminate].
Qed.
Definition decodersb (h : trace) (e : event) : bool :=
  let '(c, a) := e in
  (if is_pem_push c then match c with Other _ (n :: _) _ => (ret a =? -1) || ((0 <=? ret a) && (ret a <=? n)) | _ => false end else true) &&
  (if is_pem_event c then namesb h a else true) &&
  (match c with Alloc _ => ((ret a =? 0) && negb (err a =? 0)) || (ret a =? 1) | _ => true end) &&
  (if is_call (bs "br_x509_decoder_get_pkey") c then
     match data a with [] => negb (ret a =? 2) && negb (ret a =? 1) | n :: l => negb (ret a =? 1) || ((0 <=? n) && (n <=? len l)) end
   else true) &&
  (given h + given1 e <? 2 ^ 60).
Lemma decodersb_ok : forall h e, decodersb h e = true -> decoders h e.
Proof.
  intros h [c a] H. unfold decodersb in H. apply andb_prop in H as [H H5]. apply andb_prop in H as [H H4]. apply andb_prop in H as [H H3].
  apply andb_prop in H as [H1 H2]. split; [|split; [|split; [|split]]].
  - intros n ->. change (is_pem_push (pem_push n)) with true in H1. cbn beta iota delta [pem_push] in H1. lia.
  - intros ->. change (is_pem_event pem_event) with true in H2. apply namesb_ok. auto.
  - intros n ->. destruct (Z.eqb_spec (ret a) 0), (Z.eqb_spec (err a) 0); cbn [negb andb orb] in H3; lia.
  - intros ->. change (is_call _ x509_pkey) with true in H4. cbn iota in H4. destruct (data a) as [|n l]; [split; intros E; rewrite E in H4; discriminate|].
    split; [discriminate|]. intros E. rewrite E in H4. cbn [Z.eqb Pos.eqb negb orb] in H4. exists (firstn (Z.to_nat n) l), (skipn (Z.to_nat n) l).
    rewrite firstn_skipn. f_equal. unfold len in *. rewrite firstn_length. lia.
  - apply Z.ltb_lt. auto.
Qed.

Definition step (s : option (list obj * option obj)) (e : ev) : option (list obj * option obj) :=
  match s, e with
  | Some (os, None), Begin n => Some (os, Some (n, []))
  | Some (os, None), Chunk _ => s
  | Some (os, Some (n, b)), Chunk c => Some (os, Some (n, b ++ c))
  | Some (os, Some (n, b)), End m => if same n m then Some (os ++ [(n, b)], None) else None
  | _, _ => None
  end.
Lemma step_ok : forall l, match fold_left step l (Some ([], None)) with
  | Some (os, None) => whole l os | Some (os, Some (n, b)) => amid l os n b | None => True end.
Proof.
  induction l as [|e l IH] using rev_ind; [apply whole_nil|]. rewrite fold_left_app. cbn [fold_left].
  destruct (fold_left step l (Some ([], None))) as [[os [[n b]|]]|]; cbn [step]; auto.
  - destruct e; auto.
    + apply amid_chunk. auto.
    + unfold same. destruct (list_eq_dec Z.eq_dec n n0); auto. subst. apply amid_end. auto.
  - destruct e; auto.
    + apply whole_stray. auto.
    + apply amid_begin. auto.
Qed.
Definition key_decodersb (h : trace) (e : event) : bool :=
  let '(c, a) := e in
  (if is_pem_push c then
     match c with
     | Other _ (n :: _) _ => ((ret a =? -1) && match fold_left step (said h) (Some ([], None)) with Some (_, Some _) => true | _ => false end)
                             || ((0 <=? ret a) && (ret a <=? n))
     | _ => false end
   else true) &&
  (if is_pem_event c then namesb h a else true) &&
  (if is_call (bs "br_skey_decoder_key_type") c then match known h with Some v => ret a =? v | None => true end else true).
Lemma key_decodersb_ok : forall h e, key_decodersb h e = true -> key_decoders h e.
Proof.
  intros h [c a] H. unfold key_decodersb in H. apply andb_prop in H as [H H3]. apply andb_prop in H as [H1 H2]. split; [|split].
  - intros n ->. change (is_pem_push (pem_push n)) with true in H1. cbn beta iota delta [pem_push] in H1. pose proof (step_ok (said h)) as S.
    destruct (Z.eqb_spec (ret a) (-1)); [left|right; lia]. split; auto. destruct (fold_left step (said h) (Some ([], None))) as [[os [[n0 b]|]]|]; eauto; lia.
  - intros ->. change (is_pem_event pem_event) with true in H2. apply namesb_ok. auto.
  - intros -> v K. change (is_call _ skey_type) with true in H3. rewrite K in H3. lia.
Qed.

Definition some (n : Z) (b : list Z) : ans := mkans n 0 b.
Definition okA : ans := mkans 1 0 [].

(** A file with an EC certificate in two pieces, an object to be ignored, and an RSA certificate. *)
Definition ex_pub : list ans :=
  [some 30 []; some 1 (bs "CERTIFICATE");
   some (-1) [48; 1]; okA; some (-1) [2]; some 20 []; some 2 (bs "CERTIFICATE");
   okA; some (-1) [77; 78]; some 0 []; some 0 []; some 2 [23; 4; 5; 6]; okA; some 1 []; okA;
   some 10 []; some 1 (bs "EC PARAMETERS"); some (-1) [9; 9]; some 10 []; some 2 (bs "EC PARAMETERS");
   some 10 []; some 1 (bs "X509 CERTIFICATE"); some (-1) [49]; some 19 []; some 2 (bs "X509 CERTIFICATE");
   okA; some 0 []; some 0 []; some 1 [2; 200; 201; 3]; okA; some 0 []; okA; okA;
   some 1 []; some 0 []; some 0 []; some 0 []].
Example ex_chain :
  decoder decoders (fst (exec (tls_pubcrt_parse 10 100) ex_pub)) /\
  snd (exec (tls_pubcrt_parse 10 100) ex_pub) = Fin (Some (mkpub 2 [[48; 1; 2]; [49]] [mkanchor [77; 78] 1 (KeyEC 23 [4; 5; 6]); mkanchor [] 0 (KeyRSA [200; 201] [3])])).
Proof. split; [apply (decoder_ok decodersb _ decodersb_ok); vm_compute; reflexivity|vm_compute; reflexivity]. Qed.
(** The second certificate is refused when no memory is left. *)
Example ex_nomem :
  snd (exec (tls_pubcrt_parse 10 100) [some 30 []; some 1 (bs "CERTIFICATE"); some (-1) [48]; mkans 0 ENOMEM []; some 9 []; some 0 []; some 0 []]) = Fin None.
Proof. reflexivity. Qed.

(** A file with EC parameters and an EC key. *)
Definition ex_sec : list ans :=
  [some 5 []; some 1 (bs "EC PARAMETERS"); some (-1) [6; 8]; some 15 []; some 2 (bs "EC PARAMETERS");
   some 5 []; some 1 (bs "EC PRIVATE KEY"); some 0 []; some 0 [];
   some (-1) [48; 119]; some 0 []; some (-1) [2]; some 0 []; some 14 []; some 2 (bs "EC PRIVATE KEY");
   some 0 []; some 2 []; some 0 []; some 1 []; some 0 []; some 0 []].
Example ex_key :
  let tr := fst (exec (tls_seccrt_parse 10 40) ex_sec) in
  decoder key_decoders tr /\ snd (exec (tls_seccrt_parse 10 40) ex_sec) = Fin (Some (mksec (Some 2) 2)) /\
  concat (map (fun e => match fst e with Other n _ d => if is_call (bs "br_skey_decoder_push") (fst e) then d else [] | _ => [] end) tr) = [48; 119; 2].
Proof. split; [apply (decoder_ok key_decodersb _ key_decodersb_ok); vm_compute; reflexivity|split; vm_compute; reflexivity]. Qed.
