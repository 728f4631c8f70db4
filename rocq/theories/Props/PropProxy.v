(** C06-C08: PROXY protocol v1 headers. *)
From Verif.Model Require Import Base Sys Io Inet InetIsc Stralloc Proxy.
From Verif.Spec Require Import Num Ip Text Stream Proxy.
From Verif.Proof Require Import Tac SysP IoP BufferP InetIscP StrallocP ProxyP.

(** ** C06  reading *)

(** Whatever the peer sends and however it arrives: only single-byte reads on [fd] happen
    (so nothing behind the first LF is consumed), at most 127 bytes; success means the bytes
    read are one line with the meaning [e]; failure leaves the caller's arrays [out] alone
    and means a failed read, an overlong line, or a line with no meaning. *)
Theorem C06_reader : forall fuel I fd out tr o, inet_ok I ->
  runs (proxyprotocol_v1_get fuel I fd out) tr o -> legal tr ->
  Forall (fun e => fst e = Read fd 1) tr /\ len (got fd tr) <= 127 /\
  match o with
  | Wrong => False
  | Cut => ~ In 10 (got fd tr)
  | Fin (r, e) =>
      (r = 1 /\ exists u, got fd tr = u ++ [10] /\ ~ In 10 u /\ pp_line I (got fd tr) e) \/
      (r = 0 /\ e = out /\
       ((~ In 10 (got fd tr) /\ ((exists r, r <= 0 /\ lastread fd r tr) \/ len (got fd tr) = 127)) \/
        (exists u, got fd tr = u ++ [10] /\ ~ In 10 u /\ forall e', ~ pp_line I (got fd tr) e')))
  end.
Proof. intros fuel I fd out tr o O R L. exact (get_v1_ok fuel I fd out tr o O R L). Qed.
Print Assumptions C06_reader.

(** The endpoints are determined by the line. *)
Theorem C06_deterministic : forall I u e1 e2, inet_ok I -> bytes u ->
  pp_line I (u ++ [10]) e1 -> pp_line I (u ++ [10]) e2 -> e1 = e2.
Proof.
  intros I u e1 e2 O B L1 L2. apply (line_unique I (u ++ [10]) u); auto. apply Forall_app. split; auto. constructor; [|constructor]. unfold is_byte. lia.
Qed.
Print Assumptions C06_deterministic.

Definition one (c : Z) : ans := mkans 1 0 [c].
Definition oldep : endpoints := mkep (repeat 9 16) [9; 9] (repeat 9 16) [9; 9].
Example C06_ex : snd (exec (proxyprotocol_v1_get 3 isc 5 oldep)
   (mkans (-1) EINTR [] :: map one (bs "PROXY TCP4 1.2.3.4 5.6.7.8 256 443" ++ [13; 10] ++ bs "GET")))
  = Fin (1, mkep (v4prefix ++ [5;6;7;8]) [1; 187] (v4prefix ++ [1;2;3;4]) [1; 0]).
Proof. vm_compute. reflexivity. Qed.
Example C06_ex_bad : snd (exec (proxyprotocol_v1_get 3 isc 5 oldep) (map one (bs "PROXY TCP4 1.2.3.4 5.6.7 256 443" ++ [13; 10])))
  = Fin (0, oldep).
Proof. vm_compute. reflexivity. Qed.

(** ** C07  writing *)

(** The result is all or nothing: 0 with the destination untouched (all-zero endpoints, no
    memory, or no room), or the length of the header, stored at the start. *)
Theorem C07_generator : forall I buf buflen e tr o, inet_ok I ->
  addr6 (lip e) -> addr6 (rip e) -> is2 (lport e) -> is2 (rport e) ->
  runs (proxyprotocol_v1 I buf buflen e) tr o ->
  match buf with Some b => buflen <= len b | None => True end ->
  match o with
  | Wrong => False
  | Cut => True
  | Fin (n, buf') =>
      (n = 0 /\ buf' = buf /\ (e = ep_zero \/ nomem tr \/ buf = None \/ exists h, header I e h /\ buflen < len h)) \/
      (e <> ep_zero /\ exists h b, header I e h /\ buf = Some b /\ n = len h /\ len h <= buflen /\ buf' = Some (h ++ skipn (length h) b))
  end /\ (forall h, header I e h -> len h <= 116).
Proof. intros. split; [eapply gen_ok; eauto|apply header_len; auto]. Qed.
Print Assumptions C07_generator.

(** Round trip: the reader, fed the header of two endpoints of one family followed by any
    payload, ends only by returning exactly those endpoints having consumed exactly the
    header, or by reporting a failed read. *)
Theorem C07_roundtrip : forall fuel I fd out e h payload tr r e', inet_ok I ->
  addr6 (lip e) -> addr6 (rip e) -> is2 (lport e) -> is2 (rport e) ->
  (firstn 12 (lip e) = v4prefix <-> firstn 12 (rip e) = v4prefix) -> header I e h ->
  runs (proxyprotocol_v1_get fuel I fd out) tr (Fin (r, e')) -> legal tr ->
  is_prefix (got fd tr) (h ++ payload) ->
  (r = 1 /\ e' = e /\ got fd tr = h) \/ (r = 0 /\ e' = out /\ exists x, x <= 0 /\ lastread fd x tr).
Proof.
  intros fuel I fd out e h payload tr r e' O AL AR PL PR F H R L (rest & P).
  destruct (header_line I e h O AL AR PL PR F H) as (HL & u & Hu & NU).
  pose proof (header_len I e O AL AR _ H) as LEN.
  assert (SAME : forall v, got fd tr = v ++ [10] -> ~ In 10 v -> v = u).
  { intros v G NV. rewrite G, Hu, <- !app_assoc in P. cbn [app] in P.
    assert (F10 : forall w : list Z, ~ In 10 w -> Forall (fun x => ~ 10 = x) w).
    { intros w W. apply Forall_forall. intros x X <-. auto. }
    destruct (split_unique (fun x => 10 = x) u 10 payload v 10 rest) as (-> & _); auto. }
  destruct (get_v1_ok fuel I fd out tr _ O R L) as (_ & LG & [(-> & v & G & NV & PP)|(-> & -> & [(NI & D)|(v & G & NV & NP)])]).
  - left. split; auto. rewrite (SAME v G NV), <- Hu in G. split; auto. rewrite G in PP.
    apply (line_unique I h u); auto. rewrite <- G. apply got_bytes. auto.
  - right. split; auto. split; auto. destruct D as [D|D]; auto. exfalso. apply NI.
    assert (HG : firstn (length h) (got fd tr) = h).
    { apply (f_equal (firstn (length h))) in P. rewrite !firstn_app in P. rewrite Nat.sub_diag, firstn_all, firstn_O, app_nil_r in P.
      replace (length h - length (got fd tr))%nat with 0%nat in P by (unfold len in *; lia). rewrite firstn_O, app_nil_r in P. auto. }
    rewrite <- (firstn_skipn (length h) (got fd tr)). apply in_or_app. left. rewrite HG, Hu. apply in_or_app. right. left. reflexivity.
  - exfalso. rewrite (SAME v G NV), <- Hu in G. apply (NP e). rewrite G. exact HL.
Qed.
Print Assumptions C07_roundtrip.

(** A header exists for every pair of endpoints, so the two theorems are not vacuous. *)
Theorem C07_exists : forall I e, is2 (lport e) -> is2 (rport e) -> exists h, header I e h.
Proof.
  intros I e PL PR. destruct (portstr_ok _ PR) as (rp & ? & _ & P1 & _). destruct (portstr_ok _ PL) as (lp & ? & _ & P2 & _).
  eexists. exists rp, lp. split; [exact P1|]. split; [exact P2|]. reflexivity.
Qed.
Print Assumptions C07_exists.

Definition ep6 : endpoints := mkep [32;1;13;184;0;0;0;0;0;0;0;0;0;0;0;1] [0; 25] [32;1;13;184;0;0;0;0;0;0;0;0;0;0;0;2] [255; 255].
Definition mem : ans := mkans 1 0 [].
Example C07_ex : snd (exec (proxyprotocol_v1 isc (Some (repeat 7 60)) 60 ep6) (repeat mem 9)) =
  Fin (45, Some (bs "PROXY TCP6 2001:db8::2 2001:db8::1 65535 25" ++ [13; 10] ++ repeat 7 15)).
Proof. vm_compute. reflexivity. Qed.
Example C07_ex_hyp : addr6 (lip ep6) /\ addr6 (rip ep6) /\ is2 (lport ep6) /\ is2 (rport ep6) /\
  (firstn 12 (lip ep6) = v4prefix <-> firstn 12 (rip ep6) = v4prefix).
Proof.
  assert (B : forall l, forallb (fun b => (0 <=? b) && (b <? 256)) l = true -> bytes l).
  { intros l H. apply Forall_forall. intros x X. rewrite forallb_forall in H. specialize (H _ X). unfold is_byte. lia. }
  split; [split; [reflexivity|apply B; reflexivity]|]. split; [split; [reflexivity|apply B; reflexivity]|].
  split; [exists 0, 25; unfold is_byte; repeat split; lia|]. split; [exists 255, 255; unfold is_byte; repeat split; lia|].
  split; discriminate.
Qed.

(** ** C08  mixed families *)

(** The family word follows the remote address only.  With a local address of the other
    family the line has no meaning, whatever the endpoints: the reader never accepts it. *)
Theorem C08_mixed_rejected : forall fuel I fd out e h payload tr r e', inet_ok I -> addr6 (lip e) -> addr6 (rip e) ->
  ~ (firstn 12 (lip e) = v4prefix <-> firstn 12 (rip e) = v4prefix) -> is2 (lport e) -> is2 (rport e) -> header I e h ->
  runs (proxyprotocol_v1_get fuel I fd out) tr (Fin (r, e')) -> legal tr -> is_prefix (got fd tr) (h ++ payload) ->
  r = 0 /\ e' = out.
Proof.
  intros fuel I fd out e h payload tr r e' O AL AR M PL PR H R L (rest & P).
  destruct (get_v1_ok fuel I fd out tr _ O R L) as (_ & LG & [(-> & v & G & NV & PP)|(-> & -> & _)]); auto.
  exfalso. destruct (header_ends I e h O AL AR PL PR H) as (u & Hu & NU).
  assert (F10 : forall w : list Z, ~ In 10 w -> Forall (fun x => ~ 10 = x) w).
  { intros w W. apply Forall_forall. intros x X <-. auto. }
  rewrite G in P. rewrite Hu, <- !app_assoc in P. cbn [app] in P.
  destruct (split_unique (fun x => 10 = x) u 10 payload v 10 rest) as (-> & _); auto.
  rewrite G, <- Hu in PP. exact (mixed_rejected I e h e' O AL AR M H PP).
Qed.
Print Assumptions C08_mixed_rejected.

(** So "every generated header is readable by the project's own reader" is false. *)
Definition epmix : endpoints := mkep [32;1;13;184;0;0;0;0;0;0;0;0;0;0;0;1] [0; 25] (v4prefix ++ [192; 0; 2; 1]) [255; 255].
Theorem C08_refuted : exists I e h, inet_ok I /\ addr6 (lip e) /\ addr6 (rip e) /\ is2 (lport e) /\ is2 (rport e) /\
  header I e h /\ forall e', ~ pp_line I h e'.
Proof.
  assert (B : forall l, forallb (fun b => (0 <=? b) && (b <? 256)) l = true -> bytes l).
  { intros l H. apply Forall_forall. intros x X. rewrite forallb_forall in H. specialize (H _ X). unfold is_byte. lia. }
  assert (AL : addr6 (lip epmix)) by (split; [reflexivity|apply B; reflexivity]).
  assert (AR : addr6 (rip epmix)) by (split; [reflexivity|apply B; reflexivity]).
  assert (PL : is2 (lport epmix)) by (exists 0, 25; unfold is_byte; repeat split; lia).
  assert (PR : is2 (rport epmix)) by (exists 255, 255; unfold is_byte; repeat split; lia).
  destruct (C07_exists isc epmix PL PR) as (h & H). exists isc, epmix, h.
  split; [apply isc_ok|]. repeat (split; auto). intros e'. apply (mixed_rejected isc epmix h e' isc_ok AL AR); auto.
  intros [_ X]. specialize (X eq_refl). discriminate.
Qed.
Print Assumptions C08_refuted.

Example C08_ex : snd (exec (proxyprotocol_v1_get 3 isc 5 oldep) (map one (bs "PROXY TCP4 192.0.2.1 2001:db8::1 65535 25" ++ [13; 10])))
  = Fin (0, oldep).
Proof. vm_compute. reflexivity. Qed.
