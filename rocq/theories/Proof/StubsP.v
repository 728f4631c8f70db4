(** What each stub call does on the pipes. *)
From Verif.Model Require Import Base Sys Io Str Buffer Pem Choose Stubs.
From Verif.Spec Require Import Stream Text Protocol InStep.
From Verif.Proof Require Import Tac SysP CallsP IoP FrameP StrP BufferP ChooseP DialogueP.

Lemma object_le : forall n v, object n v = le n (v mod 256 ^ Z.of_nat n).
Proof. intros. apply pack_loop_le. Qed.
Lemma object_len : forall n v, length (object n v) = n.
Proof. intros. rewrite object_le. apply le_length. Qed.
Lemma object_small : forall n v, len (object n v) = Z.of_nat n.
Proof. intros. unfold len. rewrite object_len. reflexivity. Qed.
Lemma land255 : forall a, Z.land a 255 = a mod 256.
Proof. intros. change 255 with (Z.ones 8). apply Z.land_ones. lia. Qed.
Lemma hard_in : forall t1 t2 : trace, ends_hard t1 -> Exists hard (t1 ++ t2).
Proof. intros t1 t2 (u & e & -> & H & _). rewrite <- app_assoc. apply Exists_app. right. cbn. left. exact H. Qed.
Lemma hard_app : forall t1 t2 : trace, Exists hard t2 -> Exists hard (t1 ++ t2).
Proof. intros. apply Exists_app. auto. Qed.

Lemma cut_unique : forall p p' r r', nonul p -> nonul p' -> p ++ 0 :: r = p' ++ 0 :: r' -> p = p' /\ r = r'.
Proof.
  induction p as [|x p IH]; intros [|y p'] r r' N N' E; cbn in E.
  - injection E as ->. auto.
  - injection E as <- _. inversion N'; subst. lia.
  - injection E as -> _. inversion N; subst. lia.
  - injection E as -> E. inversion N; inversion N'; subst. apply IH in E as [-> ->]; auto.
Qed.

Section VIEW.
Variables (fuel : nat) (to from : Z).
Notation put := (@put fuel to _).

Lemma put_view : forall R ms (fail k : prog R) t o, legal t -> Forall (fun m => len m < two63) ms -> runs (put ms fail k) t o ->
  (exists t1 t2, t = t1 ++ t2 /\ sent to t1 = frames ms /\ got from t1 = [] /\ legal t2 /\ runs k t2 o) \/
  (exists t1 t2, t = t1 ++ t2 /\ ends_hard t1 /\ runs fail t2 o) \/ o = Cut.
Proof.
  intros R ms. induction ms as [|m ms IH]; intros fail k t o L F R0.
  - left. exists [], t. cbn [app]. auto.
  - cbn [Stubs.put] in R0. inversion F as [|? ? F1 F2]; subst. apply runs_bind in R0 as [(c & t1 & t2 & -> & R1 & R2)|[[R1 ->]|[R1 ->]]].
    + apply legal_app in L as [L1 L2]. rewrite <- (app_nil_r m) in R1 at 1. destruct (pipe_write_ok _ _ _ _ _ _ R1 L1 F1) as [_ H1].
      pose proof (got_none from _ _ (pipe_write_calls _ _ _ _ _ _ R1) (writes_noread to from)) as G1.
      destruct c as [|e].
      * destruct H1 as [H1 _]. destruct (IH _ _ _ _ L2 F2 R2) as [(u1 & u2 & -> & A & B & C & D)|[(u1 & u2 & -> & A & B)|E]].
        -- left. exists (t1 ++ u1), u2. rewrite <- app_assoc, sent_app, got_app, H1, A, B, G1. repeat split; auto.
        -- right. left. exists (t1 ++ u1), u2. rewrite <- app_assoc. repeat split; auto.
           destruct A as (w & e & -> & X & Y). exists (t1 ++ w), e. rewrite <- app_assoc. repeat split; auto. apply Forall_app. split; auto.
           pose proof (pipe_write_ok fuel to m [] t1 (Fin Good)) as Z. rewrite app_nil_r in R1. rewrite app_nil_r in Z. destruct (Z R1 L1 F1) as [_ [_ Q]]. exact Q.
        -- auto.
      * right. left. exists t1, t2. destruct H1 as (_ & _ & H1). auto.
    + rewrite <- (app_nil_r m) in R1 at 1. destruct (pipe_write_ok _ _ _ _ _ _ R1 L F1) as [_ []].
    + auto.
Qed.

(** The possible results of a call. *)
Definition view (c : call) (t : trace) (o : outcome answer) : Prop :=
  (exists q ws a, o = Fin a /\ asks c q /\ answers c ws a /\ sent to t = sends q /\ got from t = concat ws) \/
  (local c /\ sent to t = [] /\ got from t = [] /\ o <> Wrong) \/
  ((o = Cut \/ Exists hard t) /\ (o = Wrong -> overflow c)) \/
  (exists q ws hd, asks c q /\ sent to t = sends q /\ got from t = concat ws ++ hd /\ length hd = 8%nat /\ unfit c ws (leval hd) /\ (o = Wrong -> overflow c \/ exists fn, c = Getcert fn)) \/
  (exists t1 t2 q b, t = t1 ++ t2 /\ asks c q /\ sent to t1 = sends q /\ got from t1 = frame [b] /\ astray c b /\ (o = Wrong -> overflow c \/ near b)).

Lemma view_cut : forall c t, view c t Cut.
Proof. intros. right. right. left. split; auto. discriminate. Qed.
Lemma view_hard : forall c t1 t2 o, ends_hard t1 -> o <> Wrong \/ overflow c -> view c (t1 ++ t2) o.
Proof. intros c t1 t2 o H W. right. right. left. split; [right; apply hard_in; auto|]. intros E. destruct W; [contradiction|auto]. Qed.

Ltac sp1 := rewrite sent_app, got_app.
Lemma sends_one : forall q, sends [q] = frames q.
Proof. intros. unfold sends. cbn [map concat]. apply app_nil_r. Qed.

Lemma readmax_none : forall d n t o, runs (pipe_readmax fuel from d n) t o -> sent to t = [].
Proof. intros d n t o R. eapply sent_none; [eapply pipe_readmax_calls; eauto|]. apply reads_nowrite. Qed.
Lemma readall_none : forall d n t o, runs (pipe_readall fuel from d n) t o -> sent to t = [].
Proof. intros d n t o R. eapply sent_none; [eapply pipe_readall_calls; eauto|]. apply reads_nowrite. Qed.

Lemma len_firstn_le : forall (l : list Z) n, 0 <= n <= len l -> len (firstn (Z.to_nat n) l) = n.
Proof. intros l n H. unfold len in *. rewrite firstn_length. lia. Qed.

Lemma view_bind : forall c A (p : prog A) (f : A -> answer) t o, runs (x <~ p ;; Ret (f x)) t o ->
  (forall o', runs p t o' -> view c t (match o' with Fin x => Fin (f x) | Wrong => Wrong | Cut => Cut end)) -> view c t o.
Proof.
  intros c A p f t o R H. apply runs_bind in R as [(x & t1 & t2 & -> & R1 & R2)|[[R1 ->]|[R1 ->]]].
  - destruct R2 as [-> ->]. rewrite app_nil_r in *. exact (H _ R1).
  - exact (H _ R1).
  - exact (H _ R1).
Qed.

Lemma mulgen_view : forall R curve t o, legal t -> call_ok (Mulgen R curve) -> runs (stub fuel to from (Mulgen R curve)) t o -> view (Mulgen R curve) t o.
Proof.
  intros R curve t o L K R0. cbn [stub call_ok] in *. unfold tls_pipe_mulgen in R0.
  apply put_view in R0 as [(t1 & t2 & -> & A & B & C & D)|[(t1 & t2 & -> & A & -> & ->)| ->]]; auto; [| |apply view_cut|].
  - assert (Q : asks (Mulgen R curve) [[[]]; [[curve mod 256]]]) by reflexivity.
    assert (S : frames [[]; [u8 curve]] = sends [[[]]; [[curve mod 256]]]) by reflexivity.
    apply runs_bind in D as [([[c y] n] & u1 & u2 & -> & R1 & R2)|[[R1 ->]|[R1 ->]]]; [| |apply view_cut].
    + pose proof (readmax_none _ _ _ _ R1) as N. apply legal_app in C as [C1 C2].
      destruct (pipe_readmax_ok _ _ _ _ _ _ R1 C1) as [_ H]; [lia|unfold CHUNK; lia|].
      destruct c as [|e]; destruct R2 as [-> ->]; rewrite app_nil_r in *.
      * destruct H as (m & M1 & M2 & M3 & M4 & M5). left. eexists _, [frame m], _. split; [reflexivity|]. split; [exact Q|]. split.
        { exists m. split; [lia|]. split; auto. subst y n. reflexivity. }
        sp1. rewrite A, B, N, M3, <- S, app_nil_r. cbn [concat]. rewrite app_nil_r. auto.
      * destruct H as (-> & [[H _]|(H1 & -> & H2 & H3)]).
        -- right. right. left. split; [right|discriminate]. apply hard_app. rewrite <- (app_nil_r u1). apply hard_in. auto.
        -- right. right. right. left. eexists _, [], _. split; [exact Q|]. sp1. rewrite A, B, N, <- S, app_nil_r. repeat split; auto; try discriminate. lia.
    + destruct (pipe_readmax_ok _ _ _ _ _ _ R1 C) as [_ []]; [lia|unfold CHUNK; lia].
  - apply view_hard; auto. left. discriminate.
  - repeat (apply Forall_cons || apply Forall_nil); reflexivity.
Qed.

Lemma dosign_view : forall al d n max t o, legal t -> call_ok (Dosign al d n max) -> runs (stub fuel to from (Dosign al d n max)) t o -> view (Dosign al d n max) t o.
Proof.
  intros al d n max t o L K R0. cbn [stub call_ok] in *. unfold tls_pipe_dosign in R0. destruct K as (K1 & K2 & K3).
  apply put_view in R0 as [(t1 & t2 & -> & A & B & C & D)|[(t1 & t2 & -> & A & -> & ->)| ->]]; auto; [| |apply view_cut|].
  - assert (Q : asks (Dosign al d n max) [[[al mod 256]; le 8 max; firstn (Z.to_nat n) d]]) by reflexivity.
    assert (S : frames [[Z.land al 255]; object 8 max; firstn (Z.to_nat n) d] = sends [[[al mod 256]; le 8 max; firstn (Z.to_nat n) d]]).
    { rewrite sends_one, land255, object_le, (Z.mod_small max); auto. change (256 ^ Z.of_nat 8) with 18446744073709551616. lia. }
    apply runs_bind in D as [([[c y] k] & u1 & u2 & -> & R1 & R2)|[[R1 ->]|[R1 ->]]]; [| |apply view_cut].
    + pose proof (readmax_none _ _ _ _ R1) as N. apply legal_app in C as [C1 C2].
      destruct (pipe_readmax_ok _ _ _ _ _ _ R1 C1) as [_ H]; [lia|unfold CHUNK; lia|].
      destruct c as [|e]; destruct R2 as [-> ->]; rewrite app_nil_r in *.
      * destruct H as (m & M1 & M2 & M3 & M4 & M5). left. eexists _, [frame m], _. split; [reflexivity|]. split; [exact Q|]. split.
        { exists m. split; [lia|]. split; auto. subst y k. reflexivity. }
        sp1. rewrite A, B, N, M3, <- S, app_nil_r. cbn [concat]. rewrite app_nil_r. auto.
      * destruct H as (-> & [[H _]|(H1 & -> & H2 & H3)]).
        -- right. right. left. split; [right|discriminate]. apply hard_app. rewrite <- (app_nil_r u1). apply hard_in. auto.
        -- right. right. right. left. eexists _, [], _. split; [exact Q|]. sp1. rewrite A, B, N, <- S, app_nil_r. repeat split; auto; try discriminate. lia.
    + destruct (pipe_readmax_ok _ _ _ _ _ _ R1 C) as [_ []]; [lia|unfold CHUNK; lia].
  - apply view_hard; auto. left. discriminate.
  - repeat (apply Forall_cons || apply Forall_nil); try reflexivity. rewrite len_firstn_le by lia. unfold two63. lia.
Qed.

Lemma mul_view : forall G sid v cs cr sr t o, legal t -> call_ok (Mul G sid v cs cr sr) -> runs (stub fuel to from (Mul G sid v cs cr sr)) t o -> view (Mul G sid v cs cr sr) t o.
Proof.
  intros G sid v cs cr sr t o L (K1 & K2 & K3 & K4) R0. cbn [stub] in *. change (2 ^ 62) with 4611686018427387904 in *.
  eapply view_bind; [exact R0|]. clear R0. intros o' R0. unfold tls_pipe_mul in R0.
  apply put_view in R0 as [(t1 & t2 & -> & A & B & C & -> & ->)|[(t1 & t2 & -> & A & -> & ->)| ->]]; auto; [| |apply view_cut|].
  - rewrite app_nil_r. left. eexists _, [], _. split; [reflexivity|]. split; [reflexivity|]. split; [split; reflexivity|].
    rewrite A, B, sends_one, !object_le. auto.
  - apply view_hard; auto. left. discriminate.
  - repeat (apply Forall_cons || apply Forall_nil); try reflexivity; unfold two63; lia.
Qed.

Lemma random_ok : forall n t o, runs (randombytes n) t o -> sent to t = [] /\ got from t = [] /\ o <> Wrong.
Proof. intros n t o R. unfold randombytes in R. destruct R as [[-> ->]|(a & t' & -> & -> & ->)]; cbn; repeat split; auto; discriminate. Qed.
Lemma random_ok2 : forall n t o, runs (r <~ randombytes n ;; Ret r) t o -> sent to t = [] /\ got from t = [] /\ o <> Wrong.
Proof. intros n t o R. apply runs_bind in R as [(x & t1 & t2 & -> & R1 & -> & ->)|[[R1 ->]|[R1 ->]]]; apply random_ok in R1 as (A & B & C); rewrite ?app_nil_r; repeat split; auto; discriminate. Qed.

Lemma nonul_c : nonul (bs "client finished").
Proof. unfold nonul. rewrite Forall_forall. intros x I. cbn in I. repeat (destruct I as [<-|I]; [lia|]). contradiction. Qed.
Lemma nonul_s : nonul (bs "server finished").
Proof. unfold nonul. rewrite Forall_forall. intros x I. cbn in I. repeat (destruct I as [<-|I]; [lia|]). contradiction. Qed.
Lemma finished_dec : forall p rest, nonul p -> (finished (p ++ 0 :: rest) <-> p = bs "client finished" \/ p = bs "server finished").
Proof.
  intros p rest N. split.
  - intros (r & [E|E]); [left|right].
    + apply cut_unique in E as [E _]; auto. apply nonul_c.
    + apply cut_unique in E as [E _]; auto. apply nonul_s.
  - intros [->| ->]; exists rest; auto.
Qed.

(** str_diff against a literal *)
Lemma label_diff : forall p rest t, nonul p -> nonul t -> exists d, str_diff (p ++ 0 :: rest) (t ++ [0]) = Ok d /\ (d = 0 <-> p = t).
Proof.
  intros p rest t N N'. destruct (str_diff_ok p t rest [] N N') as (d & E & F). exists d. split; auto. destruct F as [[F ->]|(a & x & y & u & v & F1 & F2 & F3 & ->)].
  - split; auto. intros _. apply cut_unique in F; tauto.
  - split; [lia|]. intros ->. exfalso. rewrite F1 in F2. apply app_inv_head in F2. injection F2 as -> _. auto.
Qed.

Lemma prf_view : forall dst n label seed t o, legal t -> call_ok (Prf dst n label seed) -> runs (stub fuel to from (Prf dst n label seed)) t o -> view (Prf dst n label seed) t o.
Proof.
  intros dst n label seed t o L K R0. cbn [stub call_ok] in *. destruct K as ((p & rest & -> & NP) & -> & KD & KS).
  eapply view_bind; [exact R0|]. clear R0. intros o' R0. unfold tls_pipe_prf in R0.
  assert (RND : ~ finished (p ++ 0 :: rest) \/ length seed <> 1%nat -> runs (r <~ randombytes (Z.to_nat 12) ;; Ret r) t o' ->
    view (Prf dst 12 (p ++ 0 :: rest) seed) t (match o' with Fin x => Fin (1, x) | Wrong => Wrong | Cut => Cut end)).
  { intros F R. apply random_ok2 in R as (A & B & C). right. left. split; [exact F|]. repeat split; auto. destruct o'; congruence. }
  destruct (label_diff p rest (bs "client finished") NP nonul_c) as (d1 & E1 & F1).
  destruct (label_diff p rest (bs "server finished") NP nonul_s) as (d2 & E2 & F2).
  rewrite E1 in R0. cbn [lift pbind] in R0.
  assert (R1 : runs (if negb (d1 =? 0) && negb (d2 =? 0) then (r <~ randombytes (Z.to_nat 12) ;; Ret r)
     else match seed with
     | [s] => l <~ lift (str_len (p ++ 0 :: rest)) ;;
        put [[0]; firstn (Z.to_nat (l + 1)) (p ++ 0 :: rest); object 8 (len s); s] (r <~ randombytes (Z.to_nat 12) ;; Ret r)
          ('(c, dst) <~ pipe_readall fuel from dst 12 ;; match c with Good => Ret dst | Fail _ => (r <~ randombytes (Z.to_nat 12) ;; Ret r) end)
     | _ => (r <~ randombytes (Z.to_nat 12) ;; Ret r) end) t o').
  { destruct (d1 =? 0); cbn [negb andb lift pbind] in *; [exact R0|]. rewrite E2 in R0. cbn [lift pbind] in R0. exact R0. }
  clear R0 E1 E2. destruct (Z.eqb_spec d1 0) as [D1|D1], (Z.eqb_spec d2 0) as [D2|D2]; cbn [negb andb] in R1;
    try (apply RND; auto; left; rewrite finished_dec by auto; tauto).
  all: assert (FIN : finished (p ++ 0 :: rest)) by (rewrite finished_dec by auto; tauto).
  all: clear F1 F2 D1 D2 d1 d2.
  all: destruct seed as [|s [|s2 seed]]; try (apply RND; [right; cbn; lia|exact R1]); clear RND.
  all: rewrite str_len_ok in R1 by auto; cbn [lift pbind] in R1; inversion KS as [|? ? KS1 _]; subst; change (2 ^ 62) with 4611686018427387904 in KS1.
  all: assert (LB : firstn (Z.to_nat (len p + 1)) (p ++ 0 :: rest) = p ++ [0]).
  all: try (rewrite firstn_app; unfold len; replace (Z.to_nat (Z.of_nat (length p) + 1) - length p)%nat with 1%nat by lia; rewrite firstn_all2 by lia; reflexivity).
  all: rewrite LB in R1; clear LB.
  all: pose proof (len_nonneg _ s) as NS.
  all: assert (LP : len p < 100) by (apply finished_dec in FIN; auto; destruct FIN as [-> | ->]; reflexivity).
  all: apply put_view in R1 as [(t1 & t2 & -> & A & B & C & D)|[(t1 & t2 & -> & A & D)| ->]]; auto; [| |apply view_cut|].
  all: try (apply view_hard; auto; left; apply random_ok2 in D as (_ & _ & D); destruct o'; congruence).
  all: try (repeat (apply Forall_cons || apply Forall_nil); try reflexivity; rewrite ?len_app; change (len [0]) with 1; unfold two63; lia).
  all: assert (Q : asks (Prf dst 12 (p ++ 0 :: rest) [s]) [[[0]; p ++ [0]; le 8 (len s); s]]) by (exists p, rest, s; repeat split; auto).
  all: assert (S : frames [[0]; p ++ [0]; object 8 (len s); s] = sends [[[0]; p ++ [0]; le 8 (len s); s]]) by
    (rewrite sends_one, object_le, (Z.mod_small (len s)); auto; change (256 ^ Z.of_nat 8) with 18446744073709551616; lia).
  all: apply runs_bind in D as [([c y] & u1 & u2 & -> & R1 & R2)|[[R1 ->]|[R1 ->]]]; [| |apply view_cut].
  all: try (destruct (pipe_readall_ok _ _ _ _ _ _ R1 C) as [_ []]; [lia|unfold CHUNK; lia]).
  all: pose proof (readall_none _ _ _ _ R1) as N; apply legal_app in C as [C1 C2];
      destruct (pipe_readall_ok _ _ _ _ _ _ R1 C1) as [_ H]; [lia|unfold CHUNK; lia|].
  all: destruct c as [|e].
  all: try (destruct R2 as [-> ->]; rewrite app_nil_r in *; destruct H as (m & M1 & M2 & M3 & M4); left; eexists _, [frame m], _;
     split; [reflexivity|]; split; [exact Q|]; split; [exists m; split; [lia|]; split; auto; subst y; rewrite skipn_all2, app_nil_r by (unfold len in KD; lia); reflexivity|];
     sp1; rewrite A, B, N, M2, <- S, app_nil_r; cbn [concat]; rewrite app_nil_r; auto).
  all: apply random_ok2 in R2 as (S2 & G2 & W2).
  all: destruct H as [[H _]|(H1 & -> & H2 & H3)].
  all: try (right; right; left; split; [right; apply hard_app; apply hard_in; exact H|destruct o'; congruence]).
  all: right; right; right; left; eexists _, [], (got from u1); split; [exact Q|]; sp1; rewrite sent_app, got_app, A, B, N, S2, G2, <- S, !app_nil_r; repeat split; auto; destruct o'; congruence.
Qed.

Lemma at_ok : forall mem i d, at_ mem i = Ok d -> 0 <= i <= len mem /\ d = skipn (Z.to_nat i) mem.
Proof. intros mem i d E. unfold at_ in E. destruct (Z.ltb_spec i 0); [discriminate|]. destruct (Z.ltb_spec (len mem) i); [discriminate|]. cbn in E. injection E as <-. split; [lia|reflexivity]. Qed.
Lemma at_in : forall mem i, 0 <= i <= len mem -> at_ mem i = Ok (skipn (Z.to_nat i) mem).
Proof. intros mem i H. unfold at_. destruct (Z.ltb_spec i 0); [lia|]. destruct (Z.ltb_spec (len mem) i); [lia|]. reflexivity. Qed.
Lemma len_skipn : forall (mem : list Z) i, 0 <= i <= len mem -> len (skipn (Z.to_nat i) mem) = len mem - i.
Proof. intros mem i H. unfold len in *. rewrite skipn_length. lia. Qed.
(** Reading back what was stored at position [i]. *)
Lemma stored : forall (mem m : list Z) i, 0 <= i -> i + len m <= len mem ->
  firstn (Z.to_nat (len m)) (skipn (Z.to_nat i) (firstn (Z.to_nat i) mem ++ m ++ skipn (length m) (skipn (Z.to_nat i) mem))) = m.
Proof.
  intros mem m i I B. rewrite skipn_app. rewrite (skipn_all2 (firstn _ _)) by (rewrite firstn_length; lia).
  rewrite firstn_length. replace (Z.to_nat i - Nat.min (Z.to_nat i) (length mem))%nat with O by (unfold len in B; lia).
  cbn [skipn app]. unfold len. rewrite Nat2Z.id, firstn_app, Nat.sub_diag, firstn_all. cbn. apply app_nil_r.
Qed.

Lemma schar_place : forall base o, base + schar o = place base o.
Proof. reflexivity. Qed.
Lemma near_dec : forall o, 0 <= o < 256 -> (schar o <? -64) || (64 <? schar o) = false <-> near o.
Proof. intros o B. unfold schar, near. destruct (Z.ltb_spec o 128); split; intros; try (apply orb_false_iff in H0 as [A C]); lia || (try apply orb_false_iff; lia). Qed.
Lemma near_dec' : forall o, 0 <= o < 256 -> (schar o <? -64) || (64 <? schar o) = true -> ~ near o.
Proof. intros o B E N. apply near_dec in N; auto. congruence. Qed.
Lemma limit_dec : forall n x mem i, limit n x mem i \/ ~ limit n x mem i.
Proof. intros. unfold limit. destruct (Z_le_dec 0 i), (Z_le_dec (i + (n + x)) (len mem)); [left; lia|right; lia..]. Qed.
Lemma byte_frame : forall t m, legal t -> got from t = frame m -> bytes m.
Proof. intros t m L G. pose proof (IoP.got_bytes from t L) as B. rewrite G in B. unfold frame in B. apply Forall_app in B. tauto. Qed.
Lemma obj4 : forall v, object 4 v = le 4 (v mod 2 ^ 32).
Proof. intros. apply object_le. Qed.

Lemma scramble_silent : forall mem base k A (a : list Z -> A) t o, runs (m <~ scramble mem base k ;; Ret (a m)) t o -> sent to t = [] /\ got from t = [].
Proof.
  intros mem base k A a t o R. assert (X : forall o, runs (scramble mem base k) t o -> sent to t = [] /\ got from t = []).
  { intros o' R1. unfold scramble in R1. apply runs_bind in R1 as [(z & w1 & w2 & -> & R2 & R3)|[[R2 _]|[R2 E]]]; apply random_ok in R2 as (S1 & S2 & _); auto.
    apply runs_lift in R3. destruct R3 as [-> _]. rewrite app_nil_r. auto. }
  apply runs_bind in R as [(z & w1 & w2 & -> & R2 & -> & ->)|[[R2 _]|[R2 E]]]; [|eapply X; eauto..].
  rewrite app_nil_r in *. eapply X; eauto.
Qed.

Lemma scramble_wrong : forall mem base k A (a : list Z -> A) t, 0 <= base -> 0 <= k -> runs (m <~ scramble mem base k ;; Ret (a m)) t Wrong -> len mem < base + k.
Proof.
  intros mem base k A a t B K R. apply runs_bind in R as [(y & w1 & w2 & -> & R1 & -> & E)|[[R1 _]|[R1 E]]]; try discriminate.
  unfold scramble in R1. apply runs_bind in R1 as [(z & w1 & w2 & -> & R2 & R3)|[[R2 _]|[R2 E]]]; [|apply random_ok in R2; tauto|discriminate].
  destruct (Z_lt_dec (len mem) (base + k)); auto. exfalso. destruct (copyin_ok mem base z k) as (dd & EC & _); [lia..| |rewrite EC in R3; destruct R3; discriminate].
  unfold randombytes in R2. destruct R2 as [[_ E]|(a0 & w & _ & _ & E)]; [discriminate|]. injection E as ->. unfold len. rewrite map_length, firstn_length, app_length, repeat_length. lia.
Qed.

Lemma decrypt_view : forall ty v mem base n t o, legal t -> call_ok (Decrypt ty v mem base n) -> runs (stub fuel to from (Decrypt ty v mem base n)) t o -> view (Decrypt ty v mem base n) t o.
Proof.
  intros ty v mem base n t o L K R0. cbn [stub call_ok] in *. destruct K as (K1 & K2 & K3).
  eapply view_bind; [exact R0|]. clear R0. intros o' R0. unfold decrypt in R0. rewrite at_in in R0 by lia. cbn [lift pbind] in R0.
  assert (Q : asks (Decrypt ty v mem base n) [[[1]; le 4 (ty mod 2 ^ 32); le 4 (v mod 2 ^ 32); firstn (Z.to_nat n) (skipn (Z.to_nat base) mem)]]) by reflexivity.
  rewrite !obj4 in R0. revert R0.
  set (q := [[1]; le 4 (ty mod 2 ^ 32); le 4 (v mod 2 ^ 32); firstn (Z.to_nat n) (skipn (Z.to_nat base) mem)]) in *. intros R0.
  assert (FAIL : forall t1 t2 u mem' k, ends_hard t2 -> len mem' = len mem -> 0 <= k <= n + 0 -> runs (Ret (@None (Z * Z), mem')) u o' ->
     view (Decrypt ty v mem base n) (t1 ++ t2 ++ u) match o' with Fin x => Fin (record_answer x) | Wrong => Wrong | Cut => Cut end).
  { intros t1 t2 u mem' k H LM LK R. right. right. left. split; [right; apply hard_app, hard_in; auto|]. destruct R as [-> ->]. discriminate. }
  apply put_view in R0 as [(t1 & t2 & -> & A & B & C & D)|[(t1 & t2 & -> & A & D)| ->]]; auto; [| |apply view_cut|].
  - rewrite <- sends_one in A. apply runs_bind in D as [([c y] & u1 & u2 & -> & R1 & R2)|[[R1 ->]|[R1 ->]]]; [| |apply view_cut].
    2: { destruct (pipe_readall_ok _ _ _ _ _ _ R1 C) as [_ []]; [change (len [0]) with 1; lia|unfold CHUNK; lia]. }
    pose proof (readall_none _ _ _ _ R1) as N; apply legal_app in C as [C1 C2].
    destruct (pipe_readall_ok _ _ _ _ _ _ R1 C1) as [_ H]; [change (len [0]) with 1; lia|unfold CHUNK; lia|].
    destruct c as [|e].
    2: { destruct H as [[H _]|(H1 & -> & H2 & H3)].
      - eapply FAIL; eauto. try instantiate (1 := 0). lia.
      - destruct R2 as [-> ->]. rewrite app_nil_r in *. right. right. right. left. exists [q], [], (got from u1). split; [exact Q|]. sp1. rewrite A, B, N, app_nil_r. repeat split; auto; try discriminate. left. auto. }
    destruct H as (m & M1 & M2 & M3 & M4). destruct m as [|b [|b2 m]]; [discriminate M1| |exfalso; unfold len in M1; cbn [length] in M1; lia].
    cbn [Z.to_nat Pos.to_nat skipn] in M3. subst y. cbn [nth app] in R2.
    assert (BB : 0 <= b < 256). { apply byte_frame in M2; auto. inversion M2; auto. }
    assert (AST : (o' = Wrong -> near b) -> astray (Decrypt ty v mem base n) b -> view (Decrypt ty v mem base n) (t1 ++ u1 ++ u2) match o' with Fin x => Fin (record_answer x) | Wrong => Wrong | Cut => Cut end).
    { intros WN X. right. right. right. right. exists (t1 ++ u1), u2, [q], b. split; [apply app_assoc|]. split; auto. sp1. rewrite A, B, N, M2, app_nil_r. repeat split; auto. destruct o'; try discriminate; auto. }
    destruct ((schar b <? -64) || (64 <? schar b)) eqn:EB.
    { apply AST; [destruct R2 as [-> ->]; discriminate|]. left. apply near_dec'; auto. }
    assert (NB : near b) by (apply near_dec; auto).
    destruct (limit_dec n 0 mem (place base b)) as [LI|LI]; [|apply AST; [auto|right; exact LI]]. clear AST.
    rewrite schar_place in R2. pose proof LI as [LI1 LI2]. rewrite at_in in R2 by lia. cbn [lift pbind] in R2.
    apply runs_bind in R2 as [([[c d] k] & v1 & v2 & -> & R3 & R4)|[[R3 ->]|[R3 ->]]]; [| |apply view_cut].
    2: { destruct (pipe_readmax_ok _ _ _ _ _ _ R3 C2) as [_ []]; [rewrite len_skipn; lia|unfold CHUNK; lia]. }
    pose proof (readmax_none _ _ _ _ R3) as N3. apply legal_app in C2 as [C2 C3].
    destruct (pipe_readmax_ok _ _ _ _ _ _ R3 C2) as [_ H]; [rewrite len_skipn; lia|unfold CHUNK; lia|].
    destruct c as [|e].
    + destruct H as (m & P1 & P2 & P3 & P4 & P5). subst k d. pose proof (len_nonneg _ m) as NM.
      assert (AN : answers (Decrypt ty v mem base n) [frame [b]; frame m] (if len m =? 0 then (0, []) else (1, m))) by (exists b, m; repeat split; auto; lia).
      destruct (Z.eqb_spec (len m) 0) as [EM|EM]; destruct R4 as [-> ->]; rewrite app_nil_r in *; left.
      * eexists [q], [frame [b]; frame m], _. split; [reflexivity|]. split; auto. split; auto. sp1. rewrite sent_app, got_app, A, B, N, N3, M2, P3, !app_nil_r. cbn [concat]. rewrite app_nil_r. auto.
      * eexists [q], [frame [b]; frame m], _. split; [reflexivity|]. split; auto. cbn [record_answer]. rewrite stored by lia. split; auto. sp1. rewrite sent_app, got_app, A, B, N, N3, M2, P3, !app_nil_r. cbn [concat]. rewrite app_nil_r. auto.
    + destruct H as (-> & [[H (p & HP & LP)]|(H1 & -> & H2 & H3)]).
      * rewrite (app_assoc u1), (app_assoc t1). rewrite (app_assoc t1), <- (app_assoc (t1 ++ u1)).
        eapply FAIL; [exact H| |instantiate (1 := 0); lia|exact R4]. subst d. rewrite len_app, len_app. unfold len in *. rewrite skipn_length, firstn_length, skipn_length. lia.
      * destruct R4 as [-> ->]. rewrite app_nil_r in *. right. right. right. left. exists [q], [frame [b]], (got from v1). split; [exact Q|]. sp1. rewrite sent_app, got_app, A, B, N, N3, M2, !app_nil_r. cbn [concat]. rewrite app_nil_r. repeat split; auto; try discriminate. right. exists b. repeat split; auto. lia.
  - change (t1 ++ t2) with ([] ++ t1 ++ t2). eapply FAIL; eauto. try instantiate (1 := 0). lia.
  - subst q. repeat (apply Forall_cons || apply Forall_nil); try reflexivity; try (unfold len; rewrite le_length; reflexivity). unfold len. rewrite firstn_length. unfold two63. lia.
Qed.

Lemma encrypt_view : forall ty v mem base n t o, legal t -> call_ok (Encrypt ty v mem base n) -> runs (stub fuel to from (Encrypt ty v mem base n)) t o -> view (Encrypt ty v mem base n) t o.
Proof.
  intros ty v mem base n t o L K R0. cbn [stub call_ok] in *. destruct K as (K1 & K2 & K3).
  eapply view_bind; [exact R0|]. clear R0. intros o' R0. unfold encrypt in R0. rewrite at_in in R0 by lia. cbn [lift pbind] in R0.
  assert (Q : asks (Encrypt ty v mem base n) [[[2]; le 4 (ty mod 2 ^ 32); le 4 (v mod 2 ^ 32); firstn (Z.to_nat n) (skipn (Z.to_nat base) mem)]]) by reflexivity.
  rewrite !obj4 in R0. revert R0.
  set (q := [[2]; le 4 (ty mod 2 ^ 32); le 4 (v mod 2 ^ 32); firstn (Z.to_nat n) (skipn (Z.to_nat base) mem)]) in *. intros R0.
  assert (FAIL : forall t1 t2 u mem' k, ends_hard t2 -> len mem' = len mem -> 0 <= k <= n + 85 -> runs (mem <~ scramble mem' base k ;; Ret (@None (Z * Z), mem)) u o' ->
     view (Encrypt ty v mem base n) (t1 ++ t2 ++ u) match o' with Fin x => Fin (record_answer x) | Wrong => Wrong | Cut => Cut end).
  { intros t1 t2 u mem' k H LM LK R. right. right. left. split; [right; apply hard_app, hard_in; auto|]. apply runs_bind in R as [(y & w1 & w2 & -> & R1 & -> & ->)|[[R1 ->]|[R1 ->]]]; try discriminate. intros _. cbn [overflow].
    unfold scramble in R1. apply runs_bind in R1 as [(z & w1 & w2 & -> & R2 & R3)|[[R2 _]|[R2 E]]]; [|apply random_ok in R2; tauto|discriminate].
    destruct (Z_lt_dec (len mem) (base + n + 85)); auto. exfalso. destruct (copyin_ok mem' base z k) as (dd & EC & _); [lia..| |rewrite EC in R3; destruct R3; discriminate].
    unfold randombytes in R2. destruct R2 as [[_ E]|(a & w & _ & _ & E)]; [discriminate|]. injection E as ->. unfold len. rewrite map_length, firstn_length, app_length, repeat_length. lia. }
  apply put_view in R0 as [(t1 & t2 & -> & A & B & C & D)|[(t1 & t2 & -> & A & D)| ->]]; auto; [| |apply view_cut|].
  - rewrite <- sends_one in A. apply runs_bind in D as [([c y] & u1 & u2 & -> & R1 & R2)|[[R1 ->]|[R1 ->]]]; [| |apply view_cut].
    2: { destruct (pipe_readall_ok _ _ _ _ _ _ R1 C) as [_ []]; [change (len [0]) with 1; lia|unfold CHUNK; lia]. }
    pose proof (readall_none _ _ _ _ R1) as N; apply legal_app in C as [C1 C2].
    destruct (pipe_readall_ok _ _ _ _ _ _ R1 C1) as [_ H]; [change (len [0]) with 1; lia|unfold CHUNK; lia|].
    destruct c as [|e].
    2: { destruct H as [[H _]|(H1 & -> & H2 & H3)].
      - eapply FAIL; eauto. try instantiate (1 := 0). lia.
      - assert (S2 : sent to u2 = [] /\ got from u2 = []) by (eapply scramble_silent; exact R2). destruct S2 as [S2 G2].
        right. right. right. left. exists [q], [], (got from u1). split; [exact Q|]. sp1. rewrite sent_app, got_app, A, B, N, S2, G2, !app_nil_r. repeat split; auto. { left. auto. } intros EW. left. cbn [overflow]. destruct o'; try discriminate. apply scramble_wrong in R2; lia. }
    destruct H as (m & M1 & M2 & M3 & M4). destruct m as [|b [|b2 m]]; [discriminate M1| |exfalso; unfold len in M1; cbn [length] in M1; lia].
    cbn [Z.to_nat Pos.to_nat skipn] in M3. subst y. cbn [nth app] in R2.
    assert (BB : 0 <= b < 256). { apply byte_frame in M2; auto. inversion M2; auto. }
    assert (AST : (o' = Wrong -> overflow (Encrypt ty v mem base n) \/ near b) -> astray (Encrypt ty v mem base n) b -> view (Encrypt ty v mem base n) (t1 ++ u1 ++ u2) match o' with Fin x => Fin (record_answer x) | Wrong => Wrong | Cut => Cut end).
    { intros WN X. right. right. right. right. exists (t1 ++ u1), u2, [q], b. split; [apply app_assoc|]. split; auto. sp1. rewrite A, B, N, M2, app_nil_r. repeat split; auto. destruct o'; try discriminate; auto. }
    destruct ((schar b <? -64) || (64 <? schar b)) eqn:EB.
    { apply AST; [intros ->; left; cbn [overflow]; apply scramble_wrong in R2; lia|]. left. apply near_dec'; auto. }
    assert (NB : near b) by (apply near_dec; auto).
    destruct (limit_dec n 85 mem (place base b)) as [LI|LI]; [|apply AST; [auto|right; exact LI]]. clear AST.
    rewrite schar_place in R2. pose proof LI as [LI1 LI2]. rewrite at_in in R2 by lia. cbn [lift pbind] in R2.
    apply runs_bind in R2 as [([[c d] k] & v1 & v2 & -> & R3 & R4)|[[R3 ->]|[R3 ->]]]; [| |apply view_cut].
    2: { destruct (pipe_readmax_ok _ _ _ _ _ _ R3 C2) as [_ []]; [rewrite len_skipn; lia|unfold CHUNK; lia]. }
    pose proof (readmax_none _ _ _ _ R3) as N3. apply legal_app in C2 as [C2 C3].
    destruct (pipe_readmax_ok _ _ _ _ _ _ R3 C2) as [_ H]; [rewrite len_skipn; lia|unfold CHUNK; lia|].
    destruct c as [|e].
    + destruct H as (m & P1 & P2 & P3 & P4 & P5). subst k d. pose proof (len_nonneg _ m) as NM.
      assert (AN : answers (Encrypt ty v mem base n) [frame [b]; frame m] (1, m)) by (exists b, m; repeat split; auto; lia).
      destruct R4 as [-> ->]; rewrite app_nil_r in *; left.
      eexists [q], [frame [b]; frame m], _. split; [reflexivity|]. split; auto. cbn [record_answer]. rewrite stored by lia. split; auto. sp1. rewrite sent_app, got_app, A, B, N, N3, M2, P3, !app_nil_r. cbn [concat]. rewrite app_nil_r. auto.
    + destruct H as (-> & [[H (p & HP & LP)]|(H1 & -> & H2 & H3)]).
      * rewrite (app_assoc u1), (app_assoc t1). rewrite (app_assoc t1), <- (app_assoc (t1 ++ u1)).
        eapply FAIL; [exact H| | |exact R4]; [|lia]. subst d. rewrite len_app, len_app. unfold len in *. rewrite skipn_length, firstn_length, skipn_length. lia.
      * assert (S2 : sent to v2 = [] /\ got from v2 = []) by (eapply scramble_silent; exact R4). destruct S2 as [S2 G2].
        right. right. right. left. exists [q], [frame [b]], (got from v1). split; [exact Q|]. sp1. rewrite !sent_app, !got_app, A, B, N, N3, M2, S2, G2, !app_nil_r. cbn [concat]. rewrite app_nil_r. repeat split; auto. { right. exists b. repeat split; auto. lia. } intros EW. left. cbn [overflow]. destruct o'; try discriminate.
        apply scramble_wrong in R4; try lia. rewrite len_app, len_skipn in R4 by lia. unfold len in R4 at 1. rewrite firstn_length in R4. unfold len in *. lia.
  - change (t1 ++ t2) with ([] ++ t1 ++ t2). eapply FAIL; eauto. try instantiate (1 := 0). lia.
  - subst q. repeat (apply Forall_cons || apply Forall_nil); try reflexivity; try (unfold len; rewrite le_length; reflexivity). unfold len. rewrite firstn_length. unfold two63. lia.
Qed.

Lemma toint_small : forall v, 0 < v < 2 ^ 31 -> toint v = v.
Proof. intros v V. change (2 ^ 31) with 2147483648 in V. unfold toint, u32. rewrite Z.mod_small by lia. destruct (Z.ltb_spec v 2147483648); lia. Qed.
Lemma ends_exists : forall t : trace, ends_hard t -> Exists hard t.
Proof. intros t H. rewrite <- (app_nil_r t). apply hard_in. auto. Qed.

Lemma getcert_view : forall fn t o, legal t -> call_ok (Getcert fn) -> runs (stub fuel to from (Getcert fn)) t o -> view (Getcert fn) t o.
Proof.
  intros fn t o L (p & rest & -> & NP & LP) R0. cbn [stub] in R0. change (2 ^ 62) with 4611686018427387904 in LP.
  eapply view_bind; [exact R0|]. clear R0. intros o' R0. unfold tls_pipe_getcert in R0. rewrite str_len_ok in R0 by auto. cbn [lift pbind] in R0.
  replace (p ++ 0 :: rest) with ((p ++ [0]) ++ rest) in R0 by (rewrite <- app_assoc; reflexivity).
  assert (B0 : len p + 1 = len (p ++ [0])) by (rewrite len_app; reflexivity). rewrite B0 in R0.
  assert (B1 : len (p ++ [0]) < two63) by (rewrite <- B0; unfold two63; lia).
  assert (Q : asks (Getcert (p ++ 0 :: rest)) [[p ++ [0]]]) by (exists p, rest; auto).
  apply runs_bind in R0 as [(c & t1 & t2 & -> & R1 & R2)|[[R1 ->]|[R1 ->]]]; [| |apply view_cut].
  2: { destruct (pipe_write_ok _ _ _ _ _ _ R1 L B1) as [_ []]. }
  apply legal_app in L as [L1 L2]. destruct (pipe_write_ok _ _ _ _ _ _ R1 L1 B1) as [_ H1].
  pose proof (got_none from _ _ (pipe_write_calls _ _ _ _ _ _ R1) (writes_noread to from)) as G1.
  destruct c as [|e].
  2: { destruct H1 as (_ & _ & H1). destruct R2 as [-> ->]. apply view_hard; auto. left. discriminate. }
  destruct H1 as [H1 _].
  assert (S1 : sent to t1 = sends [[p ++ [0]]]) by (rewrite sends_one, frames_one; auto).
  apply runs_bind in R2 as [(x & t3 & t4 & -> & R3 & R4)|[[R3 ->]|[R3 ->]]]; [| |apply view_cut].
  - apply legal_app in L2 as [L3 L4].
    assert (G3 : sent to t3 = []).
    { apply (sent_none to _ _ (pipe_readalloc_calls _ _ _ _ R3)). intros b [H|H]; [apply reads_nowrite in H|apply allocs_nowrite in H]; auto. }
    pose proof (pipe_readalloc_ok _ _ _ _ R3 L3) as H3. destruct x as [e|pem].
    + destruct R4 as [-> ->]. rewrite app_nil_r in *. destruct H3 as [H3|(_ & v & V1 & V2 & V3)].
      * right. right. left. split; [right|discriminate]. apply hard_app, ends_exists, H3.
      * left. exists [[p ++ [0]]], [errframe v], (- e, []). split; [reflexivity|]. split; auto. split.
        { exists (errframe v). split; auto. right. exists v. split; auto. split; auto. intros V. rewrite V3, toint_small by lia. reflexivity. }
        sp1. rewrite S1, G1, G3, V2, app_nil_r. cbn [concat]. rewrite app_nil_r. auto.
    + destruct H3 as (H3 & _ & H4 & _).
      assert (A : forall a, answers (Getcert (p ++ 0 :: rest)) [frame pem] a) by (intros a; exists (frame pem); split; auto; left; exists pem; split; auto).
      destruct R4 as [[-> ->]|(a & t' & -> & R4)]; [apply view_cut|].
      assert (E : t' = [] /\ exists y, o' = Fin y) by (destruct (ret a =? 0); destruct R4 as [-> ->]; eauto). destruct E as (-> & y & ->).
      left. eexists _, [frame pem], _. split; [reflexivity|]. split; [exact Q|]. split; [apply A|]. rewrite !sent_app, !got_app. cbn [sent got pubcrt].
      rewrite S1, G1, G3, H3. cbn [concat]. rewrite !app_nil_r. auto.
  - pose proof (pipe_readalloc_ok _ _ _ _ R3 L2) as H3. cbn in H3.
    assert (G3 : sent to t2 = []).
    { apply (sent_none to _ _ (pipe_readalloc_calls _ _ _ _ R3)). intros b [H|H]; [apply reads_nowrite in H|apply allocs_nowrite in H]; auto. }
    right. right. right. left. exists [[p ++ [0]]], [], (le 8 (2 ^ 63)). split; [exact Q|]. sp1. rewrite S1, G1, G3, H3, app_nil_r. repeat split; eauto.
Qed.

Lemma stub_view : forall c t o, legal t -> call_ok c -> runs (stub fuel to from c) t o -> view c t o.
Proof.
  intros [] t o L K R0; [apply getcert_view|apply mulgen_view|apply dosign_view|apply mul_view|apply prf_view|apply decrypt_view|apply encrypt_view]; auto.
Qed.

Lemma encrypt_wrong : forall ty v mem base n t, legal t -> call_ok (Encrypt ty v mem base n) -> runs (encrypt fuel to from ty v mem base n) t Wrong ->
  len mem < base + n + 85 \/ exists t1 t2 b, t = t1 ++ t2 /\ got from t1 = frame [b] /\ near b /\ ~ limit n 85 mem (place base b).
Proof.
  intros ty v mem base n t L K R0.
  assert (R1 : runs (stub fuel to from (Encrypt ty v mem base n)) t Wrong) by (cbn [stub]; apply runs_bind; right; left; auto).
  destruct (stub_view _ _ _ L K R1) as [(q & ws & a & E & _)|[(A & _)|[(A & B)|[(q & ws & hd & A & B & C & D & E & F)|(u1 & u2 & q & b & -> & A & B & C & D & E)]]]].
  - discriminate.
  - contradiction A.
  - left. apply B. auto.
  - destruct (F eq_refl) as [F'|(fn & F')]; [auto|discriminate].
  - destruct (E eq_refl) as [E'|E']; [auto|]. right. exists u1, u2, b. repeat split; auto. cbn [astray] in D. tauto.
Qed.

Lemma local_not_asks : forall c q, call_ok c -> asks c q -> ~ local c.
Proof. intros [] q K A H; try contradiction H. destruct A as (p & r & s & -> & NP & F & -> & _). destruct H as [H|H]; auto. Qed.

Lemma client_talk : forall cl s t o, ordered s cl -> legal t -> runs (client_run fuel to from cl) t o ->
  exists log e, talk fuel to from cl t log e o.
Proof.
  induction cl as [|c f IH]; intros s t o O L R.
  - destruct R as [-> ->]. exists [], Quit. constructor.
  - cbn [client_run] in R. destruct O as [K O].
    assert (N : forall a, exists s', ordered s' (f a)) by (intros a; destruct O as [[_ O]|(s' & _ & O)]; eauto).
    assert (V : forall t1 t2 o1, t = t1 ++ t2 -> runs (stub fuel to from c) t1 o1 -> (o1 = Cut -> t2 = []) ->
       (forall a, o1 = Fin a -> exists log e, talk fuel to from (f a) t2 log e o) -> exists log e, talk fuel to from (Ask c f) t log e o).
    { intros t1 t2 o1 -> R1 HC HF. apply legal_app in L as [L1 L2].
      destruct (stub_view _ _ _ L1 K R1) as [(q & ws & a & -> & A & B & C & D)|[(A & B & C & D)|[(A & B)|[(q & ws & hd & A & B & C & D & E & _)|(u1 & u2 & q & b & -> & A & B & C & D & _)]]]].
      - destruct (HF a eq_refl) as (log & e & T). exists (logged q ws ++ log), e. eapply k_call; eauto.
      - destruct o1 as [a| |]; [|congruence|].
        + destruct (HF a eq_refl) as (log & e & T). exists log, e. eapply k_local; eauto.
        + exists [], Lost. eapply k_lost; eauto. discriminate.
      - exists [], Lost. eapply k_lost; eauto. destruct A as [->|A]; auto.
      - exists [], (Refused c ws hd). eapply k_refused; eauto.
      - exists [], (Astray c b). rewrite <- app_assoc. eapply k_astray; eauto. }
    apply runs_bind in R as [(a & t1 & t2 & -> & R1 & R2)|[[R1 ->]|[R1 ->]]].
    + eapply V; eauto; try discriminate. intros a' E. injection E as <-. apply legal_app in L as [_ L2]. destruct (N a) as (s' & O'). eauto.
    + apply (V t [] Wrong); auto; try discriminate. rewrite app_nil_r. auto.
    + apply (V t [] Cut); auto; try discriminate. rewrite app_nil_r. auto.
Qed.
End VIEW.
