(** C28, C29, C30, C67: log records, formatted numbers and texts. *)
From Verif.Model Require Import Base Sys Io Stralloc Log.
From Verif.Spec Require Import Num Grow Stream LogText.
From Verif.Proof Require Import Tac NumP SysP IoP BufferP StrallocP LogP ProxyP.

(** Inputs of log_9_: nine fragment pointers, any configuration strings; [w] the
    whitelisted prefixes.  The error text of e_str and the source location are C
    string literals. *)
Definition inputs (c : lconf) (w : list (list Z)) (name ip id : option (list Z)) (f : option (list Z)) (fs : option (list Z))
    (fce gs : option (list Z)) (frags ms : list (option (list Z))) (e : Z) (es : list Z) (l : Z) : Prop :=
  cwhite c = map (fun n => n ++ [0]) w /\ ocstr (cname c) name /\ ocstr (cip c) ip /\ ocstr (cid c) id /\
  ocstr f fs /\ ocstr fce gs /\ cstr (cestr c e) es /\ length frags = 9%nat /\ Forall2 ocstr frags ms /\ in_s64 l.

(** What one call writes to standard error: nothing if the record is not wanted,
    otherwise the formatted line (part of it if standard error refuses data); the
    buffer is empty again afterwards. *)
Theorem C28_record : forall fuel c w level fe f l fce frags e name ip id fs gs ms es s tr o,
  inputs c w name ip id f fs fce gs frags ms e es l -> 1 <= level <= 4 ->
  length (lb s) = 256%nat -> lblen s = 0 ->
  runs (log_9_ fuel c level fe f l fce frags e s) tr o -> legal tr -> Forall tm_ok (clocks tr) ->
  (~ wanted (clevel c) w level fs /\ tr = [] /\ o = Fin s) \/
  (wanted (clevel c) w level fs /\ o <> Wrong /\
   (forall s', o = Fin s' -> length (lb s') = 256%nat /\ lblen s' = 0) /\
   exists body out,
    record level fe (clocktime (clocks tr)) name ip (upto ms) (if err_shown level fe e then Some es else None)
      (where_shown (clevel c) l fs gs) (id_shown (clevel c) id) body /\
    line (ccolor c) level fe body out /\
    sub (sent 2 tr) out /\ (smooth tr -> is_prefix (sent 2 tr) out) /\
    (smooth tr -> forall s', o = Fin s' -> sent 2 tr = out)).
Proof.
  intros fuel c w level fe f l fce frags e name ip id fs gs ms es s tr o (W & CN & CI & CID & CF & CG & CE & LF & FR & SL) LV LS S0 R L TM.
  destruct (filtered_ok c w level f fs W CF LV) as (b & FB & IFF). destruct b.
  - left. apply log9_filtered in R; auto. split; [|exact R]. intros X. apply IFF in X. discriminate.
  - right. split; [apply IFF; auto|].
    destruct (log9_ok fuel c level fe f l fce frags e name ip id fs gs ms es s tr o) as (body & out & RE & LI & EO & Z & _); auto.
    { split; auto. lia. }
    assert (PS : pend s = []) by (unfold pend; rewrite S0; reflexivity).
    unfold eo in EO. rewrite PS in EO. cbn [app] in EO. destruct o as [s'| |]; [|contradiction|].
    + split; [discriminate|]. destruct EO as ((B1 & B2) & SU & SM). assert (PS' : pend s' = []) by (unfold pend; rewrite (Z _ eq_refl); reflexivity).
      rewrite PS', app_nil_r in *. split; [intros x X; inv X; auto|]. exists body, out. split; auto. split; auto. split; auto.
      split; auto. intros M. exists []. rewrite app_nil_r. symmetry. auto.
    + split; [discriminate|]. split; [discriminate|]. destruct EO as (SU & SM). exists body, out. split; auto. split; auto. split; auto.
      split; auto. discriminate.
Qed.
Print Assumptions C28_record.

(** Without colours the bytes on standard error are printable, possibly followed by one
    newline as the very last byte; when no write is given up, they are the whole line. *)
Theorem C28_one_line : forall fuel c w level fe f l fce frags e name ip id fs gs ms es s tr o,
  inputs c w name ip id f fs fce gs frags ms e es l -> 1 <= level <= 4 -> ccolor c = false ->
  ~ In 10 es -> nolf fs -> nolf gs ->
  length (lb s) = 256%nat -> lblen s = 0 ->
  runs (log_9_ fuel c level fe f l fce frags e s) tr o -> legal tr -> Forall tm_ok (clocks tr) ->
  exists b, Forall (fun x => printable x) b /\ (sent 2 tr = b \/ sent 2 tr = b ++ [10]) /\
  (smooth tr -> forall s', o = Fin s' -> wanted (clevel c) w level fs -> sent 2 tr = b ++ [10]).
Proof.
  intros fuel c w level fe f l fce frags e name ip id fs gs ms es s tr o IN LV CC E1 E2 E3 LS S0 R L TM. pose proof IN as IN'.
  destruct IN as (W & CN & CI & CID & CF & CG & CE & LF & FR & SL).
  destruct (C28_record _ _ _ _ _ _ _ _ _ _ _ _ _ _ _ _ _ _ _ _ IN' LV LS S0 R L TM) as [(NW & -> & ->)|(WA & _ & _ & body & out & RE & LI & SU & _ & EX)].
  - exists []. split; [constructor|]. split; [left; reflexivity|]. intros; contradiction.
  - unfold line in LI. rewrite CC in LI. cbn [andb] in LI. subst out.
    assert (P : Forall (fun x => printable x) body).
    { eapply record_plain; eauto.
      - apply (ocstr_nonul _ _ CN).
      - apply (ocstr_nonul _ _ CI).
      - eapply upto_nonul; eauto.
      - unfold id_shown. apply ocstr_nonul in CID. destruct id; [|constructor]. destruct (negb (clevel c <=? 1)); auto. constructor.
      - destruct (err_shown level fe e); [|exact Logic.I]. split; auto. destruct CE as (rest & _ & N). auto.
      - unfold where_shown. destruct fs, gs; try exact Logic.I. destruct (negb (l =? 0) && negb (clevel c <=? 2)); auto. }
    destruct (sub_snoc _ _ SU) as (b & EB & SB). pose proof (sub_Forall _ _ _ SB P) as PB. 
    destruct EB as [EB|EB].
    + destruct o as [s'| |].
      * destruct (list_eq_dec Z.eq_dec (sent 2 tr) (body ++ [10])) as [Q|Q].
        -- exists body. split; auto.
        -- exists b. split; auto. split; auto. intros M x X _. exfalso. apply Q. eauto.
      * exists b. split; auto. split; auto. discriminate.
      * exists b. split; auto. split; auto. discriminate.
    + exists b. split; auto.
Qed.
Print Assumptions C28_one_line.

Definition demoe (e : Z) : list Z := bs "timed out" ++ [0].
Definition democonf : lconf := mklc 4 [bs "main_" ++ [0]] (Some (bs "tlswrapper" ++ [0])) true (Some (bs "::1" ++ [0])) (Some (bs "idXY" ++ [0])) false demoe.
Definition demofrags : list (option (list Z)) := [Some (bs "user " ++ [0]); Some ([10; 27; 92; 200; 13] ++ [0]); None; None; None; None; None; None; None].
Definition demotm : ans := mkans 1 0 [126; 10; 16; 2; 3; 4; 500].
Definition demorec : list Z := bs "2026-11-16 02:03:04.000500: tlswrapper: error: ::1: user \n\x1b\\xc8\r (timed out){main_x.c:run:77}[idXY]".
Definition demobuf : lbuf := mklb (repeat 0 256) 0.
Example C28_ex1 :
  inputs democonf [bs "main_"] (Some (bs "tlswrapper")) (Some (bs "::1")) (Some (bs "idXY")) (Some (bs "main_x.c" ++ [0])) (Some (bs "main_x.c"))
    (Some (bs "run" ++ [0])) (Some (bs "run")) demofrags [Some (bs "user "); Some [10; 27; 92; 200; 13]; None; None; None; None; None; None; None] 110 (bs "timed out") 77 /\
  (forall tr o, exec (log_9_ 9 democonf 2 1 (Some (bs "main_x.c" ++ [0])) 77 (Some (bs "run" ++ [0])) demofrags 110 demobuf)
     [demotm; mkans 60 0 []; mkans (-1) EINTR []; mkans 46 0 []] = (tr, o) ->
   legal tr /\ smooth tr /\ Forall tm_ok (clocks tr) /\ (exists s', o = Fin s') /\ sent 2 tr = demorec ++ [10]).
Proof.
  split.
  - assert (C : forall s, nonul s -> cstr (s ++ [0]) s) by (intros s N; exists []; auto).
    unfold inputs, ocstr, democonf, demofrags. cbn [cwhite cname cip cid cestr]. unfold demoe.
    repeat (split; [first [reflexivity|apply C; apply nonul_dec; reflexivity]|]). split; [|unfold in_s64, two63; lia].
    repeat (apply Forall2_cons; [first [exact Logic.I|apply (C (bs "user ")); apply nonul_dec; reflexivity|apply (C [10; 27; 92; 200; 13]); apply nonul_dec; reflexivity]|]). constructor.
  - intros tr o E. vm_compute in E. inv E. split; [legal_by|]. split; [|split; [|split; [eexists; reflexivity|reflexivity]]].
    + repeat (apply Forall_cons; [cbn; auto; lia|]). constructor.
    + apply Forall_cons; [|constructor]. right. split; [reflexivity|]. repeat (apply Forall_cons; [cbn; lia|]). constructor.
Qed.
(** A record that is not wanted. *)
Example C28_ex2 : exec (log_9_ 9 democonf 4 0 (Some (bs "conn.c" ++ [0])) 77 (Some (bs "run" ++ [0])) demofrags 110 demobuf) [] = ([], Fin demobuf)
  /\ ~ wanted (clevel democonf) [bs "main_"] 4 (Some (bs "conn.c")).
Proof.
  split; [reflexivity|]. intros (_ & [A|[A|[A|(n & f & u & [<-|[]] & A & B)]]]); try lia; try discriminate. inv A. discriminate.
Qed.

(** ** Numbers and hexadecimal text *)
Definition demorot : rot := mkrot 8 (repeat (repeat 1 68) 9).

(** Every 64-bit value, every width: the text is the canonical decimal numeral of the
    value, zero padded to the width (at most 67, sign included). *)
Theorem C29_number : forall r n cnt, rok r -> in_s64 n ->
  exists r' p t rest, log_num0 r n cnt = Ok (r', p) /\ rtext r' p = t ++ 0 :: rest /\ widenum n (Z.min cnt 67) t /\
  (cnt <= 0 -> signed_numeral t n).
Proof.
  intros r n cnt R N. destruct (frun_ok r (FNum n cnt) R N) as (r' & p & t & rest & E & F & _ & _ & _ & T & _). exists r', p, t, rest.
  split; auto. split; auto. split; auto. intros C. cbn [fspec] in F.
  destruct F as [(P & z & m & -> & M & V & Z)|(P & u & -> & z & m & -> & M & V & Z)]; pose proof (len_nonneg _ m).
  - replace z with O by lia. cbn [repeat app]. subst n. constructor. auto.
  - replace z with O by lia. cbn [repeat app]. replace n with (- decval m) by lia. constructor. auto.
Qed.
Theorem C29_number_injective : forall a b w t, widenum a w t -> widenum b w t -> a = b.
Proof.
  assert (PI : forall a b w t, padded a w t -> padded b w t -> a = b).
  { intros a b w t (z & m & -> & M & V & _) (z' & m' & E & M' & V' & _).
    assert (D : forall z m, decval (repeat 48 z ++ m) = decval m).
    { intros k x. rewrite decval_app. assert (Q : decval (repeat 48 k) = 0) by (induction k; cbn [repeat decval]; lia). rewrite Q. lia. }
    rewrite <- V, <- V', <- (D z m), <- (D z' m'). f_equal. exact E. }
  assert (HD : forall a w t, padded a w (45 :: t) -> False).
  { intros a w t (z & m & E & M & _). destruct z; cbn [repeat app] in E; [|discriminate].
    destruct M as [->|(c & s & -> & C & _)]; inv E. lia. }
  intros a b w t [(A & P)|(A & u & -> & P)] [(B & Q)|(B & v & E & Q)].
  - eauto.
  - subst t. exfalso. eauto.
  - exfalso. eauto.
  - inv E. assert (- a = - b) by eauto. lia.
Qed.
(** Two lower-case digits per byte up to 32 bytes, injective there. *)
Theorem C29_hex : forall r y more, rok r -> bytes y -> bytes more -> y <> [] ->
  exists r' p rest, log_hex r (Some (y ++ more)) (len y) = Ok (r', p) /\
  rtext r' p = (if len y <=? 32 then hexs y else hexs (firstn 32 y) ++ bs "...") ++ 0 :: rest.
Proof.
  intros r y more R B BM NE. destruct (frun_ok r (FHex (Some (y ++ more)) (len y)) R) as (r' & p & t & rest & E & F & _ & _ & _ & T & _).
  { split; [apply Forall_app; auto|]. rewrite len_app. pose proof (len_nonneg _ more). lia. }
  exists r', p, rest. split; auto. cbn [fspec] in F. destruct F as (x & X & ->). destruct X as [(_ & LX & m & EX)|(A & _)].
  - assert (x = y). { apply (f_equal (firstn (length y))) in EX. rewrite firstn_app, Nat.sub_diag, firstn_all in EX. cbn [firstn] in EX. rewrite app_nil_r in EX.
      rewrite firstn_app in EX. replace (length y - length x)%nat with O in EX by (unfold len in LX; lia). cbn [firstn] in EX. rewrite app_nil_r in EX.
      rewrite firstn_all2 in EX by (unfold len in LX; lia). auto. }
    subst x. exact T.
  - exfalso. destruct y; [congruence|]. rewrite len_cons in A. pose proof (len_nonneg _ y). lia.
Qed.
Theorem C29_hex_injective : forall x y, bytes x -> bytes y -> hexs x = hexs y -> x = y.
Proof.
  induction x as [|a x IH]; intros [|b y] X Y E; auto; try discriminate. inv X. inv Y. unfold is_byte in *. cbn [hexs flat_map hex2 app] in E. inv E.
  apply hexof_inj in H0; [|split; [apply Z.div_pos; lia|apply Z.div_lt_upper_bound; lia]|split; [apply Z.div_pos; lia|apply Z.div_lt_upper_bound; lia]].
  apply hexof_inj in H5; [|apply Z.mod_pos_bound; lia|apply Z.mod_pos_bound; lia].
  f_equal; [|apply IH; auto]. pose proof (Z.div_mod a 16 ltac:(lia)). pose proof (Z.div_mod b 16 ltac:(lia)). lia.
Qed.
Print Assumptions C29_number.
Print Assumptions C29_number_injective.
Print Assumptions C29_hex.
Print Assumptions C29_hex_injective.
Example C29_ex : rok demorot /\
  (exists r', log_num0 demorot (- two63) 0 = Ok (r', (0%nat, 0%nat)) /\ firstn 21 (rtext r' (0%nat, 0%nat)) = bs "-9223372036854775808" ++ [0]) /\
  (exists r', log_num0 demorot (-7) 5 = Ok (r', (0%nat, 0%nat)) /\ firstn 6 (rtext r' (0%nat, 0%nat)) = bs "-0007" ++ [0]) /\
  (exists r', log_hex demorot (Some [0; 171; 255]) 3 = Ok (r', (0%nat, 0%nat)) /\ firstn 7 (rtext r' (0%nat, 0%nat)) = bs "00abff" ++ [0]).
Proof.
  split; [split; [reflexivity|split; [cbn; lia|repeat constructor]]|]. split; [|split]; eexists; split; vm_compute; reflexivity.
Qed.

(** ** Reading the escaped text back *)
Definition escaped (fuel : nat) (p : list Z) (lf : bool) (s : lbuf) : prog lbuf := s <~ outsescape fuel p lf s ;; flush fuel s.
Theorem C30_unambiguous : forall fuel fuel' lf s1 s2 b1 b2 rest1 rest2 tr1 tr2 e1 e2,
  nonul s1 -> nonul s2 -> ~ In 92 s1 -> ~ In 92 s2 ->
  length (lb b1) = 256%nat -> lblen b1 = 0 -> length (lb b2) = 256%nat -> lblen b2 = 0 ->
  runs (escaped fuel (s1 ++ 0 :: rest1) lf b1) tr1 (Fin e1) -> legal tr1 -> smooth tr1 ->
  runs (escaped fuel' (s2 ++ 0 :: rest2) lf b2) tr2 (Fin e2) -> legal tr2 -> smooth tr2 ->
  sent 2 tr1 = sent 2 tr2 -> s1 = s2.
Proof.
  assert (G : forall fuel lf s b rest tr e, nonul s -> length (lb b) = 256%nat -> lblen b = 0 ->
    runs (escaped fuel (s ++ 0 :: rest) lf b) tr (Fin e) -> legal tr -> smooth tr -> sent 2 tr = shows lf s).
  { intros fuel lf s b rest tr e N LB L0 R L M. unfold escaped in R. apply runs_bind in R as [(x & t1 & t2 & -> & R1 & R2)|[[_ X]|[_ X]]]; try discriminate.
    apply legal_app in L as [L1 L2]. apply smooth_app in M as [M1 M2].
    destruct (outsescape_ok fuel s rest lf N b t1 (Fin x)) as (_ & I & _ & P); auto. { split; auto. lia. }
    destruct (flush_emits _ _ _ _ I R2 L2) as ((_ & _ & _ & P2) & Z). specialize (P M1). specialize (P2 M2).
    assert (Q : pend e = []) by (unfold pend; rewrite (Z _ eq_refl); reflexivity). rewrite Q, !app_nil_r in P2.
    assert (Q2 : pend b = []) by (unfold pend; rewrite L0; reflexivity). rewrite Q2 in P. cbn [app] in P. rewrite sent_app, P2. exact P. }
  intros. apply (shows_inj lf); auto. rewrite <- (G fuel lf s1 b1 rest1 tr1 e1) by auto. rewrite <- (G fuel' lf s2 b2 rest2 tr2 e2) by auto. auto.
Qed.
Print Assumptions C30_unambiguous.
(** With a backslash in the data two different strings give the same text. *)
Theorem C30_refuted : exists s1 s2 tr1 tr2 e1 e2, s1 <> s2 /\ nonul s1 /\ nonul s2 /\
  runs (escaped 9 (s1 ++ [0]) false demobuf) tr1 (Fin e1) /\ legal tr1 /\ smooth tr1 /\
  runs (escaped 9 (s2 ++ [0]) false demobuf) tr2 (Fin e2) /\ legal tr2 /\ smooth tr2 /\ sent 2 tr1 = sent 2 tr2.
Proof.
  exists [10], [92; 110], [(Write 2 [92; 110], mkans 2 0 [])], [(Write 2 [92; 110], mkans 2 0 [])].
  assert (L : legal [(Write 2 [92; 110], mkans 2 0 [])]) by legal_by.
  assert (M : smooth [(Write 2 [92; 110], mkans 2 0 [])]) by (apply Forall_cons; [cbn; lia|constructor]).
  eexists _, _. split; [discriminate|]. split; [apply nonul_dec; reflexivity|]. split; [apply nonul_dec; reflexivity|].
  split; [apply exec_runs with (s := [mkans 2 0 []]); vm_compute; reflexivity|]. split; auto. split; auto.
  split; [apply exec_runs with (s := [mkans 2 0 []]); vm_compute; reflexivity|]. auto.
Qed.
Print Assumptions C30_refuted.
Example C30_ex : exists tr e, exec (escaped 9 ([7; 65; 255] ++ [0]) false demobuf) [mkans 9 0 []] = (tr, Fin e) /\ sent 2 tr = bs "\x07A\xff".
Proof. vm_compute. do 2 eexists. split; reflexivity. Qed.

(** ** Nine live texts *)
(** A formatted text is what its request stands for and stays so during the next eight
    requests: nine arguments can be prepared for one record. *)
Theorem C67_nine : forall r o l, rok r -> fwf o -> Forall fwf l -> (length l <= 8)%nat ->
  exists r' p t rest r'', frun r o = Ok (r', p) /\ fruns r' l = Ok r'' /\ fspec o t /\
    rtext r' p = t ++ 0 :: rest /\ rtext r'' p = t ++ 0 :: rest.
Proof.
  intros r o l R W WL L. destruct (frun_ok r o R W) as (r' & p & t & rest & E & F & R' & P & C & T & _).
  assert (B : (rnext r < 9)%nat) by (apply Nat.mod_upper_bound; lia).
  destruct (fruns_keep l r' (rnext r) 0 R' WL B) as (r'' & E2 & _ & K); [rewrite Nat.add_0_r, Nat.mod_small; auto|lia|].
  exists r', p, t, rest, r''. split; auto. split; auto. split; auto. split; auto. unfold rtext in *. rewrite P in *. rewrite K. exact T.
Qed.
Print Assumptions C67_nine.
(** The tenth request reuses the buffer. *)
Theorem C67_ten_refuted : exists r o l r' p r'', rok r /\ fwf o /\ Forall fwf l /\ length l = 9%nat /\
  frun r o = Ok (r', p) /\ fruns r' l = Ok r'' /\ rtext r' p <> rtext r'' p.
Proof.
  exists demorot, (FNum 5 0), (repeat (FNum 6 0) 9). do 3 eexists.
  split; [split; [reflexivity|split; [cbn; lia|repeat constructor]]|]. split; [cbn; unfold in_s64, two63; lia|].
  split; [repeat (apply Forall_cons; [cbn; unfold in_s64, two63; lia|]); constructor|]. split; [reflexivity|].
  split; [vm_compute; reflexivity|]. split; [vm_compute; reflexivity|]. vm_compute. discriminate.
Qed.
Print Assumptions C67_ten_refuted.
Example C67_ex : exists r' p r'', frun demorot (FStr (Some (bs "hello" ++ [0]))) = Ok (r', p) /\
  fruns r' [FPort (Some [1; 187]); FHex None 3; FStr None; FNum (-3) 4; FHex (Some [1;2]) 2; FStr (Some (repeat 65 80 ++ [0])); FNum 1 1; FNum 2 2] = Ok r'' /\
  firstn 6 (rtext r'' p) = bs "hello" ++ [0] /\ firstn 68 (nth 6 (rslots r'') []) = repeat 65 64 ++ bs "..." ++ [0].
Proof. vm_compute. do 3 eexists. repeat (split; [reflexivity|]). reflexivity. Qed.
