(** C23, C24, C38: waiting with a deadline, directional close, polling in the jail. *)
From Verif.Model Require Import Base Sys Fdio.
From Verif.Spec Require Import Waiting.
From Verif.Proof Require Import Tac SysP FdioP.

(** C23 (timeoutread.c:34-68).  Clock values (in microseconds) and the timeout are within
    2^62; the clock may jump.  The deadline is computed from the first reading; then come
    rounds of waiting, and then the run ends in one of the listed ways. *)
Theorem C23_read : forall fuel t fd n tr o,
  Forall (fun e => fst e = Time -> 0 <= ret (snd e) <= 2 ^ 62) tr -> 1000000 * t <= 2 ^ 62 - 1 ->
  runs (timeoutread fuel t fd n) tr o ->
  o <> Wrong /\
  if (t <? 0) || (n <? 0) || (fd <? 0) || (1024 <=? fd) then tr = [] /\ o = Fin (-1, EINVAL, [])
  else tr = [] \/ exists c0 w l, tr = (Time, c0) :: w ++ l /\
    let deadline := ret c0 + 1000000 * t in
    let sel := fun tm => Select (fd + 1) [fd] [] (Some tm) in
    waited fd deadline sel w /\
    ( (l = [] /\ o = Cut)
    \/ (exists c, l = [(Time, c)] /\ ret c < deadline /\ o = Cut)
    \/ (exists c, l = [(Time, c)] /\ deadline <= ret c /\ o = Fin (-1, ETIMEDOUT, []))
    \/ (exists c s, l = [(Time, c); (sel (Z.min (deadline - ret c) 1000000000), s)] /\ ret c < deadline /\
          ret s = -1 /\ err s <> EINTR /\ o = Fin (-1, err s, []))
    \/ (exists c s, l = [(Time, c); (sel (Z.min (deadline - ret c) 1000000000), s)] /\ ret c < deadline /\
          ret s <> -1 /\ In fd (data s) /\ o = Cut)
    \/ (exists c s a, l = [(Time, c); (sel (Z.min (deadline - ret c) 1000000000), s); (Read fd n, a)] /\ ret c < deadline /\
          ret s <> -1 /\ In fd (data s) /\ o = Fin (ret a, err a, data a))).
Proof.
  intros fuel t fd n tr o C T R. unfold timeoutread, FD_SETSIZE in R.
  destruct ((t <? 0) || (n <? 0) || (fd <? 0) || (1024 <=? fd)) eqn:A; [destruct R as [-> ->]; split; [discriminate|auto]|].
  destruct R as [[-> ->]|(c0 & t1 & -> & R)]; [split; [discriminate|auto]|]. cbn [pbind] in R.
  inversion C as [|? ? C1 C2]; subst; clear C. specialize (C1 eq_refl). cbn [snd] in C1. change (2 ^ 62) with 4611686018427387904 in *.
  rewrite micros_ok in R by lia. cbn [lift pbind] in R.
  assert (CC : Forall clock_ok t1) by (eapply Forall_impl; [|exact C2]; intros [[] a] H; unfold clock_ok; cbn [fst snd] in *; auto).
  set (dl := ret c0 + 1000000 * t) in *. assert (DL : 0 <= dl < two63) by (unfold dl, two63; lia).
  apply runs_bind in R as [(w & t2 & t3 & -> & R1 & R2)|[[R1 ->]|[R1 ->]]].
  - apply Forall_app in CC as [CC _]. apply timeout_wait_ok in R1 as (_ & w1 & l & -> & W & H); auto. cbn [mark selcall] in *.
    destruct H as [[_ E]|[(c & -> & _ & E)|[(c & -> & E1 & E)|[(c & tm & s & -> & E1 & -> & E3 & E4 & E)|(c & tm & s & -> & E1 & -> & E3 & E4 & E)]]]]; try discriminate; injection E as ->.
    + destruct R2 as [-> ->]. split; [discriminate|]. right. exists c0, w1, [(Time, c)]. rewrite app_nil_r. split; auto. split; auto. right. right. left. eauto.
    + destruct R2 as [-> ->]. split; [discriminate|]. right. eexists c0, w1, _. rewrite app_nil_r. split; [reflexivity|]. split; auto. right. right. right. left. exists c, s. auto 10.
    + destruct R2 as [[-> ->]|(a & t4 & -> & R2)].
      * split; [discriminate|]. right. eexists c0, w1, _. rewrite app_nil_r. split; [reflexivity|]. split; auto. right. right. right. right. left. exists c, s. auto 10.
      * destruct R2 as [-> ->]. split; [discriminate|]. right. eexists c0, w1, _. rewrite <- app_assoc. split; [reflexivity|]. split; auto. right. right. right. right. right. exists c, s, a. auto 10.
  - apply timeout_wait_ok in R1 as (R1 & _); auto. congruence.
  - apply timeout_wait_ok in R1 as (_ & w1 & l & -> & W & H); auto. cbn [mark selcall] in *. split; [discriminate|].
    destruct H as [[-> E]|[(c & -> & E1 & E)|[(c & -> & E1 & E)|[(c & tm & s & -> & E1 & -> & E3 & E4 & E)|(c & tm & s & -> & E1 & -> & E3 & E4 & E)]]]]; try discriminate; right; eexists c0, w1, _; (split; [reflexivity|]); (split; [auto|]).
    + left. auto.
    + right. left. eauto.
Qed.
Print Assumptions C23_read.

(** C23 (timeoutwrite.c:34-68). *)
Theorem C23_write : forall fuel t fd b n tr o, n <= len b ->
  Forall (fun e => fst e = Time -> 0 <= ret (snd e) <= 2 ^ 62) tr -> 1000000 * t <= 2 ^ 62 - 1 ->
  runs (timeoutwrite fuel t fd b n) tr o ->
  o <> Wrong /\
  if (t <? 0) || (n <? 0) || (fd <? 0) || (1024 <=? fd) then tr = [] /\ o = Fin (-1, EINVAL)
  else tr = [] \/ exists c0 w l, tr = (Time, c0) :: w ++ l /\
    let deadline := ret c0 + 1000000 * t in
    let sel := fun tm => Select (fd + 1) [] [fd] (Some tm) in
    waited (-1 - fd) deadline sel w /\
    ( (l = [] /\ o = Cut)
    \/ (exists c, l = [(Time, c)] /\ ret c < deadline /\ o = Cut)
    \/ (exists c, l = [(Time, c)] /\ deadline <= ret c /\ o = Fin (-1, ETIMEDOUT))
    \/ (exists c s, l = [(Time, c); (sel (Z.min (deadline - ret c) 1000000000), s)] /\ ret c < deadline /\
          ret s = -1 /\ err s <> EINTR /\ o = Fin (-1, err s))
    \/ (exists c s, l = [(Time, c); (sel (Z.min (deadline - ret c) 1000000000), s)] /\ ret c < deadline /\
          ret s <> -1 /\ In (-1 - fd) (data s) /\ o = Cut)
    \/ (exists c s a, l = [(Time, c); (sel (Z.min (deadline - ret c) 1000000000), s); (Write fd (firstn (Z.to_nat n) b), a)] /\ ret c < deadline /\
          ret s <> -1 /\ In (-1 - fd) (data s) /\ o = Fin (ret a, err a))).
Proof.
  intros fuel t fd b n tr o N C T R. unfold timeoutwrite, FD_SETSIZE in R.
  destruct ((t <? 0) || (n <? 0) || (fd <? 0) || (1024 <=? fd)) eqn:A; [destruct R as [-> ->]; split; [discriminate|auto]|].
  destruct R as [[-> ->]|(c0 & t1 & -> & R)]; [split; [discriminate|auto]|]. cbn [pbind] in R.
  inversion C as [|? ? C1 C2]; subst; clear C. specialize (C1 eq_refl). cbn [snd] in C1. change (2 ^ 62) with 4611686018427387904 in *.
  rewrite micros_ok in R by lia. cbn [lift pbind] in R.
  assert (CC : Forall clock_ok t1) by (eapply Forall_impl; [|exact C2]; intros [[] a] H; unfold clock_ok; cbn [fst snd] in *; auto).
  set (dl := ret c0 + 1000000 * t) in *. assert (DL : 0 <= dl < two63) by (unfold dl, two63; lia).
  rewrite (proj2 (Z.ltb_ge _ _) N) in R.
  apply runs_bind in R as [(w & t2 & t3 & -> & R1 & R2)|[[R1 ->]|[R1 ->]]].
  - apply Forall_app in CC as [CC _]. apply timeout_wait_ok in R1 as (_ & w1 & l & -> & W & H); auto. cbn [mark selcall] in *.
    destruct H as [[_ E]|[(c & -> & _ & E)|[(c & -> & E1 & E)|[(c & tm & s & -> & E1 & -> & E3 & E4 & E)|(c & tm & s & -> & E1 & -> & E3 & E4 & E)]]]]; try discriminate; injection E as ->.
    + destruct R2 as [-> ->]. split; [discriminate|]. right. exists c0, w1, [(Time, c)]. rewrite app_nil_r. split; auto. split; auto. right. right. left. eauto.
    + destruct R2 as [-> ->]. split; [discriminate|]. right. eexists c0, w1, _. rewrite app_nil_r. split; [reflexivity|]. split; auto. right. right. right. left. exists c, s. auto 10.
    + destruct R2 as [[-> ->]|(a & t4 & -> & R2)].
      * split; [discriminate|]. right. eexists c0, w1, _. rewrite app_nil_r. split; [reflexivity|]. split; auto. right. right. right. right. left. exists c, s. auto 10.
      * destruct R2 as [-> ->]. split; [discriminate|]. right. eexists c0, w1, _. rewrite <- app_assoc. split; [reflexivity|]. split; auto. right. right. right. right. right. exists c, s, a. auto 10.
  - apply timeout_wait_ok in R1 as (R1 & _); auto. congruence.
  - apply timeout_wait_ok in R1 as (_ & w1 & l & -> & W & H); auto. cbn [mark selcall] in *. split; [discriminate|].
    destruct H as [[-> E]|[(c & -> & E1 & E)|[(c & -> & E1 & E)|[(c & tm & s & -> & E1 & -> & E3 & E4 & E)|(c & tm & s & -> & E1 & -> & E3 & E4 & E)]]]]; try discriminate; right; eexists c0, w1, _; (split; [reflexivity|]); (split; [auto|]).
    + left. auto.
    + right. left. eauto.
Qed.
Print Assumptions C23_write.

(** The remaining time handed to select never exceeds the timeout if the clock does not
    go back behind the start. *)
Theorem C23_remaining : forall fuel t fd n tr o c0,
  Forall (fun e => fst e = Time -> 0 <= ret (snd e) <= 2 ^ 62) tr -> 1000000 * t <= 2 ^ 62 - 1 ->
  runs (timeoutread fuel t fd n) tr o -> nth_error tr 0 = Some (Time, c0) ->
  (forall c, In (Time, c) tr -> ret c0 <= ret c) ->
  forall k r w us s, In (Select k r w us, s) tr -> exists tm, us = Some tm /\ 0 < tm <= 1000000 * t.
Proof.
  intros fuel t fd n tr o c0 C T R N M k r w us s I. pose proof (C23_read fuel t fd n tr o C T R) as (_ & H).
  destruct ((t <? 0) || (n <? 0) || (fd <? 0) || (1024 <=? fd)); [destruct H as [-> _]; discriminate|].
  destruct H as [->|(c1 & w1 & l & -> & W & H)]; [discriminate|]. cbn [nth_error] in N. injection N as ->.
  assert (G : forall c, In (Time, c) (w1 ++ l) -> ret c0 <= ret c) by (intros c Q; apply M; right; auto). clear M C R.
  destruct I as [I|I]; [discriminate|]. apply in_app_or in I as [I|I].
  - set (sel := fun tm => Select (fd + 1) [fd] [] (Some tm)) in *. assert (G1 : forall c, In (Time, c) w1 -> ret c0 <= ret c) by (intros; apply G, in_or_app; auto). clear G H.
    induction W as [|c tm s0 tr0 L -> S W IH]; [destruct I|]. destruct I as [I|[I|I]]; [discriminate| |apply IH; auto; intros; apply G1; right; right; auto].
    unfold sel in I. injection I as <- <- <- <- <-. eexists. split; [reflexivity|]. pose proof (G1 c (or_introl eq_refl)). lia.
  - assert (G1 : forall c, In (Time, c) l -> ret c0 <= ret c) by (intros; apply G, in_or_app; auto). clear G.
    assert (K : forall c s0 l2, l = (Time, c) :: (Select (fd + 1) [fd] [] (Some (Z.min (ret c0 + 1000000 * t - ret c) 1000000000)), s0) :: l2 ->
      ret c < ret c0 + 1000000 * t -> (forall e, In e l2 -> forall k r w us s, e <> (Select k r w us, s)) -> exists tm, us = Some tm /\ 0 < tm <= 1000000 * t).
    { intros c s0 l2 -> L NS. destruct I as [I|[I|I]]; [discriminate| |exfalso; eapply NS; eauto]. injection I as <- <- <- <- <-. eexists. split; [reflexivity|].
      pose proof (G1 c (or_introl eq_refl)). lia. }
    destruct H as [[-> _]|[(c & -> & _)|[(c & -> & _)|[(c & s0 & E & L & _)|[(c & s0 & E & L & _)|(c & s0 & a & E & L & _)]]]]].
    + destruct I.
    + destruct I as [I|[]]; discriminate.
    + destruct I as [I|[]]; discriminate.
    + eapply K; [exact E|exact L|intros e []].
    + eapply K; [exact E|exact L|intros e []].
    + eapply K; [exact E|exact L|intros e [<-|[]]; discriminate].
Qed.
Print Assumptions C23_remaining.

(** A huge timeout overflows the computation of the deadline. *)
Theorem C23_huge_refuted : exists t fd n tr, 0 <= t < two63 /\ Forall (fun e => fst e = Time -> 0 <= ret (snd e) <= 2 ^ 62) tr /\
  runs (timeoutread 1 t fd n) tr Wrong.
Proof.
  exists (2 ^ 62), 3, 10, [(Time, mkans 1700000000000000 0 [])]. split; [unfold two63; lia|]. split; [repeat constructor; cbn; lia|].
  eapply exec_runs with (s := [mkans 1700000000000000 0 []]). vm_compute. reflexivity.
Qed.
Print Assumptions C23_huge_refuted.

(** Interrupted, then not ready in time, then ready. *)
Example C23_example : exec (timeoutread 5 3 7 100)
    [mkans 50 0 []; mkans 60 0 []; mkans (-1) EINTR []; mkans 1000060 0 []; mkans 1 0 [7]; mkans 2 0 [65; 66]] =
  ([(Time, mkans 50 0 []); (Time, mkans 60 0 []); (Select 8 [7] [] (Some 2999990), mkans (-1) EINTR []);
    (Time, mkans 1000060 0 []); (Select 8 [7] [] (Some 1999990), mkans 1 0 [7]); (Read 7 100, mkans 2 0 [65; 66])],
   Fin (2, 0, [65; 66])) /\
  snd (exec (timeoutwrite 5 3 7 [1; 2] 2) [mkans 50 0 []; mkans 60 0 []; mkans 0 0 []; mkans 3000050 0 []]) = Fin (-1, ETIMEDOUT).
Proof. vm_compute. auto. Qed.

(** C24 (fd.c:162-264): one close. *)
Theorem C24_close : forall how v e tr o, runs (fd_close_ how (Some v) e) tr o ->
  o <> Wrong /\
  (v = -1 -> tr = [] /\ o = Fin (Some (-1), e)) /\
  (v <> -1 -> exists n, map fst tr = firstn n [Shutdown v how; Close v] /\
     (o = Cut \/ (n = 2%nat /\ o = Fin (Some (-1), e)))).
Proof. exact fd_close_ok. Qed.
Print Assumptions C24_close.

(** C24: histories of closes over any number of descriptor variables holding different
    descriptors.  Whatever the system calls answer, errno at the end is the one of the
    beginning, a variable that was closed at least once holds -1, and its descriptor was
    shut down once and closed once; others are untouched. *)
Theorem C24_history : forall h v e tr v' e',
  (forall i j x, nth_error v i = Some x -> nth_error v j = Some x -> x <> -1 -> i = j) ->
  runs (closes h v e) tr (Fin (v', e')) ->
  e' = e /\ length v' = length v /\
  forall i x, nth_error v i = Some x ->
     nth_error v' i = Some (if in_dec Nat.eq_dec i (map snd h) then -1 else x) /\
     (x <> -1 ->
       times (fun c => match c with Close f => f =? x | _ => false end) tr = (if in_dec Nat.eq_dec i (map snd h) then 1 else 0)%nat /\
       times (fun c => match c with Shutdown f _ => f =? x | _ => false end) tr = (if in_dec Nat.eq_dec i (map snd h) then 1 else 0)%nat).
Proof. exact closes_ok. Qed.
Print Assumptions C24_history.
Example C24_example : exec (closes [(true, 1); (false, 0); (false, 1); (true, 0)]%nat [5; 6] 11)
    [mkans (-1) 107 []; mkans 0 0 []; mkans 0 0 []; mkans (-1) 4 []] =
  ([(Shutdown 6 0, mkans (-1) 107 []); (Close 6, mkans 0 0 []); (Shutdown 5 1, mkans 0 0 []); (Close 5, mkans (-1) 4 [])],
   Fin ([-1; -1], 11)).
Proof. vm_compute. reflexivity. Qed.

(** C38 (jail_poll.c:37-104). *)
Theorem C38_poll : forall x ms tr o, runs (jail_poll x ms) tr o ->
  ((exists e, In e x /\ 1024 <= fst e) /\ tr = [] /\ o = Fin (-1, EINVAL, map (fun _ => 0) x)) \/
  ((forall e, In e x -> fst e < 1024) /\ ((tr = [] /\ o = Cut) \/
   exists nfds rd wr tmo a, tr = [(Select nfds rd wr tmo, a)] /\
     nfds <= 1024 /\ (forall f, In f rd \/ In f wr -> 0 <= f < nfds) /\
     (forall f, In f rd <-> exists e, In e x /\ asks 0 e = true /\ fst e = f) /\
     (forall f, In f wr <-> exists e, In e x /\ asks 2 e = true /\ fst e = f) /\
     tmo = (if 0 <=? ms then Some (1000 * ms) else None) /\
     o = Fin (if ret a <=? 0 then (ret a, err a, map (fun _ => 0) x) else (flags a x, 0, map (reported a) x)))).
Proof.
  intros x ms tr o R. unfold jail_poll in R. pose proof (jp_sets_ok x 1 [] [] ltac:(lia)) as J.
  specialize (J ltac:(intros f [[]|[]])). destruct (jp_sets x 1 [] []) as [[[n r] w]|].
  - right. destruct J as (J0 & J1 & J2 & J3 & J4). split; auto. destruct R as [[-> ->]|(a & t & -> & R)]; [left; auto|right]. cbn [pbind] in R.
    exists n, r, w, (if 0 <=? ms then Some (1000000 * Z.quot ms 1000 + 1000 * Z.rem ms 1000) else None), a.
    rewrite jp_result_ok in R by auto. rewrite Z.add_0_l in R.
    assert (E : t = [] /\ o = Fin (if ret a <=? 0 then (ret a, err a, map (fun _ => 0) x) else (flags a x, 0, map (reported a) x)))
      by (destruct (ret a <=? 0); destruct R as [-> ->]; auto).
    destruct E as [-> ->]. split; [reflexivity|]. split; [lia|]. split; auto.
    split. { intros f. rewrite J3. split; [intros [[]|H]; auto|auto]. }
    split. { intros f. rewrite J4. split; [intros [[]|H]; auto|auto]. }
    split; auto. destruct (0 <=? ms); auto. f_equal. pose proof (Z.quot_rem' ms 1000). lia.
  - left. destruct R as [-> ->]. auto.
Qed.
Print Assumptions C38_poll.
Example C38_example : exec (jail_poll [(4, 1); (-1, 5); (6, 5); (0, 4)] 1500) [mkans 3 0 [4; -7; 0]] =
  ([(Select 7 [6; 4] [0; 6] (Some 1500000), mkans 3 0 [4; -7; 0])], Fin (2, 0, [1; 0; 4; 0])).
Proof. vm_compute. reflexivity. Qed.
