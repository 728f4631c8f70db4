(** C45: Key exchange scalars are valid for their curve. *)
From Verif.Model Require Import Base Sys Scalar.
From Verif.Spec Require Import Curve.
From Verif.Proof Require Import Tac SysP ScalarP.

(** Whatever the 66 random bytes are: the call is defined, asks for at most one
    multiplication, with a scalar of the right size that is non-zero and below the group
    order; a curve without parameters fails without a multiplication; success means a
    public point of the right length. *)
Theorem C45_scalar : forall curve sk tr o, length sk = 66%nat -> bytes sk ->
  runs (tls_crypto_scalarmult_base curve sk) tr o ->
  o <> Wrong /\
  Forall (fun e => exists s, fst e = Other (bs "mulgen") [curve] s /\ valid_scalar curve s) tr /\
  (length tr <= 1)%nat /\
  forall r sk', o = Fin (r, sk') ->
    match sizes curve, r with
    | None, _ => r = None /\ tr = []
    | Some _, None => length tr = 1%nat
    | Some (_, n, _), Some p => length tr = 1%nat /\ len p = n
    end.
Proof.
  intros curve sk tr o L B R. pose proof (base_ok curve sk tr o L B R) as H. destruct (sizes curve) as [[[n p] x]|] eqn:S.
  - destruct H as [[-> ->]|(a & -> & V & ->)].
    + split; [discriminate|]. split; [constructor|]. split; [cbn; lia|]. discriminate.
    + split; [discriminate|]. split; [constructor; [|constructor]; cbn; eauto|]. split; [cbn; lia|].
      intros r sk' E. injection E as <- <-. destruct (ret a =? p); [|reflexivity]. split; auto. rewrite filled_len. unfold sizes in S.
      assert (0 <= p). { destruct curve as [|q|q]; try discriminate. repeat (destruct q as [q|q|]; try discriminate S; try (injection S as _ <- _; lia)). }
      lia.
  - destruct H as [-> ->]. split; [discriminate|]. split; [constructor|]. split; [cbn; lia|]. intros r sk' E. injection E as <- <-. auto.
Qed.
Print Assumptions C45_scalar.

(** The shared secret is computed with the very scalar the public point was made from. *)
Theorem C45_same_scalar : forall curve sk tr1 pk sk' p tr2 o, length sk = 66%nat -> bytes sk ->
  runs (tls_crypto_scalarmult_base curve sk) tr1 (Fin (Some pk, sk')) -> len p = len pk ->
  runs (tls_crypto_scalarmult curve p sk') tr2 o ->
  exists s a, tr1 = [(Other (bs "mulgen") [curve] s, a)] /\ valid_scalar curve s /\
  ((tr2 = [] /\ o = Cut) \/
   exists b n m, tr2 = [(Other (bs "mul") (curve :: s) p, b)] /\ sizes curve = Some (len s, n, m) /\
     (ret b = 0 -> o = Fin None) /\ (ret b <> 0 -> exists x, o = Fin (Some x) /\ len x = m)).
Proof.
  intros curve sk tr1 pk sk' p tr2 o L B R1 LP R2. pose proof (base_ok curve sk _ _ L B R1) as H.
  destruct (sizes curve) as [[[n pl] x]|] eqn:S.
  2:{ destruct H as [_ X]. discriminate. }
  destruct H as [[_ X]|(a & -> & V & E)]; [discriminate|]. injection E as E1 ->. exists (firstn (Z.to_nat n) (clamped curve sk)), a. split; auto. split; auto.
  destruct V as ((pp & xx & S2) & V). rewrite S in S2. injection S2 as <- <- EN.
  destruct (ret a =? pl); [|discriminate]. injection E1 as ->.
  assert (NN : 0 <= pl /\ 0 <= x). { clear -S. unfold sizes in S. destruct curve as [|q|q]; try discriminate. repeat (destruct q as [q|q|]; try discriminate S; try (injection S as _ <- <-; lia)). }
  rewrite filled_len in LP. 
  eapply mul_ok in R2; [|exact S|rewrite clamped_len; auto|lia]. destruct R2 as [?|(b & -> & ->)]; [left; auto|right].
  rewrite clamped_idem by auto. exists b, pl, x. split; auto. split; auto.
  split.
  - intros ->. reflexivity.
  - intros N. destruct (Z.eqb_spec (ret b) 0); [lia|]. eexists. split; [reflexivity|]. rewrite filled_len. lia.
Qed.
Print Assumptions C45_same_scalar.

(** All-zero and all-one random bytes on P-521. *)
Example C45_ex_zero : exec (tls_crypto_scalarmult_base 25 (repeat 0 66)) [mkans 133 0 (repeat 4 133)]
  = ([(Other (bs "mulgen") [25] (0 :: 128 :: repeat 0 64), mkans 133 0 (repeat 4 133))], Fin (Some (repeat 4 133), 0 :: 128 :: repeat 0 64)).
Proof. vm_compute. reflexivity. Qed.
Example C45_ex_ones : snd (exec (tls_crypto_scalarmult_base 23 (repeat 255 66)) [mkans 65 0 (repeat 4 65)])
  = Fin (Some (repeat 4 65), 127 :: repeat 255 65).
Proof. vm_compute. reflexivity. Qed.
(** Without clamping the bytes would not be a valid scalar. *)
Example C45_ex_needed : ~ valid_scalar 23 (repeat 255 32) /\ ~ valid_scalar 23 (repeat 0 32).
Proof. split; intros [_ V]; specialize (V _ eq_refl); vm_compute in V; destruct V as [V1 V2]; discriminate. Qed.
Example C45_ex_unknown : exec (tls_crypto_scalarmult_base 30 (repeat 255 66)) [] = ([], Fin (None, repeat 255 66)).
Proof. vm_compute. reflexivity. Qed.
Example C45_ex_shared : snd (exec (tls_crypto_scalarmult 23 (repeat 4 65) (127 :: repeat 255 65)) [mkans 1 0 (4 :: repeat 7 64)])
  = Fin (Some (repeat 7 32)).
Proof. vm_compute. reflexivity. Qed.
