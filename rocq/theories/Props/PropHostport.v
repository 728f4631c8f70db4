(** C04: host:port strings.  Specification: Spec/Hostport.v. *)
From Verif.Model Require Import Base Parsenum Inet Parsehostport.
From Verif.Spec Require Import Num Ip Hostport.
From Verif.Proof Require Import Tac NumP HostportP.

(** For every string, every buffer content, with or without a port buffer and
    for every IPv6 recogniser: normal return (no access outside string and
    buffers), accepted exactly for the strings of the specification, with host
    and port stored NUL-terminated in their buffers; otherwise both are "". *)
Theorem C04_parsehostport_exact : forall I outhost outport s rest, nonul s ->
  length outhost = 256%nat -> (forall p, outport = Some p -> length p = 6%nat) ->
  let want := match outport with Some _ => true | None => false end in
  exists ret h' p', parsehostport I outhost outport (s ++ 0 :: rest) = Ok (ret, h', p') /\
  ((ret = 1 /\ exists host port, hp_ok I want s host port /\
      h' = stored 256 host /\ p' = option_map (fun _ => stored 6 port) outport) \/
   (ret = 0 /\ h' = 0 :: tl outhost /\ p' = option_map (fun p => 0 :: tl p) outport /\
      forall host port, ~ hp_ok I want s host port)).
Proof. exact parsehostport_correct. Qed.
Print Assumptions C04_parsehostport_exact.

(** The split into host and port is unique, so "the" host is meaningful. *)
Theorem C04_split_unique : forall s h p six h' p' six', nonul s ->
  hp_form s h p six -> hp_form s h' p' six' -> h = h' /\ p = p' /\ six = six'.
Proof. exact hp_form_det. Qed.
Print Assumptions C04_split_unique.

Definition toy_inet : inet :=
  {| pton4 := fun _ => None;
     pton6 := fun s => if list_eq_dec Z.eq_dec s (bs "::1") then Some (repeat 0 15 ++ [1]) else None;
     ntop4 := fun _ => []; ntop6 := fun _ => [] |}.
Example C04_ex1 : parsehostport toy_inet (repeat 170 256) (Some (repeat 170 6)) (bs "[::1]:443" ++ [0])
  = Ok (1, stored 256 (bs "::1"), Some (stored 6 (bs "443"))).
Proof. vm_compute. reflexivity. Qed.
Example C04_ex2 : parsehostport toy_inet (repeat 170 256) (Some (repeat 170 6)) (bs "a.example:65536" ++ [0])
  = Ok (0, 0 :: repeat 170 255, Some (0 :: repeat 170 5)).
Proof. vm_compute. reflexivity. Qed.
Example C04_ex3 : parsehostport toy_inet (repeat 170 256) (Some (repeat 170 6)) (bs "a.example:25" ++ [0])
  = Ok (1, stored 256 (bs "a.example"), Some (stored 6 (bs "25"))).
Proof. vm_compute. reflexivity. Qed.
Example C04_ex4 : parsehostport toy_inet (repeat 170 256) (Some (repeat 170 6)) (bs "::2" ++ [0])
  = Ok (0, 0 :: repeat 170 255, Some (0 :: repeat 170 5)).
Proof. vm_compute. reflexivity. Qed.
