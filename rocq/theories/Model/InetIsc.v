(** The ISC/glibc implementation of [inet_pton] and [inet_ntop] on string
    contents.  libc is outside the repository; this file is a witness that the
    interface assumed by the theorems (Spec/Ip.v [inet_ok]) is satisfiable by the
    implementation in use, written from the published ISC algorithm. *)
From Verif.Model Require Import Base Inet.

(** inet_pton4: state is the list of finished octets, the current octet and
    whether a digit of it was seen. *)
Fixpoint p4 (s : list Z) (done : list Z) (cur : Z) (saw : bool) : option (list Z) :=
  match s with
  | [] => if saw && (length done =? 3)%nat then Some (done ++ [cur]) else None
  | c :: t =>
      if (48 <=? c) && (c <=? 57) then
        let new := cur * 10 + (c - 48) in
        if saw && (cur =? 0) then None
        else if 255 <? new then None
        else p4 t done new true
      else if (c =? 46) && saw then
        if (length done =? 3)%nat then None
        else p4 t (done ++ [cur]) 0 false
      else None
  end.
Definition isc_pton4 (s : list Z) : option (list Z) := p4 s [] 0 false.

Definition hexval (c : Z) : option Z :=
  if (48 <=? c) && (c <=? 57) then Some (c - 48)
  else if (97 <=? c) && (c <=? 102) then Some (c - 87)
  else if (65 <=? c) && (c <=? 70) then Some (c - 55)
  else None.

(** End of inet_pton6: flush of the last word and expansion of "::". *)
Definition p6_end (out : list Z) (cp : option nat) (xd : nat) (val : Z) : option (list Z) :=
  let r := if (0 <? xd)%nat
           then if (16 <? length out + 2)%nat then None else Some (out ++ [val / 256; val mod 256])
           else Some out in
  match r with
  | None => None
  | Some out =>
      match cp with
      | None => if (length out =? 16)%nat then Some out else None
      | Some k => if (length out =? 16)%nat then None
                  else Some (firstn k out ++ repeat 0 (16 - length out) ++ skipn k out)
      end
  end.

(** inet_pton6 main loop: [tok] is the start of the current token. *)
Fixpoint p6 (s tok : list Z) (out : list Z) (cp : option nat) (xd : nat) (val : Z) : option (list Z) :=
  match s with
  | [] => p6_end out cp xd val
  | c :: t =>
      match hexval c with
      | Some d =>
          if (xd =? 4)%nat then None
          else p6 t tok out cp (S xd) (val * 16 + d)
      | None =>
          if c =? 58 then
            if (xd =? 0)%nat then
              match cp with Some _ => None | None => p6 t t out (Some (length out)) 0 0 end
            else match t with
                 | [] => None
                 | _ => if (16 <? length out + 2)%nat then None
                        else p6 t t (out ++ [val / 256; val mod 256]) cp 0 0
                 end
          else if (c =? 46) && (length out + 4 <=? 16)%nat then
            match isc_pton4 tok with
            | Some a => p6_end (out ++ a) cp 0 0
            | None => None
            end
          else None
      end
  end.
Definition isc_pton6 (s : list Z) : option (list Z) :=
  match s with
  | 58 :: t => match t with 58 :: _ => p6 t t [] None 0 0 | _ => None end
  | _ => p6 s s [] None 0 0
  end.

(** "%u" of a byte *)
Definition dec8 (n : Z) : list Z :=
  if n <? 10 then [48 + n]
  else if n <? 100 then [48 + n / 10; 48 + n mod 10]
  else [48 + n / 100; 48 + n / 10 mod 10; 48 + n mod 10].
Definition isc_ntop4 (a : list Z) : list Z :=
  match a with
  | [a0; a1; a2; a3] => dec8 a0 ++ 46 :: dec8 a1 ++ 46 :: dec8 a2 ++ 46 :: dec8 a3
  | _ => []
  end.

(** "%x" of a 16-bit word *)
Definition hexd (d : Z) : Z := if d <? 10 then 48 + d else 87 + d.
Definition hex16 (w : Z) : list Z :=
  if w <? 16 then [hexd w]
  else if w <? 256 then [hexd (w / 16); hexd (w mod 16)]
  else if w <? 4096 then [hexd (w / 256); hexd (w / 16 mod 16); hexd (w mod 16)]
  else [hexd (w / 4096); hexd (w / 256 mod 16); hexd (w / 16 mod 16); hexd (w mod 16)].

Fixpoint words (a : list Z) : list Z :=
  match a with
  | h :: l :: t => (h * 256 + l) :: words t
  | _ => []
  end.

(** Search of the longest zero run: [best] and [cur] are (base, length). *)
Fixpoint bestrun (ws : list Z) (i : nat) (best cur : option (nat * nat)) : option (nat * nat) :=
  let upd := match cur with
             | None => best
             | Some (cb, cl) =>
                 match best with
                 | None => cur
                 | Some (_, bl) => if (bl <? cl)%nat then cur else best
                 end
             end in
  match ws with
  | [] => upd
  | w :: ws' =>
      if w =? 0 then
        bestrun ws' (S i) best (match cur with None => Some (i, 1%nat) | Some (cb, cl) => Some (cb, S cl) end)
      else bestrun ws' (S i) upd None
  end.

Definition in_run (best : option (nat * nat)) (i : nat) : bool :=
  match best with None => false | Some (b, l) => (b <=? i)%nat && (i <? b + l)%nat end.

(** Output loop at word [i]; [ws] are the words from [i] on, [a] the address. *)
Fixpoint n6 (ws : list Z) (i : nat) (best : option (nat * nat)) (a : list Z) : list Z :=
  match ws with
  | [] => match best with
          | Some (b, l) => if (b + l =? 8)%nat then [58] else []
          | None => []
          end
  | w :: ws' =>
      if in_run best i then
        (match best with Some (b, _) => if (i =? b)%nat then [58] else [] | None => [] end)
        ++ n6 ws' (S i) best a
      else
        (if (i =? 0)%nat then [] else [58]) ++
        if (i =? 6)%nat && (match best with
                            | Some (b, l) => (b =? 0)%nat && ((l =? 6)%nat ||
                                  ((l =? 5)%nat && (nth 5 (words a) 0 =? 65535)))
                            | None => false
                            end)
        then isc_ntop4 (skipn 12 a)
        else hex16 w ++ n6 ws' (S i) best a
  end.
Definition isc_ntop6 (a : list Z) : list Z :=
  let best := match bestrun (words a) 0 None None with
              | Some (b, l) => if (l <? 2)%nat then None else Some (b, l)
              | None => None
              end in
  n6 (words a) 0 best a.

Definition isc : inet :=
  {| pton4 := isc_pton4; pton6 := isc_pton6; ntop4 := isc_ntop4; ntop6 := isc_ntop6 |}.
