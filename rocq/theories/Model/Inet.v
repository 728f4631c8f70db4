(** libc text conversion of addresses as used by parseip.c and iptostr.c.

    [inet_pton]/[inet_ntop] are libc functions, not code of the repository: the
    model takes them as a record of functions on string contents and the theorems
    assume [Spec/Ip.v: inet_ok] of it.  Model/InetIsc.v gives the usual ISC
    implementation and Proof/InetIscP.v proves that it satisfies the assumption. *)
From Verif.Model Require Import Base.

Record inet := {
  pton4 : list Z -> option (list Z);   (* inet_pton(AF_INET, s, .) == 1 *)
  pton6 : list Z -> option (list Z);   (* inet_pton(AF_INET6, s, .) == 1 *)
  ntop4 : list Z -> list Z;            (* inet_ntop(AF_INET, ., buf, 46) *)
  ntop6 : list Z -> list Z             (* inet_ntop(AF_INET6, ., buf, 46) *)
}.

(** Content of the C string starting at a pointer; running off the object is UB. *)
Fixpoint cstr (p : list Z) : res (list Z) :=
  match p with
  | [] => UB
  | c :: t => if c =? 0 then Ok [] else (s <- cstr t ;; Ok (c :: s))
  end.

(** The constant of parseip.c:43 and iptostr.c:44. *)
Definition v4prefix : list Z := [0;0;0;0;0;0;0;0;0;0;255;255].

(** parseip.c:24-29  parseip6_, non-NULL arguments. *)
Definition parseip6_ (I : inet) (str : list Z) : res (option (list Z)) :=
  s <- cstr str ;; Ok (pton6 I s).

(** parseip.c:39-47  parseip4_, non-NULL arguments: the four bytes go to ip+12,
    then the prefix is copied to ip. *)
Definition parseip4_ (I : inet) (str : list Z) : res (option (list Z)) :=
  s <- cstr str ;;
  Ok (match pton4 I s with Some a => Some (v4prefix ++ a) | None => None end).

(** parseip.c:58-82  parseip, non-NULL arguments (log output omitted). *)
Definition parseip (I : inet) (str : list Z) : res (option (list Z)) :=
  r <- parseip4_ I str ;;
  match r with
  | Some a => Ok (Some a)
  | None => parseip6_ I str
  end.

(** iptostr.c:38-48  iptostr; the result is the string content, NUL omitted. *)
Definition iptostr (I : inet) (ip : list Z) : list Z :=
  if list_eq_dec Z.eq_dec (firstn 12 ip) v4prefix
  then ntop4 I (skipn 12 ip) else ntop6 I ip.
