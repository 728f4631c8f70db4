(** Independent specifications for string helpers. *)
From Verif.Model Require Import Base.

(** [d] is the difference of the first differing bytes, 0 if the lists are equal. *)
Definition firstdiff (l m : list Z) (d : Z) : Prop :=
  (l = m /\ d = 0) \/
  (exists p x y u v, l = p ++ x :: u /\ m = p ++ y :: v /\ x <> y /\ d = x - y).

(** ASCII lower case. *)
Definition lower (c : Z) : Z := if (65 <=? c) && (c <=? 90) then c + 32 else c.

Definition prefix {A} (p l : list A) : Prop := exists u, l = p ++ u.

(** Index of the first / last occurrence of [c], or the length. *)
Definition first_index (s : list Z) (c : Z) (i : nat) : Prop :=
  (exists u v, s = u ++ c :: v /\ ~ In c u /\ i = length u) \/ (~ In c s /\ i = length s).
Definition last_index (s : list Z) (c : Z) (i : nat) : Prop :=
  (exists u v, s = u ++ c :: v /\ ~ In c v /\ i = length u) \/ (~ In c s /\ i = length s).

(** Path sanitising: first collapse runs of slashes, then replace a dot that
    follows a slash by a colon. *)
Fixpoint squeeze (s : list Z) : list Z :=
  match s with
  | [] => []
  | c :: t =>
      match t with
      | d :: _ => if (c =? 47) && (d =? 47) then squeeze t else c :: squeeze t
      | [] => [c]
      end
  end.
Fixpoint undot (s : list Z) : list Z :=
  match s with
  | [] => []
  | c :: t =>
      match t with
      | d :: t' => if (c =? 47) && (d =? 46) then c :: 58 :: undot t' else c :: undot t
      | [] => [c]
      end
  end.
Definition sanitized (s : list Z) : list Z := undot (squeeze s).

(** Two adjacent bytes. *)
Definition adjacent (a b : Z) (s : list Z) : Prop := exists u v, s = u ++ a :: b :: v.

(** Text before the first [c]. *)
Fixpoint before (c : Z) (s : list Z) : list Z :=
  match s with
  | [] => []
  | x :: t => if x =? c then [] else x :: before c t
  end.
