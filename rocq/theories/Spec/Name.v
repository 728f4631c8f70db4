(** Independent specification of host names. *)
From Verif.Model Require Import Base.

Definition lab_char (c : Z) : Prop :=
  97 <= c <= 122 \/ 65 <= c <= 90 \/ 48 <= c <= 57 \/ c = 45 \/ c = 95.

Definition label_ok (l : list Z) : Prop :=
  l <> [] /\ (length l <= 63)%nat /\ Forall lab_char l /\
  hd 0 l <> 45 /\ last l 0 <> 45.

(** Labels separated by dots. *)
Fixpoint dotted (ls : list (list Z)) : list Z :=
  match ls with
  | [] => []
  | [l] => l
  | l :: ls' => l ++ 46 :: dotted ls'
  end.

(** [s] is a presentation of the label list: root is empty or ".", otherwise
    the labels joined by dots with an optional final dot. *)
Definition presents (s : list Z) (ls : list (list Z)) : Prop :=
  match ls with
  | [] => s = [] \/ s = [46]
  | _ => s = dotted ls \/ s = dotted ls ++ [46]
  end.

(** DNS wire format: length-prefixed labels and the root label. *)
Fixpoint wire (ls : list (list Z)) : list Z :=
  match ls with
  | [] => [0]
  | l :: ls' => len l :: l ++ wire ls'
  end.

Definition valid_name (s : list Z) (ls : list (list Z)) : Prop :=
  presents s ls /\ Forall label_ok ls /\ (length (wire ls) <= 255)%nat.
