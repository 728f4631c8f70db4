(** What a PEM file consists of. *)
From Verif.Model Require Import Base.

(** Lines end with CR or LF. *)
Inductive lines : list Z -> list (list Z) -> Prop :=
| l_nil : lines [] []
| l_cons w c r ls : Forall (fun x => x <> 10 /\ x <> 13) w -> (c = 10 \/ c = 13) -> lines r ls -> lines (w ++ c :: r) (w :: ls).

(** Empty lines are dropped; everything from the first line of more than 64 bytes on, too. *)
Fixpoint kept (ls : list (list Z)) : list (list Z) :=
  match ls with
  | [] => []
  | w :: t => if (64 <? length w)%nat then [] else match w with [] => kept t | _ => w :: kept t end
  end.

Definition begins (l : list Z) : Prop := l = bs "-----BEGIN CERTIFICATE-----" \/ l = bs "-----BEGIN X509 CERTIFICATE-----".
Definition ends (l : list Z) : Prop := l = bs "-----END CERTIFICATE-----" \/ l = bs "-----END X509 CERTIFICATE-----".

(** [split ls P S]: [P] are the certificate blocks (begin line to first end line, or to the
    end of the file), [S] the rest. *)
Inductive split : list (list Z) -> list (list Z) -> list (list Z) -> Prop :=
| s_nil : split [] [] []
| s_other l ls P S : ~ begins l -> split ls P S -> split (l :: ls) P (l :: S)
| s_block b body e ls P S : begins b -> Forall (fun l => ~ ends l) body -> ends e -> split ls P S ->
    split (b :: body ++ e :: ls) (b :: body ++ e :: P) S
| s_open b body : begins b -> Forall (fun l => ~ ends l) body -> split (b :: body) (b :: body) [].

Definition text (ls : list (list Z)) : list Z := concat (map (fun l => l ++ [10]) ls).
