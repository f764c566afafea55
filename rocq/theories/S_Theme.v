(** What is said about classes and themes, without the model. *)
From Verif Require Import Base.

Definition blank (s : str) : Prop := Forall (fun c => isspace c = true) s.
Definition solid (s : str) : Prop := s <> [] /\ Forall (fun c => isspace c = false) s.
(** The words of a text *)
Inductive Words : str -> list str -> Prop :=
| words_none s : blank s -> Words s []
| words_more sp w b ws : blank sp -> solid w -> (b = [] \/ exists c r, b = c :: r /\ isspace c = true) -> Words b ws -> Words (sp ++ w ++ b) (w :: ws).
(** The first entry of a name *)
Definition entry (th : list (str * str)) (w st : str) : Prop := exists a b, th = a ++ (w, st) :: b /\ ~ In w (map fst a).
(** The style of the first of the words that has one *)
Definition first_of (th : list (str * str)) (ws : list str) (st : str) : Prop :=
  exists l w r, ws = l ++ w :: r /\ entry th w st /\ forall v, In v l -> ~ In v (map fst th).
