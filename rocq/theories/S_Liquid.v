(** What is said about Liquid tags, without the model. *)
From Verif Require Import Base Dec.

Definition within (m s : str) : Prop := exists a b, s = a ++ m ++ b.

(** A tag ends with its first %}. *)
Definition tag (g : str) : Prop := exists x, g = B "{%" ++ x ++ B "%}" /\ ~ within (B "%}") x.
(** No tag in a text *)
Definition untagged (r : str) : Prop := forall a x b, r <> a ++ B "{%" ++ x ++ B "%}" ++ b.

(** A text in which tags stand: what comes before each tag, the tag, and the rest *)
Definition tagged (l : list (str * str)) (r : str) : str := concat (map (fun p => fst p ++ snd p) l) ++ r.
Definition Tagged (l : list (str * str)) (r : str) : Prop := Forall (fun p => ~ within (B "{%") (fst p) /\ tag (snd p)) l /\ untagged r.

Definition name (n : nat) : str := B "APEX_LIQUID_TAG_" ++ dec n.
(** The same text with names for the tags, numbered from [n] *)
Fixpoint covered (n : nat) (l : list (str * str)) (r : str) : str :=
  match l with [] => r | (x, _) :: l => x ++ name n ++ covered (S n) l r end.

Definition digit (c : ascii) : Prop := In c (B "0123456789").
Definition number (ds : str) : Prop := ds <> [] /\ Forall digit ds.
Definition no_digit (s : str) : Prop := match s with [] => True | c :: _ => ~ digit c end.
(** The value of a number *)
Fixpoint value (acc : Z) (ds : str) : Z := match ds with [] => acc | c :: ds => value (acc * 10 + (Z.of_N (code c) - 48)) ds end.

(** A page with the tags for their names. A number is read modulo 2^64. *)
Inductive Page (tags : list str) : str -> str -> Prop :=
| page_end : Page tags [] []
| page_tag ds g r o : number ds -> no_digit r -> nth_error tags (Z.to_nat (value 0 ds mod 2 ^ 64)) = Some g -> Page tags r o -> Page tags (B "APEX_LIQUID_TAG_" ++ ds ++ r) (g ++ o)
| page_other ds r o : number ds -> no_digit r -> nth_error tags (Z.to_nat (value 0 ds mod 2 ^ 64)) = None -> Page tags r o -> Page tags (B "APEX_LIQUID_TAG_" ++ ds ++ r) (B "APEX_LIQUID_TAG_" ++ ds ++ o)
| page_byte c r o : (forall d q, digit d -> c :: r <> B "APEX_LIQUID_TAG_" ++ d :: q) -> Page tags r o -> Page tags (c :: r) (c :: o).

(** No name of a tag in a text *)
Definition nameless (s : str) : Prop := forall d, digit d -> ~ within (B "APEX_LIQUID_TAG_" ++ [d]) s.
(** The texts behind a tag do not begin with a digit. *)
Fixpoint apart (l : list (str * str)) (r : str) : Prop :=
  match l with [] => no_digit r | (x, _) :: l => no_digit x /\ apart l r end.
Definition spaced (l : list (str * str)) (r : str) : Prop := match l with [] => True | _ :: l => apart l r end.

(** A page on which names of tags stand anywhere, in any order and any number of times, and the page with the tags for them *)
Fixpoint named (l : list (str * nat)) (r : str) : str := match l with [] => r | (x, k) :: l => x ++ name k ++ named l r end.
Fixpoint filled (tags : list str) (l : list (str * nat)) (r : str) : str := match l with [] => r | (x, k) :: l => x ++ nth k tags [] ++ filled tags l r end.
Fixpoint clear (l : list (str * nat)) (r : str) : Prop := match l with [] => no_digit r | (x, _) :: l => no_digit x /\ clear l r end.
