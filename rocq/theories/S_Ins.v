(** Specification of insertions. *)
From Verif Require Import Base.

(** A text is made of bytes, insertions and insertions with attributes, [a] being the text
    between the braces, [b] the white space before them and [h] the attributes as HTML. *)
Inductive part := Byte (c : ascii) | Ins (x : str) | InsA (x b a h : str).
Definition source (p : part) : str :=
  match p with
  | Byte c => [c]
  | Ins x => B "++" ++ x ++ B "++"
  | InsA x b a _ => B "++" ++ x ++ B "++" ++ b ++ B "{" ++ a ++ B "}"
  end.
Definition html (p : part) : str :=
  match p with
  | Byte c => [c]
  | Ins x => B "<ins>" ++ x ++ B "</ins>"
  | InsA x _ _ h => B "<ins markdown=" ++ [DQ] ++ B "span" ++ [DQ] ++ h ++ B ">" ++ x ++ B "</ins>"
  end.
Definition text (l : list part) : str := concat (map source l).
Definition render (l : list part) : str := concat (map html l).
Definition begins (c : ascii) (s : str) : Prop := exists r, s = c :: r.
(** [++x++], between [prev] and [r], is an insertion. *)
Definition insertion (prev : option ascii) (x r : str) : Prop :=
  x <> [] /\ ~ In NL x /\ ~ In CR x /\
  (forall c, begins c x -> ~ In c (NUL :: SP :: TAB :: B "+}")) /\
  ~ In (last x NUL) (SP :: TAB :: B "+") /\ ~ begins "+"%char r /\
  prev <> Some "+"%char /\ prev <> Some "{"%char.
(** It ends with the first signs that can end it. *)
Definition first_end (prev : option ascii) (x r : str) : Prop :=
  forall y q, x ++ B "++" ++ r = y ++ B "++" ++ q -> insertion prev y q -> length x <= length y.
(** Attributes, or none: [s] is the text behind the insertion. *)
Definition braces (s b a r : str) : Prop :=
  s = b ++ B "{" ++ a ++ B "}" ++ r /\ (forall c, In c b -> c = SP \/ c = TAB) /\ ~ In "}"%char a.
Fixpoint clear (ial : str -> option str) (prev : option ascii) (l : list part) : Prop :=
  match l with
  | [] => True
  | p :: l' =>
      match p with
      | Byte c => True
      | Ins x =>
          insertion prev x (text l') /\ first_end prev x (text l') /\
          (forall b a r, braces (text l') b a r -> ial a = None)
      | InsA x b a h =>
          insertion prev x (b ++ B "{" ++ a ++ B "}" ++ text l') /\ first_end prev x (b ++ B "{" ++ a ++ B "}" ++ text l') /\
          (forall c, In c b -> c = SP \/ c = TAB) /\ ~ In "}"%char a /\ ial a = Some h
      end /\ clear ial (Some (last (source p) NUL)) l'
  end.
(** No insertion is overlooked. *)
Fixpoint complete (prev : option ascii) (l : list part) : Prop :=
  match l with
  | [] => True
  | p :: l' =>
      (forall c x r, p = Byte c -> text l = B "++" ++ x ++ B "++" ++ r -> ~ insertion prev x r) /\
      complete (Some (last (source p) NUL)) l'
  end.
Fixpoint no_attributes (l : list part) : Prop :=
  match l with
  | [] => True
  | InsA _ _ _ _ :: _ => False
  | _ :: l => no_attributes l
  end.
