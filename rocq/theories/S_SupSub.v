(** Specification of superscripts, subscripts and underlines. *)
From Verif Require Import Base.

(** A text is made of bytes and of marked words; [b]: the closing mark is there. *)
Inductive part := Lit (c : ascii) | Sup (x : str) (b : bool) | Sub (x : str) (b : bool) | Under (x : str).
Definition source (p : part) : str :=
  match p with
  | Lit c => [c]
  | Sup x b => B "^" ++ x ++ (if b then B "^" else [])
  | Sub x b => B "~" ++ x ++ (if b then B "~" else [])
  | Under x => B "~" ++ x ++ B "~"
  end.
Definition html (p : part) : str :=
  match p with
  | Lit c => [c]
  | Sup x _ => B "<sup>" ++ x ++ B "</sup>"
  | Sub x _ => B "<sub>" ++ x ++ B "</sub>"
  | Under x => B "<u>" ++ x ++ B "</u>"
  end.
Definition text (l : list part) : str := concat (map source l).
Definition render (l : list part) : str := concat (map html l).
(** Bytes that end a word *)
Definition ends_word (m c : ascii) : Prop := In c (SP :: TAB :: NL :: m :: B ".,;:!?").
Definition well (p : part) : Prop :=
  match p with
  | Lit _ => True
  | Sup x _ => x <> [] /\ (forall c, In c x -> ~ ends_word "^" c)
  | Sub x b => x <> [] /\ ~ In NL x /\ (b = false -> forall c, In c x -> ~ ends_word "~" c)
  | Under x => x <> [] /\ ~ In NL x /\ isspace (last x NUL) = false
  end.
(** Whether a mark may be left alone: nothing behind it that could be a word. *)
Definition no_word (m : ascii) (s : str) : Prop := s = [] \/ exists c r, s = c :: r /\ ends_word m c.
Definition begins (c : ascii) (s : str) : Prop := exists r, s = c :: r.
Fixpoint complete (prev : option ascii) (l : list part) : Prop :=
  match l with
  | [] => True
  | p :: l' =>
      (p = Lit "^" -> prev = Some "["%char \/ no_word "^" (text l')) /\
      (p = Lit "~" -> prev = Some "~"%char \/ begins ">"%char (text l') \/ no_word "~" (text l')) /\
      complete (Some (last (source p) NUL)) l'
  end.
(** No code, mathematics or Liquid tags. *)
Definition line_start (prev : option ascii) : Prop := prev = None \/ prev = Some NL.
Fixpoint plain (prev : option ascii) (s : str) : Prop :=
  match s with
  | [] => True
  | c :: s' =>
      c <> "`"%char /\ c <> "$"%char /\ (c = "{"%char -> ~ begins "%"%char s') /\
      (line_start prev -> c <> TAB /\ (forall r, s <> B "    " ++ r)) /\ plain (Some c) s'
  end.
(** Regions that are to be left alone *)
Inductive region := Code (x : str) | Fenced (x : str) | Math (x : str) | Display (x : str) | Liquid (x : str).
Definition region_text (g : region) : str :=
  match g with
  | Code x => B "`" ++ x ++ B "`"
  | Fenced x => B "```" ++ x ++ B "```"
  | Math x => B "$" ++ x ++ B "$"
  | Display x => B "$$" ++ x ++ B "$$"
  | Liquid x => B "{%" ++ x ++ B "%}"
  end.
Definition region_ok (g : region) : Prop :=
  match g with
  | Code x => ~ In "`"%char x
  | Fenced x => x <> [] /\ ~ In "`"%char x
  | Math x => (exists c r, x = c :: r /\ c <> SP /\ c <> TAB /\ c <> NL /\ c <> NUL) /\ ~ In "`"%char x /\ ~ In "$"%char x
  | Display x => ~ In "`"%char x /\ ~ In "$"%char x
  | Liquid x => forall a b, x ++ B "%" <> a ++ B "%}" ++ b
  end.
(** Text before the region: no marks, and no line that begins with white space. *)
Fixpoint calm (prev : option ascii) (s : str) : Prop :=
  match s with
  | [] => True
  | c :: s' => ~ In c (B "`${^~") /\ (line_start prev -> c <> SP /\ c <> TAB) /\ calm (Some c) s'
  end.
