(** Specification of inline footnotes. *)
From Verif Require Import Base Dec.

(** Text whose brackets match. *)
Inductive balanced : str -> Prop :=
| b_nil : balanced []
| b_byte c s : c <> "["%char -> c <> "]"%char -> balanced s -> balanced (c :: s)
| b_pair a s : balanced a -> balanced s -> balanced (B "[" ++ a ++ B "]" ++ s).
(** The content of a note [[^...]] *)
Definition in_line (a : str) : Prop := ~ In "]"%char a /\ ~ In NL a /\ exists c, In c a /\ isspace c = true.

(** Parts of a text: a byte, fenced code, a code span, and the two kinds of notes. *)
Inductive part := Byte (c : ascii) | Fenced (t : ascii) (x : str) | Span (x : str) | Caret (a : str) | Brackets (a : str).
Definition three (t : ascii) : str := [t; t; t].
Definition source (p : part) : str :=
  match p with
  | Byte c => [c]
  | Fenced t x => three t ++ x ++ three t
  | Span x => B "`" ++ x ++ B "`"
  | Caret a => B "^[" ++ a ++ B "]"
  | Brackets a => B "[^" ++ a ++ B "]"
  end.
Definition text (l : list part) : str := concat (map source l).
Definition opens_fence (s : str) : Prop := exists r, s = B "```" ++ r \/ s = B "~~~" ++ r.
Definition begins (c : ascii) (s : str) : Prop := exists r, s = c :: r.
(** The part [p] followed by the text [s] is what it seems to be. *)
Definition clear (p : part) (s : str) : Prop :=
  match p with
  | Byte c =>
      c <> "`"%char /\ ~ opens_fence (c :: s) /\
      (forall a r, c :: s = B "^[" ++ a ++ B "]" ++ r -> ~ balanced a) /\
      (forall a r, c :: s = B "[^" ++ a ++ B "]" ++ r -> ~ in_line a)
  | Fenced t x =>
      (t = "`"%char \/ t = "~"%char) /\ ~ begins t (x ++ three t) /\ ~ begins t s /\
      (forall a b, x ++ three t = a ++ b -> length a < length x -> ~ opens_fence b)
  | Span x =>
      ~ In "`"%char x /\ ~ begins "`"%char s /\ (forall a b, x ++ B "`" = a ++ b -> ~ opens_fence b)
  | Caret a => balanced a
  | Brackets a => in_line a
  end.
Fixpoint clear_all (l : list part) : Prop :=
  match l with
  | [] => True
  | p :: l => clear p (text l) /\ clear_all l
  end.

(** What is made of it: the notes become references, numbered from [n]. *)
Definition reference (n : nat) : str := B "[^fn" ++ dec n ++ B "]".
Fixpoint body (n : nat) (l : list part) : str :=
  match l with
  | [] => []
  | (Caret _ | Brackets _) :: l => reference n ++ body (S n) l
  | p :: l => source p ++ body n l
  end.
Fixpoint notes (l : list part) : list str :=
  match l with
  | [] => []
  | (Caret a | Brackets a) :: l => a :: notes l
  | _ :: l => notes l
  end.
Fixpoint definitions (n : nat) (l : list str) : str :=
  match l with
  | [] => []
  | a :: l => reference n ++ B ": " ++ a ++ [NL] ++ definitions (S n) l
  end.
Definition result (l : list part) : str :=
  body 1 l ++ match notes l with [] => [] | ns => [NL; NL] ++ definitions 1 ns end.

(** How often the byte strings that [P] tells begin in [s]. *)
Fixpoint count (P : str -> bool) (s : str) : nat :=
  match s with
  | [] => 0
  | _ :: s' => (if P s then 1 else 0) + count P s'
  end.
(** A definition of note [n] begins here. *)
Definition defines (n : nat) (s : str) : bool := starts (reference n ++ B ":") s.
(** No note is followed by a colon. *)
Fixpoint no_colon (l : list part) : Prop :=
  match l with
  | [] => True
  | (Caret _ | Brackets _) :: l => ~ begins ":"%char (text l) /\ no_colon l
  | _ :: l => no_colon l
  end.
