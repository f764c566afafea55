(** Names between colons, the distance of words, and what is made of them.  Of the model only the record
    of a table entry and the text of image tags are used. *)
From Verif Require Import Base M_Emoji.

(** [Edit n a b]: [a] becomes [b] by [n] changes, insertions and deletions of a byte. *)
Inductive Edit : nat -> str -> str -> Prop :=
| E_nil : Edit 0 [] []
| E_keep n c a b : Edit n a b -> Edit n (c :: a) (c :: b)
| E_change n c d a b : Edit n a b -> Edit (S n) (c :: a) (d :: b)
| E_insert n d a b : Edit n a b -> Edit (S n) a (d :: b)
| E_delete n c a b : Edit n a b -> Edit (S n) (c :: a) b.
Definition Distance (n : nat) (a b : str) : Prop := Edit n a b /\ forall m, Edit m a b -> n <= m.

(** A word that can stand between colons, without the [blank] bytes. *)
Definition word (blank n : str) : Prop :=
  n <> [] /\ length n < 49 /\ ~ In ":"%char n /\ Forall (fun c => ~ In c blank) n.
Definition between (n : str) : str := B ":" ++ n ++ B ":".
Inductive token := Char (c : ascii) | Name (n : str).
(** Text read from left to right; [ok] are the words that are taken for names. *)
Inductive Tokens (ok : str -> Prop) : str -> list token -> Prop :=
| T_end : Tokens ok [] []
| T_char c s l : (c = ":"%char -> forall n r, s = n ++ B ":" ++ r -> ~ ok n) -> Tokens ok s l -> Tokens ok (c :: s) (Char c :: l)
| T_name n s l : ok n -> Tokens ok s l -> Tokens ok (between n ++ s) (Name n :: l).
(** The text that the tokens stand for, given what becomes of names. *)
Inductive Meaning (R : str -> str -> Prop) : list token -> str -> Prop :=
| N_end : Meaning R [] []
| N_char c l t : Meaning R l t -> Meaning R (Char c :: l) (c :: t)
| N_name n x l t : R n x -> Meaning R l t -> Meaning R (Name n :: l) (x ++ t).

(** Names are compared in small letters with underscores. *)
Definition key (n : str) : str := map (fun c => if ceq c "-"%char then "_"%char else tolower c) n.
(** The dashes and bars of a table. *)
Definition ruler (n : str) : Prop := Forall (fun c => c = "|"%char \/ c = "-"%char) n.
Definition Known (table : list entry) (n : str) (e : entry) : Prop :=
  exists l1 l2, table = l1 ++ e :: l2 /\ ename e = n /\ forall e', In e' l1 -> ename e' <> n.
Definition Unknown (table : list entry) (n : str) : Prop := forall e, In e table -> ename e <> n.
(** The name nearest to [n], of those the shortest, of those the first. *)
Definition Nearest (max : nat) (table : list entry) (n m : str) : Prop :=
  exists l1 e l2 d, table = l1 ++ e :: l2 /\ ename e = m /\ Distance d n m /\ d <= max /\
    (forall e' d', In e' l1 -> Distance d' n (ename e') -> d < d' \/ (d = d' /\ length m < length (ename e'))) /\
    (forall e' d', In e' l2 -> Distance d' n (ename e') -> d < d' \/ (d = d' /\ length m <= length (ename e'))).
Definition Far (max : nat) (table : list entry) (n : str) : Prop :=
  forall e d, In e table -> Distance d n (ename e) -> max < d.
(** What autocorrection writes between the colons of a word. *)
Inductive Corrected (table : list entry) (n : str) : str -> Prop :=
| C_ruler : ruler n -> Corrected table n n
| C_known e : ~ ruler n -> Known table (key n) e -> Corrected table n (key n)
| C_near m : ~ ruler n -> Unknown table (key n) -> Nearest 4 table (key n) m -> Corrected table n m
| C_far : ~ ruler n -> Unknown table (key n) -> Far 4 table (key n) -> Corrected table n n.
(** What a name is shown as. *)
Definition Shows (table : list entry) (n u : str) : Prop :=
  ~ ruler n /\ exists e, Known table (key n) e /\ unicode e = Some u.
Inductive Shown (table : list entry) (n : str) : str -> Prop :=
| S_emoji u : Shows table n u -> Shown table n u
| S_ruler : ruler n -> Shown table n (between n)
| S_other : ~ ruler n -> Unknown table (key n) -> Shown table n (between n).
Definition blanks : str := [SP; TAB; NL].
(** In text for the terminal only rulers and names with an emoji are taken. *)
Definition text_name (table : list entry) (n : str) : Prop :=
  word (blanks ++ [CR]) n /\ (ruler n \/ exists u, Shows table n u).

(** ** HTML *)
(** The place behind [a] is text: no tag is open, and no character reference is near. *)
Definition plain_text (b : str) : Prop := ~ In "<"%char b /\ ~ In "&"%char b.
Definition closed (a : str) : Prop := plain_text a \/ exists u b, a = u ++ B ">" ++ b /\ plain_text b.
Definition calm (html : str) : Prop := forall a b, html = a ++ B ":" ++ b -> closed a.
(** The place behind [a] is in a quoted attribute of simple text. *)
Definition quoted_place (a : str) : Prop := exists u t q x, a = u ++ B "<" ++ t ++ B "=" ++ [q] ++ x /\ (q = DQ \/ q = SQ) /\
  ~ In q x /\ Forall (fun c => ~ In c (B "<>&=")) x /\ Forall (fun c => ~ In c (B "<>&")) t.
(** Emoji fit into three times the space of their names. *)
Definition small (table : list entry) : Prop := forall e u, In e table -> unicode e = Some u -> length u < 3 * (length (ename e) + 2).
(** No name of an image is in the text. *)
Definition no_image (table : list entry) (html : str) : Prop :=
  forall a n b e, html = a ++ between n ++ b -> Known table (key n) e -> unicode e <> None.
(** No image tag is in the HTML. *)
Definition no_img (html : str) : Prop := forall a b i m g x, html = a ++ B "<" ++ [i; m; g; x] ++ b ->
  map tolower [i; m; g] = B "img" -> x <> ">"%char /\ isspace x = false.
(** The only thing that the test for headers takes for a header. *)
Definition level_mark (u : str) : Prop := exists a d h b, u = a ++ B "<" ++ [d; h] ++ B ">" ++ b /\ In d (B "123456") /\ In h (B "hH").
(** The longest name of an emoji, of those the first. *)
Definition Longest (table : list entry) (u n : str) : Prop :=
  exists l1 e l2, table = l1 ++ e :: l2 /\ unicode e = Some u /\ ename e = n /\
    (forall e', In e' l1 -> unicode e' = Some u -> length (ename e') < length n) /\
    (forall e', In e' l2 -> unicode e' = Some u -> length (ename e') <= length n).
