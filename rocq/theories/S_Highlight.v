(** What highlighting should do, stated on a decomposition of the document. *)
From Verif Require Import Base.

Inductive hl_seg := HPlain (c : ascii) | HMark (content : str).

(** The decomposition as source text and as the HTML it stands for. *)
Definition hl_source (g : hl_seg) : str :=
  match g with HPlain c => [c] | HMark t => B "==" ++ t ++ B "==" end.
Definition hl_html (g : hl_seg) : str :=
  match g with HPlain c => [c] | HMark t => B "<mark>" ++ t ++ B "</mark>" end.
Definition hl_text (g : hl_seg) : str :=
  match g with HPlain c => [c] | HMark t => t end.

(** A highlighted text is non-empty, stays on one line, and is not padded. *)
Definition is_space_or_tab (c : ascii) : Prop := c = SP \/ c = TAB.
Definition mark_content (t : str) : Prop :=
  t <> [] /\ ~ In NL t /\ ~ In CR t /\
  (forall c r, t = c :: r -> ~ is_space_or_tab c) /\
  (forall c r, t = r ++ [c] -> ~ is_space_or_tab c).

(** Where a highlight may stand.  [a] is the source before it, [r] the source
    after it. *)
Definition ends_in (a : str) (c : ascii) : Prop := exists b, a = b ++ [c].
Definition begins_with (a : str) (c : ascii) : Prop := exists b, a = c :: b.

(** "- item", "* item", "+ item", "12. item" *)
Definition is_list_item (l : str) : Prop :=
  exists m b r, l = m ++ b :: r /\ is_space_or_tab b /\
    ((exists c, m = [c] /\ In c (B "-*+")) \/
     (exists d, m = d ++ ["."%char] /\ d <> [] /\ forallb isdigit d = true)).

(** A line that Markdown treats as indented code: a tab or four spaces, not
    followed by a list item. *)
Definition indented_code (l : str) : Prop :=
  (exists l', l = TAB :: l' /\ ~ is_list_item l') \/
  (exists k l', 4 <= k /\ l = repeat SP k ++ l' /\ ~ begins_with l' SP /\ ~ is_list_item l').

Definition mark_place (a t r : str) : Prop :=
  ~ ends_in a "{" /\ ~ ends_in a "=" /\ ~ ends_in a "+" /\
  ~ begins_with t "=" /\ ~ begins_with t "}" /\ ~ begins_with t "+" /\
  ~ begins_with r "=" /\ ~ begins_with r "+" /\
  (forall b ln, a = b ++ ln -> (b = [] \/ ends_in b NL) -> ~ In NL ln ->
     ~ indented_code (ln ++ B "==" ++ t ++ B "==" ++ r)).

(** Every highlight of a decomposition stands in a proper place. *)
Definition marks_placed (segs : list hl_seg) : Prop :=
  forall s1 t s2, segs = s1 ++ HMark t :: s2 ->
    mark_place (flat_map hl_source s1) t (flat_map hl_source s2).
