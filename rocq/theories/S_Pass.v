(** What the passes over the HTML do.  Nothing of the model is used. *)
From Verif Require Import Base.

Definition has (x s : str) : Prop := exists a b, s = a ++ x ++ b.

(** ** Rules *)
Definition page_break : str :=
  B "<div class=""mkpagebreak manualbreak"" title=""Page break created from HR"" data-description=""PAGE (HR)"" style=""page-break-after:always""><span style=""display:none"">&nbsp;</span></div>".
Inductive Ruled : str -> str -> Prop :=
| R_none s : ~ has (B "<hr") s -> Ruled s s
| R_open a b : ~ has (B "<hr") a -> ~ In ">"%char b -> Ruled (a ++ B "<hr" ++ b) (a ++ B "<hr" ++ b)
| R_rule a b s h : ~ has (B "<hr") a -> ~ In ">"%char b -> Ruled s h -> Ruled (a ++ B "<hr" ++ b ++ B ">" ++ s) (a ++ page_break ++ h).

(** ** Code *)
(** A class with a language, in the tag or anywhere behind it. *)
Definition language_later (t : str) : Prop := exists u v w, t = u ++ B "class=" ++ v ++ B "language-" ++ w.
Inductive Poem : str -> str -> Prop :=
| Po_none s : ~ has (B "<pre><code") s -> Poem s s
| Po_open a b : ~ has (B "<pre><code") a -> ~ In ">"%char b -> Poem (a ++ B "<pre><code" ++ b) (a ++ B "<pre><code" ++ b)
| Po_language a b s h : ~ has (B "<pre><code") a -> ~ In ">"%char b -> language_later (b ++ B ">" ++ s) -> Poem s h ->
    Poem (a ++ B "<pre><code" ++ b ++ B ">" ++ s) (a ++ B "<pre><code" ++ b ++ B ">" ++ h)
| Po_poetry a b s h : ~ has (B "<pre><code") a -> ~ In ">"%char b -> ~ language_later (b ++ B ">" ++ s) -> Poem s h ->
    Poem (a ++ B "<pre><code" ++ b ++ B ">" ++ s) (a ++ B "<pre><code" ++ b ++ B " class=""poetry"">" ++ h).

(** ** Paragraphs *)
Definition white (c : ascii) : Prop := c = SP \/ c = TAB \/ c = NL \/ c = CR.
(** spaces and zero-width spaces *)
Inductive Blank : str -> Prop :=
| Bl_nil : Blank []
| Bl_white c s : white c -> Blank s -> Blank (c :: s)
| Bl_entity s : Blank s -> Blank (B "&#8203;" ++ s)
| Bl_utf8 s : Blank s -> Blank ([ascii_of_nat 226; ascii_of_nat 128; ascii_of_nat 139] ++ s).
Definition blank_paragraph (x s r : str) : Prop := s = B "<p>" ++ x ++ B "</p>" ++ r /\ x <> [] /\ Blank x.
Inductive Cleaned : str -> str -> Prop :=
| Cl_end : Cleaned [] []
| Cl_drop x s r h : blank_paragraph x s r -> Cleaned r h -> Cleaned s h
| Cl_byte c s h : (forall x r, ~ blank_paragraph x (c :: s) r) -> Cleaned s h -> Cleaned (c :: s) (c :: h).

(** ** The first heading *)
(** The text without the tags. *)
Inductive Shown : str -> str -> Prop :=
| Sh_end : Shown [] []
| Sh_text c s h : c <> "<"%char -> c <> ">"%char -> Shown s h -> Shown (c :: s) (c :: h)
| Sh_stray s h : Shown s h -> Shown (">"%char :: s) h
| Sh_tag x s h : ~ In ">"%char x -> Shown s h -> Shown (B "<" ++ x ++ B ">" ++ s) h
| Sh_open x : ~ In ">"%char x -> Shown (B "<" ++ x) [].
Definition Trimmed (s t : str) : Prop := exists u w, s = u ++ t ++ w /\ Forall white u /\ Forall white w /\
  (forall c t', t = c :: t' -> ~ white c) /\ (forall c t', t = t' ++ [c] -> ~ white c).
Definition first_heading (html t : str) : Prop := exists a b body rest v, html = a ++ B "<h1" ++ b ++ B ">" ++ body ++ B "</h1>" ++ rest /\
  ~ has (B "<h1") a /\ ~ In ">"%char b /\ ~ has (B "</h1>") body /\ Shown body v /\ Trimmed v t /\ t <> [].

(** ** Footnotes *)
Definition section : str := B "<section class=""footnotes""".
Definition notes_break : str :=
  B "<div class=""mkpagebreak manualbreak"" title=""Page break created before footnotes"" data-description=""PAGE (Footnotes)"" style=""page-break-after:always""><span style=""display:none"">&nbsp;</span></div>".
(** Every code block gets the class. *)
Inductive Marked : str -> str -> Prop :=
| Ma_none s : ~ has (B "<pre><code") s -> Marked s s
| Ma_open a b : ~ has (B "<pre><code") a -> ~ In ">"%char b -> Marked (a ++ B "<pre><code" ++ b) (a ++ B "<pre><code" ++ b)
| Ma_code a b s h : ~ has (B "<pre><code") a -> ~ In ">"%char b -> Marked s h -> Marked (a ++ B "<pre><code" ++ b ++ B ">" ++ s) (a ++ B "<pre><code" ++ b ++ B " class=""poetry"">" ++ h).
