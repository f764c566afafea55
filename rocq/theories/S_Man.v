(** Specification for the man page output: how roff reads it.  Of the model only the type of
    trees is used. *)
From Verif Require Import Base Dec M_Md S_Md.

(** ** A reader of roff.  A line that begins with . or ' is a request; the arguments of .SH and .SS
    are shown as text, those of other requests are not.  \e is a backslash, \- a dash, \& nothing, \f[x] and
    \fx change the font, \[em] is a dash. *)
Inductive event := Ch (c : ascii) | Req (name : str).
Inductive mode := Start | Txt | Esc | Font | Font_name | Glyph (name : str) | Control (name : str) | Skip.
Definition em_dash : str := ["226"; "128"; "148"]%char.
Definition en_dash : str := ["226"; "128"; "147"]%char.
Definition text_step (c : ascii) : mode * list event :=
  if ceq c NL then (Start, [Ch NL]) else if ceq c BS then (Esc, []) else (Txt, [Ch c]).
Definition shows (name : str) : bool := seq_ name (B "SH") || seq_ name (B "SS").
Definition step (m : mode) (c : ascii) : mode * list event :=
  match m with
  | Start => if ceq c "."%char || ceq c SQ then (Control [], []) else text_step c
  | Txt => text_step c
  | Esc =>
      if ceq c "e"%char then (Txt, [Ch BS])
      else if ceq c "-"%char then (Txt, [Ch c])
      else if ceq c "f"%char then (Font, [])
      else if ceq c "["%char then (Glyph [], [])
      else (Txt, [])
  | Font => if ceq c "["%char then (Font_name, []) else (Txt, [])
  | Font_name => if ceq c "]"%char then (Txt, []) else (Font_name, [])
  | Glyph name => if ceq c "]"%char then (Txt, if seq_ name (B "em") then map Ch em_dash else []) else (Glyph (name ++ [c]), [])
  | Control name =>
      if ceq c NL then (Start, [Req name])
      else if ceq c SP then (if shows name then Txt else Skip, [Req name])
      else (Control (name ++ [c]), [])
  | Skip => if ceq c NL then (Start, []) else (Skip, [])
  end.
Fixpoint run (m : mode) (s : str) : mode * list event :=
  match s with
  | [] => (m, [])
  | c :: s => let (m1, e1) := step m c in let (m2, e2) := run m1 s in (m2, e1 ++ e2)
  end.
Definition shown_text (e : list event) : str := flat_map (fun x => match x with Ch c => [c] | Req _ => [] end) e.
Definition requests (e : list event) : list str := flat_map (fun x => match x with Ch _ => [] | Req r => [r] end) e.
Definition roff_text (s : str) : str := shown_text (snd (run Start s)).
Definition roff_requests (s : str) : list str := requests (snd (run Start s)).

(** The visible bytes: no blanks, and no parentheses (around the addresses of links) and stars (of a rule). *)
Definition visible (s : str) : str := filter (fun c => negb (isspace c || ceq c "("%char || ceq c ")"%char || ceq c "*"%char)) s.

(** ** What is to be read: the text, with -- for the shorter dash. *)
Fixpoint dashes (s : str) : str :=
  match s with
  | [] => []
  | c :: r =>
      match r with
      | d :: e :: r' => if ceq c "226"%char && ceq d "128"%char && ceq e "147"%char then B "--" ++ dashes r' else c :: dashes r
      | _ => c :: dashes r
      end
  end.
(** A document as the reader of a man page should see it: texts, code, the address of a link
    after its text, the description of a picture. *)
Fixpoint said (n : node) : str :=
  match n with Node k ch =>
  let fix all (l : list node) := match l with [] => [] | c :: l => said c ++ all l end in
  match k with
  | Text s | Code s => dashes s
  | HtmlBlock s => dashes (opt s)
  | CodeBlock _ s => dashes (opt s)
  | Link u _ => all ch ++ dashes (opt u)
  | _ => all ch
  end end.
(** Trees of the types that ast_man.c knows, without HTML.  (The literals of texts and code spans
    have no line ends: cmark makes soft breaks and spaces of them.) *)
Fixpoint man_inline (n : node) : Prop :=
  match n with Node k ch =>
  let fix all (l : list node) := match l with [] => True | c :: l => man_inline c /\ all l end in
  match k with
  | Text s | Code s => ch = [] /\ ~ In NL s
  | Soft | Hard => ch = []
  | Emph | Strong | Other | Link _ _ | Image _ _ _ => all ch
  | _ => False
  end end.
Fixpoint man_block (n : node) : Prop :=
  match n with Node k ch =>
  let fix all (l : list node) := match l with [] => True | c :: l => man_block c /\ all l end in
  let fix inls (l : list node) := match l with [] => True | c :: l => man_inline c /\ inls l end in
  match k with
  | Document | Quote | Lst _ _ | Item _ | DefList | DefTerm | DefData | Other => all ch
  | Paragraph => inls ch
  | Heading _ => inls ch
  | CodeBlock _ _ | Rule => ch = []
  | _ => False
  end end.

(** ** Requests that belong together: RS and RE, nf and fi. *)
Fixpoint balanced (open : list str) (l : list str) : Prop :=
  match l with
  | [] => open = []
  | r :: l =>
      if seq_ r (B "RS") then balanced (B "RE" :: open) l
      else if seq_ r (B "nf") then balanced (B "fi" :: open) l
      else if seq_ r (B "RE") || seq_ r (B "fi") then match open with o :: open' => o = r /\ balanced open' l | [] => False end
      else balanced open l
  end.

(** ** How roff reads the arguments of a request: in double quotes, a doubled quote stands for one. *)
Fixpoint quoted_arg (s : str) : option (str * str) :=
  match s with
  | [] => None
  | c :: r =>
      if ceq c DQ then
        match r with
        | d :: r' => if ceq d DQ then match quoted_arg r' with Some (x, y) => Some (DQ :: x, y) | None => None end else Some ([], r)
        | [] => Some ([], r)
        end
      else match quoted_arg r with Some (x, y) => Some (c :: x, y) | None => None end
  end.

(** ** HTML fragments: text, entities, tags. *)
Inductive piece := Plain (s : str) | Ent (c : ascii) | Tag (t : str).
Definition entity_name (c : ascii) : str :=
  if ceq c "<"%char then B "lt" else if ceq c ">"%char then B "gt" else if ceq c "&"%char then B "amp"
  else if ceq c DQ then B "quot" else B "#39".
Definition html_of (p : piece) : str :=
  match p with Plain s => s | Ent c => B "&" ++ entity_name c ++ B ";" | Tag t => B "<" ++ t ++ B ">" end.
Definition meaning (p : piece) : str := match p with Plain s => dashes s | Ent c => [c] | Tag _ => [] end.
Definition piece_ok (p : piece) : Prop :=
  match p with
  | Plain s => s <> [] /\ ~ In "<"%char s /\ ~ In "&"%char s
  | Ent c => In c ["<"; ">"; "&"; DQ; SQ]%char
  | Tag t => ~ In ">"%char t
  end.
(** No two texts in a row. *)
Fixpoint pieces_ok (l : list piece) : Prop :=
  match l with
  | [] => True
  | p :: l => piece_ok p /\ match p, l with Plain _, Plain _ :: _ => False | _, _ => True end /\ pieces_ok l
  end.
(** A definition list of one term and one definition, as HTML; neither has tags that begin with d,
    or a blank in front. *)
Definition dl_html (t d : str) : str :=
  B "<dl>" ++ [NL] ++ B "<dt>" ++ t ++ B "</dt>" ++ [NL] ++ B "<dd>" ++ d ++ B "</dd>" ++ [NL] ++ B "</dl>" ++ [NL].
Definition no_d (s : str) : Prop := forall a b, s <> a ++ B "<d" ++ b /\ s <> a ++ B "</d" ++ b.
Definition blank_start (s : str) : bool := match s with c :: _ => ceq c SP || ceq c NL | [] => false end.
(** No HTML blocks. *)
Fixpoint no_html (n : node) : Prop :=
  match n with Node k ch =>
  let fix all (l : list node) := match l with [] => True | c :: l => no_html c /\ all l end in
  match k with HtmlBlock _ => False | _ => all ch end end.
