(** Specification for the HTML man page: how HTML is read, what is to be shown, which links are to
    be there.  Of the model only the type of trees is used. *)
From Verif Require Import Base Dec M_Md.

(** ** A reader of HTML: characters, and tags with what stands between < and >. *)
Inductive event := Ch (c : ascii) | Tg (t : str).
Inductive mode := Tx | En (name : str) | In_tag (t : str).
Definition entity_char (name : str) : list event :=
  if seq_ name (B "amp") then [Ch "&"%char] else if seq_ name (B "lt") then [Ch "<"%char]
  else if seq_ name (B "gt") then [Ch ">"%char] else if seq_ name (B "quot") then [Ch DQ]
  else if seq_ name (B "#39") then [Ch SQ] else [].
Definition step (m : mode) (c : ascii) : mode * list event :=
  match m with
  | Tx => if ceq c "<"%char then (In_tag [], []) else if ceq c "&"%char then (En [], []) else (Tx, [Ch c])
  | En a => if ceq c ";"%char then (Tx, entity_char a) else (En (a ++ [c]), [])
  | In_tag a => if ceq c ">"%char then (Tx, [Tg a]) else (In_tag (a ++ [c]), [])
  end.
Fixpoint run (m : mode) (s : str) : mode * list event :=
  match s with
  | [] => (m, [])
  | c :: s => let (m1, e1) := step m c in let (m2, e2) := run m1 s in (m2, e1 ++ e2)
  end.
Definition shown (e : list event) : str := flat_map (fun x => match x with Ch c => [c] | Tg _ => [] end) e.
Definition tags (e : list event) : list str := flat_map (fun x => match x with Ch _ => [] | Tg t => [t] end) e.
(** What is shown of a text and its tags; reading must end outside of tags and entities. *)
Definition complete (s : str) : Prop := fst (run Tx s) = Tx.
Definition text_of (s : str) : str := shown (snd (run Tx s)).
Definition tags_of (s : str) : list str := tags (snd (run Tx s)).

(** ** Nesting *)
Definition tag_name (t : str) : str := fst (span (fun c => negb (ceq c SP)) t).
Definition void (n : str) : bool := existsb (seq_ n) [B "br"; B "hr"; B "meta"; B "link"; B "!DOCTYPE"].
Fixpoint nested (open : list str) (l : list str) : Prop :=
  match l with
  | [] => open = []
  | t :: l =>
      match t with
      | "/"%char :: n => match open with o :: open' => o = n /\ nested open' l | [] => False end
      | _ => if void (tag_name t) then nested open l else nested (tag_name t :: open) l
      end
  end.

(** ** Links: the values of href of the tags a, decoded. *)
Definition href (t : str) : list str :=
  if starts (B "a href=" ++ [DQ]) t then [text_of (removelast (skipn 8 t))] else [].
Definition links (l : list str) : list str := flat_map href l.
Fixpoint addresses (n : node) : list str :=
  match n with Node k ch =>
  let fix all (l : list node) := match l with [] => [] | c :: l => addresses c ++ all l end in
  match k with Link (Some ((_ :: _) as u)) _ => u :: all ch | _ => all ch end end.

(** ** What is to be shown. *)
Definition visible (s : str) : str := filter (fun c => negb (isspace c)) s.
Fixpoint said (n : node) : str :=
  match n with Node k ch =>
  let fix all (l : list node) := match l with [] => [] | c :: l => said c ++ all l end in
  match k with
  | Text s | Code s => s
  | Soft => [SP]
  | Hard => [NL]
  | Html s => s
  | HtmlBlock s => opt s
  | CodeBlock _ s => opt s
  | _ => all ch
  end end.
(** Trees as cmark makes them, without HTML and without types that ast_man.c does not know. *)
Fixpoint page_inline (n : node) : Prop :=
  match n with Node k ch =>
  let fix all (l : list node) := match l with [] => True | c :: l => page_inline c /\ all l end in
  match k with
  | Text _ | Code _ | Soft | Hard => ch = []
  | Emph | Strong | Other | Link _ _ | Image _ _ _ => all ch
  | _ => False
  end end.
Fixpoint page_block (n : node) : Prop :=
  match n with Node k ch =>
  let fix all (l : list node) := match l with [] => True | c :: l => page_block c /\ all l end in
  let fix inls (l : list node) := match l with [] => True | c :: l => page_inline c /\ inls l end in
  match k with
  | Document | Quote | Lst _ _ | Item _ | DefList | DefTerm | DefData | Other => all ch
  | Paragraph | Heading _ => inls ch
  | CodeBlock _ _ | Rule => ch = []
  | _ => False
  end end.
(** No HTML blocks that are definition lists (at the start of the block, after blanks, stands <dl). *)
Fixpoint no_dl (n : node) : Prop :=
  match n with Node k ch =>
  let fix all (l : list node) := match l with [] => True | c :: l => no_dl c /\ all l end in
  match k with
  | HtmlBlock s => forall a b, opt s = a ++ B "<dl" ++ b -> forallb isspace a = false
  | _ => all ch
  end end.

(** ** Sections: the headings of level one. *)
Definition top_headings (l : list node) : list node :=
  filter (fun n => match n with Node (Heading 1) _ => true | _ => false end) l.
(** The ids of the headings of level one in the body, and where the links of the navigation lead. *)
Definition ids (l : list str) : list str :=
  flat_map (fun t => if starts (B "h2 id=" ++ [DQ]) t then [removelast (skipn 7 t)] else []) l.
Definition leads (l : list str) : list str :=
  flat_map (fun t => if starts (B "a href=" ++ [DQ] ++ B "#") t then [removelast (skipn 9 t)] else []) l.
Inductive subseq {A} : list A -> list A -> Prop :=
| subseq_nil l : subseq [] l
| subseq_take x a b : subseq a b -> subseq (x :: a) (x :: b)
| subseq_skip x a b : subseq a b -> subseq a (x :: b).

(** ** Words *)
Definition is_blank (c : ascii) : bool := existsb (ceq c) [SP; TAB; NL; CR].
(** [joined l]: the words of [l] with one space between them. *)
Fixpoint joined (l : list str) : str :=
  match l with [] => [] | [w] => w | w :: l => w ++ [SP] ++ joined l end.
(** [spaced s l]: [s] is the words [l] with at least one blank between two and any around. *)
Inductive spaced : str -> list str -> Prop :=
| spaced_end g : forallb is_blank g = true -> spaced g []
| spaced_word g w s l : forallb is_blank g = true -> w <> [] -> existsb is_blank w = false ->
    (forall c r, s = c :: r -> is_blank c = true) -> spaced s l -> spaced (g ++ w ++ s) (w :: l).
