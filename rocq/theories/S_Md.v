(** Specification for the Markdown output, independent of how it is written.  The tree is the
    one of [M_Md]; of the rest of the model nothing is used. *)
From Verif Require Import Base Dec M_Md.

(** ** What a document says.  Letters and all bytes outside ASCII are never markup of the
    writer's own. *)
Definition word (c : ascii) : bool := isalpha c || (128 <=? code c)%N.
Definition words (s : str) : str := filter word s.
(** The text of a document, in order: for a link or a picture the text, the address, the title. *)
Fixpoint says (n : node) : str :=
  match n with Node k ch =>
  let fix all (l : list node) := match l with [] => [] | c :: l => says c ++ all l end in
  match k with
  | Text s | Code s | Html s => s
  | HtmlBlock s => opt s
  | CodeBlock i s => opt i ++ opt s
  | Link u t => all ch ++ opt u ++ opt t
  | Image _ u t => all ch ++ opt u ++ opt t
  | _ => all ch
  end end.
(** Trees as cmark builds them from what ast_markdown.c knows: *)
Definition is_link (n : node) : bool := match kind_of n with Link _ _ => true | _ => false end.
Fixpoint inline_tree (n : node) : Prop :=
  match n with Node k ch =>
  let fix all (l : list node) := match l with [] => True | c :: l => inline_tree c /\ all l end in
  match k with
  | Text _ | Soft | Hard | Code _ => ch = []
  | Emph | Strong | Other => all ch
  | Link _ _ => all ch /\ forallb (fun c => negb (is_link c)) ch = true
  | Image literal _ _ => ch = [] /\ literal = None
  | _ => False
  end end.
Fixpoint block_tree (n : node) : Prop :=
  match n with Node k ch =>
  let fix all (l : list node) := match l with [] => True | c :: l => block_tree c /\ all l end in
  let fix inlines (l : list node) := match l with [] => True | c :: l => inline_tree c /\ inlines l end in
  match k with
  | Document | Quote | Lst _ _ | Item _ | DefList | DefTerm | DefData | Other => all ch
  | Paragraph | Heading _ => inlines ch
  | CodeBlock _ _ | HtmlBlock _ | Rule => ch = []
  | _ => False
  end end.
(** No table-of-contents marker anywhere. *)
Fixpoint markerless (n : node) : Prop :=
  match n with Node k ch =>
  let fix all (l : list node) := match l with [] => True | c :: l => markerless c /\ all l end in
  match k with
  | Text s => forall a b, s <> a ++ B "{{TOC" ++ b
  | HtmlBlock (Some s) => forall a b, s <> a ++ B "<!--TOC" ++ b
  | _ => True
  end /\ all ch end.

(** ** How Markdown reads a text: a backslash before a punctuation mark stands for the mark. *)
Definition punctuation (c : ascii) : bool :=
  (33 <=? code c)%N && (code c <=? 47)%N || (58 <=? code c)%N && (code c <=? 64)%N
  || (91 <=? code c)%N && (code c <=? 96)%N || (123 <=? code c)%N && (code c <=? 126)%N.
(** Each character as it is read, and whether a backslash protects it. *)
Fixpoint reading (s : str) : list (ascii * bool) :=
  match s with
  | [] => []
  | c :: ((d :: r) as rest) => if ceq c BS && punctuation d then (d, true) :: reading r else (c, false) :: reading rest
  | [c] => [(c, false)]
  end.
Definition read (s : str) : str := map fst (reading s).
(** A text is safe when no unprotected character of it can begin markup. *)
Definition active (c : ascii) : bool := existsb (ceq c) (B "\`*_[]<&").
Definition safe (s : str) : Prop := forall c, In (c, false) (reading s) -> active c = false.

(** ** How Markdown reads a code span (CommonMark 6.1): after n backticks up to the next run of
    exactly n; line ends become spaces; one space is taken off at either end when there is
    one at both and the span is not all spaces. *)
Definition tick (c : ascii) : bool := ceq c BT.
Definition run_length (s : str) : nat := length (fst (span tick s)).
Fixpoint until_run (n : nat) (inside : bool) (s : str) : option (str * str) :=
  match s with
  | [] => None
  | c :: r =>
      if tick c && negb inside && (run_length s =? n) then Some ([], skipn n s)
      else match until_run n (tick c) r with Some (y, z) => Some (c :: y, z) | None => None end
  end.
Definition spaces (s : str) : bool := forallb (ceq SP) s.
Definition unpad (s : str) : str :=
  let t := map (fun c => if ceq c NL then SP else c) s in
  match t, rev t with
  | a :: _, b :: _ => if ceq a SP && ceq b SP && negb (spaces t) then removelast (tl t) else t
  | _, _ => t
  end.
Definition read_code (s : str) : option (str * str) :=
  let n := run_length s in
  if n =? 0 then None
  else match until_run n false (skipn n s) with Some (y, z) => Some (unpad y, z) | None => None end.

(** ** How Markdown reads a fenced code block (CommonMark 4.5): the line of the opening fence with
    the info string, then lines up to the first that is a closing fence. *)
Definition closing (l : str) : Prop :=
  exists i n j, l = repeat SP i ++ repeat BT n ++ repeat SP j /\ i <= 3 /\ 3 <= n.
Definition lines (ls : list str) : str := flat_map (fun l => l ++ [NL]) ls.
Definition one_line (l : str) : Prop := ~ In NL l.
(** [s] begins with a fenced block of info string [info] and content [content]; [rest] follows. *)
Definition fenced (s info content rest : str) : Prop :=
  exists ls e, s = repeat BT 3 ++ info ++ [NL] ++ lines ls ++ e ++ [NL] ++ rest
    /\ content = lines ls /\ ~ In BT info /\ one_line info
    /\ Forall (fun l => one_line l /\ ~ closing l) ls /\ one_line e /\ closing e.

(** ** Lines of a quotation: every line is empty or begins with [>]. *)
Definition quoted_line (l : str) : Prop := l = [] \/ exists r, l = ">"%char :: r.
Definition all_quoted (s : str) : Prop := forall ls e, s = lines ls ++ e -> Forall one_line ls -> one_line e -> Forall quoted_line ls /\ quoted_line e.

(** A node that is written on one line. *)
Fixpoint no_break (n : node) : Prop :=
  match n with Node k ch =>
  let fix all (l : list node) := match l with [] => True | c :: l => no_break c /\ all l end in
  match k with
  | Text s | Code s => one_line s
  | Soft | Hard => False
  | Link u t => one_line (opt u) /\ one_line (opt t) /\ all ch
  | Image x u t => one_line (opt x) /\ one_line (opt u) /\ one_line (opt t)
  | _ => all ch
  end end.

(** ** A list of one-paragraph items. *)
Fixpoint numbered (i : nat) (l : list str) : str :=
  match l with [] => [] | x :: l => dec i ++ B ". " ++ x ++ [NL; NL] ++ numbered (S i) l end.
Definition bulleted (l : list str) : str := flat_map (fun x => B "- " ++ x ++ [NL; NL]) l.

(** ** How Markdown reads the part of a link after [](] (CommonMark 6.3): the address up to a space
    or the unbalanced closing parenthesis; a title in double quotes, with backslash escapes. *)
Fixpoint read_address (depth : nat) (s : str) : str * str :=
  match s with
  | [] => ([], [])
  | c :: r =>
      if isspace c || (ceq c ")"%char && (depth =? 0)) then ([], s)
      else
        let d := if ceq c "("%char then S depth else if ceq c ")"%char then depth - 1 else depth in
        let (x, y) := read_address d r in (c :: x, y)
  end.
Fixpoint read_title (s : str) : option (str * str) :=
  match s with
  | [] => None
  | c :: r =>
      if ceq c DQ then Some ([], r)
      else if ceq c BS then None   (* escapes: outside what is proved *)
      else match read_title r with Some (x, y) => Some (c :: x, y) | None => None end
  end.
(** Address, title (empty when there is none), what follows the closing parenthesis. *)
Definition read_target (s : str) : option (str * str * str) :=
  let (u, r) := read_address 0 s in
  match snd (span isspace r) with
  | c :: r' =>
      if ceq c ")"%char then Some (u, [], r')
      else if ceq c DQ then
        match read_title r' with
        | Some (t, r'') =>
            match snd (span isspace r'') with
            | d :: r3 => if ceq d ")"%char then Some (u, t, r3) else None
            | [] => None
            end
        | None => None
        end
      else None
  | [] => None
  end.
Definition address_ok (u : str) : Prop := Forall (fun c => isspace c = false /\ c <> "("%char /\ c <> ")"%char) u.

(** ** How Markdown reads a heading (CommonMark 4.2): one line, as many # as the level, a space. *)
Definition read_heading (s : str) : option (nat * str * str) :=
  let (h, r) := span (ceq "#"%char) s in
  match r with
  | c :: r => if ceq c SP && (1 <=? length h) && (length h <=? 6) then
                let (x, y) := span (fun c => negb (ceq c NL)) r in Some (length h, x, y) else None
  | [] => None
  end.

(** ** Content of a list item: its lines after the first are empty or indented. *)
Definition indented_rest (s : str) : Prop :=
  forall l ls e, s = l ++ [NL] ++ lines ls ++ e -> one_line l -> Forall one_line ls -> one_line e ->
    Forall (fun x => x = [] \/ exists r, x = SP :: r) (ls ++ [e]).
