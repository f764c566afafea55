(** Model of src/ast_markdown.c, all of it: a document is written as Markdown.  Allocation never
    fails, so that the buffer (14-50) holds what was appended.  [mmd]: the dialect is
    APEX_MD_DIALECT_MMD (the only one that is asked for).  indent_level is passed on but never
    used.  Strings that cmark may give as null pointers are options. *)
From Verif Require Import Base Dec.

(** Nodes as cmark gives them.  [Other]: any type that ast_markdown.c does not know (tables and
    their parts, strikethrough, footnotes, ...); [Html]: CMARK_NODE_HTML_INLINE, which it does not
    know either; [DefList], [DefTerm], [DefData]: definition lists (only ast_man.c knows them).
    The index of an item is the one of cmark_node_get_item_index. *)
Inductive kind :=
| Document | Paragraph | Heading (level : nat) | CodeBlock (info literal : option str) | Quote | Lst (ordered : bool) (start : nat) | Item (index : nat)
| Rule | HtmlBlock (literal : option str) | Text (literal : str) | Soft | Hard | Code (literal : str) | Emph | Strong
| Link (url title : option str) | Image (literal url title : option str) | Html (literal : str)
| DefList | DefTerm | DefData | Other.
Inductive node := Node (k : kind) (children : list node).
Definition kind_of (n : node) : kind := match n with Node k _ => k end.

Definition opt (s : option str) : str := match s with Some x => x | None => [] end.
(** 58-93 *)
Definition escaped (mmd : bool) (c : ascii) : bool :=
  existsb (ceq c) (B "\`*_[]()#+.!") || (negb mmd && existsb (ceq c) (B "{}-")).
(** 54-98 *)
Definition escape (mmd : bool) (s : str) : str := flat_map (fun c => if escaped mmd c then [BS; c] else [c]) s.
(** 108-135 *)
Definition text_md (mmd : bool) (s : str) : str :=
  match (if mmd then strstr (B "{{TOC") s else None) with
  | Some k =>
      match strstr (B "}}") (skipn k s) with
      | Some e => escape mmd (firstn k s) ++ B "{{TOC}}" ++ escape mmd (skipn (e + 2) (skipn k s))
      | None => escape mmd (firstn k s) ++ escape mmd s
      end
  | None => escape mmd s
  end.
(** 177-184, 193-200 *)
Definition target (url title : option str) : str :=
  opt url ++ match title with Some t => B " " ++ [DQ] ++ t ++ [DQ] | None => [] end.
(** 101-211 *)
Fixpoint inl (mmd : bool) (n : node) : str :=
  match n with Node k ch =>
  let fix all (l : list node) := match l with [] => [] | c :: l => inl mmd c ++ all l end in
  let fix but_links (l : list node) :=
    match l with
    | [] => []
    | c :: l => match kind_of c with Link _ _ => [] | _ => inl mmd c end ++ but_links l
    end in
  match k with
  | Text s => text_md mmd s
  | Soft => [NL]
  | Hard => B "  " ++ [NL]
  | Code s => B "`" ++ s ++ B "`"
  | Emph => B "*" ++ all ch ++ B "*"
  | Strong => B "**" ++ all ch ++ B "**"
  | Link url title => B "[" ++ but_links ch ++ B "](" ++ target url title ++ B ")"
  | Image literal url title => B "![" ++ opt literal ++ B "](" ++ target url title ++ B ")"
  | _ => all ch
  end end.
Definition inls (mmd : bool) (l : list node) : str := concat (map (inl mmd) l).
(** 232-245 *)
Definition toc_paragraph (mmd : bool) (ch : list node) : bool :=
  match ch with [Node (Text s) _] => mmd && starts (B "{{TOC") s | _ => false end.
(** 284-305: the content of a paragraph in a quotation *)
Fixpoint quoted (mmd first : bool) (l : list node) : str :=
  match l with
  | [] => []
  | c :: l =>
      match kind_of c with
      | Soft => [NL] ++ B "> " ++ quoted mmd false l
      | _ => (if first then B "> " else []) ++ inl mmd c ++ quoted mmd false l
      end
  end.
(** 319-322 *)
Definition chop (s : str) : str := match rev s with c :: r => if ceq c NL then rev r else s | [] => s end.
(** 214-386 *)
Fixpoint blk (mmd : bool) (n : node) : str :=
  match n with Node k ch =>
  let fix all (l : list node) := match l with [] => [] | c :: l => blk mmd c ++ all l end in
  let fix document (l : list node) :=
    match l with
    | [] => []
    | c :: l => blk mmd c ++ match kind_of c with Lst _ _ | Item _ => [] | _ => [NL] end ++ document l
    end in
  let fix quote (l : list node) :=
    match l with
    | [] => []
    | c :: l =>
        let more := match l with [] => false | _ => true end in
        match c with
        | Node Paragraph pch => quoted mmd true pch ++ (if more then [NL] else [NL; NL])
        | _ => let s := B "> " ++ blk mmd c in if more then chop s ++ [NL] else s
        end ++ quote l
    end in
  let fix items (ordered : bool) (i : nat) (l : list node) :=
    match l with
    | [] => []
    | c :: l => (if ordered then dec i ++ B ". " else B "- ") ++ blk mmd c ++ items ordered (S i) l
    end in
  match k with
  | Document => document ch
  | Paragraph => if toc_paragraph mmd ch then B "{{TOC}}" ++ [NL; NL] else inls mmd ch ++ [NL; NL]
  | Heading level => repeat "#"%char level ++ B " " ++ inls mmd ch ++ [NL; NL]
  | CodeBlock info literal => B "```" ++ opt info ++ [NL] ++ opt literal ++ [NL] ++ B "```" ++ [NL; NL]
  | Quote => quote ch
  | Lst ordered start => items ordered start ch ++ [NL]
  | Rule => B "---" ++ [NL; NL]
  | HtmlBlock literal =>
      match literal with
      | Some s =>
          if mmd && match strstr (B "<!--TOC") s with Some _ => true | None => false end then B "{{TOC}}" ++ [NL; NL]
          else s ++ [NL; NL]
      | None => []
      end
  | _ => all ch
  end end.
(** 388-409 *)
Definition to_markdown (mmd : bool) (doc : node) : option str :=
  match kind_of doc with Document => Some (blk mmd doc) | _ => None end.
