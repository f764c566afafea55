(** Specification of callouts: the families of names of the user guide and of callouts.h, and what
    a callout is.  Of the model only the type of trees is used. *)
From Verif Require Import Base M_Md S_ManHtml.

(** Class of the callout and the names for it. *)
Definition families : list (str * list str) :=
  [(B "note", [B "note"]); (B "abstract", [B "abstract"; B "summary"; B "tldr"]); (B "info", [B "info"]); (B "todo", [B "todo"]);
   (B "tip", [B "tip"; B "hint"; B "important"]); (B "success", [B "success"; B "check"; B "done"]); (B "question", [B "question"; B "help"; B "faq"]);
   (B "warning", [B "warning"; B "caution"; B "attention"]); (B "failure", [B "failure"; B "fail"; B "missing"]); (B "danger", [B "danger"; B "error"]);
   (B "bug", [B "bug"]); (B "example", [B "example"]); (B "quote", [B "quote"; B "cite"])].
(** Equal but for the case of letters. *)
Definition same_word (a b : str) : Prop := map tolower a = map tolower b.
Definition means (name class : str) : Prop := exists names n, In (class, names) families /\ In n names /\ same_word name n.
(** + and - fold the callout; + leaves it open. *)
Inductive folding := Plain | Opened | Closed.
Definition fold_mark (f : folding) : str := match f with Plain => [] | Opened => B "+" | Closed => B "-" end.
Definition blanks (s : str) : Prop := Forall (fun c => c = SP \/ c = TAB) s.
(** The text [!NAME] or [!NAME]+ or [!NAME]- with a title after it. *)
Definition marker (text class : str) (f : folding) (title : str) : Prop :=
  exists name gap, text = B "[!" ++ name ++ B "]" ++ fold_mark f ++ gap ++ title /\ means name class /\
    blanks gap /\ (forall c x, title = c :: x -> c <> SP /\ c <> TAB) /\
    (f = Plain -> gap = [] -> forall c x, title = c :: x -> c <> "+"%char /\ c <> "-"%char).
(** A quote whose first paragraph begins with such a text. *)
Definition callout_quote (n : node) (class : str) (f : folding) (title : str) : Prop :=
  exists text tc ps ch, n = Node Quote (Node Paragraph (Node (Text text) tc :: ps) :: ch) /\ marker text class f title.
(** What must stand around the callout: its tags. *)
Definition frame_tags (class : str) (f : folding) : list str * list str :=
  let q s := [DQ] ++ s ++ [DQ] in
  match f with
  | Plain => ([B "div class=" ++ q (B "callout callout-" ++ class); B "div class=" ++ q (B "callout-title"); B "/div"; B "div class=" ++ q (B "callout-content")], [B "/div"; B "/div"])
  | _ => ([B "details class=" ++ q (B "callout callout-" ++ class) ++ (match f with Opened => B " open" | _ => [] end); B "summary"; B "/summary"; B "div class=" ++ q (B "callout-content")], [B "/div"; B "/details"])
  end.
Definition childs (n : node) : list node := match n with Node _ ch => ch end.
(** No callout in a tree, at any depth. *)
Inductive within : node -> node -> Prop :=
| Within_self n : within n n
| Within_child m n c : In c (childs n) -> within m c -> within m n.
Definition callout_free (n : node) : Prop := forall m class f title, within m n -> ~ callout_quote m class f title.
(** ** What is shown.  Of HTML, what a reader of HTML shows. *)
Definition own (k : kind) : str :=
  match k with
  | Text s | Code s => s
  | CodeBlock _ (Some s) => s
  | Html s | HtmlBlock (Some s) => text_of s
  | _ => []
  end.
Fixpoint out (n : node) : str :=
  match n with Node k ch => own k ++ (fix all (l : list node) := match l with [] => [] | c :: l => out c ++ all l end) ch end.
(** What a document with callouts says: of a callout its title, or its class when there is none, and what it holds,
    in which there may be other callouts. *)
Inductive shows : node -> str -> Prop :=
| Shows_callout text tc ps ch class f title l :
    marker text class f title -> Forall2 shows (ps ++ ch) l ->
    shows (Node Quote (Node Paragraph (Node (Text text) tc :: ps) :: ch)) ((match title with [] => class | _ => title end) ++ concat l)
| Shows_other k ch l :
    (forall class f title, ~ callout_quote (Node k ch) class f title) -> Forall2 shows ch l -> shows (Node k ch) (own k ++ concat l).
(** Each block in its place, the callouts framed by HTML. *)
Inductive framed : node -> list node -> Prop :=
| Framed_callout text tc ps ch class f title before after :
    marker text class f title ->
    framed (Node Quote (Node Paragraph (Node (Text text) tc :: ps) :: ch))
      [Node (HtmlBlock (Some before)) []; Node Quote (Node Paragraph ps :: ch); Node (HtmlBlock (Some after)) []]
| Framed_other k ch ls :
    (forall class f title, ~ callout_quote (Node k ch) class f title) -> Forall2 framed ch ls -> framed (Node k ch) [Node k (concat ls)].
(** The texts of a tree have no line ends (cmark gives them none). *)
Definition one_line_texts (n : node) : Prop := forall s tc, within (Node (Text s) tc) n -> ~ In NL s.
(** No callout within another; titles that fit and are no HTML. *)
Definition orderly (n : node) : Prop := one_line_texts n /\
  forall m class f title, within m n -> callout_quote m class f title ->
    length title <= 900 /\ ~ In "<"%char title /\ ~ In "&"%char title /\ forall c, In c (childs m) -> callout_free c.
