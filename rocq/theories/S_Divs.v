(** Fenced divs as a language of lines, their attributes as a list of items, and custom elements in HTML.
    Nothing of the model is used. *)
From Verif Require Import Base.

Definition spaces (s : str) : Prop := Forall (fun c => isspace c = true) s.
(** No space at the front. *)
Definition tight (s : str) : Prop := forall c r, s = c :: r -> isspace c = false.

(** ** Lines *)
Definition no_eol (l : str) : Prop := ~ In NL l /\ ~ In CR l.
Inductive Lines : str -> list (str * str) -> Prop :=
| L_nil : Lines [] []
| L_line l nl s ls : no_eol l -> nl = [NL] \/ nl = [CR; NL] \/ (nl = [CR] /\ at_ s 0 <> NL) \/ (nl = [] /\ s = [] /\ l <> []) ->
    Lines s ls -> Lines (l ++ nl ++ s) ((l, nl) :: ls).

(** ** Fences *)
(** Spaces, at least three colons, spaces, and [x]. *)
Definition Fence (l x : str) : Prop := exists i k s, l = i ++ repeat ":"%char k ++ s ++ x /\
  spaces i /\ 3 <= k /\ spaces s /\ tight x /\ at_ (s ++ x) 0 <> ":"%char.
(** An opening fence with the text [a]; colons at the end of the line do not belong to it. *)
Definition Opens (l a : str) : Prop := exists s j, Fence l (a ++ s ++ repeat ":"%char j) /\
  spaces s /\ tight (rev a) /\ (s = [] -> at_ (rev a) 0 <> ":"%char) /\ exists c, In c a /\ isspace c = false /\ c <> ":"%char.
Definition Closes (l : str) : Prop := Fence l [].

(** ** Attributes *)
Inductive item := Id (w : str) | Class (w : str) | Pair (k v : str) | Quoted (q : ascii) (k v : str) | Word (w : str).
Definition item_text (t : item) : str :=
  match t with
  | Id w => B "#" ++ w
  | Class w => B "." ++ w
  | Pair k v => k ++ B "=" ++ v
  | Quoted q k v => k ++ B "=" ++ [q] ++ v ++ [q]
  | Word w => w
  end.
Definition without (l s : str) : Prop := Forall (fun c => isspace c = false /\ ~ In c l) s.
Definition good_key (k : str) : Prop := k <> [] /\ without (B "=}") k /\ at_ k 0 <> "#"%char /\ at_ k 0 <> "."%char.
Definition good (t : item) : Prop :=
  match t with
  | Id w => w <> [] /\ without (B ".}") w
  | Class w => w <> [] /\ without (B ".#}") w
  | Pair k v => good_key k /\ without (B "}") v /\ at_ v 0 <> DQ /\ at_ v 0 <> SQ
  | Quoted q k v => good_key k /\ (q = DQ \/ q = SQ) /\ ~ In q v /\ ~ In BS v
  | Word w => good_key w
  end.
Inductive Written : list item -> str -> Prop :=
| W_end s : spaces s -> Written [] s
| W_item s t l r : spaces s -> good t -> (r = [] \/ exists c r', r = c :: r' /\ isspace c = true) -> Written l r -> Written (t :: l) (s ++ item_text t ++ r).
Fixpoint last_id (l : list item) : option str :=
  match l with
  | [] => None
  | Id w :: l => match last_id l with Some x => Some x | None => Some w end
  | _ :: l => last_id l
  end.
Definition classes (l : list item) : list str := flat_map (fun t => match t with Class w => [w] | _ => [] end) l.
Definition attribute (k v : str) : str := B " " ++ k ++ B "=" ++ [DQ] ++ v ++ [DQ].
Fixpoint blank_joined (l : list str) : str := match l with [] => [] | [x] => x | x :: l => x ++ B " " ++ blank_joined l end.
Definition shown (l : list item) : str :=
  (match last_id l with Some i => attribute (B "id") i | None => [] end) ++
  (match classes l with [] => [] | c => attribute (B "class") (blank_joined c) end) ++
  flat_map (fun t => match t with Pair k v | Quoted _ k v => attribute k v | _ => [] end) l.
(** The HTML of the attributes [x] of a fence. *)
Inductive Attributes : str -> str -> Prop :=
| A_none : Attributes [] []
| A_word w r : w <> [] -> without [] w -> at_ w 0 <> "{"%char -> (r = [] \/ exists c r', r = c :: r' /\ isspace c = true) -> tight (rev (w ++ r)) ->
    Attributes (w ++ r) (attribute (B "class") w)
| A_braces l s : Written l s -> (forall i, last_id l = Some i -> length i <> 250) -> Attributes (B "{" ++ s ++ B "}") (shown l).
(** The element of a fence and its attributes. *)
Definition name_byte (c : ascii) : Prop := isalpha c = true \/ isdigit c = true \/ c = "-"%char.
Inductive Element : str -> str -> str -> Prop :=
| E_div a : ~ (at_ a 0 = ">"%char /\ name_byte (at_ a 1)) -> tight a -> Element a (B "div") a
| E_named t s x : t <> [] -> Forall name_byte t -> spaces s -> tight x -> ~ name_byte (at_ (s ++ x) 0) -> Element (B ">" ++ t ++ s ++ x) t x.

(** ** Documents *)
(** The block elements of CommonMark (HTML block, start condition 6) that cmark-gfm knows; case does not matter. *)
Definition block_names : list str := map B
  ["address"; "article"; "aside"; "base"; "basefont"; "blockquote"; "body";
   "caption"; "center"; "col"; "colgroup"; "dd"; "details"; "dialog"; "dir";
   "div"; "dl"; "dt"; "fieldset"; "figcaption"; "figure"; "footer"; "form";
   "frame"; "frameset"; "h1"; "h2"; "h3"; "h4"; "h5"; "h6"; "head"; "header";
   "hr"; "html"; "iframe"; "legend"; "li"; "link"; "main"; "menu"; "menuitem";
   "nav"; "noframes"; "ol"; "optgroup"; "option"; "p"; "param"; "section";
   "source"; "title"; "summary"; "table"; "tbody"; "td"; "tfoot"; "th"; "thead";
   "tr"; "track"; "ul"]%string.
Definition block_name (t : str) : bool := existsb (seq_ (map tolower t)) block_names.
Definition marker : str := B "<div data-apex-fenced-element=" ++ [DQ].
Definition open_html (t h : str) : str := (if block_name t then B "<" ++ t ++ h else marker ++ t ++ [DQ] ++ h) ++ attribute (B "markdown") (B "1") ++ B ">".
Definition close_html (t : str) : str := if block_name t then B "</" ++ t ++ B ">" else B "</div>".
(** The line [l] opens the element [t] with the HTML [h]. *)
Definition Start (l t h : str) : Prop := exists a x, Opens l a /\ Element a t x /\ Attributes x h.
(** Complete blocks; inside of a div a closing fence is no text. *)
Inductive Blocks (inner : bool) : list (str * str) -> str -> Prop :=
| B_nil : Blocks inner [] []
| B_text l nl ls h : (forall a, ~ Opens l a) -> (inner = true -> ~ Closes l) -> Blocks inner ls h -> Blocks inner ((l, nl) :: ls) (l ++ nl ++ h)
| B_div l nl t x b hb l' nl' ls h : Start l t x -> Blocks true b hb -> Closes l' -> Blocks inner ls h ->
    Blocks inner ((l, nl) :: b ++ (l', nl') :: ls) (open_html t x ++ [NL] ++ hb ++ close_html t ++ h).
(** Divs that are open at the end are closed. *)
Inductive Doc (inner : bool) : list (str * str) -> str -> Prop :=
| D_done ls h : Blocks inner ls h -> Doc inner ls h
| D_open u hu l nl t x ls h : Blocks inner u hu -> Start l t x -> Doc true ls h ->
    Doc inner (u ++ (l, nl) :: ls) (hu ++ open_html t x ++ [NL] ++ h ++ close_html t).

(** ** Custom elements in HTML *)
Definition has (x s : str) : Prop := exists a b, s = a ++ x ++ b.
(** Start tags and end tags of div are balanced. *)
Definition div_start (s : str) : Prop := exists c r, s = B "<div" ++ c :: r /\ (c = ">"%char \/ isspace c = true).
Inductive Balanced : str -> Prop :=
| Bal_nil : Balanced []
| Bal_byte c s : ~ div_start (c :: s) -> ~ (exists r, c :: s = B "</div>" ++ r) -> Balanced s -> Balanced (c :: s)
| Bal_div x b s : ~ In ">"%char x -> x = [] \/ (exists c x', x = c :: x' /\ isspace c = true) -> Balanced b -> Balanced s ->
    Balanced (B "<div" ++ x ++ B ">" ++ b ++ B "</div>" ++ s).
(** Every custom element gets its name; [x] are the attributes. *)
Inductive Named : str -> str -> Prop :=
| N_rest s : ~ has marker s -> Named s s
| N_element a t sp x b s o : ~ has marker a -> 0 < length t <= 33 -> ~ In DQ t -> spaces sp -> tight x -> ~ In ">"%char x ->
    Balanced b -> ~ has marker b -> Named s o ->
    Named (a ++ marker ++ t ++ [DQ] ++ sp ++ x ++ B ">" ++ b ++ B "</div>" ++ s)
          (a ++ B "<" ++ t ++ (match x with [] => [] | _ => B " " ++ x end) ++ B ">" ++ b ++ B "</" ++ t ++ B ">" ++ o).
(** The names of custom elements in HTML have at most [n] bytes. *)
Definition names_up_to (n : nat) (html : str) : Prop := forall a t b, html = a ++ marker ++ t ++ [DQ] ++ b -> ~ In DQ t -> length t <= n.
