(** What the properties of the buffer, the UTF-8 check, the renderer and the
    minimal parser say. *)
From Verif Require Import Base M_Core.

(** ** C22: a buffer is a string, or nothing once it was given away *)
Definition on_string (o : bop) (x : option (list ascii)) : option (option (list ascii)) :=
  match o, x with
  | Init _, _ => Some (Some [])
  | Clear, Some _ => Some (Some [])
  | Clear, None => Some None
  | Append s, Some t => Some (Some (t ++ s))
  | Append [], None => Some None
  | Append _, None => None       (* no string to append to *)
  | (Free | Detach), _ => Some None
  end.
Fixpoint on_strings (os : list bop) (x : option (list ascii)) : option (option (list ascii)) :=
  match os with
  | [] => Some x
  | o :: os' => match on_string o x with Some y => on_strings os' y | None => None end
  end.
(** The block holds the string and its terminator. *)
Definition holds (b : buf) (x : option (list ascii)) : Prop :=
  match x with
  | Some t => exists m, b_data b = Some m /\ length m = b_cap b /\ b_size b = length t /\
                        firstn (length t) m = map Some t /\ nth (length t) m None = Some NUL
  | None => b_data b = None /\ b_size b = 0 /\ b_cap b = 0
  end.

(** ** C23 *)
Definition cont (c : ascii) : Prop := (128 <= code c <= 191)%N.
Definition from_to (lo hi : N) (c : ascii) : Prop := (lo <= code c <= hi)%N.
(** Lead byte and as many continuation bytes as it announces. *)
Inductive framed : list ascii -> Prop :=
| F1 c : from_to 0 127 c -> framed [c]
| F2 c d : from_to 192 223 c -> cont d -> framed [c; d]
| F3 c d e : from_to 224 239 c -> cont d -> cont e -> framed [c; d; e]
| F4 c d e f : from_to 240 247 c -> cont d -> cont e -> cont f -> framed [c; d; e; f].
(** The Unicode standard, table 3-7. *)
Inductive wellformed : list ascii -> Prop :=
| W1 c : from_to 0 127 c -> wellformed [c]
| W2 c d : from_to 194 223 c -> cont d -> wellformed [c; d]
| W3 d e : from_to 160 191 d -> cont e -> wellformed ["224"%char; d; e]
| W4 c d e : from_to 225 236 c \/ from_to 238 239 c -> cont d -> cont e -> wellformed [c; d; e]
| W5 d e : from_to 128 159 d -> cont e -> wellformed ["237"%char; d; e]
| W6 d e f : from_to 144 191 d -> cont e -> cont f -> wellformed ["240"%char; d; e; f]
| W7 c d e f : from_to 241 243 c -> cont d -> cont e -> cont f -> wellformed [c; d; e; f]
| W8 d e f : from_to 128 143 d -> cont e -> cont f -> wellformed ["244"%char; d; e; f].

(** ** C24, C65: reading HTML *)
Definition refs : list (list ascii * ascii) :=
  [(B "&lt;", "<"%char); (B "&gt;", ">"%char); (B "&amp;", "&"%char); (B "&quot;", DQ)].
(** Text: character references and other bytes. *)
Inductive reads : list ascii -> list ascii -> Prop :=
| R_end : reads [] []
| R_ref e c s t : In (e, c) refs -> reads s t -> reads (e ++ s) (c :: t)
| R_byte c s t : ~ In c (B "<>&""") -> reads s t -> reads (c :: s) (c :: t).

(** A document: characters, elements, empty elements. *)
Inductive dom := Ch (c : ascii) | El (name : list ascii) (attrs : list (list ascii * list ascii)) (body : list dom)
| Vd (name : list ascii) (attrs : list (list ascii * list ascii)).
Definition name_ok (n : list ascii) : Prop := n <> [] /\ forallb isalnum n = true.
(** [value s v r]: [s] is an attribute value [v], its closing quote and [r]. *)
Inductive value : list ascii -> list ascii -> list ascii -> Prop :=
| V_end r : value (DQ :: r) [] r
| V_ref e c s v r : In (e, c) refs -> value s v r -> value (e ++ s) (c :: v) r
| V_byte c s v r : c <> DQ -> c <> "&"%char -> value s v r -> value (c :: s) (c :: v) r.
Inductive attributes : list ascii -> list (list ascii * list ascii) -> list ascii -> Prop :=
| A_end r : (exists q, r = ">"%char :: q \/ r = B " />" ++ q) -> attributes r [] r
| A_one n s v s' l r : name_ok n -> value s v s' -> attributes s' l r ->
    attributes (SP :: n ++ B "=""" ++ s) ((n, v) :: l) r.
(** [html s f r]: [s] reads as the items [f] up to [r], which is empty or a closing tag. *)
Inductive html : list ascii -> list dom -> list ascii -> Prop :=
| H_end : html [] [] []
| H_close s : html (B "</" ++ s) [] (B "</" ++ s)
| H_ref e c s f r : In (e, c) refs -> html s f r -> html (e ++ s) (Ch c :: f) r
| H_byte c s f r : c <> "<"%char -> c <> "&"%char -> html s f r -> html (c :: s) (Ch c :: f) r
| H_void n s l s1 f r : name_ok n -> attributes s l (B " />" ++ s1) -> html s1 f r -> html ("<"%char :: n ++ s) (Vd n l :: f) r
| H_elem n s l s1 b s2 f r : name_ok n -> attributes s l (">"%char :: s1) -> html s1 b (B "</" ++ n ++ ">"%char :: s2) ->
    html s2 f r -> html ("<"%char :: n ++ s) (El n l b :: f) r.

(** The document a tree stands for. *)
Definition chars (s : list ascii) : list dom := map Ch s.
Definition given (l : option (list ascii)) : list ascii := match l with Some s => s | None => [] end.
Definition titled (v : option (list ascii)) : list (list ascii * list ascii) :=
  match v with Some t => [(B "title", t)] | None => [] end.
Fixpoint drop_while (f : ascii -> bool) (s : list ascii) : list ascii :=
  match s with c :: s' => if f c then drop_while f s' else s | [] => [] end.
Definition trim (f : ascii -> bool) (s : list ascii) : list ascii := rev (drop_while f (rev s)).
Fixpoint first_word (s : list ascii) : list ascii :=
  match s with c :: s' => if ceq c SP then [] else c :: first_word s' | [] => [] end.
Fixpoint shape (o : breaks) (n : node) : list dom :=
  match n with
  | Node k lit cs =>
      let inner := flat_map (shape o) cs in
      match k with
      | Document => inner
      | Heading l => [El ("h"%char :: B (nth l ["0"; "1"; "2"; "3"; "4"; "5"; "6"]%string ""%string)) [] (chars (trim (fun c => ceq c SP || ceq c NL || ceq c CR) (given lit))); Ch NL]
      | Paragraph => [El (B "p") [] (chars (trim (fun c => ceq c NL || ceq c CR) (given lit))); Ch NL]
      | CodeBlock i =>
          [El (B "pre") [] [El (B "code") (match i with Some s => [(B "class", B "language-" ++ first_word s)] | None => [] end) (chars (given lit))]; Ch NL]
      | Rule => [Vd (B "hr") []; Ch NL]
      | Quote => [El (B "blockquote") [] (Ch NL :: inner); Ch NL]
      | Listing => [El (B "ul") [] (Ch NL :: inner); Ch NL]
      | Item => [El (B "li") [] inner; Ch NL]
      | Text => chars (given lit)
      | Emph => [El (B "em") [] inner]
      | Strong => [El (B "strong") [] inner]
      | Code => [El (B "code") [] (chars (given lit))]
      | Link u t => [El (B "a") ((B "href", given u) :: titled t) inner]
      | Image u t => [Vd (B "img") ((B "src", given u) :: (B "alt", given lit) :: titled t)]
      | LineBreak => [Vd (B "br") []; Ch NL]
      | SoftBreak => if hard o then [Vd (B "br") []; Ch NL] else if none o then [Ch SP] else [Ch NL]
      | Other => []
      end
  end.
(** Heading levels are 1 to 6 throughout. *)
Inductive proper : node -> Prop :=
| Proper k l cs : match k with Heading n => 1 <= n <= 6 | _ => True end -> Forall proper cs -> proper (Node k l cs).

(** ** C66: documents of the minimal parser *)
Inductive part :=
| PHead (level : nat) (text : list ascii)
| PFence (info code tail : list ascii)
| PPara (text : list ascii).
Definition no_nl (s : list ascii) : Prop := ~ In NL s.
Definition FENCE : list ascii := [BT; BT; BT].
Definition write_part (p : part) : list ascii :=
  match p with
  | PHead n t => repeat "#"%char n ++ SP :: t
  | PFence i c t => FENCE ++ i ++ NL :: c ++ FENCE ++ t
  | PPara t => t
  end.
(** [f] does not occur in [c ++ f] before the end. *)
Definition first_at (f c : list ascii) : Prop := forall a b, c ++ f = a ++ f ++ b -> b = [].
Definition ends_or_nl (r : list ascii) : Prop := r = [] \/ exists q, r = NL :: q.
Definition part_ok (p : part) (rest : list ascii) : Prop :=
  match p with
  | PHead n t => 1 <= n <= 6 /\ no_nl t /\ ends_or_nl rest
  | PFence i c t => no_nl i /\ no_nl t /\ first_at FENCE c /\ ends_or_nl rest
  | PPara t =>
      (exists c t', t = c :: t' /\ c <> NL /\ c <> CR) /\
      (forall n q, 1 <= n <= 6 -> t ++ rest <> repeat "#"%char n ++ SP :: q) /\
      (forall q, t ++ rest <> FENCE ++ q) /\
      (forall a b, t <> a ++ [NL; NL] ++ b) /\
      (rest = [] \/ ((exists q, rest = [NL; NL] ++ q) /\ forall a, t <> a ++ [NL]))
  end.
Definition newlines (g : list ascii) : Prop := Forall (fun c => c = NL \/ c = CR) g.
(** Parts with line ends in front of each, and line ends at the end. *)
Fixpoint write_parts (l : list (list ascii * part)) (g : list ascii) : list ascii :=
  match l with
  | [] => g
  | (h, p) :: l' => h ++ write_part p ++ write_parts l' g
  end.
Fixpoint parts_ok (l : list (list ascii * part)) (g : list ascii) : Prop :=
  match l with
  | [] => True
  | (h, p) :: l' => newlines h /\ part_ok p (write_parts l' g) /\ parts_ok l' g
  end.
Definition part_node (p : part) : node :=
  match p with
  | PHead n t => Node (Heading n) (Some t) []
  | PFence i c _ => Node (CodeBlock (match i with [] => None | _ => Some i end)) (Some c) []
  | PPara t => Node Paragraph (Some t) []
  end.
(** A code fence that is never closed: one line, or a line and a text without a fence. *)
Definition unclosed (s : list ascii) : Prop :=
  exists i c, no_nl i /\ (forall a b, c <> a ++ FENCE ++ b) /\ (s = FENCE ++ i \/ s = FENCE ++ i ++ NL :: c).
