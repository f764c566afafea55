(** Specification of wiki links.  Of the models only the type of trees and of settings is used. *)
From Verif Require Import Base M_Md M_Wiki.

(** ** Where the links are: the leftmost, each to the next ]]. *)
Definition valid (x : str) : Prop := x <> [] /\ forall a b, x ++ B "]]" = a ++ B "]]" ++ b -> length x <= length a.
Inductive reads : str -> str * list (str * str) -> Prop :=
| Reads_text s : (forall a x b, s = a ++ B "[[" ++ x ++ B "]]" ++ b -> ~ valid x) -> reads s (s, [])
| Reads_link run x rest run2 l : valid x ->
    (forall a y b, run ++ B "[[" ++ x ++ B "]]" ++ rest = a ++ B "[[" ++ y ++ B "]]" ++ b -> valid y -> length run <= length a) ->
    reads rest (run2, l) -> reads (run ++ B "[[" ++ x ++ B "]]" ++ rest) (run, (x, run2) :: l).
(** ** What a link says: page, section, text *)
Definition part (mark : str) (o : option str) : str := match o with Some s => mark ++ s | None => [] end.
Definition says (content page : str) (section display : option str) : Prop :=
  content = page ++ part (B "#") section ++ part (B "|") display /\ ~ In "|"%char page /\ ~ In "#"%char page /\
  forall s, section = Some s -> ~ In "|"%char s.
(** The address: blanks of the page as asked for, the extension with a point, the section. *)
Fixpoint respaced (m : space_mode) (s : str) : str :=
  match s with
  | [] => []
  | c :: s => (if ceq c SP then match m with Dash => B "-" | NoSpace => [] | Underscore => B "_" | Space => B " " end else [c]) ++ respaced m s
  end.
Definition dotted (e : option str) (d : str) : Prop :=
  match e with None | Some [] => d = [] | Some e => (exists x, e = B "." ++ x /\ d = e) \/ (~ (exists x, e = B "." ++ x) /\ d = B "." ++ e) end.
Definition address (cfg : config) (name : str) (section : option str) (url : str) : Prop :=
  exists d, dotted (extension cfg) d /\ url = base_path cfg ++ name ++ d ++ part (B "#") section.

(** ** Cleaned names *)
Definition sep (m : space_mode) (c : ascii) : Prop := match m with Dash => c = "-"%char | NoSpace => False | Underscore => c = "_"%char | Space => c = SP end.
Definition name_char (m : space_mode) (c : ascii) : Prop := islower c = true \/ isdigit c = true \/ c = "/"%char \/ c = "."%char \/ sep m c.
Definition clean (m : space_mode) (s : str) : Prop :=
  Forall (name_char m) s /\
  (forall c x, s = c :: x -> ~ sep m c) /\ (forall c x, s = x ++ [c] -> ~ sep m c) /\
  (forall a b c d, s = a ++ c :: d :: b -> ~ (sep m c /\ sep m d)).
(** How names are spelled in ASCII, without case and accents; code points from U+00C0 to U+00FF are written C3 80 to C3 BF. *)
Definition utf8_2 (p : nat) : str := [ascii_of_nat (192 + p / 64); ascii_of_nat (128 + p mod 64)].
Definition letters_of : list (ascii * list (nat * nat)) :=
  [("a"%char, [(192, 197); (224, 229)]); ("c"%char, [(199, 199); (231, 231)]); ("e"%char, [(200, 203); (232, 235)]); ("i"%char, [(204, 207); (236, 239)]);
   ("d"%char, [(208, 208); (240, 240)]); ("n"%char, [(209, 209); (241, 241)]); ("o"%char, [(210, 214); (216, 216); (242, 246); (248, 248)]);
   ("u"%char, [(217, 220); (249, 252)]); ("y"%char, [(221, 221); (253, 253); (255, 255)])].
Definition accented (p : nat) (c : ascii) : Prop := exists rs lo hi, In (c, rs) letters_of /\ In (lo, hi) rs /\ lo <= p /\ p <= hi.
Inductive spelled : str -> str -> Prop :=
| Spelled_nil : spelled [] []
| Spelled_ascii c s t : nat_of_ascii c < 128 -> spelled s t -> spelled (c :: s) (tolower c :: t)
| Spelled_accent p c s t : accented p c -> spelled s t -> spelled (utf8_2 p ++ s) (c :: t)
| Spelled_ae p s t : p = 198 \/ p = 230 -> spelled s t -> spelled (utf8_2 p ++ s) (B "ae" ++ t)
| Spelled_ss s t : spelled s t -> spelled (utf8_2 223 ++ s) (B "ss" ++ t)
| Spelled_mark p s t : 768 <= p <= 879 -> spelled s t -> spelled (utf8_2 p ++ s) t.

(** ** Trees.  Texts that stand beside each other are one text. *)
Definition text_leaf (n : node) : option str := match n with Node (Text s) [] => Some s | _ => None end.
Fixpoint glue (l : list node) : list node :=
  match l with
  | [] => []
  | n :: l =>
      match text_leaf n with
      | None => n :: glue l
      | Some [] => glue l
      | Some s => match glue l with
          | m :: g => match text_leaf m with Some t => Node (Text (s ++ t)) [] :: g | None => n :: m :: g end
          | [] => [n]
          end
      end
  end.
(** The node of a link. *)
Definition link_to (cfg : config) (name : str -> str -> Prop) (content : str) (n : node) : Prop :=
  exists page section display url named, says content page section display /\ name page named /\ address cfg named section url /\
    n = Node (Link (Some url) None) [Node (Text (match display with Some d => d | None => page end)) []].
Inductive expected (L : str -> node -> Prop) : str * list (str * str) -> list node -> Prop :=
| Expected_end run : expected L (run, []) [Node (Text run) []]
| Expected_link run x n run2 l ns : L x n -> expected L (run2, l) ns -> expected L (run, (x, run2) :: l) (Node (Text run) [] :: n :: ns).
(** A text becomes texts and links; everything else stays, with what it holds changed. *)
Definition is_text (k : kind) : bool := match k with Text _ => true | _ => false end.
Inductive linked (L : str -> node -> Prop) : node -> list node -> Prop :=
| Linked_text s p ns l : reads s p -> expected L p ns -> glue l = glue ns -> linked L (Node (Text s) []) l
| Linked_other k ch ls : is_text k = false -> Forall2 (linked L) ch ls -> linked L (Node k ch) [Node k (concat ls)].
(** Texts have no children, as cmark makes them. *)
Inductive leaves : node -> Prop :=
| Leaves_text s : leaves (Node (Text s) [])
| Leaves_other k ch : is_text k = false -> Forall leaves ch -> leaves (Node k ch).
(** No link within a link; and no [[ in the texts of links. *)
Fixpoint flat_links (inside : bool) (n : node) : Prop :=
  match n with Node k ch =>
  let fix all (b : bool) (l : list node) := match l with [] => True | c :: l => flat_links b c /\ all b l end in
  match k with
  | Link _ _ => inside = false /\ all true ch
  | _ => all inside ch
  end end.
Fixpoint quiet_links (inside : bool) (n : node) : Prop :=
  match n with Node k ch =>
  let fix all (b : bool) (l : list node) := match l with [] => True | c :: l => quiet_links b c /\ all b l end in
  match k with
  | Text s => inside = true -> forall a b, s <> a ++ B "[[" ++ b
  | Link _ _ => all true ch
  | _ => all inside ch
  end end.
