(** Specification of attribute lists. *)
From Verif Require Import Base.
From Verif Require M_Attr.
Notation attrs := M_Attr.attrs.

(** ** What is written *)
(** [#x], [.x], [k="v"], [k='v'], a value between curly quotes, [k=v], a word with a meaning of its
    own, another word. *)
Inductive item := Id (x : str) | Class (x : str) | Quoted (k : str) (q : ascii) (v : str) | Curly (k o v c : str) | Unquoted (k v : str) | Known (k : str) | Word (k : str).
Definition written (i : item) : str :=
  match i with
  | Id x => B "#" ++ x
  | Class x => B "." ++ x
  | Quoted k q v => k ++ B "=" ++ [q] ++ v ++ [q]
  | Curly k o v c => k ++ B "=" ++ o ++ v ++ c
  | Unquoted k v => k ++ B "=" ++ v
  | Known k | Word k => k
  end.
Definition left_quote : str := ["226"%char; "128"%char; "156"%char].
Definition right_quote : str := ["226"%char; "128"%char; "157"%char].
(** The words with a meaning, and the attributes they stand for. *)
Definition meaning : list (str * str) :=
  [(B "@2x", B "data-srcset-2x"); (B "@3x", B "data-srcset-3x"); (B "webp", B "data-srcset-webp"); (B "avif", B "data-srcset-avif");
   (B "webm", B "data-video-webm"); (B "ogg", B "data-video-ogg"); (B "mp4", B "data-video-mp4"); (B "mov", B "data-video-mov");
   (B "m4v", B "data-video-m4v"); (B "auto", B "data-apex-auto")].
Definition none_of (l : str) (s : str) : Prop := forall c, In c s -> ~ In c l.
Definition no_space (s : str) : Prop := forall c, In c s -> isspace c = false.
Definition name (k : str) : Prop :=
  none_of (B "=}" ++ [SP; TAB]) k /\ forall c r, k = c :: r -> isspace c = false /\ c <> "#"%char /\ c <> "."%char.
Definition proper (i : item) : Prop :=
  match i with
  | Id x => x <> [] /\ no_space x /\ none_of (B ".}") x
  | Class x => x <> [] /\ no_space x /\ none_of (B ".#}") x
  | Quoted k q v => k <> [] /\ name k /\ (q = DQ \/ q = SQ) /\ none_of [q; BS] v
  | Curly k o v c => k <> [] /\ name k /\ (o = left_quote \/ o = right_quote) /\ (c = left_quote \/ c = right_quote) /\ (forall a b, v <> a ++ left_quote ++ b /\ v <> a ++ right_quote ++ b)
  | Unquoted k v => k <> [] /\ name k /\ no_space v /\ none_of (B "}") v /\ (forall r, v <> DQ :: r /\ v <> SQ :: r /\ v <> left_quote ++ r /\ v <> right_quote ++ r)
  | Known k => exists d, In (k, d) meaning
  | Word k => k <> [] /\ name k /\ forall d, ~ In (k, d) meaning
  end.
Definition starts_in (p : ascii -> Prop) (s : str) : Prop := forall c r, s = c :: r -> p c.
(** What may follow. *)
Definition follows (i : item) (r : str) : Prop :=
  match i with
  | Id _ => starts_in (fun c => isspace c = true \/ c = "."%char) r
  | Class _ => starts_in (fun c => isspace c = true \/ c = "."%char \/ c = "#"%char) r
  | Quoted _ _ _ | Curly _ _ _ _ => True
  | Unquoted _ _ => starts_in (fun c => isspace c = true) r
  | Known _ => starts_in (fun c => c = SP \/ c = TAB) r
  | Word _ => starts_in (fun c => c = SP \/ c = TAB) r
  end.
(** A list: every item is followed by white space, which may be absent where it is not needed. *)
Fixpoint list_text (l : list (item * str)) : str :=
  match l with
  | [] => []
  | (i, w) :: l => written i ++ w ++ list_text l
  end.
(** [tail] is what comes behind it. *)
Fixpoint well (tail : str) (l : list (item * str)) : Prop :=
  match l with
  | [] => True
  | (i, w) :: l' => proper i /\ (forall c, In c w -> isspace c = true) /\ follows i (w ++ list_text l' ++ tail) /\
      match i with Word _ => w <> [] | _ => True end /\ well tail l'
  end.
(** What it means: the last identifier, the classes and the attributes in their order. *)
Fixpoint ids (l : list (item * str)) : list str :=
  match l with [] => [] | (Id x, _) :: l => x :: ids l | _ :: l => ids l end.
Fixpoint classes (l : list (item * str)) : list str :=
  match l with [] => [] | (Class x, _) :: l => x :: classes l | _ :: l => classes l end.
Fixpoint pairs (l : list (item * str)) : list (str * str) :=
  match l with
  | [] => []
  | (Quoted k _ v, _) :: l | (Curly k _ v _, _) :: l | (Unquoted k v, _) :: l => (k, v) :: pairs l
  | (Known k, _) :: l => flat_map (fun p => if list_eq_dec ascii_dec (fst p) k then [(snd p, B "1")] else []) meaning ++ pairs l
  | _ :: l => pairs l
  end.
Fixpoint last_of (l : list str) : option str :=
  match l with [] => None | [x] => Some x | _ :: l => last_of l end.

(** ** What is put in a tag *)
(** Attributes, separated by spaces. *)
Fixpoint join (sep : str) (l : list str) : str :=
  match l with [] => [] | [x] => x | x :: l => x ++ sep ++ join sep l end.
Definition attribute (p : str * str) : str := fst p ++ B "=" ++ [DQ] ++ snd p ++ [DQ].
Definition tag_text (l : list (str * str)) : str := join [SP] (map attribute l).
(** The size of an image: a number or a number of pixels is an attribute, everything else a style. *)
Inductive size := Pixels (n : str) | Style (v : str).
Definition digits (s : str) : Prop := forall c, In c s -> isdigit c = true.
Definition size_of (v : str) (z : size) : Prop :=
  match z with
  | Pixels n => digits n /\ (v = n \/ v = n ++ B "px")
  | Style v' => v' = v /\ ~ (exists n, digits n /\ (v = n \/ v = n ++ B "px"))
  end.
Definition size_key (k : str) : Prop := k = B "width" \/ k = B "height".
(** The sizes among the attributes, in their order. *)
Inductive sizes : list (str * str) -> list (str * str) -> list (str * str) -> Prop :=
| sizes_nil : sizes [] [] []
| sizes_other k v l p s : ~ size_key k -> sizes l p s -> sizes ((k, v) :: l) p s
| sizes_pixels k v n l p s : size_key k -> size_of v (Pixels n) -> sizes l p s -> sizes ((k, v) :: l) ((k, n) :: p) s
| sizes_style k v l p s : size_key k -> size_of v (Style v) -> sizes l p s -> sizes ((k, v) :: l) p ((k, v) :: s).
Definition declaration (p : str * str) : str := fst p ++ B ": " ++ snd p.
Definition first_value (k : str) (l : list (str * str)) : option str :=
  match find (fun p => if list_eq_dec ascii_dec (fst p) k then true else false) l with Some p => Some (snd p) | None => None end.
(** The declarations of the style: those of the first style attribute, if not empty, and the sizes. *)
Definition declarations (l s : list (str * str)) : list str :=
  match first_value (B "style") l with Some (c :: v) => [c :: v] | _ => [] end ++ map declaration s.
Definition plain_key (k : str) : bool :=
  if in_dec (list_eq_dec ascii_dec) k ([B "width"; B "height"; B "style"] ++ map snd meaning) then false else true.
Definition style_of (l s : list (str * str)) : list (str * str) :=
  match declarations l s with [] => [] | d => [(B "style", join (B "; ") d)] end.
(** The attributes of the tag. *)
Definition tag_of (id : option str) (cl : list str) (l p s : list (str * str)) : list (str * str) :=
  match id with Some x => [(B "id", x)] | None => [] end ++
  match cl with [] => [] | _ => [(B "class", join [SP] cl)] end ++ p ++
  style_of l s ++
  filter (fun kv => plain_key (fst kv)) l.

(** The buffers are large enough: 512 bytes for the identifier, 1024 for each of the other
    attributes (with the space before it, if it is not the first one), 64 for the digits of a
    number of pixels, 4096 for all. *)
Fixpoint bounded (first : bool) (l : list (str * str)) : Prop :=
  match l with
  | [] => True
  | kv :: l => length (attribute kv) + (if first then 0 else 1) <= 1023 /\ bounded false l
  end.
Definition short_pixels (l : list (str * str)) : Prop :=
  forall k n, In (k, n ++ B "px") l -> size_key k -> digits n -> length n <= 63.
Definition fits (id : option str) (cl : list str) (l p s : list (str * str)) : Prop :=
  (forall x, id = Some x -> length (attribute (B "id", x)) <= 511) /\
  bounded (match id, cl with None, [] => true | _, _ => false end) (p ++ style_of l s ++ filter (fun kv => plain_key (fst kv)) l) /\
  short_pixels l /\ length (tag_text (tag_of id cl l p s)) <= 4095.
(** Nothing is written outside the small buffers: the first style attribute is cut to 1023 bytes
    before the sizes are added. *)
Definition in_buffers (l s : list (str * str)) : Prop :=
  short_pixels l /\
  (s <> [] -> length (join (B "; ") (match first_value (B "style") l with Some (c :: v) => [firstn 1023 (c :: v)] | _ => [] end ++ map declaration s)) <= 1023).

(** ** Definitions *)
(** {:name: content} at the beginning of a line *)
Definition definition (line nm content rest : str) : Prop :=
  exists w, line = w ++ B "{:" ++ nm ++ B ":" ++ content ++ B "}" ++ rest /\
  (forall c, In c w -> isspace c = true) /\ nm <> [] /\ none_of (B ":}") nm /\ none_of (B "}") content.
(** The lines of a text, the last one without the line feed. *)
Definition lines_text (l : list str) (last_line : str) : str := concat (map (fun x => x ++ [NL]) l) ++ last_line.
(** What the definitions are and which lines remain; [reads]: how attributes are read. *)
Inductive kept (reads : str -> attrs -> Prop) : list str -> list (str * attrs) -> list str -> Prop :=
| kept_nil : kept reads [] [] []
| kept_def x nm content rest a l ds t : definition x nm content rest -> reads content a -> kept reads l ds t -> kept reads (x :: l) ((nm, a) :: ds) t
| kept_line x l ds t : (forall nm content rest, ~ definition x nm content rest) -> kept reads l ds t -> kept reads (x :: l) ds (x :: t).
(** The last value of an attribute. *)
Fixpoint last_value (k : str) (l : list (str * str)) : option str :=
  match l with
  | [] => None
  | (k', v) :: l => match last_value k l with Some x => Some x | None => if list_eq_dec ascii_dec k' k then Some v else None end
  end.
