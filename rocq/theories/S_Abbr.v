(** Specification of abbreviations: which parts of a text are definitions, and what
    the HTML looks like with every abbreviation marked up. *)
From Verif Require Import Base.

(** White space at the ends of a string. *)
Definition white (s : list ascii) : Prop := Forall (fun c => isspace c = true) s.
Definition bare (s : list ascii) : Prop :=
  (forall c r, s = c :: r -> isspace c = false) /\ (forall r c, s = r ++ [c] -> isspace c = false).
(** [t] is [s] without it. *)
Definition trims (s t : list ascii) : Prop :=
  bare t /\ exists a b, s = a ++ t ++ b /\ white a /\ white b.

(** ** Inline definitions *)

(** A text with [[>(abbreviation) expansion]] in it, read from the left. *)
Inductive piece := Char (c : ascii) | Inline (a : list ascii) (gap : nat) (e : list ascii).
Definition write_piece (p : piece) : list ascii :=
  match p with
  | Char c => [c]
  | Inline a gap e => B "[>(" ++ a ++ B ")" ++ repeat SP gap ++ e ++ B "]"
  end.
Definition write_pieces (l : list piece) : list ascii := concat (map write_piece l).
Definition inline_ok (p : piece) : Prop :=
  match p with
  | Char _ => False
  | Inline a _ e =>
      ~ In ")"%char a /\ ~ In "]"%char e /\ (forall r, e <> SP :: r) /\
      0 < length a < 256 /\ 0 < length e < 1024
  end.
Fixpoint pieces_ok (l : list piece) : Prop :=
  match l with
  | [] => True
  | Char c :: r => (forall p t, inline_ok p -> c :: write_pieces r <> write_piece p ++ t) /\ pieces_ok r
  | p :: r => inline_ok p /\ pieces_ok r
  end.
(** The text without the definitions: the abbreviation stays. *)
Definition said (p : piece) : list ascii := match p with Char c => [c] | Inline a _ _ => a end.
Definition spoken (l : list piece) : list ascii := concat (map said l).

(** The pairs defined, the last one first. *)
Inductive defines_all : list piece -> list (list ascii * list ascii) -> Prop :=
| da_nil : defines_all [] []
| da_char c l d : defines_all l d -> defines_all (Char c :: l) d
| da_inline a g e l d a' e' : defines_all l d -> trims a a' -> trims e e' ->
    defines_all (Inline a g e :: l) (d ++ [(a', e')]).

(** The abbreviation as it stands in the text has no white space behind it. *)
Definition tidy (p : piece) : Prop :=
  match p with Char _ => True | Inline a _ _ => white a \/ forall r c, a = r ++ [c] -> isspace c = false end.

(** ** Lines with definitions *)

(** A text as lines: content and whether a line feed follows (only the last line can
    lack one, and then it is not empty). *)
Definition write_line (l : list ascii * bool) : list ascii := fst l ++ if snd l then [NL] else [].
Definition write_lines (ls : list (list ascii * bool)) : list ascii := concat (map write_line ls).
Fixpoint lines_ok (ls : list (list ascii * bool)) : Prop :=
  match ls with
  | [] => True
  | (l, n) :: r => ~ In NL l /\ (n = false -> l <> [] /\ r = []) /\ lines_ok r
  end.

(** [*[abbreviation]: expansion] or [[>abbreviation]: expansion]. *)
Inductive is_definition : list ascii -> list ascii -> list ascii -> Prop :=
| def_star a e : ~ In "]"%char a -> is_definition (B "*[" ++ a ++ B "]:" ++ e) a e
| def_angle a e : ~ In "]"%char a -> is_definition (B "[>" ++ a ++ B "]:" ++ e) a e.

(** The lines kept and the pairs defined. *)
Inductive sorted : list (list ascii * bool) -> list (list ascii * bool) -> list (list ascii * list ascii) -> Prop :=
| so_nil : sorted [] [] []
| so_kept l n ls k d : (forall a e, ~ is_definition l a e) -> sorted ls k d ->
    sorted ((l, n) :: ls) ((l, n) :: k) d
| so_def l n ls k d a e a' e' : is_definition l a e -> trims a a' -> trims e e' ->
    a' <> [] -> e' <> [] -> sorted ls k d -> sorted ((l, n) :: ls) k ((a', e') :: d)
| so_empty l n ls k d a e a' e' : is_definition l a e -> trims a a' -> trims e e' ->
    a' = [] \/ e' = [] -> sorted ls k d -> sorted ((l, n) :: ls) k d.

(** ** Marking up *)

Definition tag (a e : list ascii) : list ascii :=
  B "<abbr title=" ++ [DQ] ++ e ++ [DQ] ++ B ">" ++ a ++ B "</abbr>".

Definition in_brackets (s : list ascii) : Prop :=
  ~ In "]"%char s /\ ~ In NL s /\ ~ In "<"%char s.
(** [[&gt;(a)e]] *)
Definition explicit (a e : list ascii) : list ascii := B "[&gt;(" ++ a ++ B ")" ++ e ++ B "]".
Definition explicit_ok (a e : list ascii) : Prop :=
  a <> [] /\ e <> [] /\ ~ In ")"%char a /\ in_brackets a /\ in_brackets e.
(** [[&gt;r]] for a pair of the list, the first with that abbreviation. *)
Definition reference (r : list ascii) : list ascii := B "[&gt;" ++ r ++ B "]".
Definition first_pair (items : list (list ascii * list ascii)) (a e : list ascii) : Prop :=
  exists l r, items = l ++ (a, e) :: r /\ forall e', ~ In (a, e') l.
Definition reference_ok (items : list (list ascii * list ascii)) (r a e : list ascii) : Prop :=
  0 < length r < 256 /\ in_brackets r /\ (forall t, r <> "("%char :: t) /\ trims r a /\
  first_pair items a e.
(** A whole word: neither side touches a letter or digit. *)
Definition alnum_end (p : option ascii) : Prop := exists c, p = Some c /\ isalnum c = true.
Definition alnum_front (s : list ascii) : Prop := exists c r, s = c :: r /\ isalnum c = true.
Definition stands (prev : option ascii) (a rest : list ascii) : Prop :=
  ~ alnum_end prev /\ ~ alnum_front rest.
Definition word_ok (items : list (list ascii * list ascii)) (prev : option ascii) (s a e rest : list ascii) : Prop :=
  s = a ++ rest /\ stands prev a rest /\
  exists l r, items = l ++ (a, e) :: r /\
    forall a' e' rest', In (a', e') l -> s = a' ++ rest' -> ~ stands prev a' rest'.
Definition last_of (prev : option ascii) (s : list ascii) : option ascii := last (map Some s) prev.

(** [marked items prev s o]: marking up [s], which follows the byte [prev], gives
    [o]. *)
Inductive marked (items : list (list ascii * list ascii)) : option ascii -> list ascii -> list ascii -> Prop :=
| m_end prev : marked items prev [] []
| m_explicit prev a e a' e' rest o : explicit_ok a e -> trims a a' -> trims e e' ->
    marked items (Some "]"%char) rest o -> marked items prev (explicit a e ++ rest) (tag a' e' ++ o)
| m_reference prev r a e rest o : reference_ok items r a e ->
    marked items (Some "]"%char) rest o -> marked items prev (reference r ++ rest) (tag a e ++ o)
| m_word prev s a e rest o :
    (forall a e t, explicit_ok a e -> s <> explicit a e ++ t) ->
    (forall r a e t, reference_ok items r a e -> s <> reference r ++ t) ->
    word_ok items prev s a e rest -> s <> [] ->
    marked items (last_of prev a) rest o -> marked items prev s (tag a e ++ o)
| m_byte prev c s o :
    (forall a e t, explicit_ok a e -> c :: s <> explicit a e ++ t) ->
    (forall r a e t, reference_ok items r a e -> c :: s <> reference r ++ t) ->
    (forall a e rest, ~ word_ok items prev (c :: s) a e rest) ->
    marked items (Some c) s o -> marked items prev (c :: s) (c :: o).

(** The explicit ones are short enough for the arrays they are copied to. *)
Definition short_explicit (s : list ascii) : Prop :=
  forall x a e t, s = x ++ explicit a e ++ t -> explicit_ok a e -> length a < 256 /\ length e < 1024.

(** No abbreviation is empty; every tag has fewer than 2048 bytes. *)
Definition filled (items : list (list ascii * list ascii)) : Prop := forall a e, In (a, e) items -> a <> [].
Definition short_tags (items : list (list ascii * list ascii)) : Prop :=
  forall a e, In (a, e) items -> length (tag a e) < 2048.

(** What is below the markup. *)
Inductive seg := Same (c : ascii) | Tagged (under a e : list ascii).
Definition seg_in (g : seg) : list ascii := match g with Same c => [c] | Tagged u _ _ => u end.
Definition seg_out (g : seg) : list ascii := match g with Same c => [c] | Tagged _ a e => tag a e end.
Definition seg_ok (items : list (list ascii * list ascii)) (g : seg) : Prop :=
  match g with
  | Same _ => True
  | Tagged u a e => (u = a /\ In (a, e) items) \/ (exists b, u = reference b /\ reference_ok items b a e) \/
                    (exists b f, u = explicit b f /\ explicit_ok b f /\ trims b a /\ trims f e)
  end.

(** ** Tags *)

(** Inside a tag after [s]. *)
Definition step (i : bool) (c : ascii) : bool := if i then negb (ceq c ">") else ceq c "<".
Definition inside (s : list ascii) : bool := fold_left step s false.
(** The tags of a text, in order; the last may be unfinished. *)
Fixpoint tags_from (cur : option (list ascii)) (s : list ascii) : list (list ascii) :=
  match s with
  | [] => match cur with Some t => [t] | None => [] end
  | c :: s =>
      match cur with
      | None => if ceq c "<" then tags_from (Some [c]) s else tags_from None s
      | Some t => if ceq c ">" then (t ++ [c]) :: tags_from None s else tags_from (Some (t ++ [c])) s
      end
  end.
Definition is_abbr_tag (t : list ascii) : bool := starts (B "<abbr ") t || seq_ t (B "</abbr>").
Definition other_tags (s : list ascii) : list (list ascii) :=
  filter (fun t => negb (is_abbr_tag t)) (tags_from None s).
Definition no_angle (s : list ascii) : Prop := ~ In "<"%char s /\ ~ In ">"%char s.
(** No abbreviation and no bracket starts inside a tag, and none of the texts put in
    has an angle bracket. *)
Definition outside_tags (items : list (list ascii * list ascii)) (html : list ascii) : Prop :=
  (forall a e, In (a, e) items -> no_angle a /\ no_angle e) /\
  (forall x a e t, html = x ++ explicit a e ++ t -> explicit_ok a e -> no_angle a /\ no_angle e) /\
  forall x y, html = x ++ y -> inside x = true ->
    (forall a e r, In (a, e) items -> y <> a ++ r) /\ (forall r, y <> B "[&gt;" ++ r).
