(** Entries for the index in a text, the marks and anchors that take their place, and the index; nothing of the model is used. *)
From Coq Require Import Sorting.Permutation Sorting.Sorted.
From Verif Require Import Base Dec S_Front.

(** ** Marks in the text and anchors in the HTML *)
Definition name_of (n : nat) : str := B "idxref-" ++ dec n.
Definition mark_of (n : nat) : str := B "<!--IDX:" ++ name_of n ++ B "-->".
Definition anchor_of (n : nat) : str := B "<span class=""index"" id=""" ++ name_of n ++ B """></span>".

(** The shape of an entry, whatever stands in it *)
Definition entry_shape (w : str) : Prop := exists x,
  w = B "(!" ++ x ++ B ")" /\ ~ In ")"%char x \/
  w = B "{^" ++ x ++ B "}" /\ ~ In "}"%char x /\ ~ In NL x \/
  w = B "{i:" ++ x ++ B "}".

(** [Marked n k s t l]: [t] is [s], which begins at byte [k] of the text, with some entries replaced by marks numbered from [n] on; [l] has number and place of each. *)
Inductive Marked : nat -> nat -> str -> str -> list (nat * nat) -> Prop :=
| marked_end n k : Marked n k [] [] []
| marked_byte n k c s t l : Marked n (S k) s t l -> Marked n k (c :: s) (c :: t) l
| marked_entry n k w s t l : entry_shape w -> Marked (S n) (k + length w) s t l -> Marked n k (w ++ s) (mark_of n ++ t) ((n, k) :: l).

(** ** The documented forms *)
Definition term_byte (c : ascii) : Prop := isalnum c = true \/ In c (B " -_/.:;'" ++ [DQ]).
Definition spaces (s : str) : Prop := Forall (fun c => c = SP) s.
Definition blanks (s : str) : Prop := Forall (fun c => c = SP \/ c = TAB) s.
Definition phrase_byte (c : ascii) : Prop := isalnum c = true \/ c = SP \/ c = "-"%char \/ c = "_"%char.

(** What stands behind the caret: the subitem follows the first space or comma *)
Inductive Params : str -> option str -> Prop :=
| params_none p : ~ In SP p -> ~ In ","%char p -> Params p None
| params_some p c a x b : ~ In SP p -> ~ In ","%char p -> c = SP \/ c = ","%char -> whites a -> solid x -> whites b -> Params (p ++ c :: a ++ x ++ b) (Some x).

(** [Form before w item sub primary]: [w], behind [before], is an entry *)
Inductive Form : str -> str -> str -> option str -> bool -> Prop :=
| form_mmark before item e p : solid item -> Forall term_byte item -> spaces e ->
    Form before (B "(!" ++ (if p : bool then B "!" else []) ++ item ++ e ++ B ")") item None p
| form_mmark_sub before item e sub a e' p : solid item -> Forall term_byte item -> spaces e -> whites a ->
    solid sub -> Forall (fun c => term_byte c \/ c = ","%char) sub -> spaces e' ->
    Form before (B "(!" ++ (if p : bool then B "!" else []) ++ item ++ e ++ B "," ++ a ++ sub ++ e' ++ B ")") item (Some sub) p
| form_bracket before term params sub : solid term -> ~ In "["%char term -> length term < 200 -> ~ In "}"%char params -> ~ In NL params -> Params params sub ->
    Form (before ++ B "[" ++ term ++ B "]") (B "{^" ++ params ++ B "}") term sub false
| form_word before term params sub : solid term -> Forall phrase_byte term -> length term <= 50 ->
    (before = [] \/ exists b c, before = b ++ [c] /\ ~ phrase_byte c) -> ~ In "}"%char params -> ~ In NL params -> Params params sub ->
    Form (before ++ term) (B "{^" ++ params ++ B "}") term sub false
| form_leanpub before a term e : blanks a -> solid term -> Forall (fun c => term_byte c \/ c = ","%char) term -> ~ (exists r, term = DQ :: r) -> spaces e ->
    Form before (B "{i:" ++ a ++ term ++ e ++ B "}") term None false
| form_quoted before a term e : blanks a -> solid term -> Forall (fun c => ~ In c (B "!*\" ++ [DQ])) term -> blanks e ->
    Form before (B "{i:" ++ a ++ [DQ] ++ term ++ [DQ] ++ e ++ B "}") term None false
| form_quoted_sub before a term sub e : blanks a -> solid term -> Forall (fun c => ~ In c (B "!*\" ++ [DQ])) term -> solid sub -> Forall (fun c => ~ In c (B "*\" ++ [DQ])) sub -> blanks e ->
    Form before (B "{i:" ++ a ++ [DQ] ++ term ++ B "!" ++ sub ++ [DQ] ++ e ++ B "}") term (Some sub) false.

(** No entry begins here. *)
Definition no_opener (s : str) : Prop := Forall (fun m => forall r, s <> m ++ r) [B "(!"; B "{^"; B "{i:"].

(** A text in which whatever begins like an entry is one of these forms *)
Inductive Indexed : str -> nat -> str -> str -> list (str * option str * bool) -> Prop :=
| indexed_end before n : Indexed before n [] [] []
| indexed_byte before n c s t l : no_opener (c :: s) -> Indexed (before ++ [c]) n s t l -> Indexed before n (c :: s) (c :: t) l
| indexed_entry before n w item sub p s t l : Form before w item sub p -> Indexed (before ++ w) (S n) s t l ->
    Indexed before n (w ++ s) (mark_of n ++ t) ((item, sub, p) :: l).

(** ** HTML with marks *)
Inductive Anchored : str -> str -> list nat -> Prop :=
| anchored_end : Anchored [] [] []
| anchored_byte c s t l : ~ (exists r, c :: s = B "<!--IDX:" ++ r) -> Anchored s t l -> Anchored (c :: s) (c :: t) l
| anchored_mark n s t l : length (name_of n) < 64 -> Anchored s t l -> Anchored (mark_of n ++ s) (anchor_of n ++ t) (n :: l).

(** A mark that is never closed *)
Definition open_mark (s : str) : Prop := exists a r, s = a ++ B "<!--IDX:" ++ r /\ ~ In ">"%char r.

(** ** Order *)
(** [upto a b]: letter for letter, ignoring case, [a] comes first or they are equal *)
Fixpoint upto (a b : str) : Prop :=
  match a, b with
  | [], _ => True
  | _ :: _, [] => False
  | x :: a', y :: b' => (code (tolower x) < code (tolower y))%N \/ tolower x = tolower y /\ upto a' b'
  end.
Definition same_word (a b : str) : Prop := map tolower a = map tolower b.
(** A line of the index: item, subitem *)
Definition line_upto (a b : str * option str) : Prop :=
  upto (fst a) (fst b) /\
  (same_word (fst a) (fst b) -> match snd a, snd b with None, _ => True | Some _, None => False | Some x, Some y => upto x y end).

(** ** The index *)
Definition escape1 (c : ascii) : str :=
  if ceq c "&" then B "&amp;" else if ceq c "<" then B "&lt;" else if ceq c ">" then B "&gt;" else if ceq c DQ then B "&quot;" else [c].
Definition escape (s : str) : str := flat_map escape1 s.

Definition nl (x : str) : str := x ++ [NL].
Definition go_to (n : nat) : str := B " <a class=""index-return"" href=""#" ++ name_of n ++ B """><sup>[go]</sup></a>".
Definition shown (text : str -> str) (l : str * option str * bool * nat) : str :=
  let '(item, sub, p, n) := l in
  nl (B "<li>") ++ text item ++ (if p : bool then B " <strong>" ++ go_to n ++ B "</strong>" else go_to n)
  ++ match sub with None => [] | Some x => nl (B "<ul>") ++ nl (B "<li>") ++ text x ++ go_to n ++ nl (B "</li>") ++ nl (B "</ul>") end
  ++ nl (B "</li>").

Definition index_page (body : str) : str := nl (B "<h1 id=""index-section"">Index</h1>") ++ nl (B "<div class=""index"">") ++ body ++ nl (B "</div>").
Definition flat (text : str -> str) (ls : list (str * option str * bool * nat)) : str := nl (B "<ul>") ++ concat (map (shown text) ls) ++ nl (B "</ul>").
(** groups: a letter and its lines *)
Definition group (text : str -> str) (g : ascii * list (str * option str * bool * nat)) : str :=
  nl (B "<dl>") ++ nl (B "<dt>" ++ [fst g] ++ B "</dt>") ++ nl (B "<dd>") ++ nl (B "<ul>") ++ concat (map (shown text) (snd g)) ++ nl (B "</ul>") ++ nl (B "</dd>") ++ nl (B "</dl>").

(** The letter of an item: its first letter or digit, in upper case *)
Definition first_letter (item : str) (c : ascii) : Prop :=
  (exists a d r, item = a ++ d :: r /\ Forall (fun x => isalnum x = false) a /\ isalnum d = true /\ c = toupper d)
  \/ Forall (fun x => isalnum x = false) item /\ c = "?"%char.

(** ** Where the index goes *)
Definition first_at (x a b s : str) : Prop := s = a ++ x ++ b /\ forall a' b', s = a' ++ x ++ b' -> length a <= length a'.
Inductive Placed (index : str) : str -> str -> Prop :=
| placed_mark a b html : first_at (B "<!--INDEX-->") a b html -> Placed index html (a ++ index ++ b)
| placed_body a b html : ~ within (B "<!--INDEX-->") html -> first_at (B "</body>") a b html -> Placed index html (a ++ index ++ B "</body>" ++ b)
| placed_end html : ~ within (B "<!--INDEX-->") html -> ~ within (B "</body>") html -> Placed index html (html ++ index).
