(** What the HTML filter properties say. *)
From Verif Require Import Base.

(** ** Tag spacing *)

(** What stands between < and >: words with white space in front of them, and
    white space at the end. *)
Record tag := Tag { t_words : list (list ascii * list ascii); t_trail : list ascii }.
Definition white (s : list ascii) : Prop := Forall (fun c => isspace c = true) s.
Definition tag_ok (t : tag) : Prop :=
  Forall (fun gw => white (fst gw) /\ Forall (fun c => isspace c = false /\ c <> ">"%char) (snd gw)) (t_words t) /\
  Forall (fun gw => snd gw <> []) (t_words t) /\ white (t_trail t).
Definition tag_source (t : tag) : list ascii :=
  concat (map (fun gw => fst gw ++ snd gw) (t_words t)) ++ t_trail t.
Definition one (g : list ascii) : list ascii := match g with [] => [] | _ => [SP] end.
Definition tag_words (t : tag) : list ascii := concat (map (fun gw => one (fst gw) ++ snd gw) (t_words t)).

(** A document: text, then a tag and the rest, or a tag that never ends, or nothing. *)
Inductive doc :=
| End (text : list ascii)
| Open (text : list ascii) (t : tag)
| Closed (text : list ascii) (t : tag) (rest : doc).
Definition special (c : ascii) : Prop := In c ["/"; "!"; "?"]%char.
(** Text has no < other than those of closing tags, comments and declarations. *)
Definition text_ok (s : list ascii) : Prop :=
  forall a b, s = a ++ "<"%char :: b -> exists c b', b = c :: b' /\ special c.
Definition opening (t : tag) : Prop := forall c r, tag_source t = c :: r -> ~ special c.
Fixpoint doc_ok (d : doc) : Prop :=
  match d with
  | End s => text_ok s
  | Open s t => text_ok s /\ tag_ok t /\ opening t
  | Closed s t d => text_ok s /\ tag_ok t /\ opening t /\ doc_ok d
  end.
Fixpoint source (d : doc) : list ascii :=
  match d with
  | End s => s
  | Open s t => s ++ "<"%char :: tag_source t
  | Closed s t d => s ++ "<"%char :: tag_source t ++ ">"%char :: source d
  end.
(** One space in place of every run of white space inside a tag, none at its end. *)
Fixpoint cleaned (d : doc) : list ascii :=
  match d with
  | End s => s
  | Open s t => s ++ "<"%char :: tag_words t ++ one (t_trail t)
  | Closed s t d => s ++ "<"%char :: tag_words t ++ ">"%char :: cleaned d
  end.

(** ** Newlines between tags *)
Definition gap_byte (c : ascii) : Prop := In c [SP; TAB; NL; CR].
Definition newlines (g : list ascii) : nat := length (filter (fun c => ceq c NL || ceq c CR) g).
(** A gap between > and < with a newline in it. *)
Definition wide (g : list ascii) : Prop := Forall gap_byte g /\ 1 <= newlines g.
(** Some gaps become one newline, or two if they had two or more. *)
Inductive compacted : list ascii -> list ascii -> Prop :=
| cp_nil : compacted [] []
| cp_byte c s o : compacted s o -> compacted (c :: s) (c :: o)
| cp_gap g s o : wide g -> compacted ("<"%char :: s) ("<"%char :: o) ->
    compacted (">"%char :: g ++ "<"%char :: s) (">"%char :: repeat NL (Nat.min 2 (newlines g)) ++ "<"%char :: o).
(** Every gap with a newline is one or two line feeds. *)
Definition compact (s : list ascii) : Prop :=
  forall a g b, s = a ++ ">"%char :: g ++ "<"%char :: b -> wide g -> g = [NL] \/ g = [NL; NL].
Definition no_double (s : list ascii) : Prop := forall a b, s <> a ++ B ">>" ++ b.
(** The string ends with exactly [k] bytes >. *)
Definition ends_with (k : nat) (s : list ascii) : Prop :=
  exists a, s = a ++ repeat ">"%char k /\ forall b, a <> b ++ [">"%char].

(** ** Blank lines of tables *)

(** The last table tag in [pre] is an opening one. *)
Definition opens_table (s : list ascii) : Prop := exists c r, s = B "<table" ++ c :: r /\ In c [">"; SP]%char.
Definition closes_table (s : list ascii) : Prop := exists r, s = B "</table>" ++ r.
Definition inside (pre : list ascii) : Prop :=
  exists a b, pre = a ++ b /\ opens_table b /\ forall x y, b = x ++ y -> ~ closes_table y.
Definition blank_line (l : list ascii) : Prop := Forall (fun c => In c [SP; TAB; CR]) l.
(** [trimmed pre s o]: behind [pre], the lines of [s] become [o]. *)
Inductive trimmed : list ascii -> list ascii -> list ascii -> Prop :=
| tr_last pre l : ~ In NL l -> trimmed pre l l
| tr_drop pre l s o : blank_line l -> inside pre ->
    trimmed (pre ++ l ++ [NL]) s o -> trimmed pre (l ++ NL :: s) o
| tr_keep pre l s o : ~ In NL l -> ~ (blank_line l /\ inside pre) ->
    trimmed (pre ++ l ++ [NL]) s o -> trimmed pre (l ++ NL :: s) (l ++ NL :: o).

(** ** Separator rows *)
Inductive dash := Em | Ascii (c : ascii).
Definition write_dash (d : dash) : list ascii :=
  match d with Em => ["226"; "128"; "148"]%char | Ascii c => [c] end.
Definition dash_ok (d : dash) : Prop :=
  match d with Em => True | Ascii c => In c [":"; "-"; "|"; SP; TAB; NL; CR]%char end.
Definition counts (d : dash) : Prop := d = Em \/ d = Ascii "-" \/ d = Ascii ":".
(** A cell of dashes, colons, pipes and white space, with a dash or colon. *)
Definition dashes (s : list ascii) : Prop :=
  exists ds, s = concat (map write_dash ds) /\ Forall dash_ok ds /\ Exists counts ds.
(** A cell: white space, td or th, attributes, text. *)
Record cell := Cell { c_lead : list ascii; c_th : bool; c_attrs : list ascii; c_text : list ascii }.
Definition cell_tag (c : cell) : list ascii := if c_th c then B "th" else B "td".
Definition write_cell (c : cell) : list ascii :=
  c_lead c ++ B "<" ++ cell_tag c ++ c_attrs c ++ B ">" ++ c_text c ++ B "</" ++ cell_tag c ++ B ">".
Definition free_of (lit s : list ascii) : Prop := forall a b, s <> a ++ lit ++ b.
Definition cell_ok (c : cell) : Prop :=
  Forall gap_byte (c_lead c) /\ ~ In ">"%char (c_attrs c) /\ ~ In "<"%char (c_attrs c) /\ ~ In "<"%char (c_text c).
Record row := Row { r_cells : list cell; r_trail : list ascii }.
Definition row_ok (r : row) : Prop := Forall cell_ok (r_cells r) /\ Forall gap_byte (r_trail r).
Definition write_row (r : row) : list ascii :=
  B "<tr>" ++ concat (map write_cell (r_cells r)) ++ r_trail r ++ B "</tr>".
(** Documents: bytes that start no table or row tag, table tags, rows. *)
Inductive item := Byte (c : ascii) | OpenTable (c : ascii) | CloseTable | TheRow (r : row).
Definition write_item (i : item) : list ascii :=
  match i with
  | Byte c => [c]
  | OpenTable c => B "<table" ++ [c]
  | CloseTable => B "</table>"
  | TheRow r => write_row r
  end.
Definition write_items (l : list item) : list ascii := concat (map write_item l).
Fixpoint items_ok (l : list item) : Prop :=
  match l with
  | [] => True
  | i :: l' =>
      match i with
      | Byte c => let s := c :: write_items l' in
                  ~ opens_table s /\ ~ closes_table s /\ (forall r, s <> B "<tr>" ++ r)
      | OpenTable c => In c [">"; SP]%char
      | CloseTable => True
      | TheRow r => row_ok r
      end /\ items_ok l'
  end.
(** Rows of a table all of whose cells are dashes are left out. *)
Inductive without_separators : bool -> list item -> list item -> Prop :=
| ws_nil t : without_separators t [] []
| ws_byte t c l o : without_separators t l o -> without_separators t (Byte c :: l) (Byte c :: o)
| ws_open t c l o : without_separators true l o -> without_separators t (OpenTable c :: l) (OpenTable c :: o)
| ws_close t l o : without_separators false l o -> without_separators t (CloseTable :: l) (CloseTable :: o)
| ws_drop r l o : Forall (fun c => dashes (c_text c)) (r_cells r) ->
    without_separators true l o -> without_separators true (TheRow r :: l) o
| ws_keep t r l o : t = false \/ Exists (fun c => ~ dashes (c_text c)) (r_cells r) ->
    without_separators t l o -> without_separators t (TheRow r :: l) (TheRow r :: o).

(** ** Heading levels *)
Inductive htok := HByte (c : ascii) | HOpen (level : nat) (attrs : list ascii) | HClose (level : nat).
Definition level_text (n : nat) : list ascii :=
  match n with 1 => B "1" | 2 => B "2" | 3 => B "3" | 4 => B "4" | 5 => B "5" | _ => B "6" end.
Definition write_htok (t : htok) : list ascii :=
  match t with
  | HByte c => [c]
  | HOpen n a => B "<h" ++ level_text n ++ a ++ B ">"
  | HClose n => B "</h" ++ level_text n ++ B ">"
  end.
Definition write_htoks (l : list htok) : list ascii := concat (map write_htok l).
Definition htag (t : htok) : Prop :=
  match t with
  | HByte _ => False
  | HOpen n a => 1 <= n <= 6 /\ ~ In ">"%char a /\ (forall c r, a = c :: r -> isspace c = true)
  | HClose n => 1 <= n <= 6
  end.
Fixpoint htoks_ok (l : list htok) : Prop :=
  match l with
  | [] => True
  | t :: l' =>
      match t with
      | HByte c => forall t' r, htag t' -> c :: write_htoks l' <> write_htok t' ++ r
      | _ => htag t
      end /\ htoks_ok l'
  end.
Definition shift (b n : nat) : nat := Nat.min 6 (n + b - 1).
Definition shift_htok (b : nat) (t : htok) : htok :=
  match t with
  | HByte c => HByte c
  | HOpen n a => HOpen (shift b n) a
  | HClose n => HClose (shift b n)
  end.
(** Opening and closing tags match like brackets. *)
Inductive nested : list htok -> Prop :=
| ns_nil : nested []
| ns_byte c l : nested l -> nested (HByte c :: l)
| ns_tag n a l m : nested l -> nested m -> nested (HOpen n a :: l ++ HClose n :: m).

(** ** Quotes *)
Inductive quote := DOpen | DClose | SOpen | SClose.
Inductive qtok := QByte (c : ascii) | Entity (q : quote) | Curly (q : quote).
Definition write_qtok (t : qtok) : list ascii :=
  match t with
  | QByte c => [c]
  | Entity DOpen => B "&ldquo;" | Entity DClose => B "&rdquo;"
  | Entity SOpen => B "&lsquo;" | Entity SClose => B "&rsquo;"
  | Curly DOpen => B "“" | Curly DClose => B "”"
  | Curly SOpen => B "‘" | Curly SClose => B "’"
  end.
Definition write_qtoks (l : list qtok) : list ascii := concat (map write_qtok l).
Fixpoint qtoks_ok (l : list qtok) : Prop :=
  match l with
  | [] => True
  | QByte c :: l' =>
      (forall q r, c :: write_qtoks l' <> write_qtok (Entity q) ++ r /\
                   c :: write_qtoks l' <> write_qtok (Curly q) ++ r) /\ qtoks_ok l'
  | _ :: l' => qtoks_ok l'
  end.
(** The quotes of each language. *)
Definition language_quotes (l : string) (q : quote) : option (list ascii) :=
  match l, q with
  | "french", DOpen => Some (B "&laquo;&nbsp;") | "french", DClose => Some (B "&nbsp;&raquo;")
  | "french", SOpen => Some (B "&rsquo;") | "french", SClose => Some (B "&rsquo;")
  | "german", DOpen => Some (B "&bdquo;") | "german", DClose => Some (B "&ldquo;")
  | "german", SOpen => Some (B "&sbquo;") | "german", SClose => Some (B "&lsquo;")
  | "germanguillemets", DOpen => Some (B "&raquo;") | "germanguillemets", DClose => Some (B "&laquo;")
  | "germanguillemets", SOpen => Some (B "&rsaquo;") | "germanguillemets", SClose => Some (B "&lsaquo;")
  | "spanish", DOpen => Some (B "&laquo;") | "spanish", DClose => Some (B "&raquo;")
  | "spanish", SOpen => Some (B "&lsquo;") | "spanish", SClose => Some (B "&rsquo;")
  | "dutch", DOpen => Some (B "&bdquo;") | "dutch", DClose => Some (B "&ldquo;")
  | "dutch", SOpen => Some (B "&sbquo;") | "dutch", SClose => Some (B "&lsquo;")
  | "swedish", DOpen => Some (B "&rdquo;") | "swedish", DClose => Some (B "&rdquo;")
  | "swedish", SOpen => Some (B "&rsquo;") | "swedish", SClose => Some (B "&rsquo;")
  | _, _ => None
  end%string.
Definition quoted (f : quote -> list ascii) (t : qtok) : list ascii :=
  match t with QByte c => [c] | Entity q => f q | Curly q => f q end.
(** The names by which a language can be asked for, and how they may be spelled:
    in any case, with white space anywhere. *)
Definition language_names : list (string * string) :=
  [("french", "french"); ("fr", "french"); ("german", "german"); ("de", "german");
   ("germanguillemets", "germanguillemets"); ("spanish", "spanish"); ("es", "spanish");
   ("dutch", "dutch"); ("nl", "dutch"); ("swedish", "swedish"); ("sv", "swedish")]%string.
Inductive spells : list ascii -> list ascii -> Prop :=
| sp_nil : spells [] []
| sp_space c l w : isspace c = true -> spells l w -> spells (c :: l) w
| sp_char c l w : isspace c = false -> spells l w -> spells (c :: l) (tolower c :: w).
