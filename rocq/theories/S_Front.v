(** What the metadata at the head of a document is; nothing of the model is used. *)
From Verif Require Import Base.

Definition row (x : str) : str := x ++ [NL].
Definition rows (l : list str) : str := concat (map row l).
Definition within (x s : str) : Prop := exists a b, s = a ++ x ++ b.

Definition whites (s : str) : Prop := Forall (fun c => isspace c = true) s.
(** No white space at the ends, and something between them *)
Definition solid (s : str) : Prop := (exists c r, s = c :: r /\ isspace c = false) /\ (exists c r, s = r ++ [c] /\ isspace c = false).
Definition one_line (s : str) : Prop := ~ In NL s.

(** A key of letters, digits, spaces, '-' and '_' that begins with a letter *)
Definition key_byte (c : ascii) : Prop := isalnum c = true \/ c = SP \/ c = "-"%char \/ c = "_"%char.
Definition plain_key (k : str) : Prop := solid k /\ Forall key_byte k /\ exists c r, k = c :: r /\ isalpha c = true.

(** "Key: value" on one line of at most 1023 bytes *)
Definition pair_line (p : str * str) : str := fst p ++ B ": " ++ snd p.

(** A pair that no other syntax of Markdown claims: no bracket, no index mark, and no URL beside a key of seven bytes or more *)
Definition plain_pair (p : str * str) : Prop :=
  plain_key (fst p) /\ solid (snd p) /\ one_line (snd p) /\ ~ In "["%char (snd p) /\ ~ within (B "{i:") (snd p)
  /\ (length (fst p) < 7 \/ ~ within (B "://") (snd p)) /\ length (pair_line p) <= 1023.

Definition heading (h : str) : str := "#"%char :: h.

(** A line with a pair, whatever the spaces *)
Definition says (l : str) (p : str * str) : Prop :=
  exists a b c d, l = a ++ fst p ++ b ++ ":"%char :: c ++ snd p ++ d /\ whites a /\ whites b /\ whites c /\ whites d
    /\ solid (fst p) /\ solid (snd p) /\ ~ In ":"%char (fst p).

(** A line that is not blank and does not begin like a heading, a comment, an abbreviation, a kramdown marker, attributes or a table of contents *)
Definition plain_start (l : str) : Prop :=
  exists a x, l = a ++ x /\ whites a /\ (exists c r, x = c :: r /\ isspace c = false)
    /\ Forall (fun m => forall r, x <> m ++ r) [B "*["; B "[>"; B "<!--"; B "#"; B "{:"; B "{{TOC"].

(** A value of YAML front matter, plain or in quotes *)
Inductive yaml_value : str -> str -> Prop :=
| value_none : yaml_value [] []
| value_plain v : solid v -> ~ (exists q m, (q = DQ \/ q = SQ) /\ v = q :: m ++ [q]) -> yaml_value v v
| value_quoted q v : q = DQ \/ q = SQ -> v = [] \/ solid v -> yaml_value (q :: v ++ [q]) v.

Definition yaml_pair (l : str) (p : str * str) : Prop :=
  exists w, l = fst p ++ B ": " ++ w /\ plain_key (fst p) /\ one_line w /\ yaml_value w (snd p) /\ length l <= 1023.

(** A line of a Pandoc title block *)
Inductive title_line : str -> option str -> Prop :=
| title_empty : title_line (B "%") None
| title_value v : solid v -> one_line v -> length v <= 1021 -> title_line (B "% " ++ v) (Some v).

Fixpoint title_items (keys : list str) (vs : list (option str)) : list (str * str) :=
  match keys, vs with
  | k :: keys', Some v :: vs' => (k, v) :: title_items keys' vs'
  | _ :: keys', None :: vs' => title_items keys' vs'
  | _, _ => []
  end.

(** A value that can be written on a line of front matter and read back: it is not in single quotes, unless a byte in it makes the writer put double quotes around it *)
Definition front_item (p : str * str) : Prop :=
  plain_key (fst p) /\ one_line (snd p) /\ (snd p = [] \/ solid (snd p)) /\ length (fst p) + length (snd p) <= 1019
  /\ (In ":"%char (snd p) \/ In DQ (snd p) \/ In BS (snd p) \/ ~ exists m, snd p = SQ :: m ++ [SQ]).

(** A text that does not begin, after white space, with a percent sign *)
Definition no_percent (s : str) : Prop := ~ exists a r, whites a /\ s = a ++ "%"%char :: r.
