(** What the heading id property says. *)
From Verif Require Import Base.

(** A sequence of a lead byte and the continuation bytes it asks for. *)
Definition cont (c : ascii) : Prop := (128 <= code c <= 191)%N.
Definition follow (c : ascii) (k : nat) : Prop :=
  ((192 <= code c <= 223)%N /\ k = 1) \/ ((224 <= code c <= 239)%N /\ k = 2) \/ ((240 <= code c <= 247)%N /\ k = 3).
Definition sequence (u : list ascii) : Prop :=
  exists c t, u = c :: t /\ follow c (length t) /\ Forall cont t.

(** Letters with accents (second byte behind C3) and what becomes of them. *)
Definition accents : list (ascii * ascii) :=
  [("128", "a"); ("129", "a"); ("130", "a"); ("131", "a"); ("132", "a"); ("133", "a");
   ("135", "c"); ("136", "e"); ("137", "e"); ("138", "e"); ("139", "e"); ("140", "i"); ("141", "i"); ("142", "i"); ("143", "i");
   ("145", "n"); ("146", "o"); ("147", "o"); ("148", "o"); ("149", "o"); ("150", "o"); ("151", "o"); ("152", "o");
   ("153", "u"); ("154", "u"); ("155", "u"); ("156", "u"); ("157", "y"); ("159", "s");
   ("167", "c"); ("177", "n"); ("189", "y")]%char.
(** Em dash, en dash and the two single quotes. *)
Definition mark (u : list ascii) : Prop :=
  In u [["226"; "128"; "148"]; ["226"; "128"; "147"]; ["226"; "128"; "153"]; ["226"; "128"; "152"]]%char.

(** The pieces of a heading. *)
Inductive piece :=
| Letter (c : ascii)            (* ASCII letter or digit *)
| Gap (c : ascii)               (* space or dash *)
| Emoji (u name : list ascii)   (* sequence with a name *)
| Accent (b a : ascii)
| Dropped (u : list ascii).     (* everything else *)
Definition write_piece (p : piece) : list ascii :=
  match p with
  | Letter c | Gap c => [c]
  | Emoji u _ => u
  | Accent b _ => ["195"%char; b]
  | Dropped u => u
  end.
Definition write_pieces (l : list piece) : list ascii := concat (map write_piece l).
Definition piece_ok (names : list ascii -> option (list ascii)) (p : piece) (rest : list ascii) : Prop :=
  match p with
  | Letter c => isalnum c = true
  | Gap c => c = SP \/ c = "-"%char
  | Emoji u n => sequence u /\ ~ mark u /\ names u = Some n
  | Accent b a => In (b, a) accents /\ names ["195"%char; b] = None
  | Dropped u =>
      (exists c, u = [c] /\ (code c < 128)%N /\ isalnum c = false /\ c <> SP /\ c <> "-"%char) \/
      (sequence u /\ (mark u \/ (names u = None /\ forall b a, In (b, a) accents -> u <> ["195"%char; b]))) \/
      (exists c, u = [c] /\ (128 <= code c)%N /\ forall v r, sequence v -> c :: rest <> v ++ r)
  end.
Fixpoint pieces_ok (names : list ascii -> option (list ascii)) (l : list piece) : Prop :=
  match l with
  | [] => True
  | p :: l' => piece_ok names p (write_pieces l') /\ pieces_ok names l'
  end.

(** The words between the gaps. *)
Definition text_of (p : piece) : list ascii :=
  match p with
  | Letter c => [tolower c]
  | Gap _ => []
  | Emoji _ n => n
  | Accent _ a => [a]
  | Dropped _ => []
  end.
Fixpoint words_from (w : list ascii) (l : list piece) : list (list ascii) :=
  match l with
  | [] => [w]
  | Gap _ :: l' => w :: words_from [] l'
  | p :: l' => words_from (w ++ text_of p) l'
  end.
Definition nonempty (w : list ascii) : bool := match w with [] => false | _ => true end.
Definition words (l : list piece) : list (list ascii) := filter nonempty (words_from [] l).
Fixpoint hyphenated (ws : list (list ascii)) : list ascii :=
  match ws with
  | [] => []
  | [w] => w
  | w :: ws' => w ++ "-"%char :: hyphenated ws'
  end.
(** The id: the words with a dash between any two. *)
Definition gfm_id (l : list piece) : list ascii :=
  match words l with [] => B "header" | ws => hyphenated ws end.

(** The emoji names of the table: no empty ones, none that starts or ends in a dash. *)
Definition good_name (n : list ascii) : Prop :=
  n <> [] /\ (forall r, n <> "-"%char :: r) /\ (forall r, n <> r ++ ["-"%char]).
Definition good_names (names : list ascii -> option (list ascii)) : Prop :=
  forall u n, names u = Some n -> good_name n.
(** What the pieces can take. *)
Definition size (p : piece) : nat := match p with Gap _ => 1 | _ => length (text_of p) end.
Definition sizes (l : list piece) : nat := fold_right (fun p n => size p + n) 0 l.

(** Text of ASCII bytes and sequences, as the other two formats read it. *)
Inductive uchar := Asc (c : ascii) | Uni (u : list ascii).
Definition write_uchar (x : uchar) : list ascii := match x with Asc c => [c] | Uni u => u end.
Definition write_uchars (l : list uchar) : list ascii := concat (map write_uchar l).
Definition uchar_ok (x : uchar) : Prop :=
  match x with Asc c => (code c < 128)%N /\ c <> NUL | Uni u => sequence u end.
Definition quote_mark (u : list ascii) : bool :=
  if in_dec (list_eq_dec ascii_dec) u [["226"; "128"; "153"]; ["226"; "128"; "152"]]%char then true else false.
(** MultiMarkdown keeps letters, digits, dashes and everything that is not ASCII
    but single quotes. *)
Definition mmd_text (x : uchar) : list ascii :=
  match x with
  | Asc c => if isalnum c || ceq c "-" then [tolower c] else []
  | Uni u => if quote_mark u then [] else u
  end.
Definition or_header (s : list ascii) : list ascii := match s with [] => B "header" | _ => s end.

(** Kramdown keeps letters, digits and dashes.  A space becomes a dash and so does
    any other ASCII byte, except that punctuation with nothing but blanks behind it
    disappears, and so does a space after punctuation that became a dash.
    [before] is what precedes, nearest first. *)
Definition blank (x : uchar) : bool :=
  match x with Asc c => existsb (ceq c) [SP; TAB; NL; CR] | Uni _ => false end.
Definition punctuation (c : ascii) : bool := negb (isalnum c || ceq c "-" || ceq c SP).
Fixpoint after_punctuation (before after : list uchar) : bool :=
  match before with
  | [] => false
  | Asc c :: _ => punctuation c && negb (forallb blank after)
  | Uni u :: b => after_punctuation b (Uni u :: after)
  end.
Definition kramdown_char (before : list uchar) (x : uchar) (after : list uchar) : list ascii :=
  match x with
  | Uni _ => []
  | Asc c =>
      if isalnum c || ceq c "-" then [tolower c]
      else if ceq c SP then if after_punctuation before (x :: after) then [] else ["-"%char]
      else if forallb blank after then [] else ["-"%char]
  end.
Fixpoint kramdown_text (before l : list uchar) : list ascii :=
  match l with
  | [] => []
  | x :: l' => kramdown_char before x l' ++ kramdown_text (x :: before) l'
  end.
Fixpoint no_dashes_first (s : list ascii) : list ascii :=
  match s with
  | c :: s' => if ceq c "-" then no_dashes_first s' else s
  | [] => []
  end.
Definition id_byte (c : ascii) : Prop := In c (B "abcdefghijklmnopqrstuvwxyz0123456789-_").
Definition plain_names (names : list ascii -> option (list ascii)) : Prop :=
  forall u n, names u = Some n -> Forall id_byte n.
