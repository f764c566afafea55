(** What the comma or tab separated data of a document are and what a reader of pipe tables sees.
    Nothing here uses the functions of M_Csv (only its enumeration [align]). *)
From Verif Require Import Base M_Csv.

(** The cells of a line are what the delimiter separates; the records are the lines. *)
Inductive Cells (d : ascii) : str -> list str -> Prop :=
| C_last c : ~ In d c -> Cells d c [c]
| C_more c l cs : ~ In d c -> Cells d l cs -> Cells d (c ++ d :: l) (c :: cs).
Inductive Records (d : ascii) : str -> list (list str) -> Prop :=
| R_end : Records d [] []
| R_last l cs : l <> [] -> ~ In NL l -> Cells d l cs -> Records d l [cs]
| R_line l cs s rs : ~ In NL l -> Cells d l cs -> Records d s rs -> Records d (l ++ NL :: s) (cs :: rs).
Definition delim (tsv : bool) : ascii := if tsv then TAB else ","%char.

(** White space at both ends does not count. *)
Fixpoint lstrip (s : str) : str := match s with c :: r => if isspace c then lstrip r else s | [] => [] end.
Definition strip (s : str) : str := rev (lstrip (rev (lstrip s))).

(** An alignment keyword, in any letter case. *)
Definition name (a : align) : str :=
  match a with ALeft => B "left" | ARight => B "right" | ACenter => B "center" | AAuto => B "auto" end.
Definition Keyword (c : str) (a : align) : Prop := map tolower (strip c) = name a.
(** What follows the header: perhaps an alignment row, then the data. *)
Inductive Layout (hd : list str) : list (list str) -> list align -> list (list str) -> Prop :=
| L_keywords k al body : length k = length hd -> Forall2 Keyword k al -> Layout hd (k :: body) al body
| L_plain rs :
    (forall k body al, rs = k :: body -> length k = length hd -> ~ Forall2 Keyword k al) ->
    Layout hd rs (repeat AAuto (length hd)) rs.
(** A row as wide as the header. *)
Definition fit (n : nat) (r : list str) : list str := firstn n r ++ repeat [] (n - length r).
Definition row_text (n : nat) (r : list str) : str :=
  "|"%char :: concat (map (fun c => SP :: c ++ [SP; "|"%char]) (fit n r)) ++ [NL].
Definition mark (a : align) : str :=
  match a with ALeft => B ":---" | ARight => B "---:" | ACenter => B ":---:" | AAuto => B "---" end.
Definition table_text (hd : list str) (al : list align) (body : list (list str)) : str :=
  row_text (length hd) hd ++ row_text (length hd) (map mark al) ++ concat (map (row_text (length hd)) body).
(** The bytes the table takes, with its terminator. *)
Definition bytes (r : list str) : nat := list_sum (map (@length ascii) r).
Definition row_bytes (n : nat) (r : list str) : nat := 2 + 3 * n + bytes (firstn n r).
Definition table_bytes (hd : list str) (al : list align) (body : list (list str)) : nat :=
  let n := length hd in
  row_bytes n hd + row_bytes n (map mark al) + list_sum (map (row_bytes n) body) + 1.

(** A reader of pipe tables (GitHub's rules): lines end with NL, CR or both; a row begins and ends
    with a pipe, an unescaped pipe ends a cell, white space around a cell does not count; colons in
    the second line give the alignment. *)
Fixpoint md_lines (cur s : str) : list str :=
  match s with
  | [] => match cur with [] => [] | _ => [rev cur] end
  | c :: r =>
      if ceq c NL then rev cur :: md_lines [] r
      else if ceq c CR then
        rev cur :: match r with e :: r' => if ceq e NL then md_lines [] r' else md_lines [] r | [] => [] end
      else md_lines (c :: cur) r
  end.
Fixpoint pieces (esc : bool) (cur s : str) : list str :=
  match s with
  | [] => [rev cur]
  | c :: r => if ceq c "|"%char && negb esc then rev cur :: pieces false [] r else pieces (ceq c BS) (c :: cur) r
  end.
Definition read_row (line : str) : option (list str) :=
  match line with
  | c :: r =>
      if ceq c "|"%char then
        let ps := pieces false [] r in
        match strip (last ps []) with [] => Some (map strip (removelast ps)) | _ => None end
      else None
  | [] => None
  end.
Definition read_delim (c : str) : option align :=
  let l := match c with x :: _ => ceq x ":"%char | [] => false end in
  let r := match rev c with x :: _ => ceq x ":"%char | [] => false end in
  let core := if l then tl c else c in
  let core := if r then removelast core else core in
  match core with
  | [] => None
  | _ => if forallb (ceq "-"%char) core then
           Some (match l, r with true, true => ACenter | true, false => ALeft | false, true => ARight | _, _ => AAuto end)
         else None
  end.
Fixpoint all_some {A B : Type} (f : A -> option B) (l : list A) : option (list B) :=
  match l with
  | [] => Some []
  | x :: r => match f x, all_some f r with Some y, Some ys => Some (y :: ys) | _, _ => None end
  end.
Definition read_table (t : str) : option (list str * list align * list (list str)) :=
  match md_lines [] t with
  | h :: dl :: rest =>
      match read_row h, read_row dl, all_some read_row rest with
      | Some hc, Some dc, Some rows =>
          match all_some read_delim dc with
          | Some al => if length al =? length hc then Some (hc, al, rows) else None
          | None => None
          end
      | _, _, _ => None
      end
  | _ => None
  end.
(** A cell that can stand in a pipe table. *)
Definition clean (c : str) : Prop := ~ In "|"%char c /\ ~ In CR c.

(** Documents.  [first w body] : the text [w] right after [body] is its first occurrence. *)
Definition first (w body : str) : Prop := forall a b, body ++ w = a ++ w ++ b -> b = [].
Definition has (w s : str) : Prop := exists a b, s = a ++ w ++ b.
Definition ticks : str := B "```".
Definition marker : str := B "<!--TABLE-->".
(** [Fence blk info body closed rest] : the document blk ++ rest begins with a fenced block *)
Inductive Fence : str -> str -> str -> bool -> str -> Prop :=
| F_closed info body rest : ~ In NL info -> first ticks body ->
    Fence (ticks ++ info ++ NL :: body ++ ticks) info body true rest
| F_open info body : ~ In NL info -> ~ has ticks body -> Fence (ticks ++ info ++ NL :: body) info body false []
| F_line info : ~ In NL info -> Fence (ticks ++ info) info [] false [].
Definition Table_info (info : str) : Prop := map tolower (strip info) = B "table".
(** The delimiter: any tab, else any comma. *)
Inductive Delimiter (body : str) : bool -> Prop :=
| D_tab : In TAB body -> Delimiter body true
| D_comma : ~ In TAB body -> In ","%char body -> Delimiter body false.
Definition blankc (c : ascii) : Prop := c = SP \/ c = TAB.
(** [Marker m p] : in m ++ p, the marker with the blanks and the end of line behind it, then p *)
Inductive Eol : str -> str -> Prop :=
| E_crlf p : Eol [CR; NL] p
| E_cr p : (forall x, p <> NL :: x) -> Eol [CR] p
| E_nl p : Eol [NL] p
| E_none p : (forall x, p <> NL :: x) -> (forall x, p <> CR :: x) -> (forall c x, p = c :: x -> ~ blankc c) -> Eol [] p.
Inductive Marker : str -> str -> Prop :=
| M_marker w e p : Forall blankc w -> Eol e p -> Marker (marker ++ w ++ e) p.
Definition Blank (l : str) : Prop := Forall (fun c => blankc c \/ c = CR) l.
(** [Data d after] : the lines of d ++ after up to a blank line *)
Inductive Data : str -> str -> Prop :=
| T_end : Data [] []
| T_blank l x : Blank l -> ~ In NL l -> (x = [] /\ l <> [] \/ exists y, x = NL :: y) -> Data [] (l ++ x)
| T_last l : ~ Blank l -> ~ In NL l -> Data l []
| T_line l d after : ~ Blank l -> ~ In NL l -> Data d after -> Data (l ++ NL :: d) after.

Section Conv.
  Variable tab : str -> bool -> str -> Prop.
  (** [Converted s o] : o is s with the table blocks replaced *)
  Inductive Converted : str -> str -> Prop :=
  | K_end : Converted [] []
  | K_char c s o : (forall x, c :: s <> ticks ++ x) -> (forall x, c :: s <> marker ++ x) ->
      Converted s o -> Converted (c :: s) (c :: o)
  | K_code blk info body closed rest o : Fence blk info body closed rest ->
      (~ Table_info info \/ (forall t, ~ Delimiter body t)) ->
      Converted rest o -> Converted (blk ++ rest) (blk ++ o)
  | K_fence_line blk info body tail rest tsv t o : Fence blk info body true (tail ++ NL :: rest) ->
      Table_info info -> Delimiter body tsv -> ~ In NL tail -> tab body tsv t ->
      Converted rest o -> Converted (blk ++ tail ++ NL :: rest) (t ++ NL :: o)
  | K_fence_end blk info body closed tail tsv t : Fence blk info body closed tail ->
      Table_info info -> Delimiter body tsv -> ~ In NL tail -> tab body tsv t ->
      Converted (blk ++ tail) t
  | K_marker_keep m d after o : Marker m (d ++ after) -> Data d after -> (forall t, ~ Delimiter d t) ->
      Converted after o -> Converted (m ++ d ++ after) (m ++ d ++ o)
  | K_marker m d after tsv t o : Marker m (d ++ after) -> Data d after -> Delimiter d tsv -> tab d tsv t ->
      Converted after o -> Converted (m ++ d ++ after) (t ++ o).
End Conv.

(** The user guide's rule: only the lines that are not blank count. *)
Definition on_line (c : ascii) (body : str) : Prop :=
  exists a l b, body = a ++ l ++ b /\ ~ In NL l /\ In c l /\ ~ Blank l /\
    (a = [] \/ exists a', a = a' ++ [NL]) /\ (b = [] \/ exists b', b = NL :: b').
Inductive Guide (body : str) : option bool -> Prop :=
| G_tab : on_line TAB body -> Guide body (Some true)
| G_comma : ~ on_line TAB body -> on_line ","%char body -> Guide body (Some false)
| G_none : ~ on_line TAB body -> ~ on_line ","%char body -> Guide body None.
(** No block of either kind begins inside [pre] when [x] follows it. *)
Definition quiet (pre x : str) : Prop := forall w a b, w = ticks \/ w = marker -> pre ++ x = a ++ w ++ b -> length pre <= length a.
(** No table is asked for. *)
Definition no_fence (s : str) : Prop :=
  forall a info b, s = a ++ ticks ++ info ++ b -> ~ In NL info -> (b = [] \/ exists x, b = NL :: x) -> ~ Table_info info.
Definition no_request (s : str) : Prop := ~ has marker s /\ no_fence s.
