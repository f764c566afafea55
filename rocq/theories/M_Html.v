(** Model of the text filters of src/html_renderer.c that run over the finished
    HTML: tag spacing, newlines between tags, blank table lines, separator rows,
    heading levels, quote language.  Allocation never fails. *)
From Verif Require Import Base.

(** ** 1414-1458, apex_clean_html_tag_spacing *)

(** 1433-1435: take a space written last back. *)
Definition unspace (w : wr) : wr :=
  match rev (w_out w) with
  | c :: r => if ceq c SP then Wr (w_cap w) (rev r) (w_rem w) (w_oob w) else w
  | [] => w
  end.
(** 1426: [<] that does not start a closing tag, comment or declaration. *)
Definition opens (s : str) : bool :=
  ceq (at_ s 0) "<" && negb (ceq (at_ s 1) "/" || ceq (at_ s 1) "!" || ceq (at_ s 1) "?").
Fixpoint clean_loop (s : str) (in_tag last : bool) (w : wr) : wr :=
  match s with
  | [] => w_term w
  | c :: s' =>
      if opens s then clean_loop s' true false (w_store [c] w)
      else if ceq c ">" then clean_loop s' false false (w_store [c] (if last then unspace w else w))
      else if in_tag && isspace c then clean_loop s' in_tag true (if last then w else w_store [SP] w)
      else clean_loop s' in_tag false (w_store [c] w)
  end.
Definition clean_spacing (html : str) : wr := clean_loop html false false (w_new (length html + 1) 0).

(** ** 1478-1523, apex_collapse_intertag_newlines *)
Definition gap (c : ascii) : bool := ceq c SP || ceq c TAB || ceq c NL || ceq c CR.
Definition newline (c : ascii) : bool := ceq c NL || ceq c CR.

(** [Past]: the terminator was copied as if it were text (1517) and the loop goes
    on behind the end of the string. *)
Inductive collapse_result := Collapsed (w : wr) | Past.
Fixpoint collapse_loop (fuel : nat) (s : str) (w : wr) : option collapse_result :=
  match fuel with
  | 0 => None
  | S fuel =>
      match s with
      | [] => Some (Collapsed (w_term w))
      | c :: s' =>
          if ceq c ">" then
            let w1 := w_store [c] w in
            let (ws, look) := span gap s' in
            let n := length (filter newline ws) in
            if Nat.ltb 0 n && ceq (at_ look 0) "<" then
              collapse_loop fuel look (w_store (repeat NL (if Nat.leb 2 n then 2 else 1)) w1)
            else match s' with
                 | [] => Some Past
                 | d :: s'' => collapse_loop fuel s'' (w_store [d] w1)
                 end
          else collapse_loop fuel s' (w_store [c] w)
      end
  end.
Definition collapse (html : str) : option collapse_result :=
  collapse_loop (S (length html)) html (w_new (length html + 1) 0).

(** ** 1824-1879, apex_remove_table_blank_lines *)
Definition table_open (s : str) : bool := starts (B "<table") s && (ceq (at_ s 6) ">" || ceq (at_ s 6) SP).
Definition table_close (s : str) : bool := starts (B "</table>") s.
Definition table_state (s : str) (in_table : bool) : bool :=
  if table_open s then true else if table_close s then false else in_table.

(** [line]: what lies between [line_start] and [read]. *)
Fixpoint blank_loop (s : str) (in_table : bool) (line : str) (is_blank : bool) (w : wr) : wr :=
  match s with
  | [] => w_term (w_store line w)
  | c :: s' =>
      let t := table_state s in_table in
      if ceq c NL then
        if t && is_blank then blank_loop s' t [] true w
        else blank_loop s' t [] true (w_store (line ++ [c]) w)
      else
        blank_loop s' t (line ++ [c]) (if ceq c SP || ceq c TAB || ceq c CR then is_blank else false) w
  end.
Definition remove_blank_lines (html : str) : wr := blank_loop html false [] true (w_new (length html + 1) 0).

(** ** 1528-1571, cell_contains_only_dashes, on the text of the cell.  The byte
    behind a cell is [<], which none of the tested literals contains behind its
    first byte, so a test never depends on what follows the cell. *)
Definition EMDASH : str := ["226"%char; "128"%char; "148"%char].
Fixpoint only_dashes (fuel : nat) (s : str) (has : bool) : option bool :=
  match fuel with
  | 0 => None
  | S fuel =>
      match s with
      | [] => Some has
      | c :: s' =>
          if starts EMDASH s then only_dashes fuel (skipn 3 s) true
          else if ceq c ":" || ceq c "-" || ceq c "|" then
            only_dashes fuel s' (has || ceq c "-" || ceq c ":")
          else if gap c then only_dashes fuel s' has
          else if starts (B "</td>") s || starts (B "</th>") s then only_dashes fuel (skipn 5 s) has
          else if starts (B "<td") s || starts (B "<th") s then
            only_dashes fuel (skipn 1 (snd (span (fun d => negb (ceq d ">")) s))) has
          else Some false
      end
  end.

(** ** 1918-1957: whether a row is a separator row; [n] is the distance to the
    end of the row. *)
Fixpoint separator_row (fuel : nat) (s : str) (n : nat) : option bool :=
  match fuel with
  | 0 => None
  | S fuel =>
      if Nat.eqb n 0 then Some true
      else
        if starts (B "<td") s || starts (B "<th") s then
          match strchr ">" s with
          | None => Some true
          | Some i =>
              let t := skipn (S i) s in
              match strstr (if starts (B "<td") s then B "</td>" else B "</th>") t with
              | None => Some true
              | Some j =>
                  let e := S i + j + 5 in
                  if Nat.leb e n then
                    match only_dashes (S j) (firstn j t) false with
                    | Some true => separator_row fuel (skipn e s) (n - e)
                    | other => other
                    end
                  else Some true
              end
          end
        else separator_row fuel (skipn 1 s) (n - 1)
  end.

(** ** 1887-1978, apex_remove_table_separator_rows *)
Fixpoint rows_loop (fuel : nat) (s : str) (in_table : bool) (w : wr) : option wr :=
  match fuel with
  | 0 => None
  | S fuel =>
      match s with
      | [] => Some (w_term w)
      | c :: s' =>
          if table_open s then rows_loop fuel s' true (w_store [c] w)
          else if table_close s then rows_loop fuel s' false (w_store [c] w)
          else if in_table && starts (B "<tr>") s then
            let r := skipn 4 s in
            match strstr (B "</tr>") r with
            | None => rows_loop fuel r in_table (w_store (B "<tr>") w)
            | Some k =>
                match separator_row (S (k + 5)) r (k + 5) with
                | None => None
                | Some true => rows_loop fuel (skipn (k + 5) r) in_table w
                | Some false => rows_loop fuel r in_table (w_store (B "<tr>") w)
                end
            end
          else rows_loop fuel s' in_table (w_store [c] w)
      end
  end.
Definition remove_separator_rows (html : str) : option wr :=
  rows_loop (S (length html)) html false (w_new (length html + 1) 0).

(** ** 1984-2157, apex_adjust_header_levels *)
Definition level_digit (c : ascii) : bool := between 49 54 c.
Definition level_of (c : ascii) : nat := N.to_nat (code c) - 48.
Definition digit_of (n : nat) : ascii := ascii_of_nat (48 + n).
(** 2011-2025: closing tag?, level *)
Definition header_tag (s : str) : option (bool * nat) :=
  if ceq (at_ s 0) "<" then
    if ceq (at_ s 1) "/" && ceq (at_ s 2) "h" && level_digit (at_ s 3) && ceq (at_ s 4) ">" then
      Some (true, level_of (at_ s 3))
    else if ceq (at_ s 1) "h" && level_digit (at_ s 2) && (ceq (at_ s 3) ">" || isspace (at_ s 3)) then
      Some (false, level_of (at_ s 2))
    else None
  else None.
Definition clamp (n : nat) : nat := if Nat.ltb 6 n then 6 else if Nat.ltb n 1 then 1 else n.
(** A block of [cap] bytes: the old contents, the counter set to what is free. *)
Definition regrow (cap : nat) (w : wr) : wr := Wr cap (w_out w) (cap - length (w_out w)) (w_oob w).
(** Store without looking at the counter, which goes down by as much; every use
    below has made sure that the counter is large enough. *)
Definition w_spend (s : str) (w : wr) : wr := w_set_rem (w_rem w - length s) (w_store s w).
(** 2128-2148 *)
Definition put_char (c : ascii) (w : wr) : wr :=
  if Nat.ltb 0 (w_rem w) then w_spend [c] w else w_spend [c] (regrow ((length (w_out w) + 1) * 2) w).

Fixpoint levels_loop (fuel base : nat) (s : str) (w : wr) : option wr :=
  match fuel with
  | 0 => None
  | S fuel =>
      match s with
      | [] => Some (w_term w)
      | c :: s' =>
          match header_tag s with
          | None => levels_loop fuel base s' (put_char c w)
          | Some (closing, h) =>
              let new := clamp (h + (base - 1)) in
              match strchr ">" s with
              | None => levels_loop fuel base s' (w_put c w)
              | Some e =>
                  let rest := skipn (S e) s in
                  if Nat.eqb new h then
                    let w1 := if Nat.ltb (e + 1) (w_rem w) then w
                              else regrow ((length (w_out w) + (e + 1) + 1) * 2) w in
                    levels_loop fuel base rest (w_spend (firstn (e + 1) s) w1)
                  else
                    let w1 := if Nat.ltb (w_rem w) (e + 10) then regrow ((length (w_out w) + e + 10) * 2) w else w in
                    if closing then levels_loop fuel base rest (w_spend (B "</h" ++ [digit_of new] ++ B ">") w1)
                    else
                      let w2 := w_spend [digit_of new] (w_spend (B "h") (w_spend (B "<") w1)) in
                      let attrs := firstn (e - 3) (skipn 3 s) in
                      let w3 := if Nat.ltb 0 (length attrs) && Nat.leb (length attrs) (w_rem w2)
                                then w_spend attrs w2 else w2 in
                      levels_loop fuel base rest (w_spend (B ">") w3)
              end
          end
      end
  end.
Definition adjust_levels (base : Z) (html : str) : option wr :=
  if ((base <=? 0) || (6 <? base) || (base =? 1))%Z then
    Some (w_term (w_store html (w_new (length html + 1) 0)))
  else levels_loop (S (length html)) (Z.to_nat base) html (w_new (length html + 1024) (length html + 1024)).

(** ** 2163-2354, apex_adjust_quote_language *)

(** 2171-2180: at most 63 bytes of the language, no white space, lower case. *)
Definition language (l : str) : str :=
  firstn 63 (map tolower (filter (fun c => negb (isspace c)) l)).

(** 2182-2232: double open and close, single open and close. *)
Record quotes := Quotes { q_do : str; q_dc : str; q_so : str; q_sc : str }.
Definition quotes_for (l : str) : option quotes :=
  let is a := seq_ l (B a) in
  if is "english"%string || is "en"%string then None
  else if is "french"%string || is "fr"%string then
    Some (Quotes (B "&laquo;&nbsp;") (B "&nbsp;&raquo;") (B "&rsquo;") (B "&rsquo;"))
  else if is "german"%string || is "de"%string then
    Some (Quotes (B "&bdquo;") (B "&ldquo;") (B "&sbquo;") (B "&lsquo;"))
  else if is "germanguillemets"%string then
    Some (Quotes (B "&raquo;") (B "&laquo;") (B "&rsaquo;") (B "&lsaquo;"))
  else if is "spanish"%string || is "es"%string then
    Some (Quotes (B "&laquo;") (B "&raquo;") (B "&lsquo;") (B "&rsquo;"))
  else if is "dutch"%string || is "nl"%string then
    Some (Quotes (B "&bdquo;") (B "&ldquo;") (B "&sbquo;") (B "&lsquo;"))
  else if is "swedish"%string || is "sv"%string then
    Some (Quotes (B "&rdquo;") (B "&rdquo;") (B "&rsquo;") (B "&rsquo;"))
  else None.

(** 2252-2329: the replacement for the quote at the read pointer and the length
    of what it replaces. *)
Definition curly (c : ascii) : str := ["226"%char; "128"%char; c].
Definition quote_at (q : quotes) (s : str) : option (str * nat) :=
  if starts (B "&ldquo;") s then Some (q_do q, 7)
  else if starts (B "&rdquo;") s then Some (q_dc q, 7)
  else if starts (B "&lsquo;") s then Some (q_so q, 7)
  else if starts (B "&rsquo;") s then Some (q_sc q, 7)
  else if starts (curly "156") s then Some (q_do q, 3)
  else if starts (curly "157") s then Some (q_dc q, 3)
  else if starts (curly "152") s then Some (q_so q, 3)
  else if starts (curly "153") s then Some (q_sc q, 3)
  else None.
Fixpoint quotes_loop (fuel : nat) (q : quotes) (s : str) (w : wr) : option wr :=
  match fuel with
  | 0 => None
  | S fuel =>
      match s with
      | [] => Some (w_term w)
      | c :: s' =>
          match quote_at q s with
          | Some (r, k) =>
              if Nat.ltb (length r) (w_rem w) then quotes_loop fuel q (skipn k s) (w_spend r w)
              else quotes_loop fuel q s' (put_char c w)
          | None => quotes_loop fuel q s' (put_char c w)
          end
      end
  end.
Definition adjust_quotes (lang html : str) : option wr :=
  match quotes_for (language lang) with
  | None => Some (w_term (w_store html (w_new (length html + 1) 0)))
  | Some q => quotes_loop (S (length html)) q html (w_new (length html * 2) (length html * 2))
  end.
