(** Tables without separator row and separators without header: src/extensions/relaxed_tables.c and the two calls in src/apex.c 4357-4436.
    Simplifications: allocation never fails; [int] and [size_t] do not overflow; the array of collected rows, which is grown when full (710-731), is a list; that it is allocated anew for every first row and not freed (a leak) is left out. *)
From Verif Require Import Base.

(** The lines of a text with whether a newline follows: relaxed_tables.c 305-314, 1089-1101 *)
Fixpoint cut_lines (s : str) : list (str * bool) :=
  match s with
  | [] => []
  | c :: r => if ceq c NL then ([], true) :: cut_lines r else match cut_lines r with [] => [([c], false)] | (l, b) :: t => (c :: l, b) :: t end
  end.

Definition gap (c : ascii) : bool := ceq c SP || ceq c TAB.
Definition pipe_first (l : str) : bool := match snd (span gap l) with [] => false | c :: _ => ceq c "|" end.
Definition pipes (l : str) : nat := length (filter (fun c => ceq c "|") l).

(** count_columns, 21-77; [None] is -1 *)
Definition columns (l : str) : option nat := if pipes l =? 0 then None else Some (if pipe_first l then pipes l - 1 else pipes l + 1).

(** is_blank_line, 82-92 *)
Definition is_blank (l : str) : bool := forallb isspace l.

(** is_horizontal_rule, 97-119 *)
Definition is_rule (l : str) : bool :=
  let l := snd (span gap l) in
  forallb (fun c => ceq c "-" || ceq c SP || ceq c TAB || ceq c NL || ceq c CR) l && (3 <=? length (filter (fun c => ceq c "-") l)).

(** is_separator_row, 125-151 *)
Definition is_sep (l : str) : bool :=
  if is_rule l then false
  else forallb (fun c => ceq c "-" || ceq c "|" || ceq c SP || ceq c TAB || ceq c ":" || ceq c "+") l && existsb (fun c => ceq c "-") l && existsb (fun c => ceq c "|") l.

(** generate_separator_row, 159-201: the size of the allocation and what is written before the NUL *)
Fixpoint times (n : nat) (x : str) : str := match n with 0 => [] | S n => x ++ times n x end.
Definition sep_row (n : nat) (p : bool) : option (nat * str) :=
  if n <? 1 then None
  else Some (if p then (2 + n * 6 + 1 + 1, B "| " ++ times (n - 1) (B "--- | ") ++ B "--- |" ++ [NL])
             else (1 + n * 4 + 1 + 1, times n (B "---|") ++ [NL])).

(** is_table_row, 206-226 *)
Definition is_row (l : str) : bool := existsb (fun c => ceq c "|") l && existsb (fun c => negb (ceq c "|") && negb (isspace c) && negb (ceq c "-")) l.

(** generate_dummy_header_row, 234-267 *)
Definition dummy (n : nat) (p : bool) : option (nat * str) :=
  if n <? 1 then None
  else Some (if p then (2 + n * 4 + 1 + 1, B "| " ++ times (n - 1) (B " | ") ++ B " |" ++ [NL])
             else (n * 3 + 1 + 1, times n (B " | ") ++ [NL])).

(** The output: capacity, bytes written, and whether a byte went beyond a buffer *)
Record buf := Buf { b_cap : nat; b_out : str; b_bad : bool }.
Definition remaining (b : buf) : nat := b_cap b - length (b_out b).
Definition grow (b : buf) : buf := Buf (b_cap b * 2) (b_out b) (b_bad b).
Definition write (x : str) (b : buf) : buf := Buf (b_cap b) (b_out b ++ x) (b_bad b || (b_cap b <? length (b_out b) + length x)).
Definition fail (b : buf) : buf := Buf (b_cap b) (b_out b) true.

(** The lines that occur everywhere, for example 324-365: copy, growing once if there is no room; then the newline if there is room *)
Definition put (x : str) (b : buf) : buf := write x (if length x <? remaining b then b else grow b).
Definition newline (b : buf) : buf := if 0 <? remaining b then write [NL] b else b.
Definition put_line (nl : bool) (x : str) (b : buf) : buf := if nl then newline (put x b) else put x b.

Record row := Row { w_text : str; w_cols : nat; w_pipe : bool }.

Definition put_sep (r : row) (b : buf) : buf :=
  match sep_row (w_cols r) (w_pipe r) with
  | None => b
  | Some (size, x) => put x (if size <? length x + 1 then fail b else b)
  end.

Definition put_rows (nl : bool) (rs : list row) (b : buf) : buf := fold_left (fun b r => put_line nl (w_text r) b) rs b.
(** 318-394: a table: the separator behind the first row *)
Definition put_table (nl : bool) (rs : list row) (b : buf) : buf :=
  match rs with
  | [] => b
  | r :: rs' => put_rows nl rs' (put_sep r (put_line nl (w_text r) b))
  end.

(** 967-1020: the table at the end, where the newline is written without looking *)
Definition put_last (x : str) (b : buf) : buf := write [NL] (put x b).
Definition put_end (rs : list row) (b : buf) : buf :=
  match rs with
  | [] => b
  | r :: rs' => fold_left (fun b r => put_last (w_text r) b) rs' (put_sep r (put_last (w_text r) b))
  end.

Record state := State { s_rows : list row; s_buf : buf; s_changed : bool }.

(** One line, 305-962. The second test for a separator, 626-700, is never true. *)
Definition line_step (st : state) (ln : str * bool) : state :=
  let (l, nl) := ln in
  let rs := s_rows st in let b := s_buf st in let ch := s_changed st in
  if is_blank l then
    if 2 <=? length rs then State [] (newline (put_table nl rs b)) true
    else State rs (put_line nl l b) ch
  else if is_sep l then State [] (put_line nl l (put_rows nl rs b)) ch
  else if is_rule l then State [] (put_line nl l (put_rows nl rs b)) ch
  else
    match columns l with
    | Some (S n) =>
        let w := Row l (S n) (pipe_first l) in
        match rs with
        | r :: _ => if w_cols r =? S n then State (rs ++ [w]) b ch else State [w] (put_rows nl rs b) ch
        | [] => State [w] b ch
        end
    | _ =>
        if 2 <=? length rs then State [] (put_line nl l (put_table nl rs b)) true
        else State [] (put_line nl l (put_rows nl rs b)) ch
    end.

Inductive answer := Same | Out (s : str) | Bad.

Definition last_nl (s : str) : bool := match rev s with c :: _ => ceq c NL | [] => false end.

(** apex_process_relaxed_tables_impl, 272-1076 *)
Definition relaxed (text : str) : answer :=
  match text with
  | [] => Same
  | _ =>
      let st := fold_left line_step (cut_lines text) (State [] (Buf (length text * 2) [] false) false) in
      let rs := s_rows st in
      let b := if 2 <=? length rs then put_end rs (s_buf st)
               else put_rows (last_nl text) rs (s_buf st) in
      if b_bad b then Bad
      else if negb (s_changed st) && (length text =? length (b_out b)) then Same
      else if (length text =? length (b_out b)) && seq_ text (b_out b) then Same
      else Out (b_out b)
  end.

(** 1112-1137: what comes behind the separator *)
Fixpoint row_follows (ls : list (str * bool)) : bool :=
  match ls with
  | [] => false
  | (l, _) :: r => if is_blank l then row_follows r else is_row l
  end.

(** 1155-1166; the fuel is enough *)
Fixpoint grow_to (fuel need : nat) (b : buf) : buf :=
  match fuel with
  | 0 => fail b
  | S fuel => if b_cap b <? need then grow_to fuel need (grow b) else b
  end.

(** 1102-1205 *)
Fixpoint headers (prev : bool) (ls : list (str * bool)) (b : buf) (ch : bool) : buf * bool :=
  match ls with
  | [] => (b, ch)
  | (l, nl) :: r =>
      let '(b, ch) :=
        if is_sep l && negb prev && row_follows r then
          match columns l with
          | Some n =>
              match dummy n (pipe_first l) with
              | Some (size, x) =>
                  let need := length (b_out b) + length x + length l + 10 in
                  (write x (grow_to (S need) need (if size <? length x + 1 then fail b else b)), true)
              | None => (b, ch)
              end
          | None => (b, ch)
          end
        else (b, ch) in
      let b := write l (if remaining b <? length l + 1 then grow b else b) in
      headers (is_row l && negb (is_sep l)) r (if nl then write [NL] b else b) ch
  end.

(** apex_process_headerless_tables, 1082-1230 *)
Definition headerless (text : str) : answer :=
  match text with
  | [] => Same
  | _ =>
      let (b, ch) := headers false (cut_lines text) (Buf (length text * 2) [] false) false in
      if b_bad b then Bad
      else if remaining b =? 0 then Same
      else if negb ch && (length text =? length (b_out b)) then Same
      else if (length text =? length (b_out b)) && seq_ text (b_out b) then Same
      else Out (b_out b)
  end.

(** apex.c 4360-4395 and 4404-4435: the text with a newline at the end is looked at; if nothing changes the text stays as it is *)
Definition closed (text : str) : str :=
  match rev text with
  | [] => text
  | c :: _ => if ceq c NL || ceq c CR then text else text ++ [NL]
  end.
Definition stage (f : str -> answer) (text : str) : option str :=
  match f (closed text) with Same => Some text | Out t => Some t | Bad => None end.
