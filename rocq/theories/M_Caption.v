(** Captions of tables before parsing: apex_preprocess_table_captions (src/apex.c 1230-1630) and its call (4476-4517). Allocation never fails; [size_t] does not overflow. *)
From Verif Require Import Base M_Relax M_Spans.

Definition has_bar (l : str) : bool := existsb (fun c => ceq c "|") l.
Definition headed (c : ascii) (p : str) : bool := match p with d :: _ => ceq d c | [] => false end.
Definition some {A} (o : option A) : bool := match o with Some _ => true | None => false end.

(** ** A list of attributes at the end, 1384-1401 and 1474-1491 *)
(** the last { in the first [k] bytes *)
Fixpoint last_open (k : nat) (s : str) : option nat :=
  match k with 0 => None | S j => if ceq (at_ s j) "{" then Some j else last_open j s end.
(** [s] from [caption_start] to [line_end], searched backwards from its byte [k] *)
Fixpoint ial_cut (k : nat) (s : str) : nat :=
  match k with
  | 0 => length s
  | S j =>
      if ceq (at_ s j) "}" then
        match last_open j s with
        | Some o => let c := at_ s (S o) in if ceq c ":" || ceq c "#" || ceq c "." then o else ial_cut j s
        | None => ial_cut j s
        end
      else ial_cut j s
  end.

Fixpoint drop_end (f : ascii -> bool) (s : str) : str :=
  match s with
  | [] => []
  | c :: r => match drop_end f r with [] => if f c then [] else [c] | r' => c :: r' end
  end.

(** 1442-1455, 1521-1534: [rest] from [caption_end] to [line_end] *)
Definition attributes (rest : str) : str := match snd (span isspace rest) with [] => [] | a => SP :: a end.

(** 1364-1419: the caption behind the mark, and what follows it *)
Definition pandoc_caption (s : str) : str * str :=
  let s := snd (span gap s) in
  let k := ial_cut (length s) s in
  let c := drop_end (fun c => ceq c SP || ceq c TAB || ceq c CR) (firstn k s) in
  (c, skipn (length c) s).

(** 1461-1500 *)
Definition colon_caption (s : str) : str * str :=
  let k := ial_cut (length s) s in
  let (w, t) := span isspace (firstn k s) in
  let c := drop_end isspace t in
  (c, skipn (length w + length c) s).

(** 1353-1363: where Table: or table: stands in the line; what comes before and what comes behind *)
Definition mark_split (l : str) : str * str :=
  match strstr (B "Table:") l with
  | Some i => (firstn i l, skipn (i + 6) l)
  | None => match strstr (B "table:") l with
            | Some i => (firstn i l, skipn (i + 6) l)
            | None => let (w, p) := span gap l in (w, skipn 6 p)
            end
  end.

Record cap := Cap { c_code : bool; c_row : bool; c_blank : bool; c_buf : bool; c_sec : bool; c_out : str }.

(** 1276-1333: what a line is *)
Record kinds := Kinds { k_code : bool; k_row : bool; k_blank : bool; k_bracket : bool; k_pandoc : bool; k_colon : bool }.
Definition near (s : cap) : bool := c_row s || c_blank s || c_sec s.
Definition kinds_of (s : cap) (l : str) : kinds :=
  let code := xorb (c_code s) (fence l) in
  let p := snd (span gap l) in
  let blank := negb code && match p with [] => true | _ => false end in
  let bracket := negb code && headed "[" p in
  let other := negb code && negb blank && negb bracket in
  let first := other && (starts (B "Table:") p || starts (B "table:") p) in
  Kinds code (negb code && has_bar l) blank bracket
    (first || other && near s && (some (strstr (B "Table:") p) || some (strstr (B "table:") p)))
    (other && negb first && near s && headed ":" p && match p with _ :: d :: _ => gap d | _ => false end).

(** 1593-1609 *)
Definition after (k : kinds) (s : cap) (buf sec : bool) (o : str) : cap :=
  if k_code k then Cap true (c_row s) (c_blank s) buf sec o
  else if k_row k then Cap false true false buf true o
  else if k_blank k then Cap false (c_row s) true buf sec o
  else if k_bracket k || k_pandoc k || k_colon k then Cap false (c_row s) false buf sec o
  else Cap false false false buf false o.

(** 1249-1592; [e] is the end of the line *)
Definition cap_step (s : cap) (ln : str * str) : cap :=
  let (l, e) := ln in
  let nl := match e with [] => [] | _ => [NL] end in
  let k := kinds_of s l in
  if c_row s && k_bracket k then after k s (c_buf s) (c_sec s) (c_out s ++ [NL] ++ l ++ nl)
  else if k_pandoc k then
    let (x, b) := mark_split l in
    let (c, r) := pandoc_caption b in
    match c with
    | [] => after k s (c_buf s) (c_sec s) (c_out s ++ l ++ nl)
    | _ => after k s false false (c_out s ++ (match x with [] => [] | _ => x ++ [NL] end) ++ [NL] ++ B "[" ++ c ++ B "]" ++ attributes r ++ nl)
    end
  else if c_row s && k_colon k then
    let (c, r) := colon_caption (skipn 2 (snd (span gap l))) in
    after k s false true (c_out s ++ [NL] ++ B "[" ++ c ++ B "]" ++ attributes r ++ nl)
  else if k_blank k && near s then Cap false (c_row s) true true true (c_out s)
  else after k s false (c_sec s) (c_out s ++ (if c_buf s && negb (k_bracket k || k_pandoc k || k_colon k) then [NL] else []) ++ l ++ nl).

(** 1611-1617 *)
Definition ended_out (o : str) : str := match rev o with [] => o | c :: _ => if ceq c NL || ceq c CR then o else o ++ [NL] end.

(** Nothing is checked while writing; the block has 2 * len + 1 bytes. [None]: something is written behind it. *)
Definition captions (text : str) : option str :=
  let o := ended_out (c_out (fold_left cap_step (cut_ends text) (Cap false false false false false []))) in
  if length text * 2 + 1 <? length o + 1 then None else Some o.

(** 4476-4517 *)
Definition captioned (text : str) : option str := captions (closed text).
