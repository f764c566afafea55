(** Model of apex_csv_to_table (src/extensions/includes.c 182-449) and of
    src/extensions/inline_tables.c: comma or tab separated data become pipe tables.  Allocation
    never fails.  A store outside an allocated buffer is the outcome [Overrun]. *)
From Verif Require Import Base.

Inductive res := Null | Table (t : str) | Overrun.

(** includes.c 200-204, 292-294: the lines; the last one may lack its newline *)
Fixpoint lines_ (s : str) : list str :=
  match s with
  | [] => []
  | c :: r =>
      if ceq c NL then [] :: lines_ r
      else match lines_ r with [] => [[c]] | l :: ls => (c :: l) :: ls end
  end.
(** includes.c 240-288: the cells of a line *)
Fixpoint cells_ (d : ascii) (line : str) : list str :=
  match line with
  | [] => [[]]
  | c :: r =>
      if ceq c d then [] :: cells_ d r
      else match cells_ d r with [] => [[c]] | l :: ls => (c :: l) :: ls end
  end.
(** includes.c 334-338, inline_tables.c 50-51 *)
Definition trim_ (s : str) : str :=
  let a := snd (span isspace s) in
  rev (snd (span isspace (rev a))).
Inductive align := ALeft | ARight | ACenter | AAuto.
(** includes.c 332-362: a cell of the alignment row *)
Definition keyword (cell : str) : option align :=
  let t := trim_ cell in
  if length t =? 0 then None
  else if 16 <=? length t then None
  else
    let buf := map tolower t in
    if seq_ buf (B "left") then Some ALeft
    else if seq_ buf (B "right") then Some ARight
    else if seq_ buf (B "center") then Some ACenter
    else if seq_ buf (B "auto") then Some AAuto
    else None.
Fixpoint keywords (cells : list str) : option (list align) :=
  match cells with
  | [] => Some []
  | c :: cs =>
      match keyword c with
      | None => None
      | Some a => match keywords cs with None => None | Some l => Some (a :: l) end
      end
  end.
(** includes.c 316-372 *)
Definition alignment (col_count : nat) (rows : list (list str)) : option (list align) :=
  match rows with
  | _ :: arow :: _ => if length arow =? col_count then keywords arow else None
  | _ => None
  end.
(** includes.c 393-404, 430-441 *)
Fixpoint emit_cells (n : nat) (cells : list str) : str :=
  match n with
  | 0 => []
  | S n' => SP :: match cells with [] => [] | c :: _ => c end ++ [SP; "|"%char] ++ emit_cells n' (tl cells)
  end.
Definition emit_row (n : nat) (cells : list str) : str := "|"%char :: emit_cells n cells ++ [NL].
(** includes.c 410-419 *)
Definition spec_of (a : align) : str :=
  match a with ALeft => B " :--- " | ARight => B " ---: " | ACenter => B " :---: " | AAuto => B " --- " end.
Definition emit_sep (n : nat) (a : option (list align)) : str :=
  "|"%char :: concat (map (fun x => spec_of x ++ B "|") (match a with Some l => l | None => repeat AAuto n end)) ++ [NL].
(** includes.c 182-449.  The buffer has strlen * 4 + 64 bytes (375) and every store (390-444) is
    at the next free byte, unchecked. *)
Definition csv_to_table (s : str) (is_tsv : bool) : res :=
  let d := if is_tsv then TAB else ","%char in
  match map (cells_ d) (lines_ s) with
  | [] => Null
  | row0 :: more =>
      let n := length row0 in
      let a := alignment n (row0 :: more) in
      let data := match a with Some _ => tl more | None => more end in
      let out := emit_row n row0 ++ emit_sep n a ++ concat (map (emit_row n) data) in
      if length s * 4 + 64 <? length out + 1 then Overrun else Table out
  end.

(** inline_tables.c 14-27 *)
Definition detect_delimiter (s : str) : option bool :=
  if existsb (ceq TAB) s then Some true
  else if existsb (ceq ","%char) s then Some false else None.
(** inline_tables.c 50-59 *)
Definition is_table_fence (info : str) : bool :=
  let t := trim_ info in (length t =? 5) && seq_ (map tolower t) (B "table").
(** inline_tables.c 209-212 *)
Definition blank_ (line : str) : bool :=
  forallb (fun c => ceq c SP || ceq c TAB || ceq c CR) line.
Fixpoint upto_blank (ls : list str) : list str :=
  match ls with [] => [] | l :: r => if blank_ l then [] else l :: upto_blank r end.
(** inline_tables.c 198-220: how many bytes data_start..data_end has; a missing final newline does
    not count (the caller uses firstn and skipn) *)
Definition data_len (p : str) : nat := list_sum (map (fun l => S (length l)) (upto_blank (lines_ p))).
(** inline_tables.c 189-192 *)
Definition skip_eol (p : str) : str :=
  let p := snd (span (fun c => ceq c SP || ceq c TAB) p) in
  let p := match p with c :: r => if ceq c CR then r else p | [] => p end in
  match p with c :: r => if ceq c NL then r else p | [] => p end.

(** The output buffer: [used] bytes of [cap] written.  "if (write + k >= out + capacity)" before
    each block: 77-86, 119-128, 136-146, 167-176, 225-234, 248-257, 277-286, 294-304 *)
Definition room (k used cap : nat) : nat := if cap <=? used + k then (used + k + 1) * 2 else cap.
Inductive outcome := Done (out : str) | Bad | NoFuel.
Definition cons_ (t : str) (o : outcome) : outcome := match o with Done x => Done (t ++ x) | _ => o end.
(** a block stored after making room *)
Definition copy (t : str) (used cap : nat) (k : nat -> nat -> outcome) : outcome :=
  cons_ t (k (used + length t) (room (length t) used cap)).
(** inline_tables.c 43-73: the info string, the lines and, if there is a closing fence, what follows it *)
Definition fence_parts (s : str) : str * str * option str :=
  let '(info, p) := span (fun x => negb (ceq x NL)) (skipn 3 s) in
  let body := match p with _ :: b => b | [] => [] end in
  match strstr (B "```") body with
  | Some k => (info, firstn k body, Some (skipn (k + 3) body))
  | None => (info, body, None)
  end.
(** inline_tables.c 40-326: [s] is what [read] points at *)
Fixpoint go (fuel used cap : nat) (s : str) : outcome :=
  match fuel with
  | 0 => NoFuel
  | S fuel' =>
    match s with
    | [] => if used <? cap then Done [] else Bad
    | c :: r =>
        if starts (B "```") s then
          let '(info, content, closed) := fence_parts s in
          let after := match closed with Some x => x | None => [] end in
          let block := firstn (length s - length after) s in
          if is_table_fence info then
            match detect_delimiter content with
            | None => copy block used cap (fun u c => go fuel' u c after)
            | Some is_tsv =>
                match csv_to_table content is_tsv with
                | Overrun => Bad
                | Null => copy block used cap (fun u c => go fuel' u c after)
                | Table t =>
                    copy t used cap (fun u c =>
                      match snd (span (fun x => negb (ceq x NL)) after) with
                      | [] => go fuel' u c []
                      | _ :: p' => if u <? c then cons_ [NL] (go fuel' (S u) c p') else Bad
                      end)
                end
            end
          else copy block used cap (fun u c => go fuel' u c after)
        else if starts (B "<!--TABLE-->") s then
          let p := skip_eol (skipn 12 s) in
          let marker := firstn (length s - length p) s in
          let k := data_len p in
          let data := firstn k p in
          let after := skipn k p in
          match data with
          | [] => copy marker used cap (fun u c => go fuel' u c p)
          | _ =>
              match detect_delimiter data with
              | None => copy (marker ++ data) used cap (fun u c => go fuel' u c after)
              | Some is_tsv =>
                  match csv_to_table data is_tsv with
                  | Overrun => Bad
                  | Null => copy (marker ++ data) used cap (fun u c => go fuel' u c after)
                  | Table t => copy t used cap (fun u c => go fuel' u c after)
                  end
              end
          end
        else
          (** 315-326 *)
          if used <? cap then
            cons_ [c] (go fuel' (S used) (if cap <=? S used + 1 then S used * 2 + 1 else cap) r)
          else Bad
    end
  end.
(** inline_tables.c 30-332 *)
Definition inline_tables (s : str) : outcome := go (S (length s)) 0 (length s * 3 + 1) s.
