(** Model of src/pretty_html.c.  Allocation never fails. *)
From Verif Require Import Base.

(** 13-33 *)
Definition block_tags : list str :=
  map B ["html"; "head"; "body"; "div"; "section"; "article"; "nav"; "header"; "footer";
         "main"; "aside"; "h1"; "h2"; "h3"; "h4"; "h5"; "h6";
         "p"; "blockquote"; "pre"; "ul"; "ol"; "li"; "dl"; "dt"; "dd";
         "table"; "thead"; "tbody"; "tfoot"; "tr"; "th"; "td";
         "figure"; "figcaption"; "details"; "summary"]%string.
Definition inline_tags : list str :=
  map B ["a"; "strong"; "em"; "code"; "span"; "abbr"; "mark"; "del"; "ins";
         "sup"; "sub"; "small"; "i"; "b"; "u"]%string.
Definition void_tags : list str := map B ["meta"; "link"; "br"; "hr"; "img"; "input"]%string.
(** 38-43 *)
Definition in_list (n : str) (l : list str) : bool := existsb (seq_ n) l.

(** 48-73, behind the [<]: name, closing, self-closing. *)
Definition name_byte (c : ascii) : bool := negb (isspace c) && negb (ceq c ">") && negb (ceq c "/").
Definition tag_name (s : str) : option (str * bool * bool) :=
  let closing := ceq (at_ s 0) "/" in
  let (n, r) := span name_byte (if closing then skipn 1 s else s) in
  match n with
  | [] => None
  | _ => Some (n, closing, ceq (at_ (snd (span isspace r)) 0) "/")
  end.

(** 88-95; the buffer. *)
Record ps := Ps { p_w : wr; p_indent : nat; p_ls : bool; p_pre : bool; p_inl : bool; p_row : bool }.
Definition on_w (f : wr -> wr) (p : ps) : ps :=
  Ps (f (p_w p)) (p_indent p) (p_ls p) (p_pre p) (p_inl p) (p_row p).
Definition set_ls (b : bool) (p : ps) : ps := Ps (p_w p) (p_indent p) b (p_pre p) (p_inl p) (p_row p).
Definition set_indent (n : nat) (p : ps) : ps := Ps (p_w p) n (p_ls p) (p_pre p) (p_inl p) (p_row p).
Definition set_pre (b : bool) (p : ps) : ps := Ps (p_w p) (p_indent p) (p_ls p) b (p_inl p) (p_row p).
Definition set_inl (b : bool) (p : ps) : ps := Ps (p_w p) (p_indent p) (p_ls p) (p_pre p) b (p_row p).
Definition set_row (b : bool) (p : ps) : ps := Ps (p_w p) (p_indent p) (p_ls p) (p_pre p) (p_inl p) b.

(** 113-120 *)
Fixpoint repeat_w (n : nat) (w : wr) : wr :=
  match n with
  | 0 => w
  | S n => repeat_w n (w_puts_lt (B "  ") w)
  end.
Definition write_indent (p : ps) : ps :=
  if (p_ls p && negb (p_pre p))%bool then set_ls false (on_w (repeat_w (p_indent p)) p) else p.
Definition new_line (p : ps) : ps := set_ls true (on_w (w_put NL) p).

(** 124-132 *)
Definition expand (w : wr) : wr :=
  if Nat.ltb (w_rem w) 100
  then Wr (w_cap w * 2) (w_out w) (w_cap w * 2 - length (w_out w)) (w_oob w) else w.

(** 198-201 and two more: the whole tag, from [<] on, and what follows. *)
Definition cut_tag (s : str) : str * str :=
  let (a, r) := span (fun c => negb (ceq c ">")) s in
  match r with
  | [] => (a, [])
  | c :: r' => (a ++ [c], r')
  end.

(** 207-222: behind a closing row, the text behind the white space, if a row or the
    end of the table body follows. *)
Definition row_white (c : ascii) : bool := ceq c SP || ceq c TAB || ceq c NL || ceq c CR.
Definition next_row (s : str) : option str :=
  let next := snd (span row_white s) in
  if (starts (B "<tr") next || starts (B "</tbody>") next)%bool then Some next else None.
Definition is_tr (s : str) : bool := starts (B "<tr") s.

(** 154-260 *)
Definition block_tag (n : str) (closing selfc void : bool) (s : str) (p : ps) : str * ps :=
  let row := seq_ n (B "tr") in
  let p :=
    if closing then
      let p := set_indent (p_indent p - 1) p in
      let p := if (negb (p_ls p) && negb (p_inl p) && negb row)%bool then new_line p else p in
      let p := write_indent p in
      if row then set_row true p else p
    else
      let p := if (negb (p_ls p) && negb row)%bool then new_line p else p in
      let p := write_indent p in
      if row then set_row false p else p in
  let (t, r) := cut_tag s in
  let next := if (closing && row)%bool then next_row r else None in
  let p := on_w (w_puts_lt t) p in
  let rest := match next with Some r' => r' | None => r end in
  let p :=
    if (negb closing && negb selfc && negb void)%bool then new_line (set_indent (S (p_indent p)) p)
    else if row then
      match next with
      | Some r' => let p := new_line p in if is_tr r' then set_row true p else p
      | None => set_row true (new_line p)
      end
    else new_line p in
  (rest, p).

(** 134-312: one tag or one byte. *)
Definition content (c : ascii) (p : ps) : ps :=
  let p := if (negb (p_ls p) || p_pre p || negb (ceq c NL))%bool then write_indent p else p in
  let p := on_w (w_put c) p in
  if ceq c NL then set_ls true p else if isspace c then p else set_ls false p.
Definition step (c : ascii) (s : str) (p : ps) : str * ps :=
  let p := on_w expand p in
  match (if ceq c "<" then tag_name s else None) with
  | Some (n, closing, selfc) =>
      let p := if (seq_ n (B "pre") || seq_ n (B "code"))%bool then set_pre (negb closing) p else p in
      if (in_list n block_tags && negb (p_pre p))%bool
      then block_tag n closing selfc (in_list n void_tags) (c :: s) p
      else
        let p := if in_list n inline_tags then set_inl (negb closing) p else p in
        let (t, r) := cut_tag (c :: s) in (r, on_w (w_puts_lt t) p)
  | None => (s, content c p)
  end.
Fixpoint pretty_loop (fuel : nat) (s : str) (p : ps) : option wr :=
  match fuel with
  | 0 => None
  | S fuel =>
      match s with
      | [] => Some (w_term (p_w p))
      | c :: s' => let (r, p') := step c s' p in pretty_loop fuel r p'
      end
  end.

(** 316-348: at most two newlines in a row. *)
Fixpoint collapse (run : nat) (s : str) : str :=
  match s with
  | [] => []
  | c :: s' =>
      if ceq c NL then
        (if Nat.leb (S run) 2 then c :: collapse (S run) s' else collapse (S run) s')
      else c :: collapse 0 s'
  end.

(** 78-355.  The text returned, and whether a byte was stored outside the buffer. *)
Definition pretty (html : str) : option (str * bool) :=
  let cap := length html * 2 in
  option_map (fun w => (collapse 0 (w_out w), w_oob w))
    (pretty_loop (S (length html)) html (Ps (w_new cap cap) 0 true false false false)).
