(** Model of the man page output of src/ast_man.c, roff part (51-585): a document is written as the
    source of a manual page.  Allocation never fails, so that a buffer (25-48) is the list of the
    bytes appended to it.  Documents are the trees of [M_Md]. *)
From Verif Require Import Base Dec M_Md.

(** 53 *)
Definition at_start (b : str) : bool := match rev b with [] => true | c :: _ => ceq c NL end.
(** 54-90.  The third byte of a dash may be looked for one place behind the end (75, 80: [i + 2 <=
    len]); what stands there (the terminator, <, & or a line end) is never that byte. *)
Fixpoint roff (start : bool) (s : str) : str :=
  match s with
  | [] => []
  | c :: r =>
      if ceq c BS then B "\e" ++ roff false r
      else if ceq c NL then NL :: roff true r
      else if start && (ceq c "."%char || ceq c SQ) then B "\&" ++ c :: roff false r
      else if ceq c "-"%char then B "\-" ++ roff false r
      else match r with
           | d :: e :: r' =>
               if ceq c "226"%char && ceq d "128"%char && ceq e "147"%char then B "\-\-" ++ roff false r'
               else if ceq c "226"%char && ceq d "128"%char && ceq e "148"%char then B "\[em]" ++ roff false r'
               else c :: roff false r
           | _ => c :: roff false r
           end
  end.
(** 51-92 *)
Definition add_roff (b s : str) : str := b ++ roff (at_start b) s.

(** 103-126: what the entity stands for and its length *)
Definition entity (s : str) : option (str * nat) :=
  if starts (B "&lt;") s then Some (B "<", 4)
  else if starts (B "&gt;") s then Some (B ">", 4)
  else if starts (B "&amp;") s then Some (B "&", 5)
  else if starts (B "&quot;") s then Some ([DQ], 6)
  else if starts (B "&#39;") s then Some ([SQ], 5)
  else None.
(** strncmp of the [n] bytes of a tag with a string that may be shorter. *)
Definition tag_is (n : nat) (lit tag : str) : bool := (length tag =? n) && seq_ (firstn n tag) lit.
(** 137-149 *)
Definition tag_roff (tag : str) : str :=
  if tag_is 8 (B "<strong>") tag then B "\f[B]"
  else if tag_is 9 (B "</strong>") tag then B "\f[]"
  else if tag_is 5 (B "<em>") tag then B "\f[I]"
  else if tag_is 6 (B "</em>") tag then B "\f[]"
  else if tag_is 6 (B "<code>") tag then B "\fR"
  else if tag_is 7 (B "</code>") tag then B "\f[]"
  else [].
Definition neither (c : ascii) : bool := negb (ceq c "<"%char) && negb (ceq c "&"%char).
(** 129-166.  [None]: not finished after [fuel] rounds. *)
Fixpoint fragment (fuel : nat) (b s : str) : option str :=
  match fuel with
  | 0 => None
  | S fuel =>
      let text := let (x, r) := span neither s in fragment fuel (add_roff b x) r in
      let other :=
        match s with
        | c :: _ => if ceq c "&"%char then
              match entity s with Some (x, n) => fragment fuel (b ++ x) (skipn n s) | None => text end
            else text
        | [] => text
        end in
      match s with
      | [] => Some b
      | c :: _ =>
          if ceq c "<"%char then
            match strchr ">"%char s with
            | Some k => fragment fuel (b ++ tag_roff (firstn (k + 1) s)) (skipn (k + 1) s)
            | None => other
            end
          else other
      end
  end.
(** Rounds that are enough when the loop ends at all. *)
Definition fragment_of (b s : str) : option str := fragment (S (length s)) b s.

(** 169-172 *)
Definition is_dl (s : str) : bool :=
  let t := snd (span (fun c => ceq c SP || ceq c NL || ceq c TAB) s) in
  starts (B "<dl>") t || (starts (B "<dl ") t && (4 <? length t)).
(** 175-221: find_dt and find_dd with [t] for dt or dd; the content *)
Definition find_d (t : str) (s : str) : option str :=
  match strstr (B "<" ++ t) s with
  | Some k =>
      let s1 := skipn k s in
      if length s1 <? 4 then None
      else
        match strchr ">"%char (skipn 3 s1) with
        | Some j =>
            let s2 := snd (span (fun c => ceq c SP || ceq c NL) (skipn (j + 1) (skipn 3 s1))) in
            match strstr (B "</" ++ t ++ B ">") s2 with
            | Some e => if length (skipn e s2) <? 6 then None else Some (firstn e s2)
            | None => None
            end
        | None => None
        end
  | None => None
  end.
(** 224-235.  [Some None]: not such a block; [None]: it does not end. *)
Definition render_dl (b s : str) : option (option str) :=
  if negb (is_dl s) then Some None
  else
    match find_d (B "dt") s, find_d (B "dd") s with
    | Some t, Some d =>
        match fragment_of (b ++ [NL] ++ B ".TP" ++ [NL]) t with
        | Some b1 => match fragment_of (b1 ++ [NL]) d with Some b2 => Some (Some (b2 ++ [NL])) | None => None end
        | None => None
        end
    | _, _ => Some None
    end.

(** 241-252 *)
Fixpoint plain_text (n : node) : str :=
  match n with Node k ch =>
  let fix all (l : list node) := match l with [] => [] | c :: l => plain_text c ++ all l end in
  match k with Text s | Code s => s | _ => all ch end end.
(** 255-272; [None] as well for an empty heading *)
Fixpoint first_h1 (l : list node) : option str :=
  match l with
  | [] => None
  | (Node (Heading 1) _ as h) :: _ => match plain_text h with [] => None | t => Some t end
  | _ :: l => first_h1 l
  end.

(** 335-389 *)
Fixpoint inline (b : str) (n : node) : str :=
  match n with Node k ch =>
  let fix all (b : str) (l : list node) := match l with [] => b | c :: l => all (inline b c) l end in
  match k with
  | Text s => add_roff b s
  | Code s => add_roff (b ++ B "\fR") s ++ B "\f[]"
  | Hard => b ++ [NL] ++ B ".br" ++ [NL]
  | Soft => b ++ B " "
  | Strong => all (b ++ B "\f[B]") ch ++ B "\f[]"
  | Emph => all (b ++ B "\f[I]") ch ++ B "\f[]"
  | Link u _ =>
      let b' := all b ch in
      match opt u with [] => b' | url => add_roff (b' ++ B " (") url ++ B ")" end
  | Html _ => b
  | _ => all b ch
  end end.
Definition inlines (b : str) (l : list node) : str := fold_left inline l b.
(** 480-499; [fuel] is the length of the literal *)
Definition is_nl (c : ascii) : bool := ceq c NL.
Fixpoint code_lines (fuel : nat) (b s : str) : str :=
  match fuel with
  | 0 => b
  | S fuel =>
      match s with
      | [] => b
      | c :: _ =>
          if is_nl c then code_lines fuel (b ++ [NL]) (snd (span is_nl s))
          else let (x, r) := span (fun c => negb (is_nl c)) s in code_lines fuel (add_roff b x) r
      end
  end.
Definition glue (b : str) : str := if at_start b then b else b ++ B " ".
(** 400-545.  [parent], [first]: the parent of the node, and whether it is the first child; [dd]: the
    static roff_last_was_dl_dd (398).  [None]: it does not end. *)
Fixpoint block (parent : option kind) (first : bool) (n : node) (b : str) (dd : bool) : option (str * bool) :=
  match n with Node k ch =>
  let fix all (first : bool) (l : list node) (b : str) (dd : bool) :=
    match l with
    | [] => Some (b, dd)
    | c :: l => match block (Some k) first c b dd with Some (b', dd') => all false l b' dd' | None => None end
    end in
  match k with
  | Document => all true ch b dd
  | Heading level => Some (inlines (b ++ [NL] ++ (if level =? 1 then B ".SH " else B ".SS ")) ch ++ [NL], false)
  | Paragraph =>
      let in_item := match parent with Some (Item _) => true | _ => false end in
      let in_data := match parent with Some DefData => first | _ => false end in
      let in_term := match parent with Some DefTerm => true | _ => false end in
      let content := match ch with [] => false | _ => true end in
      let b1 := if in_item || in_data || in_term || dd then b else b ++ [NL] ++ B ".PP" ++ [NL] in
      let b2 := if dd && content then glue b1 else b1 in
      Some (inlines b2 ch ++ (if content then [NL] else []), dd && negb content)
  | Lst _ _ => all true ch b false
  | Item index =>
      let b1 := b ++ [NL] ++
        match parent with
        | Some (Lst false _) => B ".IP \(bu 2"
        | _ => B ".IP " ++ [DQ] ++ dec index ++ B "." ++ [DQ] ++ B " 4"
        end ++ [NL] in
      all true ch b1 dd
  | CodeBlock _ lit =>
      let in_item := match parent with Some (Item _) => true | _ => false end in
      if dd || in_item then Some (add_roff (glue b) (opt lit) ++ [NL], false)
      else Some (code_lines (length (opt lit)) (b ++ [NL] ++ B ".PP" ++ [NL] ++ B ".nf" ++ [NL] ++ B "\fR" ++ [NL]) (opt lit)
                 ++ [NL] ++ B "\f[]" ++ [NL] ++ B ".fi" ++ [NL], false)
  | Quote =>
      match all true ch (b ++ [NL] ++ B ".RS" ++ [NL]) false with
      | Some (b', dd') => Some (b' ++ [NL] ++ B ".RE" ++ [NL], dd')
      | None => None
      end
  | Rule => Some (b ++ [NL] ++ B ".PP" ++ [NL] ++ B "  *  *  *  *  *" ++ [NL], false)
  | HtmlBlock lit =>
      match opt lit with
      | [] => Some (b, dd)
      | s => match render_dl b s with
             | Some (Some b') => Some (b', true)
             | Some None => Some (b, dd)
             | None => None
             end
      end
  | DefTerm => all true ch (b ++ [NL] ++ B ".TP" ++ [NL]) false
  | _ => all true ch b false
  end end.
(** 564-575 *)
Definition title_line (title : str) : str :=
  add_roff (B ".TH " ++ [DQ]) title ++ [DQ] ++ B " " ++ [DQ] ++ B "1" ++ [DQ] ++ B " " ++ [DQ] ++ B "1 January 1970" ++ [DQ]
  ++ B " " ++ [DQ] ++ [DQ] ++ [NL].
(** 551-584: the text and the static that is left *)
Definition to_roff (dd : bool) (doc : node) : option (str * bool) :=
  let title := match doc with
               | Node Document ch => match first_h1 ch with Some t => t | None => B "Document" end
               | _ => B "Document"
               end in
  block None true doc (title_line title) dd.
