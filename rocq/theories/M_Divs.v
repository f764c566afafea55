(** Model of src/extensions/fenced_divs.c.  Texts are without NUL; allocation never fails and malloc(0)
    gives a buffer without a byte.  A store outside a buffer or a read behind the end of one is [Bad]. *)
From Verif Require Import Base.

Inductive answer := Out (s : str) | Bad.
Definition isalnum (c : ascii) : bool := isalpha c || isdigit c.
Definition skip_space (s : str) : str := snd (span isspace s).
Definition drop_back (p : ascii -> bool) (s : str) : str := rev (snd (span p (rev s))).
Definition cstr (s : str) : str := fst (span (fun c => negb (ceq c NUL)) s).

(** * Fences *)
(** fenced_divs.c 17-31 *)
Definition count_colons (line : str) : nat := length (fst (span (ceq ":"%char) (skip_space line))).
(** fenced_divs.c 41-51, 101-107: what stands behind the colons; the line is a copy without its end *)
Definition behind (line : str) : str := skip_space (skipn (count_colons line) (skip_space line)).
(** fenced_divs.c 37-90 *)
Definition opening (line : str) : option str :=
  if count_colons line <? 3 then None
  else
    let a := behind line in
    let t := drop_back isspace (drop_back (ceq ":"%char) a) in
    let t := match t with [] => a | _ => t end in
    if existsb (fun c => negb (isspace c || ceq c ":"%char)) t then Some t else None.
(** fenced_divs.c 95-112 *)
Definition closing (line : str) : bool := (3 <=? count_colons line) && match behind line with [] => true | _ => false end.
(** fenced_divs.c 120-167: the element and the attributes *)
Definition block_type (a : str) : str * str :=
  match skip_space a with
  | c :: r =>
      if ceq c ">"%char then
        match span (fun c => isalnum c || ceq c "-"%char) r with
        | ([], _) => (B "div", a)
        | (t, r) => (t, skip_space r)
        end
      else (B "div", a)
  | [] => (B "div", a)
  end.

(** * Attributes: fenced_divs.c 176-453 *)
Record attrs := Attrs { a_id : option str; a_class : list str; a_pairs : list (str * str) }.
(** 283-293: a value up to its quote; the backslashes stay *)
Fixpoint quoted (q : ascii) (s : str) : option (str * str) :=
  match s with
  | [] => None
  | c :: r =>
      if ceq c q then Some ([], r)
      else
        match ceq c BS, r with
        | true, d :: r' => match quoted q r' with Some (v, t) => Some (c :: d :: v, t) | None => None end
        | _, _ => match quoted q r with Some (v, t) => Some (c :: v, t) | None => None end
        end
  end.
(** 232-331.  [slack]: there is another byte behind the NUL of the text, and it is white space or NUL.
    A word at the end of the text is skipped together with the NUL (330). *)
Fixpoint braces (fuel : nat) (slack : bool) (s : str) (a : attrs) : option attrs :=
  match fuel with
  | O => None
  | S fuel =>
      match skip_space s with
      | [] => Some a
      | c :: r =>
          if ceq c "#"%char then
            let (w, t) := span (fun c => negb (isspace c || ceq c "."%char || ceq c "}"%char)) r in
            braces fuel slack t (match w with [] => a | _ => Attrs (Some w) (a_class a) (a_pairs a) end)
          else if ceq c "."%char then
            let (w, t) := span (fun c => negb (isspace c || ceq c "."%char || ceq c "#"%char || ceq c "}"%char)) r in
            braces fuel slack t (match w with [] => a | _ => Attrs (a_id a) (a_class a ++ [w]) (a_pairs a) end)
          else
            match span (fun c => negb (ceq c "="%char || isspace c || ceq c "}"%char)) (c :: r) with
            | (_, []) => if slack then Some a else None
            | (k, d :: t) =>
                if ceq d "="%char then
                  match t with
                  | q :: t' =>
                      if ceq q DQ || ceq q SQ then
                        match quoted q t' with
                        | Some (v, t) => braces fuel slack t (Attrs (a_id a) (a_class a) (a_pairs a ++ [(k, v)]))
                        | None => braces fuel slack [] a
                        end
                      else
                        let (v, t) := span (fun c => negb (isspace c || ceq c "}"%char)) t in
                        braces fuel slack t (Attrs (a_id a) (a_class a) (a_pairs a ++ [(k, v)]))
                  | [] => braces fuel slack [] (Attrs (a_id a) (a_class a) (a_pairs a ++ [(k, [])]))
                  end
                else braces fuel slack t a
            end
      end
  end.
(** 334-440.  The space for the id is counted one byte short: with 250 bytes the closing quote is cut off,
    and what is written behind the NUL is lost. *)
Definition attr_html (a : attrs) : str :=
  let more :=
    (match a_class a with [] => [] | c :: l => B " class=" ++ [DQ] ++ c ++ flat_map (fun x => SP :: x) l ++ [DQ] end) ++
    flat_map (fun '(k, v) => SP :: k ++ B "=" ++ [DQ] ++ v ++ [DQ]) (a_pairs a) in
  match a_id a with
  | Some i => if length i =? 250 then B " id=" ++ [DQ] ++ i else B " id=" ++ [DQ] ++ i ++ [DQ] ++ more
  | None => more
  end.
(** 176-230 *)
Definition attributes (t : str) : option str :=
  match t with
  | [] => Some []
  | _ =>
      let p := skip_space t in
      let s := drop_back isspace p in
      match s with
      | [] => Some []
      | c :: r =>
          if ceq c "{"%char then
            let closed := match rev r with d :: _ => ceq d "}"%char | [] => false end in
            let slack := closed || (length s <? length p) in
            let body := if closed then removelast r else r in
            match braces (S (length body)) slack body (Attrs None [] []) with
            | Some a => Some (attr_html a)
            | None => None
            end
          else Some (attr_html (Attrs None [fst (span (fun c => negb (isspace c)) s)] []))
      end
  end.

(** fenced_divs.c 460-486 *)
Definition block_tags : list str := map B
  ["address"; "article"; "aside"; "base"; "basefont"; "blockquote"; "body";
   "caption"; "center"; "col"; "colgroup"; "dd"; "details"; "dialog"; "dir";
   "div"; "dl"; "dt"; "fieldset"; "figcaption"; "figure"; "footer"; "form";
   "frame"; "frameset"; "h1"; "h2"; "h3"; "h4"; "h5"; "h6"; "head"; "header";
   "hr"; "html"; "iframe"; "legend"; "li"; "link"; "main"; "menu"; "menuitem";
   "nav"; "noframes"; "ol"; "optgroup"; "option"; "p"; "param"; "section";
   "source"; "title"; "summary"; "table"; "tbody"; "td"; "tfoot"; "th"; "thead";
   "tr"; "track"; "ul"]%string.
Definition is_block (t : str) : bool := existsb (seq_ (map tolower t)) block_tags.
Definition prefix : str := B "<div data-apex-fenced-element=" ++ [DQ].
Definition markdown : str := B " markdown=" ++ [DQ] ++ B "1" ++ [DQ] ++ B ">".
(** fenced_divs.c 606-617, 640-668 *)
Definition open_tag (t a : str) : str := if is_block t then B "<" ++ t ++ a ++ markdown else prefix ++ t ++ [DQ] ++ a ++ markdown.
Definition open_needed (t a : str) : nat := (if is_block t then 16 + length t else 41 + length t) + length a.
Definition close_tag (t : str) : str := B "</" ++ (if is_block t then t else B "div") ++ B ">".

(** * The text: fenced_divs.c 491-785 *)
Record st := St { s_cap : nat; s_out : str }.
Definition room (w : st) : nat := s_cap w - length (s_out w).
(** the buffer grows when there is less than [n] left *)
Definition ensure (n : nat) (w : st) : st := if room w <? n then St ((length (s_out w) + n) * 2) (s_out w) else w.
(** snprintf; the pointer moves by the full length *)
Definition emit (s : str) (w : st) : option st :=
  if length s <? room w then Some (St (s_cap w) (s_out w ++ s))
  else if length s =? room w then Some (St (s_cap w) (s_out w ++ firstn (length s - 1) s ++ [NUL]))
  else None.
Definition store (s : str) (w : st) : option st := if length s <=? room w then Some (St (s_cap w) (s_out w ++ s)) else None.
Definition newline (w : st) : st := if 0 <? room w then St (s_cap w) (s_out w ++ [NL]) else w.
Definition is_eol (c : ascii) : bool := ceq c NL || ceq c CR.
Definition eol (s : str) : str * str :=
  match s with
  | c :: r =>
      if ceq c CR then match r with d :: r' => if ceq d NL then ([CR; NL], r') else ([CR], r) | [] => ([CR], []) end
      else ([c], r)
  | [] => ([], [])
  end.
Fixpoint close_all (stack : list str) (w : st) : option st :=
  match stack with
  | [] => Some w
  | t :: stack => match emit (close_tag t) (ensure (length (close_tag t)) w) with Some w => close_all stack w | None => None end
  end.
Fixpoint divs (fuel : nat) (s : str) (stack : list str) (w : st) : option st :=
  match fuel with
  | O => None
  | S fuel =>
      match s with
      | [] => close_all stack w
      | _ =>
          let (line, r) := span (fun c => negb (is_eol c)) s in
          let (nl, rest) := eol r in
          match opening line with
          | Some a =>
              let (t, a) := block_type a in
              match attributes a with
              | None => None
              | Some h =>
                  match emit (open_tag t h) (ensure (open_needed t h) w) with
                  | Some w => divs fuel rest (t :: stack) (newline w)
                  | None => None
                  end
              end
          | None =>
              match closing line, stack with
              | true, t :: stack' =>
                  match emit (close_tag t) (ensure (length (close_tag t)) w) with
                  | Some w => divs fuel rest stack' w
                  | None => None
                  end
              | _, _ =>
                  match store (line ++ nl) (ensure (length line + 1) w) with
                  | Some w => divs fuel rest stack w
                  | None => None
                  end
              end
          end
      end
  end.
Definition process (text : str) : answer :=
  match divs (S (length text)) text [] (St (length text * 2) []) with
  | Some w => if length (s_out w) <? s_cap w then Out (cstr (s_out w)) else Bad
  | None => Bad
  end.

(** * The HTML: fenced_divs.c 795-925 *)
(** 866-914: where the end tag is *)
Fixpoint close_at (fuel : nat) (s : str) (depth : nat) : option nat :=
  match fuel with
  | O => None
  | S fuel =>
      match s with
      | [] => None
      | _ :: r =>
          if starts (B "</div>") s then
            match depth with
            | S (S d) => option_map (fun k => k + 6) (close_at fuel (skipn 6 s) (S d))
            | _ => Some 0
            end
          else if starts (B "<div") s && (ceq (at_ s 4) ">"%char || isspace (at_ s 4)) then
            let x := fst (span (fun c => negb (ceq c ">"%char)) (skipn 4 s)) in
            option_map (fun k => k + (5 + length x)) (close_at fuel (skipn (5 + length x) s) (S depth))
          else option_map S (close_at fuel r depth)
      end
  end.
(** [n] more bytes do not fit: the buffer is made [extra] longer than what is written *)
Definition grow (n extra : nat) (w : st) : st := if room w <=? n then St (length (s_out w) + extra) (s_out w) else w.
Definition post_end (s : str) (w : st) : answer :=
  let w := grow (length s) (length s + 1) w in
  if length s <? room w then Out (s_out w ++ s) else Bad.
Fixpoint post (fuel n : nat) (s : str) (w : st) : answer :=
  match fuel with
  | O => Bad
  | S fuel =>
      match strstr prefix s with
      | None => post_end s w
      | Some k =>
          match store (firstn k s) (grow k (k + n + 1024) w) with
          | None => Bad
          | Some w =>
              let p := skipn (k + length prefix) s in
              match strchr DQ p with
              | None => post_end s w
              | Some q =>
                  if (q =? 0) || (127 <? q) then post_end s w
                  else
                    let tag := firstn q p in
                    let after := skipn (S q) p in
                    match strchr ">"%char after with
                    | None => post_end s w
                    | Some e =>
                        let rest := skip_space (firstn e after) in
                        let tag' := B "<" ++ tag ++ (match rest with [] => [] | _ => SP :: rest end) ++ B ">" in
                        match store tag' (grow (length rest) (1 + q + 1 + length rest + 1 + 256) w) with
                        | None => Bad
                        | Some w =>
                            let read := skipn (S e) after in
                            match close_at (S (length read)) read 1 with
                            | None => post_end read w
                            | Some c =>
                                match store (firstn c read) (grow c (c + q + 16) w) with
                                | None => Bad
                                | Some w =>
                                    match store (B "</" ++ tag ++ B ">") (grow (q + 3) (q + 3 + 64) w) with
                                    | None => Bad
                                    | Some w => post fuel n (skipn (c + 6) read) w
                                    end
                                end
                            end
                        end
                    end
              end
          end
      end
  end.
Definition postprocess (html : str) : answer := post (S (length html)) (length html) html (St (length html + 1024) []).
