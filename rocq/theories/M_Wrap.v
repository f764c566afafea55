(** The complete HTML document of standalone mode, the scripts and the embedded style sheets: src/apex.c 5710-5935 and apex_wrap_html_document, 5998-6465.
    Simplifications: malloc and realloc succeed; lengths stay below INT_MAX, so that snprintf does not fail; a C string has no NUL byte; the version string of the project is fixed; PROFILE_ lines are left out. *)
From Verif Require Import Base M_Pass M_WrapData.

(** snprintf into what is left of the buffer, 6097 and the like: when the text does not fit the output is given up ([None]). *)
Definition say (x : str) (o : option wr) : option wr :=
  match o with
  | None => None
  | Some w => if left_ w <=? length x then None else Some (emit x w)
  end.

(** The same with one try in a greater buffer, 6130-6161, 6297-6326, 6335-6356: [n] bytes more, twice over. *)
Definition say_more (n : nat) (x : str) (o : option wr) : option wr :=
  match o with
  | None => None
  | Some w => if left_ w <=? length x then say x (Some (grow n w)) else Some (emit x w)
  end.

(** memcpy after a growth, 6221-6237 and 6279-6295 *)
Definition copy (x : str) (o : option wr) : option wr :=
  match o with
  | None => None
  | Some w => Some (block 1 x w)
  end.

(** 6335 *)
Definition link_line (p : str) : str := B "  <link rel=""stylesheet"" href=""" ++ p ++ B """>" ++ [NL].

(** 6011-6018: the last place of [x], looking at the [n] first places *)
Fixpoint last_of (n : nat) (x s : str) : option nat :=
  match n with
  | O => None
  | S j => if starts x (skipn j s) then Some j else last_of j x s
  end.

(** 6022-6033: from the byte before place [n] backwards *)
Fixpoint body_before (n : nat) (s : str) : option nat :=
  match n with
  | O => None
  | S j =>
      if starts (B "</body>") (skipn j s) then Some j
      else if negb (isspace (at_ s j)) && negb (ceq (at_ s j) ">") then None
      else body_before j s
  end.

(** 6004-6053: how much of the content is kept *)
Definition kept (s : str) : nat :=
  match last_of (length s) (B "</html>") s with
  | None => length s
  | Some h =>
      match body_before h s with
      | None => length s
      | Some b => if forallb isspace (firstn (h - (b + 7)) (skipn (b + 7) s)) then b else length s
      end
  end.

Definition len_of (o : option str) : nat := match o with Some x => length x | None => 0 end.

Definition or_else (o : option str) (d : str) : str := match o with Some x => x | None => d end.

(** 6093-6125 *)
Definition say_opening (l t : str) (w : option wr) : option wr :=
  let w := say (B "<!DOCTYPE html>" ++ [NL] ++ B "<html lang=""" ++ l ++ B """>" ++ [NL] ++ B "<head>" ++ [NL]) w in
  let w := say (B "  <meta charset=""UTF-8"">" ++ [NL]) w in
  let w := say (B "  <meta name=""viewport"" content=""width=device-width, initial-scale=1.0"">" ++ [NL]) w in
  let w := say (B "  <meta name=""generator"" content=""Apex 0.1.85"">" ++ [NL]) w in
  say (B "  <title>" ++ t ++ B "</title>" ++ [NL]) w.

(** 6127-6330 *)
Definition say_code (hl : bool) (w : option wr) : option wr :=
  if hl then
    let w := say_more (6 * 1000) code_style w in
    let w := say (B "    /* Pygments classes */" ++ [NL]) w in
    let w := copy pygments w in
    let w := say (B "    /* Skylighting classes */" ++ [NL]) w in
    let w := copy skylighting w in
    say_more 500 line_numbers w
  else w.

(** 6332-6411 *)
Definition say_sheets (css : option (list str)) (w : option wr) : option wr :=
  match css with
  | Some ps => fold_left (fun w p => say_more (length p + 100) (link_line p) w) ps w
  | None => say default_style w
  end.

(** 6413-6432 *)
Definition say_body (hl : bool) (header : option str) (w : option wr) : option wr :=
  let w := match header with Some h => say (B "  " ++ h ++ [NL]) w | None => w end in
  say (B "</head>" ++ [NL] ++ B "<body" ++ (if hl then B " class=""code-highlighted""" else []) ++ B ">" ++ [NL] ++ [NL]) w.

(** 6434-6461 *)
Definition say_end (content : str) (footer : option str) (w : option wr) : option wr :=
  let w := say content w in
  let w := match footer with Some f => say ([NL] ++ f) w | None => w end in
  say ([NL] ++ B "</body>" ++ [NL] ++ B "</html>" ++ [NL]) w.

(** 5998-6465. [css] is [None] without style sheets (no array, or a count of 0), and otherwise the entries before the first NULL. *)
Definition wrap (content : str) (title : option str) (css : option (list str)) (hl : bool) (header footer lang : option str) : answer :=
  let t := or_else title (B "Document") in
  let l := or_else lang (B "en") in
  let n := kept content in
  let sl := match css with None => 0 | Some ps => fold_right (fun p k => length p + 50 + k) 0 ps end in
  let cap := n + length t + sl + (if hl then 8 * 1000 else 0) + len_of header + len_of footer + length l + 4096 in
  let w := say_end (firstn n content) footer (say_body hl header (say_sheets css (say_code hl (say_opening l t
             (Some {| w_cap := cap + 1; w_out := []; w_bad := false |}))))) in
  match w with
  | Some w => if w_bad w then Bad else if 0 <? left_ w then Out (w_out w) else Out content
  | None => Out content
  end.

(** 5711-5737: the scripts, a newline after each; an empty one is passed over *)
Definition scripts_html (tags : list str) : option str :=
  match filter (fun t => negb (length t =? 0)) tags with
  | [] => None
  | ts => Some (concat (map (fun t => t ++ [NL]) ts))
  end.

(** 5776-5801 *)
Definition footer_to_use (footer scripts : option str) : option str :=
  match footer, scripts with
  | None, None => None
  | _, _ =>
      let f := or_else footer [] in
      let s := or_else scripts [] in
      Some (f ++ (if (0 <? length f) && (0 <? length s) then [NL] else []) ++ s)
  end.

(** 5826-5907, one style sheet: what [fopen] finds under the path itself or in the base directory is [read p]; [None] also stands for a file of 10 MB or more. The content is written as a C string: [read] has no NUL byte. *)
Definition embed_one (read : str -> option str) (p html : str) : str :=
  match read p with
  | None => html
  | Some c =>
      if length c =? 0 then html
      else
        let l := link_line p in
        if length l <? 2048 then
          match strstr l html with
          | Some k => firstn k html ++ B "  <style>" ++ [NL] ++ c ++ [NL] ++ B "  </style>" ++ [NL] ++ skipn (k + length l) html
          | None => html
          end
        else html
  end.

(** What the options and the metadata say about the style sheets: the option array is absent, or it has a count and entries before its NULL (a count that leads beyond the NULL is not looked at). *)
Inductive sheets := NoArray | Array (count : nat) (entries : list str).

Record standing := {
  st_title : option str; st_h1 : bool; st_sheets : sheets; st_css : option str;
  st_hl : bool; st_header : option str; st_footer : option str; st_lang : option str;
  st_embed : bool; st_scripts : list str }.

(** 5745-5753: the title, with the text of the first heading of level one when there is no other *)
Definition titled (o : standing) (html : str) : option str :=
  if st_h1 o && match st_title o with None => true | Some [] => true | Some _ => false end
  then match first_h1 html with Some t => Some t | None => st_title o end
  else st_title o.

(** 5756-5907. [Bad]: the array of the metadata style sheet is freed at 5811 and read at 5826 when the sheets are embedded; and 5810 frees the array of the caller when its first entry is NULL and there is no metadata style sheet. *)
Definition standalone (read : str -> option str) (o : standing) (html : str) : answer :=
  let footer := footer_to_use (st_footer o) (scripts_html (st_scripts o)) in
  let doc css := wrap html (titled o html) css (st_hl o) (st_header o) footer (st_lang o) in
  match st_sheets o with
  | Array (S n) ps =>
      match ps, st_css o with
      | [], None => Bad
      | _, _ =>
          match doc (Some (firstn (S n) ps)) with
          | Out d => Out (if st_embed o then fold_right (embed_one read) d (firstn (S n) ps) else d)
          | Bad => Bad
          end
      end
  | Array O ps =>
      match st_css o, ps with
      | Some c, _ => if st_embed o then Bad else doc (Some [c])
      | None, [] => Bad
      | None, _ => doc None
      end
  | NoArray =>
      match st_css o with
      | Some c => if st_embed o then Bad else doc (Some [c])
      | None => doc None
      end
  end.

(** 5908-5932: the scripts after a fragment *)
Definition snippet (tags : list str) (html : str) : str :=
  match scripts_html tags with
  | None => html
  | Some s =>
      html ++ (if (0 <? length html) && (0 <? length s) && negb (ceq (last html NUL) NL) then [NL] else []) ++ s
  end.
