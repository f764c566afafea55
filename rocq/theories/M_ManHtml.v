(** Model of the man page output of src/ast_man.c, HTML part (275-328, 592-921): a document is written as an
    HTML page, alone or with navigation and headline.  Allocation never fails.  Syntax highlighting of the
    result (825-831, 913-919) is off; the style sheet (605-622) is a parameter of the page. *)
From Verif Require Import Base Dec M_Md M_Man.

(** 592-603 *)
Definition esc1 (c : ascii) : str :=
  if ceq c "&"%char then B "&amp;" else if ceq c "<"%char then B "&lt;" else if ceq c ">"%char then B "&gt;"
  else if ceq c DQ then B "&quot;" else if ceq c SQ then B "&#39;" else [c].
Definition esc (s : str) : str := flat_map esc1 s.

(** 627-679 *)
Fixpoint inline_html (n : node) : str :=
  match n with Node k ch =>
  let fix all (l : list node) := match l with [] => [] | c :: l => inline_html c ++ all l end in
  match k with
  | Text s => esc s
  | Code s => B "<code>" ++ esc s ++ B "</code>"
  | Hard => B "<br>" ++ [NL]
  | Soft => B " "
  | Strong => B "<strong>" ++ all ch ++ B "</strong>"
  | Emph => B "<em>" ++ all ch ++ B "</em>"
  | Link u _ =>
      match opt u with
      | [] => all ch
      | url => B "<a href=" ++ [DQ] ++ esc url ++ [DQ] ++ B ">" ++ all ch ++ B "</a>"
      end
  | Html _ => []
  | _ => all ch
  end end.
Definition inlines_html (l : list node) : str := concat (map inline_html l).

(** 687-690 *)
Definition id_char (c : ascii) : str :=
  if ceq c SP || ceq c TAB then B "-" else if isalnum c || ceq c "-"%char then [c] else [].
(** 681-696: the children up to the first text *)
Fixpoint section_id (n : node) : str :=
  match n with Node k ch =>
  let fix all (l : list node) :=
    match l with
    | [] => []
    | Node (Text s) _ :: _ => flat_map id_char s
    | c :: l => section_id c ++ all l
    end in
  all ch end.
(** 701-730 *)
Definition max_sections : nat := 48.
Definition cut (s : str) : str := firstn 71 s.
Fixpoint sections (n : nat) (l : list node) : list (str * str) :=
  match n with
  | 0 => []
  | S n' =>
      match l with
      | [] => []
      | (Node (Heading 1) _ as h) :: l => (cut (section_id h), cut (plain_text h)) :: sections n' l
      | _ :: l => sections n l
      end
  end.

(** 732-809.  [item]: first child of a list item. *)
Definition heading_tag (level : nat) : str := B "h" ++ dec (if 4 <? level + 1 then 4 else level + 1).
Fixpoint block_html (item : bool) (n : node) : str :=
  match n with Node k ch =>
  let fix all (first : bool) (l : list node) :=
    match l with [] => [] | c :: l => block_html (match k with Item _ => first | _ => false end) c ++ all false l end in
  match k with
  | Document => all true ch
  | Heading level =>
      [NL] ++ B "<div class=" ++ [DQ] ++ B "man-section" ++ [DQ] ++ B "><" ++ heading_tag level ++ B " id=" ++ [DQ] ++ section_id n ++ [DQ] ++ B ">"
      ++ inlines_html ch ++ B "</" ++ heading_tag level ++ B "></div>" ++ [NL]
  | Paragraph => if item then inlines_html ch ++ [NL] else B "<p>" ++ inlines_html ch ++ B "</p>" ++ [NL]
  | Lst true _ => [NL] ++ B "<ol>" ++ [NL] ++ all true ch ++ B "</ol>" ++ [NL]
  | Lst false _ => [NL] ++ B "<ul>" ++ [NL] ++ all true ch ++ B "</ul>" ++ [NL]
  | Item _ => B "<li>" ++ all true ch ++ B "</li>" ++ [NL]
  | CodeBlock _ lit => [NL] ++ B "<pre><code>" ++ esc (opt lit) ++ B "</code></pre>" ++ [NL]
  | Quote => [NL] ++ B "<blockquote>" ++ [NL] ++ all true ch ++ B "</blockquote>" ++ [NL]
  | Rule => [NL] ++ B "<hr>" ++ [NL]
  | HtmlBlock lit => if is_dl (opt lit) then opt lit else []
  | _ => all true ch
  end end.

(** 275-310 *)
Fixpoint name_paragraph (l : list node) : option str :=
  match l with
  | [] => None
  | (Node Paragraph _ as p) :: _ => match plain_text p with [] => None | t => Some t end
  | Node (Heading _) _ :: _ => None
  | _ :: l => name_paragraph l
  end.
Fixpoint name_section (l : list node) : option str :=
  match l with
  | [] => None
  | (Node (Heading 1) _ as h) :: l => if seq_ (plain_text h) (B "NAME") then name_paragraph l else name_section l
  | _ :: l => name_section l
  end.
(** 313-327 *)
Definition blank (c : ascii) : bool := ceq c SP || ceq c TAB || ceq c NL || ceq c CR.
(** 317-324; [fuel] is the length *)
Fixpoint squeeze (fuel : nat) (s : str) : str :=
  match fuel with
  | 0 => []
  | S fuel =>
      match s with
      | [] => []
      | c :: r => if blank c then SP :: squeeze fuel (snd (span blank r)) else c :: squeeze fuel r
      end
  end.
(** 325 *)
Fixpoint drop_end (l : str) : str := match l with c :: l' => if ceq c SP || ceq c TAB then drop_end l' else l | [] => [] end.
Definition normalize (s : str) : str :=
  let t := snd (span blank s) in rev (drop_end (rev (squeeze (length t) t))).
(** 836-867.  [title]: the option document_title *)
Definition headline (title : option str) (l : list node) : str * str :=
  let (cmd, desc) :=
    match name_section l with
    | Some n =>
        match strstr (B " - ") n with
        | Some k => (normalize (firstn k n), normalize (skipn (k + 3) n))
        | None => (normalize n, B "manual page")
        end
    | None => (B "Document", B "manual page")
    end in
  (match opt title with
   | [] => cmd
   | dt => match strchr "("%char dt, strchr ")"%char dt with Some _, Some _ => dt | _, _ => cmd end
   end, desc).
Definition long_dash : str := B " " ++ ["226"; "128"; "148"]%char ++ B " ".

(** 883-889, 892-904 *)
Definition sheet (p : str) : str := B "<link rel=" ++ [DQ] ++ B "stylesheet" ++ [DQ] ++ B " href=" ++ [DQ] ++ esc p ++ [DQ] ++ B ">" ++ [NL].
Definition nav_link (e : str * str) : str :=
  match fst e with
  | [] => []
  | i => B "<li><a href=" ++ [DQ] ++ B "#" ++ esc i ++ [DQ] ++ B ">" ++ esc (snd e) ++ B "</a></li>" ++ [NL]
  end.
Definition nav (l : list (str * str)) : str :=
  match l with
  | [] => []
  | _ => B "<nav class=" ++ [DQ] ++ B "man-nav" ++ [DQ] ++ B "><ul>" ++ [NL] ++ concat (map nav_link l) ++ B "</ul></nav>" ++ [NL]
  end.
(** 815-910 *)
Definition man_html (standalone : bool) (css : str) (title : option str) (sheets : list str) (ch : list node) : str :=
  let body := block_html false (Node Document ch) in
  if negb standalone then body
  else
    let (cmd, desc) := headline title ch in
    B "<!DOCTYPE html>" ++ [NL] ++ B "<html lang=" ++ [DQ] ++ B "en" ++ [DQ] ++ B ">" ++ [NL] ++ B "<head>" ++ [NL]
    ++ B "<meta charset=" ++ [DQ] ++ B "utf-8" ++ [DQ] ++ B ">" ++ [NL] ++ B "<title>"
    ++ esc cmd ++ long_dash ++ esc desc ++ B "</title>" ++ [NL] ++ B "<style>" ++ [NL] ++ css ++ B "</style>" ++ [NL]
    ++ concat (map sheet sheets)
    ++ B "</head>" ++ [NL] ++ B "<body class=" ++ [DQ] ++ B "man-standalone" ++ [DQ] ++ B ">" ++ [NL]
    ++ nav (sections max_sections ch)
    ++ B "<main class=" ++ [DQ] ++ B "man-main" ++ [DQ] ++ B ">" ++ [NL] ++ B "<h1 class=" ++ [DQ] ++ B "man-headline" ++ [DQ] ++ B ">"
    ++ esc cmd ++ long_dash ++ esc desc ++ B "</h1>" ++ [NL] ++ body ++ [NL] ++ B "</main>" ++ [NL] ++ B "</body>" ++ [NL] ++ B "</html>".
