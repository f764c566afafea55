(** Model of src/extensions/callouts.c: quotes that begin with [!TYPE] become callouts.  The trees are
    those of M_Md; allocation never fails. *)
From Verif Require Import Base M_Md.

Inductive ctype := CNone | CNote | CAbstract | CInfo | CTodo | CTip | CSuccess | CQuestion | CWarning | CFailure | CDanger | CBug | CExample | CQuote.
(** 15-43 *)
Definition detect (s : str) : ctype :=
  if 64 <=? length s then CNone
  else
    let u := map toupper s in
    let is x := seq_ u x in
    if is (B "NOTE") then CNote
    else if is (B "ABSTRACT") || is (B "SUMMARY") || is (B "TLDR") then CAbstract
    else if is (B "INFO") then CInfo
    else if is (B "TODO") then CTodo
    else if is (B "TIP") || is (B "HINT") || is (B "IMPORTANT") then CTip
    else if is (B "SUCCESS") || is (B "CHECK") || is (B "DONE") then CSuccess
    else if is (B "QUESTION") || is (B "HELP") || is (B "FAQ") then CQuestion
    else if is (B "WARNING") || is (B "CAUTION") || is (B "ATTENTION") then CWarning
    else if is (B "FAILURE") || is (B "FAIL") || is (B "MISSING") then CFailure
    else if is (B "DANGER") || is (B "ERROR") then CDanger
    else if is (B "BUG") then CBug
    else if is (B "EXAMPLE") then CExample
    else if is (B "QUOTE") || is (B "CITE") then CQuote
    else CNone.
(** 48-65 *)
Definition type_name (t : ctype) : str :=
  match t with
  | CNote => B "note" | CAbstract => B "abstract" | CInfo => B "info" | CTodo => B "todo" | CTip => B "tip" | CSuccess => B "success"
  | CQuestion => B "question" | CWarning => B "warning" | CFailure => B "failure" | CDanger => B "danger" | CBug => B "bug"
  | CExample => B "example" | CQuote => B "quote" | CNone => B "note"
  end.
Record callout := Call { c_type : ctype; c_title : option str; c_fold : bool; c_open : bool }.
Definition is_none (t : ctype) : bool := match t with CNone => true | _ => false end.
(** 85-124: the text of the first node *)
Definition read_marker (text : str) : option callout :=
  if starts (B "[!") text then
    let ts := skipn 2 text in
    match strchr "]"%char ts with
    | None => None
    | Some k =>
        if k =? 0 then None
        else
          let t := detect (firstn k ts) in
          if is_none t then None
          else
            let after := skipn (k + 1) ts in
            let fold := ceq (at_ after 0) "+"%char || ceq (at_ after 0) "-"%char in
            let opn := negb (ceq (at_ after 0) "-"%char) in
            let title := snd (span (fun c => ceq c SP || ceq c TAB) (if fold then skipn 1 after else after)) in
            Some (Call t (match title with [] => None | _ => Some (match strchr NL title with Some e => firstn e title | None => title end) end) fold opn)
    end
  else None.
(** 71-84 *)
Definition is_callout (n : node) : option callout :=
  match n with
  | Node Quote (Node Paragraph (Node (Text t) _ :: _) :: _) => read_marker t
  | _ => None
  end.
(** 138-149: what snprintf leaves in html_start[1024] *)
Definition html_start (c : callout) : str :=
  let name := type_name (c_type c) in
  let title := match c_title c with Some t => t | None => name end in
  firstn 1023
    (if c_fold c then
       B "<details class=" ++ [DQ] ++ B "callout callout-" ++ name ++ [DQ] ++ (if c_open c then B " open" else []) ++ B ">" ++ [NL] ++
       B "<summary>" ++ title ++ B "</summary>" ++ [NL] ++ B "<div class=" ++ [DQ] ++ B "callout-content" ++ [DQ] ++ B ">" ++ [NL]
     else
       B "<div class=" ++ [DQ] ++ B "callout callout-" ++ name ++ [DQ] ++ B ">" ++ [NL] ++
       B "<div class=" ++ [DQ] ++ B "callout-title" ++ [DQ] ++ B ">" ++ title ++ B "</div>" ++ [NL] ++
       B "<div class=" ++ [DQ] ++ B "callout-content" ++ [DQ] ++ B ">" ++ [NL]).
Definition html_end (c : callout) : str :=
  [NL] ++ B "</div>" ++ [NL] ++ (if c_fold c then B "</details>" else B "</div>").
(** 151-171: the first line of the first text goes *)
Definition without_marker (n : node) : node :=
  match n with
  | Node k (Node pk (Node (Text t) tc :: ps) :: ch) =>
      match strchr NL t with
      | Some e => match skipn (S e) t with [] => Node k (Node pk ps :: ch) | u => Node k (Node pk (Node (Text u) tc :: ps) :: ch) end
      | None => Node k (Node pk ps :: ch)
      end
  | n => n
  end.
(** 191-215: a node as the nodes that take its place; the children of a callout are not looked at *)
Fixpoint process (n : node) : list node :=
  match is_callout n with
  | Some c => [Node (HtmlBlock (Some (html_start c))) []; without_marker n; Node (HtmlBlock (Some (html_end c))) []]
  | None =>
      match n with
      | Node k ch => [Node k ((fix all (l : list node) := match l with [] => [] | c :: l => process c ++ all l end) ch)]
      end
  end.
(** apex.c 5078-5080: the whole document *)
Definition process_document (n : node) : node := match process n with [m] => m | _ => n end.
