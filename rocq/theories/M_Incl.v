(** Model of src/extensions/includes.c 51-168 and 844-1536: files included in a document, in the syntax
    of Marked, MultiMarkdown and iA Writer.  Allocation never fails.  The file system (read_file_contents
    24-48, stat, glob), the value of "transclude base" in the metadata of a file (metadata.c) and
    regcomp/regexec are parameters.  A store outside a buffer is [Fault], recursion without end [Endless]. *)
From Verif Require Import Base M_Csv M_Lines.

Record env := Env { file : str -> option str; exists_ : str -> bool; glob : str -> option str;
  tbase : str -> option str; rc : str -> option (str -> bool) }.
Inductive result_ := Done (s : str) | Fault | Endless | NoFuel.

(** includes.c 53-72 *)
Definition resolve_path (f : str) (base : option str) : str :=
  if ceq (at_ f 0) "/"%char then f
  else match base with None | Some [] => f | Some b => b ++ "/"%char :: f end.
(** strrchr: what is before the last [c], and what follows it *)
Fixpoint split_last (c : ascii) (s : str) : option (str * str) :=
  match s with
  | [] => None
  | d :: r => match split_last c r with
              | Some (a, b) => Some (d :: a, b)
              | None => if ceq d c then Some ([], r) else None
              end
  end.
(** includes.c 77-88, dirname of a path that does not end with a slash *)
Fixpoint drop_slashes (s : str) : str :=
  match s with
  | [] => []
  | c :: r => match drop_slashes r with [] => if ceq c "/"%char then [] else [c] | t => c :: t end
  end.
Definition get_directory (p : str) : str :=
  match split_last "/"%char p with
  | None => B "."
  | Some (d, _) => match drop_slashes d with [] => B "/" | t => t end
  end.
(** includes.c 129-168 *)
Inductive ftype := Image | CsvFile | TsvFile | HtmlFile | Markdown | CodeFile | TextFile.
Definition detect (p : str) : ftype :=
  match split_last "."%char p with
  | None => TextFile
  | Some (_, e) =>
      let is l := existsb (fun x => seq_ (map tolower e) (B x)) l in
      if is ["jpg"; "jpeg"; "png"; "gif"; "webp"; "svg"]%string then Image
      else if is ["csv"]%string then CsvFile else if is ["tsv"]%string then TsvFile
      else if is ["html"; "htm"]%string then HtmlFile
      else if is ["md"; "markdown"; "mmd"]%string then Markdown
      else if is ["c"; "h"; "cpp"; "py"; "js"; "java"; "swift"; "go"; "rs"; "sh"]%string then CodeFile
      else TextFile
  end.
(** includes.c 857-931.  [wildcard[1]] is the star. *)
Definition is_glob (c : ascii) : bool := existsb (ceq c) (B "*?[{").
Fixpoint first_ext (E : env) (name : str) (base : option str) (l : list string) : option str :=
  match l with
  | [] => None
  | e :: r => let p := resolve_path (firstn 1023 (name ++ B e)) base in if exists_ E p then Some p else first_ext E name base r
  end.
Definition resolve_wildcard (E : env) (f : str) (base : option str) : option str :=
  let wildcard := strstr (B ".*") f in
  let glob_chars := existsb is_glob f in
  let other := glob_chars && negb (match wildcard with Some k => ceq (at_ f (k + 1)) NUL | None => false end) in
  let general := if glob_chars then glob E (resolve_path f base) else Some (resolve_path f base) in
  match wildcard with
  | Some k =>
      if negb other then
        if 1024 <=? k then None
        else match first_ext E (firstn k f) base [".html"; ".md"; ".txt"; ".tex"]%string with Some p => Some p | None => general end
      else general
  | None => general
  end.
(** includes.c 937-976; [tb] is the value of "transclude base" *)
Definition transclude_base (base tb : option str) : option str :=
  match tb with
  | None => base
  | Some t =>
      if ceq (at_ t 0) "/"%char then Some t
      else if ceq (at_ t 0) "."%char && (ceq (at_ t 1) "/"%char || ceq (at_ t 1) NUL) then
        match base with Some b => Some b | None => Some (B ".") end
      else match base with Some b => Some (b ++ "/"%char :: t) | None => Some t end
  end.

(** includes.c 984-1070.  [fence] holds the length of the open fence as read and as written. *)
Definition ticks (n : nat) : str := repeat BT n.
Definition in_line (c : ascii) : bool := negb (ceq c NL) && negb (ceq c CR).
Fixpoint normalize (fuel : nat) (start : bool) (fence : option (nat * nat)) (s : str) : str :=
  match fuel with
  | O => []
  | S fuel =>
      match s with
      | [] => []
      | c :: r =>
          if start && ceq c BT then
            let '(t, r1) := span (ceq BT) s in
            let n := length t in
            if 3 <=? n then
              let '(line, r2) := span in_line r1 in
              let '(m, fence') := match fence with
                | Some (o, w) => if n =? o then (w, None) else (n, fence)
                | None => let w := if Nat.even n then S n else n in (w, Some (n, w))
                end in
              ticks m ++ line ++ normalize fuel false fence' r2
            else t ++ normalize fuel false fence r1
          else c :: normalize fuel (ceq c NL) fence r
      end
  end.
(** 987-988: the buffer has strlen * 2 + 1 bytes *)
Definition normalized (s : str) : option str :=
  let t := normalize (S (length s)) true None s in
  if length t <? length s * 2 + 1 then Some t else None.

(** What is found at a position: nothing, an include that inserts [t] and ends before [rest], or an
    outcome that ends the run. *)
Inductive found := No | Yes (t : option str) (rest : str) | Stop (r : result_).
Section Found.
Variable E : env.
Variable rec : str -> option str -> option str -> result_.
Variable base : option str.
Definition nested (path content text : str) (rest : str) : found :=
  let tb := tbase E content in
  match rec text (transclude_base (Some (get_directory path)) tb) tb with
  | Done t => Yes (Some t) rest
  | r => Stop r
  end.
Definition word_char (c : ascii) : bool := negb (ceq c SP || ceq c TAB || ceq c NL || ceq c CR).
Definition ext_of (f : str) : str := match split_last "."%char f with Some (_, e) => e | None => [] end.
(** includes.c 1119-1208; [r] follows the slash *)
Definition ia_include (r : str) : found :=
  let '(f, rest) := span word_char r in
  if (length f =? 0) || (1024 <=? length f) then No
  else
    let p := resolve_path f base in
    if exists_ E p then
      match file E p with
      | None => No
      | Some content =>
          match detect p with
          | Image => Yes (Some (B "![](" ++ f ++ B ")" ++ [NL])) rest
          | CsvFile | TsvFile =>
              match csv_to_table content (match detect p with TsvFile => true | _ => false end) with
              | Table t => Yes (Some t) rest | Null => Yes None rest | Overrun => Stop Fault end
          | CodeFile => Yes (Some ([NL] ++ ticks 3 ++ ext_of f ++ [NL] ++ content ++ [NL] ++ ticks 3 ++ [NL])) rest
          | _ => nested p content content rest
          end
      end
    else No.
(** includes.c 1226-1241, 1371-1387: the address behind the name; [None] if there is none *)
Definition address_at (s : str) : option (option str * str) :=
  if ceq (at_ s 0) "["%char then
    let r := skipn 1 s in
    match strchr "]"%char r with
    | Some k => Some (if (0 <? k) && (k <? 1024) then Some (firstn k r) else None, skipn (S k) r)
    | None => None
    end
  else None.
Definition cut (a : option (option str * str)) (content : str) : extracted :=
  match a with Some (Some x, _) => part (rc E) x content | _ => Text content end.
Definition rest_of (a : option (option str * str)) (after : str) : str := match a with Some (_, r) => r | None => after end.
Definition as_text (p content x rest : str) : found :=
  match detect p with
  | CsvFile => match csv_to_table x false with Table t => nested p content t rest | Null => nested p content x rest | Overrun => Stop Fault end
  | TsvFile => match csv_to_table x true with Table t => nested p content t rest | Null => nested p content x rest | Overrun => Stop Fault end
  | _ => nested p content x rest
  end.
(** includes.c 1213-1331; [r] follows the two braces *)
Definition mmd_include (r : str) : found :=
  match strstr (B "}}") r with
  | None => No
  | Some k =>
      if (k =? 0) || (1024 <=? k) then No
      else
        let f := firstn k r in
        let after := skipn (k + 2) r in
        let a := address_at after in
        let p := match resolve_wildcard E f base with Some p => p | None => resolve_path f base end in
        match file E p with
        | None => No
        | Some content =>
            match cut a content with
            | Bad => Stop Fault
            | Loops => Stop Endless
            | Text x => as_text p content x (rest_of a after)
            end
        end
  end.
(** includes.c 1457-1474 *)
Definition lang_of (f : str) : str :=
  match split_last "."%char f with
  | None => []
  | Some (_, e) =>
      if seq_ e (B "c") || seq_ e (B "h") then B "c"
      else if seq_ e (B "cpp") || seq_ e (B "cc") then B "cpp"
      else if seq_ e (B "py") then B "python" else if seq_ e (B "js") then B "javascript"
      else if seq_ e (B "rb") then B "ruby" else if seq_ e (B "sh") then B "bash" else e
  end.
(** includes.c 1334-1521; [r] follows the two angle brackets *)
Definition marked_include (r : str) : found :=
  let close := match at_ r 0 with "["%char => Some "]"%char | "("%char => Some ")"%char | "{"%char => Some "}"%char | _ => None end in
  match close with
  | None => No
  | Some cl =>
      let r1 := skipn 1 r in
      match strchr cl r1 with
      | None => No
      | Some k =>
          if (k =? 0) || (1024 <=? k) then No
          else
            let f := firstn k r1 in
            let after := skipn (S k) r1 in
            let a := address_at (snd (span isspace after)) in
            let rest := rest_of a after in
            let p := resolve_path f base in
            match file E p with
            | None => Yes None rest
            | Some content =>
                match cut a content with
                | Bad => Stop Fault
                | Loops => Stop Endless
                | Text x =>
                    if ceq cl "]"%char then as_text p content x rest
                    else if ceq cl ")"%char then
                      Yes (Some (firstn 127 ([NL] ++ ticks 3 ++ lang_of f ++ [NL]) ++ x ++ [NL] ++ ticks 3 ++ [NL])) rest
                    else Yes (Some (firstn 1023 (B "<!--APEX_RAW_INCLUDE:" ++ p ++ B "-->"))) rest
                end
            end
      end
  end.
(** The include at this position, if there is one. *)
Definition include_at (start code : bool) (s : str) : found :=
  if code then No
  else match s with
  | c :: r =>
      if ceq c "/"%char && start then ia_include r
      else if ceq c "{"%char && ceq (at_ r 0) "{"%char then mmd_include (skipn 1 r)
      else if start && ceq c "<"%char && ceq (at_ r 0) "<"%char then marked_include (skipn 1 r)
      else No
  | [] => No
  end.
(** includes.c 1104-1530.  The byte before an include that was read is never a newline. *)
Fixpoint loop (fuel : nat) (start code : bool) (s : str) (w : wr) : result_ :=
  match fuel with
  | O => NoFuel
  | S fuel =>
      match s with
      | [] => let w := w_term w in if w_oob w then Fault else Done (w_out w)
      | c :: r =>
          let code := if ceq c BT then negb code else code in
          match include_at start code s with
          | Yes t rest => loop fuel false code rest (match t with Some t => w_puts_lt t w | None => w end)
          | Stop o => o
          | No => loop fuel (ceq c NL) code r (w_put c w)
          end
      end
  end.
End Found.

(** includes.c 1075-1101; [levels] is MAX_INCLUDE_DEPTH + 1 - depth *)
Fixpoint process (E : env) (levels : nat) (text : str) (base tb : option str) : result_ :=
  match levels with
  | O => Done text
  | S levels =>
      match normalized text with
      | None => Fault
      | Some t =>
          let cap := Nat.max (length t * 10) (2 ^ 20) in
          loop E (process E levels) (transclude_base base tb) (S (length t)) true false t (w_new cap cap)
      end
  end.
(** The call from apex.c 4263: depth 0 *)
Definition process_includes (E : env) (text : str) (base tb : option str) : result_ := process E 11 text base tb.
