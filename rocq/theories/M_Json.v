(** Model of src/ast_json.c (whole file) and of the request builder of
    src/plugins_env.c. *)
From Coq Require Import Decimal DecimalString.
From Verif Require Import Base M_Encode.
From Verif Require Export Dec.

(** ** Escaping: ast_json.c 54-85 [apex_json_escape_local] and
    plugins_env.c 15-48 [apex_json_escape] (the same code). *)

(** The two-byte escapes, 64-68. *)
Definition esc2 (c : ascii) : option ascii :=
  if ceq c BS then Some BS
  else if ceq c DQ then Some DQ
  else if ceq c NL then Some "n"%char
  else if ceq c CR then Some "r"%char
  else if ceq c TAB then Some "t"%char
  else None.

(** [snprintf (w, .., "\\u%04X", c)] for [c < 0x20]. *)
Definition esc_u (c : ascii) : str := B "\u00" ++ hex2 c.

(** 61-82; [None] is the NULL of 72-75, the flag tells whether a store went
    beyond the [cap] bytes of the buffer. *)
Fixpoint esc_loop (cap : nat) (out : str) (oob : bool) (text : str)
  : option (str * bool) :=
  match text with
  | [] => Some (out, oob || (cap <=? length out))
  | c :: text' =>
      match esc2 c with
      | Some e => esc_loop cap (out ++ [BS; e]) (oob || (cap <? length out + 2)) text'
      | None =>
          if (code c <? 32)%N then
            if cap - length out <=? length (esc_u c) then None
            else esc_loop cap (out ++ esc_u c) oob text'
          else esc_loop cap (out ++ [c]) (oob || (cap <? length out + 1)) text'
      end
  end.

Definition json_escape (text : str) : option (str * bool) :=
  esc_loop (length text * 6 + 1) [] false text.

(** 87-96 [apex_json_buf_append_escaped_string].  Simplification: the NULL
    case, which never occurs (C10), yields an empty body. *)
Definition quoted (text : str) : str :=
  match json_escape text with
  | Some (e, _) => DQ :: e ++ [DQ]
  | None => [DQ; DQ]
  end.

(** plugins_env.c 65-82: the request sent to a text plugin. *)
Definition plugin_request (plugin_id phase text : str) : option str :=
  match json_escape text with
  | None => None
  | Some (escaped, _) =>
      Some (B "{ ""version"": 1, ""plugin_id"": """ ++ plugin_id ++
            B """, ""phase"": """ ++ phase ++
            B """, ""text"": """ ++ escaped ++ B """ }" ++ [NL])
  end.

(** ** Reading: cursor primitives *)

(** 415-419 *)
Definition skip_ws (s : str) : str := snd (span isspace s).

(** 421-426: success flag and cursor. *)
Definition match_char (ch : ascii) (s : str) : bool * str :=
  match skip_ws s with
  | c :: s' => if ceq c ch then (true, s') else (false, c :: s')
  | [] => (false, [])
  end.

(** 445-452 and the default of 461-463 *)
Definition unescape (c : ascii) : ascii :=
  if ceq c "b" then "008"%char
  else if ceq c "f" then "012"%char
  else if ceq c "n" then NL
  else if ceq c "r" then CR
  else if ceq c "t" then TAB
  else c.

(** 438-491, the loop of [json_parse_string]: the string read (NULL as [None])
    with the overflow flag of the growing buffer, and the cursor.  The outer
    [None] is lack of fuel. *)
Fixpoint jps_loop (fuel cap : nat) (out : str) (oob : bool) (p : str)
  : option (option (str * bool) * str) :=
  match fuel with
  | O => None
  | S fuel =>
    match p with
    | [] => Some (None, [])                                        (* 484-487 *)
    | c :: p1 =>
      if ceq c DQ
      then Some (Some (out, oob || (cap <=? length out)), p1)      (* 488-491 *)
      else
        let push c' p' :=                                          (* 472-481 *)
          let cap' := if cap <=? length out + 1 then cap * 2 else cap in
          jps_loop fuel cap' (out ++ [c']) (oob || (cap' <=? length out)) p' in
        if ceq c BS then
          match p1 with
          | [] => Some (None, [])                                  (* 443 *)
          | e :: p2 =>
              if ceq e "u" then push "?"%char (skipn 4 p2)         (* 453-460 *)
              else
                let c' := unescape e in
                if ceq c' "?" then push c' p1 else push c' p2      (* 466-467 *)
          end
        else push c p1
    end
  end.

(** 428-436 *)
Definition json_parse_string_full (s : str) : option (option (str * bool) * str) :=
  match skip_ws s with
  | c :: p => if ceq c DQ then jps_loop (S (length p)) 64 [] false p
              else Some (None, c :: p)
  | [] => Some (None, [])
  end.

(** The string alone, the fuel being enough (lemma [jps_total]). *)
Definition json_parse_string (s : str) : option str * str :=
  match json_parse_string_full s with
  | Some (Some (out, _), p) => (Some out, p)
  | Some (None, p) => (None, p)
  | None => (None, s)
  end.

(** 494-507; [long] is unbounded here.  The value is negative after a minus
    sign, hence [Z]. *)
Definition json_parse_int (s : str) : Z * str :=
  let s1 := skip_ws s in
  let neg := ceq (at_ s1 0) "-" in
  let s2 := if neg then skipn 1 s1 else s1 in
  let (ds, s3) := span isdigit s2 in
  let v := fold_left (fun v c => (v * 10 + digit_val c)%Z) ds 0%Z in
  (if neg then (- v)%Z else v, s3).

(** 515-578 [json_skip_value]: success flag and cursor; [None] is lack of fuel. *)
Definition token_char (c : ascii) : bool :=
  negb (isspace c) && negb (ceq c ",") && negb (ceq c "]") && negb (ceq c "}").

Fixpoint skip_value (fuel : nat) (s : str) : option (bool * str) :=
  match fuel with
  | O => None
  | S fuel =>
    let s1 := skip_ws s in
    match s1 with
    | [] => Some (false, [])
    | c :: s2 =>
        if ceq c DQ then
          match json_parse_string s1 with
          | (Some _, s3) => Some (true, s3)
          | (None, s3) => Some (false, s3)
          end
        else if ceq c "{" then skip_object fuel s2
        else if ceq c "[" then skip_array fuel s2
        else Some (true, snd (span token_char s1))
    end
  end
with skip_object (fuel : nat) (s : str) : option (bool * str) :=   (* 526-549 *)
  match fuel with
  | O => None
  | S fuel =>
    let s1 := skip_ws s in
    if ceq (at_ s1 0) "}" then Some (true, skipn 1 s1)
    else match json_parse_string s1 with
         | (None, s2) => Some (false, s2)
         | (Some _, s2) =>
             match match_char ":" s2 with
             | (false, s3) => Some (false, s3)
             | (true, s3) =>
                 match skip_value fuel s3 with
                 | None => None
                 | Some (false, s4) => Some (false, s4)
                 | Some (true, s4) =>
                     let s5 := skip_ws s4 in
                     if ceq (at_ s5 0) "," then skip_object fuel (skipn 1 s5)
                     else if ceq (at_ s5 0) "}" then skip_object fuel s5
                     else Some (true, s5)
                 end
             end
         end
  end
with skip_array (fuel : nat) (s : str) : option (bool * str) :=    (* 552-570 *)
  match fuel with
  | O => None
  | S fuel =>
    let s1 := skip_ws s in
    if ceq (at_ s1 0) "]" then Some (true, skipn 1 s1)
    else match skip_value fuel s1 with
         | None => None
         | Some (false, s4) => Some (false, s4)
         | Some (true, s4) =>
             let s5 := skip_ws s4 in
             if ceq (at_ s5 0) "," then skip_array fuel (skipn 1 s5)
             else if ceq (at_ s5 0) "]" then skip_array fuel s5
             else Some (true, s5)
         end
  end.

(** Enough fuel: every call is preceded by a consumed byte at most two calls
    earlier. *)
Definition skip_fuel (s : str) : nat := 2 * length s + 3.
Definition json_skip_value (s : str) : option (bool * str) := skip_value (skip_fuel s) s.

(** ** The document tree (the cmark-gfm node types ast_json.c distinguishes) *)

(** [IOther]/[BOther]: every other type, with its literal ("" for NULL). *)
Inductive inl :=
| IText (lit : str) | ISoft | ILine | ICode (lit : str)
| IEmph (kids : list inl) | IStrong (kids : list inl)
| ILink (url title : str) (kids : list inl)
| IImage (url title : str) (kids : list inl)
| IHtml (lit : str) | IOther (lit : str).

Inductive blk :=
| BPara (kids : list inl) | BHead (level : nat) (kids : list inl)
| BRule | BHtml (lit : str) | BCode (lang lit : str)
| BList (ordered : bool) (start : nat) (items : list (list blk))
| BQuote (kids : list blk) | BOther (lit : str).

Fixpoint join (sep : str) (l : list str) : str :=
  match l with
  | [] => []
  | [x] => x
  | x :: l' => x ++ sep ++ join sep l'
  end.

(** 106-108 *)
Definition attr_empty : str := B "["""",[],[]]".

(** 199-213 [write_inlines] around 110-197 [write_inline] *)
Fixpoint write_inline (n : inl) : str :=
  let write_inlines l := B "[" ++ join (B ",") (map write_inline l) ++ B "]" in
  match n with
  | IText lit => B "{""t"":""Str"",""c"":" ++ quoted lit ++ B "}"
  | ISoft => B "{""t"":""SoftBreak"",""c"":[]}"
  | ILine => B "{""t"":""LineBreak"",""c"":[]}"
  | ICode lit => B "{""t"":""Code"",""c"":[" ++ attr_empty ++ B "," ++ quoted lit ++ B "]}"
  | IEmph l => B "{""t"":""Emph"",""c"":[" ++ write_inlines l ++ B "]}"
  | IStrong l => B "{""t"":""Strong"",""c"":[" ++ write_inlines l ++ B "]}"
  | ILink url title l =>
      B "{""t"":""Link"",""c"":[" ++ attr_empty ++ B "," ++ write_inlines l ++
      B ",[" ++ quoted url ++ B "," ++ quoted title ++ B "]]}"
  | IImage url title l =>
      B "{""t"":""Image"",""c"":[" ++ attr_empty ++ B "," ++ write_inlines l ++
      B ",[" ++ quoted url ++ B "," ++ quoted title ++ B "]]}"
  | IHtml lit => B "{""t"":""RawInline"",""c"":[""html""," ++ quoted lit ++ B "]}"
  | IOther lit => B "{""t"":""Str"",""c"":" ++ quoted lit ++ B "}"
  end.
Definition write_inlines (l : list inl) : str :=
  B "[" ++ join (B ",") (map write_inline l) ++ B "]".

(** 248-252: one trailing newline is dropped. *)
Definition chop_nl (lit : str) : str :=
  if (0 <? length lit) && ceq (last lit NUL) NL then removelast lit else lit.

(** 215-359 [write_block] *)
Fixpoint write_block (n : blk) : str :=
  let write_list l := join (B ",") (map write_block l) in
  match n with
  | BPara l => B "{""t"":""Para"",""c"":" ++ write_inlines l ++ B "}"
  | BHead level l =>                                               (* 226-240 *)
      B "{""t"":""Header"",""c"":[" ++ dec (if level <=? 0 then 1 else level) ++ B "," ++
      attr_empty ++ B "," ++ write_inlines l ++ B "]}"
  | BRule => B "{""t"":""HorizontalRule"",""c"":[]}"
  | BHtml lit => B "{""t"":""RawBlock"",""c"":[""html""," ++ quoted lit ++ B "]}"
  | BCode lang lit =>                                              (* 252-291 *)
      B "{""t"":""CodeBlock"",""c"":[[" ++ quoted [] ++ B ",[" ++
      (if 0 <? length lang then quoted lang else []) ++
      (if seq_ lang (B "inc") then B "],[[""inc"",""yes""]]]," else B "],[]]],") ++
      quoted (chop_nl lit) ++ B "]}"
  | BList ordered start items =>                                   (* 292-335 *)
      (if ordered
       then B "{""t"":""OrderedList"",""c"":[" ++ B "[" ++ dec (if start <=? 0 then 1 else start)
              ++ B ",""Decimal"",""Period""],["
       else B "{""t"":""BulletList"",""c"":[") ++
      join (B ",") (map (fun it => B "[" ++ join (B ",") (map write_block it) ++ B "]") items)
      ++ B "]}"
  | BQuote l => B "{""t"":""BlockQuote"",""c"":[" ++ write_list l ++ B "]}"
  | BOther lit =>
      B "{""t"":""Para"",""c"":[" ++ B "{""t"":""Str"",""c"":" ++ quoted lit ++ B "}]}"
  end.

(** 361-373 *)
Definition write_blocks (l : list blk) : str := join (B ",") (map write_block l).

(** 379-407 [apex_cmark_to_pandoc_json] on a document with the given children. *)
Definition to_json (doc : list blk) : str :=
  B "{" ++ B """pandoc-api-version"":[1,23,1],""meta"":{},""blocks"":[" ++
  write_blocks doc ++ B "]}".

(** ** Reading the tree back

    Nodes are built with cmark_node_new/append_child; NULL and "no child" are
    both the empty list where the callers treat them alike. *)

(** 606-644: the fields of an inline object: [ok], [tag], [c_buf], cursor. *)
Fixpoint inl_fields (fuel : nat) (tag cbuf : option str) (s : str)
  : option (bool * option str * option str * str) :=
  match fuel with
  | O => None
  | S fuel =>
    let s1 := skip_ws s in
    if ceq (at_ s1 0) "}" then Some (true, tag, cbuf, skipn 1 s1)
    else match json_parse_string s1 with
         | (None, s2) => Some (false, tag, cbuf, s2)
         | (Some key, s2) =>
             match match_char ":" s2 with
             | (false, s3) => Some (false, tag, cbuf, s3)
             | (true, s3) =>
                 let next tag cbuf s4 :=
                   let s5 := skip_ws s4 in
                   inl_fields fuel tag cbuf (if ceq (at_ s5 0) "," then skipn 1 s5 else s5) in
                 if seq_ key (B "t") then
                   match json_parse_string s3 with
                   | (None, s4) => Some (false, None, cbuf, s4)
                   | (Some t, s4) => next (Some t) cbuf s4
                   end
                 else if seq_ key (B "c") then
                   let v_start := skip_ws s3 in
                   match json_skip_value v_start with
                   | None => None
                   | Some (false, s4) => Some (false, tag, cbuf, s4)
                   | Some (true, s4) =>
                       next tag (Some (firstn (length v_start - length s4) v_start)) s4
                   end
                 else
                   match json_skip_value s3 with
                   | None => None
                   | Some (false, s4) => Some (false, tag, cbuf, s4)
                   | Some (true, s4) => next tag cbuf s4
                   end
             end
         end
  end.

(** [if (!json_match_char (..)) fail] *)
Definition need (ch : ascii) (s : str) : option str :=
  match match_char ch s with (true, s') => Some s' | (false, _) => None end.
Definition bind {A B : Type} (x : option A) (f : A -> option B) : option B :=
  match x with Some a => f a | None => None end.
Notation "'do' x <- m ; k" := (bind m (fun x => k)) (at level 200, x pattern, right associativity).
Definition need_value (s : str) : option str :=
  match json_skip_value s with Some (true, s') => Some s' | _ => None end.
Definition need_string (s : str) : option (str * str) :=
  match json_parse_string s with (Some x, s') => Some (x, s') | _ => None end.

(** 664-667: [c = [Attr, text]] of Code; also 749-753 RawInline. *)
Definition code_text (c : str) : option str :=
  do s1 <- need "[" c; do s2 <- need_value s1; do s3 <- need "," s2;
  do (txt, _) <- need_string s3; Some txt.

(** 707-747 *)
Definition math_text (c : str) : option str :=
  do s1 <- need "[" c; do s2 <- need "{" s1;
  do (_, s3) <- need_string s2; do s4 <- need ":" s3;
  do (kind, s5) <- need_string s4; do s6 <- need "}" s5; do s7 <- need "," s6;
  do (txt, _) <- need_string s7;
  let delim := if seq_ kind (B "DisplayMath") then B "$$" else B "$" in
  Some (delim ++ txt ++ delim).

(** 583-803 [parse_inlines_array].  The children collected under the dummy are
    all unlinked at 791-800, which clears their [next] pointers, so that the
    caller finds only the first one. *)
Fixpoint parse_inlines (fuel : nat) (s : str) : option (list inl * str) :=
  match fuel with
  | O => None
  | S fuel =>
    match match_char "[" s with
    | (false, s1) => Some ([], s1)
    | (true, s1) =>
        let s2 := skip_ws s1 in
        if ceq (at_ s2 0) "]" then Some ([], skipn 1 s2)
        else match inl_loop fuel [] s2 with
             | None => None
             | Some (kids, s3) =>
                 let (ok, s4) := match_char "]" s3 in
                 Some (if ok then firstn 1 kids else [], s4)
             end
    end
  end
with inl_loop (fuel : nat) (kids : list inl) (s : str) : option (list inl * str) :=
  match fuel with
  | O => None
  | S fuel =>
    let s1 := skip_ws s in
    if negb (ceq (at_ s1 0) "{") then Some (kids, s1)
    else
      match inl_fields (S (length s1)) None None (skipn 1 s1) with
      | None => None
      | Some (true, Some tag, Some c, s2) =>
          (* the nodes created for this object, [Some None] when [ok = 0] *)
          let made : option (option (list inl)) :=
            if seq_ tag (B "Str") then
              Some (do (txt, _) <- need_string c; Some [IText txt])
            else if seq_ tag (B "SoftBreak") then Some (Some [ISoft])
            else if seq_ tag (B "LineBreak") then Some (Some [ILine])
            else if seq_ tag (B "Emph") || seq_ tag (B "Strong") then
              match need "[" c with
              | None => Some None
              | Some c1 =>
                  let wrap l := if seq_ tag (B "Emph") then IEmph l else IStrong l in
                  let c2 := skip_ws c1 in
                  if ceq (at_ c2 0) "]" then Some (Some [wrap []])
                  else match parse_inlines fuel c2 with
                       | None => None
                       | Some (l, _) => Some (Some [wrap l])
                       end
              end
            else if seq_ tag (B "Code") then Some (do t <- code_text c; Some [ICode t])
            else if seq_ tag (B "Span") then
              match (do c1 <- need "[" c; do c2 <- need_value c1; need "," c2) with
              | None => Some None
              | Some c3 =>
                  match parse_inlines fuel c3 with
                  | None => None
                  | Some (l, _) => Some (Some l)
                  end
              end
            else if seq_ tag (B "Math") then Some (do t <- math_text c; Some [IHtml t])
            else if seq_ tag (B "RawInline") then Some (do t <- code_text c; Some [IHtml t])
            else Some (Some []) in
          match made with
          | None => None
          | Some None => Some (kids, s2)
          | Some (Some l) =>
              let s3 := skip_ws s2 in
              if ceq (at_ s3 0) "," then inl_loop fuel (kids ++ l) (skipn 1 s3)
              else Some (kids ++ l, s3)
          end
      | Some (_, _, _, s2) => Some (kids, s2)
      end
  end.

(** 806-842: the fields of a block object; [Some (None, s)] is [return NULL]. *)
Fixpoint blk_fields (fuel : nat) (tag cbuf : option str) (s : str)
  : option (option (str * str) * str) :=
  match fuel with
  | O => None
  | S fuel =>
    let s1 := skip_ws s in
    if ceq (at_ s1 0) "}" then
      match tag, cbuf with
      | Some t, Some c => Some (Some (t, c), skipn 1 s1)
      | _, _ => Some (None, s1)
      end
    else match json_parse_string s1 with
         | (None, s2) => Some (None, s2)
         | (Some key, s2) =>
             match match_char ":" s2 with
             | (false, s3) => Some (None, s3)
             | (true, s3) =>
                 let next tag cbuf s4 :=
                   let s5 := skip_ws s4 in
                   blk_fields fuel tag cbuf (if ceq (at_ s5 0) "," then skipn 1 s5 else s5) in
                 if seq_ key (B "t") then
                   match json_parse_string s3 with
                   | (None, s4) => Some (None, s4)
                   | (Some t, s4) => next (Some t) cbuf s4
                   end
                 else if seq_ key (B "c") then
                   let v_start := skip_ws s3 in
                   match json_skip_value v_start with
                   | None => None
                   | Some (false, s4) => Some (None, s4)
                   | Some (true, s4) =>
                       next tag (Some (firstn (length v_start - length s4) v_start)) s4
                   end
                 else
                   match json_skip_value s3 with
                   | None => None
                   | Some (false, s4) => Some (None, s4)
                   | Some (true, s4) => next tag cbuf s4
                   end
             end
         end
  end.

(** 886-921 CodeBlock *)
Definition code_block (c : str) : option (str * str) :=
  do s1 <- need "[" c; do s2 <- need "[" s1;
  let s3 := snd (json_parse_string s2) in
  do s4 <- need "," s3; do s5 <- need "[" s4;
  let s6 := skip_ws s5 in
  let (lang, s7) := if ceq (at_ s6 0) "]" then (None, s6) else json_parse_string s6 in
  do s8 <- need "]" s7; do s9 <- need "," s8; do s10 <- need_value s9;
  do s11 <- need "]" s10; do s12 <- need "," s11;
  do (txt, _) <- need_string s12;
  Some (match lang with Some l => l | None => [] end, txt).

(** 806-1044.  [parse_block]: [Some (None, s)] is NULL; [Some (Some l, s)] a node,
    [l] what the caller's cmark_node_append_child accepts (the Div case returns a
    document node, which cmark refuses as a child).  [cmark_node_set_heading_level]
    refuses levels above 6 and leaves the initial 1.  [parse_blocks]: likewise with
    the children of the returned dummy. *)
Definition set_level (l : Z) : nat :=
  let l' := if (l <=? 0)%Z then 1%Z else l in
  if (l' <=? 6)%Z then Z.to_nat l' else 1.

Fixpoint parse_block (fuel : nat) (s : str) : option (option (list blk) * str) :=
  match fuel with
  | O => None
  | S fuel =>
    match match_char "{" s with
    | (false, s1) => Some (None, s1)
    | (true, s1) =>
      match blk_fields (S (length s1)) None None s1 with
      | None => None
      | Some (None, s2) => Some (None, s2)
      | Some (Some (tag, c), s2) =>
          let ret (r : option (list blk)) := Some (r, s2) in
          let inls (c : str) (k : list inl -> blk) :=
            match parse_inlines (2 * length c + 3) c with
            | None => None
            | Some (l, _) => ret (Some [k l])
            end in
          if seq_ tag (B "Para") then inls c BPara
          else if seq_ tag (B "Header") then
            match need "[" c with
            | None => ret None
            | Some c1 =>
                let (level, c2) := json_parse_int c1 in
                match (do c3 <- need "," c2; do c4 <- need_value c3; need "," c4) with
                | None => ret None
                | Some c5 => inls c5 (BHead (set_level level))
                end
            end
          else if seq_ tag (B "HorizontalRule") then
            ret (match need_value c with Some _ => Some [BRule] | None => None end)
          else if seq_ tag (B "RawBlock") then
            ret (do c1 <- need "[" c; do c2 <- need_value c1; do c3 <- need "," c2;
                 do (txt, c4) <- need_string c3; do _ <- need "]" c4; Some [BHtml txt])
          else if seq_ tag (B "CodeBlock") then
            ret (do (lang, txt) <- code_block c; Some [BCode lang txt])
          else if seq_ tag (B "BulletList") || seq_ tag (B "OrderedList") then
            let ordered := seq_ tag (B "OrderedList") in
            let hd :=
              if ordered then
                do c1 <- need "[" c;
                let (start, c2) := json_parse_int c1 in
                do c3 <- need "," c2; do c4 <- need_value c3; do c5 <- need "," c4;
                do c6 <- need_value c5; need "," c6
              else need "[" c in
            match (do c1 <- hd; need "[" c1) with
            | None => ret None
            | Some c2 =>
                match list_loop fuel [] (skip_ws c2) with
                | None => None
                | Some None => ret None
                | Some (Some (items, c3)) =>
                    (* the start number is read but not stored *)
                    ret (do c4 <- need "]" c3; do _ <- need "]" c4;
                         Some [BList ordered 0 items])
                end
            end
          else if seq_ tag (B "BlockQuote") then
            match need "[" c with
            | None => ret None
            | Some c1 =>
                match parse_blocks fuel c1 with
                | None => None
                | Some (l, c2) =>
                    ret (do _ <- need "]" c2;
                         Some [BQuote (match l with Some l => l | None => [] end)])
                end
            end
          else if seq_ tag (B "Div") then
            match (do c1 <- need "[" c; do c2 <- need_value c1; need "," c2) with
            | None => ret None
            | Some c3 =>
                match parse_blocks fuel c3 with
                | None => None
                | Some (l, c4) =>
                    ret (do _ <- need "]" c4;
                         match l with Some _ => Some [] | None => None end)
                end
            end
          else ret (Some [BPara []])
      end
    end
  end
with parse_blocks (fuel : nat) (s : str) : option (option (list blk) * str) :=
  match fuel with
  | O => None
  | S fuel =>
    match match_char "[" s with
    | (false, s1) => Some (None, s1)
    | (true, s1) =>
        let s2 := skip_ws s1 in
        if ceq (at_ s2 0) "]" then Some (None, skipn 1 s2)
        else match blocks_loop fuel [] s2 with
             | None => None
             | Some (l, s3) =>
                 let (ok, s4) := match_char "]" s3 in
                 Some (if ok then Some l else None, s4)
             end
    end
  end
with blocks_loop (fuel : nat) (acc : list blk) (s : str) : option (list blk * str) :=
  match fuel with
  | O => None
  | S fuel =>
    match parse_block fuel (skip_ws s) with
    | None => None
    | Some (None, s1) => Some (acc, s1)
    | Some (Some l, s1) =>
        let s2 := skip_ws s1 in
        if ceq (at_ s2 0) "," then blocks_loop fuel (acc ++ l) (skipn 1 s2)
        else Some (acc ++ l, s2)
    end
  end
with list_loop (fuel : nat) (items : list (list blk)) (c : str)    (* 947-977 *)
  : option (option (list (list blk) * str)) :=
  match fuel with
  | O => None
  | S fuel =>
    if ceq (at_ c 0) "]" then Some (Some (items, c))
    else match need "[" c with
         | None => Some None
         | Some c1 =>
             match parse_blocks fuel c1 with
             | None => None
             | Some (l, c2) =>
                 match need "]" c2 with
                 | None => Some None
                 | Some c3 =>
                     let items' := items ++ [match l with Some l => l | None => [] end] in
                     let c4 := skip_ws c3 in
                     if ceq (at_ c4 0) "," then list_loop fuel items' (skipn 1 c4)
                     else Some (Some (items', c4))
                 end
             end
         end
  end.

(** Enough for any text of that length. *)
Definition blk_fuel (s : str) : nat := 4 * length s + 8.

(** 1077-1126: the fields of the top-level object.  The outer [None] is lack of
    fuel, [Some None] a NULL result. *)
Fixpoint doc_fields (fuel : nat) (acc : list blk) (s : str) : option (option (list blk)) :=
  match fuel with
  | O => None
  | S fuel =>
    let s1 := skip_ws s in
    if ceq (at_ s1 0) "}" then Some (Some acc)
    else match json_parse_string s1 with
         | (None, _) => Some None
         | (Some key, s2) =>
             match match_char ":" s2 with
             | (false, _) => Some None
             | (true, s3) =>
                 let next acc s4 :=
                   let s5 := skip_ws s4 in
                   if ceq (at_ s5 0) "," then doc_fields fuel acc (skipn 1 s5)
                   else Some (Some acc) in
                 if seq_ key (B "blocks") then
                   match parse_blocks (blk_fuel s3) s3 with
                   | None => None
                   | Some (l, s4) => next (acc ++ match l with Some l => l | None => [] end) s4
                   end
                 else
                   match json_skip_value s3 with
                   | None => None
                   | Some (false, _) => Some None
                   | Some (true, s4) => next acc s4
                   end
             end
         end
  end.

(** 1064-1128 [apex_pandoc_json_to_cmark] *)
Definition of_json (json : str) : option (option (list blk)) :=
  match match_char "{" json with
  | (false, _) => Some None
  | (true, s) => doc_fields (S (length s)) [] s
  end.
