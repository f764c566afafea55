(** Index entries and the index: src/extensions/index.c.
    Simplifications: allocation never fails; [isalnum] of a byte above 127 is false (the code passes a plain char, which the C standard does not allow and the common C libraries answer with 0 in the "C" locale); the counter of references does not overflow; [count] is the length of the list of entries. A position in the text is the reversed text before it and the text from it on. *)
From Verif Require Import Base Dec.

(** include in index.h 32-47: the fields that are ever read again; [e_id] is n in the anchor "idxref-n". *)
Record entry := Entry { e_item : str; e_sub : option str; e_primary : bool; e_pos : nat; e_id : nat }.
Record registry := Registry { r_entries : list entry; r_next : nat }.

(** index.c 21-24 *)
Definition valid (c : ascii) : bool := isalnum c || existsb (ceq c) (B " -_/.,:;'" ++ [DQ]).

(** trim_string, 29-43. The callers drop the returned pointer, so what they keep is the argument after the change in place. *)
Definition trim_end (s : str) : str := rev (snd (span isspace (rev s))).
Definition trim (s : str) : str := let (a, b) := span isspace s in a ++ trim_end b.

(** What the three parsers find: item, subitem, primary, the text behind. *)
Definition found : Type := str * option str * bool * str.

(** parse_mmark_index, 49-131 *)
Definition mmark (s : str) : option found :=
  if length s <=? 3 then None
  else if negb (starts (B "(!") s) then None
  else
    let primary := ceq (at_ s 2) "!" in
    let (item, p) := span (fun c => negb (ceq c ",") && negb (ceq c ")")) (skipn (if primary then 3 else 2) s) in
    if negb (forallb (fun c => valid c || ceq c "!") item) then None
    else
      match trim item with
      | [] => None
      | item =>
          match p with
          | [] => None
          | c :: r =>
              if ceq c "," then
                let (sub, q) := span (fun c => negb (ceq c ")")) (snd (span isspace r)) in
                if negb (forallb valid sub) then None
                else match q with [] => None | _ :: rest => Some (item, match sub with [] => None | _ => Some (trim sub) end, primary, rest) end
              else Some (item, None, primary, r)
          end
      end.

(** parse_textindex, 140-270: [rb] is the text before the brace, reversed. 176-199: *)
Definition bracketed (rb : str) : str :=
  if ceq (at_ rb 0) "]" then
    match strchr "[" rb with
    | Some k => if (k <=? 200) && (2 <=? k) && (k - 1 <? 200) then trim (rev (firstn (k - 1) (skipn 1 rb))) else []
    | None => []
    end
  else [].

(** 202-234 *)
Definition phrase (rb : str) : str :=
  trim (rev (fst (span (fun c => isalnum c || ceq c SP || ceq c "-" || ceq c "_") (firstn 50 (snd (span isspace rb)))))).

(** 242-254 *)
Definition params_sub (params : str) : option str :=
  match snd (span (fun c => negb (ceq c SP) && negb (ceq c ",")) params) with
  | [] => None
  | _ :: p => match snd (span isspace p) with [] => None | x => Some (trim x) end
  end.

Definition textindex (rb s : str) : option found :=
  if length s <=? 2 then None
  else if negb (starts (B "{^") s) then None
  else
    let (params, p) := span (fun c => negb (ceq c "}") && negb (ceq c NL)) (skipn 2 s) in
    match p with
    | [] => None
    | c :: rest =>
        if negb (ceq c "}") then None
        else
          match (match bracketed rb with [] => phrase rb | t => t end) with
          | [] => None
          | term => Some (term, params_sub params, false, rest)
          end
    end.

(** strip_leanpub_formatting, 275-293 *)
Fixpoint strip (s : str) : str :=
  match s with
  | [] => []
  | c :: r => if ceq c "*" then match r with d :: r' => if ceq d "*" then strip r' else strip r | [] => [] end else c :: strip r
  end.

(** 322-333: up to the closing quote *)
Fixpoint quoted (s : str) : option (str * str) :=
  match s with
  | [] => None
  | c :: r =>
      if ceq c DQ then Some ([], r)
      else if ceq c BS then
        match r with
        | d :: r' => match quoted r' with Some (a, b) => Some (c :: d :: a, b) | None => None end
        | [] => None
        end
      else match quoted r with Some (a, b) => Some (c :: a, b) | None => None end
  end.

(** parse_leanpub_index, 300-404 *)
Definition gap (c : ascii) : bool := ceq c SP || ceq c TAB.

Definition leanpub (s : str) : option found :=
  if length s <=? 4 then None
  else if negb (starts (B "{i:") s) then None
  else
    match snd (span gap (skipn 3 s)) with
    | [] => None
    | c :: r =>
        let close (item : str) (sub : option str) (p : str) :=
          match snd (span gap p) with
          | [] => None
          | d :: rest => if ceq d "}" then Some (item, sub, false, rest) else None
          end in
        if ceq c DQ then
          match quoted r with
          | None => None
          | Some (term, p) =>
              match strchr "!" term with
              | Some i => close (strip (trim (firstn i term))) (Some (strip (trim (skipn (S i) term)))) p
              | None => close (trim (strip term)) None p
              end
          end
        else
          let (term, p) := span (fun c => negb (ceq c "}") && negb (ceq c NL)) (c :: r) in
          if negb (forallb valid term) then None
          else
            match p with
            | [] => None
            | d :: _ =>
                if negb (ceq d "}") then None
                else match trim term with [] => None | item => close item None p end
            end
    end.

(** The output buffer: capacity, bytes written, and whether a byte went beyond it. *)
Record buf := Buf { b_cap : nat; b_out : str; b_bad : bool }.

(** 527-539, 552-563, 602-613 and 628-638: room for [n] more bytes and, when there was none, twice of all *)
Definition room (need n : nat) (b : buf) : buf :=
  if b_cap b - length (b_out b) <? need then Buf ((length (b_out b) + n) * 2) (b_out b) (b_bad b) else b.
Definition write (x : str) (b : buf) : buf := Buf (b_cap b) (b_out b ++ x) (b_bad b || (b_cap b <? length (b_out b) + length x)).
Definition copy (c : ascii) (b : buf) : buf := write [c] (room 2 1 b).
(** snprintf also stores the NUL *)
Definition print (x : str) (b : buf) : buf :=
  let b := room (length x + 1) (length x + 1) b in
  Buf (b_cap b) (b_out b ++ x) (b_bad b || (b_cap b <? length (b_out b) + length x + 1)).
(** the closing NUL *)
Definition bad_end (b : buf) : bool := b_bad b || (b_cap b <=? length (b_out b)).

(** 513-524 *)
Definition anchor (n : nat) : str := B "idxref-" ++ dec n.
Definition marker (n : nat) : str := B "<!--IDX:" ++ anchor n ++ B "-->".

Inductive answer := Same | Out (s : str) (r : registry) | Bad | Fuel.

(** apex_process_index_entries, 449-574. The options: mmark, TextIndex, Leanpub; enable_indices is on. *)
Record syntaxes := Syntaxes { o_mmark : bool; o_textindex : bool; o_leanpub : bool }.

(** 456-496: [n] is how many bytes must be there from the pattern on. *)
Fixpoint occurs (n : nat) (pat s : str) : bool :=
  match s with
  | [] => false
  | _ :: r => (n <=? length s) && starts pat s || occurs n pat r
  end.
Definition quick (o : syntaxes) (text : str) : bool :=
  let m := o_mmark o && occurs 3 (B "(!") text in
  m || o_textindex o && negb m && occurs 2 (B "{^") text || o_leanpub o && negb m && occurs 5 (B "{i:") text.

(** 503-522 *)
Definition parsed (o : syntaxes) (rb s : str) : option found :=
  match (if o_mmark o then mmark s else None) with
  | Some f => Some f
  | None =>
      match (if o_textindex o then textindex rb s else None) with
      | Some f => Some f
      | None => if o_leanpub o && (4 <=? length s) then leanpub s else None
      end
  end.

Fixpoint go (fuel : nat) (o : syntaxes) (rb s : str) (b : buf) (reg : registry) : answer :=
  match fuel with
  | 0 => Fuel
  | S fuel =>
      match s with
      | [] => if bad_end b then Bad else Out (b_out b) reg
      | c :: r =>
          match parsed o rb s with
          | Some (item, sub, primary, rest) =>
              let n := r_next reg in
              go fuel o (rev (firstn (length s - length rest) s) ++ rb) rest (print (marker n) b)
                 (Registry (Entry item sub primary (length rb) n :: r_entries reg) (S n))
          | None => go fuel o (c :: rb) r (copy c b) reg
          end
      end
  end.

Definition process (o : syntaxes) (text : str) (reg : registry) : answer :=
  if quick o text then go (S (length text)) o [] text (Buf (length text * 2) [] false) reg else Same.

(** apex_render_index_markers, 579-646. [Over]: the NUL that ends the HTML is copied and the reading goes on behind it. *)
Inductive page := Page (s : str) | Over | Outside | NoFuel.

(** 593-597 *)
Fixpoint to_close (s : str) : str * str :=
  match s with
  | [] => ([], [])
  | c :: r => if ceq c ">" || starts (B "-->") s then ([], s) else let (a, b) := to_close r in (c :: a, b)
  end.

Definition span_html (id : str) : str := B "<span class=""index"" id=""" ++ id ++ B """></span>".

Fixpoint spans (fuel : nat) (s : str) (b : buf) : page :=
  match fuel with
  | 0 => NoFuel
  | S fuel =>
      match s with
      | [] => if bad_end b then Outside else Page (b_out b)
      | c :: r =>
          if starts (B "<!--IDX:") s then
            let (id, p) := to_close (skipn 8 s) in
            if starts (B "-->") p && (length id <? 64) then spans fuel (skipn 3 p) (print (span_html id) b)
            else match p with [] => Over | d :: q => spans fuel q (copy d b) end
          else spans fuel r (copy c b)
      end
  end.

Definition render (html : str) : page := spans (S (length html)) html (Buf (length html * 2) [] false).

(** strcasecmp and compare_index_entries, 651-670 *)
Fixpoint casecmp (a b : str) : comparison :=
  match a, b with
  | [], [] => Eq
  | [], _ => Lt
  | _, [] => Gt
  | x :: a', y :: b' => match N.compare (code (tolower x)) (code (tolower y)) with Eq => casecmp a' b' | o => o end
  end.

Definition compare (a b : entry) : comparison :=
  match casecmp (e_item a) (e_item b) with
  | Eq =>
      match e_sub a, e_sub b with
      | Some x, Some y => casecmp x y
      | Some _, None => Gt
      | None, Some _ => Lt
      | None, None => Eq
      end
  | o => o
  end.

(** get_first_letter, 675-688 *)
Definition letter (term : str) : ascii :=
  match snd (span (fun c => negb (isalnum c)) term) with [] => "?"%char | c :: _ => toupper c end.

(** apex_generate_index_html, 693-849, after the sorting. APPEND grows the buffer whenever needed ([print] of 8192 bytes with the same test, 719-741); what is cut is cut by snprintf into the arrays of 256 and 2048 bytes. *)
Definition link (e : entry) : str := firstn 255 (B " <a class=""index-return"" href=""#" ++ anchor (e_id e) ++ B """><sup>[go]</sup></a>").

Definition item_html (e : entry) : list str :=
  [firstn 2047 (B "<li>" ++ [NL] ++ e_item e)]
  ++ (if e_primary e then [B " <strong>"] else [])
  ++ [link e]
  ++ (if e_primary e then [B "</strong>"] else [])
  ++ (match e_sub e with
      | Some x => [B "<ul>" ++ [NL] ++ B "<li>" ++ [NL]; x; link e; B "</li>" ++ [NL] ++ B "</ul>" ++ [NL]]
      | None => []
      end)
  ++ [B "</li>" ++ [NL]].

Definition group_open (c : ascii) : str := B "<dl>" ++ [NL] ++ B "<dt>" ++ [c] ++ B "</dt>" ++ [NL] ++ B "<dd>" ++ [NL] ++ B "<ul>" ++ [NL].
Definition group_close : str := B "</ul>" ++ [NL] ++ B "</dd>" ++ [NL] ++ B "</dl>" ++ [NL].

(** 750-800; [cur] is current_letter, NUL before the first group *)
Fixpoint grouped (cur : ascii) (open : bool) (es : list entry) : list str :=
  match es with
  | [] => if open then [group_close] else []
  | e :: es' =>
      let l := letter (e_item e) in
      (if ceq l cur then [] else (if open then [group_close] else []) ++ [group_open l])
      ++ item_html e ++ grouped (if ceq l cur then cur else l) (if ceq l cur then open else true) es'
  end.

(** all the arguments of APPEND, in order *)
Definition appended (by_letter : bool) (es : list entry) : list str :=
  [B "<h1 id=""index-section"">Index</h1>" ++ [NL]; B "<div class=""index"">" ++ [NL]]
  ++ (if by_letter then grouped NUL false es else [B "<ul>" ++ [NL]] ++ concat (map item_html es) ++ [B "</ul>" ++ [NL]])
  ++ [B "</div>" ++ [NL]].

(** 719-741 *)
Definition append (b : buf) (x : str) : buf :=
  if length x <? b_cap b - length (b_out b) then write x b
  else write x (Buf ((length (b_out b) + length x + 1) * 2) (b_out b) (b_bad b)).

(** [None]: a byte beyond the buffer *)
Definition index_html (by_letter : bool) (es : list entry) : option str :=
  let b := fold_left append (appended by_letter es) (Buf (8 * 1024) [] false) in
  if bad_end b then None else Some (b_out b).

(** apex_insert_index, 854-967, given the HTML of the index *)
Definition insert (html index : str) : str :=
  match strstr (B "<!--INDEX-->") html with
  | Some k => firstn k html ++ index ++ skipn (k + 12) html
  | None =>
      match strstr (B "</body>") html with
      | Some k => firstn k html ++ index ++ skipn k html
      | None => html ++ index
      end
  end.
