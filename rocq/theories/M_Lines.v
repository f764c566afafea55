(** Model of parse_address_spec and extract_lines (src/extensions/includes.c 472-838): the part of a
    file that {{file}}[address] and <<[file][address] include.  Allocation never fails.  regcomp and
    regexec are a parameter.  char is treated as unsigned for isspace. *)
From Verif Require Import Base Dec M_Csv.
Open Scope Z_scope.

(** includes.c 116-124 *)
Record spec := Spec { line_range : bool; regex_range : bool; start_line : Z; end_line : Z;
  regex_start : option str; regex_end : option str; prefix : option str }.
Definition skip_ws (s : str) : str := snd (span isspace s).
(** (int)strtol (s, &end, 10): None when end == s *)
Definition to_int (z : Z) : Z := (z + 2 ^ 31) mod 2 ^ 32 - 2 ^ 31.
Definition strtol (s : str) : option (Z * str) :=
  let s := skip_ws s in
  let '(neg, s) := match s with
    | c :: r => if ceq c "-"%char then (true, r) else if ceq c "+"%char then (false, r) else (false, s)
    | [] => (false, s) end in
  let '(ds, r) := span isdigit s in
  match ds with
  | [] => None
  | _ => let v := digits_value ds in
         let v := if neg then Z.max (- v) (- 2 ^ 63) else Z.min v (2 ^ 63 - 1) in
         Some (to_int v, r)
  end.
(** includes.c 481-498, 590-606 *)
Definition quoted_prefix (s : str) : option (option str) :=
  if starts (B "prefix=" ++ [DQ]) s then
    let r := skipn 8 s in
    Some (match strchr DQ r with Some k => Some (firstn k r) | None => None end)
  else None.
(** includes.c 585-607 *)
Definition trailing_prefix (s : str) : option str :=
  match skip_ws s with
  | c :: r => if ceq c ";"%char then match quoted_prefix (skip_ws r) with Some p => p | None => None end else None
  | [] => None
  end.
Definition is_end (s : str) : bool := match s with [] => true | c :: _ => ceq c ";"%char end.
(** includes.c 547-582 *)
Definition parse_lines (pos : str) : spec :=
  let bad := Spec false false 0 (-1) None None (trailing_prefix pos) in
  match strtol pos with
  | None => bad
  | Some (n, r) =>
      if n <? 1 then bad
      else
        match skip_ws r with
        | c :: r1 =>
            if ceq c ","%char then
              let r2 := skip_ws r1 in
              if is_end r2 then Spec true false n (-1) None None (trailing_prefix r2)
              else match strtol r2 with
                | None => Spec true false n (-1) None None (trailing_prefix r2)
                | Some (m, r3) => Spec true false n (if m <? n then -1 else m) None None (trailing_prefix r3)
                end
            else Spec true false n n None None (trailing_prefix (c :: r1))
        | [] => Spec true false n n None None None
        end
  end.
(** includes.c 502-545 *)
Definition parse_regex (pos : str) : option spec :=
  let a := tl pos in
  match strchr "/"%char a with
  | None => None
  | Some k =>
      let rest := snd (span (fun c => isspace c || ceq c ","%char) (skipn (S k) a)) in
      let '(e, rest) := match rest with
        | c :: b => if ceq c "/"%char then
            match strchr "/"%char b with Some j => (Some (firstn j b), skipn (S j) b) | None => (None, rest) end
          else (None, rest)
        | [] => (None, rest) end in
      Some (Spec false true 0 0 (Some (firstn k a)) e (trailing_prefix rest))
  end.
(** includes.c 472-610 *)
Definition parse_address_spec (s : str) : option spec :=
  match s with
  | [] => None
  | _ =>
      let pos := skip_ws s in
      match quoted_prefix pos with
      | Some p => Some (Spec false false 0 0 None None p)
      | None =>
          match pos with
          | c :: _ => if ceq c "/"%char then parse_regex pos else Some (parse_lines pos)
          | [] => Some (parse_lines pos)
          end
      end
  end.

Close Scope Z_scope.
Inductive extracted := Text (s : str) | Bad | Loops.
Definition result (w : wr) : extracted := let w := w_term w in if w_oob w then Bad else Text (w_out w).
Definition count (c : ascii) (s : str) : nat := length (filter (ceq c) s).
(** includes.c 619-653 *)
Fixpoint prefix_loop (p : str) (at_start : bool) (s : str) (w : wr) : wr :=
  match s with
  | [] => w
  | c :: r =>
      let w := if at_start && negb (ceq c NL) then w_term (w_store p w) else w in
      prefix_loop p (ceq c NL) r (w_store [c] w)
  end.
Definition line_total (s : str) : nat :=
  count NL s + match rev s with [] => 0 | c :: _ => if ceq c NL then 0 else 1 end.
Definition prefix_all (p content : str) : extracted :=
  let size := length content + line_total content * length p + 1 in
  result (prefix_loop p true content (w_new size size)).
(** includes.c 748-771, 813-836: the lines from [lo] up to, not with, [hi] *)
Definition emit_line (p : option str) (line : str) (w : wr) : wr :=
  if length line + 100 <? w_rem w then
    let w := match p with
      | Some p => if length p + length line + 10 <? w_rem w
                  then w_set_rem (w_rem w - length p) (w_term (w_store p w)) else w
      | None => w end in
    w_set_rem (w_rem w - length line - 1) (w_store [NL] (w_store line w))
  else w.
Fixpoint emit_range (p : option str) (n lo hi : nat) (ls : list str) (w : wr) : wr :=
  match ls with
  | [] => w
  | l :: r => emit_range p (S n) lo hi r (if (lo <=? n) && (n <? hi) then emit_line p l w else w)
  end.
Definition emit (p : option str) (lo hi : nat) (content : str) : extracted :=
  let size := length content + 1024 in
  result (emit_range p 1 lo hi (lines_ content) (w_new size size)).
(** includes.c 689-731: the number of the first line that matches the first pattern, and of the first
    from there on that matches the second *)
Fixpoint find_range (ms me : option (str -> bool)) (n : nat) (found : option nat) (ls : list str) : option nat * option nat :=
  match ls with
  | [] => (found, None)
  | l :: r =>
      let found := match ms, found with
        | Some m, None => if m l then Some n else None
        | _, _ => found end in
      match me with
      | Some m => if (match ms, found with None, _ => true | _, Some _ => true | _, None => false end) && m l
                  then (found, Some n) else find_range ms me (S n) found r
      | None => find_range ms me (S n) found r
      end
  end.
(** includes.c 615-838.  684-688: with no usable pattern and a prefix the function calls itself with
    the same arguments. *)
Definition extract_lines (regcomp : str -> option (str -> bool)) (content : str) (sp : spec) : extracted :=
  let total := S (count NL content) in
  if negb (line_range sp) && negb (regex_range sp) then
    match prefix sp with Some p => prefix_all p content | None => Text content end
  else if regex_range sp then
    let comp r := match r with Some x => regcomp x | None => None end in
    let ms := comp (regex_start sp) in
    let me := comp (regex_end sp) in
    match ms, me with
    | None, None => match prefix sp with Some _ => Loops | None => Text content end
    | _, _ =>
        let '(found, stop) := find_range ms me 1 None (lines_ content) in
        match ms, found with
        | Some _, None => Text []
        | _, _ => emit (prefix sp) (match found with Some n => n | None => 1 end)
                       (match stop with Some n => n | None => total end) content
        end
    end
  else
    if (start_line sp <? 1)%Z || (Z.of_nat total <? start_line sp)%Z then Text []
    else
      let e := if (end_line sp =? -1)%Z then Z.of_nat total
               else if (Z.of_nat total <? end_line sp)%Z then Z.of_nat total else end_line sp in
      if (e <? start_line sp)%Z then Text []
      else emit (prefix sp) (Z.to_nat (start_line sp)) (Z.to_nat e) content.
(** includes.c 1233-1271, 1380-1412: the part of a file with text [content] that [address] names *)
Definition part (regcomp : str -> option (str -> bool)) (address content : str) : extracted :=
  match parse_address_spec address with Some sp => extract_lines regcomp content sp | None => Text content end.
