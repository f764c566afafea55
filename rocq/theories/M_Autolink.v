(** Addresses in the text become links: apex_preprocess_autolinks (src/apex.c 494-1013), called in 4198-4211. Allocation never fails; [int] and [size_t] do not overflow. *)
From Verif Require Import Base M_Relax M_Spans.

(** 503-511 *)
Record auto := Auto { a_code : bool; a_ticks : nat; a_inline : bool; a_liquid : bool; a_url : bool; a_brackets : nat; a_parens : nat }.
Definition fresh : auto := Auto false 0 false false false 0 0.

(** What one turn of the loop does: bytes copied without a check, bytes copied with one, or [n] bytes replaced by a link *)
Inductive move := Copy (n : nat) | Line (n : nat) | Link (n : nat) (u h : str).

Definition is (c d : ascii) : bool := ceq d c.
Definition word (c : ascii) : bool := negb (isspace c) && negb (ceq c "<") && negb (ceq c ">").

(** 534-590: an indented line or a definition [id]: is copied as a whole. [bk] is the text before [s], backwards. *)
Definition line_end (s : str) : nat := match strchr NL s with Some k => k | None => length s end.
Definition indented (s : str) : bool := let w := firstn 4 (fst (span (is SP) s)) in (length w =? 4) || ceq (at_ s (length w)) TAB.
Definition definition (s : str) : bool :=
  match snd (span gap s) with
  | c :: q => if ceq c "[" then match strchr "]" q with Some k => ceq (at_ q (S k)) ":" | None => false end else false
  | [] => false
  end.
Definition line_move (bk s : str) : bool := (match bk with [] => true | c :: _ => ceq c NL end) && (indented s || definition s).

(** 654-724 and 809-880: is this place in the value of an attribute? *)
Definition attr (bk : str) : bool :=
  let (i, r) := span (fun c => negb (ceq c "<") && negb (ceq c ">")) bk in
  if ceq (at_ r 0) "<" then
    let (v, e) := span (fun c => negb (ceq c "=")) i in
    match e with
    | [] => false
    | _ => match snd (span isspace (rev v)) with
           | [] => false
           | q :: t => if ceq q DQ || ceq q SQ then negb (existsb (ceq q) t) else negb (existsb isspace (q :: t))
           end
    end
  else false.

(** 734-765 *)
Definition angle (s : str) : option str :=
  match s with
  | c :: r => if ceq c "<" then
      match strchr ">" r with
      | Some k =>
          if (6 <? k) && starts (B "http://") r || (7 <? k) && starts (B "https://") r || (7 <? k) && starts (B "mailto:") r then Some (firstn k r) else None
      | None => None
      end else None
  | [] => None
  end.

(** 767-787 *)
Definition comment (s : str) : option nat := if starts (B "<!--") s then match strstr (B "-->") s with Some k => Some (k + 3) | None => None end else None.

Definition url (s : str) : bool := starts (B "http://") s || starts (B "https://") s || starts (B "mailto:") s.

(** 918-931, [y] is what stands behind the @ in the token *)
Fixpoint tld (y : str) : bool :=
  match y with
  | [] => false
  | c :: r => if ceq c "." && match r with d :: _ => isalnum d | [] => false end then true
              else if negb (isalnum c) && negb (ceq c "-") && negb (ceq c "_") then false else tld r
  end.

(** 895-938 *)
Definition email (bk s : str) : bool :=
  let edge := match bk with [] => true | d :: _ => isspace d || ceq d "(" || ceq d "[" end in
  let cite := ceq (at_ bk 0) "[" && ceq (at_ s 0) "@" in
  edge && negb cite &&
    (let (x, y) := span (fun c => negb (ceq c "@")) (fst (span word s)) in
     match y with
     | _ :: e :: y => match rev x with d :: _ => negb (ceq d "[") && isalnum d && tld (e :: y) | [] => false end
     | _ => false
     end).

Fixpoint trim_end (f : ascii -> bool) (s : str) : str :=
  match s with
  | [] => []
  | c :: r => match trim_end f r with [] => if f c then [] else [c] | r' => c :: r' end
  end.
Definition punct (c : ascii) : bool := ceq c "." || ceq c "," || ceq c ";" || ceq c ":".

(** 789-1003 *)
Definition address (bk s : str) : option (str * str) :=
  let free := negb (isspace (at_ s 0)) && negb ((ceq (at_ s 0) "h" || ceq (at_ s 0) "m" || ceq (at_ s 0) "@") && attr bk) in
  let u := free && url s in
  let m := free && negb (url s) && email bk s in
  if u || m then
    let a := trim_end punct (fst (span word s)) in
    let h := if m && negb ((7 <=? length a) && starts (B "mailto:") a) then B "mailto:" ++ a else a in
    if (0 <? length a) && negb (match bk with d :: _ => ceq d "(" || ceq d "[" | [] => false end)
       && negb (match bk with [] => ceq (at_ s 0) "#" && (ceq (at_ s 1) SP || ceq (at_ s 1) TAB || ceq (at_ s 1) NL) | _ => false end)
    then Some (a, h) else None
  else None.

Definition set_brackets (st : auto) (u : bool) (b p : nat) : auto := Auto (a_code st) (a_ticks st) (a_inline st) (a_liquid st) u b p.
Definition set_liquid (st : auto) (l : bool) : auto := Auto (a_code st) (a_ticks st) (a_inline st) l (a_url st) (a_brackets st) (a_parens st).

(** 591-627 *)
Definition ticks (st : auto) (k : nat) : auto :=
  if 3 <=? k then
    if a_code st then if a_ticks st <=? k then Auto false 0 (a_inline st) (a_liquid st) (a_url st) (a_brackets st) (a_parens st) else st
    else Auto true k (a_inline st) (a_liquid st) (a_url st) (a_brackets st) (a_parens st)
  else if k =? 1 then Auto (a_code st) (a_ticks st) (negb (a_inline st)) (a_liquid st) (a_url st) (a_brackets st) (a_parens st)
  else st.

(** 636-660; the second part: ]( is copied and the turn ends *)
Definition brackets (st : auto) (c d : ascii) : auto * bool :=
  if ceq c "[" && negb (a_url st) then (set_brackets st (a_url st) (S (a_brackets st)) (a_parens st), false)
  else if ceq c "]" && (0 <? a_brackets st) then
    if ceq d "(" then (set_brackets st true (a_brackets st) 1, true) else (set_brackets st (a_url st) (a_brackets st - 1) (a_parens st), false)
  else if ceq c "(" && a_url st then (set_brackets st true (a_brackets st) (S (a_parens st)), false)
  else if ceq c ")" && a_url st then (set_brackets st (negb (a_parens st - 1 =? 0)) (a_brackets st) (a_parens st - 1), false)
  else (st, false).

(** 513-1010: one turn *)
Definition act (st : auto) (bk : str) (c : ascii) (r : str) : auto * move :=
  let s := c :: r in
  let d := at_ r 0 in
  if negb (a_liquid st) && ceq c "{" && ceq d "%" then (set_liquid st true, Copy 2)
  else if a_liquid st then if ceq c "%" && ceq d "}" then (set_liquid st false, Copy 2) else (st, Copy 1)
  else if line_move bk s then (st, Line (line_end s))
  else if ceq c "`" then let k := Nat.min 10 (S (length (fst (span (is "`") r)))) in (ticks st k, Copy k)
  else if a_code st || a_inline st then (st, Copy 1)
  else
    let (st, both) := brackets st c d in
    if both then (st, Copy 2)
    else if a_url st then (st, Copy 1)
    else if (ceq c "h" || ceq c "m") && attr bk then (st, Copy 1)
    else match angle s with
         | Some u => (st, Link (length u + 2) u u)
         | None =>
             match comment s with
             | Some n => (st, Line n)
             | None => match address bk s with Some (u, h) => (st, Link (length u) u h) | None => (st, Copy 1) end
             end
         end.

Definition size (m : move) : nat := match m with Copy n | Line n | Link n _ _ => n end.

(** The buffer grows when [needed] bytes and a NUL do not fit (546-552 and wherever it is checked). *)
Definition reserve (needed : nat) (b : buf) : buf := if b_cap b <? length (b_out b) + needed + 1 then resize ((length (b_out b) + needed + 1) * 2) b else b.
Definition do_move (m : move) (s : str) (b : buf) : buf :=
  match m with
  | Copy n => write (firstn n s) b
  | Line n => write (firstn n s) (reserve n b)
  | Link _ u h => write (B "[" ++ u ++ B "](" ++ h ++ B ")") (reserve (2 + length u + 3 + length h + 2) b)
  end.

Fixpoint go (fuel : nat) (st : auto) (bk s : str) (b : buf) : buf :=
  match s with
  | [] => b
  | c :: r =>
      match fuel with
      | 0 => fail b
      | S fuel => let (st', m) := act st bk c r in go fuel st' (rev (firstn (size m) s) ++ bk) (skipn (size m) s) (do_move m s b)
      end
  end.

(** [None]: something is written behind the buffer. The NUL (1011) needs a byte. *)
Definition autolinks (text : str) : option str :=
  let b := go (S (length text)) fresh [] text (Buf (length text * 4 + 1) [] false) in
  if b_bad b || (remaining b =? 0) then None else Some (b_out b).
