(** Model of src/extensions/toc.c.  Allocation never fails.  The function
    [idf] stands for apex_generate_header_id (see M_Ids). *)
From Verif Require Import Base Dec.

(** A document: for each node its heading (level and text, as given by
    apex_extract_heading_text), its attributes (user data) and its children. *)
Inductive node := Node (heading : option (nat * str)) (attrs : option str) (children : list node).
(** 16-21 *)
Record hd := Hd { h_level : nat; h_text : str; h_id : str }.

(** 40-76; the linked list is a list. *)
Definition no_toc (attrs : option str) : bool :=
  match attrs with
  | Some a => match strstr (B "no_toc") a with Some _ => true | None => false end
  | None => false
  end.
Fixpoint collect (n : node) : list (nat * str) :=
  match n with
  | Node h a l =>
      (match h with Some x => if no_toc a then [] else [x] | None => [] end) ++
      (fix all (l : list node) : list (nat * str) :=
         match l with
         | [] => []
         | n :: l => collect n ++ all l
         end) l
  end.
(** 316-319 *)
Definition number (idf : str -> str) (x : nat * str) : hd := Hd (fst x) (snd x) (idf (snd x)).

(** 94-101: APPEND is [w_puts_lt]. *)
Definition nl (s : string) : str := B s ++ [NL].
Arguments nl s%string.
Fixpoint times (n : nat) (s : str) (w : wr) : wr :=
  match n with
  | 0 => w
  | S n => times n s (w_puts_lt s w)
  end.
(** 141-143: snprintf into 1024 bytes. *)
Definition item (h : hd) : str :=
  firstn 1023 (B "<li><a href=""#" ++ h_id h ++ B """>" ++ h_text h ++ B "</a>").

(** 105-146.  [current_level], [last_level] and the buffer. *)
Record ts := Ts { t_cur : nat; t_last : nat; t_w : wr }.
Definition toc_item (h : hd) (t : ts) : ts :=
  let w := times (t_cur t - h_level h) (nl "</ul>" ++ nl "</li>") (t_w t) in
  let cur := Nat.min (t_cur t) (h_level h) in
  let down := Nat.ltb cur (h_level h) && (Nat.eqb cur 0 || Nat.ltb 0 (t_last t)) in
  let w := if down then w_puts_lt (nl "<ul>") w else w in
  let cur := if down then S cur else cur in
  let w := if Nat.ltb 0 (t_last t) && Nat.leb (h_level h) (t_last t) then w_puts_lt (nl "</li>") w else w in
  Ts cur (h_level h) (w_puts_lt (item h) w).
Definition in_range (lo hi : Z) (h : hd) : bool :=
  negb (Z.ltb (Z.of_nat (h_level h)) lo || Z.ltb hi (Z.of_nat (h_level h))).
Definition toc_step (lo hi : Z) (t : ts) (h : hd) : ts := if in_range lo hi h then toc_item h t else t.
(** 84-160.  The text and whether a byte was stored outside the buffer. *)
Definition toc_html (hs : list hd) (lo hi : Z) : str * bool :=
  match hs with
  | [] => ([], false)
  | _ =>
      let w := w_puts_lt (nl "<nav class=""toc"">") (w_new 4096 4096) in
      let t := fold_left (toc_step lo hi) hs (Ts 0 0 w) in
      let w := times (t_cur t) (nl "</li>" ++ nl "</ul>") (t_w t) in
      let w := w_term (w_puts_lt (nl "</nav>") w) in
      (w_out w, w_oob w)
  end.

(** 166-215.  [s]: the text before the position. *)
Definition is_letter (c : ascii) (s : str) (k : nat) : bool := ceq (at_ s k) c || ceq (at_ s k) (toupper c).
Fixpoint is_word (l s : str) (k : nat) : bool :=
  match l with
  | [] => true
  | c :: l => is_letter c s k && is_word l s (S k)
  end.
(** 174-178: outside the text before the position the next byte counts as NUL. *)
Definition tag_gap (c : ascii) : bool := ceq c ">" || ceq c SP || ceq c TAB || ceq c NL.
Definition opens_code (s : str) : bool := Nat.leb 5 (length s) && is_word (B "code") s 1 && tag_gap (at_ s 5).
Definition opens_pre (s : str) : bool := Nat.leb 4 (length s) && is_word (B "pre") s 1 && tag_gap (at_ s 4).
Definition closes_code (s : str) : bool :=
  Nat.leb 7 (length s) && ceq (at_ s 1) "/" && is_word (B "code") s 2 && ceq (at_ s 6) ">".
Definition closes_pre (s : str) : bool :=
  Nat.leb 6 (length s) && ceq (at_ s 1) "/" && is_word (B "pre") s 2 && ceq (at_ s 5) ">".
Fixpoint inside (s : str) (skip code pre : nat) : bool :=
  match s with
  | [] => Nat.ltb 0 code || Nat.ltb 0 pre
  | c :: s' =>
      match skip with
      | S k => inside s' k code pre
      | 0 =>
          if ceq c "<" then
            if opens_code s then inside s' 4 (S code) pre
            else if opens_pre s then inside s' 3 code (S pre)
            else if closes_code s then inside s' 6 (code - 1) pre
            else if closes_pre s then inside s' 5 code (pre - 1)
            else inside s' 0 code pre
          else inside s' 0 code pre
      end
  end.
Definition in_code (before : str) : bool := inside before 0 0 0.

(** 220-256.  [marker] is the text from the marker on, to its end. *)
Definition number_at (s : str) : Z := digits_value (fst (span isdigit s)).
Definition first_digit (s : str) : str := snd (span (fun c => negb (isdigit c)) s).
Definition after (lit s : str) : option str :=
  match strstr lit s with
  | Some k => Some (skipn (k + length lit) s)
  | None => None
  end.
Definition level_after (lit marker : str) (d : Z) : Z :=
  match after lit marker with
  | Some s => match first_digit s with [] => d | r => number_at r end
  | None => d
  end.
Definition marker_range (marker : str) : Z * Z :=
  let hi := level_after (B "max") marker 6 in
  let lo := level_after (B "min") marker 1 in
  match after (B ":") marker with
  | None => (lo, hi)
  | Some s =>
      let s := snd (span isspace s) in
      if isdigit (at_ s 0) then
        (number_at s,
         match after (B "-") s with
         | Some d => if isdigit (at_ d 0) then number_at d else hi
         | None => hi
         end)
      else (lo, hi)
  end.

(** 263-297.  [s] is the rest of the text, [before] what precedes it.  The result: what
    precedes the marker, the text from the marker on, and whether it is a comment. *)
Fixpoint find_marker (fuel : nat) (before s : str) : option (option (str * str * bool)) :=
  match fuel with
  | 0 => None
  | S fuel =>
      match strstr (B "<!--TOC") s, strstr (B "{{TOC") s with
      | None, None => Some None
      | c, m =>
          let comment := match c, m with
                         | Some i, Some j => Nat.ltb i j
                         | Some _, None => true
                         | None, _ => false
                         end in
          let k := match c, m with
                   | Some i, Some j => if Nat.ltb i j then i else j
                   | Some i, None => i
                   | None, Some j => j
                   | None, None => 0
                   end in
          let pre := before ++ firstn k s in
          let cand := skipn k s in
          if in_code pre then
            let n := match strstr (if comment then B "-->" else B "}}") cand with
                     | Some e => e + (if comment then 3 else 2)
                     | None => 1
                     end in
            find_marker fuel (pre ++ firstn n cand) (skipn n cand)
          else Some (Some (pre, cand, comment))
      end
  end.
(** 302-368 *)
Definition toc (idf : str -> str) (html : str) (document : node) : option (str * bool) :=
  match find_marker (S (length html)) [] html with
  | None => None
  | Some None => Some (html, false)
  | Some (Some (before, marker, comment)) =>
      match map (number idf) (collect document) with
      | [] => Some (html, false)
      | hs =>
          let (lo, hi) := marker_range marker in
          let (t, oob) := toc_html hs lo hi in
          match strstr (if comment then B "-->" else B "}}") marker with
          | None => Some (html, oob)
          | Some e => Some (before ++ t ++ skipn (e + (if comment then 3 else 2)) marker, oob)
          end
      end
  end.
