(** Lists with letters (src/apex.c 2001-2340). [NULL] arguments and failing allocations are left out; lengths are unbounded numbers. *)
From Verif Require Import Base Dec M_Relax.

(** ** apex_preprocess_alpha_lists, 2005-2189 *)
Definition ended (r : str) : bool := match r with [] => true | c :: _ => gap c end.

(** 2029-2055: white space, letter and what comes behind the dot *)
Definition marker (l : str) : option (str * ascii * str) :=
  let (w, p) := span gap l in
  match p with
  | c :: d :: r => if (islower c || isupper c) && ceq d "." && ended r then Some (w, c, r) else None
  | _ => None
  end.

(** 2117-2124 *)
Definition next_up (c : ascii) : ascii := let d := ascii_of_N (code c + 1) in if (90 <? code d)%N then "A"%char else d.
Definition next_lo (c : ascii) : ascii := let d := ascii_of_N (code c + 1) in if (122 <? code d)%N then "a"%char else d.

(** snprintf that only counts when everything fits, 2083-2087; memcpy of what fits, 2097-2111 *)
Definition print (cap : nat) (x o : str) : str := if length x <? cap - length o then o ++ x else o.
Definition copy (cap : nat) (x o : str) : str := o ++ firstn (cap - length o) x.

(** [a_bad]: the number of a line does not fit an int (2146-2150) *)
Record alpha := Alpha { a_in : bool; a_upper : bool; a_lo : ascii; a_up : ascii; a_number : nat; a_blanks : nat; a_out : str; a_bad : bool }.

Definition mark_line (u : bool) : str := B "[apex-alpha-list:" ++ (if u then B "upper" else B "lower") ++ B "]" ++ [NL; NL].

(** 2057-2125 *)
Definition item_step (cap : nat) (w : str) (c : ascii) (r : str) (nl : bool) (s : alpha) : alpha :=
  let u := isupper c in
  let goes_on := a_in s && Bool.eqb u (a_upper s) && ceq c (if u then a_up s else a_lo s) in
  let s := if goes_on then s
           else Alpha true u (if u then a_lo s else c) (if u then c else a_up s) 1 0 (print cap (mark_line u) (a_out s)) (a_bad s) in
  let o := print cap (w ++ dec (a_number s) ++ B ". ") (a_out s) in
  let o := copy cap (r ++ if nl then [NL] else []) o in
  Alpha true u (if u then a_lo s else next_lo (a_lo s)) (if u then next_up (a_up s) else a_up s) (S (a_number s)) 0 o (a_bad s).

(** 2127-2175 *)
Definition other_step (cap : nat) (l : str) (s : alpha) : alpha :=
  let set i b o x := Alpha i (a_upper s) (a_lo s) (a_up s) (a_number s) b o x in
  if a_in s then
    match snd (span gap l) with
    | [] => set (S (a_blanks s) <? 2) (S (a_blanks s)) (a_out s) (a_bad s)
    | c :: p =>
        if isdigit c then
          let (ds, q) := span isdigit (c :: p) in
          let v := digits_value ds in
          let one := (v =? 1)%Z && (match q with d :: q => ceq d "." && ended q | [] => false end) && (0 <? a_blanks s) in
          set false 0 (if one then print cap ([NL; NL] ++ B " " ++ [NL; NL]) (a_out s) else a_out s) (a_bad s || (2147483647 <? v)%Z)
        else set false 0 (a_out s) (a_bad s)
    end
  else s.

Definition line_step (cap : nat) (s : alpha) (ln : str * bool) : alpha :=
  let (l, nl) := ln in
  match marker l with
  | Some (w, c, r) => item_step cap w c r nl s
  | None =>
      let s := other_step cap l s in
      Alpha (a_in s) (a_upper s) (a_lo s) (a_up s) (a_number s) (a_blanks s) (copy cap (l ++ if nl then [NL] else []) (a_out s)) (a_bad s)
  end.

Inductive answer := Same | Text (s : str) | Bad.

Definition start : alpha := Alpha false false "a" "A" 1 0 [] false.

(** The terminating NUL (2187) needs a byte. *)
Definition letters (text : str) : answer :=
  let cap := length text * 3 in
  let s := fold_left (line_step cap) (cut_lines text) start in
  if a_bad s || (cap <=? length (a_out s)) then Bad else Text (a_out s).

(** ** apex_postprocess_alpha_lists_html, 2199-2337 *)
(** ENSURE_SPACE, 2217-2229 *)
Definition ensure (n : nat) (b : buf) : buf := if remaining b <? n then Buf ((length (b_out b) + n + 1) * 2) (b_out b) (b_bad b) else b.
Definition put (x : str) (b : buf) : buf := write x (ensure (length x) b).

(** 2236-2249; nine bytes of the ten behind the colon are compared *)
Definition mark (s : str) : option bool :=
  if starts (B "<p>[apex-alpha-list:") s then
    if starts (B "lower]</p") (skipn 20 s) then Some false
    else if starts (B "upper]</p") (skipn 20 s) then Some true
    else None
  else None.

Definition style (u : bool) : str := B " style=""list-style-type: " ++ (if u then B "upper" else B "lower") ++ B "-alpha"">".
Definition white (c : ascii) : bool := ceq c SP || ceq c TAB || ceq c NL || ceq c CR.

(** 2278-2296: the tag up to its >, and what follows. A style= that begins before the > ends before it. *)
Definition ol_tag (q : str) : option (str * str) :=
  if starts (B "<ol") q && (ceq (at_ q 3) ">" || ceq (at_ q 3) SP || ceq (at_ q 3) TAB || ceq (at_ q 3) NL) then
    match strchr ">" q with
    | Some k => match strstr (B "style=") (firstn k q) with Some _ => None | None => Some (firstn k q, skipn (S k) q) end
    | None => None
    end
  else None.

(** [pend] is what stands between [read_start] and [read]. Reading on behind the NUL (2262, 2319) is [Bad]. *)
Fixpoint scan (fuel : nat) (s pend : str) (b : buf) : answer :=
  match fuel with
  | 0 => Bad
  | S fuel =>
      match s with
      | [] => let b := put pend b in if b_bad b || (remaining b =? 0) then Bad else Text (b_out b)
      | c :: r =>
          match mark s with
          | Some u =>
              if length s <? 30 then Bad
              else
                let (w, q) := span white (skipn 30 s) in
                let b := put w (put pend b) in
                match ol_tag q with
                | Some (tag, rest) => scan fuel rest [] (write (style u) (write tag (ensure (length tag + 50) b)))
                | None => match q with [] => Bad | d :: q => scan fuel q [d] b end
                end
          | None => scan fuel r (pend ++ [c]) b
          end
      end
  end.

Definition styled (html : str) : answer :=
  match strstr (B "[apex-alpha-list:") html with
  | None => Same
  | Some _ => scan (S (length html)) html [] (Buf (length html + 1024) [] false)
  end.
