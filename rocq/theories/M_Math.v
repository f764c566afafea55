(** Model of src/extensions/math.c: formulas between dollar signs.  The scanner sees the rest of a
    paragraph from the dollar sign on.  (The function for \( and \[, 199-260, is not used.) *)
From Verif Require Import Base.

Definition DL : ascii := "$"%char.
Definition gap (c : ascii) : bool := ceq c SP || ceq c TAB || ceq c NL.
(** 54-69.  [prev] is input[i - 1]; 0 when there is no formula *)
Fixpoint close (i : nat) (prev : ascii) (s : str) : nat :=
  match s with
  | [] => 0
  | c :: r =>
      if ceq c DL then
        if ceq prev BS then close (S i) c r
        else if (1 <? i) && gap prev then 0
        else if i =? 1 then 0
        else i + 1
      else close (S i) c r
  end.
(** 36-40 *)
Fixpoint close2 (i : nat) (s : str) : nat :=
  match s with
  | c :: ((d :: _) as r) => if ceq c DL && ceq d DL then i + 2 else close2 (S i) r
  | _ => 0
  end.
(** 29-73: length and kind *)
Definition scan_dollar (s : str) : nat * bool :=
  if length s <? 3 then (0, false)
  else
    match s with
    | a :: ((b :: r2) as r) =>
        if ceq a DL && ceq b DL then (close2 2 r2, true)
        else if ceq a DL then
          if gap b || ceq b DL then (0, false) else (close 1 a r, false)
        else (0, false)
    | _ => (0, false)
    end.
(** %.*s stops at a NUL byte *)
Definition upto_nul (s : str) : str := fst (span (fun c => negb (ceq c NUL)) s).
Definition span_open (display : bool) : str :=
  B "<span class=" ++ [DQ] ++ B "math " ++ (if display then B "display" else B "inline") ++ [DQ] ++ B ">\" ++ (if display then B "[" else B "(").
Definition span_close (display : bool) : str := B "\" ++ (if display then B "]" else B ")") ++ B "</span>".
(** 135-193: the literal of the HTML node and the number of bytes used; snprintf keeps what fits into
    content_len + 100 bytes *)
Definition match_math (s : str) : option (str * nat) :=
  let (n, display) := scan_dollar s in
  if n =? 0 then None
  else
    let off := if display then 2 else 1 in
    let len := n - off - off in
    if len =? 0 then None
    else Some (firstn (len + 99) (span_open display ++ upto_nul (firstn len (skipn off s)) ++ span_close display), n).
