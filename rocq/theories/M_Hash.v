(** Model of the hashtags: src/apex.c 4554-4726.  Texts are without NUL and have fewer than 2^31 spaces in a row; allocation never fails. *)
From Verif Require Import Base M_Pass.

(** 4633-4636 *)
Definition tag_byte (c : ascii) : bool :=
  negb (ceq c "#"%char) && negb (ceq c SP) && negb (ceq c NL) && negb (ceq c ","%char) && negb (ceq c ";"%char) && negb (ceq c "."%char) && negb (ceq c "!"%char) && negb (ceq c ")"%char) && negb (ceq c "]"%char).
(** 4629 *)
Definition tag_first (c : ascii) : bool := between 97 122 c || between 65 90 c || between 48 57 c.
(** 4625: start of the text, or a space, a tab or a newline in front *)
Definition may_start (prev : option ascii) : bool :=
  match prev with None => true | Some c => ceq c SP || ceq c TAB || ceq c NL end.
(** 4647-4649 *)
Definition opening (styled : bool) : str := B "<span class=""" ++ (if styled then B "mkstyledtag" else B "mkhashtag") ++ B """>".
(** 4570-4590: start of the line, indentation and code block *)
Record place := Place { p_start : bool; p_indent : nat; p_code : bool }.
Definition look (c : ascii) (p : place) : place :=
  let p :=
    if p_start p then
      if ceq c TAB then Place true 0 true
      else if ceq c SP then Place true (p_indent p + 1) (p_code p || (4 <=? p_indent p + 1))
      else if negb (ceq c NL) && negb (ceq c CR) then Place false 0 (p_code p)
      else p
    else p in
  if ceq c NL then Place true 0 false else p.
(** 4641-4643; a tag is never empty, so 4645 always holds *)
Definition tag_end (r : str) : str * str :=
  let '(t, rest) := span tag_byte r in
  match rest with c :: rest' => if ceq c "#"%char then (t ++ [c], rest') else (t, rest) | [] => (t, rest) end.
Fixpoint hashes (fuel : nat) (styled : bool) (prev : option ascii) (p : place) (s : str) (w : wr) : wr :=
  match fuel with
  | O => w
  | S fuel =>
      match s with
      | [] => w
      | c :: r =>
          let p := look c p in
          let copied := hashes fuel styled (Some c) p r (byte c w) in
          if p_code p then copied
          else if ceq c "#"%char && may_start prev then
            match r with
            | d :: _ =>
                if tag_first d then
                  let '(t, rest) := tag_end r in
                  hashes fuel styled (Some (last t c)) p rest (block 100 (opening styled ++ (c :: t) ++ B "</span>") w)
                else copied
            | [] => copied
            end
          else copied
      end
  end.
Definition hashtags (styled : bool) (text : str) : answer :=
  finish (hashes (S (length text)) styled None (Place true 0 false) text (start (length text * 3 + 1))).
