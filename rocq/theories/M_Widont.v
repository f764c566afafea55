(** Model of the non-breaking spaces in headings: src/apex.c 3538-3956.  Texts are without NUL; allocation never fails. *)
From Verif Require Import Base M_Pass.

(** * The last words: 3637-3697 *)
(** [visible] (the text without tags, 3610-3634) is that of 3146-3198. *)
Record scan_st := Scan { sc_end : nat; sc_start : nat; sc_len : nat; sc_first : nat }.
(** 3645-3684: byte [i - 1] of the text [t] of length [n] *)
Fixpoint scan (i : nat) (t : str) (n : nat) (st : scan_st) : scan_st :=
  match i with
  | O => st
  | S j =>
      if blank (at_ t j) then
        if sc_start st <? n then
          let word := sc_end st - sc_start st in
          if sc_len st =? 0 then scan j t n (Scan j j word (sc_start st))
          else
            let sum := sc_len st + 1 + word in
            if 10 <? sum then Scan (sc_end st) (sc_start st) sum (sc_start st)
            else scan j t n (Scan j j sum (sc_start st))
        else scan j t n (Scan j j (sc_len st) (sc_first st))
      else scan j t n (Scan (if sc_start st =? n then i else sc_end st) j (sc_len st) (sc_first st))
  end.
(** 3637-3697: where the last words start, if there are any *)
Definition last_words (t : str) : option nat :=
  let n := length t in
  let st := scan n t n (Scan n n 0 n) in
  let st :=
    if (sc_start st <? n) && (sc_len st =? 0) then Scan (sc_end st) (sc_start st) (sc_end st - sc_start st) (sc_start st)
    else if (sc_start st <? n) && (0 <? sc_len st) && (sc_len st <=? 10) then Scan (sc_end st) (sc_start st) (sc_len st + 1 + (sc_end st - sc_start st)) (sc_start st)
    else st in
  if (0 <? sc_len st) && (sc_first st <? n) then Some (sc_first st) else None.

(** * The heading: 3705-3843 *)
(** 3714-3727: the position in the HTML behind [k] bytes of text *)
Fixpoint offset (k : nat) (in_tag : bool) (s : str) : nat :=
  match k, s with
  | S k', c :: r =>
      if ceq c "<"%char then S (offset k true r)
      else if ceq c ">"%char then S (offset k false r)
      else S (offset (if in_tag then k else k') in_tag r)
  | _, _ => 0
  end.
(** 3729-3831; only bytes of text are counted in [pos] *)
Fixpoint joined (from pos : nat) (in_tag : bool) (s : str) (w : wr) : wr :=
  match s with
  | [] => w
  | c :: r =>
      if ceq c "<"%char then joined from pos true r (byte c w)
      else if ceq c ">"%char then joined from pos false r (byte c w)
      else if in_tag then joined from pos true r (byte c w)
      else joined from (pos + 1) false r (if (from <=? pos) && (ceq c SP || ceq c TAB) then block 100 (B "&nbsp;") w else byte c w)
  end.
(** 3606-3908 *)
Definition body_copy (body : str) (w : wr) : wr :=
  match last_words (visible false body) with
  | Some first => joined (offset first false body) 0 false body w
  | None => block 1 body w
  end.

(** * The document: 3550-3956 *)
Definition level_of (s : str) : option ascii :=
  if ceq (at_ s 0) "<"%char && ceq (at_ s 1) "h"%char && between 49 54 (at_ s 2) then Some (at_ s 2) else None.
(** 3937-3952: a byte is stored as long as there is room for it *)
Definition last_byte (c : ascii) (w : wr) : wr := emit [c] (if left_ w =? 0 then grow 100 w else w).
Fixpoint widont (fuel : nat) (s : str) (w : wr) : wr :=
  match fuel with
  | O => w
  | S fuel =>
      match s with
      | [] => w
      | c :: r =>
          match level_of s with
          | Some d =>
              match strchr ">"%char s with
              | None => block 1 s w
              | Some e =>
                  let w := block 100 (firstn (e + 1) s) w in
                  let body := skipn (e + 1) s in
                  let close := B "</h" ++ [d] ++ B ">" in
                  match strstr close body with
                  | None => block 1 body w
                  | Some k => widont fuel (skipn (k + length close) body) (block 1 close (body_copy (firstn k body) w))
                  end
              end
          | None => widont fuel r (last_byte c w)
          end
      end
  end.
Definition apply_widont (html : str) : answer := finish (widont (S (length html)) html (start (length html * 2 + 1))).
