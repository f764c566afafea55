(** Model of src/extensions/special_markers.c.  Allocation never fails. *)
From Verif Require Import Base Dec.

(** 76-80 and 130-134. *)
Definition PAGE : str :=
  [NL; NL] ++ B "<div class=" ++ [DQ] ++ B "mkpagebreak manualbreak" ++ [DQ] ++
  B " title=" ++ [DQ] ++ B "Page break created by marker" ++ [DQ] ++
  B " data-description=" ++ [DQ] ++ B "PAGE (Marker)" ++ [DQ] ++
  B " style=" ++ [DQ] ++ B "page-break-after:always" ++ [DQ] ++ B ">" ++
  B "<span style=" ++ [DQ] ++ B "display:none" ++ [DQ] ++ B ">&nbsp;</span></div>" ++ [NL; NL].
(** 59: a zero-width space as a paragraph. *)
Definition BLOCK_END : str := [NL; NL; "226"%char; "128"%char; "139"%char; NL; NL].
(** 112-114; the number has at most ten digits, so 256 bytes suffice. *)
Definition pause_div (n : Z) : str :=
  B "<div class=" ++ [DQ] ++ B "autoscroll-pause" ++ [DQ] ++ B " data-pause=" ++ [DQ] ++
  dec (Z.to_nat n) ++ [DQ] ++ B "></div>".

Definition blank (c : ascii) : bool := ceq c SP || ceq c TAB.
(** 34-43: [pre] is the text before the read pointer, last byte first.  (Forming
    [text - 1] for the first byte is not counted as an access.) *)
Definition line_start (pre : str) : bool :=
  match pre with [] => true | _ => ceq (at_ (snd (span blank pre)) 0) NL end.
(** 46-53: what follows the blanks behind the caret, if that is a line end. *)
Definition line_end (s : str) : option str :=
  match snd (span blank s) with
  | [] => Some []
  | c :: r => if ceq c NL then Some r else None
  end.

(** 82-97: make room, then copy without looking. *)
Definition put_grown (x : str) (w : wr) : wr :=
  let w1 := if Nat.leb (w_rem w) (length x) then
              let cap := (length (w_out w) + length x + 100) * 2 in
              Wr cap (w_out w) (cap - length (w_out w)) (w_oob w)
            else w in
  w_set_rem (w_rem w1 - length x) (w_store x w1).

(** [Behind]: the read pointer is moved behind the terminator (178).
    [Overflow]: atoi of a number that is no int (110), undefined. *)
Inductive marked := Marked (w : wr) | Behind | Overflow.
Definition INT_MAX : Z := 2147483647.

(** 108-110: the number of a pause and what follows it. *)
Definition pause (s : str) : option (Z * str) :=
  let (ds, r) := span isdigit (skipn 10 s) in
  if starts (B "-->") r then Some (digits_value ds, skipn 3 r) else None.

Definition consumed (s r : str) (pre : str) : str := rev (firstn (length s - length r) s) ++ pre.

(** 29-189, the loop. *)
Fixpoint marks_loop (fuel : nat) (pre s : str) (w : wr) : option marked :=
  match fuel with
  | 0 => None
  | S fuel =>
      match s with
      | [] => Some (Marked (w_term w))
      | c :: s' =>
          let go r w' := marks_loop fuel (consumed s r pre) r w' in
          match (if ceq c "^" && line_start pre then line_end s' else None) with
          | Some r => go r (w_puts_lt BLOCK_END w)
          | None =>
              if starts (B "<!--BREAK-->") s then go (skipn 12 s) (put_grown PAGE w)
              else
                match (if starts (B "<!--PAUSE:") s then pause s else None) with
                | Some (n, r) => if (INT_MAX <? n)%Z then Some Overflow else go r (w_puts_lt (pause_div n) w)
                | None =>
                    if starts (B "{::pagebreak /}") s then go (skipn 15 s) (put_grown PAGE w)
                    else if seq_ s (B "{index}") then Some Behind
                    else go s' (w_put c w)
                end
          end
      end
  end.
(** 16-28. *)
Definition special_markers (text : str) : option marked :=
  marks_loop (S (length text)) [] text (w_new (length text * 4) (length text * 4)).
