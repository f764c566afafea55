(** Model of src/extensions/special_markers.c.  Texts are without NUL; allocation never fails and malloc(0)
    gives a buffer without a byte.  A store outside of the buffer, a read behind the NUL and an int that
    overflows (atoi, C11 7.22.1.2) are [Bad]. *)
From Verif Require Import Base Dec.

Inductive answer := Out (s : str) | Bad.
Definition blank (c : ascii) : bool := ceq c SP || ceq c TAB.

(** special_markers.c 57: line feeds around U+200B *)
Definition separator : str := [NL; NL; ascii_of_N 226; ascii_of_N 128; ascii_of_N 139; NL; NL].
(** special_markers.c 74-79, 125-130 *)
Definition page_break : str :=
  [NL; NL] ++ B "<div class=" ++ [DQ] ++ B "mkpagebreak manualbreak" ++ [DQ] ++ B " title=" ++ [DQ] ++ B "Page break created by marker" ++ [DQ] ++
  B " data-description=" ++ [DQ] ++ B "PAGE (Marker)" ++ [DQ] ++ B " style=" ++ [DQ] ++ B "page-break-after:always" ++ [DQ] ++ B ">" ++
  B "<span style=" ++ [DQ] ++ B "display:none" ++ [DQ] ++ B ">&nbsp;</span></div>" ++ [NL; NL].
(** special_markers.c 104-110; the digits of atoi are the digits read, without the zeros at the front *)
Definition int_max : Z := 2147483647%Z.
Definition without_zeros (ds : str) : str := match snd (span (ceq "0"%char) ds) with [] => B "0" | d => d end.
Definition pause (ds : str) : str := B "<div class=" ++ [DQ] ++ B "autoscroll-pause" ++ [DQ] ++ B " data-pause=" ++ [DQ] ++ without_zeros ds ++ [DQ] ++ B "></div>".

(** 34-43: [back] is the text before, backwards *)
Definition line_start (back : str) : bool :=
  match back with
  | [] => true
  | _ => match snd (span blank back) with c :: _ => ceq c NL | [] => false end
  end.
(** 46-53, 65-66: what follows if only blanks follow on the line *)
Definition line_end (s : str) : option str :=
  match snd (span blank s) with
  | [] => Some []
  | c :: r => if ceq c NL then Some r else None
  end.

Record st := St { s_cap : nat; s_out : str }.
Definition room (w : st) : nat := s_cap w - length (s_out w).
(** 59-63, 112-116: dropped if it does not fit *)
Definition if_fits (r : str) (w : st) : st := if length r <? room w then St (s_cap w) (s_out w ++ r) else w.
(** 81-97: the buffer grows *)
Definition grown (r : str) (w : st) : st :=
  let w := if room w <=? length r then St ((length (s_out w) + length r + 100) * 2) (s_out w) else w in
  St (s_cap w) (s_out w ++ r).
(** 183-188 *)
Definition byte (c : ascii) (w : st) : st := if 0 <? room w then St (s_cap w) (s_out w ++ [c]) else w.

(** What happens at a position: 32-189.  [Past]: the position is behind the NUL (160-178). *)
Inductive move := Fit (r rest : str) | Grow (r rest : str) | Copy (c : ascii) | Past.
Definition look (back s : str) : move :=
  match s with
  | [] => Past
  | c :: r =>
      match (if ceq c "^"%char && line_start back then line_end r else None) with
      | Some rest => Fit separator rest
      | None =>
          if starts (B "<!--BREAK-->") s then Grow page_break (skipn 12 s)
          else
            let (ds, t) := span isdigit (skipn 10 s) in
            if starts (B "<!--PAUSE:") s && starts (B "-->") t then
              if (digits_value ds <=? int_max)%Z then Fit (pause ds) (skipn 3 t) else Past
            else if starts (B "{::pagebreak /}") s then Grow page_break (skipn 15 s)
            else if starts (B "{index}") s && (length s =? 7) then Past
            else Copy c
      end
  end.
Fixpoint run (fuel : nat) (back s : str) (w : st) : option st :=
  match fuel with
  | O => None
  | S fuel =>
      match s with
      | [] => Some w
      | _ :: r =>
          let next rest := rev (firstn (length s - length rest) s) ++ back in
          match look back s with
          | Fit x rest => run fuel (next rest) rest (if_fits x w)
          | Grow x rest => run fuel (next rest) rest (grown x w)
          | Copy c => run fuel (c :: back) r (byte c w)
          | Past => None
          end
      end
  end.
(** 16-27, 191-192 *)
Definition process (text : str) : answer :=
  match run (S (length text)) [] text (St (length text * 4) []) with
  | Some w => if 0 <? room w then Out (s_out w) else Bad
  | None => Bad
  end.
