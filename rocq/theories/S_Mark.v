(** What the special marker property says. *)
From Verif Require Import Base Dec.

(** A text is a sequence of plain bytes and markers: a caret on a line of its own
    with blanks around it, a page break in either notation, a pause. *)
Inductive mtok :=
| MByte (c : ascii)
| BlockEnd (blanks : list ascii) (newline : bool)
| Break
| PageBreak
| Pause (digits : list ascii).
Definition write_mtok (t : mtok) : list ascii :=
  match t with
  | MByte c => [c]
  | BlockEnd b n => "^"%char :: b ++ (if n then [NL] else [])
  | Break => B "<!--BREAK-->"
  | PageBreak => B "{::pagebreak /}"
  | Pause ds => B "<!--PAUSE:" ++ ds ++ B "-->"
  end.
Definition write_mtoks (l : list mtok) : list ascii := concat (map write_mtok l).

Definition is_blank (c : ascii) : Prop := In c [SP; TAB].
(** At the very start, or behind nothing but blanks of a later line. *)
Definition fresh_line (pre : list ascii) : Prop :=
  pre = [] \/ exists p g, pre = p ++ NL :: g /\ Forall is_blank g.
(** [t] is a marker that can stand between [pre] and [rest]. *)
Definition marker (pre : list ascii) (t : mtok) (rest : list ascii) : Prop :=
  match t with
  | MByte _ => False
  | BlockEnd b n => Forall is_blank b /\ fresh_line pre /\ (n = false -> rest = [])
  | Break | PageBreak => True
  | Pause ds => forallb isdigit ds = true
  end.
(** Bytes are only those that start no marker. *)
Fixpoint mtoks_ok (pre : list ascii) (l : list mtok) : Prop :=
  match l with
  | [] => True
  | t :: l' =>
      match t with
      | MByte c => forall t' r, marker pre t' r -> c :: write_mtoks l' <> write_mtok t' ++ r
      | _ => marker pre t (write_mtoks l')
      end /\ mtoks_ok (pre ++ write_mtok t) l'
  end.

(** A number without needless zeros. *)
Fixpoint number (ds : list ascii) : list ascii :=
  match ds with
  | [] => B "0"
  | c :: ds' => if ceq c "0" then number ds' else ds
  end.
Definition quot (s : list ascii) : list ascii := DQ :: s ++ [DQ].
Definition page_div : list ascii :=
  B "<div class=" ++ quot (B "mkpagebreak manualbreak") ++ B " title=" ++ quot (B "Page break created by marker") ++
  B " data-description=" ++ quot (B "PAGE (Marker)") ++ B " style=" ++ quot (B "page-break-after:always") ++
  B "><span style=" ++ quot (B "display:none") ++ B ">&nbsp;</span></div>".
Definition shown (t : mtok) : list ascii :=
  match t with
  | MByte c => [c]
  | BlockEnd _ _ => [NL; NL] ++ ["226"; "128"; "139"]%char ++ [NL; NL]
  | Break | PageBreak => [NL; NL] ++ page_div ++ [NL; NL]
  | Pause ds => B "<div class=" ++ quot (B "autoscroll-pause") ++ B " data-pause=" ++ quot (number ds) ++ B "></div>"
  end.
Definition shown_all (l : list mtok) : list ascii := concat (map shown l).
(** No pause is longer than an int. *)
Definition short_pauses (l : list mtok) : Prop :=
  forall ds, In (Pause ds) l -> (digits_value ds <= 2147483647)%Z.
Definition index_at_end (s : list ascii) : Prop := exists a, s = a ++ B "{index}".
Definition no_page_break (l : list mtok) : Prop := ~ In Break l /\ ~ In PageBreak l.
