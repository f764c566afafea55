(** Special markers: what they are, and what is shown for them.  Nothing of the model is used. *)
From Verif Require Import Base Dec.

Definition blanks (b : str) : Prop := Forall (fun c => c = SP \/ c = TAB) b.
Definition digits (d : str) : Prop := Forall (fun c => isdigit c = true) d.
(** Only blanks stand before on the line. *)
Definition own_line (u : str) : Prop := blanks u \/ exists a b, u = a ++ NL :: b /\ blanks b.
(** [d] is the number [ds] without superfluous zeros. *)
Inductive Canonical : str -> str -> Prop :=
| C_zero z : Canonical (repeat "0"%char z) (B "0")
| C_number z c r : c <> "0"%char -> Canonical (repeat "0"%char z ++ c :: r) (c :: r).

Definition separate : str := [NL; NL; ascii_of_N 226; ascii_of_N 128; ascii_of_N 139; NL; NL].
Definition attr (k v : string) : str := B " " ++ B k ++ B "=" ++ [DQ] ++ B v ++ [DQ].
Definition page : str :=
  [NL; NL] ++ B "<div" ++ attr "class" "mkpagebreak manualbreak" ++ attr "title" "Page break created by marker" ++
  attr "data-description" "PAGE (Marker)" ++ attr "style" "page-break-after:always" ++ B ">" ++
  B "<span" ++ attr "style" "display:none" ++ B ">&nbsp;</span></div>" ++ [NL; NL].
Definition wait (d : str) : str := B "<div" ++ attr "class" "autoscroll-pause" ++ B " data-pause=" ++ [DQ] ++ d ++ [DQ] ++ B "></div>".

(** Behind the text [u] stands the marker [m] for which [r] is shown; then comes [rest]. *)
Inductive Mark (u : str) : str -> str -> str -> Prop :=
| M_block b nl rest : own_line u -> blanks b -> nl = [NL] \/ (nl = [] /\ rest = []) -> Mark u (B "^" ++ b ++ nl) separate rest
| M_break rest : Mark u (B "<!--BREAK-->") page rest
| M_leanpub rest : Mark u (B "{::pagebreak /}") page rest
| M_pause ds d rest : digits ds -> Canonical ds d -> Mark u (B "<!--PAUSE:" ++ ds ++ B "-->") (wait d) rest
| M_index rest : Mark u (B "{index}") (B "<!--INDEX-->") rest.
(** All markers are replaced; everything else stays. *)
Inductive Shows : str -> str -> str -> Prop :=
| Sh_end u : Shows u [] []
| Sh_mark u m r rest h : Mark u m r rest -> Shows (u ++ m) rest h -> Shows u (m ++ rest) (r ++ h)
| Sh_byte u c s h : (forall m r rest, c :: s = m ++ rest -> ~ Mark u m r rest) -> Shows (u ++ [c]) s h -> Shows u (c :: s) (c :: h).

Definition has (x s : str) : Prop := exists a b, s = a ++ x ++ b.
(** There are only pauses of at most [n] seconds. *)
Definition pauses_to (n : Z) (text : str) : Prop := forall ds, digits ds -> has (B "<!--PAUSE:" ++ ds ++ B "-->") text -> (digits_value ds <= n)%Z.
(** No marker at all. *)
Definition unmarked (text : str) : Prop := forall u m r rest, text = u ++ m ++ rest -> ~ Mark u m r rest.
Definition no_front_blank (text : str) : Prop := at_ text 0 <> SP /\ at_ text 0 <> TAB.
(** The only marker of the text is the one behind [u]. *)
Definition only_at (u text : str) : Prop := forall x m r rest, text = x ++ m ++ rest -> Mark x m r rest -> x = u.
Definition no_pages (text : str) : Prop := ~ has (B "<!--BREAK-->") text /\ ~ has (B "{::pagebreak /}") text.
