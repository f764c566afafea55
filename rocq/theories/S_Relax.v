(** Tables in a list of lines: rows, separators and what a pass that fills in the missing ones does; nothing of the model is used. *)
From Verif Require Import Base.

Definition unlines (ls : list str) : str := concat (map (fun l => l ++ [NL]) ls).

(** ** Lines *)
Definition blank (l : str) : Prop := Forall (fun c => isspace c = true) l.
Definition sep_line (l : str) : Prop := Forall (fun c => In c (B "-|:+ " ++ [TAB])) l /\ In "-"%char l /\ In "|"%char l.
Definition rule_line (l : str) : Prop := Forall (fun c => In c (B "- " ++ [TAB; NL; CR])) l /\ 3 <= count_occ ascii_dec l "-"%char.
Definition bars (l : str) : nat := count_occ ascii_dec l "|"%char.
Definition lead (l : str) : Prop := exists a r, l = a ++ "|"%char :: r /\ Forall (fun c => c = SP \/ c = TAB) a.
(** a row of [n] columns *)
Definition row_line (n : nat) (l : str) : Prop :=
  ~ sep_line l /\ 0 < n /\ 0 < bars l /\ (lead l /\ bars l = S n \/ ~ lead l /\ n = S (bars l)).
Definition plain_line (l : str) : Prop := ~ blank l /\ ~ sep_line l /\ ~ rule_line l /\ forall n, ~ row_line n l.

(** The separator that is written like the row *)
Definition sep_like (l : str) (n : nat) (s : str) : Prop :=
  lead l /\ s = B "|" ++ concat (repeat (B " --- |") n) \/ ~ lead l /\ s = concat (repeat (B "---|") n).

(** ** Cells of a row, as tables are read: a bar at the start and one at the end do not count, nor does one behind a backslash. *)
Fixpoint bars_outside (escaped : bool) (l : str) : nat :=
  match l with
  | [] => 0
  | c :: r => if escaped then bars_outside false r else if ceq c BS then bars_outside true r else (if ceq c "|" then 1 else 0) + bars_outside false r
  end.
Definition white (c : ascii) : bool := isspace c.
Definition front (l : str) : str := snd (span white l).
Definition trimmed (l : str) : str := rev (front (rev (front l))).
Definition open_bar (l : str) : str := match l with c :: r => if ceq c "|" then r else l | [] => [] end.
Definition inner (l : str) : str := rev (open_bar (rev (open_bar (trimmed l)))).
Definition cells (l : str) : nat := S (bars_outside false (inner l)).

(** ** Filling in
    [Filled m k ls out]: the lines [out] are [ls], where a run of two or more rows with equally many columns that is followed by an empty line, by text or by nothing has a separator behind its first row; a blank line behind such a run has become empty. [k] is the number of bytes written before; a run with its blank line does not end at byte [m]. A single row is not followed by a blank line. *)
Inductive Filled (m : nat) : nat -> list str -> list str -> Prop :=
| filled_end k : Filled m k [] []
| filled_line k l ls out : (forall n, ~ row_line n l) -> Filled m (k + length l + 1) ls out -> Filled m k (l :: ls) (l :: out)
| filled_table k r rs n s ls out : rs <> [] -> Forall (row_line n) (r :: rs) -> (ls = [] \/ exists l q, ls = l :: q /\ plain_line l) -> sep_like r n s ->
    Filled m (k + length (unlines (r :: s :: rs))) ls out -> Filled m k ((r :: rs) ++ ls) ((r :: s :: rs) ++ out)
| filled_blank k r rs n s l ls out : rs <> [] -> Forall (row_line n) (r :: rs) -> blank l -> sep_like r n s -> k + length (unlines (r :: s :: rs)) <> m ->
    Filled m (k + length (unlines (r :: s :: rs)) + 1) ls out -> Filled m k ((r :: rs) ++ l :: ls) ((r :: s :: rs) ++ [] :: out)
| filled_rows k rs n ls out : rs <> [] -> Forall (row_line n) rs ->
    (exists l q, ls = l :: q /\ (sep_line l \/ rule_line l \/ exists n', n' <> n /\ row_line n' l)) -> Filled m (k + length (unlines rs)) ls out -> Filled m k (rs ++ ls) (rs ++ out)
| filled_row k r n ls out : row_line n r -> (ls = [] \/ exists l q, ls = l :: q /\ plain_line l) -> Filled m (k + length r + 1) ls out -> Filled m k (r :: ls) (r :: out).

(** No two rows with equally many columns follow one another with nothing but blank lines between them. *)
Definition apart (ls : list str) : Prop := forall a r x r' b n, ls = a ++ r :: x ++ r' :: b -> Forall blank x -> row_line n r -> row_line n r' -> False.

(** ** Headers *)
(** a row that says something *)
Definition says (l : str) : Prop := In "|"%char l /\ Exists (fun c => c <> "|"%char /\ c <> "-"%char /\ isspace c = false) l.
(** what follows is, after blank lines, a row *)
Definition data_next (ls : list str) : Prop := exists x l r, ls = x ++ l :: r /\ Forall blank x /\ ~ blank l /\ says l.
Definition header_for (l : str) (h : str) : Prop := exists n,
  0 < n /\ (lead l /\ bars l = S n /\ h = B "| " ++ concat (repeat (B " | ") (n - 1)) ++ B " |" \/ ~ lead l /\ S (bars l) = n /\ h = concat (repeat (B " | ") n)).

(** [Headed prev ls out]: a header stands before every separator that has no row before it ([prev]: the line before is a row) and data behind it. *)
Inductive Headed : bool -> list str -> list str -> Prop :=
| headed_end p : Headed p [] []
| headed_keep (p p' : bool) l ls out : (p' = true <-> says l /\ ~ sep_line l) -> (sep_line l -> p = true \/ ~ data_next ls \/ forall h, ~ header_for l h) -> Headed p' ls out -> Headed p (l :: ls) (l :: out)
| headed_new (p' : bool) l h ls out : (p' = true <-> says l /\ ~ sep_line l) -> sep_line l -> data_next ls -> header_for l h -> Headed p' ls out -> Headed false (l :: ls) (h :: l :: out).

(** ** Bars at the ends *)
Definition trail (l : str) : Prop := exists r b, l = r ++ "|"%char :: b /\ Forall (fun c => isspace c = true) b.
Definition begins (l : str) : Prop := exists a c r, l = a ++ c :: r /\ Forall (fun c => c = SP \/ c = TAB) a /\ isspace c = false.
