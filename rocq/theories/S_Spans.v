(** Adjacent bars, in lines with their ends; nothing of the model is used. *)
From Verif Require Import Base.

(** Lines, each with its end; only the last may have none. *)
Definition join (ls : list (str * str)) : str := concat (map (fun p => fst p ++ snd p) ls).
Definition line_text (l : str) : Prop := ~ In NL l /\ ~ In CR l.
Inductive Lines : list (str * str) -> Prop :=
| lines_end : Lines []
| lines_last l : line_text l -> l <> [] -> Lines [(l, [])]
| lines_nl l ls : line_text l -> Lines ls -> Lines ((l, [NL]) :: ls)
| lines_crlf l ls : line_text l -> Lines ls -> Lines ((l, [CR; NL]) :: ls)
| lines_cr l ls : line_text l -> (forall e q, ls <> ([], NL :: e) :: q) -> Lines ls -> Lines ((l, [CR]) :: ls).

(** A text whose last line has no end gets one. *)
Definition Ended (t x : str) : Prop := (t = [] \/ exists q c, t = q ++ [c] /\ (c = NL \/ c = CR)) /\ x = t \/ (exists q c, t = q ++ [c] /\ c <> NL /\ c <> CR) /\ x = t ++ [NL].

(** << between two bars that stand side by side *)
Fixpoint spread (l : str) : str :=
  match l with
  | [] => []
  | c :: r => match r with d :: _ => if ascii_dec c "|" then if ascii_dec d "|" then c :: B " << " ++ spread r else c :: spread r else c :: spread r | [] => [c] end
  end.

(** Lines that begin with three back quotes or tildes *)
Definition fence_line (l : str) : Prop := exists w f r, l = w ++ f ++ r /\ Forall (fun c => c = SP \/ c = TAB) w /\ (f = B "```" \/ f = B "~~~").

(** [Spread code ls out]: the bars of all lines outside fences are spread; [code]: the line before is in a fence. The line that ends a fence is outside. *)
Inductive Spread : bool -> list (str * str) -> list (str * str) -> Prop :=
| spread_end c : Spread c [] []
| spread_in l e ls out : ~ fence_line l -> Spread true ls out -> Spread true ((l, e) :: ls) ((l, e) :: out)
| spread_open l e ls out : fence_line l -> Spread true ls out -> Spread false ((l, e) :: ls) ((l, e) :: out)
| spread_close l e ls out : fence_line l -> Spread false ls out -> Spread true ((l, e) :: ls) ((spread l, e) :: out)
| spread_out l e ls out : ~ fence_line l -> Spread false ls out -> Spread false ((l, e) :: ls) ((spread l, e) :: out).

Definition within (x s : str) : Prop := exists a b, s = a ++ x ++ b.

(** The parts of a row between its bars; a bar behind a backslash does not part. *)
Definition push (c : ascii) (xs : list str) : list str := match xs with [] => [[c]] | x :: xs => (c :: x) :: xs end.
Fixpoint parts (esc : bool) (l : str) : list str :=
  match l with
  | [] => [[]]
  | c :: r => if ascii_dec c "|" then if esc then push c (parts false r) else [] :: parts false r
              else push c (parts (if ascii_dec c BS then negb esc else false) r)
  end.
Definition middle (x : str) : str := match x with [] => B " << " | _ => x end.
(** all but the first and the last *)
Fixpoint inner (xs : list str) : list str :=
  match xs with
  | [] => []
  | x :: r => match r with [] => [x] | _ => middle x :: inner r end
  end.
Definition filled (xs : list str) : list str := match xs with [] => [] | x :: r => x :: inner r end.

(** Lines in which every fence is closed *)
Inductive Blocks : list (str * str) -> Prop :=
| blocks_end : Blocks []
| blocks_line l e ls : ~ fence_line l -> Blocks ls -> Blocks ((l, e) :: ls)
| blocks_code f e body g h ls : fence_line f -> Forall (fun p => ~ fence_line (fst p)) body -> fence_line g -> Blocks ls -> Blocks ((f, e) :: body ++ (g, h) :: ls).
