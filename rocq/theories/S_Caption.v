(** Captions of tables, in lists of lines; nothing of the model is used. *)
From Verif Require Import Base S_Relax S_Spans.

Definition gaps (w : str) : Prop := Forall (fun c => c = SP \/ c = TAB) w.
Definition table_marks : list str := [B "Table:"; B "table:"].
(** [w] is the white space before the first byte [c]. *)
Definition opens (l w : str) (c : ascii) (p : str) : Prop := l = w ++ c :: p /\ gaps w /\ c <> SP /\ c <> TAB.

(** Text lines: no bar, no fence, not beginning with a mark *)
Definition calm (l : str) : Prop := exists w c p, opens l w c p /\ ~ fence_line l /\ ~ In "|"%char l /\ forall m r, In m table_marks -> c :: p <> m ++ r.
(** and no mark at all, no bracket and no colon in front *)
Definition easy (l : str) : Prop := exists w c p, opens l w c p /\ ~ fence_line l /\ ~ In "|"%char l /\ c <> "["%char /\ (forall d q, c = ":"%char -> p = d :: q -> d <> SP /\ d <> TAB) /\ forall m, In m table_marks -> ~ within m l.
(** Lines with a bar that are no fence and begin with no mark *)
Definition row_line (l : str) : Prop := exists w c p, opens l w c p /\ ~ fence_line l /\ In "|"%char l /\ forall m r, In m table_marks -> c :: p <> m ++ r.

(** [Squeeze near ls out]: text without tables and captions. Of several blank lines between two lines of text the first stays, and the others become one empty line; at the end only the first stays. [true]: at the start or behind text, [false]: behind one blank line. *)
Inductive Squeeze : bool -> list str -> list str -> Prop :=
| squeeze_end b : Squeeze b [] []
| squeeze_calm l ls out : calm l -> Squeeze true ls out -> Squeeze true (l :: ls) (l :: out)
| squeeze_blank g ls out : gaps g -> Squeeze false ls out -> Squeeze true (g :: ls) (g :: out)
| squeeze_easy l ls out : easy l -> Squeeze true ls out -> Squeeze false (l :: ls) (l :: out)
| squeeze_blanks gs l ls out : gs <> [] -> Forall gaps gs -> easy l -> Squeeze true ls out -> Squeeze false (gs ++ l :: ls) ([] :: l :: out)
| squeeze_tail gs : Forall gaps gs -> Squeeze false gs [].

(** [Attributes s a]: [s] is white space and then, or not, a list of attributes [a] and white space. *)
Definition Attributes (s a : str) : Prop :=
  gaps s /\ a = [] \/ exists w d m v, s = w ++ a /\ gaps w /\ a = B "{" ++ (d :: m) ++ B "}" ++ v /\ In d (B ":#.") /\ ~ In "{"%char m /\ gaps v.
(** A caption: no white space at its ends; without attributes no closing brace *)
Definition trimmed (c : str) : Prop := exists d q e, (c = [d] /\ e = d \/ exists m, c = d :: m ++ [e] /\ q = m) /\ isspace d = false /\ isspace e = false.
Definition shown_attributes (a : str) : str := match a with [] => [] | _ => SP :: a end.
