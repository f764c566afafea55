(** CriticMarkup as the user guide describes it, independent of the scanner:
    a document is a sequence of plain bytes and marks. *)
From Verif Require Import Base.

Inductive mark := Addition | Deletion | Substitution | Highlight | Comment.

Definition opening (m : mark) : str :=
  match m with
  | Addition => B "{++" | Deletion => B "{--" | Substitution => B "{~~"
  | Highlight => B "{==" | Comment => B "{>>"
  end.
Definition closing (m : mark) : str :=
  match m with
  | Addition => B "++}" | Deletion => B "--}" | Substitution => B "~~}"
  | Highlight => B "==}" | Comment => B "<<}"
  end.

(** [s] starts with mark [m] around [body], [rest] follows; the body ends at
    the first closing marker. *)
Definition mark_at (s : str) (m : mark) (body rest : str) : Prop :=
  s = opening m ++ body ++ closing m ++ rest /\
  forall b r, body ++ closing m ++ rest = b ++ closing m ++ r -> length body <= length b.

Inductive segment := Plain (c : ascii) | Marked (m : mark) (body : str).

(** Left to right reading: a mark wherever one starts, else one plain byte. *)
Inductive reads : str -> list segment -> Prop :=
| reads_nil : reads [] []
| reads_mark s m body rest segs :
    mark_at s m body rest -> reads rest segs -> reads s (Marked m body :: segs)
| reads_plain c s segs :
    (forall m body rest, ~ mark_at (c :: s) m body rest) ->
    reads s segs -> reads (c :: s) (Plain c :: segs).

(** Old and new text of a substitution body: split at the first [~>].  Without
    a [~>] the body is all new text. *)
Definition splits (body old new : str) : Prop :=
  (body = old ++ B "~>" ++ new /\
   forall o n, body = o ++ B "~>" ++ n -> length old <= length o)
  \/ ((forall o n, body <> o ++ B "~>" ++ n) /\ old = [] /\ new = body).

(** What accepting or rejecting leaves of a segment. *)
Inductive accepted : segment -> str -> Prop :=
| acc_plain c : accepted (Plain c) [c]
| acc_add b : accepted (Marked Addition b) b
| acc_del b : accepted (Marked Deletion b) []
| acc_sub b o n : splits b o n -> accepted (Marked Substitution b) n
| acc_hi b : accepted (Marked Highlight b) b
| acc_com b : accepted (Marked Comment b) [].

Inductive rejected : segment -> str -> Prop :=
| rej_plain c : rejected (Plain c) [c]
| rej_add b : rejected (Marked Addition b) []
| rej_del b : rejected (Marked Deletion b) b
| rej_sub b o n : splits b o n -> rejected (Marked Substitution b) o
| rej_hi b : rejected (Marked Highlight b) b
| rej_com b : rejected (Marked Comment b) [].

(** The result of a whole document: pieces in order. *)
Definition result_of (piece : segment -> str -> Prop) (segs : list segment) (out : str) : Prop :=
  exists pieces, Forall2 piece segs pieces /\ out = concat pieces.

(** Rendering with the edits visible (documented HTML). *)
Inductive shown : segment -> str -> Prop :=
| sh_plain c : shown (Plain c) [c]
| sh_add b : shown (Marked Addition b) (B "<ins class=""critic"">" ++ b ++ B "</ins>")
| sh_del b : shown (Marked Deletion b) (B "<del class=""critic"">" ++ b ++ B "</del>")
| sh_sub b o n : splits b o n -> o <> [] ->
    shown (Marked Substitution b)
      (B "<del class=""critic break"">" ++ o ++ B "</del>" ++
       B "<ins class=""critic break"">" ++ n ++ B "</ins>")
| sh_sub0 b n : splits b [] n ->
    shown (Marked Substitution b) (B "<ins class=""critic"">" ++ n ++ B "</ins>")
| sh_hi b : shown (Marked Highlight b) (B "<mark class=""critic"">" ++ b ++ B "</mark>")
| sh_com b : shown (Marked Comment b)
    (B "<span class=""critic comment"">" ++ b ++ B "</span>").
