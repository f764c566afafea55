(** Documents with elements whose content is Markdown.  Nothing of the model is used. *)
From Verif Require Import Base.

Definition key : str := B "markdown=".
Definition has (x s : str) : Prop := exists a b, s = a ++ x ++ b.
Definition lower : str -> str := map tolower.

(** ** Tags *)
Definition name_byte (c : ascii) : Prop := isalpha c = true \/ isdigit c = true \/ c = "-"%char \/ c = "_"%char.
Definition name (t : str) : Prop := Forall name_byte t /\ 0 < length t < 64.
Definition word (w : str) : Prop := w <> [] /\ Forall (fun c => isspace c = false /\ c <> ">"%char) w.
(** A word that is not the attribute markdown. *)
Definition other (w : str) : Prop := word w /\ ~ exists r, w = key ++ r.
Definition tag (t : str) (ws : list str) : str := B "<" ++ t ++ flat_map (fun w => SP :: w) ws ++ B ">".
(** The value [v] is written [x], with or without quotes. *)
Definition Value (v x : str) : Prop := word (key ++ x) /\ length v < 64 /\
  ((x = v /\ at_ v 0 <> DQ /\ at_ v 0 <> SQ) \/ exists q, (q = DQ \/ q = SQ) /\ x = [q] ++ v ++ [q] /\ ~ In q v /\ ~ In BS v).
Definition start_tag (t : str) (l1 : list str) (x : str) (l2 : list str) : str := tag t (l1 ++ (key ++ x) :: l2).
Definition good_tag (t : str) (l1 : list str) (v x : str) (l2 : list str) : Prop := name t /\ Forall other l1 /\ Value v x /\ Forall other l2.
(** An end tag of [t]; case does not matter. *)
Definition end_tag (t close : str) : Prop := exists x z, close = B "</" ++ x ++ z ++ B ">" /\ lower x = lower t /\ ~ In ">"%char z /\ ~ In "<"%char z /\
  (z = [] \/ exists c z', z = c :: z' /\ isspace c = true).

(** ** Nesting *)
Definition stops (c : ascii) : Prop := c = ">"%char \/ isspace c = true.
Definition opens (t s : str) : Prop := exists x c r, s = B "<" ++ x ++ c :: r /\ lower x = lower t /\ stops c.
Definition closes (t s : str) : Prop := exists x c r, s = B "</" ++ x ++ c :: r /\ lower x = lower t /\ stops c.
(** [n] elements [t] are open before [s], none behind it. *)
Inductive Nested (t : str) : nat -> str -> Prop :=
| Ne_end : Nested t 0 []
| Ne_open n c s : opens t (c :: s) -> Nested t (S n) s -> Nested t n (c :: s)
| Ne_close n c s : closes t (c :: s) -> Nested t n s -> Nested t (S n) (c :: s)
| Ne_byte n c s : ~ opens t (c :: s) -> ~ closes t (c :: s) -> Nested t n s -> Nested t n (c :: s).

(** ** Documents *)
(** Nothing between < and > has the attribute. *)
Definition plain (s : str) : Prop := forall x i z, s = x ++ B "<" ++ i ++ B ">" ++ z -> ~ In ">"%char i -> ~ has key i.
(** The same, and no tag of [a] goes on behind it. *)
Definition settled (a : str) : Prop := plain a /\ forall x y, a = x ++ B "<" ++ y -> In ">"%char y \/ exists c z, y = c :: z /\ ~ name_byte c.
Definition block (v : str) : Prop := v = B "1" \/ v = B "block".
Definition inline (v : str) : Prop := v = B "span".
(** Inline content has no paragraph around it. *)
Inductive Unwrapped : str -> str -> Prop :=
| U_p h : Unwrapped (B "<p>" ++ h ++ B "</p>" ++ [NL]) h
| U_other h : (forall x, h <> B "<p>" ++ x ++ B "</p>" ++ [NL]) -> Unwrapped h h.
Definition Content (render : str -> str) (v c html : str) : Prop := (block v /\ html = render c) \/ (inline v /\ Unwrapped (render c) html).
Inductive Page (render : str -> str) : str -> str -> Prop :=
| Pg_rest s : plain s -> Page render s s
| Pg_literal a t l1 v x l2 c close s h : settled a -> good_tag t l1 v x l2 -> ~ block v -> ~ inline v -> Nested t 0 c -> end_tag t close -> Page render s h ->
    Page render (a ++ start_tag t l1 x l2 ++ c ++ close ++ s) (a ++ start_tag t l1 x l2 ++ c ++ close ++ h)
| Pg_markdown a t l1 v x l2 c c' html close s h : settled a -> good_tag t l1 v x l2 -> length (tag t (l1 ++ l2)) < 2048 -> Nested t 0 c -> end_tag t close ->
    c <> [] -> Page render c c' -> length c' < 2 * length c -> Content render v c' html -> Page render s h ->
    Page render (a ++ start_tag t l1 x l2 ++ c ++ close ++ s) (a ++ tag t (l1 ++ l2) ++ html ++ close ++ [NL] ++ h).
