(** Specification of formulas: which texts are formulas, independently of the scanner. *)
From Verif Require Import Base.

(** Ends with an odd number of backslashes: what follows is escaped. *)
Fixpoint odd_start (s : str) : bool := match s with c :: r => if ceq c BS then negb (odd_start r) else false | [] => false end.
Definition escaping (s : str) : bool := odd_start (rev s).
Definition dollar : ascii := "$"%char.
Definition blank (c : ascii) : bool := existsb (ceq c) [SP; TAB; NL].
(** [s] begins with the formula $body$: the body is not empty, begins with no blank or dollar, ends with no
    blank, and its dollar signs are escaped while the last one is not. *)
Definition inline_formula (s body rest : str) : Prop :=
  s = dollar :: body ++ dollar :: rest /\
  (exists c x, body = c :: x /\ blank c = false /\ c <> dollar) /\
  (exists x c, body = x ++ [c] /\ blank c = false) /\
  (forall a b, body = a ++ dollar :: b -> escaping a = true) /\ escaping body = false.
(** $$body$$, to the first $$. *)
Definition display_formula (s body rest : str) : Prop :=
  s = dollar :: dollar :: body ++ dollar :: dollar :: rest /\
  forall a b, body ++ dollar :: dollar :: rest = a ++ dollar :: dollar :: b -> length body <= length a.
(** No dollar sign after two backslashes. *)
Definition single_escapes (s : str) : Prop := forall a b, s <> a ++ BS :: BS :: dollar :: b.
