(** Footnote ids with a prefix.  Nothing of the model is used. *)
From Verif Require Import Base.

Definition key (k : str) : Prop := k = B "id=""fn-" \/ k = B "id=""fnref-" \/ k = B "href=""#fn-" \/ k = B "href=""#fnref-".
Definition begins (x s : str) : Prop := exists r, s = x ++ r.
(** The prefix and a hyphen behind every key. *)
Inductive Prefixed (p : str) : str -> str -> Prop :=
| Pf_end : Prefixed p [] []
| Pf_key k s h : key k -> Prefixed p s h -> Prefixed p (k ++ s) (k ++ p ++ B "-" ++ h)
| Pf_byte c s h : (forall k, key k -> ~ begins k (c :: s)) -> Prefixed p s h -> Prefixed p (c :: s) (c :: h).
Definition ends_in_key (s : str) : Prop := exists a k, key k /\ s = a ++ k.
Definition hex_byte (c : ascii) : Prop := In c (B "0123456789abcdef").
