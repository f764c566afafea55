(** Specification of proofreader mode: what the rewritten text is. *)
From Verif Require Import Base.

Definition tick : ascii := "`".
(** Inside a code block, inside inline code. *)
Record code_state := In_code { block : bool; inline : bool }.
Definition in_code (st : code_state) : Prop := block st = true \/ inline st = true.
(** The effect of a run of [n] backticks: every third one opens or closes a code
    block; one or two that are left over open or close inline code, unless inside a
    code block. *)
Definition after_ticks (n : nat) (st : code_state) : code_state :=
  let b := xorb (block st) (Nat.odd (n / 3)) in
  In_code b (if (Nat.eqb (n mod 3) 0 || b)%bool then inline st else negb (inline st)).

(** The two marks, and what they become: [==x==] and [~~x~~]. *)
Inductive mark : ascii -> str -> str -> Prop :=
| m_high : mark "=" (B "{==") (B "==}")
| m_strike : mark "~" (B "{--") (B "--}").
(** [x] is what is between two doubled bytes [d]: they do not occur earlier. *)
Definition shortest (d : ascii) (x : str) : Prop := forall a b, x ++ [d] <> a ++ [d; d] ++ b.

Inductive rewrites : code_state -> str -> str -> Prop :=
| w_end st : rewrites st [] []
| w_ticks st n s o : 0 < n -> (forall r, s <> tick :: r) -> rewrites (after_ticks n st) s o ->
    rewrites st (repeat tick n ++ s) (repeat tick n ++ o)
| w_code st c s o : in_code st -> c <> tick -> rewrites st s o -> rewrites st (c :: s) (c :: o)
| w_mark st d l r x s o : ~ in_code st -> mark d l r -> shortest d x -> rewrites st s o ->
    rewrites st ([d; d] ++ x ++ [d; d] ++ s) (l ++ x ++ r ++ o)
| w_open st d l r s o : ~ in_code st -> mark d l r -> (forall a b, s <> a ++ [d; d] ++ b) ->
    rewrites st s o -> rewrites st ([d; d] ++ s) ([d; d] ++ o)
| w_plain st c s o : ~ in_code st -> c <> tick ->
    (forall d l r s', mark d l r -> c :: s <> [d; d] ++ s') -> rewrites st s o ->
    rewrites st (c :: s) (c :: o).
Definition outside := In_code false false.
