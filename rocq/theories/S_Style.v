(** What is said about styles on the terminal, without the model. *)
From Verif Require Import Base.
Local Open Scope N_scope.

Definition esc : ascii := ascii_of_N 27.
(** A word can begin behind it *)
Definition outset (a : str) : Prop := a = [] \/ exists a' c, a = a' ++ [c] /\ isspace c = true.
(** Nothing but sequences that choose a rendition: ESC [ digits and semicolons m *)
Inductive Sgr : str -> Prop :=
| sgr_nil : Sgr []
| sgr_seq p s : Forall (fun c => In c (B "0123456789;")) p -> Sgr s -> Sgr (esc :: B "[" ++ p ++ B "m" ++ s).
(** Hexadecimal digits *)
Definition digits : list (ascii * N) := combine (B "0123456789abcdefABCDEF") [0; 1; 2; 3; 4; 5; 6; 7; 8; 9; 10; 11; 12; 13; 14; 15; 10; 11; 12; 13; 14; 15].
Definition hexa (c : ascii) (n : N) : Prop := In (c, n) digits.
(** The palette of xterm from 16 on *)
Definition level (k : N) : N := if k =? 0 then 0 else 55 + 40 * k.
Definition palette (i : N) : N * N * N :=
  if i <? 232 then (level ((i - 16) / 36), level ((i - 16) / 6 mod 6), level ((i - 16) mod 6)) else (8 + 10 * (i - 232), 8 + 10 * (i - 232), 8 + 10 * (i - 232)).
Definition apart (x y : N) : N := N.max x y - N.min x y.
Definition distance (p q : N * N * N) : N := let '(a, b, c) := p in let '(d, e, f) := q in apart a d * apart a d + apart b e * apart b e + apart c f * apart c f.
(** No part further apart than so much *)
Definition near (m : N) (p q : N * N * N) : Prop := let '(a, b, c) := p in let '(d, e, f) := q in apart a d <= m /\ apart b e <= m /\ apart c f <= m.
