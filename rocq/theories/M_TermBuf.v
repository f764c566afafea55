(** The buffer of the terminal output: buffer_init and buffer_append (src/ast_terminal.c 74-97). Sizes are natural numbers: the overflow of size_t is not modelled. *)
From Verif Require Import Base.

Record buffer := { text : str; cap : nat }.
(** src/ast_terminal.c 74-78 *)
Definition init : buffer := {| text := []; cap := 0 |}.
(** src/ast_terminal.c 94-96: memcpy and the NUL behind it; [None]: a write outside of the [c] bytes allocated *)
Definition put (s : str) (b : buffer) (c : nat) : option buffer :=
  if length (text b) + length s + 1 <=? c then Some {| text := text b ++ s; cap := c |} else None.
(** src/ast_terminal.c 84-87 *)
Definition grown (old need : nat) : nat := let n := if old =? 0 then 256 else old * 2 in if n <? need then need else n.
(** src/ast_terminal.c 80-97; [ok]: realloc succeeds *)
Definition append (ok : bool) (s : str) (b : buffer) : option buffer :=
  match s with
  | [] => Some b
  | _ =>
      let need := length (text b) + length s + 1 in
      if cap b <? need then if ok then put s b (grown (cap b) need) else Some b
      else put s b (cap b)
  end.
Fixpoint appends (l : list (bool * str)) (b : buffer) : option buffer :=
  match l with [] => Some b | (ok, s) :: l => match append ok s b with Some b => appends l b | None => None end end.
