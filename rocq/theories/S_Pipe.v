(** Specification vocabulary for running external commands. *)
From Verif Require Import Base M_Pipe.

Definition finished {C} (s : st C) : Prop := exists buf over status, s_par s = PDone buf over status.
Definition killed {C} (s : st C) : Prop := s_par s = PKilled.
(** Nobody can do anything any more, and the parent has not finished. *)
Definition stuck {C} (next : C -> action C) (K : nat) (s : st C) : Prop :=
  ~ finished s /\ forall s', ~ step next K s s'.

(** A child that writes a finite output and exits. *)
Inductive answers {C} (next : C -> action C) : C -> Prop :=
| a_exit c status : next c = Exit status -> answers next c
| a_write c b c' : next c = Write b c' -> answers next c' -> answers next c.

(** A child that reads its whole input before it writes anything. *)
Definition reads_first {C} (next : C -> action C) (reading : C -> Prop) : Prop :=
  forall c, reading c -> exists k, next c = Read k /\
    (forall chunk, chunk <> [] -> reading (k chunk)) /\ answers next (k []).

(** [cat]: it hands on every chunk it reads, and exits at the end of its input.
    The state is what remains to be written before the next read. *)
Inductive cat := CatWrite (todo : str) | CatEnd.
Definition cat_next (c : cat) : action cat :=
  match c with
  | CatWrite [] => Read (fun chunk => match chunk with [] => CatEnd | _ => CatWrite chunk end)
  | CatWrite (b :: todo) => Write b (CatWrite todo)
  | CatEnd => Exit 0
  end.

(** [sort]: it reads everything, then writes it. *)
Inductive slurp := Slurping (seen : str) | Writing (todo : str).
Definition slurp_next (f : str -> str) (c : slurp) : action slurp :=
  match c with
  | Slurping seen => Read (fun chunk => match chunk with [] => Writing (f seen) | _ => Slurping (seen ++ chunk) end)
  | Writing (b :: todo) => Write b (Writing todo)
  | Writing [] => Exit 0
  end.

(** [true]: it exits at once. *)
Definition true_next (c : unit) : action unit := Exit 0.
