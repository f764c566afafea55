(** Lines of a file, and which of them an address names.  Nothing here uses the functions of M_Lines. *)
From Verif Require Import Base Dec.

(** The lines ended by a newline, and what follows the last newline. *)
Definition Lines (content : str) (ls : list str) (tail : str) : Prop :=
  content = concat (map (fun l => l ++ [NL]) ls) ++ tail /\ Forall (fun l => ~ In NL l) ls /\ ~ In NL tail.
Definition all_lines (ls : list str) (tail : str) : list str := ls ++ match tail with [] => [] | _ => [tail] end.
(** Lines number [n] up to, not with, [m]; from [n] on. *)
Definition pick (n m : nat) (ls : list str) : list str := firstn (m - n) (skipn (n - 1) ls).
Definition from (n : nat) (ls : list str) : list str := skipn (n - 1) ls.
Definition text (p : str) (ls : list str) : str := concat (map (fun l => p ++ l ++ [NL]) ls).
(** [First m n k ls r] : of the lines [ls], numbered from [n], [r] is the first with a number not below [k] that matches *)
Definition First (m : str -> bool) (n k : nat) (ls : list str) (r : option nat) : Prop :=
  match r with
  | Some j => exists t l, j = n + t /\ k <= j /\ nth_error ls t = Some l /\ m l = true /\
      forall t' l', t' < t -> k <= n + t' -> nth_error ls t' = Some l' -> m l' = false
  | None => forall t l, k <= n + t -> nth_error ls t = Some l -> m l = false
  end.
(** The lines of a file with a prefix before those that are not empty. *)
Definition marked (p : str) (l : str) : str := match l with [] => [] | _ => p ++ l end.
(** How the addresses are written. *)
Definition with_prefix (p : option str) : str :=
  match p with Some p => B ";prefix=" ++ [DQ] ++ p ++ [DQ] | None => [] end.
Definition prefix_text (p : option str) : str := match p with Some p => p | None => [] end.
Definition prefix_fine (p : option str) : Prop := match p with Some p => ~ In DQ p | None => True end.
Definition range_address (n m : nat) (p : option str) : str := dec n ++ B "," ++ dec m ++ with_prefix p.
Definition open_address (n : nat) (p : option str) : str := dec n ++ B "," ++ with_prefix p.
Definition line_address (n : nat) (p : option str) : str := dec n ++ with_prefix p.
Definition prefix_address (p : str) : str := B "prefix=" ++ [DQ] ++ p ++ [DQ].
Definition pattern_address (a b : str) (p : option str) : str := B "/" ++ a ++ B "/,/" ++ b ++ B "/" ++ with_prefix p.
