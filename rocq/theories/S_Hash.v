(** Hashtags, line by line.  Nothing of the model is used. *)
From Verif Require Import Base.

Definition alnum (c : ascii) : Prop := In c (B "abcdefghijklmnopqrstuvwxyzABCDEFGHIJKLMNOPQRSTUVWXYZ0123456789").
Definition ender (c : ascii) : Prop := In c (B "# ,;.!)]") \/ c = NL.
(** At the start of a line, or behind a space or tab ([free]), # and a letter or digit begin a tag. *)
Inductive Spans (open : str) : bool -> str -> str -> Prop :=
| Sp_end free : Spans open free [] []
| Sp_tag a b s h : alnum a -> Forall (fun c => ~ ender c) b -> match s with [] => True | c :: _ => ender c /\ c <> "#"%char end -> Spans open false s h ->
    Spans open true (B "#" ++ [a] ++ b ++ s) (open ++ B "#" ++ [a] ++ b ++ B "</span>" ++ h)
| Sp_closed a b s h : alnum a -> Forall (fun c => ~ ender c) b -> Spans open false s h ->
    Spans open true (B "#" ++ [a] ++ b ++ B "#" ++ s) (open ++ B "#" ++ [a] ++ b ++ B "#" ++ B "</span>" ++ h)
| Sp_byte (free free' : bool) c s h : (free = true -> c = "#"%char -> match s with [] => True | a :: _ => ~ alnum a end) ->
    (free' = true <-> c = SP \/ c = TAB) -> Spans open free' s h -> Spans open free (c :: s) (c :: h).
(** Indented code: four spaces or a tab; carriage returns do not count. *)
Definition code_line (l : str) : Prop := exists u r, l = u ++ r /\ Forall (fun c => c = SP \/ c = TAB \/ c = CR) u /\ (In TAB u \/ 4 <= count_occ ascii_dec u SP).
Definition Line (open l h : str) : Prop := (code_line l /\ h = l) \/ (~ code_line l /\ Spans open true l h).
Inductive Hashed (open : str) : str -> str -> Prop :=
| H_last l h : ~ In NL l -> Line open l h -> Hashed open l h
| H_line l h s d : ~ In NL l -> Line open l h -> Hashed open s d -> Hashed open (l ++ [NL] ++ s) (h ++ [NL] ++ d).
Definition open_tag (styled : bool) : str := if styled then B "<span class=""mkstyledtag"">" else B "<span class=""mkhashtag"">".
