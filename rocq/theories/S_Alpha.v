(** Lists whose items have letters, in a list of lines, and what they become; nothing of the model is used. *)
From Verif Require Import Base Dec S_Relax.

Definition lowers : str := B "abcdefghijklmnopqrstuvwxyz".
Definition uppers : str := B "ABCDEFGHIJKLMNOPQRSTUVWXYZ".
Definition gaps (w : str) : Prop := Forall (fun c => c = SP \/ c = TAB) w.

(** An item: white space, a letter, a dot, and nothing or white space behind it *)
Definition item (l w : str) (c : ascii) (r : str) : Prop :=
  l = w ++ c :: "."%char :: r /\ gaps w /\ In c (lowers ++ uppers) /\ (r = [] \/ exists d q, r = d :: q /\ (d = SP \/ d = TAB)).
Definition no_item (l : str) : Prop := forall w c r, ~ item l w c r.

(** The letter that follows; a follows z. *)
Definition follows (c d : ascii) : Prop := exists al i, (al = lowers \/ al = uppers) /\ nth_error al i = Some c /\ nth_error al ((i + 1) mod 26) = Some d.

Definition numbered (n : nat) (w r : str) : str := w ++ dec n ++ B ". " ++ r.
Definition sign (c : ascii) : str := if in_dec ascii_dec c uppers then B "[apex-alpha-list:upper]" else B "[apex-alpha-list:lower]".

(** A run of items, each with the letter that follows, at most one blank line between two; from letter [c] and number [n] to letter [e]. *)
Inductive Items : ascii -> nat -> ascii -> list str -> list str -> Prop :=
| items_one c n l w r : item l w c r -> Items c n c [l] [numbered n w r]
| items_next c n l w r d e ls out : item l w c r -> follows c d -> Items d (S n) e ls out -> Items c n e (l :: ls) (numbered n w r :: out)
| items_gap c n l w r d e g ls out : item l w c r -> gaps g -> follows c d -> Items d (S n) e ls out -> Items c n e (l :: g :: ls) (numbered n w r :: g :: out).

(** 1. at the start of a line *)
Definition one_line (l : str) : Prop := exists w z r, l = w ++ z ++ B "1." ++ r /\ gaps w /\ Forall (fun c => c = "0"%char) z /\ (r = [] \/ exists d q, r = d :: q /\ (d = SP \/ d = TAB)).

(** [Lettered ls out]: every run of items gets a sign before it and becomes numbered from 1; everything else stays. A list that starts with 1. behind a blank line behind the run is kept apart. *)
Inductive Lettered : list str -> list str -> Prop :=
| lettered_end : Lettered [] []
| lettered_line l ls out : no_item l -> Lettered ls out -> Lettered (l :: ls) (l :: out)
| lettered_run c e its nums ls out : Items c 1 e its nums ->
    (ls = [] \/ (exists l q, ls = l :: q /\ no_item l /\ ~ gaps l) \/ (exists l q w d r, ls = l :: q /\ item l w d r /\ ~ follows e d) \/ (exists l l' q, ls = l :: l' :: q /\ gaps l /\ gaps l')) ->
    Lettered ls out -> Lettered (its ++ ls) (sign c :: [] :: nums ++ out)
| lettered_gap c e its nums g ls out : Items c 1 e its nums -> gaps g ->
    (ls = [] \/ (exists l q, ls = l :: q /\ no_item l /\ ~ gaps l /\ ~ one_line l) \/ (exists l q w d r, ls = l :: q /\ item l w d r /\ ~ follows e d)) ->
    Lettered ls out -> Lettered (its ++ g :: ls) (sign c :: [] :: nums ++ g :: out)
| lettered_one c e its nums g l ls out : Items c 1 e its nums -> gaps g -> one_line l ->
    Lettered ls out -> Lettered (its ++ g :: l :: ls) (sign c :: [] :: nums ++ g :: [] :: [] :: B " " :: [] :: l :: out).

(** No line starts with a number of more than nine digits. *)
Definition short_number (l : str) : Prop := forall w ds r, l = w ++ ds ++ r -> gaps w -> Forall (fun c => isdigit c = true) ds -> length ds <= 9.

(** ** The page *)
(** [Signed html out k]: [out] is [html] where every sign in a paragraph of its own is gone, and the list behind it, which has no style, has got one; [k] lists. A sign with something else behind it, but no tag, is gone too. *)
Definition paragraph (u : bool) : str := B "<p>[apex-alpha-list:" ++ (if u then B "upper" else B "lower") ++ B "]</p>".
Definition tag_style (u : bool) : str := B " style=""list-style-type: " ++ (if u then B "upper" else B "lower") ++ B "-alpha"">".
Definition within (x s : str) : Prop := exists a b, s = a ++ x ++ b.

Inductive Signed : str -> str -> nat -> Prop :=
| signed_end x : ~ within (B "<p>[apex-alpha-list:") x -> Signed x x 0
| signed_list x u w t s out k : ~ within (B "<p>[apex-alpha-list:") x -> Forall (fun c => In c [SP; TAB; NL; CR]) w ->
    (t = [] \/ exists d q, t = d :: q /\ In d [SP; TAB; NL]) -> ~ In ">"%char t -> ~ within (B "style=") t -> Signed s out k ->
    Signed (x ++ paragraph u ++ w ++ B "<ol" ++ t ++ B ">" ++ s) (x ++ w ++ B "<ol" ++ t ++ tag_style u ++ out) (S k)
| signed_bare x u w d s out k : ~ within (B "<p>[apex-alpha-list:") x -> Forall (fun c => In c [SP; TAB; NL; CR]) w -> ~ In d [SP; TAB; NL; CR; "<"%char] -> Signed s out k ->
    Signed (x ++ paragraph u ++ w ++ d :: s) (x ++ w ++ d :: out) k.

(** What the item with number [n] shows in a list with the letters of [c] *)
Definition shown (c : ascii) (n : nat) : option ascii := nth_error (if in_dec ascii_dec c uppers then uppers else lowers) (n - 1).
