(** Code blocks in HTML, what a shell makes of a line, and when two pipes come to a stop; nothing of the model is used. *)
From Verif Require Import Base.

Definition has (x s : str) : Prop := exists a b, s = a ++ x ++ b.

(** ** HTML escaping as the renderer does it *)
Definition escape1 (c : ascii) : str :=
  if ceq c "&" then B "&amp;" else if ceq c "<" then B "&lt;" else if ceq c ">" then B "&gt;" else if ceq c DQ then B "&quot;" else [c].
Definition escape (s : str) : str := flat_map escape1 s.

(** ** A line for the shell, of safe bytes, blanks and semicolons *)
Definition safe (c : ascii) : Prop := isalnum c = true \/ In c (B "+-_./").
Fixpoint pieces (p : ascii -> bool) (s : str) : list str :=
  match s with
  | [] => [[]]
  | c :: r => if p c then [] :: pieces p r else match pieces p r with x :: l => (c :: x) :: l | [] => [[c]] end
  end.
Definition words (s : str) : list str := filter (fun w => match w with [] => false | _ => true end) (pieces (fun c => ceq c SP) s).
(** The commands of the line, each with its arguments *)
Definition commands (s : str) : list (list str) := map words (pieces (fun c => ceq c ";") s).

(** ** Code blocks *)
Definition tag_end (x : str) : Prop := ~ In ">"%char x /\ (x = [] \/ exists r, x = SP :: r).
Definition gaps (w : str) : Prop := Forall (fun c => In c [SP; TAB; NL; CR]) w.
Definition block_text (x w y content : str) : str := B "<pre" ++ x ++ B ">" ++ w ++ B "<code" ++ y ++ B ">" ++ content ++ B "</code></pre>".
Definition pre_start (s : str) : Prop := exists c r, s = B "<pre" ++ c :: r /\ (c = ">"%char \/ c = SP).
Definition code_block (s : str) : Prop := exists x w y content rest, tag_end x /\ gaps w /\ ~ In ">"%char y /\ s = block_text x w y content ++ rest.

(** The language, from the attribute lang of pre or the class of code *)
Inductive Lang : str -> str -> str -> Prop :=
| L_attr a l b y : ~ has (B "lang=" ++ [DQ]) a -> l <> [] -> ~ In DQ l -> length l < 64 -> Lang (a ++ B "lang=" ++ [DQ] ++ l ++ [DQ] ++ b) y l
| L_class x a m l r : ~ has (B "lang=" ++ [DQ]) x -> ~ has (B "class=" ++ [DQ]) a -> ~ has (B "language-") m ->
    Forall (fun c => c <> DQ /\ c <> SP) l -> (r = [] \/ exists c r', r = c :: r' /\ (c = DQ \/ c = SP)) -> length l < 64 ->
    Lang x (a ++ B "class=" ++ [DQ] ++ m ++ B "language-" ++ l ++ r) l
| L_none x y : ~ has (B "lang=" ++ [DQ]) x -> ~ has (B "class=" ++ [DQ]) y -> Lang x y [].

(** What the program makes of a block; [None]: the block stays as it is. *)
Definition outcome (only : bool) (tool : str -> str -> option str) (lang code : str) : option str :=
  match only, lang with
  | true, [] => None
  | _, _ => match tool lang code with Some [] => None | x => x end
  end.

(** The document [s] becomes [o]. [n]: the bytes the program writes. [keep]: blocks may stay as they are. *)
Inductive Shown (only : bool) (tool : str -> str -> option str) (keep : bool) : nat -> str -> str -> Prop :=
| S_end : Shown only tool keep 0 [] []
| S_byte n c s o : ~ pre_start (c :: s) -> Shown only tool keep n s o -> Shown only tool keep n (c :: s) (c :: o)
| S_pre n c s o : keep = true -> ~ code_block (c :: s) -> Shown only tool keep n s o -> Shown only tool keep n (c :: s) (c :: o)
| S_painted n x w y lang code h s o : tag_end x -> gaps w -> ~ In ">"%char y -> Lang x y lang -> outcome only tool lang code = Some h ->
    Shown only tool keep n s o -> Shown only tool keep (length h + n) (block_text x w y (escape code) ++ s) (h ++ o)
| S_kept n x w y lang code s o : keep = true -> tag_end x -> gaps w -> ~ In ">"%char y -> Lang x y lang -> outcome only tool lang code = None ->
    Shown only tool keep n s o -> Shown only tool keep n (block_text x w y (escape code) ++ s) (block_text x w y (escape code) ++ o).
