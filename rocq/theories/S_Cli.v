(** What the file-handling properties say. *)
From Verif Require Import Base.

(** Every line that starts with # gets [k] more. *)
Fixpoint bump (k : nat) (line_start : bool) (s : list ascii) : list ascii :=
  match s with
  | [] => []
  | c :: s' =>
      (if line_start && ceq c "#" then repeat "#"%char k else []) ++ c :: bump k (ceq c NL) s'
  end.
(** Some line starts with #. *)
Definition has_heading (s : list ascii) : Prop :=
  exists a b, s = a ++ "#"%char :: b /\ (a = [] \/ exists a', a = a' ++ [NL]).

(** Indentation of an index line: tabs and groups of four spaces. *)
Inductive step := Tab | Four.
Definition write_step (s : step) : list ascii := match s with Tab => [TAB] | Four => [SP; SP; SP; SP] end.
Definition plain_name (n : list ascii) : Prop :=
  n <> [] /\ ~ In NUL n /\ ~ In NL n /\
  (forall c r, n = c :: r -> ~ In c [SP; TAB; "#"%char]) /\
  (forall r c, n = r ++ [c] -> ~ In c [SP; TAB; CR]).
Definition blanks (l : list ascii) : Prop := Forall (fun c => In c [SP; TAB; CR]) l.
(** Index lines: an entry with up to three more spaces of indentation and
    trailing blanks, or a line to be ignored. *)
Inductive iline :=
| Entry (indent : list step) (stray : nat) (name trail : list ascii)
| Ignored (l : list ascii).
Definition good_line (l : iline) : Prop :=
  match l with
  | Entry _ k n t => k < 4 /\ plain_name n /\ blanks t
  | Ignored l => ~ In NUL l /\ ~ In NL l /\ (blanks l \/ exists a r, l = a ++ "#"%char :: r /\ Forall (fun c => In c [SP; TAB]) a)
  end.
Definition write_iline (l : iline) : list ascii :=
  match l with
  | Entry i k n t => concat (map write_step i) ++ repeat SP k ++ n ++ t
  | Ignored l => l
  end.
Fixpoint entries (ls : list iline) : list (nat * list ascii) :=
  match ls with
  | [] => []
  | Entry i _ n _ :: ls' => (length i, n) :: entries ls'
  | Ignored _ :: ls' => entries ls'
  end.
Definition write_index (ls : list iline) : list ascii :=
  concat (map (fun l => write_iline l ++ [NL]) ls).

(** The file an entry names: its path, or relative to the directory of the index. *)
Definition located (base n : list ascii) : list ascii :=
  match n with
  | "/"%char :: _ => n
  | _ => base ++ B "/" ++ n
  end.

(** A link line: text without [, title without ], path without ), ... *)
Definition link_line (pre title lead path trail post : list ascii) : list ascii :=
  pre ++ "["%char :: title ++ B "](" ++ lead ++ path ++ trail ++ ")"%char :: post.
(** The destination of a link: no ), no blanks around it. *)
Definition plain_path (p : list ascii) : Prop :=
  p <> [] /\ ~ In ")"%char p /\
  (forall c r, p = c :: r -> ~ In c [SP; TAB]) /\ (forall r c, p = r ++ [c] -> ~ In c [SP; TAB; CR]).
(** What may stand behind the path of a file: nothing or an anchor. *)
Definition anchor (a : list ascii) : Prop := a = [] \/ exists r, a = "#"%char :: r.
Definition remote (p : list ascii) : Prop := exists a b, p = a ++ B "://" ++ b.

Inductive sline :=
| Link (pre title lead path anchor trail post : list ascii)
| Remote (pre title lead path anchor trail post : list ascii)
| Text (l : list ascii).
Definition write_sline (l : sline) : list ascii :=
  match l with
  | Link pre title lead path a trail post | Remote pre title lead path a trail post =>
      link_line pre title lead (path ++ a) trail post
  | Text l => l
  end.
Definition good_link (pre title lead path a trail post : list ascii) : Prop :=
  ~ In "["%char pre /\ ~ In "]"%char title /\ Forall (fun c => In c [SP; TAB]) lead /\ blanks trail /\
  plain_path (path ++ a) /\ path <> [] /\ ~ In "#"%char path /\ anchor a /\
  ~ In NL (link_line pre title lead (path ++ a) trail post).
Definition good_sline (l : sline) : Prop :=
  match l with
  | Link pre title lead path a trail post => good_link pre title lead path a trail post /\ ~ remote path
  | Remote pre title lead path a trail post => good_link pre title lead path a trail post /\ remote path
  | Text l => ~ In "["%char l /\ ~ In NL l
  end.
Fixpoint paths (ls : list sline) : list (list ascii) :=
  match ls with
  | [] => []
  | Link _ _ _ p _ _ _ :: ls' => p :: paths ls'
  | _ :: ls' => paths ls'
  end.
Definition write_summary (ls : list sline) : list ascii :=
  concat (map (fun l => write_sline l ++ [NL]) ls).

(** Documents with a blank line between any two. *)
Inductive separated : list (list ascii) -> list ascii -> Prop :=
| sep_nil : separated [] []
| sep_one c : separated [c] c
| sep_more c d l o : separated (d :: l) o -> separated (c :: d :: l) (c ++ [NL; NL] ++ o).

(** The documents of a list of combined files, in order. *)
Definition documents (fs : list (option (list ascii))) : list (list ascii) :=
  concat (map (fun f => match f with Some c => [c] | None => [] end) fs).

(** A merged index: every readable file with its headings shifted, followed by a
    blank line. *)
Definition merged (read : list ascii -> option (list ascii)) (es : list (nat * list ascii)) : list ascii :=
  concat (map (fun e => match read (snd e) with Some c => bump (fst e) true c ++ [NL; NL] | None => [] end) es).
