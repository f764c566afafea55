(** What a complete document is, for src/apex.c 5710-6465; nothing of the model is used. *)
From Verif Require Import Base.

Definition row (x : str) : str := x ++ [NL].
Definition linked (p : str) : str := row (B "  <link rel=""stylesheet"" href=""" ++ p ++ B """>").
Definition held (x : str) : str := row (B "  <style>") ++ x ++ row (B "  </style>").
Definition some_or (d : str) (o : option str) : str := match o with Some x => x | None => d end.
Definition told (o : option str) (f : str -> str) : str := match o with Some x => f x | None => [] end.

(** A style element without a tag in it *)
Definition styled (s : str) : Prop := exists x, s = held x /\ ~ In "<"%char x.

Definition opening (lang title : str) : str :=
  row (B "<!DOCTYPE html>") ++ row (B "<html lang=""" ++ lang ++ B """>") ++ row (B "<head>") ++
  row (B "  <meta charset=""UTF-8"">") ++
  row (B "  <meta name=""viewport"" content=""width=device-width, initial-scale=1.0"">") ++
  row (B "  <meta name=""generator"" content=""Apex 0.1.85"">") ++
  row (B "  <title>" ++ title ++ B "</title>").

Definition document (lang title code sheets : str) (header : option str) (hl : bool) (content tail : str) : str :=
  opening lang title ++ code ++ sheets ++
  told header (fun h => row (B "  " ++ h)) ++
  row (B "</head>") ++ row (B "<body" ++ (if hl then B " class=""code-highlighted""" else []) ++ B ">") ++ row [] ++
  content ++ tail ++ row [] ++ row (B "</body>") ++ row (B "</html>").

(** [x] occurs in [s]. *)
Definition within (x s : str) : Prop := exists a b, s = a ++ x ++ b.

(** The text of an element as a reader finds it: from the first opening to the next closing. *)
Definition first_between (open close s v : str) : Prop :=
  exists a b, s = a ++ open ++ v ++ close ++ b
    /\ (forall u w, s = u ++ open ++ w -> length a <= length u)
    /\ (forall u w, v ++ close ++ b = u ++ close ++ w -> length v <= length u).

(** The scripts, each on its own line; empty ones are left out. *)
Inductive all_rows : list str -> str -> Prop :=
| rows_nil : all_rows [] []
| rows_none l s : all_rows l s -> all_rows ([] :: l) s
| rows_one c x l s : all_rows l s -> all_rows ((c :: x) :: l) (row (c :: x) ++ s).

(** The end of the body: the footer of the metadata, then the scripts, on a line of their own. *)
Inductive ending (footer : option str) (scripts : str) : str -> Prop :=
| end_none : footer = None -> scripts = [] -> ending footer scripts []
| end_footer f : footer = Some f -> scripts = [] -> ending footer scripts ([NL] ++ f)
| end_scripts : scripts <> [] -> some_or [] footer = [] -> ending footer scripts ([NL] ++ scripts)
| end_both f : scripts <> [] -> footer = Some f -> f <> [] -> ending footer scripts ([NL] ++ f ++ [NL] ++ scripts).

(** The end of a fragment. *)
Inductive appended (html scripts : str) : str -> Prop :=
| app_none : scripts = [] -> appended html scripts html
| app_line : html = [] \/ (exists h, html = row h) -> appended html scripts (html ++ scripts)
| app_break : scripts <> [] -> html <> [] -> (forall h, html <> row h) -> appended html scripts (row html ++ scripts).

(** A style sheet in the document: its text when it can be read, and otherwise the link. *)
Definition sheet (read : str -> option str) (p s : str) : Prop :=
  match read p with
  | Some (c :: x) => length (linked p) < 2048 /\ s = held (row (c :: x)) \/ 2048 <= length (linked p) /\ s = linked p
  | _ => s = linked p
  end.

(** A path that cannot end the attribute it is written in. *)
Definition plain_path (p : str) : Prop := ~ In DQ p /\ ~ In "<"%char p.
