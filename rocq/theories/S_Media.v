(** What is said about images that are replaced automatically, without the model. *)
From Verif Require Import Base.

Definition within (m s : str) : Prop := exists a b, s = a ++ m ++ b.
Definition marker : str := B "data-apex-replace-auto=1".
(** [s] begins with a tag of [n] bytes; > may stand within quotes. *)
Inductive Tag : nat -> str -> Prop :=
| tag_gt s : Tag 1 (">"%char :: s)
| tag_byte c n s : c <> ">"%char -> c <> DQ -> c <> SQ -> Tag n s -> Tag (S n) (c :: s)
| tag_quote q v n s : q = DQ \/ q = SQ -> ~ In q v -> ~ In BS v -> Tag n s -> Tag (length v + 2 + n) (q :: v ++ q :: s).
(** Each image tag of the page is finished within [m] bytes. *)
Definition short_tags (m : nat) (html : str) : Prop :=
  forall a b, html = a ++ b -> (exists x, map tolower b = B "<img" ++ x) -> exists n, n <= m /\ Tag n b.
(** An address below the base directory *)
Definition relative (u : str) : Prop := (forall r, u <> "/"%char :: r) /\ ~ within (B "://") u.

(** The existing variants of one format, with their densities *)
Definition variants (ex : str -> bool) (name ext : str) : list str :=
  flat_map (fun x => let u := name ++ fst x ++ B "." ++ ext in if ex u then [u ++ B " " ++ snd x] else []) [([], B "1x"); (B "@2x", B "2x"); (B "@3x", B "3x")].
Fixpoint commas (l : list str) : str := match l with [] => [] | [x] => x | x :: l => x ++ B ", " ++ commas l end.
Definition q (s : str) : str := DQ :: s ++ [DQ].
Definition source_of (ex : str -> bool) (name ext : str) : str :=
  match variants ex name ext with [] => [] | l => B "<source type=" ++ q (B "image/" ++ ext) ++ B " srcset=" ++ q (commas l) ++ B ">" end.
(** The image name.ext, existing, as it should be shown *)
Definition shown (ex : str -> bool) (name ext alt tag : str) : str :=
  let srcs := source_of ex name (B "avif") ++ source_of ex name (B "webp") in
  let dense := variants ex name ext in
  let img := B "<img src=" ++ q (name ++ B "." ++ ext) ++ B " alt=" ++ q alt ++ (match dense with _ :: _ :: _ => B " srcset=" ++ q (commas dense) | _ => [] end) ++ B ">" in
  match srcs with
  | [] => match dense with _ :: _ :: _ => img | _ => tag end
  | _ => B "<picture>" ++ srcs ++ img ++ B "</picture>"
  end.
(** If a format exists in a higher density it also exists in the plain one. *)
Definition plain_first (ex : str -> bool) (name ext : str) : Prop :=
  ex (name ++ B "@2x." ++ ext) = true \/ ex (name ++ B "@3x." ++ ext) = true -> ex (name ++ B "." ++ ext) = true.
