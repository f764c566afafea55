(** Specification of pretty printing. *)
From Verif Require Import Base.

(** What is left without white space. *)
Definition solid (s : str) : str := filter (fun c => negb (isspace c)) s.

(** Tags and single bytes.  A tag is [<], perhaps [/], a byte of a name, and
    everything up to the next [>], or to the end. *)
Inductive piece := Tag (t : str) | Byte (c : ascii).
Definition bytes (p : piece) : str := match p with Tag t => t | Byte c => [c] end.
Definition in_name (c : ascii) : Prop := isspace c = false /\ c <> ">"%char /\ c <> "/"%char.
Definition no_gt (s : str) : Prop := ~ In ">"%char s.
Definition opens (s : str) : Prop :=
  exists o c r, s = "<"%char :: o ++ c :: r /\ (o = [] \/ o = ["/"%char]) /\ in_name c.
Inductive cut : str -> list piece -> Prop :=
| c_end : cut [] []
| c_tag t s l : no_gt t -> opens (t ++ [">"%char]) -> cut s l ->
    cut ((t ++ [">"%char]) ++ s) (Tag (t ++ [">"%char]) :: l)
| c_last t : no_gt t -> opens t -> cut t [Tag t]
| c_byte c s l : ~ opens (c :: s) -> cut s l -> cut (c :: s) (Byte c :: l).

(** What is left when some of the pieces are lost. *)
Inductive lossy : list piece -> str -> Prop :=
| l_end : lossy [] []
| l_keep p l s : lossy l s -> lossy (p :: l) (bytes p ++ s)
| l_lose p l s : lossy l s -> lossy (p :: l) s.

(** The nesting of a tag: how many block elements are open.  [pre] and [code] switch
    block elements off until the next [/pre] or [/code]. *)
Definition blocks : list str :=
  map B ["html"; "head"; "body"; "div"; "section"; "article"; "nav"; "header"; "footer";
         "main"; "aside"; "h1"; "h2"; "h3"; "h4"; "h5"; "h6";
         "p"; "blockquote"; "pre"; "ul"; "ol"; "li"; "dl"; "dt"; "dd";
         "table"; "thead"; "tbody"; "tfoot"; "tr"; "th"; "td";
         "figure"; "figcaption"; "details"; "summary"]%string.
Inductive named : str -> bool -> str -> Prop :=
| n_open n r : Forall in_name n -> n <> [] -> (forall c r', r = c :: r' -> ~ in_name c) ->
    named ("<"%char :: n ++ r) false n
| n_close n r : Forall in_name n -> n <> [] -> (forall c r', r = c :: r' -> ~ in_name c) ->
    named ("<"%char :: "/"%char :: n ++ r) true n.
(** [lies l d v]: behind the pieces [l] at most [d] block elements are open; [v]: in
    the scope of [pre] or [code]. *)
Inductive lies : list piece -> nat -> bool -> Prop :=
| y_none : lies [] 0 false
| y_byte l d v c : lies l d v -> lies (l ++ [Byte c]) d v
| y_code l d v t n : lies l d v -> named t false n -> n = B "pre" \/ n = B "code" -> lies (l ++ [Tag t]) d true
| y_uncode l d v t : lies l d v -> named t true (B "code") -> lies (l ++ [Tag t]) d false
| y_unpre l d v t : lies l d v -> named t true (B "pre") -> lies (l ++ [Tag t]) (d - 1) false
| y_open l d t n : lies l d false -> named t false n -> In n blocks -> n <> B "pre" ->
    lies (l ++ [Tag t]) (S d) false
| y_close l d t n : lies l d false -> named t true n -> In n blocks -> n <> B "pre" ->
    lies (l ++ [Tag t]) (d - 1) false
| y_off l d t b n : lies l d true -> named t b n -> n <> B "pre" -> n <> B "code" -> lies (l ++ [Tag t]) d true
| y_other l d v t b n : lies l d v -> named t b n -> ~ In n blocks -> n <> B "code" -> lies (l ++ [Tag t]) d v.

(** Tags are short, and not nested deeply. *)
Definition moderate (l : list piece) : Prop := forall a p b d v,
  l = a ++ p :: b -> lies a d v -> length (bytes p) + 2 * d <= 97.
