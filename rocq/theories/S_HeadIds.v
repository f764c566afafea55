(** Specification of heading texts and ids. *)
From Verif Require Import Base M_HeadIds.

(** All text of a heading (of M_HeadIds only the type [piece] is used). *)
Definition text_of (p : piece) : str := match p with Txt s | Code s | Other s => s end.
Definition plain_piece (p : piece) : Prop := match p with Other _ => False | _ => True end.

(** [q] is [p] without the white space at its end. *)
Definition cut_space (p q : str) : Prop :=
  exists e, p = q ++ e /\ Forall (fun c => isspace c = true) e /\ forall r c, q = r ++ [c] -> isspace c = false.
(** The heading [text] is [rest], followed by the id [i] in brackets. *)
Inductive written : str -> str -> str -> Prop :=
| wr_brackets p q i e : cut_space p q -> i <> [] -> ~ In "["%char i -> ~ In "]"%char i -> (forall r, i <> "%"%char :: r) ->
    Forall (fun c => isspace c = true) e -> written (p ++ B "[" ++ i ++ B "]" ++ e) q i
| wr_braces p q i e : cut_space p q -> i <> [] -> ~ In "{"%char i -> ~ In "}"%char i ->
    Forall (fun c => isspace c = true) e -> written (p ++ B "{#" ++ i ++ B "}" ++ e) q i.

(** The tag of a heading of level [n] with attributes [a]. *)
Definition is_attrs (a : str) : Prop := ~ In ">"%char a /\ (a = [] \/ exists c r, a = c :: r /\ isspace c = true).
Definition is_level (n : ascii) : Prop := In n ["1"; "2"; "3"; "4"; "5"; "6"]%char.
Definition tag (n : ascii) (a : str) : str := B "<h" ++ [n] ++ a ++ B ">".
Definition has (lit s : str) : Prop := exists a b, s = a ++ lit ++ b.
Definition is_value (v : str) : Prop := v <> [] /\ Forall (fun c => ~ In c [DQ; "'"%char; SP; ">"%char]) v.

(** [ids] are the ids of the headings to come. *)
Definition anchor_of (id : str) : str :=
  B "<a href=""#" ++ id ++ B """ aria-hidden=""true"" class=""anchor"" id=""" ++ id ++ B """></a>".
(** With [last], only the last heading may have an id in the HTML already. *)
Inductive titled (anchors last : bool) : list str -> str -> str -> Prop :=
| t_end ids : titled anchors last ids [] []
| t_byte ids c s o : (forall n a r, is_level n -> is_attrs a -> c :: s <> tag n a ++ r) ->
    titled anchors last ids s o -> titled anchors last ids (c :: s) (c :: o)
| t_new id ids n a s o : anchors = false -> is_level n -> is_attrs a -> ~ has (B "id=") a -> titled anchors last ids s o ->
    titled anchors last (id :: ids) (tag n a ++ s) (tag n (a ++ B " id=""" ++ id ++ B """") ++ o)
| t_old id ids n a v b s o : anchors = false -> is_level n -> is_attrs (a ++ [SP]) -> ~ has (B "id=") a -> is_value v -> ~ In ">"%char b ->
    (last = true -> ids = []) -> titled anchors last ids s o ->
    titled anchors last (id :: ids) (tag n (a ++ B " id=""" ++ v ++ B """" ++ b) ++ s) (tag n (a ++ B " id=""" ++ id ++ B """" ++ b) ++ o)
| t_anchor id ids n a s o : anchors = true -> is_level n -> is_attrs a -> titled anchors last ids s o ->
    titled anchors last (id :: ids) (tag n a ++ s) (tag n a ++ anchor_of id ++ o)
| t_none n a s o : is_level n -> is_attrs a -> titled anchors last [] s o ->
    titled anchors last [] (tag n a ++ s) (tag n a ++ o).
(** The ids that fit into the arrays of 512 bytes. *)
Definition short (anchors : bool) (id : str) : Prop :=
  if anchors then length (anchor_of id) <= 511 else length id <= 506.
