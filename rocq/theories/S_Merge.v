(** Document trees, and what is said about the lists in them. *)
From Verif Require Import Base.

(** A node of the document: a list with its type (a number), or something else; what it says; and its children *)
Inductive kind := KList (ty : nat) | KOther.
Inductive tree := Node (k : kind) (s : str) (cs : list tree).
Definition kids (t : tree) : list tree := match t with Node _ _ cs => cs end.
Definition type_of (t : tree) : option nat := match t with Node (KList n) _ _ => Some n | Node KOther _ _ => None end.
Definition listy (t : tree) : Prop := type_of t <> None.

Definition same (n : nat) (t : tree) : bool := match type_of t with Some m => n =? m | None => false end.

(** The siblings at every place of the tree *)
Inductive Level : list tree -> list tree -> Prop :=
| level_here f : Level f f
| level_below f t l : In t f -> Level (kids t) l -> Level f l.

(** A list begins a run of lists when nothing or something else stands in front of it. *)
Definition front (pre : list tree) : Prop := pre = [] \/ exists p x, pre = p ++ [x] /\ type_of x = None.

(** Adjacent lists have the same type, everywhere. *)
Definition settled (f : list tree) : Prop := forall l, Level f l -> forall a x y b m n, l = a ++ x :: y :: b -> type_of x = Some m -> type_of y = Some n -> m = n.
(** Lists consist of items. *)
Definition proper (f : list tree) : Prop := forall l t u, Level f l -> In t l -> listy t -> In u (kids t) -> type_of u = None.
(** What the document says, in order: everything but the list nodes themselves *)
Inductive Says : list tree -> list str -> Prop :=
| says_nil : Says [] []
| says_list n s cs r a b : Says cs a -> Says r b -> Says (Node (KList n) s cs :: r) (a ++ b)
| says_other s cs r a b : Says cs a -> Says r b -> Says (Node KOther s cs :: r) (s :: a ++ b).
(** In a run no list of the type of the first stands before a list of another type. *)
Definition calm (f : list tree) : Prop := forall l pre A mid x mid' y post m n, Level f l -> l = pre ++ A :: mid ++ x :: mid' ++ y :: post -> front pre -> Forall listy (A :: mid ++ x :: mid' ++ [y]) ->
  type_of A = Some m -> type_of x = Some m -> type_of y = Some n -> n = m.
(** The lists that differ from the first of their run have settled items. *)
Definition shallow (f : list tree) : Prop := forall l pre A mid y post m n, Level f l -> l = pre ++ A :: mid ++ y :: post -> front pre -> Forall listy (A :: mid ++ [y]) ->
  type_of A = Some m -> type_of y = Some n -> n <> m -> settled (kids y).
