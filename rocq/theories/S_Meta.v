(** What the metadata properties say, independently of the code. *)
From Verif Require Import Base.

(** White space and case. *)
Definition space_byte (c : ascii) : Prop :=
  c = SP \/ (9 <= code c <= 13)%N.
Definition big (c : ascii) : Prop := (65 <= code c <= 90)%N.

(** Two bytes that differ at most in case. *)
Definition ci (a b : ascii) : Prop :=
  a = b \/ (big a /\ code b = code a + 32)%N \/ (big b /\ code a = code b + 32)%N.

(** Two keys that differ at most in case. *)
Definition same_ci : list ascii -> list ascii -> Prop := Forall2 ci.

(** Two keys that differ at most in case and white space. *)
Inductive same_key : list ascii -> list ascii -> Prop :=
| sk_nil : same_key [] []
| sk_left c a b : space_byte c -> same_key a b -> same_key (c :: a) b
| sk_right c a b : space_byte c -> same_key a b -> same_key a (c :: b)
| sk_both c d a b : ci c d -> same_key a b -> same_key (c :: a) (d :: b).

(** The first item whose key satisfies [P] has value [v]. *)
Definition first_item {V} (P : list ascii -> Prop) (m : list (list ascii * V)) (v : V) : Prop :=
  exists before k after, m = before ++ (k, v) :: after /\ P k /\
    forall k' v', In (k', v') before -> ~ P k'.
Definition last_item {V} (P : list ascii -> Prop) (m : list (list ascii * V)) (v : V) : Prop :=
  exists before k after, m = before ++ (k, v) :: after /\ P k /\
    forall k' v', In (k', v') after -> ~ P k'.
Definition no_item {V} (P : list ascii -> Prop) (m : list (list ascii * V)) : Prop :=
  forall k v, In (k, v) m -> ~ P k.

(** What looking up [key] in a list gives: an item spelled like [key] up to case
    if there is one, otherwise one that also differs in white space; among
    several, the one nearest the head.  An empty key names nothing. *)
Definition finds (m : list (list ascii * list ascii)) (key v : list ascii) : Prop :=
  first_item (fun k => k <> [] /\ same_ci k key) m v \/
  (no_item (fun k => k <> [] /\ same_ci k key) m /\
   first_item (fun k => k <> [] /\ same_key k key) m v).

(** [sources] are listed from lowest to highest precedence.  The value of [key]
    is that of the last source that mentions it at all. *)
Definition overrides (lookup : list (list ascii * list ascii) -> list ascii -> option (list ascii))
    (sources : list (list (list ascii * list ascii))) (key : list ascii) (r : option (list ascii)) : Prop :=
  (r = None /\ Forall (no_item (fun k => k <> [] /\ same_key k key)) sources) \/
  (exists before l after, sources = before ++ l :: after /\
     ~ no_item (fun k => k <> [] /\ same_key k key) l /\
     Forall (no_item (fun k => k <> [] /\ same_key k key)) after /\ r = lookup l key).

(** A source that names [key] at most once, and spells it [k0] up to case. *)
Definition one_spelling (key k0 : list ascii) (l : list (list ascii * list ascii)) : Prop :=
  (forall k v, In (k, v) l -> k <> [] -> same_key k key -> same_ci k k0) /\
  (forall a k v b, l = a ++ (k, v) :: b -> k <> [] -> same_key k key ->
     no_item (fun k => k <> [] /\ same_key k key) a /\ no_item (fun k => k <> [] /\ same_key k key) b).

(** Writing pairs on the command line. *)
Inductive how := Bare | Quoted (q : ascii).
Definition ends_solid (s : list ascii) : Prop :=
  Forall space_byte s \/ exists a c, s = a ++ [c] /\ ~ space_byte c.
Definition word_byte (c : ascii) : Prop :=
  (48 <= code c <= 57)%N \/ (65 <= code c <= 90)%N \/ (97 <= code c <= 122)%N \/ c = "_"%char.
Definition plain_key (k : list ascii) : Prop :=
  (exists c r, k = c :: r /\ word_byte c) /\ ends_solid k /\
  ~ In "="%char k /\ ~ In ","%char k.
Definition plain_value (h : how) (v : list ascii) : Prop :=
  match h with
  | Bare => ~ In ","%char v /\ ends_solid v /\ (forall r, v <> DQ :: r) /\ (forall r, v <> SQ :: r)
  | Quoted q => (q = DQ \/ q = SQ) /\ ~ In q v
  end.
Definition write_value (h : how) (v : list ascii) : list ascii :=
  match h with Bare => v | Quoted q => q :: v ++ [q] end.
(** Each pair: white space before it, key, spelling of the value, value. *)
Definition written := (list ascii * list ascii * how * list ascii)%type.
Definition write_pair (p : written) : list ascii :=
  match p with (s, k, h, v) => s ++ k ++ "="%char :: write_value h v end.
Fixpoint write_pairs (ps : list written) : list ascii :=
  match ps with
  | [] => []
  | [p] => write_pair p
  | p :: ps' => write_pair p ++ ","%char :: write_pairs ps'
  end.
Definition pair_of (p : written) : list ascii * list ascii :=
  match p with (_, k, _, v) => (k, v) end.
Definition plain_pair (p : written) : Prop :=
  match p with (s, k, h, v) => Forall space_byte s /\ plain_key k /\ plain_value h v end.

(** Writing a key with a chain of transforms. *)
Definition link := (list ascii * option (list ascii))%type.
Definition write_link (l : link) : list ascii :=
  match l with
  | (n, None) => n
  | (n, Some o) => n ++ "("%char :: o ++ [")"%char]
  end.
Fixpoint write_links (ls : list link) : list ascii :=
  match ls with
  | [] => []
  | l :: ls' => ":"%char :: write_link l ++ write_links ls'
  end.
Definition plain_link (l : link) : Prop :=
  ~ In ":"%char (fst l) /\ ~ In "("%char (fst l) /\ fst l <> [] /\
  match snd l with None => True | Some o => ~ In ")"%char o end.

(** The words that switch an option on or off. *)
Definition says (w : list ascii) (v : list ascii) : Prop := same_ci v w.
