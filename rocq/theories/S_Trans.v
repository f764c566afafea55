(** What the transform and reference properties say, independently of the code. *)
From Verif Require Import Base Dec.

(** [lit] occurs in [a ++ lit ++ b] first at [a]. *)
Definition first_at (lit a b : list ascii) : Prop :=
  forall a' b', a ++ lit ++ b = a' ++ lit ++ b' -> length a <= length a'.

(** Every leftmost, non-overlapping occurrence of [old] is replaced by [new]. *)
Inductive subst_all (old new : list ascii) : list ascii -> list ascii -> Prop :=
| sa_none v : (forall a b, v <> a ++ old ++ b) -> subst_all old new v v
| sa_one a b o : first_at old a b -> subst_all old new b o ->
    subst_all old new (a ++ old ++ b) (a ++ new ++ o).

(** Code points an HTML reader sees in a text that uses the five predefined
    references and decimal references. *)
Inductive shows : list ascii -> list N -> Prop :=
| sh_nil : shows [] []
| sh_plain c s l : ~ In c (B "&<>""'") -> (code c < 128)%N -> shows s l ->
    shows (c :: s) (code c :: l)
| sh_amp s l : shows s l -> shows (B "&amp;" ++ s) (38%N :: l)
| sh_lt s l : shows s l -> shows (B "&lt;" ++ s) (60%N :: l)
| sh_gt s l : shows s l -> shows (B "&gt;" ++ s) (62%N :: l)
| sh_quot s l : shows s l -> shows (B "&quot;" ++ s) (34%N :: l)
| sh_num n s l : shows s l -> shows (B "&#" ++ dec n ++ B ";" ++ s) (N.of_nat n :: l).

(** A clean slug: lower-case letters, digits and single hyphens, the last byte
    not a hyphen. *)
Definition slug_byte (c : ascii) : Prop :=
  (97 <= code c <= 122)%N \/ (48 <= code c <= 57)%N \/ c = "-"%char.
Definition clean_slug (s : list ascii) : Prop :=
  Forall slug_byte s /\ (forall a b, s <> a ++ B "--" ++ b) /\ (forall a, s <> a ++ B "-").

(** URL-encoded text: unreserved bytes and %XX with upper-case digits. *)
Definition unreserved (c : ascii) : Prop :=
  (48 <= code c <= 57)%N \/ (65 <= code c <= 90)%N \/ (97 <= code c <= 122)%N \/
  In c (B "-_.~").
Definition HEX (c : ascii) : Prop := (48 <= code c <= 57)%N \/ (65 <= code c <= 70)%N.
Inductive url_text : list ascii -> Prop :=
| ut_nil : url_text []
| ut_plain c s : unreserved c -> url_text s -> url_text (c :: s)
| ut_hex a b s : HEX a -> HEX b -> url_text s -> url_text ("%"%char :: a :: b :: s).

(** Balanced square brackets. *)
Inductive balanced : list ascii -> Prop :=
| bal_nil : balanced []
| bal_byte c s : c <> "["%char -> c <> "]"%char -> balanced s -> balanced (c :: s)
| bal_nest a b : balanced a -> balanced b -> balanced ("["%char :: a ++ "]"%char :: b).

(** Expansion of references.  [value] says what replaces the body of one. *)
Definition written_ref (b : list ascii) : list ascii := B "[%" ++ b ++ B "]".
Definition filled (value : list ascii -> option (list ascii)) (b : list ascii) : list ascii :=
  if length b <? 512 then
    match value b with Some v => v | None => written_ref b end
  else written_ref b.
Inductive expands (value : list ascii -> option (list ascii)) : list ascii -> list ascii -> Prop :=
| ex_none t : (forall a r, t <> a ++ B "[%" ++ r) -> expands value t t
| ex_open a r : first_at (B "[%") a r ->
    (forall b z, r = b ++ "]"%char :: z -> ~ balanced b) ->
    expands value (a ++ B "[%" ++ r) (a ++ B "[%" ++ r)
| ex_ref a b r o : first_at (B "[%") a (b ++ "]"%char :: r) -> balanced b ->
    expands value r o ->
    expands value (a ++ B "[%" ++ b ++ "]"%char :: r) (a ++ filled value b ++ o).

(** One transform after the other.  [alone] is the effect of a transform that
    stands alone in a chain. *)
Section Pipeline.
  Variable alone : list ascii -> option (list ascii) -> list ascii -> list ascii -> Prop.
  Inductive pipeline : list (list ascii * option (list ascii)) -> list ascii -> list ascii -> Prop :=
  | pl_nil v : pipeline [] v v
  | pl_cons n o c v v1 v2 : alone n o v v1 -> pipeline c v1 v2 -> pipeline ((n, o) :: c) v v2.
End Pipeline.
Definition array_names : list (list ascii) :=
  [B "split"; B "join"; B "first"; B "last"; B "slice"].
