(** Specification of the table of contents. *)
From Verif Require Import Base Dec M_Toc.

(** Lists are well nested: a list lies in an entry or outside, an entry in a list, and
    each is closed before what it lies in. *)
Inductive el := Ul | Li.
Fixpoint nested (st : list el) (s : str) : bool :=
  match s with
  | [] => match st with [] => true | _ => false end
  | _ :: s' =>
      if starts (B "<ul>") s then match st with Ul :: _ => false | _ => nested (Ul :: st) s' end
      else if starts (B "</ul>") s then match st with Ul :: st' => nested st' s' | _ => false end
      else if starts (B "<li>") s then match st with Ul :: _ => nested (Li :: st) s' | _ => false end
      else if starts (B "</li>") s then match st with Li :: st' => nested st' s' | _ => false end
      else nested st s'
  end.
(** Levels of consecutive headings: after the first, each is either at the level
    that equals the number of open lists, or deeper than the one before. *)
Fixpoint steady (open last : nat) (l : list nat) : Prop :=
  match l with
  | [] => True
  | h :: l => (h = open /\ steady open h l) \/ (last < h /\ steady (S open) h l)
  end.
Definition climbing (l : list nat) : Prop :=
  match l with
  | [] => True
  | h :: l => steady 1 h l
  end.

(** Level, text and id of a heading; the entry. *)
Definition heading : Type := nat * str * str.
Definition level (h : heading) : nat := fst (fst h).
Definition entry (h : heading) : str :=
  B "<li><a href=""#" ++ snd h ++ B """>" ++ snd (fst h) ++ B "</a>".
(** Entries, in this order, and parts of lists between them. *)
Inductive woven : list heading -> str -> Prop :=
| v_end : woven [] []
| v_tag t l s : In t [B "<ul>"; B "</ul>"; B "</li>"; [NL]] -> woven l s -> woven l (t ++ s)
| v_entry h l s : woven l s -> woven (h :: l) (entry h ++ s).
Definition wanted (lo hi : Z) (l : list heading) : list heading :=
  filter (fun h => (Z.leb lo (Z.of_nat (level h)) && Z.leb (Z.of_nat (level h)) hi)%bool) l.
(** Everything fits. *)
Definition fits (l : list heading) : Prop :=
  Forall (fun h => length (entry h) <= 1023) l /\
  25 + list_sum (map (fun h => 23 + length (entry h)) l) < 4096.
(** Texts without tags. *)
Definition plain (h : heading) : Prop := ~ In "<"%char (snd h) /\ ~ In "<"%char (snd (fst h)).

(** Escaping for html. *)
Definition escape (s : str) : str :=
  flat_map (fun c => if ceq c "&" then B "&amp;" else if ceq c "<" then B "&lt;"
                     else if ceq c ">" then B "&gt;" else if ceq c DQ then B "&quot;" else [c]) s.

(** A marker, up to and including its first end. *)
Inductive marker : bool -> str -> Prop :=
| m_comment x : (forall a b, x ++ B "--" <> a ++ B "-->" ++ b) -> marker true (B "<!--TOC" ++ x ++ B "-->")
| m_braces x : (forall a b, x ++ B "}" <> a ++ B "}}" ++ b) -> marker false (B "{{TOC" ++ x ++ B "}}").
Definition mstart (c : bool) : str := if c then B "<!--TOC" else B "{{TOC".

(** A text without opening [code] and [pre]. *)
Definition no_code (s : str) : Prop := forall x y, s = x ++ "<"%char :: y ->
  starts (B "code") (map tolower y) = false /\ starts (B "pre") (map tolower y) = false.
(** The end of a text lies in [code] or [pre], with no tag between. *)
Definition in_pre_or_code (s : str) : Prop := exists x t g y,
  s = x ++ t ++ g :: y /\ In t [B "<pre"; B "<code"] /\ In g [">"%char; SP; TAB; NL] /\ ~ In "<"%char y.

(** All headings of a document, in order, with their attributes (of M_Toc only the type
    of documents is used). *)
Fixpoint preorder (n : node) : list ((nat * str) * option str) :=
  match n with
  | Node h a l =>
      (match h with Some x => [(x, a)] | None => [] end) ++
      (fix all (l : list node) : list ((nat * str) * option str) :=
         match l with
         | [] => []
         | n :: l => preorder n ++ all l
         end) l
  end.
