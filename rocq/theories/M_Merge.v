(** Adjacent lists with different markers: apex_merge_mixed_list_markers (src/apex.c 2403-2470), called for the document in 5115-5118. The tree is immutable here; unlinking, appending and freeing nodes become new lists of siblings. A list accepts every child of a list (cmark_node_append_child succeeds, as lists hold only items). The depth of the recursion is not bounded. *)
From Verif Require Import Base S_Merge.

(** 2438-2469: what the list of type [ty] takes from the siblings behind it, and what remains of them *)
Fixpoint absorb (ty : nat) (sibs : list tree) : list tree * list tree :=
  match sibs with
  | Node (KList ty') s cs :: r =>
      let (items, rest) := absorb ty r in
      if ty =? ty' then (items, Node (KList ty') s cs :: rest) else (cs ++ items, rest)
  | _ => ([], sibs)
  end.

(** 2411-2469 for a node and the siblings behind it: its children first, then its own siblings, then the next sibling that is left. [None]: the fuel is too small. *)
Fixpoint nodes (fuel : nat) (sibs : list tree) : option (list tree) :=
  match sibs with
  | [] => Some []
  | Node k s cs :: r =>
      match fuel with
      | 0 => None
      | S fuel =>
          match nodes fuel cs with
          | None => None
          | Some cs =>
              let (items, r) := match k with KList ty => absorb ty r | KOther => ([], r) end in
              match nodes fuel r with
              | None => None
              | Some r => Some (Node k s (cs ++ items) :: r)
              end
          end
      end
  end.

Fixpoint weight (t : tree) : nat := match t with Node _ _ cs => S (fold_right (fun t n => weight t + n) 0 cs) end.
(** The children of the document (5117); the document itself is no list. *)
Definition merge (f : list tree) : option (list tree) := nodes (fold_right (fun t n => weight t + n) 0 f) f.
