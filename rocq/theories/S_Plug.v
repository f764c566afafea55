(** What the plugin properties say. *)
From Verif Require Import Base M_Plug.

(** Lexicographic order of byte strings. *)
Inductive lex : list ascii -> list ascii -> Prop :=
| lex_end c s : lex [] (c :: s)
| lex_byte c d s t : (code c < code d)%N -> lex (c :: s) (d :: t)
| lex_next c s t : lex s t -> lex (c :: s) (c :: t).

(** [p] runs before [q]. *)
Definition before (p q : plugin) : Prop :=
  (p_prio p < p_prio q)%Z \/ p_prio p = p_prio q /\ lex (p_id p) (p_id q).
Fixpoint in_order (l : list plugin) : Prop :=
  match l with
  | [] => True
  | p :: l' => (forall q, In q l' -> before p q) /\ in_order l'
  end.

(** [f] is usable in the phase named [name]. *)
Definition usable (name : list ascii) (f : found) : Prop :=
  f_phase f = Some name /\ f_compiles f = true.
(** [p] is the first usable plugin with its id. *)
Definition first_usable (name : list ascii) (fs : list found) (p : plugin) : Prop :=
  exists a f b, fs = a ++ f :: b /\ f_plugin f = p /\ usable name f /\
    forall g, In g a -> usable name g -> p_id (f_plugin g) <> p_id p.

(** A POSIX matcher: offsets lie inside the text. *)
Definition sound_match (exec : list ascii -> option groups) : Prop :=
  forall s g i a b, exec s = Some g -> g i = Some (a, b) -> a <= b <= length s.

(** The replacement text: $n stands for group n. *)
Definition group_text (g : groups) (s : list ascii) (n : nat) : list ascii :=
  match g n with Some (a, b) => firstn (b - a) (skipn a s) | None => [] end.
Inductive expansion (g : groups) (s : list ascii) : list ascii -> list ascii -> Prop :=
| xp_nil : expansion g s [] []
| xp_group d t o : isdigit d = true -> expansion g s t o ->
    expansion g s ("$"%char :: d :: t) (group_text g s (N.to_nat (code d - 48)) ++ o)
| xp_byte c t o : (c = "$"%char -> forall d t', t = d :: t' -> isdigit d = false) ->
    expansion g s t o -> expansion g s (c :: t) (c :: o).

(** Global replacement.  [rx before rest] is the leftmost longest match in [rest]
    where [before] is the text in front of it.  [adjacent] says that a match has
    just ended; an empty match is not taken there. *)
Section Sed.
  Variable rx : list ascii -> list ascii -> option groups.
  Variable tpl : list ascii.
  Inductive sed : list ascii -> bool -> list ascii -> list ascii -> Prop :=
  | sed_none b adj s : rx b s = None -> sed b adj s s
  | sed_match b adj s g so eo x o : rx b s = Some g -> g 0 = Some (so, eo) -> so < eo ->
      expansion g s tpl x -> sed (b ++ firstn eo s) true (skipn eo s) o ->
      sed b adj s (firstn so s ++ x ++ o)
  | sed_empty_end b adj s g x : rx b s = Some g -> g 0 = Some (length s, length s) ->
      (adj = true -> s <> []) -> expansion g s tpl x -> sed b adj s (s ++ x)
  | sed_empty b adj s1 c s2 g x o : rx b (s1 ++ c :: s2) = Some g ->
      g 0 = Some (length s1, length s1) -> (adj = true -> s1 <> []) ->
      expansion g (s1 ++ c :: s2) tpl x -> sed (b ++ s1 ++ [c]) false s2 o ->
      sed b adj (s1 ++ c :: s2) (s1 ++ x ++ c :: o)
  | sed_adjacent_end b g : rx b [] = Some g -> g 0 = Some (0, 0) -> sed b true [] []
  | sed_adjacent b c s g o : rx b (c :: s) = Some g -> g 0 = Some (0, 0) ->
      sed (b ++ [c]) false s o -> sed b true (c :: s) (c :: o).
End Sed.

(** What a command plugin sees: its own directories and the input file. *)
Definition sees (e : env) (file dir : list ascii) (support : option (list ascii)) (e' : env) : Prop :=
  e' PLUGIN_DIR = Some dir /\ e' FILE_PATH = Some file /\
  e' SUPPORT_DIR = (match support with Some s => Some s | None => e SUPPORT_DIR end) /\
  forall k, k <> PLUGIN_DIR -> k <> FILE_PATH -> k <> SUPPORT_DIR -> e' k = e k.

(** One plugin: [t] becomes [t']. *)
Definition effect (X : external) (name file : list ascii) (e : env) (p : plugin) (t t' : list ascii) : Prop :=
  match p_act p with
  | Command cmd dir support => exists e', sees e file dir support e' /\
      t' = match X e' cmd name (p_id p) t with Some o => o | None => t end
  | Regex exec tpl => exists r, regex_replace exec tpl t = Some r /\
      t' = match r with Some w => w_out w | None => t end
  | Nothing => t' = t
  end.
Inductive effects (X : external) (name file : list ascii) (e : env) : list plugin -> list ascii -> list ascii -> Prop :=
| ef_nil t : effects X name file e [] t t
| ef_cons p l t t1 t2 : effect X name file e p t t1 -> effects X name file e l t1 t2 ->
    effects X name file e (p :: l) t t2.
