(** C148-C154: the part of an included file that an address such as [3,5] names. *)
From Verif Require Import Base BaseL Dec M_Lines S_Lines L_Lines.

Definition one_line : str := B "a" ++ [NL] ++ B "b".
Definition no_rc (_ : str) : option (str -> bool) := None.
(** Patterns are taken as the bytes a line begins with. *)
Definition some_rc (a : str) : option (str -> bool) := Some (starts a).

(** * C148: {{file}}[N,M] is lines N to M-1, each behind the prefix *)
Definition Range_full : Prop := forall rc content ls tail n m p,
  Lines content ls tail -> 1 <= n <= m -> (Z.of_nat m < 2 ^ 31)%Z -> prefix_fine p ->
  part rc (range_address n m p) content = Text (text (prefix_text p) (pick n m (all_lines ls tail))).
(** The last line of a file that does not end with a newline is lost; so are lines behind a long prefix. *)
Theorem C148_refuted : ~ Range_full /\
  (exists rc content ls n m p, Lines content ls [] /\ 1 <= n <= m /\ (Z.of_nat m < 2 ^ 31)%Z /\ prefix_fine p /\
     part rc (range_address n m p) content <> Text (text (prefix_text p) (pick n m ls))).
Proof.
  split.
  - intros H. specialize (H no_rc one_line [B "a"] (B "b") 1 3 None). vm_compute in H. enough (A : Text [("a")%char; NL] = Text (B "a" ++ [NL] ++ B "b" ++ [NL])) by discriminate A.
    apply H.
    + split; [reflexivity|]. split; [constructor; [|constructor]; intros [E|[]]; discriminate|intros [E|[]]; discriminate].
    + lia.
    + reflexivity.
    + exact I.
  - exists no_rc, (B "a" ++ [NL] ++ B "b" ++ [NL]), [B "a"; B "b"], 1, 3, (Some (repeat "x"%char 1000)).
    split; [|split; [lia|split; [reflexivity|split]]].
    + split; [reflexivity|]. split; [|intros []]. repeat constructor; intros [E|[]]; discriminate.
    + cbn [prefix_fine]. intros E. apply repeat_spec in E. discriminate.
    + vm_compute. discriminate.
Qed.
Print Assumptions C148_refuted.
(** With at most 924 bytes of prefixes the lines ended by a newline are right, and the answer is as
    wished exactly when the last line without a newline is not asked for. *)
Theorem C148_partial : forall rc content ls tail n m p,
  Lines content ls tail -> 1 <= n <= m -> (Z.of_nat m < 2 ^ 31)%Z -> prefix_fine p ->
  length (prefix_text p) * length (pick n m ls) <= 924 ->
  part rc (range_address n m p) content = Text (text (prefix_text p) (pick n m ls)) /\
  (part rc (range_address n m p) content = Text (text (prefix_text p) (pick n m (all_lines ls tail))) <->
   tail = [] \/ m <= S (length ls) \/ S (length ls) < n).
Proof. exact range_part. Qed.
Print Assumptions C148_partial.
Example C148_case : part no_rc (range_address 2 4 (Some (B "> "))) (B "one" ++ [NL] ++ B "two" ++ [NL; NL] ++ B "four" ++ [NL])
  = Text (B "> two" ++ [NL] ++ B "> " ++ [NL]) /\ range_address 2 4 (Some (B "> ")) = B "2,4;prefix=" ++ [DQ] ++ B "> " ++ [DQ].
Proof. vm_compute. auto. Qed.

(** * C149: {{file}}[N] is line N *)
Definition Line_full : Prop := forall rc content ls tail n,
  Lines content ls tail -> 1 <= n -> (Z.of_nat n < 2 ^ 31)%Z ->
  part rc (line_address n None) content = Text (text [] (pick n (S n) (all_lines ls tail))).
(** It is always nothing. *)
Theorem C149_refuted : ~ Line_full /\
  forall rc content n p, 1 <= n -> (Z.of_nat n < 2 ^ 31)%Z -> prefix_fine p -> part rc (line_address n p) content = Text [].
Proof.
  split; [|exact line_part]. intros H. specialize (H no_rc (B "a" ++ [NL]) [B "a"] [] 1).
  vm_compute in H. enough (A : Text [] = Text (B "a" ++ [NL])) by discriminate A. apply H; [|lia|reflexivity].
  split; [reflexivity|]. split; [constructor; [|constructor]; intros [E|[]]; discriminate|intros []].
Qed.
Print Assumptions C149_refuted.
(** [N,N+1] is the way to ask for one line. *)
Theorem C149_partial : forall rc content ls tail n l,
  Lines content ls tail -> (Z.of_nat (S (S n)) < 2 ^ 31)%Z -> nth_error ls n = Some l ->
  part rc (range_address (S n) (S (S n)) None) content = Text (l ++ [NL]).
Proof. exact single_part. Qed.
Print Assumptions C149_partial.
Example C149_case : part no_rc (range_address 2 3 None) (B "a" ++ [NL] ++ B "b" ++ [NL]) = Text (B "b" ++ [NL]).
Proof. vm_compute. reflexivity. Qed.

(** * C150: {{file}}[N,] is line N and everything after it *)
Definition Open_full : Prop := forall rc content ls tail n p,
  Lines content ls tail -> 1 <= n -> (Z.of_nat n < 2 ^ 31)%Z -> prefix_fine p ->
  part rc (open_address n p) content = Text (text (prefix_text p) (from n (all_lines ls tail))).
Theorem C150_refuted : ~ Open_full.
Proof.
  intros H. specialize (H no_rc one_line [B "a"] (B "b") 1 None). vm_compute in H. enough (A : Text [("a")%char; NL] = Text (B "a" ++ [NL] ++ B "b" ++ [NL])) by discriminate A.
  apply H; [|lia|reflexivity|exact I].
  split; [reflexivity|]. split; [constructor; [|constructor]; intros [E|[]]; discriminate|intros [E|[]]; discriminate].
Qed.
Print Assumptions C150_refuted.
Theorem C150_partial : forall rc content ls tail n p,
  Lines content ls tail -> 1 <= n -> (Z.of_nat n < 2 ^ 31)%Z -> prefix_fine p ->
  length (prefix_text p) * length (from n ls) <= 924 ->
  part rc (open_address n p) content = Text (text (prefix_text p) (from n ls)) /\
  (part rc (open_address n p) content = Text (text (prefix_text p) (from n (all_lines ls tail))) <-> tail = [] \/ S (length ls) < n).
Proof. exact open_part. Qed.
Print Assumptions C150_partial.
Example C150_case : part no_rc (open_address 2 None) (B "a" ++ [NL] ++ B "b" ++ [NL] ++ B "c" ++ [NL]) = Text (B "b" ++ [NL] ++ B "c" ++ [NL]).
Proof. vm_compute. reflexivity. Qed.

(** * C151: no address and no file make it write outside its buffer *)
Theorem C151_memory : forall rc address content, part rc address content <> Bad.
Proof. exact part_safe. Qed.
Print Assumptions C151_memory.
Example C151_case : part no_rc (range_address 1 3 (Some (repeat "x"%char 1020))) (B "a" ++ [NL] ++ B "b" ++ [NL]) = Text (B "a" ++ [NL] ++ B "b" ++ [NL]).
Proof. vm_compute. reflexivity. Qed.

(** * C152: {{file}}[prefix="p"] puts p before every line *)
Definition Prefix_full : Prop := forall rc content ls tail p, Lines content ls tail -> ~ In DQ p ->
  part rc (prefix_address p) content = Text (concat (map (fun l => p ++ l ++ [NL]) ls) ++ match tail with [] => [] | _ => p ++ tail end).
(** Not before empty lines, though [N,M;prefix="p"] does. *)
Theorem C152_refuted : ~ Prefix_full.
Proof.
  intros H. specialize (H no_rc [NL] [[]] [] (B ">")). vm_compute in H. enough (A : Text [NL] = Text (B ">" ++ [NL])) by discriminate A.
  apply H; [|intros [E|[]]; discriminate]. split; [reflexivity|]. split; [constructor; [intros []|constructor]|intros []].
Qed.
Print Assumptions C152_refuted.
Theorem C152_partial : forall rc content ls tail p, Lines content ls tail -> ~ In DQ p ->
  part rc (prefix_address p) content = Text (concat (map (fun l => marked p l ++ [NL]) ls) ++ marked p tail).
Proof. exact prefix_part. Qed.
Print Assumptions C152_partial.
Example C152_case : part no_rc (prefix_address (B "> ")) (B "a" ++ [NL; NL] ++ B "b") = Text (B "> a" ++ [NL; NL] ++ B "> b").
Proof. vm_compute. reflexivity. Qed.

(** * C153: every include comes to an end *)
Definition Ends_full : Prop := forall rc address content, part rc address content <> Loops.
Theorem C153_refuted : ~ Ends_full.
Proof. intros H. apply (H no_rc (pattern_address (B "[") (B "[") (Some (B "> "))) []). vm_compute. reflexivity. Qed.
Print Assumptions C153_refuted.
(** It does not exactly when the address has patterns, none of them compiles, and there is a prefix. *)
Theorem C153_partial : forall rc address content,
  (part rc address content = Loops <-> exists sp, parse_address_spec address = Some sp /\ regex_range sp = true /\
     dead rc (regex_start sp) /\ dead rc (regex_end sp) /\ prefix sp <> None) /\
  ((forall x, rc x <> None) -> part rc address content <> Loops).
Proof. intros rc a c. split; [apply part_loops|apply part_ends]. Qed.
Print Assumptions C153_partial.
Example C153_case : part some_rc (pattern_address (B "[") (B "[") (Some (B "> "))) (B "[") = Text [] /\ part no_rc (pattern_address (B "[") (B "[") None) (B "[") = Text (B "[").
Proof. vm_compute. auto. Qed.

(** * C154: {{file}}[/A/,/B/] is the first line that matches A and those after it up to one that matches B *)
Definition Pattern_full : Prop := forall rc content ls tail a b ms me p i j,
  Lines content ls tail -> ~ In "/"%char a -> ~ In "/"%char b -> prefix_fine p -> rc a = Some ms -> rc b = Some me ->
  First ms 1 0 (all_lines ls tail) (Some i) -> First me 1 i (all_lines ls tail) j ->
  part rc (pattern_address a b p) content =
  Text (text (prefix_text p) (match j with Some j => pick i j (all_lines ls tail) | None => from i (all_lines ls tail) end)).
Theorem C154_refuted : ~ Pattern_full.
Proof.
  intros H.
  assert (E : part some_rc (pattern_address (B "a") (B "c") None) one_line = Text (text [] (from 1 (all_lines [B "a"] (B "b"))))).
  { apply (H some_rc one_line [B "a"] (B "b") (B "a") (B "c") (starts (B "a")) (starts (B "c")) None 1 None).
    - split; [reflexivity|]. split; [constructor; [|constructor]; intros [E|[]]; discriminate|intros [E|[]]; discriminate].
    - intros [E|[]]; discriminate.
    - intros [E|[]]; discriminate.
    - exact I.
    - reflexivity.
    - reflexivity.
    - exists 0, (B "a"). split; [reflexivity|]. split; [lia|]. split; [reflexivity|]. split; [reflexivity|]. intros t' l' T. lia.
    - intros [|[|t]] l _ E; cbn in E; [injection E as <-; reflexivity|injection E as <-; reflexivity|destruct t; discriminate]. }
  vm_compute in E. discriminate E.
Qed.
Print Assumptions C154_refuted.
Theorem C154_partial :
  (forall rc content ls tail a b ms me p i j,
    Lines content ls tail -> ~ In "/"%char a -> ~ In "/"%char b -> prefix_fine p -> rc a = Some ms -> rc b = Some me ->
    First ms 1 0 (all_lines ls tail) (Some i) -> First me 1 i (all_lines ls tail) j ->
    length (prefix_text p) * length (match j with Some j => pick i j ls | None => from i ls end) <= 924 ->
    part rc (pattern_address a b p) content =
    Text (text (prefix_text p) (match j with Some j => pick i j (all_lines ls tail) | None => from i ls end))) /\
  (forall rc content ls tail a b ms p,
    Lines content ls tail -> ~ In "/"%char a -> ~ In "/"%char b -> prefix_fine p -> rc a = Some ms ->
    First ms 1 0 (all_lines ls tail) None -> part rc (pattern_address a b p) content = Text []).
Proof. exact pattern_part. Qed.
Print Assumptions C154_partial.
Example C154_case : part some_rc (pattern_address (B "b") (B "d") (Some (B "> "))) (B "a" ++ [NL] ++ B "b" ++ [NL] ++ B "c" ++ [NL] ++ B "d" ++ [NL])
  = Text (B "> b" ++ [NL] ++ B "> c" ++ [NL]).
Proof. vm_compute. reflexivity. Qed.
