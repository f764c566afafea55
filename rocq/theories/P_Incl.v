(** C155-C166: files included in a document. *)
From Verif Require Import Base BaseL Dec S_Lines M_Csv M_Lines M_Incl S_Incl L_Incl.

(** Files of a small disk: names with contents.  Metadata is only looked for on the first line. *)
Definition base_line : str := B "transclude base: ".
Definition disk (l : list (str * str)) : env :=
  let get p := match find (fun x => seq_ (fst x) p) l with Some (_, c) => Some c | None => None end in
  Env get (fun p => match get p with Some _ => true | None => false end) (fun _ => None)
    (fun c => if starts base_line c then Some (fst (span in_line (skipn (length base_line) c))) else None) (fun _ => None).

(** * C155: includes are replaced, everything else stays *)
(** Text before an include does not matter. *)
Definition Include_full : Prop := forall E u f content v base tb,
  quiet true u -> quiet false v -> after_ true u = true -> quiet true content -> short f -> Forall name_char f -> ~ In "}"%char f ->
  Forall (fun c => is_glob c = false) f -> no_bracket v -> length content + length u + length v < 2 ^ 20 -> no_even_fence content ->
  no_even_fence (u ++ B "{{" ++ f ++ B "}}" ++ v) ->
  file E (resolve_path f (transclude_base base tb)) = Some content ->
  process_includes E (u ++ B "{{" ++ f ++ B "}}" ++ v) base tb = Done (u ++ content ++ v).
(** A backtick that opens no code span turns includes off up to the next one. *)
Theorem C155_refuted : ~ Include_full.
Proof.
  intros H. specialize (H (one_file (B "abc")) (B "a ` b" ++ [NL]) (B "f") (B "abc") [] None None).
  assert (K : process_includes (one_file (B "abc")) ((B "a ` b" ++ [NL]) ++ B "{{" ++ B "f" ++ B "}}" ++ []) None None = Done (B "a ` b" ++ [NL] ++ B "{{f}}"))
    by (vm_compute; reflexivity).
  rewrite K in H. enough (A : Done (B "a ` b" ++ [NL] ++ B "{{f}}") = Done ((B "a ` b" ++ [NL]) ++ B "abc" ++ [])) by (vm_compute in A; discriminate A).
  apply H; clear H K.
  - cbn [B list_ascii_of_string app quiet]. repeat split; try discriminate; intros [Q _]; discriminate.
  - exact I.
  - reflexivity.
  - cbn [B list_ascii_of_string app quiet]. repeat split; try discriminate; intros [Q _]; discriminate.
  - split; [discriminate|cbn; lia].
  - repeat constructor; discriminate.
  - intros [Q|[]]; discriminate.
  - repeat constructor.
  - exact I.
  - pose proof pow20. cbn [length B list_ascii_of_string app]. lia.
  - apply fence_free. cbn. intuition discriminate.
  - intros a n b Es Ea Eb. left. assert (L : n <= 1).
    { assert (Q : count_occ ascii_dec (a ++ repeat BT n ++ b) BT = 1) by (rewrite <- Es; reflexivity). rewrite !count_occ_app in Q.
      assert (R : count_occ ascii_dec (repeat BT n) BT = n) by (clear; induction n as [|n IH]; [reflexivity|]; cbn [repeat count_occ]; destruct (ascii_dec BT BT); [rewrite IH; reflexivity|congruence]).
      lia. }
    lia.
  - reflexivity.
Qed.
Print Assumptions C155_refuted.
(** Documents of plain text, code spans of one backtick and includes are expanded as described, to ten
    levels. *)
Theorem C155_partial : forall E text base tb t, Expands E 11 text (transclude_base base tb) t -> process_includes E text base tb = Done t.
Proof. intros E text base tb t H. exact (expands_process E 11 text base tb t H). Qed.
Print Assumptions C155_partial.
(** Names are looked for in the folder of the file they are written in; the kind of a file and the
    language of code follow from the suffix. *)
Theorem C155_names :
  (forall f base p, Path f base p -> resolve_path f base = p) /\
  (forall p d, Folder p d -> get_directory p = d) /\
  (forall p k, Kind p k -> detect p = k) /\
  (forall f l, Language f l -> lang_of f = l).
Proof. exact (conj path_resolve (conj folder_directory (conj kind_detect language_of))). Qed.
Print Assumptions C155_names.
Example C155_names_case : Path (B "a.md") (Some (B "d")) (B "d/a.md") /\ Folder (B "/d/e//a.md") (B "/d/e") /\
  Kind (B "d/x.CSV") CsvFile /\ Kind (B "notes.org") TextFile /\ Language (B "a.b.py") (B "python").
Proof.
  split; [apply (P_in (B "a.md") (B "d")); discriminate|]. split; [|split; [|split]].
  - apply (F_in (B "/d/") "e"%char 1 (B "a.md")); [discriminate|discriminate|]. cbn. intuition discriminate.
  - apply (K_known _ (B "CSV") CsvFile ["csv"%string] "csv"%string); [|right; left; reflexivity|left; reflexivity|reflexivity].
    exists (B "d/x"). split; [reflexivity|]. cbn. intuition discriminate.
  - apply (K_other _ (B "org")); [exists (B "notes"); split; [reflexivity|cbn; intuition discriminate]|].
    intros k l x Hk Hx Q. cbn [kinds In] in Hk. repeat (destruct Hk as [Hk|Hk]; [injection Hk as <- <-; cbn [In] in Hx; repeat (destruct Hx as [<-|Hx]; [discriminate Q|]); destruct Hx|]). destruct Hk.
  - apply (L_known _ (B "py") "py" "python"); [exists (B "a.b"); split; [reflexivity|cbn; intuition discriminate]|do 4 right; left; reflexivity|reflexivity].
Qed.
Definition case_disk := disk [(B "d/a.md", B "A {{b.txt}}"); (B "d/b.txt", B "bb"); (B "d/t.py", B "x = 1")].
Definition case_doc : list segment :=
  [Plain (B "One "); Inc (Mmd (B "a.md") None); Plain (B " two "); Span (B "{{a.md}}"); Plain [NL]; Inc (Code (B "t.py") None); Plain [NL]].
Example C155_case : source case_doc = B "One {{a.md}} two `{{a.md}}`" ++ [NL] ++ B "<<(t.py)" ++ [NL] /\ fine true case_doc /\
  process_includes case_disk (source case_doc) (Some (B "d")) None =
    Done (B "One A bb two `{{a.md}}`" ++ [NL; NL] ++ B "```python" ++ [NL] ++ B "x = 1" ++ [NL] ++ B "```" ++ [NL; NL]) /\
  Expands case_disk 2 (B "A {{b.txt}}") (Some (B "d")) (B "A bb").
Proof.
  split; [reflexivity|]. split; [|split; [vm_compute; reflexivity|]].
  - cbn [case_doc fine fine_include fine_address]. repeat match goal with |- _ /\ _ => split end; try reflexivity; try exact I; try discriminate;
      try (cbn; lia); try (repeat constructor; fail); try (cbn; intuition discriminate); try (intros _; exact I).
    all: split; [discriminate|cbn; lia].
  - exists [Plain (B "A "); Inc (Mmd (B "b.txt") None)]. split; [reflexivity|]. split; [|split; [apply fence_free; cbn; intuition discriminate|split]].
    + cbn [fine fine_include fine_address]. repeat match goal with |- _ /\ _ => split end; try reflexivity; try exact I; try discriminate;
        try (cbn; lia); try (repeat constructor; fail); try (cbn; intuition discriminate); try (intros _; exact I).
      all: split; [discriminate|cbn; lia].
    + apply (R_plain _ _ _ (B "A ")). apply (R_inc _ _ _ _ _ (B "bb") []); [|constructor].
      apply (M_mmd _ _ _ _ _ (B "bb") (B "bb") (B "bb") (B "d")); [reflexivity|reflexivity|apply T_no; discriminate|apply H_none; reflexivity|].
      exists [Plain (B "bb")]. split; [reflexivity|]. split; [|split; [apply fence_free; cbn; intuition discriminate|split]].
      * cbn. repeat split; intros; discriminate.
      * apply (R_plain _ _ _ (B "bb") [] []). constructor.
      * pose proof pow20. cbn [length B list_ascii_of_string]. lia.
    + pose proof pow20. cbn [length B list_ascii_of_string]. lia.
Qed.

(** * C156: include syntax in code blocks and code spans stays *)
Definition Code_kept_full : Prop := forall E n info body base tb,
  3 <= n -> ~ In BT info -> ~ In NL info -> ~ In CR info -> ~ closes n body -> ~ In NL body ->
  exists m, process_includes E (code_block n info body) base tb = Done (code_block m info body).
(** A lone backtick in a code block, or a code span of two backticks, is enough for the include. *)
Theorem C156_refuted : ~ Code_kept_full /\
  process_includes (one_file (B "abc")) (B "``{{f}}``") None None = Done (B "``abc``").
Proof.
  split; [|vm_compute; reflexivity].
  intros H. destruct (H (one_file (B "abc")) 3 [] (B "a ` {{f}}") None None) as [m K]; clear H.
  - lia.
  - intros [].
  - intros [].
  - intros [].
  - intros (i & n & w & Es & _ & Ln & _). destruct i as [|i]; [|discriminate]. destruct n as [|n]; [lia|discriminate].
  - cbn. intuition discriminate.
  - assert (Q : process_includes (one_file (B "abc")) (code_block 3 [] (B "a ` {{f}}")) None None = Done (code_block 3 [] (B "a ` abc")))
      by (vm_compute; reflexivity).
    rewrite Q in K. injection K as K. destruct m as [|[|[|[|m]]]]; vm_compute in K; try discriminate K.
Qed.
Print Assumptions C156_refuted.
(** Without a backtick in the block it stays; the fences get an odd number of backticks. *)
Definition odd_length (n : nat) : nat := if Nat.even n then S n else n.
Theorem C156_partial : forall E n info body v base tb,
  3 <= n -> ~ In BT info -> ~ In NL info -> ~ In CR info -> ~ In BT body -> inert true v ->
  process_includes E (code_block n info body ++ v) base tb = Done (code_block (odd_length n) info body ++ v).
Proof.
  intros E n info body v base tb L Hi Hn Hc Hb Iv. apply (process_block E 10 n info body v base tb L Hi Hn Hc Hb (inert_no_bt _ _ Iv) Iv).
Qed.
Print Assumptions C156_partial.
Example C156_case : process_includes (one_file (B "abc")) (code_block 4 (B " md") (B "<<[f]" ++ [NL] ++ B "/f {{f}}") ++ B "end") None None =
  Done (code_block 5 (B " md") (B "<<[f]" ++ [NL] ++ B "/f {{f}}") ++ B "end") /\ inert true (B "end").
Proof. split; [vm_compute; reflexivity|]. cbn. repeat split; intros; discriminate. Qed.

(** * C157: a document without include syntax is unchanged *)
Definition Unchanged_full : Prop := forall E text base tb, quiet true text -> process_includes E text base tb = Done text.
(** A block that its closing fence, written one space in, no longer closes. *)
Definition four : str := B "````" ++ [NL] ++ B "x" ++ [NL] ++ B " ````" ++ [NL] ++ B "end" ++ [NL].
Theorem C157_refuted : ~ Unchanged_full /\ quiet true four /\
  process_includes (disk []) four None None = Done (B "`" ++ four) /\
  Body 4 [B "x"; B " ````"; B "end"] [B "x"] /\ forall b, ~ Body 5 [B "x"; B " ````"; B "end"] b.
Proof.
  assert (Q : quiet true four).
  { unfold four. cbn [B list_ascii_of_string app quiet]. repeat split; try discriminate; intros [Z _]; discriminate. }
  assert (K : process_includes (disk []) four None None = Done (B "`" ++ four)) by (vm_compute; reflexivity).
  split; [|split; [exact Q|split; [exact K|split]]].
  - intros H. specialize (H (disk []) four None None Q). rewrite K in H. vm_compute in H. discriminate H.
  - apply B_line; [|apply B_close].
    + intros (i & n & w & Es & _ & Ln & _). destruct i as [|i]; [|discriminate]. destruct n as [|n]; [lia|discriminate].
    + exists 1, 4, []. split; [reflexivity|]. split; [lia|]. split; [lia|constructor].
  - assert (N : forall l, In l [B "x"; B " ````"; B "end"] -> ~ closes 5 l).
    { intros l Hl C. apply closes_count in C. destruct Hl as [<-|[<-|[<-|[]]]]; cbn in C; lia. }
    intros b Hb. inversion Hb as [l ls C|l ls b1 C H1]; subst; [exact (N _ (or_introl eq_refl) C)|].
    inversion H1 as [l ls C1|l ls b2 C1 H2]; subst; [exact (N _ (or_intror (or_introl eq_refl)) C1)|].
    inversion H2 as [l ls C2|l ls b3 C2 H3]; subst; [exact (N _ (or_intror (or_intror (or_introl eq_refl))) C2)|]. inversion H3.
Qed.
Print Assumptions C157_refuted.
Theorem C157_partial : forall E text base tb, quiet true text -> no_even_fence text -> process_includes E text base tb = Done text.
Proof. intros E text base tb Q N. exact (process_quiet E 11 text base tb Q N). Qed.
Print Assumptions C157_partial.
Example C157_case : let text := B "a / b `{c}` << d" ++ [NL] ++ B "```" ++ [NL] ++ B "x" in
  quiet true text /\ process_includes (one_file (B "abc")) text None None = Done text.
Proof. split; [|vm_compute; reflexivity]. cbn [B list_ascii_of_string app quiet]. repeat split; try discriminate; intros [Z Y]; discriminate. Qed.

(** * C158: an include of a file that cannot be read stays visible *)
Definition Visible_full : Prop := forall E i v base tb, fine true [Inc i; Plain v] ->
  (forall p, file E p = None) -> (forall p, exists_ E p = false) -> process_includes E (source [Inc i; Plain v]) base tb = Done (source [Inc i; Plain v]).
(** <<[file] disappears, for every such file. *)
Theorem C158_refuted : ~ Visible_full /\
  forall E f v base tb, short f -> ~ In BT f -> ~ In "]"%char f -> inert false v -> no_bracket_ws v -> length v < 2 ^ 20 ->
    file E (resolve_path f (transclude_base base tb)) = None -> process_includes E (B "<<[" ++ f ++ B "]" ++ v) base tb = Done v.
Proof.
  split; [|intros E f v base tb; exact (marked_missing E 10 f v base tb)].
  intros H. specialize (H (disk []) (Marked (B "f") None) (B "x") None None).
  assert (K : process_includes (disk []) (source [Inc (Marked (B "f") None); Plain (B "x")]) None None = Done (B "x")) by (vm_compute; reflexivity).
  rewrite K in H. enough (A : Done (B "x") = Done (source [Inc (Marked (B "f") None); Plain (B "x")])) by (vm_compute in A; discriminate A).
  apply H; [|reflexivity|reflexivity]. cbn [fine fine_include fine_address]. repeat match goal with |- _ /\ _ => split end; try reflexivity; try discriminate; try exact I; try (intros _; exact I).
  - split; [discriminate|cbn; lia].
  - cbn. intuition discriminate.
  - cbn. repeat split; intros; discriminate.
Qed.
Print Assumptions C158_refuted.
Theorem C158_partial : 
  (forall E u f v base tb, inert true u -> short f -> Forall name_char f -> ~ In "}"%char f ->
    Forall (fun c => is_glob c = false) f -> inert false v -> file E (resolve_path f (transclude_base base tb)) = None ->
    process_includes E (u ++ B "{{" ++ f ++ B "}}" ++ v) base tb = Done (u ++ B "{{" ++ f ++ B "}}" ++ v)) /\
  (forall E u f v base tb, inert true u -> after_ true u = true -> short f -> Forall name_char f ->
    Forall (fun c => word_char c = true) f -> match v with [] => True | c :: _ => word_char c = false end -> inert false v ->
    exists_ E (resolve_path f (transclude_base base tb)) = false ->
    process_includes E (u ++ B "/" ++ f ++ v) base tb = Done (u ++ B "/" ++ f ++ v)).
Proof.
  split; [intros E u f v base tb; exact (mmd_missing E 10 u f v base tb)|intros E u f v base tb; exact (ia_missing E 10 u f v base tb)].
Qed.
Print Assumptions C158_partial.
Example C158_case : process_includes (one_file (B "abc")) (B "a {{g}} b" ++ [NL] ++ B "/h c") None None = Done (B "a {{g}} b" ++ [NL] ++ B "/h c").
Proof. vm_compute. reflexivity. Qed.

(** * C159: what follows an include stays *)
Definition After_full : Prop := forall E f content v base tb, short f -> ~ In BT f -> ~ In "]"%char f -> ~ In "["%char f -> inert false v ->
  file E (resolve_path f (transclude_base base tb)) = Some content -> detect (resolve_path f (transclude_base base tb)) = TextFile ->
  quiet true content -> no_even_fence content -> length content + length v < 2 ^ 20 -> at_ v 0 <> "["%char ->
  process_includes E (B "<<[" ++ f ++ B "]" ++ v) base tb = Done (content ++ v).
(** A link in the next paragraph loses its text, which is taken for the address of the include. *)
Definition next_link : str := [NL; NL] ++ B "[Home](u) x".
Theorem C159_refuted : ~ After_full /\ process_includes (one_file (B "abc")) (B "<<[f]" ++ next_link) None None = Done (B "abc(u) x").
Proof.
  assert (K : process_includes (one_file (B "abc")) (B "<<[f]" ++ next_link) None None = Done (B "abc(u) x")) by (vm_compute; reflexivity).
  split; [|exact K]. intros H. specialize (H (one_file (B "abc")) (B "f") (B "abc") next_link None None).
  change (B "<<[" ++ B "f" ++ B "]" ++ next_link) with (B "<<[f]" ++ next_link) in H. rewrite K in H.
  enough (A : Done (B "abc(u) x") = Done (B "abc" ++ next_link)) by (vm_compute in A; discriminate A).
  apply H; clear H K.
  - split; [discriminate|cbn; lia].
  - cbn. intuition discriminate.
  - cbn. intuition discriminate.
  - cbn. intuition discriminate.
  - cbn. repeat split; intros; discriminate.
  - reflexivity.
  - reflexivity.
  - cbn [B list_ascii_of_string app quiet]. repeat split; try discriminate; intros [Z Y]; discriminate.
  - apply fence_free. cbn. intuition discriminate.
  - pose proof pow20. unfold next_link. cbn [length B list_ascii_of_string app]. lia.
  - discriminate.
Qed.
Print Assumptions C159_refuted.
(** It stays if the next thing that is not white space is no bracket. *)
Theorem C159_partial : forall E f content v base tb, short f -> ~ In BT f -> ~ In "]"%char f -> inert false v ->
  file E (resolve_path f (transclude_base base tb)) = Some content ->
  detect (resolve_path f (transclude_base base tb)) <> CsvFile -> detect (resolve_path f (transclude_base base tb)) <> TsvFile ->
  quiet true content -> no_even_fence content -> length content + length v < 2 ^ 20 -> no_bracket_ws v ->
  process_includes E (B "<<[" ++ f ++ B "]" ++ v) base tb = Done (content ++ v).
Proof.
  intros E f content v base tb Fs Ft Fb Iv Hf D1 D2 Qc Nc L Nv. exact (marked_after E 10 f content v base tb Fs Ft Fb Iv Nv Hf D1 D2 Qc Nc L).
Qed.
Print Assumptions C159_partial.
Example C159_case : let v := [NL; NL] ++ B "See [Home](u)" in inert false v /\ no_bracket_ws v /\
  process_includes (one_file (B "abc")) (B "<<[f]" ++ v) None None = Done (B "abc" ++ v).
Proof. split; [cbn; repeat split; intros; discriminate|]. split; [exact I|vm_compute; reflexivity]. Qed.

(** * C160: the "transclude base" of an included file is the folder of its own includes *)
(** [r]: a folder given relative to that of the file. *)
Definition Base_full : Prop := forall E f content base tb r t, short f -> ~ In BT f -> ~ In "]"%char f ->
  file E (resolve_path f (transclude_base base tb)) = Some content -> detect (resolve_path f (transclude_base base tb)) = Markdown -> length t < 2 ^ 20 ->
  tbase E content = Some r -> at_ r 0 <> "/"%char -> at_ r 0 <> "."%char ->
  process E 10 content (Some (get_directory (resolve_path f (transclude_base base tb)) ++ B "/" ++ r)) None = Done t ->
  process_includes E (B "<<[" ++ f ++ B "]") base tb = Done t.
(** It is applied twice: files are looked for in d/sub/sub. *)
Definition base_disk := disk [(B "d/a.md", base_line ++ B "sub" ++ [NL] ++ B "{{b.txt}}"); (B "d/sub/b.txt", B "one"); (B "d/sub/sub/b.txt", B "two")].
Theorem C160_refuted : ~ Base_full /\
  forall E f content base tb r t, short f -> ~ In BT f -> ~ In "]"%char f ->
    file E (resolve_path f (transclude_base base tb)) = Some content -> detect (resolve_path f (transclude_base base tb)) = Markdown -> length t < 2 ^ 20 ->
    tbase E content = Some r -> at_ r 0 <> "/"%char -> at_ r 0 <> "."%char ->
    process E 10 content (Some (get_directory (resolve_path f (transclude_base base tb)) ++ B "/" ++ r ++ B "/" ++ r)) None = Done t ->
    process_includes E (B "<<[" ++ f ++ B "]") base tb = Done t.
Proof.
  split; [|intros E f content base tb r t; exact (relative_text E 10 f content base tb r t)].
  intros H. specialize (H base_disk (B "d/a.md") (base_line ++ B "sub" ++ [NL] ++ B "{{b.txt}}") None None (B "sub") (base_line ++ B "sub" ++ [NL] ++ B "one")).
  assert (K : process_includes base_disk (B "<<[" ++ B "d/a.md" ++ B "]") None None = Done (base_line ++ B "sub" ++ [NL] ++ B "two")) by (vm_compute; reflexivity).
  rewrite K in H. enough (A : Done (base_line ++ B "sub" ++ [NL] ++ B "two") = Done (base_line ++ B "sub" ++ [NL] ++ B "one")) by (vm_compute in A; discriminate A).
  apply H; clear H K.
  - split; [discriminate|cbn; lia].
  - cbn. intuition discriminate.
  - cbn. intuition discriminate.
  - reflexivity.
  - reflexivity.
  - pose proof pow20. unfold base_line. cbn [length B list_ascii_of_string app]. lia.
  - reflexivity.
  - discriminate.
  - discriminate.
  - vm_compute. reflexivity.
Qed.
Print Assumptions C160_refuted.
(** Without it, with an absolute one or with ".", includes are looked for where they should be. *)
Theorem C160_partial : forall E f content base tb home t, short f -> ~ In BT f -> ~ In "]"%char f ->
  file E (resolve_path f (transclude_base base tb)) = Some content -> detect (resolve_path f (transclude_base base tb)) = Markdown -> length t < 2 ^ 20 ->
  Home E (resolve_path f (transclude_base base tb)) content home -> process E 10 content (Some home) None = Done t ->
  process_includes E (B "<<[" ++ f ++ B "]") base tb = Done t.
Proof. intros E f content base tb home t. exact (home_text E 10 f content base tb home t). Qed.
Print Assumptions C160_partial.
Example C160_case : let c := base_line ++ B "/x" ++ [NL] ++ B "{{b.txt}}" in let E := disk [(B "d/a.md", c); (B "/x/b.txt", B "one")] in
  Home E (B "d/a.md") c (B "/x") /\ process_includes E (B "<<[a.md]") (Some (B "d")) None = Done (base_line ++ B "/x" ++ [NL] ++ B "one").
Proof. split; [apply H_abs; reflexivity|vm_compute; reflexivity]. Qed.

(** * C161: {{name.*}} takes name.html, name.md, name.txt or name.tex, the first that exists *)
Definition Preferred (E : env) (name : str) (base : option str) (p : str) : Prop :=
  exists l1 e l2, [B ".html"; B ".md"; B ".txt"; B ".tex"] = l1 ++ e :: l2 /\ p = resolve_path (name ++ e) base /\
    exists_ E p = true /\ forall e', In e' l1 -> exists_ E (resolve_path (name ++ e') base) = false.
Definition Wildcard_full : Prop := forall E name base p, Forall (fun c => is_glob c = false) name -> ~ In "."%char name ->
  length name < 1000 -> Preferred E name base p -> resolve_wildcard E (name ++ B ".*") base = Some p.
(** glob lists a.csv before a.md. *)
Definition wild_disk : env := Env (fun p => if seq_ p (B "a.md") then Some (B "text") else if seq_ p (B "a.csv") then Some (B "1,2") else None)
  (fun p => seq_ p (B "a.md") || seq_ p (B "a.csv")) (fun p => if seq_ p (B "a.*") then Some (B "a.csv") else None) (fun _ => None) (fun _ => None).
Theorem C161_refuted : ~ Wildcard_full /\ Preferred wild_disk (B "a") None (B "a.md") /\
  process_includes wild_disk (B "{{a.*}}") None None <> Done (B "text").
Proof.
  assert (P : Preferred wild_disk (B "a") None (B "a.md")).
  { exists [B ".html"], (B ".md"), [B ".txt"; B ".tex"]. split; [reflexivity|]. split; [reflexivity|]. split; [reflexivity|].
    intros e' [<-|[]]. reflexivity. }
  split; [|split; [exact P|vm_compute; discriminate]]. intros H. specialize (H wild_disk (B "a") None (B "a.md")).
  assert (K : resolve_wildcard wild_disk (B "a" ++ B ".*") None = Some (B "a.csv")) by reflexivity. rewrite K in H.
  enough (A : Some (B "a.csv") = Some (B "a.md")) by discriminate A. apply H; [repeat constructor|cbn; intuition discriminate|cbn; lia|exact P].
Qed.
Print Assumptions C161_refuted.
(** The list is never consulted: every name with a wildcard is what glob lists first. *)
Theorem C161_partial : forall E f base, existsb is_glob f = true -> resolve_wildcard E f base = glob E (resolve_path f base).
Proof. exact glob_wild. Qed.
Print Assumptions C161_partial.
Example C161_case : existsb is_glob (B "a.*") = true /\ resolve_wildcard wild_disk (B "a.*") None = Some (B "a.csv").
Proof. split; reflexivity. Qed.

(** * C162: memory outside the buffers is never written *)
Definition Safe_full : Prop := forall E text base tb, process_includes E text base tb <> Fault.
(** The text is "{{f}}xy", the file has one byte less than a megabyte: the NUL is stored one past the end. *)
Theorem C162_refuted : ~ Safe_full.
Proof. intros H. exact (H _ _ _ _ full_overrun). Qed.
Print Assumptions C162_refuted.
(** Without a file that can be read every document is safe; so are those of C155. *)
Theorem C162_partial :
  (forall E, (forall p, file E p = None) -> forall text base tb, exists t, process_includes E text base tb = Done t) /\
  (forall E text base tb t, Expands E 11 text (transclude_base base tb) t -> process_includes E text base tb <> Fault).
Proof.
  split; [intros E H text base tb; exact (process_none E H 11 text base tb)|].
  intros E text base tb t H. rewrite (C155_partial E text base tb t H). discriminate.
Qed.
Print Assumptions C162_partial.
Example C162_case : process_includes (disk []) (repeat BT 4 ++ B "<<[a][b] {{c}}[d") None None <> Fault.
Proof. vm_compute. discriminate. Qed.

(** * C163: every run ends, whatever includes what *)
Definition Ends_full : Prop := forall E text base tb, process_includes E text base tb <> NoFuel /\ process_includes E text base tb <> Endless.
(** Patterns that regcomp refuses, with a prefix, recurse for ever (C153). *)
Theorem C163_refuted : ~ Ends_full.
Proof.
  intros H. destruct (H (one_file (B "a" ++ [NL])) (B "{{f}}[/(/,/(/;prefix=" ++ [DQ] ++ B "> " ++ [DQ] ++ B "]") None None) as [_ K]. apply K. vm_compute. reflexivity.
Qed.
Print Assumptions C163_refuted.
Theorem C163_partial : 
  (forall E text base tb, process_includes E text base tb <> NoFuel) /\
  (forall E, (forall x, rc E x <> None) -> forall text base tb, process_includes E text base tb <> Endless).
Proof. split; [intros E; exact (process_ends E 11)|intros E H; exact (process_endless E H 11)]. Qed.
Print Assumptions C163_partial.
Example C163_case : process_includes (disk [(B "d/f", B "({{f}})")]) (B "{{f}}") (Some (B "d")) None = Done (B "(((((((((((" ++ B "{{f}}" ++ B ")))))))))))").
Proof. vm_compute. reflexivity. Qed.

(** * C164: <<(file) is a code block with the text of the file *)
(** [b]: the lines of the block. *)
Definition Code_full : Prop := forall E f content base tb, short f -> ~ In BT f -> ~ In ")"%char f -> length (lang_of f) <= 122 ->
  file E (resolve_path f (transclude_base base tb)) = Some content -> length content + 200 < 2 ^ 20 ->
  exists rest ls b, process_includes E (B "<<(" ++ f ++ B ")") base tb = Done ([NL] ++ repeat BT 3 ++ lang_of f ++ [NL] ++ rest) /\
    Lines rest ls [] /\ Body 3 ls b /\ (block_text b = content \/ block_text b = content ++ [NL]).
(** A file that contains a fence ends the block. *)
Theorem C164_refuted : ~ Code_full.
Proof.
  intros H. destruct (H (one_file (B "a" ++ [NL] ++ B "```" ++ [NL] ++ B "b" ++ [NL])) (B "f") (B "a" ++ [NL] ++ B "```" ++ [NL] ++ B "b" ++ [NL]) None None)
    as (rest & ls & b & K & L & Hb & T); clear H.
  - split; [discriminate|cbn; lia].
  - cbn. intuition discriminate.
  - cbn. intuition discriminate.
  - cbn. lia.
  - reflexivity.
  - pose proof pow20. cbn [length B list_ascii_of_string app]. lia.
  - assert (Q : process_includes (one_file (B "a" ++ [NL] ++ B "```" ++ [NL] ++ B "b" ++ [NL])) (B "<<(" ++ B "f" ++ B ")") None None =
      Done ([NL] ++ repeat BT 3 ++ lang_of (B "f") ++ [NL] ++ B "a" ++ [NL] ++ B "```" ++ [NL] ++ B "b" ++ [NL; NL] ++ B "```" ++ [NL]))
      by (vm_compute; reflexivity).
    rewrite Q in K. injection K as K. subst rest. destruct L as (L & F & _). rewrite app_nil_r in L.
    assert (X : exists l, ls = B "a" :: B "```" :: l).
    { destruct ls as [|l1 ls]; [discriminate|]. cbn [map concat] in L. inversion F as [|? ? F1 F']; subst.
      destruct l1 as [|c1 [|c2 l1]]; try discriminate; [|injection L as L1 L2 L3; subst; exfalso; apply F1; right; left; reflexivity].
      injection L as L1 L. subst c1. destruct ls as [|l2 ls]; [discriminate|]. cbn [map concat] in L. inversion F' as [|? ? F2 F'']; subst.
      destruct l2 as [|c1 [|c2 [|c3 [|c4 l2]]]]; try discriminate;
        [|injection L as M1 M2 M3 M4 M5; subst; exfalso; apply F2; do 3 right; left; reflexivity].
      injection L as M1 M2 M3 M4; subst. exists ls. reflexivity. }
    destruct X as [l ->]. inversion Hb as [? ? C|? ? b1 C H1]; subst; [destruct T; discriminate|].
    inversion H1 as [? ? C1|? ? b2 C1 H2]; subst.
    + destruct T; discriminate.
    + apply C1. exact (closes_self 3).
Qed.
Print Assumptions C164_refuted.
(** Otherwise the block holds the text of the file and one newline more, so that a file that ends with a
    newline gets an empty line at the end. *)
Theorem C164_partial : forall E f content base tb ls tail, short f -> ~ In BT f -> ~ In ")"%char f -> length (lang_of f) <= 122 ->
  file E (resolve_path f (transclude_base base tb)) = Some content -> length content + 200 < 2 ^ 20 ->
  Lines content ls tail -> (forall l, In l (ls ++ [tail]) -> ~ closes 3 l) ->
  exists rest ls' b, process_includes E (B "<<(" ++ f ++ B ")") base tb = Done ([NL] ++ repeat BT 3 ++ lang_of f ++ [NL] ++ rest) /\
    Lines rest ls' [] /\ Body 3 ls' b /\ block_text b = content ++ [NL].
Proof. intros E f content base tb ls tail. exact (code_reads E 10 f content base tb ls tail). Qed.
Print Assumptions C164_partial.
Example C164_case : process_includes (disk [(B "a.rb", B "x" ++ [NL])]) (B "<<(a.rb)") None None =
  Done ([NL] ++ B "```ruby" ++ [NL] ++ B "x" ++ [NL; NL] ++ B "```" ++ [NL]) /\ Lines (B "x" ++ [NL]) [B "x"] [].
Proof. split; [vm_compute; reflexivity|]. split; [reflexivity|]. split; [repeat constructor; cbn; intuition discriminate|intros []]. Qed.

(** * C165: <<{file} puts the HTML of the file into the document *)
Definition Raw_full : Prop := forall E f content base tb, short f -> ~ In BT f -> ~ In "}"%char f ->
  file E (resolve_path f (transclude_base base tb)) = Some content -> quiet true content ->
  exists a b, process_includes E (B "<<{" ++ f ++ B "}") base tb = Done (a ++ content ++ b).
(** What is put there is a comment with the path, which nothing replaces later, for every content. *)
Theorem C165_refuted : ~ Raw_full /\
  forall E f content base tb, short f -> ~ In BT f -> ~ In "}"%char f -> length (resolve_path f (transclude_base base tb)) <= 999 ->
    file E (resolve_path f (transclude_base base tb)) = Some content ->
    process_includes E (B "<<{" ++ f ++ B "}") base tb = Done (B "<!--APEX_RAW_INCLUDE:" ++ resolve_path f (transclude_base base tb) ++ B "-->").
Proof.
  split; [|intros E f content base tb; exact (raw_start E 10 f content base tb)].
  intros H. destruct (H (one_file (B "<b>")) (B "f") (B "<b>") None None) as (a & b & K).
  - split; [discriminate|cbn; lia].
  - cbn. intuition discriminate.
  - cbn. intuition discriminate.
  - reflexivity.
  - cbn [B list_ascii_of_string app quiet]. repeat split; try discriminate; intros [Z Y]; discriminate.
  - assert (Q : process_includes (one_file (B "<b>")) (B "<<{" ++ B "f" ++ B "}") None None = Done (B "<!--APEX_RAW_INCLUDE:f-->")) by (vm_compute; reflexivity).
    rewrite Q in K. injection K as K. assert (N : ~ In "b"%char (B "<!--APEX_RAW_INCLUDE:f-->")) by (vm_compute; intuition discriminate).
    change (B "<!--APEX_RAW_INCLUDE:f-->" = a ++ B "<b>" ++ b) in K. rewrite K in N. apply N. rewrite !in_app_iff. right. left. right. left. reflexivity.
Qed.
Print Assumptions C165_refuted.
Example C165_case : process_includes (disk [(B "d/a.html", B "<b>x</b>")]) (B "<<{a.html}") (Some (B "d")) None = Done (B "<!--APEX_RAW_INCLUDE:d/a.html-->").
Proof. vm_compute. reflexivity. Qed.

(** * C166: metadata at the top of an included file is ignored *)
Definition header (k v : str) : str := k ++ B ": " ++ v ++ [NL; NL].
Definition Header_full : Prop := forall E f k v body base tb, short f -> ~ In BT f -> ~ In "]"%char f ->
  Forall (fun c => isalpha c = true) k -> k <> [] -> Forall (fun c => isalpha c = true) v ->
  file E (resolve_path f (transclude_base base tb)) = Some (header k v ++ body) -> detect (resolve_path f (transclude_base base tb)) = Markdown ->
  quiet true body -> no_even_fence body -> length (header k v ++ body) < 2 ^ 20 -> process_includes E (B "<<[" ++ f ++ B "]") base tb = Done body.
(** It is copied into the document like any text. *)
Theorem C166_refuted : ~ Header_full /\
  forall E f content base tb, short f -> ~ In BT f -> ~ In "]"%char f ->
    file E (resolve_path f (transclude_base base tb)) = Some content -> detect (resolve_path f (transclude_base base tb)) = Markdown ->
    quiet true content -> no_even_fence content -> length content < 2 ^ 20 -> process_includes E (B "<<[" ++ f ++ B "]") base tb = Done content.
Proof.
  split.
  - intros H. specialize (H (disk [(B "a.md", header (B "title") (B "x") ++ B "y")]) (B "a.md") (B "title") (B "x") (B "y") None None).
    assert (K : process_includes (disk [(B "a.md", header (B "title") (B "x") ++ B "y")]) (B "<<[" ++ B "a.md" ++ B "]") None None = Done (header (B "title") (B "x") ++ B "y"))
      by (vm_compute; reflexivity).
    rewrite K in H. enough (A : Done (header (B "title") (B "x") ++ B "y") = Done (B "y")) by discriminate A. apply H; clear H K.
    + split; [discriminate|cbn; lia].
    + cbn. intuition discriminate.
    + cbn. intuition discriminate.
    + repeat constructor.
    + discriminate.
    + repeat constructor.
    + reflexivity.
    + reflexivity.
    + cbn [B list_ascii_of_string app quiet]. repeat split; try discriminate; intros [Z Y]; discriminate.
    + apply fence_free. cbn. intuition discriminate.
    + pose proof pow20. unfold header. cbn [length B list_ascii_of_string app]. lia.
  - intros E f content base tb Fs Ft Fb Hf D Qc Nc L. apply (marked_text E 10 f content base tb content Fs Ft Fb Hf); [congruence|congruence|exact L|].
    apply process_quiet; assumption.
Qed.
Print Assumptions C166_refuted.
Example C166_case : process_includes (disk [(B "a.md", header (B "title") (B "x") ++ B "y")]) (B "<<[a.md]") None None = Done (B "title: x" ++ [NL; NL] ++ B "y").
Proof. vm_compute. reflexivity. Qed.
