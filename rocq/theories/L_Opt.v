(** Lemmas about the options. *)
From Verif Require Import Base BaseL M_Meta M_Opt S_Opt.

(** ** Members and assignments *)

Definition all_fields : list field :=
  [Mode; EnablePlugins; EnableTables; EnableFootnotes; EnableDefinitionLists;
   EnableSmartTypography; EnableMath; EnableCriticMarkup; EnableWikiLinks; EnableTaskLists;
   EnableAttributes; EnableCallouts; EnableMarkedExtensions; EnableDivs; EnableSpans;
   CriticMode; StripMetadata; EnableMetadataVariables; EnableMetadataTransforms;
   EnableFileIncludes; MaxIncludeDepth; BaseDirectory; OutputFormat; Unsafe; ValidateUtf8;
   GithubPreLang; Standalone; Pretty; StylesheetPaths; StylesheetCount; DocumentTitle;
   ThemeName; TerminalWidth; Hardbreaks; Nobreaks; GenerateHeaderIds; HeaderAnchors; IdFormat;
   RelaxedTables; CaptionPosition; PerCellAlignment; AllowMixedListMarkers; AllowAlphaLists;
   EnableSupSub; EnableStrikethrough; EnableAutolink; ObfuscateEmails; EmbedImages;
   EnableImageCaptions; TitleCaptionsOnly; EnableCitations; BibliographyFiles; CslFile;
   SuppressBibliography; LinkCitations; ShowTooltips; Nocite; EnableIndices;
   EnableMmarkIndexSyntax; EnableTextindexSyntax; EnableLeanpubIndexSyntax; SuppressIndex;
   GroupIndexByLetter; WikilinkSpace; WikilinkExtension; WikilinkSanitize; ScriptTags;
   EmbedStylesheet; EnableAria; EnableEmojiAutocorrect; CodeHighlighter; CodeLineNumbers;
   HighlightLanguageOnly; EnableWidont; CodeIsPoetry; EnableMarkdownInHtml; RandomFootnoteIds;
   EnableHashtags; StyleHashtags; ProofreaderMode; HrPageBreak; TitleFromH1;
   PageBreakBeforeFootnotes; InputFilePath; AstFilterCommands; AstFilterCount; AstFilterStrict].

Lemma all_pos f : nth (N.to_nat (pos f)) all_fields Mode = f.
Proof. destruct f; reflexivity. Qed.
Lemma all_in f : In f all_fields.
Proof.
  rewrite <- (all_pos f). apply nth_In.
  destruct f; vm_compute; lia.
Qed.
Lemma same_eq f g : same f g = true <-> f = g.
Proof.
  unfold same. rewrite N.eqb_eq. split; [|congruence].
  intro E. rewrite <- (all_pos f), <- (all_pos g), E. reflexivity.
Qed.
Lemma same_refl f : same f f = true.
Proof. apply same_eq. reflexivity. Qed.
Lemma same_ne f g : f <> g -> same f g = false.
Proof. intro H. destruct (same f g) eqn:E; auto. apply same_eq in E. congruence. Qed.
Definition field_dec (f g : field) : {f = g} + {f <> g}.
Proof.
  destruct (same f g) eqn:E; [left; apply same_eq; exact E|].
  right. intro H. subst. rewrite same_refl in E. discriminate.
Defined.

Lemma set_at f v o : set (f, v) o f = v.
Proof. unfold set. cbn [fst snd]. rewrite same_refl. reflexivity. Qed.
Lemma set_other f g v o : g <> f -> set (f, v) o g = o g.
Proof. intro H. unfold set. cbn [fst]. rewrite same_ne; auto. Qed.

(** The last assignment to an option. *)
Fixpoint last_of (f : field) (l : list (field * val)) : option val :=
  match l with
  | [] => None
  | (g, v) :: l' => match last_of f l' with
                    | Some x => Some x
                    | None => if same f g then Some v else None
                    end
  end.
Definition pick_or (x : option val) (d : val) : val := match x with Some v => v | None => d end.
Lemma set_all_at l : forall o f, set_all l o f = pick_or (last_of f l) (o f).
Proof.
  induction l as [|[g v] l IH]; intros o f; [reflexivity|].
  cbn [set_all last_of]. rewrite IH. destruct (last_of f l) as [x|]; [reflexivity|].
  unfold set. cbn [fst snd pick_or]. destruct (same f g); reflexivity.
Qed.

(** ** Modes *)
Lemma for_mode_in m f : for_mode (number m) f = in_mode m default f.
Proof. destruct m; destruct f; reflexivity. Qed.

Lemma for_mode_other m f : (m < 0 \/ 4 < m)%Z ->
  for_mode m f = match f with Mode => Vn m | _ => default f end.
Proof.
  intro H. unfold for_mode.
  assert (E : match m with 0 => commonmark_case | 1 => gfm_case | 2 => mmd_case
                         | 3 => kramdown_case | 4 => unified_case | _ => [] end%Z = []).
  { destruct m as [|p|p]; [lia| |reflexivity].
    destruct p as [[[p|p|]|[p|p|]|]|[[p|p|]|[p|p|]|]|]; try reflexivity; lia. }
  rewrite E. cbn [set_all]. destruct f; reflexivity.
Qed.

(** ** Comparisons *)
Lemma seq_refl s : seq_ s s = true.
Proof. apply seq_eq. reflexivity. Qed.
Lemma casecmp_eq a b : casecmp a b = true <-> lower a = lower b.
Proof.
  unfold casecmp, lower. split.
  - apply seq_eq.
  - intros ->. apply seq_refl.
Qed.
Lemma mem_in s l : mem s l = true <-> In s l.
Proof. unfold mem. destruct (in_dec _ s l); split; auto; discriminate. Qed.
Lemma mem_one s t : mem s [t] = seq_ s t.
Proof.
  destruct (seq_ s t) eqn:E.
  - apply seq_eq in E. subst. apply mem_in. now left.
  - destruct (mem s [t]) eqn:M; auto. apply mem_in in M as [M|[]]. subst.
    rewrite seq_refl in E. discriminate.
Qed.
Lemma mem_cons s t l : mem s (t :: l) = seq_ s t || mem s l.
Proof.
  destruct (mem s (t :: l)) eqn:E; symmetry.
  - apply mem_in in E as [E|E].
    + subst. rewrite seq_refl. reflexivity.
    + apply mem_in in E. rewrite E. apply orb_true_r.
  - apply orb_false_iff. split.
    + destruct (seq_ s t) eqn:Q; auto. apply seq_eq in Q. subst.
      assert (mem t (t :: l) = true) by (apply mem_in; now left). congruence.
    + destruct (mem s l) eqn:Q; auto. apply mem_in in Q.
      assert (mem s (t :: l) = true) by (apply mem_in; now right). congruence.
Qed.
Lemma mem_nil s : mem s [] = false.
Proof. reflexivity. Qed.
Lemma one_of_mem s l : one_of s l = mem s l.
Proof.
  induction l as [|t l IH]; [reflexivity|]. cbn [one_of]. rewrite IH, mem_cons. reflexivity.
Qed.

Lemma truth_words v : truth v =
  if is_true_value v then Some true else if is_false_value v then Some false else None.
Proof.
  unfold truth, is_true_value, is_false_value, names. cbn [map].
  rewrite !mem_cons, !mem_nil, !orb_false_r, <- !orb_assoc. reflexivity.
Qed.

Lemma word_spec table v x : word table v = Some x ->
  exists n, In (n, x) table /\ v = B n.
Proof.
  unfold word. destruct (find _ table) as [[n y]|] eqn:E; [|discriminate].
  cbn. intros [= ->]. apply find_some in E as [I M]. exists n. split; auto.
  cbn [fst] in M. apply mem_in in M as [M|[]]. congruence.
Qed.

(** ** Metadata *)

(** Which effect the tables give to a key (already in lower case). *)
Definition says_of (f : field) (name : str) : option effect :=
  option_map snd (find (fun row => mem name (names (fst row))) (key_rows f)).
Lemma meta_says_of f k v : meta_says f k v =
  match says_of f (lower k) with Some e => means e v | None => None end.
Proof.
  unfold meta_says, says_of. destruct (find _ _) as [[r e]|]; reflexivity.
Qed.

Definition special : list (list ascii) :=
  names ["terminal.theme"; "terminal_theme"; "wikilink-sanitize"; "wikilink_sanitize"; "indices"]%string.
Definition regularb (f : field) : bool :=
  negb (same f ThemeName || same f WikilinkSanitize || same f EnableLeanpubIndexSyntax).
Lemma regular_b f : regular f -> regularb f = true.
Proof.
  intros (A & B & C). unfold regularb. rewrite !same_ne; auto.
Qed.

Definition val_eq (a b : option val) : bool :=
  match a, b with
  | None, None => true
  | Some (Vb x), Some (Vb y) => Bool.eqb x y
  | Some (Vn x), Some (Vn y) => Z.eqb x y
  | Some (Vs None), Some (Vs None) => true
  | Some (Vl None), Some (Vl None) => true
  | _, _ => false
  end.
Lemma val_eq_ok a b : val_eq a b = true -> a = b.
Proof.
  destruct a as [[x|x|[x|]|[x|]]|], b as [[y|y|[y|]|[y|]]|]; cbn; try discriminate; auto.
  - intro H. apply eqb_prop in H. congruence.
  - intro H. apply Z.eqb_eq in H. congruence.
Qed.

Definition switch_ok (ons offs : list (field * val)) (name : str) (f : field) : bool :=
  (negb (regularb f) && mem name special) ||
  match says_of f name with
  | None => val_eq (last_of f ons) None && val_eq (last_of f offs) None
  | Some OnOff => val_eq (last_of f ons) (Some on) && val_eq (last_of f offs) (Some off)
  | Some (Implies x) => val_eq (last_of f ons) (Some x) && val_eq (last_of f offs) None
  | Some (Reads _) => false
  end.
Definition row_ok (row : list (list ascii) * keyact) : bool :=
  match snd row with
  | Switch ons offs => forallb (fun n => forallb (switch_ok ons offs n) all_fields) (fst row)
  | Act _ => true
  end.
Lemma rows_ok : forallb row_ok keys = true.
Proof. vm_compute. reflexivity. Qed.

Lemma switch_meaning ons offs k v o f :
  switch_ok ons offs (lower k) f = true -> regular f \/ ~ In (lower k) special ->
  set_all (run_key (Switch ons offs) v o) o f = pick_or (meta_says f k v) (o f).
Proof.
  intros H R. rewrite set_all_at, meta_says_of. cbn [run_key]. unfold switch_ok in H.
  assert (H' : match says_of f (lower k) with
    | None => val_eq (last_of f ons) None && val_eq (last_of f offs) None
    | Some OnOff => val_eq (last_of f ons) (Some on) && val_eq (last_of f offs) (Some off)
    | Some (Implies x) => val_eq (last_of f ons) (Some x) && val_eq (last_of f offs) None
    | Some (Reads _) => false end = true).
  { apply orb_true_iff in H as [H|H]; auto. apply andb_true_iff in H as [H1 H2].
    destruct R as [R|R].
    - apply regular_b in R. rewrite R in H1. discriminate.
    - apply mem_in in H2. contradiction. }
  clear H. destruct (says_of f (lower k)) as [[|x|r]|]; try discriminate;
    apply andb_true_iff in H' as [A C]; apply val_eq_ok in A, C;
    unfold means; rewrite ?truth_words;
    destruct (is_true_value v); cbn [option_map pick_or]; rewrite ?A, ?C; auto;
    destruct (is_false_value v); cbn [option_map pick_or last_of]; rewrite ?A, ?C; auto.
Qed.

Lemma case_of_in k l : Forall (fun n => lower n = n) l -> case_of k l = true -> In (lower k) l.
Proof.
  induction l as [|n l IH]; cbn; [discriminate|]. intros F H. inversion F; subst.
  apply orb_true_iff in H as [H|H].
  - left. apply casecmp_eq in H. congruence.
  - right. auto.
Qed.
Lemma case_of_not k l : Forall (fun n => lower n = n) l -> case_of k l = false -> ~ In (lower k) l.
Proof.
  induction l as [|n l IH]; cbn; [auto|]. intros F H. inversion F; subst.
  apply orb_false_iff in H as [Q1 Q2]. intros [E|E]; [|apply IH; auto].
  assert (casecmp k n = true) by (apply casecmp_eq; congruence). congruence.
Qed.
Definition lowb (n : str) : bool := seq_ (lower n) n.
Lemma keys_lower : forallb (fun row => forallb lowb (fst row)) keys = true.
Proof. vm_compute. reflexivity. Qed.
Lemma keys_low names a : In (names, a) keys -> Forall (fun n => lower n = n) names.
Proof.
  intro I. pose proof keys_lower as K. rewrite forallb_forall in K. specialize (K _ I).
  cbn [fst] in K. rewrite forallb_forall in K. apply Forall_forall. intros n N.
  apply seq_eq, K, N.
Qed.

Lemma find_key_some {A} k (table : list (list (list ascii) * A)) a : find_key k table = Some a ->
  exists names, In (names, a) table /\ case_of k names = true.
Proof.
  induction table as [|[ns b] t IH]; cbn; [discriminate|].
  destruct (case_of k ns) eqn:E.
  - intros [= ->]. exists ns. auto.
  - intro H. destruct (IH H) as (m & I & C). exists m. auto.
Qed.
Lemma find_key_none {A} k (table : list (list (list ascii) * A)) : find_key k table = None ->
  forall names a, In (names, a) table -> case_of k names = false.
Proof.
  induction table as [|[ns b] t IH]; cbn; [intros _ ? ? []|].
  destruct (case_of k ns) eqn:E; [discriminate|].
  intros H n a [[= <- <-]|I]; eauto.
Qed.

(** Every key of the tables is a key of the chain. *)
Definition all_keys : list (list ascii) := flat_map fst keys.
Lemma tables_covered :
  forallb (fun f => forallb (fun row => forallb (fun n => mem (B n) all_keys) (fst row)) (key_rows f))
    all_fields = true.
Proof. vm_compute. reflexivity. Qed.
Lemma no_mode_rows :
  forallb (fun f => match says_of f (B "mode") with None => true | _ => false end) all_fields = true.
Proof. vm_compute. reflexivity. Qed.

Lemma says_none f n : ~ In n all_keys -> says_of f n = None.
Proof.
  intro H. unfold says_of. destruct (find _ (key_rows f)) as [[r e]|] eqn:E; [|reflexivity].
  exfalso. apply find_some in E as [I M]. apply mem_in in M. cbn [fst] in M.
  unfold names in M. apply in_map_iff in M as (q & Q & M).
  pose proof tables_covered as T. rewrite forallb_forall in T. specialize (T f (all_in f)).
  rewrite forallb_forall in T. specialize (T _ I). cbn [fst] in T.
  rewrite forallb_forall in T. specialize (T _ M). apply mem_in in T. congruence.
Qed.

(** The rows that read the value. *)
Lemma word_id v : word id_words v = option_map Vn (id_format_named v).
Proof.
  unfold word, id_words, id_format_named. cbn [find fst]. rewrite !mem_one.
  destruct (seq_ v (B "gfm")); [reflexivity|].
  destruct (seq_ v (B "mmd")); [reflexivity|].
  destruct (seq_ v (B "kramdown")); reflexivity.
Qed.
Lemma word_space v : word space_words v = option_map Vn (space_named v).
Proof.
  unfold word, space_words, space_named. cbn [find fst]. rewrite !mem_one.
  destruct (seq_ v (B "dash")); [reflexivity|].
  destruct (seq_ v (B "none")); [reflexivity|].
  destruct (seq_ v (B "underscore")); [reflexivity|].
  destruct (seq_ v (B "space")); reflexivity.
Qed.
Ltac bools v := repeat match goal with |- context [seq_ v ?b] => destruct (seq_ v b) end; try reflexivity.
Lemma word_tool v : word tool_words v = option_map (fun h => Vs (Some h)) (highlighter_named v).
Proof.
  unfold word, tool_words, highlighter_named. cbn [find fst one_of]. rewrite !mem_one.
  bools v.
Qed.
Lemma find_app {A} (p : A -> bool) l1 l2 :
  find p (l1 ++ l2) = match find p l1 with Some x => Some x | None => find p l2 end.
Proof.
  induction l1 as [|x l IH]; [reflexivity|]. cbn. destruct (p x); auto.
Qed.
Lemma tolower_idem c : tolower (tolower c) = tolower c.
Proof. destruct c as [[] [] [] [] [] [] [] []]; reflexivity. Qed.
Lemma lower_idem s : lower (lower s) = lower s.
Proof. unfold lower. rewrite map_map. apply map_ext, tolower_idem. Qed.
Lemma word_highlight v : word (tool_words ++ no_tool_words) (lower v) =
  match highlighter_named (lower v) with
  | Some h => Some (Vs (Some h))
  | None => if is_false_value (lower v) || seq_ (lower v) (B "none") then Some (Vs None) else None
  end.
Proof.
  unfold word at 1. rewrite find_app. pose proof (word_tool (lower v)) as W. unfold word in W.
  destruct (find _ tool_words) as [p|] eqn:E.
  - cbn in W. destruct (highlighter_named (lower v)); [exact W|discriminate].
  - destruct (highlighter_named (lower v)); [discriminate|].
    unfold is_false_value. change (map tolower (lower v)) with (lower (lower v)). rewrite lower_idem.
    unfold no_tool_words. cbn [find fst]. rewrite !mem_one. generalize (lower v). intro u. bools u.
Qed.

Definition act_ok (names : list (list ascii)) (g : str -> opts -> list (field * val)) : Prop :=
  forall k v o f, In (lower k) names -> regular f \/ ~ In (lower k) special ->
  set_all (g v o) o f = pick_or (meta_says f k v) (o f).
Ltac act_row :=
  let k := fresh "k" in let v := fresh "v" in let o := fresh "o" in let f := fresh "f" in
  let N := fresh "N" in let R := fresh "R" in
  intros k v o f N R; rewrite set_all_at, meta_says_of; cbn [In] in N;
  repeat match type of N with _ \/ _ => destruct N as [N|N] end; try contradiction N;
  rewrite <- N in R |- *; change (map tolower v) with (lower v);
  pose proof (word_id (lower v)) as W1; pose proof (word_space (lower v)) as W2;
  pose proof (word_highlight v) as W3; unfold B in W3; cbn [list_ascii_of_string] in W3;
  try match goal with
      | |- context [id_format_named (lower v)] => destruct (id_format_named (lower v))
      | |- context [space_named (lower v)] => destruct (space_named (lower v))
      | |- context [highlighter_named (lower v)] =>
          destruct (highlighter_named (lower v));
          [|match goal with |- context [is_false_value (lower v) || ?e] =>
              destruct (is_false_value (lower v) || e) end]
      | |- context [(0 <? atoi v)%Z] => destruct (0 <? atoi v)%Z eqn:?
      | |- context [o ThemeName] => destruct (o ThemeName) as [| |[[|]|]|]
      end;
  destruct f; try reflexivity;
  try (match goal with
       | |- context [says_of IdFormat ?n] =>
           change (says_of IdFormat n) with (Some (Reads (fun u => word id_words (lower u))))
       | |- context [says_of WikilinkSpace ?n] =>
           change (says_of WikilinkSpace n) with (Some (Reads (fun u => word space_words (lower u))))
       | |- context [says_of CodeHighlighter ?n] =>
           change (says_of CodeHighlighter n)
             with (Some (Reads (fun u => word (tool_words ++ no_tool_words) (lower u))))
       | |- context [says_of TerminalWidth ?n] =>
           change (says_of TerminalWidth n) with (Some (Reads positive))
       end; cbn [means]; unfold positive; rewrite ?W1, ?W2, ?W3;
       try match goal with Q : (0 <? atoi v)%Z = _ |- _ => rewrite Q end; reflexivity);
  try (exfalso; destruct R as [R|R]; [destruct R as (R1 & R2 & R3); congruence|apply R; vm_compute; tauto]).
Definition all_acts : Prop :=
  forall names g, In (names, Act g) keys -> act_ok names g.
Lemma acts : all_acts.
Proof.
  intros names g I. unfold keys in I. cbn [In] in I.
  repeat match type of I with
         | _ \/ _ => destruct I as [I|I]
         end; try contradiction I; try (unfold flag in I; discriminate I);
  injection I as <- <-; act_row.
Qed.

Lemma item_says k v o f : regular f \/ ~ In (lower k) special ->
  meta_item k v o f = pick_or (meta_says f k v) (o f).
Proof.
  intro R. unfold meta_item. destruct (casecmp k (B "mode")) eqn:M.
  - apply casecmp_eq in M. change (lower (B "mode")) with (B "mode") in M.
    rewrite meta_says_of, M. pose proof no_mode_rows as Q. rewrite forallb_forall in Q.
    specialize (Q f (all_in f)). destruct (says_of f (B "mode")); [discriminate|reflexivity].
  - destruct (find_key k keys) as [a|] eqn:F.
    + apply find_key_some in F as (ns & I & C).
      pose proof (case_of_in k ns (keys_low _ _ I) C) as N.
      destruct a as [ons offs|g]; [|exact (acts _ _ I k v o f N R)].
      apply switch_meaning; auto. pose proof rows_ok as Q. rewrite forallb_forall in Q.
      specialize (Q _ I). unfold row_ok in Q. cbn [fst snd] in Q. rewrite forallb_forall in Q.
      specialize (Q _ N). rewrite forallb_forall in Q. exact (Q f (all_in f)).
    + rewrite meta_says_of, says_none; [reflexivity|]. intro I. unfold all_keys in I.
      apply in_flat_map in I as ([ns a] & I & N). cbn [fst] in N.
      exact (case_of_not k ns (keys_low _ _ I) (find_key_none _ _ F _ _ I) N).
Qed.

Lemma item_pass_app a b o : item_pass (a ++ b) o = item_pass b (item_pass a o).
Proof. revert o. induction a as [|[k v] a IH]; intro o; [reflexivity|]. cbn. apply IH. Qed.

Lemma item_pass_silent f m : regular f -> silent f m -> forall o, item_pass m o f = o f.
Proof.
  intro R. induction m as [|[k v] m IH]; intros S o; [reflexivity|].
  cbn [item_pass]. rewrite IH, item_says; auto.
  - rewrite (S k v (or_introl eq_refl)). reflexivity.
  - intros k' v' I. apply S. now right.
Qed.

Lemma mode_word_named v : option_map number (mode_word v) = mode_named v.
Proof.
  unfold mode_word, mode_words, mode_named. cbn [find fst]. rewrite !mem_one. bools v.
Qed.
Lemma mode_pass_start m o f : mode_pass m o f = start m o f.
Proof.
  unfold start, asks_mode. induction m as [|[k v] m IH]; [reflexivity|].
  cbn [mode_pass find fst].
  assert (E : is_mode_key k = casecmp k (B "mode")).
  { unfold is_mode_key. change (names ["mode"%string]) with [B "mode"]. rewrite mem_one. reflexivity. }
  rewrite E. destruct (casecmp k (B "mode")); [|exact IH].
  change (map tolower v) with (lower v). rewrite <- mode_word_named.
  destruct (mode_word (lower v)) as [n|]; [apply for_mode_in|reflexivity].
Qed.

Lemma apply_last f m pre k v post x o : regular f ->
  m = pre ++ (k, v) :: post -> meta_says f k v = Some x -> silent f post ->
  apply_metadata m o f = x.
Proof.
  intros R -> S Q. unfold apply_metadata. rewrite item_pass_app. cbn [item_pass].
  rewrite item_pass_silent, item_says; auto. rewrite S. reflexivity.
Qed.
Lemma apply_silent f m o : regular f -> silent f m -> apply_metadata m o f = start m o f.
Proof.
  intros R S. unfold apply_metadata. rewrite item_pass_silent; auto. apply mode_pass_start.
Qed.

(** ** The three odd keys *)

Lemma casecmp_lower k n : casecmp (lower k) n = casecmp k n.
Proof. unfold casecmp. change (map tolower (lower k)) with (lower (lower k)). rewrite lower_idem. reflexivity. Qed.
Lemma case_of_lower k l : case_of (lower k) l = case_of k l.
Proof. induction l as [|n l IH]; [reflexivity|]. cbn. rewrite casecmp_lower, IH. reflexivity. Qed.
Lemma find_key_lower {A} k (t : list (list (list ascii) * A)) : find_key (lower k) t = find_key k t.
Proof. induction t as [|[ns a] t IH]; [reflexivity|]. cbn. rewrite case_of_lower, IH. reflexivity. Qed.

Lemma sanitize_item k v o : is_key sanitize_keys k ->
  meta_item k v o WikilinkSanitize = Vb (casecmp v (B "true") || seq_ v (B "1")).
Proof.
  intro N. unfold meta_item. rewrite <- casecmp_lower, <- find_key_lower.
  unfold is_key in N. destruct N as [N|[N|[]]]; rewrite <- N; reflexivity.
Qed.
Lemma sanitize_other k v o : ~ is_key sanitize_keys k ->
  meta_item k v o WikilinkSanitize = o WikilinkSanitize.
Proof.
  intro N. destruct (in_dec (list_eq_dec ascii_dec) (lower k) special) as [I|I].
  - unfold special in I. cbn [names map In] in I. unfold meta_item.
    rewrite <- casecmp_lower, <- find_key_lower.
    destruct I as [I|[I|[I|[I|[I|[]]]]]]; rewrite <- I.
    + cbn. destruct (o ThemeName) as [| |[[|]|]|]; reflexivity.
    + cbn. destruct (o ThemeName) as [| |[[|]|]|]; reflexivity.
    + exfalso. apply N. left. exact I.
    + exfalso. apply N. right. left. exact I.
    + change (casecmp (B "indices") (B "mode")) with false. cbv iota.
      change (find_key (B "indices") keys) with (Some (Switch [(EnableIndices, on); (EnableMmarkIndexSyntax, on); (EnableTextindexSyntax, on)] [(EnableIndices, off)])).
      cbn [run_key]. destruct (is_true_value v); [reflexivity|]. destruct (is_false_value v); reflexivity.
  - rewrite item_says; auto. rewrite meta_says_of.
    assert (E : says_of WikilinkSanitize (lower k) = None).
    { unfold says_of. cbn [key_rows find fst].
      destruct (mem (lower k) (names sanitize_keys)) eqn:M.
      - apply mem_in in M. contradiction.
      - unfold sanitize_keys in M. rewrite M. reflexivity. }
    rewrite E. reflexivity.
Qed.
Lemma sanitize_pass m : (forall k v, In (k, v) m -> ~ is_key sanitize_keys k) ->
  forall o, item_pass m o WikilinkSanitize = o WikilinkSanitize.
Proof.
  induction m as [|[k v] m IH]; intros S o; [reflexivity|]. cbn [item_pass].
  rewrite IH, sanitize_other; auto.
  - exact (S k v (or_introl eq_refl)).
  - intros k' v' I. apply (S k' v'). now right.
Qed.
Lemma apply_sanitize m pre k v post o : m = pre ++ (k, v) :: post -> is_key sanitize_keys k ->
  (forall k v, In (k, v) post -> ~ is_key sanitize_keys k) ->
  apply_metadata m o WikilinkSanitize = Vb (casecmp v (B "true") || seq_ v (B "1")).
Proof.
  intros -> K S. unfold apply_metadata. rewrite item_pass_app. cbn [item_pass].
  rewrite sanitize_pass; auto. apply sanitize_item, K.
Qed.

Lemma theme_item k v o : is_key theme_keys k ->
  meta_item k v o ThemeName = if filled (o ThemeName) then o ThemeName else Vs (Some v).
Proof.
  intro N. unfold meta_item. rewrite <- casecmp_lower, <- find_key_lower.
  unfold is_key in N. destruct N as [N|[N|[]]]; rewrite <- N; cbn;
    destruct (o ThemeName) as [| |[[|]|]|] eqn:E; cbn; rewrite ?E; reflexivity.
Qed.
Lemma theme_other k v o : ~ is_key theme_keys k -> meta_item k v o ThemeName = o ThemeName.
Proof.
  intro N. destruct (in_dec (list_eq_dec ascii_dec) (lower k) special) as [I|I].
  - unfold special in I. cbn [names map In] in I. unfold meta_item.
    rewrite <- casecmp_lower, <- find_key_lower.
    destruct I as [I|[I|[I|[I|[I|[]]]]]]; rewrite <- I.
    + exfalso. apply N. left. exact I.
    + exfalso. apply N. right. left. exact I.
    + reflexivity.
    + reflexivity.
    + change (casecmp (B "indices") (B "mode")) with false. cbv iota.
      change (find_key (B "indices") keys) with (Some (Switch [(EnableIndices, on); (EnableMmarkIndexSyntax, on); (EnableTextindexSyntax, on)] [(EnableIndices, off)])).
      cbn [run_key]. destruct (is_true_value v); [reflexivity|]. destruct (is_false_value v); reflexivity.
  - rewrite item_says; auto.
Qed.
Lemma theme_kept m : forall o, filled (o ThemeName) = true -> item_pass m o ThemeName = o ThemeName.
Proof.
  induction m as [|[k v] m IH]; intros o F; [reflexivity|]. cbn [item_pass].
  assert (E : meta_item k v o ThemeName = o ThemeName).
  { destruct (in_dec (list_eq_dec ascii_dec) (lower k) (names theme_keys)) as [I|I].
    - rewrite theme_item, F; auto.
    - apply theme_other. exact I. }
  rewrite IH; rewrite E; auto.
Qed.
Lemma theme_skip m : (forall k v, In (k, v) m -> ~ is_key theme_keys k) ->
  forall o, item_pass m o ThemeName = o ThemeName.
Proof.
  induction m as [|[k v] m IH]; intros S o; [reflexivity|]. cbn [item_pass].
  rewrite IH, theme_other; auto.
  - exact (S k v (or_introl eq_refl)).
  - intros k' v' I. apply (S k' v'). now right.
Qed.
Lemma apply_theme_kept m o : filled (start m o ThemeName) = true ->
  apply_metadata m o ThemeName = start m o ThemeName.
Proof.
  intro F. unfold apply_metadata. rewrite theme_kept; rewrite mode_pass_start; auto.
Qed.
Lemma apply_theme_first m pre k c v post o : filled (start m o ThemeName) = false ->
  m = pre ++ (k, c :: v) :: post -> is_key theme_keys k ->
  (forall k v, In (k, v) pre -> ~ is_key theme_keys k) ->
  apply_metadata m o ThemeName = Vs (Some (c :: v)).
Proof.
  intros F E K S. unfold apply_metadata. rewrite E at 1. rewrite item_pass_app. cbn [item_pass].
  assert (T : meta_item k (c :: v) (item_pass pre (mode_pass m o)) ThemeName = Vs (Some (c :: v))).
  { rewrite theme_item, theme_skip, mode_pass_start, F; auto. }
  rewrite theme_kept; rewrite T; reflexivity.
Qed.

(** ** Arguments *)

Definition flag_of (f : field) (n : str) : option source :=
  option_map snd (find (fun row => mem n (names (fst row))) (flag_rows f)).
Lemma flag_says_of f n v : flag_says f (Flag n v) =
  match flag_of f n with
  | Some (Const x) => Some x
  | Some (From r) => match v with Some s => r s | None => None end
  | None => None
  end.
Proof. unfold flag_says, flag_of. destruct (find _ _) as [[r e]|]; reflexivity. Qed.

Definition arg_ok (row : list (list ascii) * argact) : bool :=
  forallb (fun n => dash n && negb (starts (B "--meta") n && negb (mem n value_flags)) &&
    match snd row with
    | Stop => true
    | Reset => takes_value n && mem n (names ["-m"; "--mode"]%string) &&
               forallb (fun f => match flag_of f n with None => true | _ => false end) all_fields
    | Set0 l _ => negb (takes_value n) &&
        forallb (fun f => match flag_of f n with
                          | Some (Const x) => val_eq (last_of f l) (Some x)
                          | Some (From _) => false
                          | None => val_eq (last_of f l) None
                          end) all_fields
    | Set1 _ => takes_value n && negb (mem n (names ["-m"; "--mode"]%string))
    end) (fst row).

Lemma args_ok known : forallb arg_ok (arguments known) = true.
Proof. vm_compute. reflexivity. Qed.
Lemma arg_row known ns a n : In (ns, a) (arguments known) -> In n ns ->
  dash n = true /\ (starts (B "--meta") n && negb (mem n value_flags)) = false /\
  match a with
  | Stop => True
  | Reset => takes_value n = true /\ mem n (names ["-m"; "--mode"]%string) = true /\
             forall f v, flag_says f (Flag n v) = None
  | Set0 l _ => takes_value n = false /\ forall f, last_of f l = flag_says f (Flag n None)
  | Set1 _ => takes_value n = true /\ mem n (names ["-m"; "--mode"]%string) = false
  end.
Proof.
  intros I N. pose proof (args_ok known) as Q. rewrite forallb_forall in Q. specialize (Q _ I).
  unfold arg_ok in Q. cbn [fst snd] in Q. rewrite forallb_forall in Q. specialize (Q _ N).
  apply andb_true_iff in Q as [Q Q3]. apply andb_true_iff in Q as [Q1 Q2].
  apply negb_true_iff in Q2. repeat split; auto. destruct a as [| |l x|g]; auto.
  - apply andb_true_iff in Q3 as [Q3 F]. apply andb_true_iff in Q3 as [T M].
    repeat split; auto. intros f v. rewrite forallb_forall in F. specialize (F f (all_in f)).
    rewrite flag_says_of. destruct (flag_of f n); [discriminate|reflexivity].
  - apply andb_true_iff in Q3 as [T F]. apply negb_true_iff in T. split; auto.
    intro f. rewrite forallb_forall in F. specialize (F f (all_in f)).
    rewrite flag_says_of. destruct (flag_of f n) as [[x'|r]|]; try discriminate; apply val_eq_ok, F.
  - apply andb_true_iff in Q3 as [T M]. apply negb_true_iff in M. auto.
Qed.

Lemma find_arg_some {A} k (table : list (list (list ascii) * A)) a : find_arg k table = Some a ->
  exists ns, In (ns, a) table /\ In k ns.
Proof.
  induction table as [|[ns b] t IH]; cbn; [discriminate|].
  destruct (one_of k ns) eqn:E.
  - intros [= ->]. exists ns. split; auto. rewrite one_of_mem in E. apply mem_in, E.
  - intro H. destruct (IH H) as (m & I & C). exists m. auto.
Qed.
Lemma find_arg_none {A} k (table : list (list (list ascii) * A)) : find_arg k table = None ->
  ~ In k (flat_map fst table).
Proof.
  induction table as [|[ns b] t IH]; cbn; [auto|].
  destruct (one_of k ns) eqn:E; [discriminate|]. intros H I. apply in_app_or in I as [I|I].
  - rewrite one_of_mem in E. apply mem_in in I. congruence.
  - exact (IH H I).
Qed.
Definition arg_names : list (list ascii) := flat_map fst (arguments (fun _ => None)).
Lemma arg_names_eq known : flat_map fst (arguments known) = arg_names.
Proof. reflexivity. Qed.
Lemma flags_covered :
  forallb (fun f => forallb (fun row => forallb (fun n => mem (B n) arg_names) (fst row)) (flag_rows f))
    all_fields = true.
Proof. vm_compute. reflexivity. Qed.
Lemma values_covered : forallb (fun n => mem n arg_names) value_flags = true.
Proof. vm_compute. reflexivity. Qed.
Lemma unknown_says known a f v : find_arg a (arguments known) = None ->
  flag_says f (Flag a v) = None.
Proof.
  intro H. apply find_arg_none in H. rewrite arg_names_eq in H.
  rewrite flag_says_of. unfold flag_of.
  destruct (find _ (flag_rows f)) as [[r e]|] eqn:E; [|reflexivity].
  exfalso. apply find_some in E as [I M]. apply mem_in in M. cbn [fst] in M.
  unfold names in M. apply in_map_iff in M as (q & Q & M).
  pose proof flags_covered as T. rewrite forallb_forall in T. specialize (T f (all_in f)).
  rewrite forallb_forall in T. specialize (T _ I). cbn [fst] in T.
  rewrite forallb_forall in T. specialize (T _ M). apply mem_in in T. congruence.
Qed.
Lemma unknown_value known a : find_arg a (arguments known) = None -> mem a value_flags = false.
Proof.
  intro H. apply find_arg_none in H. rewrite arg_names_eq in H.
  destruct (mem a value_flags) eqn:M; [|reflexivity]. exfalso. apply H. apply mem_in in M.
  pose proof values_covered as T. rewrite forallb_forall in T. apply mem_in, T, M.
Qed.
Lemma value_not_mode a : mem a value_flags = false -> mem a (names ["-m"; "--mode"]%string) = false.
Proof.
  intro H. destruct (mem a (names _)) eqn:M; [|reflexivity]. apply mem_in in M.
  assert (mem a value_flags = true); [|congruence]. apply mem_in.
  destruct M as [<-|[<-|[]]]; unfold value_flags; cbn; tauto.
Qed.

(** The flags with a value. *)
Definition format_words : list (string * val) :=
  [("html", Vn 0); ("json", Vn 1); ("json-filtered", Vn 2); ("ast-json", Vn 2);
   ("ast", Vn 2); ("markdown", Vn 3); ("md", Vn 3); ("mmd", Vn 4);
   ("commonmark", Vn 5); ("cmark", Vn 5); ("kramdown", Vn 6); ("gfm", Vn 7);
   ("terminal", Vn 8); ("cli", Vn 8); ("terminal256", Vn 9); ("man", Vn 10);
   ("man-html", Vn 11)]%string.
Lemma word_format v : word format_words v = option_map Vn (format_named v).
Proof.
  unfold word, format_words, format_named. cbn [find fst one_of]. rewrite !mem_one.
  rewrite !orb_false_r.
  repeat match goal with
         | |- context [if seq_ v ?b || _ then _ else _] => destruct (seq_ v b); [reflexivity|]
         | |- context [if seq_ v ?b then _ else _] => destruct (seq_ v b); [reflexivity|]
         | |- context [false || _] => cbn [orb]
         end.
  reflexivity.
Qed.
Definition caption_words : list (string * val) := [("above", Vn 0); ("below", Vn 1)]%string.
Lemma word_caption v : word caption_words v =
  option_map Vn (if seq_ v (B "above") then Some 0%Z else if seq_ v (B "below") then Some 1%Z else None).
Proof. unfold word, caption_words. cbn [find fst]. rewrite !mem_one. bools v. Qed.

Definition set1_ok (ns : list (list ascii)) (g : str -> option (list (field * val) * (extra -> extra))) : Prop :=
  forall n v l x f, In n ns -> g v = Some (l, x) -> last_of f l = flag_says f (Flag n (Some v)).
Lemma set1_rows known ns g : In (ns, Set1 g) (arguments known) -> set1_ok ns g.
Proof.
  intros I. unfold arguments in I. cbn [In] in I.
  repeat match type of I with
         | _ \/ _ => destruct I as [I|I]
         end; try contradiction I; try discriminate I;
  injection I as <- <-; intros n v l x f N G; rewrite flag_says_of; cbn [In] in N;
  repeat match type of N with _ \/ _ => destruct N as [N|N] end; try contradiction N;
  rewrite <- N;
  pose proof (word_id v) as W1; pose proof (word_space v) as W2; pose proof (word_tool v) as W3;
  pose proof (word_format v) as W4; pose proof (word_caption v) as W5.
  all: try match type of G with
           | match ?e with Some _ => _ | None => None end = _ =>
               destruct e eqn:E; [|discriminate G]
           end.
  all: injection G as <- <-.
  all: destruct f; try reflexivity.
  all: match goal with
       | |- context [flag_of OutputFormat ?n] =>
           change (flag_of OutputFormat n) with (Some (From (word format_words)));
           first [exact (eq_sym W4) | exact (eq_sym (eq_trans W4 (f_equal (option_map Vn) E)))]
       | |- context [flag_of IdFormat ?n] =>
           change (flag_of IdFormat n) with (Some (From (word id_words)));
           first [exact (eq_sym W1) | exact (eq_sym (eq_trans W1 (f_equal (option_map Vn) E)))]
       | |- context [flag_of WikilinkSpace ?n] =>
           change (flag_of WikilinkSpace n) with (Some (From (word space_words)));
           first [exact (eq_sym W2) | exact (eq_sym (eq_trans W2 (f_equal (option_map Vn) E)))]
       | |- context [flag_of CodeHighlighter ?n] =>
           change (flag_of CodeHighlighter n) with (Some (From (word tool_words)));
           first [exact (eq_sym W3) | exact (eq_sym (eq_trans W3 (f_equal (option_map (fun h => Vs (Some h))) E)))]
       | |- context [flag_of CaptionPosition ?n] =>
           change (flag_of CaptionPosition n) with (Some (From (word caption_words)));
           first [exact (eq_sym W5) | exact (eq_sym (eq_trans W5 (f_equal (option_map Vn) E)))]
       end.
Qed.

(** The plugin switch. *)
Definition switch_or (t : tok) (p : option bool) : option bool :=
  match plugin_switch t with Some b => Some b | None => p end.
Lemma set0_plugins known ns l g n x : In (ns, Set0 l g) (arguments known) -> In n ns ->
  find_arg n (arguments known) = Some (Set0 l g) ->
  x_plugins (g x) = switch_or (Flag n None) (x_plugins x).
Proof.
  intros I N F. unfold arguments in I. cbn [In] in I.
  repeat match type of I with
         | _ \/ _ => destruct I as [I|I]
         end; try contradiction I; try discriminate I;
  injection I as <- <- <-; cbn [In] in N;
  repeat match type of N with _ \/ _ => destruct N as [N|N] end; try contradiction N;
  rewrite <- N; try reflexivity.
  rewrite <- N in F. exfalso. vm_compute in F.
  apply Some_inj in F. injection F as F. apply (f_equal (fun h => x_plugins (h extra0))) in F.
  discriminate F.
Qed.
Lemma set1_plugins known ns g n v l h x : In (ns, Set1 g) (arguments known) -> In n ns ->
  g v = Some (l, h) -> x_plugins (h x) = switch_or (Flag n (Some v)) (x_plugins x).
Proof.
  intros I N G. unfold switch_or, plugin_switch. unfold arguments in I. cbn [In] in I.
  repeat match type of I with
         | _ \/ _ => destruct I as [I|I]
         end; try contradiction I; try discriminate I;
  injection I as <- <-; clear N;
  try match type of G with
      | match ?e with Some _ => _ | None => None end = _ => destruct e; [|discriminate G]
      end; injection G as <- <-; reflexivity.
Qed.
Lemma positional_plugins a x : x_plugins (positional a x) = x_plugins x.
Proof. unfold positional. destruct (x_combine x); [reflexivity|]. destruct (x_merge x); reflexivity. Qed.
Lemma add_meta_plugins v x x' : add_meta v x = Some x' -> x_plugins x' = x_plugins x.
Proof. unfold add_meta. destruct (parse_command v); [|discriminate]. intros [= <-]. reflexivity. Qed.

(** ** Reading a whole argument list *)
Definition step (f : field) (cur : val) (t : tok) : val :=
  match tok_mode t with
  | Some m => in_mode m default f
  | None => pick_or (flag_says f t) cur
  end.
Definition settle (f : field) (ts : list tok) (cur : val) : val := fold_left (step f) ts cur.
Definition psettle (ts : list tok) (p : option bool) : option bool :=
  fold_left (fun p t => switch_or t p) ts p.

Lemma no_switch a : mem a (names ["--plugins"; "--no-plugins"]%string) = false ->
  plugin_switch (Flag a None) = None.
Proof.
  unfold names. cbn [map]. rewrite !mem_cons, mem_nil, orb_false_r. intro H.
  apply orb_false_iff in H as [H1 H2]. unfold plugin_switch, names. cbn [map].
  rewrite !mem_one, H1, H2. reflexivity.
Qed.
Lemma unknown_switch known a : find_arg a (arguments known) = None ->
  plugin_switch (Flag a None) = None.
Proof.
  intro H. apply no_switch. apply find_arg_none in H. rewrite arg_names_eq in H.
  destruct (mem a _) eqn:M; [|reflexivity]. exfalso. apply H. apply mem_in in M.
  apply mem_in. destruct M as [<-|[<-|[]]]; vm_compute; reflexivity.
Qed.

Lemma starts_meta_dash a : starts (B "--meta") a = true -> dash a = true.
Proof. intro H. apply starts_spec in H. destruct H as (r & ->). reflexivity. Qed.
