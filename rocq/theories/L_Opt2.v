(** Reading the command line and combining it with the metadata: lemmas. *)
From Verif Require Import Base BaseL M_Meta M_Opt S_Opt L_Opt.

Lemma step_quiet f t cur : tok_mode t = None -> step f cur t = pick_or (flag_says f t) cur.
Proof. unfold step. intros ->. reflexivity. Qed.
Lemma tok_mode_none a : tok_mode (Flag a None) = None.
Proof. reflexivity. Qed.
Lemma tok_mode_not a v : mem a (names ["-m"; "--mode"]%string) = false ->
  tok_mode (Flag a (Some v)) = None.
Proof. intro H. unfold tok_mode. rewrite H. reflexivity. Qed.

Lemma settle_cons f t ts cur : settle f (t :: ts) cur = settle f ts (step f cur t).
Proof. reflexivity. Qed.
Lemma psettle_cons t ts p : psettle (t :: ts) p = psettle ts (switch_or t p).
Proof. reflexivity. Qed.
Lemma switch_value a v p : switch_or (Flag a (Some v)) p = p.
Proof. reflexivity. Qed.
Lemma switch_word a p : switch_or (Word a) p = p.
Proof. reflexivity. Qed.

Lemma parse_sound known n : forall args o x o' x', length args <= n ->
  parse_args known args o x = Ready o' x' ->
  exists ts, reads args ts /\ (forall f, o' f = settle f ts (o f)) /\
             x_plugins x' = psettle ts (x_plugins x).
Proof.
  induction n as [|n IH]; intros args o x o' x' L P.
  { destruct args; [|cbn in L; lia]. injection P as <- <-.
    exists []. repeat split. constructor. }
  destruct args as [|a rest].
  { injection P as <- <-. exists []. repeat split. constructor. }
  cbn [length] in L. cbn [parse_args] in P.
  destruct (find_arg a (arguments known)) as [act|] eqn:F.
  - destruct (find_arg_some _ _ _ F) as (ns & I & N).
    destruct (arg_row _ _ _ _ I N) as (D & _ & W).
    destruct act as [| |l g|g].
    + discriminate P.
    + destruct W as (T & M & Q). destruct rest as [|v rest]; [discriminate P|].
      rewrite <- mode_word_named in P. destruct (mode_word v) as [m|] eqn:E; [|discriminate P].
      cbn [option_map] in P. cbn [length] in L.
      edestruct IH as (ts & R & S & X); [|exact P|]; [lia|].
      exists (Flag a (Some v) :: ts). repeat split.
      * constructor; auto.
      * intro f. rewrite S, settle_cons. unfold step, tok_mode. rewrite M, E, for_mode_in.
        reflexivity.
      * rewrite X. reflexivity.
    + destruct W as (T & Q).
      edestruct IH as (ts & R & S & X); [|exact P|]; [lia|].
      exists (Flag a None :: ts). repeat split.
      * constructor; auto.
      * intro f. rewrite S, settle_cons, step_quiet, set_all_at, Q; reflexivity.
      * rewrite X, psettle_cons. f_equal. apply (set0_plugins known ns l); auto.
    + destruct W as (T & M). destruct rest as [|v rest]; [discriminate P|].
      destruct (g v) as [[l h]|] eqn:E; [|discriminate P].
      cbn [length] in L. edestruct IH as (ts & R & S & X); [|exact P|]; [lia|].
      exists (Flag a (Some v) :: ts). repeat split.
      * constructor; auto.
      * intro f. rewrite S, settle_cons, step_quiet, set_all_at by (apply tok_mode_not; auto).
        rewrite (set1_rows known ns g I a v l h f N E). reflexivity.
      * rewrite X, psettle_cons. f_equal. apply (set1_plugins known ns g a v l h); auto.
  - pose proof (unknown_value _ _ F) as V.
    destruct (starts (B "--meta") a) eqn:SM.
    + assert (D : dash a = true) by (apply starts_meta_dash; auto).
      destruct (ceq (at_ a 6) "=") eqn:Q.
      * destruct (add_meta (skipn 7 a) x) as [x1|] eqn:E; [|discriminate P].
        edestruct IH as (ts & R & S & X); [|exact P|]; [lia|].
        exists (Flag a None :: ts). repeat split.
        -- constructor; auto. unfold takes_value. rewrite V, SM, Q. reflexivity.
        -- intro f. rewrite S, settle_cons, step_quiet, (unknown_says known) by auto. reflexivity.
        -- rewrite X, psettle_cons. unfold switch_or. rewrite (unknown_switch known), (add_meta_plugins _ _ _ E) by auto.
           reflexivity.
      * destruct rest as [|v rest]; [discriminate P|].
        destruct (add_meta v x) as [x1|] eqn:E; [|discriminate P]. cbn [length] in L.
        edestruct IH as (ts & R & S & X); [|exact P|]; [lia|].
        exists (Flag a (Some v) :: ts). repeat split.
        -- constructor; auto. unfold takes_value. rewrite V, SM, Q. reflexivity.
        -- intro f. rewrite S, settle_cons, step_quiet, (unknown_says known); auto.
           apply tok_mode_not, value_not_mode, V.
        -- rewrite X, psettle_cons. rewrite switch_value, (add_meta_plugins _ _ _ E). reflexivity.
    + assert (TV : takes_value a = false) by (unfold takes_value; rewrite V, SM; reflexivity).
      assert (K : forall x1, x_plugins x1 = x_plugins x -> parse_args known rest o x1 = Ready o' x' ->
        exists t ts, reads rest ts /\ (t = Flag a None /\ dash a = true \/ t = Word a /\ dash a = false) /\
          (forall f, o' f = settle f (t :: ts) (o f)) /\ x_plugins x' = psettle (t :: ts) (x_plugins x)).
      { intros x1 X1 P1. edestruct IH as (ts & R & S & X); [|exact P1|]; [lia|].
        destruct (dash a) eqn:D.
        - exists (Flag a None), ts. repeat split; auto.
          + intro f. rewrite S, settle_cons, step_quiet, (unknown_says known) by auto. reflexivity.
          + rewrite X, X1, psettle_cons. unfold switch_or. rewrite (unknown_switch known) by auto. reflexivity.
        - exists (Word a), ts. repeat split; auto. rewrite X, X1. reflexivity. }
      assert (G : exists t ts, reads rest ts /\ (t = Flag a None /\ dash a = true \/ t = Word a /\ dash a = false) /\
          (forall f, o' f = settle f (t :: ts) (o f)) /\ x_plugins x' = psettle (t :: ts) (x_plugins x)).
      { destruct (seq_ a (B "--combine")); [refine (K _ _ P); reflexivity|].
        destruct (seq_ a (B "--mmd-merge")); [refine (K _ _ P); reflexivity|].
        destruct (ceq (at_ a 0) "-"); [discriminate P|].
        apply (K _ (positional_plugins a x) P). }
      destruct G as (t & ts & R & [[-> D]|[-> D]] & S & X).
      * exists (Flag a None :: ts). repeat split; auto. constructor; auto.
      * exists (Word a :: ts). repeat split; auto. constructor; auto.
Qed.

Lemma reads_unique args ts : reads args ts -> forall ts', reads args ts' -> ts = ts'.
Proof.
  induction 1 as [|a l ts D T R IH|a v l ts D T R IH|a l ts D R IH]; intros ts' R'; inversion R'; subst;
    try congruence; f_equal; auto.
Qed.

Lemma main_reads known args ts o x : main_args known args = Ready o x -> reads args ts ->
  (forall f, o f = settle f ts (default f)) /\ x_plugins x = psettle ts None.
Proof.
  intros P R. destruct (parse_sound known (length args) args _ _ _ _ (le_n _) P) as (ts' & R' & S & X).
  rewrite (reads_unique _ _ R _ R'). auto.
Qed.

Lemma settle_app f a b cur : settle f (a ++ b) cur = settle f b (settle f a cur).
Proof. apply fold_left_app. Qed.
Lemma settle_quiet f ts : quiet f ts -> forall cur, settle f ts cur = cur.
Proof.
  induction ts as [|t ts IH]; intros Q cur; [reflexivity|]. rewrite settle_cons.
  destruct (Q t (or_introl eq_refl)) as [A C]. rewrite step_quiet, A by auto.
  apply IH. intros u I. apply Q. now right.
Qed.
Lemma psettle_quiet ts : (forall t, In t ts -> plugin_switch t = None) -> forall p, psettle ts p = p.
Proof.
  induction ts as [|t ts IH]; intros Q p; [reflexivity|]. rewrite psettle_cons. unfold switch_or.
  rewrite (Q t (or_introl eq_refl)). apply IH. intros u I. apply Q. now right.
Qed.
Lemma psettle_app a b p : psettle (a ++ b) p = psettle b (psettle a p).
Proof. apply fold_left_app. Qed.

(** The three ways an option gets its value. *)
Lemma flag_last known args pre t post o x f v : main_args known args = Ready o x ->
  reads args (pre ++ t :: post) -> flag_says f t = Some v -> quiet f post -> o f = v.
Proof.
  intros P R S Q. destruct (main_reads _ _ _ _ _ P R) as [E _].
  rewrite E, settle_app, settle_cons, settle_quiet by auto. unfold step.
  destruct (tok_mode t) as [m|] eqn:M; [|rewrite S; reflexivity].
  exfalso. destruct t as [n [w|]|w]; try discriminate M. unfold tok_mode in M.
  destruct (mem n (names ["-m"; "--mode"]%string)) eqn:N; [|discriminate M].
  assert (Z : flag_says f (Flag n (Some w)) = None); [|congruence].
  apply mem_in in N.
  destruct (arg_row (fun _ => None) [B "-m"; B "--mode"] Reset n) as (_ & _ & _ & _ & K); auto.
  cbn. auto.
Qed.
Lemma flag_mode known args pre t post o x f m : main_args known args = Ready o x ->
  reads args (pre ++ t :: post) -> tok_mode t = Some m -> quiet f post -> o f = in_mode m default f.
Proof.
  intros P R M Q. destruct (main_reads _ _ _ _ _ P R) as [E _].
  rewrite E, settle_app, settle_cons, settle_quiet by auto. unfold step. rewrite M. reflexivity.
Qed.
Lemma flag_none known args ts o x f : main_args known args = Ready o x ->
  reads args ts -> quiet f ts -> o f = default f.
Proof. intros P R Q. destruct (main_reads _ _ _ _ _ P R) as [E _]. rewrite E. apply settle_quiet, Q. Qed.

Lemma plugins_last known args pre t post o x b : main_args known args = Ready o x ->
  reads args (pre ++ t :: post) -> plugin_switch t = Some b ->
  (forall u, In u post -> plugin_switch u = None) -> x_plugins x = Some b.
Proof.
  intros P R S Q. destruct (main_reads _ _ _ _ _ P R) as [_ E].
  rewrite E, psettle_app, psettle_cons, psettle_quiet by auto. unfold switch_or. rewrite S. reflexivity.
Qed.
Lemma plugins_none known args ts o x : main_args known args = Ready o x ->
  reads args ts -> (forall u, In u ts -> plugin_switch u = None) -> x_plugins x = None.
Proof. intros P R Q. destruct (main_reads _ _ _ _ _ P R) as [_ E]. rewrite E. apply psettle_quiet, Q. Qed.

(** Some options always make a readable list: a list that main accepts is read. *)
Lemma main_reads_ex known args o x : main_args known args = Ready o x -> exists ts, reads args ts.
Proof.
  intro P. destruct (parse_sound known (length args) args _ _ _ _ (le_n _) P) as (ts & R & _). eauto.
Qed.

(** ** configure *)
Lemma set_paths_other dirname x o f : f <> BaseDirectory -> f <> InputFilePath ->
  set_paths dirname x o f = o f.
Proof.
  intros A C. unfold set_paths. rewrite set_other by auto.
  destruct (x_input x); [|reflexivity]. destruct (str_of (o BaseDirectory)); [reflexivity|].
  destruct (_ || _); [reflexivity|]. apply set_other, A.
Qed.
Lemma set_arrays_other x o f : f <> BibliographyFiles -> f <> StylesheetPaths -> f <> StylesheetCount ->
  set_arrays x o f = o f.
Proof.
  intros A C D. unfold set_arrays.
  assert (E : match x_bib x with [] => o | l => set (BibliographyFiles, Vl (Some l)) o end f = o f)
    by (destruct (x_bib x); [reflexivity|apply set_other, A]).
  destruct (x_css x); [exact E|]. cbn [set_all]. rewrite !set_other by auto. exact E.
Qed.
Lemma restore_arrays_other x o f : f <> BibliographyFiles -> f <> StylesheetPaths -> f <> StylesheetCount ->
  restore_arrays x o f = o f.
Proof.
  intros A C D. unfold restore_arrays.
  set (o1 := match x_bib x, list_of (o BibliographyFiles) with
             | [], _ | _, Some _ => o
             | l, None => set (BibliographyFiles, Vl (Some l)) o
             end).
  assert (E : o1 f = o f).
  { unfold o1. destruct (x_bib x); [reflexivity|].
    destruct (list_of (o BibliographyFiles)); [reflexivity|apply set_other, A]. }
  destruct (x_css x); [exact E|]. destruct (list_of (o1 StylesheetPaths)); [exact E|].
  cbn [set_all]. rewrite !set_other by auto. exact E.
Qed.

Ltac notd D f := assert (f <> BaseDirectory /\ f <> InputFilePath /\ f <> BibliographyFiles /\
   f <> StylesheetPaths /\ f <> StylesheetCount /\ f <> EnablePlugins /\ f <> AstFilterCommands /\
   f <> AstFilterCount /\ f <> AstFilterStrict /\ f <> ScriptTags)
   by (repeat split; intro; subst f; apply D; unfold derived; cbn; tauto).

Lemma mode_pass_nil o f : apply_metadata [] o f = o f.
Proof. reflexivity. Qed.

Lemma mode_is_same n o o' : o Mode = o' Mode -> mode_is n o = mode_is n o'.
Proof. unfold mode_is. intros ->. reflexivity. Qed.
Lemma reads_paths dirname x o : reads_metadata (set_paths dirname x o) = reads_metadata o.
Proof.
  assert (E : set_paths dirname x o Mode = o Mode) by (apply set_paths_other; discriminate).
  unfold reads_metadata. rewrite !(mode_is_same _ _ _ E). reflexivity.
Qed.

(** An option that main does not fill in. *)
Lemma configure_at dirname g p e d fl o x f : ~ derived f ->
  configure dirname g p e d fl o x f =
    apply_metadata (final_meta g p e d o x) (set_arrays x (set_paths dirname x o)) f.
Proof.
  intro D. notd D f. destruct H as (H1 & H2 & H3 & H4 & H5 & H6 & H7 & H8 & H9 & H10).
  unfold configure. rewrite reads_paths. fold (final_meta g p e d o x).
  assert (A : forall o5, match x_scripts x with [] => o5 | l => set (ScriptTags, Vl (Some l)) o5 end f = o5 f)
    by (intro o5; destruct (x_scripts x); [reflexivity|apply set_other; auto]).
  rewrite A.
  assert (C : forall o4, match fl with
            | [] => o4
            | _ => set_all [(AstFilterCommands, Vl (Some fl));
                            (AstFilterCount, Vn (Z.of_nat (length fl)));
                            (AstFilterStrict, Vb (x_strict x))] o4
            end f = o4 f)
    by (intro o4; destruct fl; [reflexivity|]; cbn [set_all]; rewrite !set_other; auto).
  rewrite C.
  assert (E : forall o3, match x_plugins x with Some b => set (EnablePlugins, Vb b) o3 | None => o3 end f = o3 f)
    by (intro o3; destruct (x_plugins x); [apply set_other; auto|reflexivity]).
  rewrite E. destruct (final_meta g p e d o x) as [|i m]; [reflexivity|].
  rewrite restore_arrays_other by auto. reflexivity.
Qed.

Lemma configure_plugins dirname g p e d fl o x b : x_plugins x = Some b ->
  configure dirname g p e d fl o x EnablePlugins = Vb b.
Proof.
  intro X. unfold configure. rewrite X.
  set (o3 := match cli_merge _ _ _ _ _ with [] => _ | _ => _ end).
  assert (A : forall o5, match x_scripts x with [] => o5 | l => set (ScriptTags, Vl (Some l)) o5 end EnablePlugins
    = o5 EnablePlugins) by (intro o5; destruct (x_scripts x); [reflexivity|apply set_other; discriminate]).
  rewrite A. destruct fl; [apply set_at|]. cbn [set_all]. rewrite !set_other by discriminate. apply set_at.
Qed.

(** A whole run, for an option the three tables describe. *)
Lemma configure_last dirname g p e d fl o x f pre k v post w : ~ derived f -> regular f ->
  final_meta g p e d o x = pre ++ (k, v) :: post -> meta_says f k v = Some w -> silent f post ->
  configure dirname g p e d fl o x f = w.
Proof. intros D R E S Q. rewrite configure_at by auto. eapply apply_last; eauto. Qed.
Lemma configure_mode dirname g p e d fl o x f m : ~ derived f -> regular f ->
  silent f (final_meta g p e d o x) -> asks_mode (final_meta g p e d o x) = Some m ->
  configure dirname g p e d fl o x f = in_mode m default f.
Proof. intros D R S A. rewrite configure_at, apply_silent by auto. unfold start. rewrite A. reflexivity. Qed.
Lemma configure_kept dirname g p e d fl o x f : ~ derived f -> regular f ->
  silent f (final_meta g p e d o x) -> asks_mode (final_meta g p e d o x) = None ->
  configure dirname g p e d fl o x f = o f.
Proof.
  intros D R S A. rewrite configure_at, apply_silent by auto. unfold start. rewrite A.
  notd D f. destruct H as (H1 & H2 & H3 & H4 & H5 & H6 & H7 & H8 & H9 & H10).
  rewrite set_arrays_other, set_paths_other by auto. reflexivity.
Qed.

(** The documented switches. *)
Lemma documented_rows : forallb (fun p =>
    match says_of (snd p) (B (fst p)) with Some OnOff => true | _ => false end)
  (filter (fun p => negb (mem (B (fst p))
     (names ["wikilink-sanitize"; "per-cell-alignment"; "emoji-autocorrect"]%string)))
     documented_switches) = true.
Proof. vm_compute. reflexivity. Qed.
Lemma documented_regular : forallb (fun p =>
    negb (same (snd p) ThemeName || same (snd p) EnableLeanpubIndexSyntax) &&
    (negb (same (snd p) WikilinkSanitize) || mem (B (fst p)) (names ["wikilink-sanitize"]%string)))
  documented_switches = true.
Proof. vm_compute. reflexivity. Qed.

Lemma documented_one n f v b o m pre k post :
  In (n, f) documented_switches ->
  ~ In n ["wikilink-sanitize"; "per-cell-alignment"; "emoji-autocorrect"]%string ->
  lower k = B n -> truth v = Some b -> m = pre ++ (k, v) :: post -> silent f post ->
  apply_metadata m o f = Vb b.
Proof.
  intros I N K T E S.
  pose proof documented_rows as Q. rewrite forallb_forall in Q.
  assert (NB : mem (B n) (names ["wikilink-sanitize"; "per-cell-alignment"; "emoji-autocorrect"]%string) = false).
  { destruct (mem _ _) eqn:M; [|reflexivity]. exfalso. apply N. apply mem_in in M.
    unfold names in M. cbn [map In] in M. cbn [In].
    destruct M as [M|[M|[M|[]]]]; apply (f_equal string_of_list_ascii) in M; unfold B in M;
      rewrite !string_of_list_ascii_of_string in M; auto. }
  assert (F : In (n, f) (filter (fun p => negb (mem (B (fst p))
     (names ["wikilink-sanitize"; "per-cell-alignment"; "emoji-autocorrect"]%string)))
     documented_switches)).
  { apply filter_In. split; [exact I|]. cbn [fst]. rewrite NB. reflexivity. }
  specialize (Q _ F). cbn [fst snd] in Q.
  destruct (says_of f (B n)) as [[| |]|] eqn:SO; try discriminate.
  apply (apply_last f m pre k v post); auto.
  - pose proof documented_regular as R. rewrite forallb_forall in R. specialize (R _ I). cbn [fst snd] in R.
    apply andb_true_iff in R as [R1 R2]. apply negb_true_iff in R1. apply orb_false_iff in R1 as [R1 R3].
    assert (D : forall g, f = g -> same f g = true) by (intros g ->; apply same_refl).
    repeat split; intro EQ.
    + rewrite (D _ EQ) in R1. discriminate.
    + rewrite (D _ EQ) in R2. cbn [negb orb] in R2. rewrite mem_in in R2.
      assert (mem (B n) (names ["wikilink-sanitize"; "per-cell-alignment"; "emoji-autocorrect"]%string) = true);
        [|congruence]. apply mem_in. destruct R2 as [R2|[]]. left. exact R2.
    + rewrite (D _ EQ) in R3. discriminate.
  - rewrite meta_says_of, K, SO. cbn [means]. rewrite T. reflexivity.
Qed.

Lemma strict_bits o : In BUnsafe (cmark_options o) <-> is_on (o Unsafe) = true.
Proof.
  unfold cmark_options, when. rewrite !in_app_iff.
  destruct (is_on (o ValidateUtf8)), (is_on (o Unsafe)), (is_on (o Hardbreaks)), (is_on (o Nobreaks)),
    (is_on (o GithubPreLang)), (is_on (o EnableFootnotes)), (is_on (o EnableSmartTypography)); cbn;
    split; intros; auto; try discriminate;
    repeat match goal with H : _ \/ _ |- _ => destruct H end; try contradiction; discriminate.
Qed.
