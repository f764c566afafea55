(** Lemmas about the man page output. *)
From Verif Require Import Base BaseL Dec L_Highlight M_Md S_Md L_Md M_Man S_Man.

Lemma visible_app a b : visible (a ++ b) = visible a ++ visible b.
Proof. apply filter_app. Qed.

(** ** The reader *)
Lemma run_app m a b : run m (a ++ b) = let (m1, e1) := run m a in let (m2, e2) := run m1 b in (m2, e1 ++ e2).
Proof.
  revert m. induction a as [|c a IH]; intros m; cbn [app run]; [destruct (run m b); reflexivity|].
  destruct (step m c) as [m1 e1]. rewrite IH. destruct (run m1 a) as [m2 e2]. destruct (run m2 b) as [m3 e3].
  rewrite app_assoc. reflexivity.
Qed.
Definition md (start : bool) : mode := if start then Start else Txt.
Fixpoint fin (start : bool) (s : str) : bool := match s with [] => start | c :: r => fin (ceq c NL) r end.
Lemma fin_app a b st : fin st (a ++ b) = fin (fin st a) b.
Proof. revert st. induction a as [|c a IH]; intros st; [reflexivity|]. cbn [app fin]. apply IH. Qed.
Lemma at_start_fin b : at_start b = fin true b.
Proof.
  induction b as [|c b IH] using rev_ind; [reflexivity|]. unfold at_start. rewrite rev_app_distr, fin_app. reflexivity.
Qed.
Lemma at_start_app b x : at_start (b ++ x) = fin (at_start b) x.
Proof. rewrite !at_start_fin. apply fin_app. Qed.

Lemma str_ind3 (P : str -> Prop) : P [] -> (forall c r, P r -> (forall d e r', r = d :: e :: r' -> P r') -> P (c :: r)) -> forall s, P s.
Proof.
  intros H0 H s. assert (G : forall n s, length s <= n -> P s); [|exact (G _ s (le_n _))].
  induction n as [|n IH]; intros [|c r] L; try exact H0; cbn in L; [lia|].
  apply H; [apply IH; lia|]. intros d e r' ->. apply IH. cbn in L. lia.
Qed.
Lemma ceqs c d : ceq c d = true -> c = d.
Proof. apply ceq_eq. Qed.
Lemma fin_roff s : forall st, fin st (roff st s) = fin st s.
Proof.
  induction s as [|c r IH IH3] using str_ind3; intros st; [reflexivity|]. cbn [roff].
  destruct (ceq c BS) eqn:C1; [apply ceqs in C1 as ->; cbn [B list_ascii_of_string app fin]; apply IH|].
  destruct (ceq c NL) eqn:C2; [apply ceqs in C2 as ->; cbn [fin]; apply IH|].
  destruct (st && (ceq c "." || ceq c SQ)) eqn:C3; [cbn [B list_ascii_of_string app fin]; rewrite C2; apply IH|].
  destruct (ceq c "-") eqn:C4; [cbn [B list_ascii_of_string app fin]; rewrite C2; apply IH|].
  destruct r as [|d [|e r']]; [cbn [fin]; reflexivity| |].
  { change (fin st (c :: roff false [d]) = fin st [c; d]). cbn [fin]. rewrite C2. apply IH. }
  destruct (ceq c "226" && ceq d "128" && ceq e "147") eqn:C5.
  { apply andb_true_iff in C5 as [C5 E]. apply andb_true_iff in C5 as [C D].
    apply ceqs in C as ->, D as ->, E as ->. cbn [B list_ascii_of_string app fin].
    apply (IH3 _ _ _ eq_refl). }
  destruct (ceq c "226" && ceq d "128" && ceq e "148") eqn:C6.
  { apply andb_true_iff in C6 as [C6 E]. apply andb_true_iff in C6 as [C D].
    apply ceqs in C as ->, D as ->, E as ->. cbn [B list_ascii_of_string app fin].
    apply (IH3 _ _ _ eq_refl). }
  change (fin st (c :: roff false (d :: e :: r')) = fin st (c :: d :: e :: r')). cbn [fin]. rewrite C2.
  apply IH.
Qed.
Lemma dashes_cons c r : (forall d e r', r = d :: e :: r' -> ceq c "226" && ceq d "128" && ceq e "147" = false) -> dashes (c :: r) = c :: dashes r.
Proof. intros H. destruct r as [|d [|e r']]; [reflexivity..|]. cbn [dashes]. rewrite (H _ _ _ eq_refl). reflexivity. Qed.
Lemma step_text st c : (st && (ceq c "." || ceq c SQ)) = false -> step (md st) c = text_step c.
Proof. destruct st; cbn [md step andb]; [intros ->|]; reflexivity. Qed.
Lemma run_cons m c r m1 e1 m2 e2 : step m c = (m1, e1) -> run m1 r = (m2, e2) -> run m (c :: r) = (m2, e1 ++ e2).
Proof. intros H1 H2. cbn [run]. rewrite H1, H2. reflexivity. Qed.
Lemma run_roff s : forall st, run (md st) (roff st s) = (md (fin st s), map Ch (dashes s)).
Proof.
  induction s as [|c r IH IH3] using str_ind3; intros st; [reflexivity|]. cbn [roff].
  destruct (ceq c BS) eqn:C1.
  { apply ceqs in C1 as ->. rewrite run_app. replace (run (md st) (B "\e")) with (Txt, [Ch BS]) by (destruct st; reflexivity).
    cbv beta iota. change Txt with (md false) at 1. rewrite IH, dashes_cons by (intros; reflexivity). reflexivity. }
  destruct (ceq c NL) eqn:C2.
  { apply ceqs in C2 as ->. rewrite (run_cons (md st) NL _ (md true) [Ch NL] _ _ ltac:(destruct st; reflexivity) (IH true)).
    rewrite dashes_cons by (intros; reflexivity). reflexivity. }
  destruct (st && (ceq c "." || ceq c SQ)) eqn:C3.
  { apply andb_true_iff in C3 as [-> C3]. assert (N : ceq c "226" = false).
    { apply orb_true_iff in C3 as [C3|C3]; apply ceqs in C3 as ->; reflexivity. }
    rewrite run_app. change (run (md true) (B "\&")) with (Txt, @nil event). cbv beta iota.
    rewrite (run_cons Txt c _ (md false) [Ch c] _ _ ltac:(cbn [step]; unfold text_step; rewrite C2, C1; reflexivity) (IH false)).
    rewrite dashes_cons by (intros; rewrite N; reflexivity). cbn [fin]. rewrite C2. reflexivity. }
  destruct (ceq c "-") eqn:C4.
  { apply ceqs in C4 as ->. rewrite run_app. replace (run (md st) (B "\-")) with (Txt, [Ch "-"%char]) by (destruct st; reflexivity).
    cbv beta iota. change Txt with (md false) at 1. rewrite IH, dashes_cons by (intros; reflexivity). reflexivity. }
  assert (G : (forall d e r', r = d :: e :: r' -> ceq c "226" && ceq d "128" && ceq e "147" = false) ->
    run (md st) (c :: roff false r) = (md (fin st (c :: r)), map Ch (dashes (c :: r)))).
  { intros D. rewrite (run_cons (md st) c _ (md false) [Ch c] _ _ ltac:(rewrite (step_text _ _ C3); unfold text_step; rewrite C2, C1; reflexivity) (IH false)).
    rewrite (dashes_cons _ _ D). cbn [fin]. rewrite C2. reflexivity. }
  destruct r as [|d [|e r']]; [apply G; intros; discriminate|apply G; intros; discriminate|].
  destruct (ceq c "226" && ceq d "128" && ceq e "147") eqn:C5.
  { clear G. assert (X : dashes (c :: d :: e :: r') = B "--" ++ dashes r').
    { cbn [dashes]. rewrite C5. reflexivity. }
    rewrite X. apply andb_true_iff in C5 as [C5 E]. apply andb_true_iff in C5 as [C D]. apply ceqs in C as ->, D as ->, E as ->.
    rewrite run_app. replace (run (md st) (B "\-\-")) with (Txt, [Ch "-"%char; Ch "-"%char]) by (destruct st; reflexivity).
    cbv beta iota. change Txt with (md false) at 1. rewrite (IH3 _ _ _ eq_refl). reflexivity. }
  destruct (ceq c "226" && ceq d "128" && ceq e "148") eqn:C6.
  { clear G. apply andb_true_iff in C6 as [C6 E]. apply andb_true_iff in C6 as [C D]. apply ceqs in C as ->, D as ->, E as ->.
    rewrite run_app. replace (run (md st) (B "\[em]")) with (Txt, map Ch em_dash) by (destruct st; reflexivity).
    cbv beta iota. change Txt with (md false) at 1. rewrite (IH3 _ _ _ eq_refl).
    rewrite !dashes_cons; [reflexivity|intros ? ? ? _; reflexivity|intros ? ? ? _; reflexivity|].
    intros d e r'' [= <- <- <-]. reflexivity. }
  apply G. intros d1 e1 r1 [= <- <- <-]. exact C5.
Qed.

(** ** A buffer that has been read so far *)
Definition good (b : str) (e : list event) : Prop := run Start b = (md (at_start b), e).
Lemma good_app b e x e' : good b e -> run (md (at_start b)) x = (md (fin (at_start b) x), e') -> good (b ++ x) (e ++ e').
Proof. unfold good. intros H1 H2. rewrite run_app, H1, H2, at_start_app. reflexivity. Qed.
Lemma good_roff b e s : good b e -> good (add_roff b s) (e ++ map Ch (dashes s)).
Proof. intros H. unfold add_roff. apply good_app; [exact H|]. rewrite run_roff, fin_roff. reflexivity. Qed.
Lemma good_lit b e x e' : (forall st, run (md st) x = (md (fin st x), e')) -> good b e -> good (b ++ x) (e ++ e').
Proof. intros H G. apply good_app; [exact G|apply H]. Qed.
Ltac lit := intros [|]; vm_compute; reflexivity.

Lemma shown_app a b : shown_text (a ++ b) = shown_text a ++ shown_text b.
Proof. apply flat_map_app. Qed.
Lemma shown_ch s : shown_text (map Ch s) = s.
Proof. induction s as [|c s IH]; [reflexivity|]. cbn [map shown_text flat_map app]. f_equal. exact IH. Qed.
Lemma requests_app a b : requests (a ++ b) = requests a ++ requests b.
Proof. apply flat_map_app. Qed.
Lemma requests_ch s : requests (map Ch s) = [].
Proof. induction s as [|c s IH]; [reflexivity|exact IH]. Qed.

(** ** Requests *)
Definition neutral (l : list str) : Prop := forall open rest, balanced open rest -> balanced open (l ++ rest).
Lemma neutral_nil : neutral [].
Proof. intros open rest H. exact H. Qed.
Lemma neutral_app a b : neutral a -> neutral b -> neutral (a ++ b).
Proof. intros A Hb open rest H. rewrite <- app_assoc. apply A, Hb, H. Qed.
Lemma neutral_one r : seq_ r (B "RS") || seq_ r (B "nf") || seq_ r (B "RE") || seq_ r (B "fi") = false -> neutral [r].
Proof.
  intros E open rest H. cbn [app balanced].
  destruct (seq_ r (B "RS")); [discriminate|]. destruct (seq_ r (B "nf")); [discriminate|].
  destruct (seq_ r (B "RE")); [discriminate|]. destruct (seq_ r (B "fi")); [discriminate|]. exact H.
Qed.
Lemma neutral_quote l : neutral l -> neutral ([B "RS"] ++ l ++ [B "RE"]).
Proof.
  intros N open rest H. rewrite <- !app_assoc. change (balanced (B "RE" :: open) (l ++ [B "RE"] ++ rest)).
  apply N. split; [reflexivity|exact H].
Qed.
(** A piece of output: what is shown of it, and its requests. *)
Definition grows (b b' : str) (t : str) : Prop := forall e, good b e ->
  exists e', good b' (e ++ e') /\ visible (shown_text e') = visible t /\ neutral (requests e').
Lemma grows_refl b : grows b b [].
Proof. intros e G. exists []. rewrite app_nil_r. split; [exact G|]. split; [reflexivity|exact neutral_nil]. Qed.
Lemma grows_trans a b c t u : grows a b t -> grows b c u -> grows a c (t ++ u).
Proof.
  intros H1 H2 e G. destruct (H1 e G) as (e1 & G1 & W1 & N1). destruct (H2 _ G1) as (e2 & G2 & W2 & N2).
  exists (e1 ++ e2). rewrite app_assoc. split; [exact G2|]. rewrite shown_app, requests_app, !visible_app, W1, W2.
  split; [reflexivity|]. apply neutral_app; assumption.
Qed.
Lemma grows_words b b' t u : grows b b' t -> visible t = visible u -> grows b b' u.
Proof. intros H E e G. destruct (H e G) as (e' & G1 & W & N). exists e'. rewrite <- E. auto. Qed.
Lemma grows_roff b s : grows b (add_roff b s) (dashes s).
Proof.
  intros e G. exists (map Ch (dashes s)). split; [apply good_roff; exact G|]. rewrite shown_ch, requests_ch.
  split; [reflexivity|exact neutral_nil].
Qed.
Lemma grows_lit b x e' : (forall st, run (md st) x = (md (fin st x), e')) -> visible (shown_text e') = [] -> neutral (requests e') -> grows b (b ++ x) [].
Proof. intros R W N e G. exists e'. split; [apply good_lit; assumption|]. split; [exact W|exact N]. Qed.
(** By computation, for literals without requests or with one harmless request. *)
Ltac glit := eapply grows_lit; [lit|reflexivity|first [exact neutral_nil | apply neutral_one; reflexivity]].

Lemma inline_all k ch b : inline b (Node k ch) =
  match k with
  | Text s => add_roff b s
  | Code s => add_roff (b ++ B "\fR") s ++ B "\f[]"
  | Hard => b ++ [NL] ++ B ".br" ++ [NL]
  | Soft => b ++ B " "
  | Strong => inlines (b ++ B "\f[B]") ch ++ B "\f[]"
  | Emph => inlines (b ++ B "\f[I]") ch ++ B "\f[]"
  | Link u _ =>
      let b' := inlines b ch in
      match opt u with [] => b' | url => add_roff (b' ++ B " (") url ++ B ")" end
  | Html _ => b
  | _ => inlines b ch
  end.
Proof.
  assert (A : forall l b, (fix all (b : str) (l : list node) : str := match l with [] => b | c :: l => all (inline b c) l end) b l = inlines b l).
  { induction l as [|c l IH]; intros b'; [reflexivity|]. exact (IH (inline b' c)). }
  destruct k; cbn [inline]; rewrite ?A; reflexivity.
Qed.
Definition said_all (l : list node) : str := concat (map said l).
Lemma said_eq k ch : said (Node k ch) =
  match k with
  | Text s | Code s => dashes s
  | HtmlBlock s => dashes (opt s)
  | CodeBlock _ s => dashes (opt s)
  | Link u _ => said_all ch ++ dashes (opt u)
  | _ => said_all ch
  end.
Proof.
  assert (A : (fix all (l : list node) : str := match l with [] => [] | c :: l => said c ++ all l end) ch = said_all ch).
  { induction ch as [|c ch IH]; [reflexivity|]. change (said_all (c :: ch)) with (said c ++ said_all ch). rewrite <- IH. reflexivity. }
  destruct k; cbn [said]; rewrite ?A; reflexivity.
Qed.
Lemma man_inline_eq k ch : man_inline (Node k ch) ->
  match k with
  | Text s | Code s => ch = [] /\ ~ In NL s
  | Soft | Hard => ch = []
  | Emph | Strong | Other | Link _ _ | Image _ _ _ => Forall man_inline ch
  | _ => False
  end.
Proof.
  assert (A : (fix all (l : list node) : Prop := match l with [] => True | c :: l => man_inline c /\ all l end) ch -> Forall man_inline ch).
  { induction ch as [|c ch IH]; [constructor|]. intros [H1 H2]. constructor; auto. }
  destruct k; cbn [man_inline]; try exact A; intros H; exact H.
Qed.
Lemma man_block_eq k ch : man_block (Node k ch) ->
  match k with
  | Document | Quote | Lst _ _ | Item _ | DefList | DefTerm | DefData | Other => Forall man_block ch
  | Paragraph | Heading _ => Forall man_inline ch
  | CodeBlock _ _ | Rule => ch = []
  | _ => False
  end.
Proof.
  assert (A : (fix all (l : list node) : Prop := match l with [] => True | c :: l => man_block c /\ all l end) ch -> Forall man_block ch).
  { induction ch as [|c ch IH]; [constructor|]. intros [H1 H2]. constructor; auto. }
  assert (I : (fix all (l : list node) : Prop := match l with [] => True | c :: l => man_inline c /\ all l end) ch -> Forall man_inline ch).
  { clear A. induction ch as [|c ch IH]; [constructor|]. intros [H1 H2]. constructor; auto. }
  destruct k; cbn [man_block]; try exact A; try exact I; intros H; exact H.
Qed.

Lemma grows_list (f : str -> node -> str) l : Forall (fun n => forall b, grows b (f b n) (said n)) l -> forall b, grows b (fold_left f l b) (said_all l).
Proof.
  induction 1 as [|c l H HL IH]; intros b; [apply grows_refl|].
  cbn [fold_left]. change (said_all (c :: l)) with (said c ++ said_all l). eapply grows_trans; [apply H|apply IH].
Qed.
Lemma grows_inline n : man_inline n -> forall b, grows b (inline b n) (said n).
Proof.
  induction n as [k ch IH] using node_ind'. intros T b. apply man_inline_eq in T. rewrite inline_all, said_eq.
  assert (A : Forall man_inline ch -> forall b, grows b (inlines b ch) (said_all ch)).
  { intros F. apply grows_list. apply Forall_forall. intros c I. apply (proj1 (Forall_forall _ _) IH c I).
    exact (proj1 (Forall_forall _ _) F c I). }
  assert (W : forall b1 b2 b3 t, grows b2 b3 t -> grows b1 b2 [] -> grows b1 (b3 ++ B "\f[]") t).
  { intros b1 b2 b3 t H2 H1. rewrite <- (app_nil_r t). eapply grows_trans; [|glit].
    change t with ([] ++ t). eapply grows_trans; [exact H1|exact H2]. }
  destruct k; try contradiction.
  - destruct T as [-> _]. apply grows_roff.
  - subst ch. glit.
  - subst ch. glit.
  - eapply W; [apply grows_roff|glit].
  - eapply W; [apply A; exact T|glit].
  - eapply W; [apply A; exact T|glit].
  - cbv zeta. destruct (opt url) as [|c u] eqn:U; [rewrite app_nil_r; apply A; exact T|].
    rewrite <- (app_nil_r (said_all ch ++ _)). eapply grows_trans; [|glit].
    eapply grows_trans; [apply A; exact T|]. change (dashes (c :: u)) with ([] ++ dashes (c :: u)).
    eapply grows_trans; [|apply grows_roff]. glit.
  - apply A. exact T.
  - apply A. exact T.
Qed.
Lemma grows_inlines l : Forall man_inline l -> forall b, grows b (inlines b l) (said_all l).
Proof. intros F. apply grows_list. apply Forall_impl with (2 := F). exact grows_inline. Qed.

(** ** Blocks *)
Fixpoint blocks (p : option kind) (first : bool) (l : list node) (b : str) (dd : bool) : option (str * bool) :=
  match l with
  | [] => Some (b, dd)
  | c :: l => match block p first c b dd with Some (b', dd') => blocks p false l b' dd' | None => None end
  end.
Definition item_line (parent : option kind) (index : nat) : str :=
  match parent with
  | Some (Lst false _) => B ".IP \(bu 2"
  | _ => B ".IP " ++ [DQ] ++ dec index ++ B "." ++ [DQ] ++ B " 4"
  end.
Definition in_item (parent : option kind) : bool := match parent with Some (Item _) => true | _ => false end.
Definition in_def (parent : option kind) (first : bool) : bool :=
  match parent with Some DefData => first | Some DefTerm => true | _ => false end.
Lemma block_all parent first k ch b dd : block parent first (Node k ch) b dd =
  match k with
  | Document => blocks (Some k) true ch b dd
  | Heading level => Some (inlines (b ++ [NL] ++ (if level =? 1 then B ".SH " else B ".SS ")) ch ++ [NL], false)
  | Paragraph =>
      let content := match ch with [] => false | _ => true end in
      let b1 := if in_item parent || in_def parent first || dd then b else b ++ [NL] ++ B ".PP" ++ [NL] in
      let b2 := if dd && content then glue b1 else b1 in
      Some (inlines b2 ch ++ (if content then [NL] else []), dd && negb content)
  | Lst _ _ => blocks (Some k) true ch b false
  | Item index => blocks (Some k) true ch (b ++ [NL] ++ item_line parent index ++ [NL]) dd
  | CodeBlock _ lit =>
      if dd || in_item parent then Some (add_roff (glue b) (opt lit) ++ [NL], false)
      else Some (code_lines (length (opt lit)) (b ++ [NL] ++ B ".PP" ++ [NL] ++ B ".nf" ++ [NL] ++ B "\fR" ++ [NL]) (opt lit)
                 ++ [NL] ++ B "\f[]" ++ [NL] ++ B ".fi" ++ [NL], false)
  | Quote =>
      match blocks (Some k) true ch (b ++ [NL] ++ B ".RS" ++ [NL]) false with
      | Some (b', dd') => Some (b' ++ [NL] ++ B ".RE" ++ [NL], dd')
      | None => None
      end
  | Rule => Some (b ++ [NL] ++ B ".PP" ++ [NL] ++ B "  *  *  *  *  *" ++ [NL], false)
  | HtmlBlock lit =>
      match opt lit with
      | [] => Some (b, dd)
      | s => match render_dl b s with
             | Some (Some b') => Some (b', true)
             | Some None => Some (b, dd)
             | None => None
             end
      end
  | DefTerm => blocks (Some k) true ch (b ++ [NL] ++ B ".TP" ++ [NL]) false
  | _ => blocks (Some k) true ch b false
  end.
Proof.
  assert (A : forall l first b dd, (fix all (first : bool) (l : list node) (b : str) (dd : bool) : option (str * bool) :=
    match l with
    | [] => Some (b, dd)
    | c :: l => match block (Some k) first c b dd with Some (b', dd') => all false l b' dd' | None => None end
    end) first l b dd = blocks (Some k) first l b dd).
  { induction l as [|c l IH]; intros f b' d'; [reflexivity|]. cbn [blocks]. destruct (block (Some k) f c b' d') as [[b1 d1]|]; [apply IH|reflexivity]. }
  destruct k; cbn [block]; rewrite ?A; try reflexivity.
  destruct parent as [[]|]; cbn [in_item in_def orb]; rewrite ?orb_false_r; reflexivity.
Qed.

Definition quiet (b b' t : str) : Prop := forall e, good b e ->
  exists e', good b' (e ++ e') /\ visible (shown_text e') = visible t /\ requests e' = [].
Lemma quiet_refl b : quiet b b [].
Proof. intros e G. exists []. rewrite app_nil_r. auto. Qed.
Lemma quiet_trans a b c t u : quiet a b t -> quiet b c u -> quiet a c (t ++ u).
Proof.
  intros H1 H2 e G. destruct (H1 e G) as (e1 & G1 & W1 & N1). destruct (H2 _ G1) as (e2 & G2 & W2 & N2).
  exists (e1 ++ e2). rewrite app_assoc. split; [exact G2|]. rewrite shown_app, requests_app, !visible_app, W1, W2, N1, N2. auto.
Qed.
Lemma quiet_roff b s : quiet b (add_roff b s) (dashes s).
Proof. intros e G. exists (map Ch (dashes s)). split; [apply good_roff; exact G|]. rewrite shown_ch, requests_ch. auto. Qed.
Lemma quiet_lit b x e' : (forall st, run (md st) x = (md (fin st x), e')) -> visible (shown_text e') = [] -> requests e' = [] -> quiet b (b ++ x) [].
Proof. intros R W N e G. exists e'. split; [apply good_lit; assumption|]. split; [exact W|exact N]. Qed.
Lemma quiet_words b b' t u : quiet b b' t -> visible t = visible u -> quiet b b' u.
Proof. intros H E e G. destruct (H e G) as (e' & G1 & W & N). exists e'. rewrite <- E. auto. Qed.
Lemma quiet_grows b b' t : quiet b b' t -> grows b b' t.
Proof. intros H e G. destruct (H e G) as (e' & G1 & W & N). exists e'. rewrite N. auto using neutral_nil. Qed.

Lemma dashes_nl x r : dashes (x ++ NL :: r) = dashes x ++ NL :: dashes r.
Proof.
  induction x as [|c x IH IH3] using str_ind3.
  - cbn [app]. rewrite dashes_cons; [reflexivity|]. intros ? ? ? _. reflexivity.
  - destruct x as [|d [|e x']].
    + cbn [app]. rewrite dashes_cons; [change (dashes [c]) with [c]; cbn [app]; f_equal; exact IH|]. intros d e r' [= <- _]. rewrite andb_false_r. reflexivity.
    + change ((c :: [d]) ++ NL :: r) with (c :: d :: NL :: r).
      rewrite dashes_cons by (intros ? ? ? [= <- <- _]; rewrite !andb_false_r; reflexivity). change (dashes [c; d]) with ([c; d]). cbn [app]. f_equal. exact IH.
    + cbn [app dashes]. destruct (ceq c "226" && ceq d "128" && ceq e "147").
      * rewrite <- app_assoc. f_equal. apply (IH3 _ _ _ eq_refl).
      * cbn [app]. f_equal. exact IH.
Qed.
Lemma visible_dashes_nl r : visible (dashes (NL :: r)) = visible (dashes r).
Proof. change (NL :: r) with ([] ++ NL :: r). rewrite dashes_nl. reflexivity. Qed.
Lemma quiet_code fuel : forall s b, length s <= fuel -> quiet b (code_lines fuel b s) (dashes s).
Proof.
  induction fuel as [|fuel IH]; intros s b L; destruct s as [|c s]; try (cbn in L; lia); try apply quiet_refl.
  cbn [code_lines]. destruct (is_nl c) eqn:C.
  - destruct (span is_nl (c :: s)) as [x r] eqn:E. pose proof (span_spec is_nl (c :: s) _ _ E) as S.
    cbn [snd] in *. destruct S as (S1 & S2 & _).
    assert (W : visible (dashes (c :: s)) = visible (dashes r) /\ length r <= fuel).
    { cbn [span] in E. rewrite C in E. destruct (span is_nl s) as [x' r'] eqn:E'. injection E as <- <-.
      rewrite S1. split.
      - clear - S2. set (y := c :: x') in *. clearbody y. induction y as [|a y IHy]; [reflexivity|]. cbn in S2. apply andb_true_iff in S2 as [A S2].
        apply ceqs in A as ->. cbn [app]. rewrite visible_dashes_nl. exact (IHy S2).
      - apply (f_equal (@length ascii)) in S1. cbn in S1, L. rewrite app_length in S1. lia. }
    destruct W as [W L']. eapply quiet_words; [|symmetry; exact W]. change (dashes r) with ([] ++ dashes r).
    eapply quiet_trans; [|apply IH; exact L']. eapply quiet_lit; [lit|reflexivity|reflexivity].
  - destruct (span (fun c => negb (is_nl c)) (c :: s)) as [x r] eqn:E.
    pose proof (span_spec (fun c => negb (is_nl c)) (c :: s) _ _ E) as S. destruct S as (S1 & S2 & S3).
    assert (W : dashes (c :: s) = dashes x ++ dashes r /\ length r <= fuel).
    { rewrite S1. split.
      - destruct r as [|d r]; [rewrite !app_nil_r; reflexivity|].
        assert (D : d = NL) by (apply ceqs; pose proof (S3 d r eq_refl) as Q; unfold is_nl in Q; destruct (ceq d NL); [reflexivity|discriminate]).
        subst d. rewrite dashes_nl, dashes_cons by (intros; reflexivity). reflexivity.
      - cbn [span] in E. rewrite C in E. cbn [negb] in E. destruct (span (fun c => negb (is_nl c)) s) as [x' r'] eqn:E'. injection E as <- <-.
        apply (f_equal (@length ascii)) in S1. cbn in S1, L. rewrite app_length in S1. lia. }
    destruct W as [-> L']. eapply quiet_trans; [apply quiet_roff|apply IH; exact L'].
Qed.
Lemma run_skip x : ~ In NL x -> run Skip x = (Skip, []).
Proof.
  induction x as [|c x IH]; intros N; [reflexivity|]. cbn [run step].
  assert (C : ceq c NL = false) by (apply ceq_neq; intros ->; apply N; left; reflexivity).
  rewrite C, IH; [reflexivity|]. intros I. apply N. right. exact I.
Qed.
Lemma dec_no_nl n : ~ In NL (dec n).
Proof.
  destruct (dec_all_digits n) as [_ D]. intros I. rewrite forallb_forall in D. specialize (D _ I). discriminate D.
Qed.
Lemma fin_nl st x : fin st (x ++ [NL]) = true.
Proof. rewrite fin_app. reflexivity. Qed.
Lemma item_run parent index st : let x := [NL] ++ item_line parent index ++ [NL] in
  run (md st) x = (md (fin st x), [Ch NL; Req (B "IP")]).
Proof.
  cbv zeta. assert (E : exists y, item_line parent index = B ".IP " ++ y /\ ~ In NL y).
  { assert (O : exists y, B ".IP " ++ [DQ] ++ dec index ++ B "." ++ [DQ] ++ B " 4" = B ".IP " ++ y /\ ~ In NL y).
    { eexists. split; [reflexivity|]. intros I. repeat (apply in_app_or in I as [I|I]; [try (exact (dec_no_nl _ I)); cbn in I; intuition discriminate|]).
      cbn in I. intuition discriminate. }
    unfold item_line. destruct parent as [[]|]; try exact O. destruct ordered; [exact O|].
    exists (B "\(bu 2"). split; [reflexivity|]. cbn. intuition discriminate. }
  destruct E as (y & -> & N). rewrite app_assoc, fin_nl, <- app_assoc.
  rewrite run_app. replace (run (md st) [NL]) with (Start, [Ch NL]) by (destruct st; reflexivity). cbv beta iota.
  rewrite <- app_assoc, run_app. change (run Start (B ".IP ")) with (Skip, [Req (B "IP")]). cbv beta iota.
  rewrite run_app, (run_skip y N). reflexivity.
Qed.
Lemma grows_glue b : grows b (glue b) [].
Proof. unfold glue. destruct (at_start b); [apply grows_refl|]. glit. Qed.
Lemma grows_nil_l a b c t : grows a b [] -> grows b c t -> grows a c t.
Proof. intros H1 H2. change t with ([] ++ t). exact (grows_trans _ _ _ _ _ H1 H2). Qed.
Lemma grows_nil_r a b c t : grows a b t -> grows b c [] -> grows a c t.
Proof. intros H1 H2. rewrite <- (app_nil_r t). exact (grows_trans _ _ _ _ _ H1 H2). Qed.
Definition block_ok (n : node) : Prop := forall p f b dd, exists b' dd', block p f n b dd = Some (b', dd') /\ grows b b' (said n).
Lemma blocks_ok l : Forall block_ok l -> forall p f b dd, exists b' dd', blocks p f l b dd = Some (b', dd') /\ grows b b' (said_all l).
Proof.
  induction 1 as [|c l H HL IH]; intros p f b dd; [exists b, dd; split; [reflexivity|apply grows_refl]|].
  destruct (H p f b dd) as (b1 & d1 & E1 & G1). destruct (IH p false b1 d1) as (b2 & d2 & E2 & G2).
  exists b2, d2. cbn [blocks]. rewrite E1. split; [exact E2|].
  change (said_all (c :: l)) with (said c ++ said_all l). exact (grows_trans _ _ _ _ _ G1 G2).
Qed.
Lemma grows_block n : man_block n -> block_ok n.
Proof.
  induction n as [k ch IH] using node_ind'. intros T p f b dd. apply man_block_eq in T. rewrite block_all, said_eq.
  assert (A : Forall man_block ch -> forall p f b0 b dd, grows b0 b [] ->
    exists b' dd', blocks p f ch b dd = Some (b', dd') /\ grows b0 b' (said_all ch)).
  { intros F p' f' b0 b' dd' G0. destruct (blocks_ok ch) with (p := p') (f := f') (b := b') (dd := dd') as (b1 & d1 & E1 & G1).
    - apply Forall_forall. intros c I. apply (proj1 (Forall_forall _ _) IH c I). exact (proj1 (Forall_forall _ _) F c I).
    - exists b1, d1. split; [exact E1|]. exact (grows_nil_l _ _ _ _ G0 G1). }
  destruct k; try contradiction.
  - apply A; [exact T|apply grows_refl].
  - cbv zeta. eexists. eexists. split; [reflexivity|].
    match goal with |- grows _ (?x ++ _) _ => apply grows_nil_r with (b := x) end;
      [|destruct ch; [rewrite app_nil_r; apply grows_refl|glit]].
    eapply grows_nil_l; [|apply grows_inlines; exact T].
    set (b1 := if _ || dd then b else _). eapply grows_nil_l with (b := b1).
    + subst b1. destruct (_ || dd); [apply grows_refl|glit].
    + destruct (dd && _); [apply grows_glue|apply grows_refl].
  - eexists. eexists. split; [reflexivity|]. eapply grows_nil_r; [|glit].
    eapply grows_nil_l; [|apply grows_inlines; exact T]. destruct (level =? 1); glit.
  - subst ch. cbv zeta. destruct (dd || in_item p).
    + eexists. eexists. split; [reflexivity|]. eapply grows_nil_r; [|glit]. eapply grows_nil_l; [apply grows_glue|apply grows_roff].
    + eexists. eexists. split; [reflexivity|]. intros e G.
      assert (G1 : good (b ++ [NL] ++ B ".PP" ++ [NL] ++ B ".nf" ++ [NL] ++ B "\fR" ++ [NL]) (e ++ [Ch NL; Req (B "PP"); Req (B "nf"); Ch NL])).
      { apply good_lit; [lit|exact G]. }
      destruct (quiet_code (length (opt literal)) (opt literal) _ (le_n _) _ G1) as (e2 & G2 & W2 & N2).
      exists ([Ch NL; Req (B "PP"); Req (B "nf"); Ch NL] ++ e2 ++ [Ch NL; Ch NL; Req (B "fi")]). split; [|split].
      * replace (e ++ _) with (((e ++ [Ch NL; Req (B "PP"); Req (B "nf"); Ch NL]) ++ e2) ++ [Ch NL; Ch NL; Req (B "fi")])
          by (rewrite <- !app_assoc; reflexivity).
        apply good_lit; [lit|exact G2].
      * rewrite !shown_app, !visible_app, W2. cbn. rewrite app_nil_r. reflexivity.
      * rewrite !requests_app, N2. intros open rest H. change (balanced (B "fi" :: open) (B "fi" :: rest)). split; [reflexivity|exact H].
  - destruct (A T (Some Quote) true (b ++ [NL] ++ B ".RS" ++ [NL]) (b ++ [NL] ++ B ".RS" ++ [NL]) false (grows_refl _)) as (b1 & d1 & E1 & G1).
    rewrite E1. eexists. eexists. split; [reflexivity|]. intros e G.
    assert (G0 : good (b ++ [NL] ++ B ".RS" ++ [NL]) (e ++ [Ch NL; Req (B "RS")])) by (apply good_lit; [lit|exact G]).
    destruct (G1 _ G0) as (e2 & G2 & W2 & N2). exists ([Ch NL; Req (B "RS")] ++ e2 ++ [Ch NL; Req (B "RE")]). split; [|split].
    + replace (e ++ _) with (((e ++ [Ch NL; Req (B "RS")]) ++ e2) ++ [Ch NL; Req (B "RE")]) by (rewrite <- !app_assoc; reflexivity).
      apply good_lit; [lit|exact G2].
    + rewrite !shown_app, !visible_app, W2. cbn. rewrite app_nil_r. reflexivity.
    + rewrite !requests_app. exact (neutral_quote _ N2).
  - apply A; [exact T|apply grows_refl].
  - apply A; [exact T|]. eapply grows_lit; [intros st; apply item_run|reflexivity|apply neutral_one; reflexivity].
  - subst ch. eexists. eexists. split; [reflexivity|]. glit.
  - apply A; [exact T|apply grows_refl].
  - apply A; [exact T|glit].
  - apply A; [exact T|apply grows_refl].
  - apply A; [exact T|apply grows_refl].
Qed.

(** ** The title *)
Lemma plain_eq k ch : plain_text (Node k ch) = match k with Text s | Code s => s | _ => concat (map plain_text ch) end.
Proof.
  assert (A : (fix all (l : list node) : str := match l with [] => [] | c :: l => plain_text c ++ all l end) ch = concat (map plain_text ch)).
  { induction ch as [|c ch IH]; [reflexivity|]. cbn [map concat]. rewrite <- IH. reflexivity. }
  destruct k; cbn [plain_text]; rewrite ?A; reflexivity.
Qed.
Lemma plain_line n : man_inline n -> ~ In NL (plain_text n).
Proof.
  induction n as [k ch IH] using node_ind'. intros T. apply man_inline_eq in T. rewrite plain_eq.
  assert (A : Forall man_inline ch -> ~ In NL (concat (map plain_text ch))).
  { intros F I. apply in_concat in I as (x & I1 & I2). apply in_map_iff in I1 as (c & <- & I1).
    exact (proj1 (Forall_forall _ _) IH c I1 (proj1 (Forall_forall _ _) F c I1) I2). }
  destruct k; try contradiction; try (exact (A T)); try (subst ch; exact (fun H => H)); exact (proj2 T).
Qed.
Lemma roff_line s : ~ In NL s -> ~ In NL (roff false s).
Proof.
  induction s as [|c r IH IH3] using str_ind3; intros N; [exact N|]. cbn [roff andb].
  assert (C : ceq c NL = false) by (apply ceq_neq; intros ->; apply N; left; reflexivity).
  assert (R : ~ In NL (roff false r)) by (apply IH; intros I; apply N; right; exact I).
  assert (L : ~ In NL (c :: roff false r)) by (intros [I|I]; [subst c; discriminate C|exact (R I)]).
  destruct (ceq c BS); [intros I; apply in_app_or in I as [I|I]; [cbn in I; intuition discriminate|exact (R I)]|].
  rewrite C. destruct (ceq c "-"); [intros I; apply in_app_or in I as [I|I]; [cbn in I; intuition discriminate|exact (R I)]|].
  destruct r as [|d [|e r']]; [exact L|exact L|].
  assert (R3 : ~ In NL (roff false r')) by (apply (IH3 _ _ _ eq_refl); intros I; apply N; right; right; right; exact I).
  destruct (ceq c "226" && ceq d "128" && ceq e "147"); [intros I; apply in_app_or in I as [I|I]; [cbn in I; intuition discriminate|exact (R3 I)]|].
  destruct (ceq c "226" && ceq d "128" && ceq e "148"); [intros I; apply in_app_or in I as [I|I]; [cbn in I; intuition discriminate|exact (R3 I)]|].
  exact L.
Qed.
Lemma title_good t : ~ In NL t -> good (title_line t) [Req (B "TH")].
Proof.
  intros N. unfold title_line, add_roff, good. change (at_start (B ".TH " ++ [DQ])) with false.
  set (y := [DQ] ++ roff false t ++ [DQ] ++ B " " ++ [DQ] ++ B "1" ++ [DQ] ++ B " " ++ [DQ] ++ B "1 January 1970" ++ [DQ] ++ B " " ++ [DQ] ++ [DQ]).
  replace (((B ".TH " ++ [DQ]) ++ roff false t) ++ _) with (B ".TH " ++ y ++ [NL]) by (subst y; rewrite <- !app_assoc; reflexivity).
  assert (Y : ~ In NL y).
  { subst y. intros I. apply in_app_or in I as [I|I]; [cbn in I; intuition discriminate|].
    apply in_app_or in I as [I|I]; [exact (roff_line t N I)|]. cbn in I. intuition discriminate. }
  rewrite app_assoc, at_start_app. cbn [fin]. rewrite <- app_assoc, run_app.
  change (run Start (B ".TH ")) with (Skip, [Req (B "TH")]). cbv beta iota. rewrite run_app, (run_skip y Y). reflexivity.
Qed.
Lemma first_h1_line l : Forall man_block l -> forall t, first_h1 l = Some t -> ~ In NL t.
Proof.
  induction 1 as [|[k ch] l H HL IH]; intros t E; [discriminate E|]. cbn [first_h1] in E.
  destruct k; try exact (IH t E). destruct level as [|[|level]]; try exact (IH t E).
  apply man_block_eq in H. destruct (plain_text (Node (Heading 1) ch)) as [|c s] eqn:P; [discriminate E|]. injection E as <-.
  rewrite <- P, plain_eq. intros I. apply in_concat in I as (x & I1 & I2). apply in_map_iff in I1 as (c' & <- & I1).
  exact (plain_line c' (proj1 (Forall_forall _ _) H c' I1) I2).
Qed.
Lemma to_roff_ok dd ch : man_block (Node Document ch) -> exists out dd', to_roff dd (Node Document ch) = Some (out, dd') /\
  visible (roff_text out) = visible (said (Node Document ch)) /\ balanced [] (roff_requests out).
Proof.
  intros T. unfold to_roff. set (t := match first_h1 ch with Some t => t | None => B "Document" end).
  assert (N : ~ In NL t).
  { subst t. pose proof (man_block_eq _ _ T) as F. destruct (first_h1 ch) eqn:E; [exact (first_h1_line ch F _ E)|]. cbn. intuition discriminate. }
  destruct (grows_block _ T None true (title_line t) dd) as (b' & d' & E & G).
  exists b', d'. split; [exact E|]. destruct (G _ (title_good t N)) as (e & Ge & W & Ne).
  unfold roff_text, roff_requests. unfold good in Ge. rewrite Ge. cbn [snd]. rewrite shown_app, requests_app.
  split; [exact W|]. change (balanced [] (requests [Req (B "TH")] ++ requests e)).
  cbn [requests flat_map app balanced]. change (balanced [] (requests e)). rewrite <- (app_nil_r (requests e)). apply Ne. reflexivity.
Qed.
