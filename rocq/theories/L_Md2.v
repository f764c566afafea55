(** Lemmas about the Markdown output: what a reader of Markdown makes of it. *)
From Verif Require Import Base BaseL Dec L_Attr L_Highlight M_Md S_Md L_Md.

(** ** Text *)
Lemma escaped_punct m c : escaped m c = true -> punctuation c = true.
Proof.
  intros H. destruct c as [[] [] [] [] [] [] [] []]; try reflexivity; destruct m; vm_compute in H; discriminate H.
Qed.
Lemma reading_cons c r : ceq c BS = false -> reading (c :: r) = (c, false) :: reading r.
Proof. intros H. destruct r as [|d r]; [reflexivity|]. cbn [reading]. rewrite H. reflexivity. Qed.
Lemma reading_escape m s : reading (escape m s) = map (fun c => (c, escaped m c)) s.
Proof.
  induction s as [|c s IH]; [reflexivity|]. cbn [escape flat_map map]. fold (escape m s).
  destruct (escaped m c) eqn:E.
  - cbn [app reading]. rewrite ceq_refl, (escaped_punct m c E), IH. reflexivity.
  - cbn [app]. rewrite reading_cons, IH; [reflexivity|]. destruct (ceq c BS) eqn:C; [|reflexivity].
    apply ceq_eq in C as ->. destruct m; discriminate E.
Qed.
Lemma read_escape m s : read (escape m s) = s.
Proof. unfold read. rewrite reading_escape, map_map. apply map_id. Qed.
Lemma escape_active m c : escaped m c = false -> active c = true -> c = "<"%char \/ c = "&"%char.
Proof.
  intros H A. destruct c as [[] [] [] [] [] [] [] []]; try (left; reflexivity); try (right; reflexivity);
    destruct m; vm_compute in H, A; congruence.
Qed.
Lemma safe_escape m s : safe (escape m s) <-> ~ In "<"%char s /\ ~ In "&"%char s.
Proof.
  unfold safe. rewrite reading_escape. split.
  - intros H. split; intros I.
    + assert (F : active "<"%char = false) by (apply H; apply in_map_iff; exists "<"%char; split; [destruct m; reflexivity|exact I]).
      discriminate F.
    + assert (F : active "&"%char = false) by (apply H; apply in_map_iff; exists "&"%char; split; [destruct m; reflexivity|exact I]).
      discriminate F.
  - intros [H1 H2] c I. apply in_map_iff in I as (d & [= -> E] & I).
    destruct (active c) eqn:A; [|reflexivity]. destruct (escape_active m c E A) as [-> | ->]; contradiction.
Qed.

(** ** Code spans *)
Lemma tick_no s : ~ In BT s -> forallb (fun c => negb (tick c)) s = true.
Proof.
  intros H. apply forallb_forall. intros c I. unfold tick. destruct (ceq c BT) eqn:C; [|reflexivity].
  apply ceq_eq in C as ->. contradiction.
Qed.
Lemma run_length_one r : (forall y, r <> BT :: y) -> run_length (BT :: r) = 1.
Proof.
  intros H. unfold run_length. cbn [span]. change (tick BT) with true. cbv iota.
  destruct r as [|c r]; [reflexivity|]. cbn [span]. unfold tick at 1. destruct (ceq c BT) eqn:C; [|reflexivity].
  apply ceq_eq in C as ->. destruct (H r eq_refl).
Qed.
Lemma until_run_text s r : ~ In BT s -> (forall y, r <> BT :: y) -> until_run 1 false (s ++ BT :: r) = Some (s, r).
Proof.
  intros H N. induction s as [|c s IH].
  - cbn [app until_run]. change (tick BT) with true. rewrite (run_length_one r N). reflexivity.
  - cbn [app until_run]. replace (tick c) with false.
    + cbn [andb]. rewrite IH; [reflexivity|]. intros I. apply H. right. exact I.
    + symmetry. unfold tick. destruct (ceq c BT) eqn:C; [|reflexivity]. apply ceq_eq in C as ->. destruct H. left. reflexivity.
Qed.
Lemma unpad_same s : ~ In NL s -> (forall x, s <> SP :: x ++ [SP]) -> s <> [SP] \/ s = [SP] -> unpad s = s.
Proof.
  intros N P _. unfold unpad. cbv zeta.
  assert (M : map (fun c => if ceq c NL then SP else c) s = s).
  { clear P. induction s as [|c s IH]; [reflexivity|]. cbn [map]. rewrite IH by (intros I; apply N; right; exact I).
    destruct (ceq c NL) eqn:C; [|reflexivity]. apply ceq_eq in C as ->. destruct N. left. reflexivity. }
  rewrite M. destruct s as [|a s]; [reflexivity|]. destruct (rev (a :: s)) as [|b r] eqn:R; [reflexivity|].
  destruct (ceq a SP) eqn:A; [|reflexivity]. destruct (ceq b SP) eqn:Bb; [|reflexivity].
  apply ceq_eq in A as ->, Bb as ->. cbn [andb]. destruct (spaces (SP :: s)) eqn:E; [reflexivity|].
  assert (S : SP :: s = rev r ++ [SP]) by (rewrite <- (rev_involutive (SP :: s)), R; reflexivity).
  destruct (rev r) as [|d r'] eqn:Rr.
  - injection S as ->. discriminate E.
  - injection S as <- ->. destruct (P r' eq_refl).
Qed.
Lemma read_code_span s r : s <> [] -> ~ In BT s -> ~ In NL s -> (forall x, s <> SP :: x ++ [SP]) -> (forall y, r <> BT :: y) ->
  read_code (B "`" ++ s ++ B "`" ++ r) = Some (s, r).
Proof.
  intros E T N P R. unfold read_code.
  change (B "`" ++ s ++ B "`" ++ r) with (BT :: (s ++ BT :: r)). rewrite run_length_one.
  - cbn [Nat.eqb skipn]. rewrite until_run_text by assumption. rewrite unpad_same; [reflexivity|exact N|exact P|].
    destruct (list_eq_dec ascii_dec s [SP]); auto.
  - intros y Y. destruct s as [|c s]; [contradiction|]. injection Y as -> _. apply T. left. reflexivity.
Qed.

(** ** Code blocks *)
Lemma line_uniq a b x y : one_line a -> one_line b -> a ++ NL :: x = b ++ NL :: y -> a = b /\ x = y.
Proof.
  revert b. induction a as [|c a IH]; intros [|d b] A H E; cbn in E.
  - injection E as <-. auto.
  - injection E as <- _. destruct H. left. reflexivity.
  - injection E as -> _. destruct A. left. reflexivity.
  - injection E as <- E. destruct (IH b) as [-> ->]; auto.
    + intros I. apply A. right. exact I.
    + intros I. apply H. right. exact I.
Qed.
Lemma line_end a b y : one_line a -> a = b ++ NL :: y -> False.
Proof. intros H ->. apply H. apply in_or_app. right. left. reflexivity. Qed.
Lemma lines_cons l ls s : lines (l :: ls) ++ s = l ++ NL :: (lines ls ++ s).
Proof. unfold lines. cbn [flat_map]. rewrite <- !app_assoc. reflexivity. Qed.
Lemma lines_inj ls ls' : Forall one_line ls -> Forall one_line ls' -> lines ls = lines ls' -> ls = ls'.
Proof.
  revert ls'. induction ls as [|l ls IH]; intros [|l' ls'] A A' E.
  - reflexivity.
  - rewrite <- (app_nil_r (lines (_ :: _))), lines_cons in E. destruct l'; discriminate E.
  - rewrite <- (app_nil_r (lines (_ :: _))), lines_cons in E. destruct l; discriminate E.
  - rewrite <- (app_nil_r (lines (l :: _))), <- (app_nil_r (lines (l' :: _))), !lines_cons in E.
    inversion_clear A. inversion_clear A'. apply line_uniq in E as [-> E]; [|assumption..].
    rewrite !app_nil_r in E. f_equal. apply IH; assumption.
Qed.
Lemma fenced_uniq s i c r i' c' r' : fenced s i c r -> fenced s i' c' r' -> i = i' /\ c = c' /\ r = r'.
Proof.
  intros (ls & e & E & -> & _ & I & F & Oe & Ce) (ls' & e' & E' & -> & _ & I' & F' & Oe' & Ce').
  rewrite E in E'. apply app_inv_head in E'. cbn [app] in E'. apply line_uniq in E' as [-> E']; [|assumption..].
  split; [reflexivity|]. clear E I I'. revert ls' F' E'.
  induction ls as [|l ls IH]; intros [|l' ls'] F' E'.
  - cbn [lines flat_map app] in E'. apply line_uniq in E' as [-> ->]; auto.
  - rewrite lines_cons in E'. cbn [lines flat_map app] in E'. inversion_clear F' as [|? ? [O N] _].
    apply line_uniq in E' as [-> _]; [contradiction|assumption..].
  - rewrite lines_cons in E'. cbn [lines flat_map app] in E'. inversion_clear F as [|? ? [O N] _].
    apply line_uniq in E' as [-> _]; [contradiction|assumption..].
  - rewrite !lines_cons in E'. inversion_clear F as [|? ? [O N] F1]. inversion_clear F' as [|? ? [O' N'] F1'].
    apply line_uniq in E' as [-> E']; [|assumption..]. destruct (IH F1 ls' F1' E') as [H ->]. split; [|reflexivity].
    unfold lines in *. cbn [flat_map]. rewrite H. reflexivity.
Qed.
Lemma closing_ticks : closing (B "```").
Proof. exists 0, 3, 0. split; [reflexivity|lia]. Qed.
Lemma one_line_ticks : one_line (B "```").
Proof. intros H. cbn in H. repeat (destruct H as [H|H]; [discriminate H|]). exact H. Qed.
Lemma blk_fenced mmd info s ch ls : ~ In BT info -> one_line info -> s ++ [NL] = lines ls ->
  Forall (fun l => one_line l /\ ~ closing l) ls ->
  fenced (blk mmd (Node (CodeBlock (Some info) (Some s)) ch)) info (s ++ [NL]) [NL].
Proof.
  intros T I E F. rewrite blk_eq. cbn [opt]. exists ls, (B "```").
  split; [|split; [exact E|split; [exact T|split; [exact I|split; [exact F|split; [exact one_line_ticks|exact closing_ticks]]]]]].
  rewrite <- E. change (B "```") with (repeat BT 3) at 1. rewrite <- !app_assoc. reflexivity.
Qed.

(** ** Quotations *)
Lemma all_quoted_cons x s : one_line x -> quoted_line x -> all_quoted s -> all_quoted (x ++ NL :: s).
Proof.
  intros O Q A [|l ls] e E F Oe.
  - cbn [lines flat_map app] in E. symmetry in E. destruct (line_end _ _ _ Oe E).
  - rewrite lines_cons in E. inversion_clear F as [|? ? F1 F2]. apply line_uniq in E as [<- E]; [|assumption..].
    destruct (A ls e E F2 Oe) as [H1 H2]. split; [constructor; assumption|exact H2].
Qed.
Lemma all_quoted_end : all_quoted [].
Proof.
  intros [|l ls] e E F Oe.
  - cbn in E. subst e. split; [constructor|left; reflexivity].
  - rewrite lines_cons in E. destruct l; discriminate E.
Qed.
Lemma quoted_app x y : x <> [] -> quoted_line x -> quoted_line (x ++ y).
Proof. intros N [->|[r ->]]; [contradiction|]. right. exists (r ++ y). reflexivity. Qed.
Definition flat (mmd : bool) (c : node) : Prop := kind_of c = Soft \/ one_line (inl mmd c).
Lemma one_line_app a b : one_line a -> one_line b -> one_line (a ++ b).
Proof. intros A H I. apply in_app_or in I as [I|I]; auto. Qed.
Lemma one_line_in a : (forall c, In c a -> c <> NL) -> one_line a.
Proof. intros H I. exact (H _ I eq_refl). Qed.
Lemma one_line_lit s : forallb (fun c => negb (ceq c NL)) s = true -> one_line s.
Proof. intros H I. rewrite forallb_forall in H. specialize (H _ I). rewrite ceq_refl in H. discriminate H. Qed.
Lemma one_line_escape m s : one_line s -> one_line (escape m s).
Proof.
  induction s as [|c s IH]; intros H; [exact H|]. cbn [escape flat_map]. apply one_line_app.
  - intros I. destruct (escaped m c) eqn:E; cbn in I.
    + destruct I as [I|[I|[]]]; [discriminate I|]. apply H. left. exact I.
    + destruct I as [I|[]]. apply H. left. exact I.
  - apply IH. intros I. apply H. right. exact I.
Qed.
Lemma one_line_firstn k s : one_line s -> one_line (firstn k s).
Proof. intros H I. apply H. rewrite <- (firstn_skipn k s). apply in_or_app. left. exact I. Qed.
Lemma one_line_skipn k s : one_line s -> one_line (skipn k s).
Proof. intros H I. apply H. rewrite <- (firstn_skipn k s). apply in_or_app. right. exact I. Qed.
Lemma one_line_text m s : one_line s -> one_line (text_md m s).
Proof.
  intros H. unfold text_md. destruct (if m then strstr (B "{{TOC") s else None) as [k|]; [|apply one_line_escape; exact H].
  destruct (strstr (B "}}") (skipn k s)) as [e|]; repeat apply one_line_app;
    try (apply one_line_escape; auto using one_line_firstn, one_line_skipn). apply one_line_lit. reflexivity.
Qed.
Lemma one_line_target u t : one_line (opt u) -> one_line (opt t) -> one_line (target u t).
Proof.
  intros U T. unfold target. apply one_line_app; [exact U|]. destruct t as [t|]; [|intros []].
  cbn [opt] in T. repeat apply one_line_app; try (apply one_line_lit; reflexivity). exact T.
Qed.
Lemma no_break_eq k ch : no_break (Node k ch) ->
  match k with
  | Text s | Code s => one_line s
  | Soft | Hard => False
  | Link u t => one_line (opt u) /\ one_line (opt t) /\ Forall no_break ch
  | Image x u t => one_line (opt x) /\ one_line (opt u) /\ one_line (opt t)
  | _ => Forall no_break ch
  end.
Proof.
  assert (A : (fix all (l : list node) : Prop := match l with [] => True | c :: l => no_break c /\ all l end) ch -> Forall no_break ch).
  { induction ch as [|c ch IH]; [constructor|]. intros [H1 H2]. constructor; auto. }
  destruct k; cbn [no_break]; try exact A; try (intros H; exact H). intros (H1 & H2 & H3). auto.
Qed.
Lemma one_line_concat (f : node -> str) l : Forall (fun c => one_line (f c)) l -> one_line (concat (map f l)).
Proof. induction 1; [intros []|]. cbn [map concat]. apply one_line_app; assumption. Qed.
Ltac ol := match goal with
  | |- one_line (target _ _) => apply one_line_target; assumption
  | |- one_line (_ ++ _) => apply one_line_app; ol
  | |- _ => solve [auto | apply one_line_lit; reflexivity] end.
Lemma one_line_inl mmd n : no_break n -> one_line (inl mmd n).
Proof.
  induction n as [k ch IH] using node_ind'. intros N. apply no_break_eq in N. rewrite inl_eq.
  assert (A : Forall no_break ch -> one_line (inls mmd ch)).
  { intros F. apply one_line_concat. apply Forall_forall. intros c I.
    exact (proj1 (Forall_forall _ _) IH c I (proj1 (Forall_forall _ _) F c I)). }
  assert (L : Forall no_break ch -> one_line (concat (map (shown mmd) ch))).
  { intros F. apply one_line_concat. apply Forall_forall. intros c I.
    pose proof (proj1 (Forall_forall _ _) IH c I (proj1 (Forall_forall _ _) F c I)) as H.
    unfold shown. destruct (kind_of c); try exact H. intros []. }
  destruct k; try contradiction; try exact (A N); try (apply one_line_text; exact N);
    try (destruct N as (N1 & N2 & N3)); ol.
Qed.
Lemma mark_line : one_line (B "> ") /\ quoted_line (B "> ").
Proof.
  split; [intros H; cbn in H; repeat (destruct H as [H|H]; [discriminate H|]); exact H|].
  right. exists (B " "). reflexivity.
Qed.
Lemma quoted_rest mmd l s : Forall (flat mmd) l -> all_quoted s -> forall x, x <> [] -> one_line x -> quoted_line x ->
  all_quoted (x ++ quoted mmd false l ++ NL :: s).
Proof.
  intros F A. destruct mark_line as [M1 M2]. induction l as [|c l IH]; intros x N O Q; [exact (all_quoted_cons _ _ O Q A)|].
  inversion_clear F as [|? ? F1 F2]. specialize (IH F2). cbn [quoted].
  assert (G : one_line (inl mmd c) -> all_quoted (x ++ ((if false then B "> " else []) ++ inl mmd c ++ quoted mmd false l) ++ NL :: s)).
  { intros OL. cbn [app]. replace (x ++ (inl mmd c ++ quoted mmd false l) ++ NL :: s)
      with ((x ++ inl mmd c) ++ quoted mmd false l ++ NL :: s) by (rewrite <- !app_assoc; reflexivity).
    apply IH; [destruct x; [contradiction|discriminate]|apply one_line_app; assumption|apply quoted_app; assumption]. }
  unfold flat in F1. destruct (kind_of c) eqn:K; try (apply G; destruct F1 as [F1|F1]; [discriminate F1|exact F1]).
  change (([NL] ++ B "> " ++ quoted mmd false l) ++ NL :: s) with (NL :: (B "> " ++ quoted mmd false l) ++ NL :: s).
  rewrite <- app_assoc.
  apply all_quoted_cons; [exact O|exact Q|]. apply IH; [discriminate|exact M1|exact M2].
Qed.
Lemma quoted_first mmd l s : Forall (flat mmd) l -> all_quoted s -> all_quoted (quoted mmd true l ++ NL :: s).
Proof.
  intros F A. destruct mark_line as [M1 M2]. destruct l as [|c l].
  - apply (all_quoted_cons [] s); [intros []|left; reflexivity|exact A].
  - inversion_clear F as [|? ? F1 F2]. cbn [quoted].
    assert (G : one_line (inl mmd c) -> all_quoted (((if true then B "> " else []) ++ inl mmd c ++ quoted mmd false l) ++ NL :: s)).
    { intros OL. replace (((if true then B "> " else []) ++ inl mmd c ++ quoted mmd false l) ++ NL :: s)
        with ((B "> " ++ inl mmd c) ++ quoted mmd false l ++ NL :: s) by (rewrite <- !app_assoc; reflexivity).
      apply quoted_rest; auto; [discriminate|apply one_line_app; assumption|apply quoted_app; [discriminate|assumption]]. }
    unfold flat in F1. destruct (kind_of c) eqn:K; try (apply G; destruct F1 as [F1|F1]; [discriminate F1|exact F1]).
    change (([NL] ++ B "> " ++ quoted mmd false l) ++ NL :: s) with ([] ++ NL :: ((B "> " ++ quoted mmd false l) ++ NL :: s)).
    rewrite <- app_assoc. apply all_quoted_cons; [intros []|left; reflexivity|].
    apply quoted_rest; auto. discriminate.
Qed.
Lemma quote_quoted mmd ps : Forall (Forall (fun c => kind_of c = Soft \/ no_break c)) ps -> all_quoted (blk mmd (Node Quote (map (Node Paragraph) ps))).
Proof.
  rewrite blk_eq. induction ps as [|p ps IH]; intros F; [exact all_quoted_end|].
  inversion_clear F as [|? ? F0 F2]. assert (F1 : Forall (flat mmd) p).
  { apply Forall_impl with (2 := F0). intros c [H|H]; [left; exact H|right; exact (one_line_inl mmd c H)]. }
  cbn [map quote_md quote_piece]. rewrite <- app_assoc.
  destruct ps as [|q ps].
  - cbn [map not_last app quote_md]. apply quoted_first; [exact F1|].
    apply (all_quoted_cons [] []); [intros []|left; reflexivity|exact all_quoted_end].
  - cbn [map not_last app]. apply quoted_first; [exact F1|]. exact (IH F2).
Qed.

(** ** Lists *)
Definition item_of (p : list node) : node := Node (Item 1) [Node Paragraph p].
Lemma blk_item mmd p : toc_paragraph mmd p = false -> blk mmd (item_of p) = inls mmd p ++ [NL; NL].
Proof.
  intros H. unfold item_of. rewrite blk_eq. cbn [map concat]. rewrite blk_eq, H, app_nil_r. reflexivity.
Qed.
Lemma plain_toc mmd p : mmd = false \/ Forall markerless p -> toc_paragraph mmd p = false.
Proof.
  intros H. destruct (toc_paragraph mmd p) eqn:E; [|reflexivity].
  unfold toc_paragraph in E. destruct p as [|[[] ?] [|? ?]]; try discriminate E.
  apply andb_true_iff in E as [-> E]. destruct H as [H|H]; [discriminate H|].
  inversion_clear H as [|? ? P1 _]. apply markerless_eq in P1 as [P1 _].
  apply starts_spec in E as [r E]. destruct (P1 [] r E).
Qed.
Lemma list_ordered mmd start ps : Forall (fun p => mmd = false \/ Forall markerless p) ps ->
  blk mmd (Node (Lst true start) (map item_of ps)) = numbered start (map (inls mmd) ps) ++ [NL].
Proof.
  intros F. rewrite blk_eq. f_equal. revert start. induction F as [|p ps H F IH]; intros start; [reflexivity|].
  cbn [map items_md numbered]. rewrite (blk_item _ _ (plain_toc _ _ H)), IH, <- !app_assoc. reflexivity.
Qed.
Lemma list_bullets mmd start ps : Forall (fun p => mmd = false \/ Forall markerless p) ps ->
  blk mmd (Node (Lst false start) (map item_of ps)) = bulleted (map (inls mmd) ps) ++ [NL].
Proof.
  intros F. rewrite blk_eq. f_equal. revert start. induction F as [|p ps H F IH]; intros start; [reflexivity|].
  cbn [map items_md bulleted flat_map]. rewrite (blk_item _ _ (plain_toc _ _ H)), IH, <- !app_assoc. reflexivity.
Qed.

(** ** Links *)
Lemma read_address_ok u c r : address_ok u -> isspace c || ceq c ")"%char = true -> read_address 0 (u ++ c :: r) = (u, c :: r).
Proof.
  intros U C. induction U as [|x u (S1 & S2 & S3) U IH].
  - cbn [app read_address]. rewrite Nat.eqb_refl, andb_true_r, C. reflexivity.
  - cbn [app read_address]. apply ceq_neq in S2, S3. rewrite S1, S2, S3. cbn [orb andb]. rewrite IH. reflexivity.
Qed.
Lemma read_title_ok t r : ~ In DQ t -> ~ In BS t -> read_title (t ++ DQ :: r) = Some (t, r).
Proof.
  intros H1 H2. induction t as [|c t IH]; [reflexivity|]. cbn [app read_title].
  assert (C1 : ceq c DQ = false) by (apply ceq_neq; intros ->; apply H1; left; reflexivity).
  assert (C2 : ceq c BS = false) by (apply ceq_neq; intros ->; apply H2; left; reflexivity).
  rewrite C1, C2, IH; [reflexivity|intros I; apply H1; right; exact I|intros I; apply H2; right; exact I].
Qed.
Lemma read_target_ok u t r : address_ok u -> ~ In DQ (opt t) -> ~ In BS (opt t) ->
  read_target (target (Some u) t ++ B ")" ++ r) = Some (u, opt t, r).
Proof.
  intros U T1 T2. unfold read_target, target. cbn [opt]. destruct t as [t|]; cbn [opt] in *.
  - replace ((u ++ B " " ++ [DQ] ++ t ++ [DQ]) ++ B ")" ++ r) with (u ++ SP :: DQ :: (t ++ DQ :: ")"%char :: r))
      by (rewrite <- !app_assoc; reflexivity).
    rewrite read_address_ok by (exact U || reflexivity). cbn [span isspace].
    change (isspace SP) with true. change (isspace DQ) with false. cbn [snd].
    change (ceq DQ ")"%char) with false. rewrite ceq_refl. rewrite read_title_ok by assumption. reflexivity.
  - rewrite app_nil_r. change (B ")" ++ r) with (")"%char :: r). rewrite read_address_ok by (exact U || reflexivity). reflexivity.
Qed.
Lemma link_text mmd u t ch : inl mmd (Node (Link u t) ch) = B "[" ++ concat (map (shown mmd) ch) ++ B "](" ++ target u t ++ B ")".
Proof. apply inl_eq. Qed.

Lemma code_text mmd s ch : inl mmd (Node (Code s) ch) = B "`" ++ s ++ B "`".
Proof. apply inl_eq. Qed.
Lemma text_text mmd s ch : mmd = false \/ (forall a b, s <> a ++ B "{{TOC" ++ b) -> inl mmd (Node (Text s) ch) = escape mmd s.
Proof.
  intros H. rewrite inl_eq. unfold text_md. destruct mmd; [|reflexivity]. destruct H as [H|H]; [discriminate H|].
  destruct (strstr (B "{{TOC") s) as [k|] eqn:E; [|reflexivity]. apply strstr_some in E as (a & b & E & _). destruct (H _ _ E).
Qed.
(** ** The marker of a table of contents *)
Lemma strstr_lead c lit a b : ~ In c a -> strstr (c :: lit) (a ++ (c :: lit) ++ b) = Some (length a).
Proof.
  intros N. apply strstr_first. intros a' b' E.
  destruct (Nat.le_gt_cases (length a) (length a')) as [H|H]; [exact H|exfalso]. apply N.
  assert (F : nth_error (a ++ (c :: lit) ++ b) (length a') = Some c).
  { rewrite E, nth_error_app2, Nat.sub_diag by lia. reflexivity. }
  rewrite nth_error_app1 in F by exact H. exact (nth_error_In _ _ F).
Qed.
Lemma toc_text a m b ch : ~ In "{"%char a -> ~ In "}"%char m ->
  inl true (Node (Text (a ++ B "{{TOC" ++ m ++ B "}}" ++ b)) ch) = escape true a ++ B "{{TOC}}" ++ escape true b.
Proof.
  intros A M. rewrite inl_eq. unfold text_md.
  change (B "{{TOC") with ("{"%char :: B "{TOC"). rewrite (strstr_lead "{"%char (B "{TOC") a _ A).
  rewrite firstn_app, Nat.sub_diag, firstn_all, skipn_app, Nat.sub_diag, skipn_all. cbn [firstn skipn app].
  rewrite app_nil_r. change ("{"%char :: B "{TOC") with (B "{{TOC").
  replace ("{"%char :: B "{TOC" ++ m ++ B "}}" ++ b) with ((B "{{TOC" ++ m) ++ ("}"%char :: B "}") ++ b)
    by (rewrite <- app_assoc; reflexivity).
  change (B "}}") with ("}"%char :: B "}").
  rewrite strstr_lead.
  - f_equal. f_equal. f_equal. rewrite skipn_app, skipn_all2 by lia.
    replace (length (B "{{TOC" ++ m) + 2 - length (B "{{TOC" ++ m)) with 2 by lia. reflexivity.
  - intros I. apply in_app_or in I as [I|I]; [|exact (M I)].
    cbn in I. repeat (destruct I as [I|I]; [discriminate I|]). exact I.
Qed.

(** ** Headings *)
Lemma span_stop (f : ascii -> bool) x c r : forallb f x = true -> f c = false -> span f (x ++ c :: r) = (x, c :: r).
Proof.
  intros F N. induction x as [|a x IH]; cbn [app span]; [rewrite N; reflexivity|].
  cbn in F. apply andb_true_iff in F as [F1 F2]. rewrite F1, IH by exact F2. reflexivity.
Qed.
Lemma heading_read mmd level ch : 1 <= level <= 6 -> Forall no_break ch ->
  read_heading (blk mmd (Node (Heading level) ch)) = Some (level, inls mmd ch, [NL; NL]).
Proof.
  intros L N. rewrite blk_eq. unfold read_heading.
  change (B " " ++ inls mmd ch ++ [NL; NL]) with (SP :: (inls mmd ch ++ [NL; NL])).
  rewrite span_stop; [|apply forallb_forall; intros c I; apply repeat_spec in I as ->; reflexivity|reflexivity].
  rewrite repeat_length, ceq_refl. replace (1 <=? level) with true by (symmetry; apply Nat.leb_le; lia).
  replace (level <=? 6) with true by (symmetry; apply Nat.leb_le; lia). cbn [andb].
  rewrite (span_stop _ (inls mmd ch) NL [NL]); [reflexivity| |reflexivity].
  assert (O : one_line (inls mmd ch)).
  { apply one_line_concat. apply Forall_impl with (2 := N). intros c H. exact (one_line_inl mmd c H). }
  apply forallb_forall. intros c I. destruct (ceq c NL) eqn:C; [|reflexivity]. apply ceq_eq in C as ->. contradiction.
Qed.
