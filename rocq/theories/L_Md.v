(** Lemmas about the Markdown output. *)
From Verif Require Import Base BaseL Dec L_Attr L_Highlight M_Md S_Md.

Fixpoint node_ind' (P : node -> Prop) (H : forall k ch, Forall P ch -> P (Node k ch)) (n : node) : P n :=
  match n with
  | Node k ch => H k ch ((fix all (l : list node) : Forall P l :=
      match l with [] => Forall_nil P | c :: l => Forall_cons c (node_ind' P H c) (all l) end) ch)
  end.

(** ** Equations *)
Definition shown (mmd : bool) (c : node) : str := match kind_of c with Link _ _ => [] | _ => inl mmd c end.
Lemma inl_eq mmd k ch : inl mmd (Node k ch) =
  match k with
  | Text s => text_md mmd s
  | Soft => [NL]
  | Hard => B "  " ++ [NL]
  | Code s => B "`" ++ s ++ B "`"
  | Emph => B "*" ++ inls mmd ch ++ B "*"
  | Strong => B "**" ++ inls mmd ch ++ B "**"
  | Link url title => B "[" ++ concat (map (shown mmd) ch) ++ B "](" ++ target url title ++ B ")"
  | Image literal url title => B "![" ++ opt literal ++ B "](" ++ target url title ++ B ")"
  | _ => inls mmd ch
  end.
Proof.
  assert (A : (fix all (l : list node) : str := match l with [] => [] | c :: l => inl mmd c ++ all l end) ch = inls mmd ch).
  { induction ch as [|c ch IH]; [reflexivity|]. change (inls mmd (c :: ch)) with (inl mmd c ++ inls mmd ch). rewrite <- IH. reflexivity. }
  assert (L : (fix but_links (l : list node) : str :=
      match l with [] => [] | c :: l => match kind_of c with Link _ _ => [] | _ => inl mmd c end ++ but_links l end) ch
      = concat (map (shown mmd) ch)).
  { clear A. induction ch as [|c ch IH]; [reflexivity|]. cbn [map concat]. rewrite <- IH. reflexivity. }
  destruct k; cbn [inl]; rewrite ?A, ?L; reflexivity.
Qed.
Definition doc_piece (mmd : bool) (c : node) : str := blk mmd c ++ match kind_of c with Lst _ _ | Item _ => [] | _ => [NL] end.
Definition not_last {A} (l : list A) : bool := match l with [] => false | _ => true end.
Definition quote_piece (mmd more : bool) (c : node) : str :=
  match c with
  | Node Paragraph pch => quoted mmd true pch ++ (if more then [NL] else [NL; NL])
  | _ => let s := B "> " ++ blk mmd c in if more then chop s ++ [NL] else s
  end.
Fixpoint quote_md (mmd : bool) (l : list node) : str :=
  match l with [] => [] | c :: l => quote_piece mmd (not_last l) c ++ quote_md mmd l end.
Fixpoint items_md (mmd ordered : bool) (i : nat) (l : list node) : str :=
  match l with
  | [] => []
  | c :: l => (if ordered then dec i ++ B ". " else B "- ") ++ blk mmd c ++ items_md mmd ordered (S i) l
  end.
Lemma blk_eq mmd k ch : blk mmd (Node k ch) =
  match k with
  | Document => concat (map (doc_piece mmd) ch)
  | Paragraph => if toc_paragraph mmd ch then B "{{TOC}}" ++ [NL; NL] else inls mmd ch ++ [NL; NL]
  | Heading level => repeat "#"%char level ++ B " " ++ inls mmd ch ++ [NL; NL]
  | CodeBlock info literal => B "```" ++ opt info ++ [NL] ++ opt literal ++ [NL] ++ B "```" ++ [NL; NL]
  | Quote => quote_md mmd ch
  | Lst ordered start => items_md mmd ordered start ch ++ [NL]
  | Rule => B "---" ++ [NL; NL]
  | HtmlBlock literal =>
      match literal with
      | Some s =>
          if mmd && match strstr (B "<!--TOC") s with Some _ => true | None => false end then B "{{TOC}}" ++ [NL; NL]
          else s ++ [NL; NL]
      | None => []
      end
  | _ => concat (map (blk mmd) ch)
  end.
Proof.
  assert (A : (fix all (l : list node) : str := match l with [] => [] | c :: l => blk mmd c ++ all l end) ch
      = concat (map (blk mmd) ch)).
  { induction ch as [|c ch IH]; [reflexivity|]. cbn [map concat]. rewrite <- IH. reflexivity. }
  destruct k; try reflexivity; try exact A; clear A.
  - induction ch as [|c ch IH]; [reflexivity|]. cbn [map concat doc_piece]. rewrite <- IH. unfold doc_piece.
    rewrite <- app_assoc. reflexivity.
  - induction ch as [|c ch IH]; [reflexivity|]. cbn [quote_md]. rewrite <- IH. destruct ch, c as [[] ?]; reflexivity.
  - cbn [blk]. f_equal. revert start. induction ch as [|c ch IH]; intros start; [reflexivity|].
    cbn [items_md]. rewrite <- IH. reflexivity.
Qed.

(** ** Words *)
Lemma words_app a b : words (a ++ b) = words a ++ words b.
Proof. apply filter_app. Qed.
Lemma words_concat f (l : list node) : words (concat (map f l)) = concat (map (fun c => words (f c)) l).
Proof. induction l as [|x l IH]; [reflexivity|]. cbn [map concat]. rewrite words_app, IH. reflexivity. Qed.
Lemma escaped_noword m c : escaped m c = true -> word c = false.
Proof.
  intros H. destruct c as [[] [] [] [] [] [] [] []]; try reflexivity; destruct m; vm_compute in H; discriminate H.
Qed.
Lemma words_escape m s : words (escape m s) = words s.
Proof.
  induction s as [|c s IH]; [reflexivity|]. cbn [escape flat_map]. rewrite words_app. fold (escape m s). rewrite IH.
  destruct (escaped m c) eqn:E.
  - apply escaped_noword in E. unfold words. cbn [filter]. rewrite E. reflexivity.
  - unfold words. cbn [filter]. destruct (word c); reflexivity.
Qed.
Lemma words_dec n : words (dec n) = [].
Proof.
  destruct (dec_all_digits n) as [_ D]. induction (dec n) as [|c s IH]; [reflexivity|].
  cbn in D. apply andb_true_iff in D as [D1 D2]. unfold words. cbn [filter].
  replace (word c) with false; [exact (IH D2)|].
  destruct c as [[] [] [] [] [] [] [] []]; try reflexivity; vm_compute in D1; discriminate D1.
Qed.
Lemma words_hashes n : words (repeat "#"%char n) = [].
Proof. induction n; [reflexivity|exact IHn]. Qed.
Lemma words_target u t : words (target u t) = words (opt u ++ opt t).
Proof.
  unfold target. rewrite !words_app. f_equal. destruct t as [t|]; [|reflexivity].
  rewrite !words_app. cbn [opt]. change (words (B " ")) with (@nil ascii). change (words [DQ]) with (@nil ascii).
  rewrite app_nil_r. reflexivity.
Qed.
Lemma words_chop s : words (chop s) = words s.
Proof.
  unfold chop. destruct (rev s) as [|c r] eqn:E; [reflexivity|]. destruct (ceq c NL) eqn:C; [|reflexivity].
  apply ceq_eq in C as ->. assert (S : s = rev r ++ [NL]) by (rewrite <- (rev_involutive s), E; reflexivity).
  rewrite S, words_app. change (words [NL]) with (@nil ascii). rewrite app_nil_r. reflexivity.
Qed.
Lemma words_text mmd s : mmd = false \/ (forall a b, s <> a ++ B "{{TOC" ++ b) -> words (text_md mmd s) = words s.
Proof.
  intros H. unfold text_md. destruct mmd; [|apply words_escape].
  destruct H as [H|H]; [discriminate H|].
  destruct (strstr (B "{{TOC") s) as [k|] eqn:E; [|apply words_escape].
  apply strstr_some in E as (a & b & E & _). destruct (H _ _ E).
Qed.

Definition told (l : list node) : str := concat (map says l).
Lemma says_eq k ch : says (Node k ch) =
  match k with
  | Text s | Code s | Html s => s
  | HtmlBlock s => opt s
  | CodeBlock i s => opt i ++ opt s
  | Link u t => told ch ++ opt u ++ opt t
  | Image _ u t => told ch ++ opt u ++ opt t
  | _ => told ch
  end.
Proof.
  assert (A : (fix all (l : list node) : str := match l with [] => [] | c :: l => says c ++ all l end) ch = told ch).
  { induction ch as [|c ch IH]; [reflexivity|]. change (told (c :: ch)) with (says c ++ told ch). rewrite <- IH. reflexivity. }
  destruct k; cbn [says]; rewrite ?A; reflexivity.
Qed.
Lemma inline_eq k ch : inline_tree (Node k ch) ->
  match k with
  | Text _ | Soft | Hard | Code _ => ch = []
  | Emph | Strong | Other => Forall inline_tree ch
  | Link _ _ => Forall inline_tree ch /\ forallb (fun c => negb (is_link c)) ch = true
  | Image literal _ _ => ch = [] /\ literal = None
  | _ => False
  end.
Proof.
  assert (A : (fix all (l : list node) : Prop := match l with [] => True | c :: l => inline_tree c /\ all l end) ch -> Forall inline_tree ch).
  { induction ch as [|c ch IH]; [constructor|]. intros [H1 H2]. constructor; auto. }
  destruct k; cbn [inline_tree]; try exact A; try (intros H; exact H); intros [H1 H2]; auto.
Qed.
Lemma block_eq k ch : block_tree (Node k ch) ->
  match k with
  | Document | Quote | Lst _ _ | Item _ | DefList | DefTerm | DefData | Other => Forall block_tree ch
  | Paragraph | Heading _ => Forall inline_tree ch
  | CodeBlock _ _ | HtmlBlock _ | Rule => ch = []
  | _ => False
  end.
Proof.
  assert (A : (fix all (l : list node) : Prop := match l with [] => True | c :: l => block_tree c /\ all l end) ch -> Forall block_tree ch).
  { induction ch as [|c ch IH]; [constructor|]. intros [H1 H2]. constructor; auto. }
  assert (I : (fix all (l : list node) : Prop := match l with [] => True | c :: l => inline_tree c /\ all l end) ch -> Forall inline_tree ch).
  { clear A. induction ch as [|c ch IH]; [constructor|]. intros [H1 H2]. constructor; auto. }
  destruct k; cbn [block_tree]; try exact A; try exact I; intros H; exact H.
Qed.
Lemma markerless_eq k ch : markerless (Node k ch) ->
  match k with
  | Text s => forall a b, s <> a ++ B "{{TOC" ++ b
  | HtmlBlock (Some s) => forall a b, s <> a ++ B "<!--TOC" ++ b
  | _ => True
  end /\ Forall markerless ch.
Proof.
  assert (A : (fix all (l : list node) : Prop := match l with [] => True | c :: l => markerless c /\ all l end) ch -> Forall markerless ch).
  { induction ch as [|c ch IH]; [constructor|]. intros [H1 H2]. constructor; auto. }
  intros [H1 H2]. split; [exact H1|exact (A H2)].
Qed.

Definition plain (mmd : bool) (n : node) : Prop := mmd = false \/ markerless n.
Lemma plain_children mmd k ch : plain mmd (Node k ch) -> Forall (plain mmd) ch.
Proof.
  intros [E|M].
  - apply Forall_forall. intros c _. left. exact E.
  - apply markerless_eq in M as [_ M]. apply Forall_impl with (P := markerless); [|exact M]. intros c H. right. exact H.
Qed.
Lemma Forall_words (f : node -> str) (P Q : node -> Prop) l :
  Forall (fun n => P n -> Q n -> words (f n) = words (says n)) l -> Forall P l -> Forall Q l ->
  words (concat (map f l)) = words (told l).
Proof.
  induction l as [|c l IH]; intros H HP HQ; [reflexivity|].
  inversion_clear H as [|? ? H1 H2]. inversion_clear HP as [|? ? P1 P2]. inversion_clear HQ as [|? ? Q1 Q2].
  unfold told. cbn [map concat]. rewrite !words_app, H1 by assumption. f_equal. exact (IH H2 P2 Q2).
Qed.
Ltac nowords := repeat match goal with |- context [words (B ?x)] => change (words (B x)) with (@nil ascii)
  | |- context [words [NL]] => change (words [NL]) with (@nil ascii)
  | |- context [words [NL; NL]] => change (words [NL; NL]) with (@nil ascii) end.
Lemma words_inl mmd n : inline_tree n -> plain mmd n -> words (inl mmd n) = words (says n).
Proof.
  induction n as [k ch IH] using node_ind'. intros T P. pose proof (plain_children _ _ _ P) as PC.
  apply inline_eq in T. rewrite inl_eq, says_eq. destruct k; try contradiction; try (subst ch).
  - apply words_text. destruct P as [P|P]; [left; exact P|]. apply markerless_eq in P as [P _]. right. exact P.
  - reflexivity.
  - reflexivity.
  - rewrite !words_app. nowords. rewrite app_nil_r. reflexivity.
  - rewrite !words_app. nowords. rewrite app_nil_r. exact (Forall_words _ _ _ _ IH T PC).
  - rewrite !words_app. nowords. rewrite app_nil_r. exact (Forall_words _ _ _ _ IH T PC).
  - destruct T as [T NL_]. rewrite !words_app. nowords. rewrite words_target, words_app, !app_nil_r.
    cbn [app]. f_equal. apply (Forall_words _ inline_tree (plain mmd)); [|exact T|exact PC].
    clear T PC P. induction IH as [|c l H HL IHL]; [constructor|]. cbn in NL_. apply andb_true_iff in NL_ as [N1 N2].
    constructor; [|exact (IHL N2)]. intros T P. unfold shown. unfold is_link in N1.
    destruct (kind_of c); try discriminate N1; exact (H T P).
  - destruct T as [-> ->]. rewrite !words_app. nowords. rewrite words_target, words_app, !app_nil_r. reflexivity.
  - exact (Forall_words _ _ _ _ IH T PC).
Qed.
Lemma words_inls mmd l : Forall inline_tree l -> Forall (plain mmd) l -> words (inls mmd l) = words (told l).
Proof.
  intros T P. unfold inls. apply (Forall_words _ inline_tree (plain mmd)); [|exact T|exact P].
  apply Forall_forall. intros c _. apply words_inl.
Qed.
Lemma words_quoted mmd l : Forall inline_tree l -> Forall (plain mmd) l -> forall f, words (quoted mmd f l) = words (told l).
Proof.
  induction l as [|c l IH]; intros T P f; [reflexivity|].
  inversion_clear T as [|? ? T1 T2]. inversion_clear P as [|? ? P1 P2].
  change (told (c :: l)) with (says c ++ told l). cbn [quoted]. rewrite words_app.
  assert (G : words ((if f then B "> " else []) ++ inl mmd c ++ quoted mmd false l) = words (says c) ++ words (told l)).
  { rewrite !words_app, (words_inl _ _ T1 P1), IH by assumption. destruct f; reflexivity. }
  destruct (kind_of c) eqn:K; try exact G. rewrite words_app, words_app, IH by assumption. nowords.
  destruct c as [k ch]. cbn in K. subst k. apply inline_eq in T1. subst ch. reflexivity.
Qed.
Lemma words_blk mmd n : block_tree n -> plain mmd n -> words (blk mmd n) = words (says n).
Proof.
  induction n as [k ch IH] using node_ind'. intros T P. pose proof (plain_children _ _ _ P) as PC.
  apply block_eq in T. rewrite blk_eq, says_eq. destruct k; try contradiction; try (subst ch).
  - apply (Forall_words _ block_tree (plain mmd)); [|exact T|exact PC].
    apply Forall_impl with (2 := IH). intros c H T1 P1. unfold doc_piece. rewrite words_app, (H T1 P1).
    destruct (kind_of c); apply app_nil_r.
  - destruct (toc_paragraph mmd ch) eqn:E.
    + exfalso. unfold toc_paragraph in E. destruct ch as [|[[] ?] [|? ?]]; try discriminate E.
      apply andb_true_iff in E as [-> E]. destruct P as [P|P]; [discriminate P|].
      inversion_clear PC as [|? ? [P1|P1] _]; [discriminate P1|]. apply markerless_eq in P1 as [P1 _].
      apply starts_spec in E as [r E]. exact (P1 [] r E).
    + rewrite words_app. nowords. rewrite app_nil_r. apply words_inls; assumption.
  - rewrite !words_app, words_hashes. nowords. rewrite app_nil_r. apply words_inls; assumption.
  - rewrite !words_app. nowords. rewrite !app_nil_r. reflexivity.
  - clear P. induction ch as [|c ch IHc]; [reflexivity|].
    inversion_clear IH as [|? ? H1 H2]. inversion_clear T as [|? ? T1 T2]. inversion_clear PC as [|? ? P1 P2].
    cbn [quote_md]. change (told (c :: ch)) with (says c ++ told ch). rewrite !words_app, IHc by assumption. f_equal.
    assert (G : words (let s := B "> " ++ blk mmd c in if not_last ch then chop s ++ [NL] else s) = words (says c)).
    { cbv zeta. destruct (not_last ch); rewrite ?words_app, ?words_chop, ?words_app; nowords;
        rewrite ?app_nil_r; cbn [app]; apply H1; assumption. }
    unfold quote_piece. destruct c as [[] pch]; try exact G.
    apply block_eq in T1. pose proof (plain_children _ _ _ P1) as PP.
    rewrite words_app, words_quoted, says_eq by assumption. destruct (not_last ch); apply app_nil_r.
  - rewrite words_app. nowords. rewrite app_nil_r. clear P. revert start.
    induction ch as [|c ch IHc]; intros start; [reflexivity|].
    inversion_clear IH as [|? ? H1 H2]. inversion_clear T as [|? ? T1 T2]. inversion_clear PC as [|? ? P1 P2].
    cbn [items_md]. change (told (c :: ch)) with (says c ++ told ch).
    rewrite !words_app, IHc, (H1 T1 P1) by assumption.
    destruct ordered; [rewrite words_app, words_dec|]; nowords; reflexivity.
  - exact (Forall_words _ _ _ _ IH T PC).
  - reflexivity.
  - destruct literal as [s|]; [|reflexivity].
    destruct (mmd && _) eqn:E; [|rewrite words_app; nowords; apply app_nil_r].
    exfalso. apply andb_true_iff in E as [-> E]. destruct P as [P|P]; [discriminate P|].
    apply markerless_eq in P as [P _]. destruct (strstr (B "<!--TOC") s) eqn:F; [|discriminate E].
    apply strstr_some in F as (a & b & F & _). exact (P _ _ F).
  - exact (Forall_words _ _ _ _ IH T PC).
  - exact (Forall_words _ _ _ _ IH T PC).
  - exact (Forall_words _ _ _ _ IH T PC).
  - exact (Forall_words _ _ _ _ IH T PC).
Qed.
