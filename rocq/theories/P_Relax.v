(** C258-C266: tables without a separator or without a header (src/extensions/relaxed_tables.c). *)
From Verif Require Import Base BaseL M_Relax S_Relax L_Relax L_Relax2.

(** C258. For every text: the pass that adds separators writes nothing beyond its buffers. *)
Theorem C258_safe text : relaxed text <> Bad.
Proof. apply relaxed_safe. Qed.
Print Assumptions C258_safe.

Example C258_case : relaxed (unlines [B "|a|b|"; B "|1|2|"]) = Out (unlines [B "|a|b|"; B "| --- | --- |"; B "|1|2|"]).
Proof. vm_compute. reflexivity. Qed.

(** C259. Every line of the document is kept and in its place; only separators are added: false. A row that stands alone before an empty line moves behind it whenever anything else in the document changes, and an empty line behind a table is lost when the text written so far is exactly twice as long as the document. *)
Theorem C259_refuted :
  (forall h s r x r1 r2 n m s2, Forall no_nl [h; s; r; []; x; r1; r2] -> row_line n h -> sep_line s -> row_line n r -> plain_line x -> row_line m r1 -> row_line m r2 -> sep_like r1 m s2 ->
    stage relaxed (unlines [h; s; r; []; x; r1; r2]) = Some (unlines [h; s; []; r; x; r1; s2; r2]))
  /\ stage relaxed (unlines [B "|a|b|c|d||"; B "|1|2|3|4||"; []; B "foo"]) = Some (unlines [B "|a|b|c|d||"; B "| --- | --- | --- | --- | --- |"; B "|1|2|3|4||"; B "foo"]).
Proof.
  split; [|vm_compute; reflexivity]. intros h s r x r1 r2 n m s2 F H S R X R1 R2 Q. unfold stage. rewrite closed_lines.
  rewrite (relaxed_lines _ F ltac:(discriminate)). set (L := length _).
  assert (St : fold_left (pstep L) [h; s; r; []; x; r1; r2] ([], [], false) = ([row_of r1 m; row_of r2 m], unlines [h; s; []; r; x], false)).
  { clearbody L. cbn [fold_left]. unfold pstep. rewrite (kind_row n h H), (kind_sep s S), (kind_row n r R), (kind_plain x X), (kind_row m r1 R1), (kind_row m r2 R2). change (kind_of []) with KBlank. cbn [row_of w_cols length Nat.leb]. rewrite Nat.eqb_refl.
    unfold rows_text. cbn [app map w_text]. rewrite !unlines_cons. cbn [unlines map concat]. rewrite ?app_nil_r, <- ?app_assoc. cbn [app]. rewrite <- ?app_assoc. reflexivity. }
  rewrite St. assert (E : pfin ([row_of r1 m; row_of r2 m], unlines [h; s; []; r; x], false) = unlines [h; s; []; r; x; r1; s2; r2]).
  { assert (Mp : 0 < m) by apply R1. pose proof (table_of r1 [r2] m s2 Mp Q) as T. cbn [map] in T. cbn [pfin length Nat.leb]. rewrite T, <- unlines_app. reflexivity. }
  rewrite E. cbn [snd negb andb]. destruct (Nat.eqb_spec L (length (unlines [h; s; []; r; x; r1; s2; r2]))) as [Le|Le]; [exfalso; subst L; rewrite !unlines_len in Le; lia|].
  destruct (seq_ _ _) eqn:Z; [|reflexivity]. apply seq_eq in Z. now rewrite Z.
Qed.
Print Assumptions C259_refuted.
Example C259_refuted_case : stage relaxed (unlines [B "|h|"; B "|-|"; B "|r|"; []; B "x"; B "a|b"; B "1|2"]) = Some (unlines [B "|h|"; B "|-|"; []; B "|r|"; B "x"; B "a|b"; B "---|---|"; B "1|2"]).
Proof. vm_compute. reflexivity. Qed.

(** True when no row stands alone before a blank line and no table with its blank line ends at twice the length of the document: every line is kept, and only separators are added (a blank line behind a table becomes empty). *)
Theorem C259_partial ls out : Forall no_nl ls -> Filled (2 * length (unlines ls)) 0 ls out -> stage relaxed (unlines ls) = Some (unlines out).
Proof. apply stage_filled. Qed.
Print Assumptions C259_partial.

Lemma row_check l n : is_sep l = false -> columns l = Some n -> 0 < n -> row_line n l.
Proof.
  intros S C N. assert (X : ~ sep_line l) by (intro X; apply sep_bool in X; congruence). apply (columns_row n l N) in C. unfold row_line. tauto.
Qed.
Lemma plain_check l : kind_of l = KPlain -> plain_line l.
Proof. intro K. pose proof (kind_is l) as H. now rewrite K in H. Qed.
Lemma sep_check l : is_sep l = true -> sep_line l.
Proof. apply sep_bool. Qed.
Lemma other_check l : kind_of l = KPlain \/ kind_of l = KBlank \/ kind_of l = KSep \/ kind_of l = KRule -> forall n, ~ row_line n l.
Proof. intros K n H. apply kind_row in H. intuition congruence. Qed.
Ltac rowc := apply row_check; [vm_compute; reflexivity|vm_compute; reflexivity|lia].
Ltac barf := eexists [], _; split; [cbn [B list_ascii_of_string app]; reflexivity|constructor].
Ltac nonl := repeat constructor; unfold no_nl; cbn; intuition discriminate.

Example C259_case : exists ls out, Forall no_nl ls /\ Filled (2 * length (unlines ls)) 0 ls out /\ out = [B "text"; B "|a|b|"; B "| --- | --- |"; B "|1|2|"; []; B "more"].
Proof.
  exists [B "text"; B "|a|b|"; B "|1|2|"; []; B "more"], [B "text"; B "|a|b|"; B "| --- | --- |"; B "|1|2|"; []; B "more"]. split; [nonl|]. split; [|reflexivity].
  apply filled_line; [apply other_check; vm_compute; auto|]. change [B "|a|b|"; B "|1|2|"; []; B "more"] with ([B "|a|b|"; B "|1|2|"] ++ [] :: [B "more"]). change [B "|a|b|"; B "| --- | --- |"; B "|1|2|"; []; B "more"] with ([B "|a|b|"; B "| --- | --- |"; B "|1|2|"] ++ [] :: [B "more"]).
  apply filled_blank with 2; [discriminate|constructor; [rowc|constructor; [rowc|constructor]]|constructor|left; split; [barf|reflexivity]|vm_compute; discriminate|].
  apply filled_line; [apply other_check; vm_compute; auto|constructor].
Qed.

(** C260. Blank lines separate: a row before a blank line and a row behind it do not become a table: false for every two rows with equally many columns. *)
Theorem C260_refuted r r' n s : Forall no_nl [r; []; r'] -> row_line n r -> row_line n r' -> sep_like r n s -> stage relaxed (unlines [r; []; r']) = Some (unlines [[]; r; s; r']).
Proof.
  intros F R R' Q. unfold stage. rewrite closed_lines, (relaxed_lines _ F ltac:(discriminate)). set (L := length _).
  assert (St : fold_left (pstep L) [r; []; r'] ([], [], false) = ([row_of r n; row_of r' n], unlines [[]], false)).
  { clearbody L. cbn [fold_left]. unfold pstep. rewrite (kind_row n r R), (kind_row n r' R'). change (kind_of []) with KBlank. cbn [row_of w_cols length Nat.leb]. rewrite Nat.eqb_refl. reflexivity. }
  rewrite St. assert (E : pfin ([row_of r n; row_of r' n], unlines [[]], false) = unlines [[]; r; s; r']).
  { assert (Np : 0 < n) by apply R. pose proof (table_of r [r'] n s Np Q) as T. cbn [map] in T. cbn [pfin length Nat.leb]. rewrite T, <- unlines_app. reflexivity. }
  rewrite E. cbn [snd negb andb]. destruct (Nat.eqb_spec L (length (unlines [[]; r; s; r']))) as [Le|Le]; [exfalso; subst L; rewrite !unlines_len in Le; lia|].
  destruct (seq_ _ _) eqn:Z; [|reflexivity]. apply seq_eq in Z. now rewrite Z.
Qed.
Print Assumptions C260_refuted.
Example C260_refuted_case : stage relaxed (unlines [B "a | b"; []; B "c | d"]) = Some (unlines [[]; B "a | b"; B "---|---|"; B "c | d"]).
Proof. vm_compute. reflexivity. Qed.

(** True when rows on the two sides of blank lines never have equally many columns and no two such rows follow one another: then nothing changes at all. *)
Theorem C260_partial ls : Forall no_nl ls -> apart ls -> stage relaxed (unlines ls) = Some (unlines ls).
Proof. intros F A. unfold stage. rewrite closed_lines, (relaxed_apart ls F A). reflexivity. Qed.
Print Assumptions C260_partial.

Example C260_case : Forall no_nl [B "|a|b|"; []; B "|c|"] /\ apart [B "|a|b|"; []; B "|c|"].
Proof.
  split; [nonl|]. intros a r x r' b n E _ R R'. apply kind_row in R, R'. destruct a as [|a0 [|a1 [|a2 a]]].
  - injection E as <- E. destruct x as [|x0 [|x1 x]]; [injection E as <- E; discriminate R'| |destruct x; discriminate E]. injection E as _ <- _. assert (X : KRow 2 = KRow n) by (rewrite <- R; vm_compute; reflexivity). assert (Y : KRow 1 = KRow n) by (rewrite <- R'; vm_compute; reflexivity). congruence.
  - injection E as _ <- E. discriminate R.
  - injection E as _ _ _ E. destruct x; discriminate E.
  - destruct a; discriminate E.
Qed.

(** C261. A table that has its separator is left as it is: false for every table with two rows of data, which gets a second separator. *)
Theorem C261_refuted h s r1 r2 n s' : Forall no_nl [h; s; r1; r2] -> row_line n h -> sep_line s -> row_line n r1 -> row_line n r2 -> sep_like r1 n s' ->
  stage relaxed (unlines [h; s; r1; r2]) = Some (unlines [h; s; r1; s'; r2]).
Proof.
  intros F H S R1 R2 Q. apply stage_filled; [exact F|]. apply (filled_rows _ _ [h] n [s; r1; r2]); [discriminate|constructor; [exact H|constructor]|exists s, [r1; r2]; auto|].
  apply filled_line; [intros m [X _]; contradiction|]. apply (filled_table _ _ r1 [r2] n s' [] []); [discriminate|constructor; [assumption|constructor; [assumption|constructor]]|left; reflexivity|exact Q|constructor].
Qed.
Print Assumptions C261_refuted.
Example C261_refuted_case : stage relaxed (unlines [B "|h|"; B "|-|"; B "|1|"; B "|2|"]) = Some (unlines [B "|h|"; B "|-|"; B "|1|"; B "| --- |"; B "|2|"]).
Proof. vm_compute. reflexivity. Qed.

(** True for a header, a separator and one row of data between other lines, as long as no row is nearby. *)
Theorem C261_partial h s r n a b : Forall no_nl (a ++ [h; s; r] ++ b) -> sep_line s -> row_line n h -> row_line n r -> (forall l m, In l (a ++ b) -> ~ row_line m l) ->
  stage relaxed (unlines (a ++ [h; s; r] ++ b)) = Some (unlines (a ++ [h; s; r] ++ b)).
Proof.
  intros F S H R N. apply C260_partial; [exact F|]. intros a' q x q' b' m E W Q Q'.
  assert (Sn : forall k, ~ row_line k s) by (intros k [X _]; contradiction).
  assert (Sb : ~ blank s) by (apply bar_not_blank; apply S).
  assert (Pos : forall l u v k, u ++ l :: v = a ++ [h; s; r] ++ b -> row_line k l -> (length u = length a \/ length u = length a + 2)).
  { intros l u v k E' K. assert (Nu : nth_error (a ++ [h; s; r] ++ b) (length u) = Some l) by (rewrite <- E', nth_error_app2 by lia; rewrite Nat.sub_diag; reflexivity).
    destruct (Nat.lt_ge_cases (length u) (length a)) as [G|G].
    - rewrite nth_error_app1 in Nu by exact G. exfalso. apply (N l k); [|exact K]. apply in_or_app. left. exact (nth_error_In _ _ Nu).
    - rewrite nth_error_app2 in Nu by exact G. destruct (length u - length a) as [|[|[|d]]] eqn:D; [left; lia| |right; lia|].
      + injection Nu as <-. exfalso. exact (Sn k K).
      + exfalso. apply (N l k); [|exact K]. apply in_or_app. right. exact (nth_error_In b d Nu). }
  assert (P1 := Pos q a' (x ++ q' :: b') m (eq_sym E) Q).
  assert (P2 := Pos q' (a' ++ q :: x) b' m ltac:(rewrite E, <- app_assoc; reflexivity) Q'). rewrite app_length in P2. cbn [length] in P2.
  assert (D : length a' = length a /\ length x = 1) by lia. destruct D as [D1 D2]. destruct x as [|y [|? ?]]; try discriminate D2.
  assert (Y : nth_error (a ++ [h; s; r] ++ b) (length a + 1) = Some y) by (rewrite E, <- D1, nth_error_app2 by lia; replace (length a' + 1 - length a') with 1 by lia; reflexivity).
  rewrite nth_error_app2 in Y by lia. replace (length a + 1 - length a) with 1 in Y by lia. injection Y as ->. inversion W; subst. contradiction.
Qed.
Print Assumptions C261_partial.

Example C261_case : Forall no_nl ([B "x"] ++ [B "|a|b|"; B "|---|---|"; B "|1|2|"] ++ [[]]) /\ sep_line (B "|---|---|") /\ row_line 2 (B "|a|b|") /\ row_line 2 (B "|1|2|") /\ (forall l m, In l ([B "x"] ++ [[]]) -> ~ row_line m l).
Proof.
  split; [nonl|]. split; [apply sep_check; vm_compute; reflexivity|]. split; [rowc|]. split; [rowc|]. intros l m [<-|[<-|[]]]; apply other_check; vm_compute; auto.
Qed.

(** C262. What stands in a fence is left as it is: false for every two rows with equally many columns in a fence. *)
Theorem C262_refuted r r' n s : Forall no_nl [r; r'] -> row_line n r -> row_line n r' -> sep_like r n s ->
  stage relaxed (unlines [B "```"; r; r'; B "```"]) = Some (unlines [B "```"; r; s; r'; B "```"]).
Proof.
  intros F R R' Q. inversion F as [|? ? F1 F2]; subst. inversion F2 as [|? ? F3 _]; subst. assert (Ft : no_nl (B "```")) by (unfold no_nl; cbn; intuition discriminate).
  apply stage_filled; [constructor; [exact Ft|constructor; [exact F1|constructor; [exact F3|constructor; [exact Ft|constructor]]]]|].
  apply filled_line; [apply other_check; vm_compute; auto|]. apply (filled_table _ _ r [r'] n s [B "```"] [B "```"]); [discriminate|constructor; [assumption|constructor; [assumption|constructor]]| |exact Q|].
  - right. exists (B "```"), []. split; [reflexivity|]. apply plain_check. vm_compute. reflexivity.
  - apply filled_line; [apply other_check; vm_compute; auto|constructor].
Qed.
Print Assumptions C262_refuted.
Example C262_refuted_case : stage relaxed (unlines [B "```"; B "a || b"; B "c || d"; B "```"]) = Some (unlines [B "```"; B "a || b"; B "---|---|---|"; B "c || d"; B "```"]).
Proof. vm_compute. reflexivity. Qed.

(** True of a text in which no two rows follow one another, for example one that has bars in at most one line. *)
Theorem C262_partial a l b : Forall no_nl (a ++ l :: b) -> (forall x, In x (a ++ b) -> ~ In "|"%char x) -> stage relaxed (unlines (a ++ l :: b)) = Some (unlines (a ++ l :: b)).
Proof.
  intros F N. apply C260_partial; [exact F|]. intros a' q x q' b' m E W (_ & _ & Q & _) (_ & _ & Q' & _). apply bars_in in Q, Q'.
  assert (Pos : forall u v w, u ++ v :: w = a ++ l :: b -> In "|"%char v -> length u = length a).
  { intros u v w E' K. assert (Nu : nth_error (a ++ l :: b) (length u) = Some v) by (rewrite <- E', nth_error_app2 by lia; rewrite Nat.sub_diag; reflexivity).
    destruct (Nat.lt_ge_cases (length u) (length a)) as [G|G].
    - rewrite nth_error_app1 in Nu by exact G. exfalso. apply (N v); [|exact K]. apply in_or_app. left. exact (nth_error_In _ _ Nu).
    - rewrite nth_error_app2 in Nu by exact G. destruct (length u - length a) as [|d] eqn:D; [lia|]. exfalso. apply (N v); [|exact K]. apply in_or_app. right. exact (nth_error_In b d Nu). }
  pose proof (Pos a' q (x ++ q' :: b') (eq_sym E) Q). pose proof (Pos (a' ++ q :: x) q' b' ltac:(rewrite E, <- app_assoc; reflexivity) Q') as P. rewrite app_length in P. cbn [length] in P. lia.
Qed.
Print Assumptions C262_partial.

Example C262_case : Forall no_nl ([B "```"] ++ B "ls | wc" :: [B "```"]) /\ (forall x, In x ([B "```"] ++ [B "```"]) -> ~ In "|"%char x).
Proof. split; [nonl|]. intros x [<-|[<-|[]]]; cbn; intuition discriminate. Qed.

(** C263. The separator has as many cells as the row it is made for: false, for rows with a bar at one end only. *)
Theorem C263_refuted : (exists s, sep_like (B "| a | b") 1 s /\ stage relaxed (unlines [B "| a | b"; B "| 1 | 2"]) = Some (unlines [B "| a | b"; s; B "| 1 | 2"]) /\ cells s = 1 /\ cells (B "| a | b") = 2)
  /\ exists s, sep_like (B "a | b |") 3 s /\ stage relaxed (unlines [B "a | b |"; B "1 | 2 |"]) = Some (unlines [B "a | b |"; s; B "1 | 2 |"]) /\ cells s = 3 /\ cells (B "a | b |") = 2.
Proof.
  split; [exists (B "| --- |")|exists (B "---|---|---|")]; (split; [|repeat split; vm_compute; reflexivity]).
  - left. split; [barf|reflexivity].
  - right. split; [|reflexivity]. intro H. apply lead_bool in H. discriminate H.
Qed.
Print Assumptions C263_refuted.

(** Exactly when a row has bars at both ends or at neither. *)
Theorem C263_partial l n s : begins l -> ~ In BS l -> row_line n l -> sep_like l n s -> cells s = n /\ (cells s = cells l <-> (lead l <-> trail l)).
Proof.
  intros Bg Nb (Ns & Np & Bp & H) Q. pose proof (sep_cells l n s Np Q) as E. split; [exact E|]. rewrite E. destruct (cells_trails l n Bg Nb Np Bp H) as [T1 T2].
  assert (Dt : trail l \/ ~ trail l) by apply trail_dec. destruct H as [[Ld Bn]|[Ld Bn]].
  - rewrite (proj2 (lead_bool l) Ld) in *. destruct Dt as [T|T]; [specialize (T1 T)|specialize (T2 T)]; split; intro X; try tauto; lia.
  - rewrite (bool_not _ _ (lead_bool l) Ld) in *. destruct Dt as [T|T]; [specialize (T1 T)|specialize (T2 T)]; split; intro X; try tauto; lia.
Qed.
Print Assumptions C263_partial.

Example C263_case : begins (B "|a|b|") /\ ~ In BS (B "|a|b|") /\ row_line 2 (B "|a|b|") /\ (lead (B "|a|b|") <-> trail (B "|a|b|")).
Proof.
  split; [exists [], "|"%char, (B "a|b|"); split; [reflexivity|split; [constructor|reflexivity]]|]. split; [intro I; noin I|]. split; [rowc|].
  split; intro; [exists (B "|a|b"), []; split; [reflexivity|constructor]|barf].
Qed.

(** C264. For every text: the pass that adds headers writes nothing beyond its buffers. *)
Theorem C264_safe text : headerless text <> Bad.
Proof. apply headerless_safe. Qed.
Print Assumptions C264_safe.

Example C264_case : headerless (unlines [B "|---|---|"; B "|1|2|"]) = Out (unlines [B "|  |  |"; B "|---|---|"; B "|1|2|"]).
Proof. vm_compute. reflexivity. Qed.

(** C265. A header is added before every separator that has data behind it and no row before it, and nowhere else: false when the result fills the buffer. *)
Theorem C265_refuted : exists ls out, Forall no_nl ls /\ Headed false ls out /\ out <> ls /\ stage headerless (unlines ls) = Some (unlines ls).
Proof.
  exists [B "|-||||||"; B "|a|bcdefgh"], (head_lines false [B "|-||||||"; B "|a|bcdefgh"]). split; [nonl|]. split; [apply headed_lines|]. split; [vm_compute; discriminate|vm_compute; reflexivity].
Qed.
Print Assumptions C265_refuted.

(** Every document has exactly one such result; the pass gives it, unless it is 2, 4, 8, ... times as long as the document: then it may leave the document as it is. *)
Theorem C265_partial ls : Forall no_nl ls -> exists out, (forall o, Headed false ls o <-> o = out) /\
  (stage headerless (unlines ls) = Some (unlines out) \/ stage headerless (unlines ls) = Some (unlines ls) /\ exists j, length (unlines out) = 2 ^ S j * length (unlines ls)).
Proof.
  intro F. exists (head_lines false ls). split; [intro o; split; [apply headed_unique|intros ->; apply headed_lines]|].
  destruct ls as [|l ls]; [left; reflexivity|]. destruct (stage_headed (l :: ls) _ F ltac:(discriminate) (headed_lines _ false)) as [H|(H & j & J)]; [left; exact H|right]. split; [exact H|]. exists j. rewrite J, Nat.pow_succ_r'. lia.
Qed.
Print Assumptions C265_partial.

Example C265_case : Headed false [B "|---|---|"; B "|1|2|"] [B "|  |  |"; B "|---|---|"; B "|1|2|"] /\ stage headerless (unlines [B "|---|---|"; B "|1|2|"]) = Some (unlines [B "|  |  |"; B "|---|---|"; B "|1|2|"]).
Proof.
  split; [|vm_compute; reflexivity]. replace [B "|  |  |"; B "|---|---|"; B "|1|2|"] with (head_lines false [B "|---|---|"; B "|1|2|"]) by (vm_compute; reflexivity). apply headed_lines.
Qed.

(** C266. The header has as many cells as the separator it is put before: false without a bar at the end. *)
Theorem C266_refuted : exists h, header_for (B "---|---") h /\ stage headerless (unlines [B "---|---"; B "1|2"]) = Some (unlines [h; B "---|---"; B "1|2"]) /\ cells h = 1 /\ cells (B "---|---") = 2.
Proof.
  exists (B " |  | "). split; [|repeat split; vm_compute; reflexivity]. exists 2. split; [lia|]. right. split; [|split; reflexivity]. intro H. apply lead_bool in H. discriminate H.
Qed.
Print Assumptions C266_refuted.

(** Exactly when the separator ends with a bar. *)
Theorem C266_partial l d h : no_nl l -> no_nl d -> no_nl h -> begins l -> sep_line l -> stage headerless (unlines [l; d]) = Some (unlines [h; l; d]) -> (cells h = cells l <-> trail l).
Proof.
  intros Nl Nd Nh Bg S E. assert (H : header_for l h).
  { destruct (C265_partial [l; d] ltac:(constructor; [exact Nl|constructor; [exact Nd|constructor]])) as (out & U & [R|[R _]]).
    - rewrite E in R. injection R as R. pose proof (proj2 (U out) eq_refl) as Hd. clear U E. inversion Hd as [|p p' l1 ls1 o1 _ _ H1|p' l1 h1 ls1 o1 _ _ _ H1 H2]; subst.
      + inversion H1 as [|? ? ? ? ? _ _ H2|? ? ? ? ? _ _ Dn _ _]; subst; [inversion H2; subst; exfalso; apply (f_equal (@length ascii)) in R; rewrite !unlines_cons, !app_length in R; cbn [length] in R; lia|]. exfalso. unfold data_next in Dn. destruct Dn as (? & ? & ? & Q & _). destruct x; discriminate Q.
      + inversion H2 as [|? ? ? ? ? _ _ H3|? ? ? ? ? _ _ Dn _ _]; subst; [inversion H3; subst; rewrite !unlines_cons in R; apply app_inv_tail in R; subst; exact H1|]. exfalso. unfold data_next in Dn. destruct Dn as (? & ? & ? & Q & _). destruct x; discriminate Q.
    - exfalso. rewrite E in R. injection R as R. apply (f_equal (@length ascii)) in R. rewrite !unlines_cons, !app_length in R. cbn [length] in R. lia. }
  assert (Bl : 0 < bars l) by (apply bars_in; apply S).
  assert (Nb : ~ In BS l) by (intro I; destruct S as [S _]; rewrite Forall_forall in S; specialize (S _ I); noin S).
  destruct (header_cells l h H) as [C|C]; [|lia]. destruct H as (n & Np & H).
  assert (K : lead l /\ bars l = Datatypes.S n \/ ~ lead l /\ n = Datatypes.S (bars l)) by (destruct H as [(X & Y & _)|(X & Y & _)]; [left|right]; split; [exact X|lia|exact X|lia]).
  destruct (cells_trails l n Bg Nb Np Bl K) as [T1 T2]. destruct (trail_dec l) as [T|T]; [specialize (T1 T)|specialize (T2 T)]; destruct (pipe_first l); split; intro X; try tauto; lia.
Qed.
Print Assumptions C266_partial.

Example C266_case : begins (B "|---|---|") /\ sep_line (B "|---|---|") /\ stage headerless (unlines [B "|---|---|"; B "|1|2|"]) = Some (unlines [B "|  |  |"; B "|---|---|"; B "|1|2|"]) /\ trail (B "|---|---|").
Proof.
  split; [exists [], "|"%char, (B "---|---|"); split; [reflexivity|split; [constructor|reflexivity]]|]. split; [apply sep_check; vm_compute; reflexivity|]. split; [vm_compute; reflexivity|].
  exists (B "|---|---"), []. split; [reflexivity|constructor].
Qed.
