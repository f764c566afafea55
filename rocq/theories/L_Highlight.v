From Verif Require Import Base BaseL M_Highlight S_Highlight.

(** List markers and indented code, specification against code. *)
Lemma blank_spec c : blank c = true <-> is_space_or_tab c.
Proof.
  unfold blank, is_space_or_tab. rewrite orb_true_iff, !ceq_eq. tauto.
Qed.
Lemma span_spec (f : ascii -> bool) s : forall a b, span f s = (a, b) ->
  s = a ++ b /\ forallb f a = true /\ (forall c r, b = c :: r -> f c = false).
Proof.
  induction s as [|c s IH]; intros a b H; cbn [span] in H.
  - injection H as <- <-. repeat split; auto; discriminate.
  - destruct (f c) eqn:Ef.
    + destruct (span f s) as [a' b'] eqn:E. injection H as <- <-.
      destruct (IH _ _ eq_refl) as (-> & H2 & H3). repeat split; auto. simpl. rewrite Ef; auto.
    + injection H as <- <-. repeat split; auto. intros d r [= <- <-]. assumption.
Qed.
Lemma span_uniq (f : ascii -> bool) a : forall b,
  forallb f a = true -> (forall c r, b = c :: r -> f c = false) -> span f (a ++ b) = (a, b).
Proof.
  induction a as [|c a IH]; intros b H1 H2.
  - destruct b as [|d b]; [reflexivity|]. cbn. rewrite (H2 d b eq_refl). reflexivity.
  - simpl in H1. apply andb_true_iff in H1 as [H1 H3]. cbn. rewrite H1, IH by assumption. reflexivity.
Qed.

Lemma list_marker_spec p : looks_like_list_marker p = true <-> is_list_item p.
Proof.
  unfold looks_like_list_marker, is_list_item. split.
  - destruct p as [|c p]; [discriminate|]. unfold at_; cbn [nth].
    destruct (ceq c "-" || ceq c "*" || ceq c "+") eqn:E.
    + destruct p as [|b p]; [discriminate|]. cbn [nth]. rewrite blank_spec. intros H.
      exists [c], b, p. split; [reflexivity|]. split; [assumption|]. left. exists c.
      split; [reflexivity|]. rewrite !orb_true_iff, !ceq_eq in E. cbn. intuition.
    + destruct (isdigit c) eqn:Ed; [|discriminate].
      destruct (span isdigit (c :: p)) as [d q] eqn:Es. cbn [snd].
      apply span_spec in Es as (E1 & E2 & E3). rewrite andb_true_iff, ceq_eq, blank_spec.
      intros [H1 H2]. destruct q as [|x q]; [discriminate|]. cbn in H1, H2. subst x.
      destruct q as [|b q]; [destruct H2; discriminate|].
      exists (d ++ ["."%char]), b, q. split; [rewrite E1, <- app_assoc; reflexivity|].
      split; [exact H2|]. right. exists d. split; [reflexivity|]. split; [|assumption].
      intros ->. cbn in E1. injection E1 as -> _. discriminate.
  - intros (m & b & r & -> & Hb & [(c & -> & Hc)|(d & -> & Hd & Hf)]).
    + unfold at_; cbn [app nth].
      assert (ceq c "-" || ceq c "*" || ceq c "+" = true) as ->.
      { rewrite !orb_true_iff, !ceq_eq. cbn in Hc. intuition. }
      apply blank_spec; assumption.
    + rewrite <- app_assoc. cbn [app]. destruct d as [|c d]; [congruence|].
      unfold at_; cbn [app nth]. pose proof Hf as Hf'.
      simpl in Hf'. apply andb_true_iff in Hf' as [Hc _].
      assert (ceq c "-" || ceq c "*" || ceq c "+" = false) as ->.
      { clear -Hc. destruct (ceq c "-") eqn:E1; [apply ceq_eq in E1; subst; discriminate|].
        destruct (ceq c "*") eqn:E2; [apply ceq_eq in E2; subst; discriminate|].
        destruct (ceq c "+") eqn:E3; [apply ceq_eq in E3; subst; discriminate|]. reflexivity. }
      rewrite Hc. change (c :: d ++ "."%char :: b :: r) with ((c :: d) ++ "."%char :: b :: r).
      rewrite (span_uniq isdigit); [|assumption|intros x y [= <- _]; reflexivity].
      cbn [snd]. unfold at_; cbn [nth]. rewrite ceq_refl. apply blank_spec; assumption.
Qed.

Lemma list_marker_false p : looks_like_list_marker p = false <-> ~ is_list_item p.
Proof. rewrite <- list_marker_spec, not_true_iff_false. reflexivity. Qed.

Lemma indented_spec l : line_is_indented_code_block l = true <-> indented_code l.
Proof.
  unfold line_is_indented_code_block, indented_code. split.
  - destruct (ceq (at_ l 0) TAB) eqn:E.
    + destruct l as [|c l]; [discriminate|]. apply ceq_eq in E. cbn in E. subst c.
      rewrite negb_true_iff, list_marker_false. intros H. left. exists l. auto.
    + destruct (starts (B "    ") l) eqn:Es; [|discriminate].
      apply starts_spec in Es as [r ->].
      rewrite negb_true_iff, list_marker_false.
      change (skipn 4 (B "    " ++ r)) with r.
      destruct (span (fun c => ceq c SP) r) as [a b] eqn:Er. cbn [snd].
      apply span_spec in Er as (-> & H2 & H3). intros H. right.
      assert (a = repeat SP (length a)) as Ha.
      { clear -H2. induction a as [|x a IH]; [reflexivity|]. simpl in H2.
        apply andb_true_iff in H2 as [X Y]. apply ceq_eq in X. cbn. rewrite <- IH by assumption. congruence. }
      exists (4 + length a), b. split; [lia|]. split.
      { rewrite Ha at 1. reflexivity. }
      split; [|assumption]. intros (r' & ->). specialize (H3 _ _ eq_refl). discriminate.
  - intros [(l' & -> & H)|(k & l' & Hk & -> & H1 & H2)].
    + cbn. apply negb_true_iff, list_marker_false. assumption.
    + destruct k as [|[|[|[|k]]]]; try lia. cbn [repeat app].
      change (ceq (at_ (SP :: SP :: SP :: SP :: repeat SP k ++ l') 0) TAB) with false. cbn iota.
      change (starts (B "    ") (SP :: SP :: SP :: SP :: repeat SP k ++ l')) with true. cbn iota.
      cbn [skipn]. rewrite (span_uniq (fun c => ceq c SP)).
      * apply negb_true_iff, list_marker_false. assumption.
      * clear. induction k; [reflexivity|]. exact IHk.
      * intros c r ->. apply ceq_neq. intros ->. apply H1. exists r; reflexivity.
Qed.

(** The context carried by the loop. *)
Definition prev_of (done : str) : option ascii :=
  match done with [] => None | _ => Some (last done NUL) end.
Definition indent_inv (done : str) (s : hl_state) (p : str) : Prop :=
  at_line_start (prev_of done) = true \/
  forall b ln, done = b ++ ln -> (b = [] \/ ends_in b NL) -> ~ In NL ln ->
    hs_indent s = line_is_indented_code_block (ln ++ p).

Lemma prev_of_snoc a c : prev_of (a ++ [c]) = Some c.
Proof. unfold prev_of. rewrite last_last. destruct a; reflexivity. Qed.
Lemma prev_is_of done c : prev_is (prev_of done) c = false -> ~ ends_in done c.
Proof. intros H [b ->]. rewrite prev_of_snoc in H. cbn in H. rewrite ceq_refl in H. discriminate. Qed.

Lemma line_start_ln done b ln : at_line_start (prev_of done) = true ->
  done = b ++ ln -> ~ In NL ln -> ln = [].
Proof.
  intros H -> N. destruct ln as [|x ln _] using rev_ind; [reflexivity|].
  exfalso. rewrite app_assoc, prev_of_snoc in H. cbn in H. apply ceq_eq in H. subst x.
  apply N. rewrite in_app_iff. right; left; reflexivity.
Qed.

Lemma indent_track done s p : indent_inv done s p ->
  forall b ln, done = b ++ ln -> (b = [] \/ ends_in b NL) -> ~ In NL ln ->
    hs_indent (hl_track (prev_of done) p s) = line_is_indented_code_block (ln ++ p).
Proof.
  intros H b ln E Hb N.
  assert (hs_indent (hl_track (prev_of done) p s) =
    (if at_line_start (prev_of done) then line_is_indented_code_block p else hs_indent s)) as ->.
  { unfold hl_track. destruct (ceq (at_ p 0) BT); [|reflexivity].
    destruct (ceq (at_ p 1) BT && ceq (at_ p 2) BT); [reflexivity|].
    destruct (negb (hs_block s)); reflexivity. }
  destruct (at_line_start (prev_of done)) eqn:EL.
  - rewrite (line_start_ln done b ln EL E N). reflexivity.
  - destruct H as [H|H]; [congruence|]. eapply H; eassumption.
Qed.

Lemma at_line_start_ends done x : at_line_start (prev_of (done ++ [x])) = false -> x <> NL.
Proof. rewrite prev_of_snoc. cbn. intros H ->. rewrite ceq_refl in H. discriminate. Qed.

Lemma indent_next done q s s' p : indent_inv done s (q ++ p) -> q <> [] ->
  ~ In NL (removelast q) ->
  hs_indent s' = hs_indent (hl_track (prev_of done) (q ++ p) s) ->
  indent_inv (done ++ q) s' p.
Proof.
  intros H Q NQ Hs. destruct q as [|x q _] using rev_ind; [congruence|].
  rewrite removelast_last in NQ.
  destruct (ceq x NL) eqn:Ex.
  { left. rewrite app_assoc, prev_of_snoc. exact Ex. }
  right. apply ceq_neq in Ex. intros b ln E Hb N.
  (* the line of done *)
  assert (exists ln0, done = b ++ ln0 /\ ln = ln0 ++ q ++ [x]) as (ln0 & E1 & E2).
  { destruct (Nat.le_gt_cases (length b) (length done)) as [L|L].
    - exists (skipn (length b) done).
      assert (Z : done = b ++ skipn (length b) done).
      { rewrite <- (firstn_skipn (length b) done) at 1. f_equal.
        assert (Y : firstn (length b) (done ++ q ++ [x]) = firstn (length b) (b ++ ln)) by (rewrite E; reflexivity).
        rewrite !firstn_app, Nat.sub_diag, firstn_all, firstn_O, app_nil_r in Y.
        replace (length b - length done) with 0 in Y by lia.
        rewrite firstn_O, app_nil_r in Y. exact Y. }
      split; [exact Z|]. rewrite Z in E at 1. rewrite <- app_assoc in E. apply app_inv_head in E.
      symmetry; exact E.
    - exfalso. destruct Hb as [->|[b0 ->]]; [simpl in L; lia|].
      rewrite app_length in L. cbn in L.
      (* NL sits at position length b0 of done ++ q ++ [x] *)
      assert (Y : nth (length b0) (done ++ q ++ [x]) NUL = NL).
      { rewrite E, <- app_assoc, app_nth2, Nat.sub_diag by lia. reflexivity. }
      rewrite app_nth2 in Y by lia.
      destruct (Nat.lt_ge_cases (length b0 - length done) (length q)) as [L2|L2].
      + rewrite app_nth1 in Y by assumption. apply NQ. rewrite <- Y. apply nth_In. assumption.
      + rewrite app_nth2 in Y by assumption.
        destruct (length b0 - length done - length q) as [|k] eqn:Ek; cbn in Y; [congruence|].
        apply (f_equal (@length ascii)) in E. rewrite !app_length in E. cbn in E. lia. }
  subst ln. rewrite <- !app_assoc. cbn [app]. rewrite Hs.
  rewrite (indent_track _ _ _ H b ln0 E1 Hb); [rewrite <- app_assoc; reflexivity|].
  intros I; apply N. rewrite in_app_iff; left; exact I.
Qed.


Lemma hl_close_some : forall q before k,
  hl_close before q = Some k ->
  exists t r, q = t ++ B "==" ++ r /\ length t = k /\ ~ In NL t /\ ~ In CR t /\
    (forall c r', t = r' ++ [c] -> c <> SP /\ c <> TAB) /\
    (t = [] -> prev_is before SP = false /\ prev_is before TAB = false) /\
    ~ begins_with r "=" /\ ~ begins_with r "+".
Proof.
  induction q as [|c q IH]; intros before k H; cbn [hl_close] in H; [discriminate|].
  destruct (ceq c NL || ceq c CR) eqn:En; [discriminate|].
  apply orb_false_iff in En as [E1 E2]. apply ceq_neq in E1, E2.
  match type of H with (if ?b then _ else _) = _ => destruct b eqn:E end.
  - injection H as <-. rewrite !andb_true_iff, !negb_true_iff in E.
    destruct E as ((((E & X1) & Eb) & _) & X2).
    apply starts_spec in E as [r E]. exists [], r.
    apply orb_false_iff in Eb. rewrite E in X1, X2. unfold at_ in X1, X2. cbn in X1, X2.
    repeat split; auto; try tauto.
    + destruct r'; discriminate.
    + destruct r'; discriminate.
    + intros [r' ->]. discriminate.
    + intros [r' ->]. discriminate.
  - destruct (hl_close (Some c) q) as [j|] eqn:Ej; [|discriminate].
    injection H as <-. apply IH in Ej as (t & r & -> & L & N1 & N2 & N3 & N4 & N5).
    exists (c :: t), r. split; [reflexivity|]. split; [simpl; congruence|].
    split; [simpl; intuition|]. split; [simpl; intuition|]. split; [|split; [discriminate|exact N5]].
    intros d r' Ed. destruct r' as [|x r'].
    + injection Ed as -> ->. destruct (N4 eq_refl) as [A1 A2].
      simpl in A1, A2. apply ceq_neq in A1, A2. auto.
    + simpl in Ed. injection Ed as -> Ed. eapply N3, Ed.
Qed.

Lemma hl_here_some beyond prev s p k :
  hl_here beyond prev s p = Some k ->
  exists t r, p = B "==" ++ t ++ B "==" ++ r /\ length t = k /\ mark_content t /\
    hs_block s = false /\ hs_inline s = false /\ hs_indent s = false /\
    prev_is prev "{" = false /\ prev_is prev "=" = false /\ prev_is prev "+" = false /\
    (~ begins_with t "=" /\ ~ begins_with t "}" /\ ~ begins_with t "+") /\
    ~ begins_with r "=" /\ ~ begins_with r "+".
Proof.
  unfold hl_here. intros H.
  match type of H with (if ?b then _ else _) = _ => destruct b eqn:E end; [|discriminate].
  destruct (hl_close None (skipn 2 p)) as [j|] eqn:Ej; [|discriminate].
  destruct (Nat.ltb_spec 0 j) as [Lj|]; [|discriminate]. injection H as <-.
  unfold hl_start in E. rewrite !andb_true_iff, !negb_true_iff in E.
  destruct E as ((((B1 & B2) & B3) & B4) & S1).
  destruct S1 as ((((((((((S1 & S2) & S3) & S4) & S5) & S6) & S7) & S8) & S9) & S10) & S11).
  apply hl_close_some in Ej as (t & r & Et & L & N1 & N2 & N3 & _ & N5).
  apply starts_skipn in S1. cbn [length B list_ascii_of_string] in S1.
  rewrite Et in S1. exists t, r. split; [exact S1|]. split; [assumption|].
  assert (T3 : ~ begins_with t "=" /\ ~ begins_with t "}" /\ ~ begins_with t "+").
  { rewrite S1 in S2, S3, S11. unfold read2 in S2, S3, S11.
    repeat split; intros [t' ->]; cbn in S2, S3, S11; discriminate. }
  split; [|repeat split; tauto].
  split; [intros ->; simpl in L; clear - L Lj; lia|]. split; [assumption|]. split; [assumption|].
  split.
  - intros c t' ->. rewrite S1 in S7, S8. unfold read2 in S7, S8. cbn in S7, S8.
    apply ceq_neq in S7, S8. intros [->| ->]; auto.
  - intros c r' Er. destruct (N3 _ _ Er). intros [->| ->]; auto.
Qed.

Lemma w_rem_put c w : w_rem w - 1 <= w_rem (w_put c w).
Proof. unfold w_put. destruct (Nat.ltb_spec 0 (w_rem w)); simpl; lia. Qed.
Lemma w_rem_puts s w : w_rem w - length s <= w_rem (w_puts_lt s w).
Proof. unfold w_puts_lt. destruct (Nat.ltb_spec (length s) (w_rem w)); simpl; lia. Qed.

(** Every run decomposes the text; when the HTML fits, it is what is written. *)
Lemma hl_loop_ok beyond : forall fuel done s w oobr p,
  w_ok w -> length p < fuel -> indent_inv done s p ->
  exists w' o' segs,
    hl_loop fuel beyond (prev_of done) s w oobr p = Some (w', o') /\
    w_ok w' /\ w_cap w' = w_cap w /\
    p = flat_map hl_source segs /\
    Forall (fun g => match g with HMark t => mark_content t | _ => True end) segs /\
    (length (flat_map hl_html segs) < w_rem w ->
     w_out w' = w_out w ++ flat_map hl_html segs) /\
    (forall s1 t s2, segs = s1 ++ HMark t :: s2 ->
      mark_place (done ++ flat_map hl_source s1) t (flat_map hl_source s2)).
Proof.
  induction fuel as [|fuel IH]; intros done s w oobr p OK Hf HI; [lia|].
  cbn [hl_loop]. destruct p as [|c p1].
  { exists w, oobr, []. split; [reflexivity|]. split; [exact OK|]. split; [reflexivity|].
    split; [reflexivity|]. split; [constructor|]. split.
    - intros _. cbn. symmetry; apply app_nil_r.
    - intros [|x s1] t s2 E; discriminate. }
  cbn [length] in Hf.
  set (s' := hl_track (prev_of done) (c :: p1) s).
  set (o1 := oobr || read2_oob (c :: p1)).
  destruct (hl_here beyond (prev_of done) s' (c :: p1)) as [k|] eqn:Eh.
  - apply hl_here_some in Eh as (t & r & Ep & L & MC & _ & _ & Hin & Q1 & Q2 & Q3 & (Q4 & Q5 & Q6) & Q7 & Q8).
    assert (HI' : indent_inv (done ++ B "==" ++ t ++ B "==") s' r).
    { apply indent_next with (s := s).
      - rewrite <- !app_assoc, <- Ep. exact HI.
      - discriminate.
      - replace (B "==" ++ t ++ B "==") with ((B "==" ++ t ++ ["="%char]) ++ ["="%char])
          by (rewrite <- !app_assoc; reflexivity).
        rewrite removelast_last. rewrite !in_app_iff. cbn. destruct MC as (_ & M2 & _). intuition discriminate.
      - rewrite <- !app_assoc, <- Ep. reflexivity. }
    assert (HP' : mark_place done t r).
    { repeat split; try assumption; try (apply prev_is_of; assumption).
      intros b ln E1 Hb N HC. apply indented_spec in HC. rewrite <- Ep in HC.
      rewrite <- (indent_track _ _ _ HI b ln E1 Hb N) in HC. fold s' in HC. congruence. }
    rewrite Ep.
    assert (firstn k (skipn 2 (B "==" ++ t ++ B "==" ++ r)) = t) as ->.
    { cbn [B list_ascii_of_string app skipn]. rewrite firstn_app, <- L, Nat.sub_diag, firstn_all.
      apply app_nil_r. }
    assert (skipn (k + 4) (B "==" ++ t ++ B "==" ++ r) = r) as ->.
    { replace (B "==" ++ t ++ B "==" ++ r) with ((B "==" ++ t ++ B "==") ++ r)
        by (rewrite <- !app_assoc; reflexivity).
      rewrite skipn_app. replace (k + 4) with (length (B "==" ++ t ++ B "=="))
        by (rewrite !app_length; cbn; lia).
      rewrite Nat.sub_diag, skipn_all. reflexivity. }
    set (w1 := w_puts_lt (B "<mark>") w).
    set (w2 := w_puts_lt t w1). set (w3 := w_puts_lt (B "</mark>") w2).
    assert (OK3 : w_ok w3) by (do 3 apply w_puts_lt_ok; assumption).
    assert (Lr : length r < fuel).
    { apply (f_equal (@length ascii)) in Ep. rewrite !app_length in Ep. cbn in Ep. lia. }
    destruct (IH (done ++ B "==" ++ t ++ B "==") s' w3 o1 r OK3 Lr HI') as (w' & o' & segs & E & OK' & C' & Es & F & O & PL).
    replace (prev_of (done ++ B "==" ++ t ++ B "==")) with (Some "="%char) in E
      by (change (B "==") with (["="%char] ++ ["="%char]); rewrite !app_assoc, prev_of_snoc; reflexivity).
    exists w', o', (HMark t :: segs). split; [exact E|]. split; [assumption|].
    split; [rewrite C'; unfold w3, w2, w1; rewrite !w_puts_lt_cap; reflexivity|].
    split; [cbn [flat_map hl_source]; rewrite <- Es, <- !app_assoc; reflexivity|].
    split; [constructor; assumption|].
    split; [|
      intros [|x s1] t' s2 Es'; [injection Es' as <- <-; cbn [flat_map]; rewrite app_nil_r, <- Es; exact HP'|];
      injection Es' as <- Es'; cbn [flat_map hl_source]; specialize (PL _ _ _ Es');
      rewrite <- !app_assoc in PL; rewrite <- !app_assoc; exact PL].
    cbn [flat_map hl_html]. rewrite !app_length. intros Hfit.
    pose proof (w_rem_puts (B "<mark>") w) as R1. fold w1 in R1.
    pose proof (w_rem_puts t w1) as R2. fold w2 in R2.
    pose proof (w_rem_puts (B "</mark>") w2) as R3. fold w3 in R3.
    rewrite O by lia. unfold w3. rewrite w_puts_lt_out by lia.
    unfold w2. rewrite w_puts_lt_out by lia.
    unfold w1. rewrite w_puts_lt_out by lia. rewrite <- !app_assoc. reflexivity.
  - destruct (IH (done ++ [c]) s' (w_put c w) o1 p1) as (w' & o' & segs & E & OK' & C' & Es & F & O & PL);
      [apply w_put_ok; assumption|lia|apply indent_next with (s := s); [exact HI|discriminate|auto|reflexivity]|].
    rewrite prev_of_snoc in E.
    exists w', o', (HPlain c :: segs). split; [exact E|]. split; [assumption|].
    split; [rewrite C', w_put_cap; reflexivity|].
    split; [cbn; congruence|]. split; [constructor; auto|].
    split; [|
      intros [|x s1] t' s2 Es'; [discriminate|];
      injection Es' as <- Es'; cbn [flat_map hl_source]; specialize (PL _ _ _ Es');
      rewrite <- !app_assoc in PL; exact PL].
    cbn [flat_map hl_html app length]. intros Hfit.
    pose proof (w_rem_put c w) as R1.
    rewrite O by lia. rewrite w_put_out by lia. rewrite <- app_assoc. reflexivity.
Qed.

Lemma hl_ok beyond text :
  exists w o segs, process_highlights beyond text = Some (w, o) /\
    text = flat_map hl_source segs /\
    Forall (fun g => match g with HMark t => mark_content t | _ => True end) segs /\
    marks_placed segs /\
    (length (flat_map hl_html segs) < 2 * length text ->
     w_out w = flat_map hl_html segs /\ w_oob w = false).
Proof.
  destruct (hl_loop_ok beyond (S (length text)) [] (Hl false false false)
              (w_new (length text * 2) (length text * 2)) false text)
    as (w & o & segs & E & OK & C & Es & F & O & PL); [apply w_ok_new|lia|left; reflexivity|].
  cbn [prev_of] in E.
  exists (w_term w), o, segs. unfold process_highlights. rewrite E.
  split; [reflexivity|]. split; [assumption|]. split; [assumption|]. split; [exact PL|].
  intros L. simpl in C, O. specialize (O ltac:(lia)).
  split; [exact O|]. apply w_term_safe; [assumption|].
  destruct OK as [OK _]. rewrite O, C in OK. lia.
Qed.

(** Without a highlight mark nothing changes. *)
Lemma flat_map_plain l : flat_map hl_html (map HPlain l) = l.
Proof. induction l; simpl; congruence. Qed.

Lemma no_mark_segs segs :
  (forall a b, flat_map hl_source segs <> a ++ B "==" ++ b) ->
  flat_map hl_html segs = flat_map hl_source segs.
Proof.
  induction segs as [|[c|t] segs IH]; intros H; [reflexivity| |].
  - cbn. f_equal. apply IH. intros a b E. apply (H (c :: a) b). cbn. rewrite E. reflexivity.
  - exfalso. apply (H [] (t ++ B "==" ++ flat_map hl_source segs)).
    cbn [flat_map hl_source app]. rewrite <- !app_assoc. reflexivity.
Qed.

Lemma hl_plain beyond text : text <> [] ->
  (forall a b, text <> a ++ B "==" ++ b) ->
  exists w o, process_highlights beyond text = Some (w, o) /\ w_out w = text /\ w_oob w = false.
Proof.
  intros HN H. destruct (hl_ok beyond text) as (w & o & segs & E & Es & F & _ & O).
  exists w, o. split; [assumption|].
  assert (flat_map hl_html segs = text) as X.
  { rewrite Es. apply no_mark_segs. intros a b. rewrite <- Es. apply H. }
  rewrite X in O. apply O. destruct text; [congruence|simpl; lia].
Qed.

(** Over-read: happens on every non-empty text. *)
Lemma hl_oobr_mono : forall fuel beyond prev s w p w' o',
  hl_loop fuel beyond prev s w true p = Some (w', o') -> o' = true.
Proof.
  induction fuel as [|fuel IH]; intros beyond prev s w p w' o' H; [discriminate|].
  cbn [hl_loop] in H. destruct p as [|c p1]; [congruence|].
  cbn [orb] in H. destruct (hl_here _ _ _ _); eapply IH; eassumption.
Qed.

Lemma hl_overread_loop beyond : forall fuel prev s w o p w' o',
  p <> [] -> hl_loop fuel beyond prev s w o p = Some (w', o') ->
  (forall a, p <> a ++ B "==") ->
  o' = true.
Proof.
  induction fuel as [|fuel IH]; intros prev s w o p w' o' HN H HE; [discriminate|].
  cbn [hl_loop] in H. destruct p as [|c p1]; [congruence|].
  destruct (hl_here beyond prev (hl_track prev (c :: p1) s) (c :: p1)) as [k|] eqn:Eh.
  - apply hl_here_some in Eh as (t & r & Ep & L & MC & _).
    assert (skipn (k + 4) (c :: p1) = r) as X.
    { rewrite Ep.
      replace (B "==" ++ t ++ B "==" ++ r) with ((B "==" ++ t ++ B "==") ++ r)
        by (rewrite <- !app_assoc; reflexivity).
      rewrite skipn_app. replace (k + 4) with (length (B "==" ++ t ++ B "=="))
        by (rewrite !app_length; cbn; nlia).
      rewrite Nat.sub_diag, skipn_all. reflexivity. }
    rewrite X in H. eapply IH; [|exact H|].
    + intros ->. apply (HE (B "==" ++ t)). rewrite Ep, app_nil_r, app_assoc. reflexivity.
    + intros a Ea. apply (HE (B "==" ++ t ++ B "==" ++ a)).
      rewrite Ep, Ea, <- !app_assoc. reflexivity.
  - destruct p1 as [|d p2].
    + cbn [read2_oob length Nat.ltb Nat.leb] in H. rewrite orb_true_r in H.
      eapply hl_oobr_mono; eassumption.
    + eapply IH; [|exact H|]; [discriminate|].
      intros a Ea. apply (HE (c :: a)). rewrite Ea. reflexivity.
Qed.

Lemma hl_overread beyond text w o : text <> [] ->
  (forall a, text <> a ++ B "==") ->
  process_highlights beyond text = Some (w, o) -> o = true.
Proof.
  intros HN HE H. unfold process_highlights in H.
  destruct (hl_loop _ _ _ _ _ _ _) as [[w' o']|] eqn:E; [|discriminate].
  injection H as <- <-. eapply hl_overread_loop; eassumption.
Qed.

Lemma hl_write_refuted : exists text beyond w o,
  process_highlights beyond text = Some (w, o) /\ w_oob w = true.
Proof.
  exists (B "==a==xxx"), []. eexists _, _. split; vm_compute; reflexivity.
Qed.

Lemma hl_lost_refuted : exists text beyond w o segs,
  process_highlights beyond text = Some (w, o) /\
  text = flat_map hl_source segs /\ 
  w_out w = B "<mark>a" /\ text = B "==a==".
Proof.
  exists (B "==a=="), []. eexists _, _, [HMark (B "a")].
  repeat split; vm_compute; reflexivity.
Qed.

(** Code spans: nothing inside is touched. *)
Lemma hl_track_inline prev p b i :
  at_ p 0 <> BT -> (hs_inline (hl_track prev p (Hl b true i)) = true /\
  hs_block (hl_track prev p (Hl b true i)) = b).
Proof.
  intros H. unfold hl_track. assert (ceq (at_ p 0) BT = false) as -> by (apply ceq_neq; assumption).
  split; reflexivity.
Qed.

Definition in_code (s : hl_state) : bool := hs_block s || hs_inline s.

Lemma hl_here_code beyond prev s p : in_code s = true -> hl_here beyond prev s p = None.
Proof.
  unfold in_code, hl_here. destruct (hs_block s), (hs_inline s); try discriminate;
    intros _; cbn; rewrite ?andb_false_r; reflexivity.
Qed.

(** Copying a back-tick-free stretch while inside code. *)
Lemma hl_copy_code beyond q : forall fuel prev s w o rest,
  in_code s = true -> ~ In BT q -> length q < w_rem w -> length q < fuel ->
  exists s' o' prev', in_code s' = true /\ hs_block s' = hs_block s /\ hs_inline s' = hs_inline s /\
   hl_loop fuel beyond prev s w o (q ++ rest)
   = hl_loop (fuel - length q) beyond prev' s' (fold_left (fun w c => w_put c w) q w) o' rest.
Proof.
  induction q as [|c q IH]; intros fuel prev s w o rest HC HB HR HF.
  - exists s, o, prev. rewrite Nat.sub_0_r. auto.
  - destruct fuel as [|fuel]; [nlia|]. cbn [app hl_loop length].
    assert (Hc : ceq c BT = false) by (apply ceq_neq; intros ->; apply HB; left; reflexivity).
    set (s1 := hl_track prev (c :: q ++ rest) s).
    assert (S1 : hs_block s1 = hs_block s /\ hs_inline s1 = hs_inline s).
    { unfold s1, hl_track. cbn [at_ nth]. rewrite Hc. split; reflexivity. }
    assert (C1 : in_code s1 = true)
      by (unfold in_code; destruct S1 as [-> ->]; exact HC).
    rewrite hl_here_code by assumption.
    cbn [length] in *.
    destruct (IH fuel (Some c) s1 (w_put c w) (o || read2_oob (c :: q ++ rest)) rest)
      as (s' & o' & prev' & H1 & H2 & H3 & H4); auto; try nlia.
    { intros I; apply HB; right; exact I. }
    { pose proof (w_rem_put c w). nlia. }
    exists s', o', prev'. destruct S1. split; [assumption|].
    split; [congruence|]. split; [congruence|]. rewrite H4. reflexivity.
Qed.

Lemma fold_put_ok q : forall w, w_ok w -> length q < w_rem w ->
  w_ok (fold_left (fun w c => w_put c w) q w) /\
  w_out (fold_left (fun w c => w_put c w) q w) = w_out w ++ q /\
  w_cap (fold_left (fun w c => w_put c w) q w) = w_cap w.
Proof.
  induction q as [|c q IH]; intros w OK H; cbn [fold_left].
  - rewrite app_nil_r; auto.
  - cbn [length] in H. pose proof (w_rem_put c w).
    destruct (IH (w_put c w)) as (A & B & C); [apply w_put_ok; assumption|nlia|].
    split; [assumption|]. split.
    + rewrite B, w_put_out by nlia. rewrite <- app_assoc. reflexivity.
    + rewrite C, w_put_cap. reflexivity.
Qed.

(** Copying a stretch in which no [==] starts. *)
Lemma hl_copy_plain beyond q : forall fuel prev s w o rest,
  ~ In BT q -> (forall a b, q ++ rest = a ++ B "==" ++ b -> length q <= length a) ->
  length q < w_rem w -> length q < fuel ->
  exists s' o' prev', hs_block s' = hs_block s /\ hs_inline s' = hs_inline s /\
   (q <> [] -> prev' = Some (last q NUL)) /\
   (q = [] -> prev' = prev) /\
   hl_loop fuel beyond prev s w o (q ++ rest)
   = hl_loop (fuel - length q) beyond prev' s' (fold_left (fun w c => w_put c w) q w) o' rest.
Proof.
  induction q as [|c q IH]; intros fuel prev s w o rest HB HE HR HF.
  - exists s, o, prev. rewrite Nat.sub_0_r. repeat split; auto. congruence.
  - destruct fuel as [|fuel]; [nlia|]. cbn [app hl_loop length].
    assert (Hc : ceq c BT = false) by (apply ceq_neq; intros ->; apply HB; left; reflexivity).
    set (s1 := hl_track prev (c :: q ++ rest) s).
    assert (S1 : hs_block s1 = hs_block s /\ hs_inline s1 = hs_inline s).
    { unfold s1, hl_track. cbn [at_ nth]. rewrite Hc. split; reflexivity. }
    destruct (hl_here beyond prev s1 (c :: q ++ rest)) as [k|] eqn:Eh.
    { apply hl_here_some in Eh as (t & r & Ep & _). exfalso.
      specialize (HE [] (t ++ B "==" ++ r) Ep). simpl in HE. nlia. }
    cbn [length] in *.
    destruct (IH fuel (Some c) s1 (w_put c w) (o || read2_oob (c :: q ++ rest)) rest)
      as (s' & o' & prev' & H2 & H3 & H4 & H5 & H6); auto; try nlia.
    { intros I; apply HB; right; exact I. }
    { intros a b E. specialize (HE (c :: a) b). simpl in HE. rewrite E in HE.
      specialize (HE eq_refl). nlia. }
    { pose proof (w_rem_put c w). nlia. }
    exists s', o', prev'. destruct S1. split; [congruence|]. split; [congruence|].
    split.
    { intros _. destruct q as [|d q]; [apply H5; reflexivity|].
      rewrite H4 by discriminate. reflexivity. }
    split; [discriminate|]. rewrite H6. reflexivity.
Qed.

Lemma w_put_extends c w : exists e, w_out (w_put c w) = w_out w ++ e.
Proof.
  unfold w_put. destruct (_ <? _); [exists [c]; reflexivity|exists []; symmetry; apply app_nil_r].
Qed.
Lemma w_puts_lt_extends s w : exists e, w_out (w_puts_lt s w) = w_out w ++ e.
Proof.
  unfold w_puts_lt. destruct (_ <? _); [exists s; reflexivity|exists []; symmetry; apply app_nil_r].
Qed.

Lemma hl_extends beyond : forall fuel prev s w o p w' o',
  hl_loop fuel beyond prev s w o p = Some (w', o') ->
  exists e, w_out w' = w_out w ++ e.
Proof.
  induction fuel as [|fuel IH]; intros prev s w o p w' o' H; [discriminate|].
  cbn [hl_loop] in H. destruct p as [|c p1].
  { injection H as <- <-. exists []. symmetry; apply app_nil_r. }
  destruct (hl_here _ _ _ _) as [k|].
  - apply IH in H as [e ->].
    set (w1 := w_puts_lt (B "<mark>") w).
    set (w2 := w_puts_lt (firstn k (skipn 2 (c :: p1))) w1).
    destruct (w_puts_lt_extends (B "</mark>") w2) as [e3 ->].
    destruct (w_puts_lt_extends (firstn k (skipn 2 (c :: p1))) w1) as [e2 E2].
    fold w2 in E2. rewrite E2.
    destruct (w_puts_lt_extends (B "<mark>") w) as [e1 E1]. fold w1 in E1. rewrite E1.
    rewrite <- !app_assoc. eexists; reflexivity.
  - apply IH in H as [e ->]. destruct (w_put_extends c w) as [e1 ->].
    rewrite <- app_assoc. eexists; reflexivity.
Qed.


(** One back-tick step. *)
Lemma hl_tick_step beyond fuel prev s w o rest :
  hl_here beyond prev (hl_track prev (BT :: rest) s) (BT :: rest) = None ->
  hl_loop (S fuel) beyond prev s w o (BT :: rest)
  = hl_loop fuel beyond (Some BT) (hl_track prev (BT :: rest) s) (w_put BT w)
      (o || read2_oob (BT :: rest)) rest.
Proof. intros H. cbn [hl_loop]. rewrite H. reflexivity. Qed.

Lemma hl_here_tick beyond prev s rest : hl_here beyond prev s (BT :: rest) = None.
Proof.
  unfold hl_here. assert (hl_start prev (BT :: rest) (read2 beyond (BT :: rest)) = false) as ->
    by reflexivity. rewrite andb_false_r. reflexivity.
Qed.

Lemma hl_code_span beyond pre code post :
  ~ In BT pre -> (forall a b, pre <> a ++ B "==" ++ b) ->
  code <> [] -> ~ In BT code -> (forall r, post <> BT :: r) ->
  exists w o e, process_highlights beyond (pre ++ [BT] ++ code ++ [BT] ++ post) = Some (w, o) /\
    w_out w = pre ++ [BT] ++ code ++ [BT] ++ e.
Proof.
  intros HP HE HC HB HT.
  set (text := pre ++ [BT] ++ code ++ [BT] ++ post).
  assert (LT : length text = length pre + length code + length post + 2)
    by (unfold text; rewrite !app_length; simpl; nlia).
  assert (LC : 0 < length code) by (destruct code; [congruence|simpl; nlia]).
  unfold process_highlights.
  assert (TOT : exists w' o' segs,
    hl_loop (S (length text)) beyond None (Hl false false false)
      (w_new (length text * 2) (length text * 2)) false text = Some (w', o') /\
    w_ok w' /\ w_cap w' = length text * 2 /\ text = flat_map hl_source segs /\
    Forall (fun g => match g with HMark t => mark_content t | _ => True end) segs /\
    (length (flat_map hl_html segs) < length text * 2 -> w_out w' = [] ++ flat_map hl_html segs)).
  { destruct (hl_loop_ok beyond (S (length text)) [] (Hl false false false)
             (w_new (length text * 2) (length text * 2)) false text)
      as (w' & o' & segs & H1 & H2 & H3 & H4 & H5 & H6 & _); [apply w_ok_new|nlia|left; reflexivity|].
    exists w', o', segs. auto 8. }
  destruct TOT as (w' & o' & _ & TOT & _). rewrite TOT. cbn [option_map fst snd].
  remember (S (length text)) as fuel eqn:Ef.
  remember (w_new (length text * 2) (length text * 2)) as w0 eqn:Ew0.
  assert (OK0 : w_ok w0) by (subst w0; apply w_ok_new).
  assert (R0 : w_rem w0 = 2 * length text) by (subst w0; simpl; nlia).
  assert (O0 : w_out w0 = []) by (subst w0; reflexivity).
  unfold text in TOT. 
  destruct (hl_copy_plain beyond pre fuel None (Hl false false false) w0 false
              ([BT] ++ code ++ [BT] ++ post))
    as (s1 & o1 & p1 & B1 & I1 & _ & _ & E1); try assumption; try nlia.
  { intros a b E. destruct (Nat.le_gt_cases (length pre) (length a)) as [|L]; [assumption|].
    exfalso. (* "==" would start inside pre *)
    assert (X : nth (S (length a)) (pre ++ [BT] ++ code ++ [BT] ++ post) NUL = "="%char).
    { rewrite E. rewrite app_nth2 by nlia. replace (S (length a) - length a) with 1 by nlia. reflexivity. }
    destruct (Nat.eq_dec (S (length a)) (length pre)) as [L1|L1].
    - rewrite L1, app_nth2, Nat.sub_diag in X by nlia. discriminate.
    - apply (HE a (skipn (length a + 2) pre)).
      rewrite <- (firstn_skipn (length a + 2) pre) at 1. rewrite app_assoc. f_equal.
      assert (Z : firstn (length a + 2) (pre ++ [BT] ++ code ++ [BT] ++ post)
                  = firstn (length a + 2) (a ++ B "==" ++ b)) by (rewrite E; reflexivity).
      rewrite firstn_app in Z. replace (length a + 2 - length pre) with 0 in Z by nlia.
      rewrite firstn_O, app_nil_r in Z. rewrite Z.
      rewrite app_assoc, firstn_app.
      replace (length a + 2 - length (a ++ B "==")) with 0 by (rewrite app_length; cbn; nlia).
      rewrite firstn_O, app_nil_r. apply firstn_all2. rewrite app_length; cbn; nlia. }
  rewrite E1 in TOT. clear E1.
  destruct (fold_put_ok pre w0 OK0) as (OKa & Oa & Ca); [nlia|].
  remember (fold_left (fun w c => w_put c w) pre w0) as wa eqn:Ewa. clear Ewa.
  assert (Ra : w_rem wa = 2 * length text - length pre).
  { destruct OKa as [X _]. destruct OK0 as [Y _]. rewrite Oa, O0 in X. rewrite O0 in Y. simpl in X, Y. nlia. }
  remember (fuel - length pre) as fa eqn:Efa.
  assert (Fa : length code + length post + 2 < fa) by nlia. clear Efa Ef.
  destruct fa as [|fa]; [nlia|]. cbn [app] in TOT.
  rewrite hl_tick_step in TOT by apply hl_here_tick.
  assert (S2 : in_code (hl_track p1 (BT :: code ++ BT :: post) s1) = true /\
               hs_inline (hl_track p1 (BT :: code ++ BT :: post) s1) = true /\
               hs_block (hl_track p1 (BT :: code ++ BT :: post) s1) = false).
  { unfold hl_track. cbn [at_ nth]. rewrite ceq_refl.
    destruct code as [|d code]; [congruence|]. cbn [app nth].
    assert (ceq d BT = false) as -> by (apply ceq_neq; intros ->; apply HB; left; reflexivity).
    cbn [andb]. rewrite B1, I1. cbn [hs_block hs_inline negb]. auto. }
  destruct S2 as (C2 & I2 & B2).
  remember (hl_track p1 (BT :: code ++ BT :: post) s1) as s2 eqn:Es2. clear Es2.
  assert (OKb : w_ok (w_put BT wa)) by (apply w_put_ok; assumption).
  assert (Ob : w_out (w_put BT wa) = pre ++ [BT]) by (rewrite w_put_out, Oa, O0 by nlia; reflexivity).
  pose proof (w_rem_put BT wa) as Rb.
  remember (w_put BT wa) as wb eqn:Ewb. clear Ewb.
  match type of TOT with hl_loop _ _ ?pv _ _ ?ov _ = _ =>
    destruct (hl_copy_code beyond code fa pv s2 wb ov (BT :: post))
      as (s3 & o3 & p3 & C3 & B3 & I3 & E3); try assumption; try nlia end.
  rewrite E3 in TOT. clear E3.
  destruct (fold_put_ok code wb OKb) as (OKc & Oc & Cc); [nlia|].
  remember (fold_left (fun w c => w_put c w) code wb) as wc eqn:Ewc. clear Ewc.
  remember (fa - length code) as fc eqn:Efc.
  destruct fc as [|fc]; [nlia|].
  rewrite hl_tick_step in TOT by apply hl_here_tick.
  apply hl_extends in TOT as [e He].
  exists (w_term w'), o', e. split; [reflexivity|]. cbn [w_term w_out]. rewrite He.
  rewrite w_put_out, Oc, Ob.
  - rewrite <- !app_assoc. reflexivity.
  - destruct OKc as [X _]. rewrite Oc, Cc in X. destruct OKb as [Y _].
    rewrite app_length in X. nlia.
Qed.

(** Recognition of a simple highlight. *)
Definition simple_content (t : str) : Prop :=
  mark_content t /\ ~ In "="%char t /\ ~ In "+"%char t /\ (forall r, t <> "}"%char :: r) /\
  nul_free t.

Lemma hl_close_simple : forall t before post,
  ~ In NL t -> ~ In CR t -> ~ In "="%char t -> ~ In "+"%char t ->
  (forall r, post <> "="%char :: r) -> (forall r, post <> "+"%char :: r) ->
  match t with
  | [] => prev_is before SP = false /\ prev_is before TAB = false /\ prev_is before "+" = false
  | _ => last t NUL <> SP /\ last t NUL <> TAB
  end ->
  hl_close before (t ++ B "==" ++ post) = Some (length t).
Proof.
  induction t as [|c t IH]; intros before post N1 N2 N3 N4 P1 P2 HL.
  - cbn [app B list_ascii_of_string hl_close].
    change (ceq "=" NL || ceq "=" CR) with false. cbn iota.
    change (starts (B "==") ("="%char :: "="%char :: post)) with true.
    destruct HL as (-> & -> & ->). cbn [orb negb andb]. unfold at_. cbn [nth].
    assert (ceq (nth 0 post NUL) "=" = false) as ->.
    { apply ceq_neq. destruct post as [|d post]; [discriminate|]. cbn. intros ->.
      destruct (P1 post eq_refl). }
    assert (ceq (nth 0 post NUL) "+" = false) as ->.
    { apply ceq_neq. destruct post as [|d post]; [discriminate|]. cbn. intros ->.
      destruct (P2 post eq_refl). }
    reflexivity.
  - cbn [app hl_close].
    assert (ceq c NL = false) as -> by (apply ceq_neq; intros ->; apply N1; left; reflexivity).
    assert (ceq c CR = false) as -> by (apply ceq_neq; intros ->; apply N2; left; reflexivity).
    assert (starts (B "==") (c :: t ++ B "==" ++ post) = false) as ->.
    { cbn [B list_ascii_of_string starts].
      assert (ceq "=" c = false) as -> by (apply ceq_neq; intros <-; apply N3; left; reflexivity).
      reflexivity. }
    cbn [orb andb]. rewrite IH; auto; try (intros I; ((apply N1 + apply N2 + apply N3 + apply N4); right; exact I)).
    destruct t as [|d t]; [|exact HL]. cbn [last] in HL. destruct HL as [L1 L2].
    cbn [prev_is]. repeat split; apply ceq_neq; auto.
    intros ->; apply N4; left; reflexivity.
Qed.

Lemma last_cases (t : str) c : t <> [] -> last t NUL = c -> exists r, t = r ++ [c].
Proof.
  intros H <-. exists (removelast t). apply app_removelast_last. assumption.
Qed.

Lemma line_indent_false (p : str) :
  at_ p 0 <> SP -> at_ p 0 <> TAB -> line_is_indented_code_block p = false.
Proof.
  intros H1 H2. unfold line_is_indented_code_block.
  assert (ceq (at_ p 0) TAB = false) as -> by (apply ceq_neq; assumption).
  destruct p as [|c p]; [reflexivity|]. cbn [at_ nth] in H1.
  cbn [B list_ascii_of_string starts].
  assert (ceq " " c = false) as -> by (apply ceq_neq; intros <-; apply H1; reflexivity).
  reflexivity.
Qed.

(** [hl_copy_plain] again, tracking that no indented code starts. *)
Lemma hl_copy_line beyond q : forall fuel prev s w o rest,
  ~ In BT q -> ~ In NL q ->
  (forall a b, q ++ rest = a ++ B "==" ++ b -> length q <= length a) ->
  at_line_start prev = false -> s = Hl false false false ->
  length q < w_rem w -> length q < fuel ->
  exists o' prev', at_line_start prev' = false /\
   (q <> [] -> prev' = Some (last q NUL)) /\ (q = [] -> prev' = prev) /\
   hl_loop fuel beyond prev s w o (q ++ rest)
   = hl_loop (fuel - length q) beyond prev' s (fold_left (fun w c => w_put c w) q w) o' rest.
Proof.
  induction q as [|c q IH]; intros fuel prev s w o rest HB HNL HE HLS Hs HR HF.
  - exists o, prev. rewrite Nat.sub_0_r. repeat split; auto. congruence.
  - destruct fuel as [|fuel]; [nlia|]. cbn [app hl_loop length].
    assert (Hc : ceq c BT = false) by (apply ceq_neq; intros ->; apply HB; left; reflexivity).
    assert (Hn : ceq c NL = false) by (apply ceq_neq; intros ->; apply HNL; left; reflexivity).
    assert (S1 : hl_track prev (c :: q ++ rest) s = s).
    { unfold hl_track. rewrite HLS. cbn [at_ nth]. rewrite Hc. subst s; reflexivity. }
    rewrite S1.
    destruct (hl_here beyond prev s (c :: q ++ rest)) as [k|] eqn:Eh.
    { apply hl_here_some in Eh as (t & r & Ep & _). exfalso.
      specialize (HE [] (t ++ B "==" ++ r) Ep). simpl in HE. nlia. }
    cbn [length] in *.
    destruct (IH fuel (Some c) s (w_put c w) (o || read2_oob (c :: q ++ rest)) rest)
      as (o' & prev' & H2 & H4 & H5 & H6); auto; try nlia.
    { intros I; apply HB; right; exact I. }
    { intros I; apply HNL; right; exact I. }
    { intros a b E. specialize (HE (c :: a) b). simpl in HE. rewrite E in HE.
      specialize (HE eq_refl). nlia. }
    { pose proof (w_rem_put c w). nlia. }
    exists o', prev'. split; [assumption|].
    split.
    { intros _. destruct q as [|d q]; [apply H5; reflexivity|].
      rewrite H4 by discriminate. reflexivity. }
    split; [discriminate|]. rewrite H6. reflexivity.
Qed.

Lemma starts_eqeq_in (pre : str) t r :
  (forall a b, pre <> a ++ B "==" ++ b) -> last pre NUL <> "="%char ->
  forall a b, pre ++ B "==" ++ t ++ r = a ++ B "==" ++ b -> length pre <= length a.
Proof.
  intros HE HL a b E. destruct (Nat.le_gt_cases (length pre) (length a)) as [|L]; [assumption|].
  exfalso.
  destruct (Nat.eq_dec (S (length a)) (length pre)) as [L1|L1].
  - apply HL. assert (X : nth (length a) (pre ++ B "==" ++ t ++ r) NUL = "="%char).
    { rewrite E, app_nth2, Nat.sub_diag by nlia. reflexivity. }
    rewrite app_nth1 in X by nlia.
    assert (pre <> []) as NE by (intros ->; simpl in L; nlia).
    rewrite (app_removelast_last NUL NE) in X |- *.
    assert (length (removelast pre) = length a) as LR.
    { assert (Y := app_removelast_last NUL NE). apply (f_equal (@length ascii)) in Y.
      rewrite app_length in Y. simpl in Y. nlia. }
    rewrite app_nth2 in X by nlia. rewrite LR, Nat.sub_diag in X. cbn [nth] in X.
    rewrite last_last. exact X.
  - apply (HE a (skipn (length a + 2) pre)).
    rewrite <- (firstn_skipn (length a + 2) pre) at 1. rewrite app_assoc. f_equal.
    assert (Z : firstn (length a + 2) (pre ++ B "==" ++ t ++ r)
                = firstn (length a + 2) (a ++ B "==" ++ b)) by (rewrite E; reflexivity).
    rewrite firstn_app in Z. replace (length a + 2 - length pre) with 0 in Z by nlia.
    rewrite firstn_O, app_nil_r in Z. rewrite Z.
    rewrite app_assoc, firstn_app.
    replace (length a + 2 - length (a ++ B "==")) with 0 by (rewrite app_length; cbn; nlia).
    rewrite firstn_O, app_nil_r. apply firstn_all2. rewrite app_length; cbn; nlia.
Qed.

Lemma hl_recognised beyond pre t post :
  ~ In BT pre -> ~ In NL pre -> (forall a b, pre <> a ++ B "==" ++ b) ->
  at_ pre 0 <> SP -> at_ pre 0 <> TAB ->
  last pre NUL <> "="%char -> last pre NUL <> "+"%char -> last pre NUL <> "{"%char ->
  simple_content t ->
  (forall r, post <> "="%char :: r) -> (forall r, post <> "+"%char :: r) ->
  9 <= length pre + length t + 2 * length post ->
  exists w o e,
    process_highlights beyond (pre ++ B "==" ++ t ++ B "==" ++ post) = Some (w, o) /\
    w_out w = pre ++ B "<mark>" ++ t ++ B "</mark>" ++ e.
Proof.
  intros P1 P2 P3 P4 P5 P6 P7 P8 (MC & T1 & T2 & T3 & T4) Q1 Q2 HFIT.
  set (text := pre ++ B "==" ++ t ++ B "==" ++ post).
  assert (LT : length text = length pre + length t + length post + 4)
    by (unfold text; rewrite !app_length; cbn; nlia).
  destruct MC as (TN & TNL & TCR & TF & TL).
  assert (0 < length t) by (destruct t; [congruence|simpl; nlia]).
  unfold process_highlights.
  destruct (hl_loop_ok beyond (S (length text)) [] (Hl false false false)
             (w_new (length text * 2) (length text * 2)) false text)
    as (w' & o' & segs & TOT & _); [apply w_ok_new|nlia|left; reflexivity|].
  cbn [prev_of] in TOT.
  rewrite TOT. cbn [option_map fst snd].
  assert (TRk : forall r, hl_track None (pre ++ B "==" ++ r) (Hl false false false)
                          = Hl false false false).
  { intros r. unfold hl_track. cbn [at_line_start].
    rewrite line_indent_false.
    - destruct pre as [|c pre]; [reflexivity|]. cbn [app at_ nth].
      assert (ceq c BT = false) as -> by (apply ceq_neq; intros ->; apply P1; left; reflexivity).
      reflexivity.
    - destruct pre as [|c pre]; [discriminate|assumption].
    - destruct pre as [|c pre]; [discriminate|assumption]. }
  remember (S (length text)) as fuel eqn:Ef.
  remember (w_new (length text * 2) (length text * 2)) as w0 eqn:Ew0.
  assert (OK0 : w_ok w0) by (subst w0; apply w_ok_new).
  assert (R0 : w_rem w0 = 2 * length text) by (subst w0; simpl; nlia).
  assert (O0 : w_out w0 = []) by (subst w0; reflexivity).
  unfold text in TOT.
  assert (STEP : exists o1 p1 f1,
     (pre = [] -> p1 = None) /\ (pre <> [] -> p1 = Some (last pre NUL)) /\
     f1 = fuel - length pre /\
     hl_loop f1 beyond p1 (Hl false false false)
       (fold_left (fun w c => w_put c w) pre w0) o1 (B "==" ++ t ++ B "==" ++ post) = Some (w', o')).
  { destruct pre as [|c pre].
    - exists false, None, fuel. cbn [length fold_left]. rewrite Nat.sub_0_r.
      repeat split; auto. congruence.
    - destruct fuel as [|fuel]; [nlia|]. cbn [app hl_loop] in TOT.
      specialize (TRk (t ++ B "==" ++ post)). cbn [app] in TRk. rewrite TRk in TOT.
      assert (HH : hl_here beyond None (Hl false false false) (c :: pre ++ B "==" ++ t ++ B "==" ++ post) = None).
      { destruct (hl_here _ _ _ _) eqn:Eh; [|reflexivity].
        apply hl_here_some in Eh as (t' & r & Ep & _). exfalso.
        pose proof (starts_eqeq_in (c :: pre) t (B "==" ++ post) P3 P6 [] _ Ep) as X.
        simpl in X. nlia. }
      rewrite HH in TOT. cbn [length fold_left].
      cbn [length] in LT.
      pose proof (w_rem_put c w0) as RR.
      match type of TOT with hl_loop _ _ _ _ _ ?ov _ = _ =>
        destruct (hl_copy_line beyond pre fuel (Some c) (Hl false false false) (w_put c w0) ov
                    (B "==" ++ t ++ B "==" ++ post))
          as (o1 & p1 & _ & H4 & H5 & H6) end; auto; try nlia.
      + intros I; apply P1; right; exact I.
      + intros I; apply P2; right; exact I.
      + intros a b E. pose proof (starts_eqeq_in (c :: pre) t (B "==" ++ post) P3 P6 (c :: a) b) as X.
        cbn [app] in X. rewrite E in X. specialize (X eq_refl). simpl in X. nlia.
      + cbn [at_line_start]. apply ceq_neq. intros ->. apply P2; left; reflexivity.
      + exists o1, p1, (fuel - length pre). split; [discriminate|]. split.
        { intros _. destruct pre as [|d pre]; [apply H5; reflexivity|].
          rewrite H4 by discriminate. reflexivity. }
        split; [nlia|]. rewrite <- H6. exact TOT. }
  destruct STEP as (o1 & p1 & f1 & N1 & N2 & F1 & TOT1). clear TOT.
  destruct (fold_put_ok pre w0 OK0) as (OKa & Oa & Ca); [nlia|].
  remember (fold_left (fun w c => w_put c w) pre w0) as wa eqn:Ewa. clear Ewa.
  assert (Ra : w_rem wa = 2 * length text - length pre).
  { destruct OKa as [X _]. destruct OK0 as [Y _]. rewrite Oa, O0 in X. rewrite O0 in Y. simpl in X, Y. nlia. }
  assert (F1' : 0 < f1) by nlia. destruct f1 as [|f1]; [nlia|]. clear F1 F1'.
  cbn [B list_ascii_of_string app] in TOT1. cbn [hl_loop] in TOT1.
  assert (PV : prev_is p1 "=" = false /\ prev_is p1 "+" = false /\ prev_is p1 "{" = false /\
               hl_track p1 ("="%char :: "="%char :: t ++ "="%char :: "="%char :: post)
                 (Hl false false false) = Hl false false false).
  { destruct pre as [|c pre].
    - rewrite (N1 eq_refl). repeat split; auto.
    - rewrite N2 by discriminate. cbn [prev_is]. repeat split; try (apply ceq_neq; assumption).
      unfold hl_track. cbn [at_line_start].
      assert (ceq (last (c :: pre) NUL) NL = false) as ->; [|reflexivity].
      apply ceq_neq. intros E. apply P2.
      destruct (last_cases (c :: pre) NL ltac:(discriminate) E) as [r ->].
      rewrite in_app_iff; right; left; reflexivity. }
  destruct PV as (PV1 & PV2 & PV3 & TR). rewrite TR in TOT1.
  assert (HH : hl_here beyond p1 (Hl false false false)
             ("="%char :: "="%char :: t ++ "="%char :: "="%char :: post) = Some (length t)).
  { unfold hl_here. cbn [hs_block hs_inline hs_indent negb andb]. rewrite PV3.
    assert (hl_start p1 ("="%char :: "="%char :: t ++ "="%char :: "="%char :: post)
              (read2 beyond ("="%char :: "="%char :: t ++ "="%char :: "="%char :: post)) = true) as ->.
    { unfold hl_start. rewrite PV1, PV2. unfold read2.
      destruct t as [|c t]; [congruence|]. cbn [app nth].
      change (starts (B "==") ("="%char :: "="%char :: c :: t ++ "="%char :: "="%char :: post)) with true.
      assert (forall d, c <> d -> ceq c d = false) as NE by (intros d; apply ceq_neq).
      rewrite !NE; [reflexivity| | | | | | | |].
      - intros ->. apply T2; left; reflexivity.
      - intros ->. apply (TF TAB t eq_refl). right; reflexivity.
      - intros ->. apply (TF SP t eq_refl). left; reflexivity.
      - intros ->. apply TCR; left; reflexivity.
      - intros ->. apply TNL; left; reflexivity.
      - intros ->. apply T4; left; reflexivity.
      - intros ->. apply (T3 t eq_refl).
      - intros ->. apply T1; left; reflexivity. }
    cbn [negb andb skipn].
    assert (hl_close None (t ++ B "==" ++ post) = Some (length t)) as X.
    { apply hl_close_simple; auto. destruct t as [|c t]; [congruence|].
      split; intros E; destruct (last_cases (c :: t) _ ltac:(discriminate) E) as [r Er];
        apply (TL _ _ Er); [left|right]; reflexivity. }
    cbn [B list_ascii_of_string app] in X. rewrite X.
    assert (0 <? length t = true) as -> by (apply Nat.ltb_lt; assumption). reflexivity. }
  rewrite HH in TOT1. cbn [skipn] in TOT1.
  rewrite firstn_app, Nat.sub_diag, firstn_all, firstn_O, app_nil_r in TOT1.
  apply hl_extends in TOT1 as [e He]. exists (w_term w'), o', e.
  split; [reflexivity|]. cbn [w_term w_out]. rewrite He.
  set (w1 := w_puts_lt (B "<mark>") wa) in *.
  set (w2 := w_puts_lt t w1) in *.
  pose proof (w_rem_puts (B "<mark>") wa) as R1. fold w1 in R1.
  pose proof (w_rem_puts t w1) as R2. fold w2 in R2.
  change (length (B "<mark>")) with 6 in R1.
  change ["<"%char; "/"%char; "m"%char; "a"%char; "r"%char; "k"%char; ">"%char] with (B "</mark>").
  rewrite w_puts_lt_out by (change (length (B "</mark>")) with 7; nlia).
  unfold w2. rewrite w_puts_lt_out by nlia.
  unfold w1. rewrite w_puts_lt_out by (change (length (B "<mark>")) with 6; nlia).
  rewrite Oa, O0. rewrite <- !app_assoc. reflexivity.
Qed.

(** Fenced code. *)
Lemma no_eqeq_prefix (pre rest : str) :
  (forall a b, pre <> a ++ B "==" ++ b) -> (forall r, rest <> "="%char :: r) ->
  forall a b, pre ++ rest = a ++ B "==" ++ b -> length pre <= length a.
Proof.
  intros HE HR a b E. destruct (Nat.le_gt_cases (length pre) (length a)) as [|L]; [assumption|].
  exfalso.
  assert (X : nth (S (length a)) (pre ++ rest) NUL = "="%char).
  { rewrite E. rewrite app_nth2 by nlia. replace (S (length a) - length a) with 1 by nlia. reflexivity. }
  destruct (Nat.eq_dec (S (length a)) (length pre)) as [L1|L1].
  - rewrite L1, app_nth2, Nat.sub_diag in X by nlia. destruct rest as [|x rest]; [discriminate|].
    cbn in X. subst x. destruct (HR rest eq_refl).
  - apply (HE a (skipn (length a + 2) pre)).
    rewrite <- (firstn_skipn (length a + 2) pre) at 1. rewrite app_assoc. f_equal.
    assert (Z : firstn (length a + 2) (pre ++ rest)
                = firstn (length a + 2) (a ++ B "==" ++ b)) by (rewrite E; reflexivity).
    rewrite firstn_app in Z. replace (length a + 2 - length pre) with 0 in Z by nlia.
    rewrite firstn_O, app_nil_r in Z. rewrite Z.
    rewrite app_assoc, firstn_app.
    replace (length a + 2 - length (a ++ B "==")) with 0 by (rewrite app_length; cbn; nlia).
    rewrite firstn_O, app_nil_r. apply firstn_all2. rewrite app_length; cbn; nlia.
Qed.

Lemma hl_fenced beyond pre code post :
  ~ In BT pre -> (forall a b, pre <> a ++ B "==" ++ b) ->
  ~ In BT code -> code <> [] ->
  exists w o e, process_highlights beyond (pre ++ B "```" ++ code ++ B "```" ++ post) = Some (w, o) /\
    w_out w = pre ++ B "```" ++ code ++ e.
Proof.
  intros HP HE HB HN.
  set (text := pre ++ B "```" ++ code ++ B "```" ++ post).
  assert (LT : length text = length pre + length code + length post + 6)
    by (unfold text; rewrite !app_length; cbn [length B list_ascii_of_string]; nlia).
  unfold process_highlights.
  destruct (hl_loop_ok beyond (S (length text)) [] (Hl false false false)
             (w_new (length text * 2) (length text * 2)) false text)
    as (w' & o' & segs & TOT & _); [apply w_ok_new|nlia|left; reflexivity|].
  cbn [prev_of] in TOT. rewrite TOT. cbn [option_map fst snd].
  remember (S (length text)) as fuel eqn:Ef.
  remember (w_new (length text * 2) (length text * 2)) as w0 eqn:Ew0.
  assert (OK0 : w_ok w0) by (subst w0; apply w_ok_new).
  assert (R0 : w_rem w0 = 2 * length text) by (subst w0; simpl; nlia).
  assert (O0 : w_out w0 = []) by (subst w0; reflexivity).
  unfold text in TOT.
  destruct (hl_copy_plain beyond pre fuel None (Hl false false false) w0 false
              (B "```" ++ code ++ B "```" ++ post))
    as (s1 & o1 & p1 & B1 & I1 & _ & _ & E1); try assumption; try nlia.
  { apply no_eqeq_prefix; [assumption|]. intros r; discriminate. }
  rewrite E1 in TOT. clear E1.
  destruct (fold_put_ok pre w0 OK0) as (OKa & Oa & Ca); [nlia|].
  remember (fold_left (fun w c => w_put c w) pre w0) as wa eqn:Ewa. clear Ewa.
  assert (Ra : w_rem wa = 2 * length text - length pre).
  { destruct OKa as [X _]. destruct OK0 as [Y _]. rewrite Oa, O0 in X. rewrite O0 in Y. simpl in X, Y. nlia. }
  remember (fuel - length pre) as fa eqn:Efa.
  assert (Fa : length code + length post + 6 < fa) by nlia. clear Efa Ef.
  cbn [B list_ascii_of_string app] in TOT. change "`"%char with BT in TOT.
  destruct fa as [|fa]; [nlia|].
  rewrite hl_tick_step in TOT by apply hl_here_tick.
  assert (S2 : hs_block (hl_track p1 (BT :: BT :: BT :: code ++ BT :: BT :: BT :: post) s1) = true).
  { unfold hl_track. cbn [at_ nth]. rewrite ceq_refl. cbn [andb]. rewrite B1. reflexivity. }
  remember (hl_track p1 (BT :: BT :: BT :: code ++ BT :: BT :: BT :: post) s1) as s2 eqn:Es2. clear Es2.
  destruct fa as [|fa]; [nlia|].
  rewrite hl_tick_step in TOT by apply hl_here_tick.
  assert (BK : forall d r q s, d <> BT -> hs_block s = true ->
     hs_block (hl_track q (BT :: d :: r) s) = true).
  { intros d r q s Hd Hs. unfold hl_track. cbn [at_ nth]. rewrite ceq_refl.
    assert (ceq d BT = false) as -> by (apply ceq_neq; assumption).
    cbn [andb]. rewrite Hs. reflexivity. }
  assert (BK2 : forall d r q s, d <> BT -> hs_block s = true ->
     hs_block (hl_track q (BT :: BT :: d :: r) s) = true).
  { intros d r q s Hd Hs. unfold hl_track. cbn [at_ nth]. rewrite ceq_refl.
    assert (ceq d BT = false) as -> by (apply ceq_neq; assumption).
    cbn [andb]. rewrite Hs. reflexivity. }
  assert (HD : exists d code', code = d :: code' /\ d <> BT).
  { destruct code as [|d code']; [congruence|]. exists d, code'. split; [reflexivity|].
    intros ->. apply HB; left; reflexivity. }
  destruct HD as (d & code' & Ec & Hd).
  assert (S3 : hs_block (hl_track (Some BT) (BT :: BT :: code ++ BT :: BT :: BT :: post) s2) = true).
  { rewrite Ec. apply BK2; assumption. }
  remember (hl_track (Some BT) (BT :: BT :: code ++ BT :: BT :: BT :: post) s2) as s3 eqn:Es3. clear Es3.
  destruct fa as [|fa]; [nlia|].
  rewrite hl_tick_step in TOT by apply hl_here_tick.
  assert (S4 : hs_block (hl_track (Some BT) (BT :: code ++ BT :: BT :: BT :: post) s3) = true).
  { rewrite Ec. apply BK; assumption. }
  remember (hl_track (Some BT) (BT :: code ++ BT :: BT :: BT :: post) s3) as s4 eqn:Es4. clear Es4.
  pose proof (w_rem_put BT wa) as Rb.
  pose proof (w_rem_put BT (w_put BT wa)) as Rb2.
  pose proof (w_rem_put BT (w_put BT (w_put BT wa))) as Rb3.
  assert (OKb : w_ok (w_put BT (w_put BT (w_put BT wa)))) by (do 3 apply w_put_ok; assumption).
  assert (Ob : w_out (w_put BT (w_put BT (w_put BT wa))) = pre ++ [BT; BT; BT]).
  { rewrite !w_put_out, Oa, O0 by nlia. rewrite <- !app_assoc. reflexivity. }
  remember (w_put BT (w_put BT (w_put BT wa))) as wb eqn:Ewb. clear Ewb.
  match type of TOT with hl_loop _ _ ?pv _ _ ?ov _ = _ =>
    destruct (hl_copy_code beyond code fa pv s4 wb ov (BT :: BT :: BT :: post))
      as (s5 & o3 & p3 & C3 & B3 & I3 & E3); try assumption; try nlia end.
  { unfold in_code. rewrite S4. reflexivity. }
  rewrite E3 in TOT. clear E3.
  destruct (fold_put_ok code wb OKb) as (OKc & Oc & Cc); [nlia|].
  apply hl_extends in TOT as [e He].
  exists (w_term w'), o', e. split; [reflexivity|]. cbn [w_term w_out]. rewrite He, Oc, Ob.
  rewrite <- !app_assoc. reflexivity.
Qed.
