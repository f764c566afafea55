(** Proofs about M_Toc: finding and replacing the marker. *)
From Verif Require Import Base BaseL Dec M_Toc S_Toc L_Toc L_Toc2.

Definition mend (c : bool) : str := if c then B "-->" else B "}}".
Lemma split_len {A} (a b c d : list A) : a ++ b = c ++ d -> length a <= length c -> exists x, c = a ++ x /\ b = x ++ d.
Proof.
  revert c. induction a as [|u a IH]; intros c E L; [exists c; auto|]. destruct c as [|v c]; [cbn in L; lia|].
  injection E as -> E. cbn in L. destruct (IH c E) as (x & -> & ->); [lia|]. exists x. auto.
Qed.
(** The earlier one of two searches. *)
Definition pick (s : str) : option (bool * nat) :=
  match strstr (B "<!--TOC") s, strstr (B "{{TOC") s with
  | None, None => None
  | Some i, Some j => if Nat.ltb i j then Some (true, i) else Some (false, j)
  | Some i, None => Some (true, i)
  | None, Some j => Some (false, j)
  end.
Definition after_marker (c : bool) (cand : str) : nat :=
  match strstr (mend c) cand with Some e => e + length (mend c) | None => 1 end.
Lemma find_unfold fuel before s : find_marker (S fuel) before s =
  match pick s with
  | None => Some None
  | Some (c, k) =>
      if in_code (before ++ firstn k s)
      then find_marker fuel ((before ++ firstn k s) ++ firstn (after_marker c (skipn k s)) (skipn k s))
             (skipn (after_marker c (skipn k s)) (skipn k s))
      else Some (Some (before ++ firstn k s, skipn k s, c))
  end.
Proof.
  cbn [find_marker]. unfold pick, after_marker, mend.
  destruct (strstr (B "<!--TOC") s) as [i|], (strstr (B "{{TOC") s) as [j|]; try reflexivity.
  destruct (Nat.ltb i j); reflexivity.
Qed.
Lemma pick_some s c k : pick s = Some (c, k) ->
  (exists q, skipn k s = mstart c ++ q) /\ k <= length s /\
  (forall p q c', s = p ++ mstart c' ++ q -> k <= length p).
Proof.
  assert (X : forall lit k, strstr lit s = Some k -> (exists q, skipn k s = lit ++ q) /\ k <= length s /\
              (forall p q, s = p ++ lit ++ q -> k <= length p)).
  { intros lit j E. apply strstr_some in E as (a & b & -> & <- & F). split; [|split; [rewrite app_length; lia|exact F]].
    exists b. rewrite skipn_app, skipn_all, Nat.sub_diag. reflexivity. }
  assert (N : forall lit, strstr lit s = None -> forall p q, s <> p ++ lit ++ q) by (intros; now apply strstr_none).
  unfold pick. destruct (strstr (B "<!--TOC") s) as [i|] eqn:Ei, (strstr (B "{{TOC") s) as [j|] eqn:Ej.
  - destruct (X _ _ Ei) as (A1 & A2 & A3), (X _ _ Ej) as (B1 & B2 & B3).
    destruct (Nat.ltb_spec i j); intro H'; injection H' as <- <-; (split; [assumption|split; [assumption|]]);
      intros p q [|] E; [apply A3 in E|apply B3 in E|apply A3 in E|apply B3 in E]; lia.
  - destruct (X _ _ Ei) as (A1 & A2 & A3). intro H'; injection H' as <- <-. split; [assumption|split; [assumption|]].
    intros p q [|] E; [now apply A3 in E|now destruct (N _ Ej p q)].
  - destruct (X _ _ Ej) as (A1 & A2 & A3). intro H'; injection H' as <- <-. split; [assumption|split; [assumption|]].
    intros p q [|] E; [now destruct (N _ Ei p q)|now apply A3 in E].
  - discriminate.
Qed.
Lemma pick_none s : pick s = None -> forall p q c, s <> p ++ mstart c ++ q.
Proof.
  unfold pick. destruct (strstr (B "<!--TOC") s) as [i|] eqn:Ei, (strstr (B "{{TOC") s) as [j|] eqn:Ej; try (destruct (Nat.ltb i j)); try discriminate.
  intros _ p q [|]; [exact (strstr_none _ _ Ei p q)|exact (strstr_none _ _ Ej p q)].
Qed.
Lemma mstart_len c : 5 <= length (mstart c).
Proof. destruct c; cbn; lia. Qed.
Lemma find_ok : forall fuel before s, length s < fuel -> exists r, find_marker fuel before s = Some r /\
  match r with
  | None => True
  | Some (pre, cand, c) => before ++ s = pre ++ cand /\ in_code pre = false /\ exists q, cand = mstart c ++ q
  end.
Proof.
  induction fuel as [|fuel IH]; intros before s L; [lia|]. rewrite find_unfold.
  destruct (pick s) as [[c k]|] eqn:P; [|exists None; auto].
  destruct (pick_some _ _ _ P) as ((q & Q) & Lk & _).
  destruct (in_code (before ++ firstn k s)) eqn:I.
  - set (n := after_marker c (skipn k s)).
    assert (Hn : 1 <= n) by (unfold n, after_marker; destruct (strstr _ _); destruct c; cbn; lia). clearbody n.
    edestruct (IH ((before ++ firstn k s) ++ firstn n (skipn k s)) (skipn n (skipn k s))) as (r & E & R).
    + rewrite !skipn_length. pose proof (f_equal (@length _) Q) as Q'. rewrite skipn_length, app_length in Q'.
      pose proof (mstart_len c). lia.
    + exists r. split; [exact E|]. destruct r as [[[pre cand] c']|]; [|exact R]. destruct R as (R & R'). split; [|exact R'].
      rewrite <- R, <- !app_assoc. f_equal. rewrite firstn_skipn, firstn_skipn. reflexivity.
  - exists (Some (before ++ firstn k s, skipn k s, c)). split; [reflexivity|]. rewrite <- app_assoc, firstn_skipn. eauto.
Qed.
(** The first marker outside code. *)
Lemma find_first a c q : in_code a = false ->
  (forall p r c', a ++ mstart c ++ q = p ++ mstart c' ++ r -> length a <= length p) ->
  find_marker (S (length (a ++ mstart c ++ q))) [] (a ++ mstart c ++ q) = Some (Some (a, mstart c ++ q, c)).
Proof.
  intros I F. rewrite find_unfold. destruct (pick (a ++ mstart c ++ q)) as [[c' k]|] eqn:P.
  - destruct (pick_some _ _ _ P) as ((r & R) & Lk & M). pose proof (M a q c eq_refl) as M1.
    assert (M2 : length a <= k).
    { specialize (F (firstn k (a ++ mstart c ++ q)) r c'). rewrite <- R, firstn_skipn in F. specialize (F eq_refl).
      rewrite firstn_length in F. lia. }
    assert (k = length a) as -> by lia. cbn [app]. rewrite firstn_app, firstn_all, Nat.sub_diag, app_nil_r, I.
    rewrite skipn_app, skipn_all, Nat.sub_diag in *. cbn [skipn app] in *.
    assert (c' = c) as ->; [|reflexivity]. destruct c, c'; [reflexivity|discriminate|discriminate|reflexivity].
  - exfalso. now apply (pick_none _ P a q c).
Qed.
(** All markers in code. *)
Lemma find_none html : (forall p c q, html = p ++ mstart c ++ q -> in_code p = true) ->
  forall fuel before s, html = before ++ s -> length s < fuel -> find_marker fuel before s = Some None.
Proof.
  intro H. induction fuel as [|fuel IH]; intros before s E L; [lia|]. rewrite find_unfold.
  destruct (pick s) as [[c k]|] eqn:P; [|reflexivity].
  destruct (pick_some _ _ _ P) as ((q & Q) & Lk & _).
  assert (I : in_code (before ++ firstn k s) = true).
  { apply (H _ c q). rewrite <- Q, <- app_assoc, firstn_skipn. exact E. }
  rewrite I. set (n := after_marker c (skipn k s)).
  assert (Hn : 1 <= n) by (unfold n, after_marker; destruct (strstr _ _); destruct c; cbn; lia). clearbody n.
  apply IH.
  - rewrite <- !app_assoc, firstn_skipn, firstn_skipn. exact E.
  - rewrite !skipn_length. pose proof (f_equal (@length _) Q) as Q'. rewrite skipn_length, app_length in Q'.
    pose proof (mstart_len c). lia.
Qed.

(** ** The marker and its end *)
Lemma strstr_end c y : strstr (mend c) (mstart c ++ y) = option_map (fun k => length (mstart c) + k) (strstr (mend c) y).
Proof. destruct c; cbn [mend mstart]; [change (B "<!--TOC" ++ y) with ("<"%char :: "!"%char :: "-"%char :: "-"%char :: "T"%char :: "O"%char :: "C"%char :: y)
    |change (B "{{TOC" ++ y) with ("{"%char :: "{"%char :: "T"%char :: "O"%char :: "C"%char :: y)];
  cbn [strstr]; cbn [B list_ascii_of_string starts ceq Ascii.eqb Bool.eqb andb];
  match goal with |- context [strstr ?l y] => destruct (strstr l y) end; reflexivity. Qed.
Lemma marker_cut c y k : strstr (mend c) y = Some k ->
  exists m, marker c m /\ mstart c ++ y = m ++ skipn (length (mstart c) + k + length (mend c)) (mstart c ++ y).
Proof.
  intro E. apply strstr_some in E as (x & b & -> & <- & F). exists (mstart c ++ x ++ mend c). split.
  - destruct c; constructor; intros p q X.
    + specialize (F p (q ++ B ">" ++ b)). change (mend true) with (B "--" ++ B ">") in F at 1.
      rewrite <- app_assoc, (app_assoc x), X, <- !app_assoc in F. specialize (F eq_refl).
      apply (f_equal (@length _)) in X. rewrite !app_length in X. cbn in X. lia.
    + specialize (F p (q ++ B "}" ++ b)). change (mend false) with (B "}" ++ B "}") in F at 1.
      rewrite <- app_assoc, (app_assoc x), X, <- !app_assoc in F. specialize (F eq_refl).
      apply (f_equal (@length _)) in X. rewrite !app_length in X. cbn in X. lia.
  - rewrite <- !app_assoc. do 2 rewrite skipn_app. rewrite skipn_all2 by lia.
    replace (length (mstart c) + length x + length (mend c) - length (mstart c)) with (length x + length (mend c)) by lia.
    rewrite skipn_all2 by lia. cbn [app]. rewrite skipn_app, skipn_all2 by lia.
    replace (length x + length (mend c) - length x - length (mend c)) with 0 by lia. reflexivity.
Qed.
Lemma marker_inv c m : marker c m -> exists x, m = mstart c ++ x ++ mend c /\ forall b, strstr (mend c) (x ++ mend c ++ b) = Some (length x).
Proof.
  intros [x N|x N]; exists x; (split; [reflexivity|]); intro b; apply strstr_first; intros p q E.
  - destruct (Nat.le_gt_cases (length x) (length p)) as [|G]; [assumption|]. exfalso.
    change (mend true) with (B "-->") in E.
    destruct (split_len (p ++ B "-->") q (x ++ B "-->") b) as (z & Z & _).
    + rewrite <- !app_assoc. symmetry. exact E.
    + rewrite !app_length. lia.
    + destruct z as [|u z] using rev_ind.
      * rewrite app_nil_r in Z. apply (f_equal (@length _)) in Z. rewrite !app_length in Z. lia.
      * apply (N p z). change (B "-->") with (B "--" ++ [">"%char]) in Z at 1. rewrite app_assoc, app_assoc in Z.
        apply app_inj_tail in Z as [Z _]. rewrite <- app_assoc in Z. exact Z.
  - destruct (Nat.le_gt_cases (length x) (length p)) as [|G]; [assumption|]. exfalso.
    change (mend false) with (B "}}") in E.
    destruct (split_len (p ++ B "}}") q (x ++ B "}}") b) as (z & Z & _).
    + rewrite <- !app_assoc. symmetry. exact E.
    + rewrite !app_length. lia.
    + destruct z as [|u z] using rev_ind.
      * rewrite app_nil_r in Z. apply (f_equal (@length _)) in Z. rewrite !app_length in Z. lia.
      * apply (N p z). change (B "}}") with (B "}" ++ ["}"%char]) in Z at 1. rewrite app_assoc, app_assoc in Z.
        apply app_inj_tail in Z as [Z _]. rewrite <- app_assoc in Z. exact Z.
Qed.
Lemma toc_shape idf html doc : exists out, toc idf html doc = Some (out, false) /\
  (out = html \/ exists a c m b lo hi, html = a ++ m ++ b /\ marker c m /\ in_code a = false /\ (lo, hi) = marker_range (m ++ b) /\
     out = a ++ fst (toc_html (map (number idf) (collect doc)) lo hi) ++ b).
Proof.
  unfold toc. destruct (find_ok (S (length html)) [] html) as (r & -> & R); [lia|].
  destruct r as [[[pre cand] c]|]; [|eauto]. destruct R as (R & I & y & Y). cbn in R.
  destruct (map (number idf) (collect doc)) as [|h hs] eqn:H; [eauto|].
  destruct (marker_range cand) as [lo hi] eqn:MR. pose proof (toc_safe (h :: hs) lo hi) as SF.
  destruct (toc_html (h :: hs) lo hi) as [t oob] eqn:T. cbn in SF. subst oob.
  assert (E : strstr (if c then B "-->" else B "}}") cand = option_map (fun k => length (mstart c) + k) (strstr (mend c) y))
    by (rewrite Y; apply strstr_end).
  rewrite E. destruct (strstr (mend c) y) as [k|] eqn:K; cbn [option_map]; [|eauto].
  eexists. split; [reflexivity|]. right. destruct (marker_cut c y k K) as (m & M & S0). rewrite <- Y in S0.
  assert (LM : length (mend c) = if c then 3 else 2) by now destruct c. rewrite LM in S0.
  exists pre, c, m, (skipn (length (mstart c) + k + (if c then 3 else 2)) cand), lo, hi.
  split; [now rewrite <- S0|]. split; [assumption|]. split; [assumption|]. split; [rewrite <- S0; now symmetry|]. now rewrite T.
Qed.
Lemma toc_replaced idf doc a c m b : marker c m -> in_code a = false -> collect doc <> [] ->
  (forall p r c', a ++ m ++ b = p ++ mstart c' ++ r -> length a <= length p) ->
  toc idf (a ++ m ++ b) doc =
  Some (a ++ fst (toc_html (map (number idf) (collect doc)) (fst (marker_range (m ++ b))) (snd (marker_range (m ++ b)))) ++ b, false).
Proof.
  intros M I D F. destruct (marker_inv _ _ M) as (x & -> & X). unfold toc.
  rewrite <- !app_assoc in *. rewrite (find_first a c _ I F).
  destruct (map (number idf) (collect doc)) as [|h hs] eqn:H; [apply map_eq_nil in H; congruence|].
  destruct (marker_range (mstart c ++ x ++ mend c ++ b)) as [lo hi]. cbn [fst snd].
  pose proof (toc_safe (h :: hs) lo hi) as SF. destruct (toc_html (h :: hs) lo hi) as [t oob]. cbn in SF. subst oob. cbn [fst].
  assert (E : strstr (if c then B "-->" else B "}}") (mstart c ++ x ++ mend c ++ b) = Some (length (mstart c) + length x))
    by (change (if c then B "-->" else B "}}") with (mend c); rewrite strstr_end, X; reflexivity).
  rewrite E. do 4 f_equal.
  assert (LM : length (mend c) = if c then 3 else 2) by now destruct c. rewrite <- LM.
  do 2 rewrite skipn_app. rewrite skipn_all2 by lia.
  replace (length (mstart c) + length x + length (mend c) - length (mstart c)) with (length x + length (mend c)) by lia.
  rewrite skipn_all2 by lia. cbn [app]. rewrite skipn_app, skipn_all2 by lia.
  replace (length x + length (mend c) - length x - length (mend c)) with 0 by lia. reflexivity.
Qed.
Lemma toc_in_code idf html doc : (forall p c q, html = p ++ mstart c ++ q -> in_code p = true) -> toc idf html doc = Some (html, false).
Proof. intro H. unfold toc. rewrite (find_none html H); [reflexivity|reflexivity|lia]. Qed.

(** ** Code *)
Lemma inside_skip k : forall s c p, inside s k c p = inside (skipn k s) 0 c p.
Proof. induction k as [|k IH]; intros [|x s] c p; try reflexivity. cbn. apply IH. Qed.
Definition letters (l : str) : Prop := Forall (fun c => c <> "<"%char /\ toupper c <> "<"%char) l.
Lemma word_len l : letters l -> forall x r k, k <= length x -> is_word l (x ++ "<"%char :: r) k = true -> k + length l <= length x.
Proof.
  induction 1 as [|c l [N1 N2] _ IH]; intros x r k L W; cbn in *; [lia|].
  apply Bool.andb_true_iff in W as [W1 W2].
  assert (k < length x).
  { destruct (Nat.eq_dec k (length x)) as [->|]; [|lia]. exfalso. unfold is_letter, at_ in W1.
    rewrite nth_middle in W1. rewrite !(ceq_sym "<") in W1. apply Bool.orb_true_iff in W1 as [W1|W1]; apply ceq_eq in W1; congruence. }
  apply IH in W2; lia.
Qed.
Lemma letters_code : letters (B "code"). Proof. repeat constructor; discriminate. Qed.
Lemma letters_pre : letters (B "pre"). Proof. repeat constructor; discriminate. Qed.
Lemma at_lt x r k c : c <> "<"%char -> k <= length x -> at_ (x ++ "<"%char :: r) k = c -> k < length x.
Proof.
  intros N L E. destruct (Nat.eq_dec k (length x)) as [->|]; [|lia]. unfold at_ in E. rewrite nth_middle in E. congruence.
Qed.
(** No tag reaches over a [<]. *)
Lemma inside_lt r : forall n x c p, length x <= n -> exists c' p', inside (x ++ "<"%char :: r) 0 c p = inside ("<"%char :: r) 0 c' p'.
Proof.
  assert (SK : forall x k, k <= length x -> skipn k (x ++ "<"%char :: r) = skipn k x ++ "<"%char :: r).
  { intros x k L. rewrite skipn_app. replace (k - length x) with 0 by lia. reflexivity. }
  induction n as [|n IH]; intros x c p L.
  - destruct x; [|cbn in L; lia]. eauto.
  - destruct x as [|a x]; [eauto|]. cbn [length] in L. cbn [app inside].
    change (a :: x ++ "<"%char :: r) with ((a :: x) ++ "<"%char :: r).
    assert (GO : forall k c p, k <= length x -> exists c' p', inside (x ++ "<"%char :: r) k c p = inside ("<"%char :: r) 0 c' p').
    { intros k c0 p0 Lk. rewrite inside_skip, SK by assumption. apply IH. rewrite skipn_length. lia. }
    destruct (ceq a "<"); [|apply (GO 0); lia].
    destruct (opens_code _) eqn:O1.
    + unfold opens_code in O1. rewrite !Bool.andb_true_iff in O1. destruct O1 as [[_ O] _].
      apply (word_len _ letters_code) in O; [|cbn; lia]. apply GO. cbn in *. lia.
    + destruct (opens_pre _) eqn:O2.
      * unfold opens_pre in O2. rewrite !Bool.andb_true_iff in O2. destruct O2 as [[_ O] _].
        apply (word_len _ letters_pre) in O; [|cbn; lia]. apply GO. cbn in *. lia.
      * destruct (closes_code _) eqn:O3.
        { unfold closes_code in O3. rewrite !Bool.andb_true_iff in O3. destruct O3 as [[[_ S0] O] G].
          apply ceq_eq in S0, G. apply at_lt in S0; [|discriminate|cbn; lia].
          apply (word_len _ letters_code) in O; [|cbn in *; lia]. apply at_lt in G; [|discriminate|exact O].
          apply GO. cbn in *. lia. }
        destruct (closes_pre _) eqn:O4; [|apply (GO 0); lia].
        unfold closes_pre in O4. rewrite !Bool.andb_true_iff in O4. destruct O4 as [[[_ S0] O] G].
        apply ceq_eq in S0, G. apply at_lt in S0; [|discriminate|cbn; lia].
        apply (word_len _ letters_pre) in O; [|cbn in *; lia]. apply at_lt in G; [|discriminate|exact O].
        apply GO. cbn in *. lia.
Qed.
Lemma inside_no_lt y : ~ In "<"%char y -> forall c p, inside y 0 c p = (Nat.ltb 0 c || Nat.ltb 0 p)%bool.
Proof.
  induction y as [|a y IH]; intros H c p; [reflexivity|]. cbn [inside].
  assert (ceq a "<" = false) as -> by (apply ceq_neq; intros ->; apply H; now left). apply IH. intro I. apply H. now right.
Qed.
Lemma in_code_pre x g y : tag_gap g = true -> ~ In "<"%char y -> in_code (x ++ B "<pre" ++ g :: y) = true.
Proof.
  intros G H. unfold in_code. destruct (inside_lt (B "pre" ++ g :: y) (length x) x 0 0 (le_n _)) as (c & p & E).
  change (B "<pre" ++ g :: y) with ("<"%char :: B "pre" ++ g :: y). rewrite E.
  assert (X : inside ("<"%char :: B "pre" ++ g :: y) 0 c p = inside (g :: y) 0 c (S p)).
  { cbn [inside]. change (ceq "<" "<") with true. cbv iota.
    assert (opens_code ("<"%char :: B "pre" ++ g :: y) = false) as -> by (unfold opens_code; rewrite Bool.andb_false_intro1; [reflexivity|]; apply Bool.andb_false_intro2; reflexivity).
    assert (opens_pre ("<"%char :: B "pre" ++ g :: y) = true) as -> by (unfold opens_pre; cbn; exact G).
    rewrite inside_skip. reflexivity. }
  rewrite X. rewrite inside_no_lt; [destruct (Nat.ltb 0 c); reflexivity|].
  intros [I|I]; [subst g; discriminate|contradiction].
Qed.
Lemma in_code_code x g y : tag_gap g = true -> ~ In "<"%char y -> in_code (x ++ B "<code" ++ g :: y) = true.
Proof.
  intros G H. unfold in_code. destruct (inside_lt (B "code" ++ g :: y) (length x) x 0 0 (le_n _)) as (c & p & E).
  change (B "<code" ++ g :: y) with ("<"%char :: B "code" ++ g :: y). rewrite E.
  assert (X : inside ("<"%char :: B "code" ++ g :: y) 0 c p = inside (g :: y) 0 (S c) p).
  { cbn [inside]. change (ceq "<" "<") with true. cbv iota.
    assert (opens_code ("<"%char :: B "code" ++ g :: y) = true) as -> by (unfold opens_code; cbn; exact G).
    rewrite inside_skip. reflexivity. }
  rewrite X. rewrite inside_no_lt; [reflexivity|]. intros [I|I]; [subst g; discriminate|contradiction].
Qed.
(** Without opening tags nothing is in code. *)
Lemma lower_letter c d : (islower c = true) -> (ceq d c || ceq d (toupper c) = true)%bool -> ceq c (tolower d) = true.
Proof.
  intros L. rewrite Bool.orb_true_iff, !ceq_eq. intros [->| ->].
  - unfold tolower. destruct (isupper c) eqn:U; [|reflexivity]. exfalso.
    unfold islower, isupper, between in *. lia.
  - revert L. assert (X : forall c, implb (islower c) (ceq c (tolower (toupper c))) = true) by (apply byte_forall; vm_compute; reflexivity).
    specialize (X c). destruct (islower c); [intros _; now apply ceq_eq|discriminate].
Qed.
Lemma word_starts l : Forall (fun c => islower c = true) l -> forall a y k, is_word l (a ++ y) (length a) = true -> k = length a -> starts l (map tolower y) = true.
Proof.
  induction 1 as [|c l Hc _ IH]; intros a y k W K; [reflexivity|]. cbn [is_word] in W. apply Bool.andb_true_iff in W as [W1 W2].
  unfold is_letter, at_ in W1. rewrite app_nth2, Nat.sub_diag in W1 by lia. destruct y as [|d y]; cbn [nth] in W1.
  - exfalso. assert (X : forall c, implb (islower c) (negb (ceq NUL c || ceq NUL (toupper c))) = true) by (apply byte_forall; vm_compute; reflexivity).
    specialize (X c). rewrite Hc, W1 in X. discriminate.
  - cbn [map starts]. rewrite (lower_letter c d Hc W1). cbn [andb].
    apply (IH (a ++ [d]) y (S (length a))); [|rewrite app_length; cbn; lia]. rewrite <- app_assoc, app_length. cbn [app length].
    now rewrite Nat.add_1_r.
Qed.
Lemma no_code_inside s : no_code s -> forall k, inside s k 0 0 = false.
Proof.
  induction s as [|a s IH]; intros H k; [reflexivity|]. cbn [inside].
  assert (H' : no_code s) by (intros x y E; apply (H (a :: x) y); now rewrite E).
  destruct k as [|k]; [|now apply IH]. destruct (ceq a "<") eqn:A; [|now apply IH]. apply ceq_eq in A. subst a.
  destruct (H [] s eq_refl) as [H1 H2].
  assert (opens_code ("<"%char :: s) = false) as ->.
  { apply Bool.not_true_iff_false. unfold opens_code. rewrite !Bool.andb_true_iff. intros [[_ W] _].
    apply (word_starts (B "code")) with (a := ["<"%char]) (k := 1) in W; [congruence|repeat constructor|reflexivity]. }
  assert (opens_pre ("<"%char :: s) = false) as ->.
  { apply Bool.not_true_iff_false. unfold opens_pre. rewrite !Bool.andb_true_iff. intros [[_ W] _].
    apply (word_starts (B "pre")) with (a := ["<"%char]) (k := 1) in W; [congruence|repeat constructor|reflexivity]. }
  destruct (closes_code _); [now apply IH|]. destruct (closes_pre _); now apply IH.
Qed.

Lemma in_code_opened a : in_pre_or_code a -> in_code a = true.
Proof.
  intros (x & t & g & y & -> & T & G & N).
  assert (G' : tag_gap g = true).
  { unfold tag_gap. destruct G as [<-|[<-|[<-|[<-|[]]]]]; reflexivity. }
  destruct T as [<-|[<-|[]]]; [now apply in_code_pre|now apply in_code_code].
Qed.

(** ** Headings of a document *)
Fixpoint node_rect' (P : node -> Prop) (H : forall h a l, Forall P l -> P (Node h a l)) (n : node) : P n :=
  match n with
  | Node h a l => H h a l ((fix all (l : list node) : Forall P l :=
      match l with [] => Forall_nil P | n :: l => Forall_cons n (node_rect' P H n) (all l) end) l)
  end.
Lemma collect_ok n : collect n = map fst (filter (fun x => negb (no_toc (snd x))) (preorder n)).
Proof.
  induction n as [h a l IH] using node_rect'. cbn [collect preorder]. rewrite filter_app, map_app. f_equal.
  - destruct h as [x|]; [|reflexivity]. cbn. destruct (no_toc a); reflexivity.
  - induction IH as [|n l E _ IH']; [reflexivity|]. rewrite filter_app, map_app, <- E. f_equal. exact IH'.
Qed.
