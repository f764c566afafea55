(** Lemmas for C203-C209. *)
From Verif Require Import Base BaseL M_Pass S_Pass L_Divs L_Divs2.
Local Arguments strstr : simpl never.
Local Arguments strchr : simpl never.
Local Arguments starts : simpl never.

(** ** First occurrences *)
Lemma strstr_first x a r k : strstr x (a ++ x ++ r) = Some k -> k <= length a.
Proof.
  revert k. induction a as [|c a IH]; intros k E.
  - cbn [app length] in *. destruct (x ++ r) as [|d s] eqn:Q.
    + apply app_eq_nil in Q as [-> ->]. cbn in E. injection E as <-. lia.
    + change (strstr x (d :: s)) with (if starts x (d :: s) then Some 0 else match strstr x s with Some k => Some (S k) | None => None end) in E.
      rewrite (proj2 (starts_spec _ _)) in E by (exists r; symmetry; exact Q). injection E as <-. lia.
  - cbn [app] in E. change (strstr x (c :: a ++ x ++ r)) with (if starts x (c :: a ++ x ++ r) then Some 0 else match strstr x (a ++ x ++ r) with Some k => Some (S k) | None => None end) in E.
    destruct (starts _ _); [injection E as <-; cbn; lia|]. destruct (strstr x (a ++ x ++ r)) as [k'|]; [|discriminate]. injection E as <-. cbn [length]. specialize (IH k' eq_refl). lia.
Qed.
Definition unbordered (x : str) : bool := forallb (fun m => negb (seq_ (skipn (length x - m) x) (firstn m x))) (seq 1 (length x - 1)).
Lemma app_split (a b c d : str) : a ++ b = c ++ d -> length c <= length a -> exists e, a = c ++ e /\ d = e ++ b.
Proof.
  revert a. induction c as [|x c IH]; intros a E L; [exists a; auto|]. destruct a as [|y a]; [cbn in L; lia|]. injection E as <- E. destruct (IH a E) as (e & -> & ->); [cbn in L; lia|]. exists e. auto.
Qed.
Lemma strstr_unbordered x a r : unbordered x = true -> x <> [] -> ~ has x a -> strstr x (a ++ x ++ r) = Some (length a).
Proof.
  intros U Z N. destruct (strstr x (a ++ x ++ r)) as [k|] eqn:E; [|exfalso; exact (strstr_none _ _ E a r eq_refl)].
  pose proof (strstr_first x a r k E) as L. apply strstr_some in E as (u & w & E & Lu & _). f_equal. destruct (Nat.eq_dec k (length a)) as [->|D]; [reflexivity|]. exfalso. subst k.
  destruct (app_split a (x ++ r) u (x ++ w) E) as (e & -> & E2); [lia|]. rewrite app_length in D, L. destruct (Nat.le_gt_cases (length x) (length e)) as [C|C].
  - destruct (app_split e (x ++ r) x w (eq_sym E2) C) as (f & -> & _). apply N. exists u, f. reflexivity.
  - symmetry in E2. assert (E3 : x ++ w = e ++ (x ++ r)) by (symmetry; exact E2). destruct (app_split x w e (x ++ r) E3) as (f & Ef & E4); [lia|].
    assert (Lf : length x = length e + length f) by (rewrite Ef at 1; apply app_length).
    destruct (app_split x r f w E4) as (g & Eg & _); [lia|].
    unfold unbordered in U. assert (I : In (length f) (seq 1 (length x - 1))) by (apply in_seq; lia). apply (proj1 (forallb_forall _ _) U) in I. apply negb_true_iff in I.
    assert (S : skipn (length x - length f) x = f) by (rewrite Lf at 1; replace (length e + length f - length f) with (length e) by lia; rewrite Ef; apply skipn_exact; reflexivity).
    assert (T : firstn (length f) x = f) by (rewrite Eg at 1; apply firstn_exact; reflexivity).
    rewrite S, T in I. rewrite (proj2 (seq_eq f f) eq_refl) in I. discriminate.
Qed.
Lemma strstr_absent x s : x <> [] -> ~ has x s -> strstr x s = None.
Proof. intros Z N. destruct (strstr x s) eqn:E; [|reflexivity]. apply strstr_some in E as (a & b & -> & _). destruct N. exists a, b. reflexivity. Qed.
Lemma strchr_absent (c : ascii) (s : str) : ~ In c s -> strchr c s = None.
Proof. apply strchr_none. Qed.
(** The first occurrence. *)
Lemma strstr_cut x s : x <> [] -> unbordered x = true -> (~ has x s) \/ exists a r, s = a ++ x ++ r /\ ~ has x a.
Proof.
  intros Z U. destruct (strstr x s) as [k|] eqn:E; [right|left; intros (a & b & Q); exact (strstr_none _ _ E a b Q)].
  pose proof E as E'. apply strstr_some in E as (a & r & -> & La & F). exists a, r. split; [reflexivity|]. intros (p & q & ->).
  rewrite <- !app_assoc in E'. apply strstr_first in E'. subst k. rewrite !app_length in E'. destruct x; [congruence|cbn [length] in E'; lia].
Qed.
Lemma strchr_cut (c : ascii) (s : str) : ~ In c s \/ exists a r : str, s = a ++ c :: r /\ ~ In c a.
Proof.
  induction s as [|d s [N|(a & r & -> & N)]]; [left; intros []| |].
  - destruct (ascii_dec d c) as [->|D]; [right; exists [], s; split; [reflexivity|intros []]|left; intros [I|I]; congruence].
  - destruct (ascii_dec d c) as [->|D]; right; [exists [], (a ++ c :: r); split; [reflexivity|intros []]|exists (d :: a), r; split; [reflexivity|intros [I|I]; congruence]].
Qed.

(** ** Buffers *)
Definition fits (w : wr) : Prop := w_bad w = false /\ length (w_out w) < w_cap w.
Lemma block_fits extra x w : fits w -> 0 < extra -> fits (block extra x w) /\ w_out (block extra x w) = w_out w ++ x.
Proof.
  intros [Bd L] E. unfold block, emit, fits. destruct (left_ w <=? length x) eqn:Q; cbn [w_bad w_cap w_out grow]; (split; [split|reflexivity]); try rewrite app_length; try (rewrite Bd; cbn [orb]; apply Nat.ltb_ge); unfold left_ in Q; [lia|lia| |]; apply Nat.leb_gt in Q; lia.
Qed.
Lemma byte_fits c w : fits w -> fits (byte c w) /\ w_out (byte c w) = w_out w ++ [c].
Proof.
  intros [Bd L]. unfold byte, emit, fits. destruct (left_ w <? 10) eqn:Q; cbn [w_bad w_cap w_out grow]; (split; [split|reflexivity]); try rewrite app_length; cbn [length]; try (rewrite Bd; cbn [orb]; apply Nat.ltb_ge); unfold left_ in Q; [lia|lia| |]; apply Nat.ltb_ge in Q; lia.
Qed.
Lemma finish_fits w : fits w -> finish w = Out (w_out w).
Proof. intros [Bd L]. unfold finish. rewrite Bd, (proj2 (Nat.leb_gt _ _) L). reflexivity. Qed.
Lemma start_fits n : 0 < n -> fits (start n).
Proof. intros L. split; [reflexivity|exact L]. Qed.

(** ** Rules *)
Lemma rules_spec s h : Ruled s h -> forall fuel w, length s < fuel -> fits w -> fits (rules fuel s w) /\ w_out (rules fuel s w) = w_out w ++ h.
Proof.
  induction 1 as [s N|a b N Nb|a b s h N Nb R IH]; intros fuel w L F; (destruct fuel as [|fuel]; [lia|]).
  - destruct s as [|c s]; [cbn; rewrite app_nil_r; auto|]. cbn [rules]. rewrite strstr_absent by (try discriminate; exact N). apply block_fits; [exact F|lia].
  - assert (Q : exists c r, a ++ B "<hr" ++ b = c :: r) by (destruct a; do 2 eexists; reflexivity). destruct Q as (c & r & Q). rewrite Q. cbn [rules]. rewrite <- Q.
    rewrite strstr_unbordered by (try reflexivity; try discriminate; exact N). rewrite firstn_exact, skipn_exact by reflexivity.
    rewrite strchr_absent by (change (~ In ">"%char (B "<hr" ++ b)); rewrite in_app_iff; intros [I|I]; [revert I; cbn; intuition discriminate|contradiction]).
    destruct (block_fits (length rule_div + 1) a w F) as [F1 O1]; [lia|]. destruct (block_fits 1 (B "<hr" ++ b) _ F1) as [F2 O2]; [lia|]. split; [exact F2|]. rewrite O2, O1, <- app_assoc. reflexivity.
  - assert (Q : exists c r, a ++ B "<hr" ++ b ++ B ">" ++ s = c :: r) by (destruct a; do 2 eexists; reflexivity). destruct Q as (c & r & Q). rewrite Q. cbn [rules]. rewrite <- Q.
    rewrite strstr_unbordered by (try reflexivity; try discriminate; exact N). rewrite firstn_exact, skipn_exact by reflexivity.
    assert (C : strchr ">"%char (B "<hr" ++ b ++ B ">" ++ s) = Some (length (B "<hr" ++ b))).
    { change (B ">" ++ s) with (">"%char :: s). rewrite app_assoc. apply strchr_at. rewrite in_app_iff; intros [I|I]; [revert I; cbn; intuition discriminate|contradiction]. }
    rewrite C. assert (K : skipn (length (B "<hr" ++ b) + 1) (B "<hr" ++ b ++ B ">" ++ s) = s).
    { replace (B "<hr" ++ b ++ B ">" ++ s) with ((B "<hr" ++ b ++ B ">") ++ s) by (rewrite <- !app_assoc; reflexivity). apply skipn_exact. rewrite !app_length. cbn. lia. }
    rewrite K. destruct (block_fits (length rule_div + 1) a w F) as [F1 O1]; [lia|]. destruct (block_fits 1 rule_div _ F1) as [F2 O2]; [lia|].
    rewrite !app_length in L. cbn [length] in L. destruct (IH fuel _ (ltac:(change (length (B "<hr")) with 3 in L; change (length (B ">")) with 1 in L; lia)) F2) as [F3 O3]. split; [exact F3|]. rewrite O3, O2, O1, <- !app_assoc. reflexivity.
Qed.
Lemma ruled_total s : exists h, Ruled s h.
Proof.
  assert (H : forall n s, length s < n -> exists h, Ruled s h).
  { induction n as [|n IH]; intros t L; [lia|]. destruct (strstr_cut (B "<hr") t) as [N|(a & r & -> & N)]; [discriminate|reflexivity|exists t; constructor; exact N|].
    destruct (strchr_cut ">"%char r) as [Nr|(b & r' & -> & Nb)]; [eexists; apply R_open; assumption|]. destruct (IH r') as [h H]; [rewrite !app_length in L; cbn in L; lia|].
    eexists. exact (R_rule a b r' h N Nb H). }
  exact (H (S (length s)) s (Nat.lt_succ_diag_r _)).
Qed.
Lemma replace_spec s h : Ruled s h -> replace_rules s = Out h.
Proof.
  intros R. unfold replace_rules. destruct (rules_spec s h R (S (length s)) (start (length s * 4 + 1))) as [F O]; [lia|apply start_fits; lia|]. rewrite finish_fits by exact F. rewrite O. reflexivity.
Qed.

(** ** Code *)
Lemma language_spec b s : language ("e"%char :: b ++ s) = true <-> language_later (b ++ s).
Proof.
  unfold language. remember (b ++ s) as t eqn:Et. clear Et. split.
  - destruct (strstr (B "class=") ("e"%char :: t)) as [k|] eqn:E; [|discriminate]. apply strstr_some in E as (u & r & E & Lu & _). subst k.
    destruct (strstr (B "language-") _) as [k|] eqn:Q; [|discriminate]. intros _. rewrite E in Q. rewrite skipn_exact in Q by reflexivity. apply strstr_some in Q as (x & y & Q & _).
    destruct u as [|c u]; [discriminate E|]. injection E as _ ->.
    do 6 (destruct x as [|? x]; [discriminate Q|]; injection Q as <- Q). exists u, x, y. rewrite Q. reflexivity.
  - intros (u & v & w & ->). destruct (strstr (B "class=") _) as [k|] eqn:E.
    + destruct (strstr (B "language-") _) eqn:Q; [reflexivity|]. exfalso. pose proof E as E'. apply (strstr_first (B "class=") ("e"%char :: u)) in E'. cbn [length] in E'.
      assert (K : exists y, skipn k ("e"%char :: u ++ B "class=" ++ v ++ B "language-" ++ w) = y ++ B "class=" ++ v ++ B "language-" ++ w).
      { change ("e"%char :: u ++ B "class=" ++ v ++ B "language-" ++ w) with (("e"%char :: u) ++ B "class=" ++ v ++ B "language-" ++ w). rewrite skipn_app. exists (skipn k ("e"%char :: u)). f_equal.
        replace (k - length ("e"%char :: u)) with 0 by (cbn [length]; lia). reflexivity. }
      destruct K as [y K]. rewrite K in Q. apply (strstr_none _ _ Q (y ++ B "class=" ++ v) w). rewrite <- !app_assoc. reflexivity.
    + exfalso. apply (strstr_none _ _ E ("e"%char :: u) (v ++ B "language-" ++ w)). reflexivity.
Qed.
Lemma bool_false b : ~ b = true -> b = false.
Proof. destruct b; congruence. Qed.
Lemma poems_spec s h : Poem s h -> forall fuel w, length s < fuel -> fits w -> fits (poems fuel s w) /\ w_out (poems fuel s w) = w_out w ++ h.
Proof.
  assert (C : forall b s, ~ In ">"%char b -> strchr ">"%char (skipn 9 (B "<pre><code" ++ b ++ B ">" ++ s)) = Some (S (length b))).
  { clear. intros b s Nb. change (skipn 9 (B "<pre><code" ++ b ++ B ">" ++ s)) with (("e"%char :: b) ++ ">"%char :: s). rewrite strchr_at; [reflexivity|]. intros [I|I]; [discriminate|contradiction]. }
  assert (K : forall b s, skipn (9 + S (length b) + 1) (B "<pre><code" ++ b ++ B ">" ++ s) = s).
  { clear. intros b s. replace (B "<pre><code" ++ b ++ B ">" ++ s) with ((B "<pre><code" ++ b ++ B ">") ++ s) by (rewrite <- !app_assoc; reflexivity). apply skipn_exact. rewrite !app_length. cbn. lia. }
  induction 1 as [s N|a b N Nb|a b s h N Nb La R IH|a b s h N Nb La R IH]; intros fuel w L F; (destruct fuel as [|fuel]; [lia|]).
  - destruct s as [|c s]; [cbn; rewrite app_nil_r; auto|]. cbn [poems]. rewrite strstr_absent by (try discriminate; exact N). apply block_fits; [exact F|lia].
  - assert (Q : exists c r, a ++ B "<pre><code" ++ b = c :: r) by (destruct a; do 2 eexists; reflexivity). destruct Q as (c & r & Q). rewrite Q. cbn [poems]. rewrite <- Q.
    rewrite strstr_unbordered by (try reflexivity; try discriminate; exact N). rewrite firstn_exact, skipn_exact by reflexivity.
    change (skipn 9 (B "<pre><code" ++ b)) with ("e"%char :: b). rewrite strchr_absent by (intros [I|I]; [discriminate|contradiction]).
    destruct (block_fits 100 a w F) as [F1 O1]; [lia|]. destruct (block_fits 1 (B "<pre><code" ++ b) _ F1) as [F2 O2]; [lia|]. split; [exact F2|]. rewrite O2, O1, <- app_assoc. reflexivity.
  - assert (Q : exists c r, a ++ B "<pre><code" ++ b ++ B ">" ++ s = c :: r) by (destruct a; do 2 eexists; reflexivity). destruct Q as (c & r & Q). rewrite Q. cbn [poems]. rewrite <- Q.
    rewrite strstr_unbordered by (try reflexivity; try discriminate; exact N). rewrite firstn_exact, skipn_exact by reflexivity.
    rewrite C, K by exact Nb. change (skipn 9 (B "<pre><code" ++ b ++ B ">" ++ s)) with ("e"%char :: b ++ B ">" ++ s). rewrite (proj2 (language_spec b (B ">" ++ s)) La).
    assert (T : firstn (9 + S (length b) + 1) (B "<pre><code" ++ b ++ B ">" ++ s) = B "<pre><code" ++ b ++ B ">").
    { replace (B "<pre><code" ++ b ++ B ">" ++ s) with ((B "<pre><code" ++ b ++ B ">") ++ s) by (rewrite <- !app_assoc; reflexivity). apply firstn_exact. rewrite !app_length. cbn. lia. }
    rewrite T. destruct (block_fits 100 a w F) as [F1 O1]; [lia|]. destruct (block_fits 1 (B "<pre><code" ++ b ++ B ">") _ F1) as [F2 O2]; [lia|].
    rewrite !app_length in L. change (length (B "<pre><code")) with 10 in L. destruct (IH fuel _ (ltac:(lia)) F2) as [F3 O3]. split; [exact F3|]. rewrite O3, O2, O1, <- !app_assoc. reflexivity.
  - assert (Q : exists c r, a ++ B "<pre><code" ++ b ++ B ">" ++ s = c :: r) by (destruct a; do 2 eexists; reflexivity). destruct Q as (c & r & Q). rewrite Q. cbn [poems]. rewrite <- Q.
    rewrite strstr_unbordered by (try reflexivity; try discriminate; exact N). rewrite firstn_exact, skipn_exact by reflexivity.
    rewrite C, K by exact Nb. change (skipn 9 (B "<pre><code" ++ b ++ B ">" ++ s)) with ("e"%char :: b ++ B ">" ++ s). rewrite (bool_false (language _)) by (rewrite language_spec; exact La).
    assert (T : firstn (9 + S (length b)) (B "<pre><code" ++ b ++ B ">" ++ s) = B "<pre><code" ++ b).
    { rewrite app_assoc. apply firstn_exact. rewrite !app_length. cbn. lia. }
    rewrite T. destruct (block_fits 100 a w F) as [F1 O1]; [lia|]. destruct (block_fits 20 (B "<pre><code" ++ b) _ F1) as [F2 O2]; [lia|].
    destruct (block_fits 100 poetry_class _ F2) as [F3 O3]; [lia|]. destruct (byte_fits ">"%char _ F3) as [F4 O4].
    rewrite !app_length in L. change (length (B "<pre><code")) with 10 in L. destruct (IH fuel _ (ltac:(lia)) F4) as [F5 O5]. split; [exact F5|]. rewrite O5, O4, O3, O2, O1, <- !app_assoc. reflexivity.
Qed.
Lemma later_dec t : language_later t \/ ~ language_later t.
Proof. destruct (language ("e"%char :: t ++ [])) eqn:E; [left|right; intros H]; [apply language_spec in E; rewrite app_nil_r in E; exact E|]. rewrite <- (app_nil_r t) in H. apply language_spec in H. congruence. Qed.
Lemma poem_total s : exists h, Poem s h.
Proof.
  assert (H : forall n s, length s < n -> exists h, Poem s h).
  { induction n as [|n IH]; intros t L; [lia|]. destruct (strstr_cut (B "<pre><code") t) as [N|(a & r & -> & N)]; [discriminate|reflexivity|exists t; constructor; exact N|].
    destruct (strchr_cut ">"%char r) as [Nr|(b & r' & -> & Nb)]; [eexists; apply Po_open; assumption|]. destruct (IH r') as [h H]; [rewrite !app_length in L; cbn in L; lia|].
    destruct (later_dec (b ++ B ">" ++ r')) as [La|La]; [eexists; exact (Po_language a b r' h N Nb La H)|eexists; exact (Po_poetry a b r' h N Nb La H)]. }
  exact (H (S (length s)) s (Nat.lt_succ_diag_r _)).
Qed.
Lemma poetry_spec s h : Poem s h -> add_poetry s = Out h.
Proof.
  intros R. unfold add_poetry. destruct (poems_spec s h R (S (length s)) (start (length s * 2 + 1))) as [F O]; [lia|apply start_fits; lia|]. rewrite finish_fits by exact F. rewrite O. reflexivity.
Qed.

(** ** Paragraphs *)
Lemma white_spec c : white c <-> negb (ceq c SP) && negb (ceq c TAB) && negb (ceq c NL) && negb (ceq c CR) = false.
Proof. unfold white. rewrite !andb_false_iff, !negb_false_iff, !ceq_eq. tauto. Qed.
Lemma empties_blank fuel : forall s, empties fuel s = true -> Blank s.
Proof.
  induction fuel as [|fuel IH]; intros s H; [discriminate|]. cbn [empties] in H. destruct s as [|c s]; [constructor|].
  destruct (starts (B "&#8203;") (c :: s)) eqn:E.
  - apply starts_spec in E as [r E]. rewrite E in H |- *. apply (Bl_entity r). apply IH. exact H.
  - destruct (negb (ceq c SP) && _ && _ && _) eqn:W.
    + destruct (starts zero_width (c :: s)) eqn:Z; [|discriminate]. apply starts_spec in Z as [r Z]. rewrite Z in H |- *. apply (Bl_utf8 r). apply IH. exact H.
    + apply Bl_white; [apply white_spec, W|apply IH, H].
Qed.
Lemma blank_empties s : Blank s -> forall fuel, length s < fuel -> empties fuel s = true.
Proof.
  induction 1 as [|c s W H IH|s H IH|s H IH]; intros fuel L; (destruct fuel as [|fuel]; [lia|]).
  - reflexivity.
  - cbn [empties]. assert (E : starts (B "&#8203;") (c :: s) = false).
    { apply bool_false. intros E. apply starts_spec in E as [r E]. injection E as -> _. destruct W as [W|[W|[W|W]]]; discriminate. }
    rewrite E, (proj1 (white_spec c) W). apply IH. cbn [length] in L. lia.
  - change (B "&#8203;" ++ s) with ("&"%char :: B "#8203;" ++ s). cbn [empties]. rewrite (proj2 (starts_spec (B "&#8203;") _)) by (exists s; reflexivity). apply IH. rewrite app_length in L. change (length (B "&#8203;")) with 7 in L. lia.
  - change ([ascii_of_nat 226; ascii_of_nat 128; ascii_of_nat 139] ++ s) with (ascii_of_nat 226 :: [ascii_of_nat 128; ascii_of_nat 139] ++ s) in *. cbn [empties].
    assert (E : starts (B "&#8203;") (ascii_of_nat 226 :: [ascii_of_nat 128; ascii_of_nat 139] ++ s) = false).
    { apply bool_false. intros E. apply starts_spec in E as [r E]. discriminate E. }
    rewrite E. change (negb (ceq (ascii_of_nat 226) SP) && negb (ceq (ascii_of_nat 226) TAB) && negb (ceq (ascii_of_nat 226) NL) && negb (ceq (ascii_of_nat 226) CR)) with true. cbn iota.
    rewrite (proj2 (starts_spec zero_width _)) by (exists s; reflexivity). apply IH. cbn [length app] in L. lia.
Qed.
Lemma blank_lt s : Blank s -> ~ In "<"%char s.
Proof.
  induction 1 as [|c s W H IH|s H IH|s H IH]; [intros []| | |].
  - intros [->|I]; [destruct W as [W|[W|[W|W]]]; discriminate|contradiction].
  - rewrite in_app_iff. intros [I|I]; [revert I; cbn; intuition discriminate|contradiction].
  - rewrite in_app_iff. intros [I|I]; [revert I; vm_compute; intuition discriminate|contradiction].
Qed.
Lemma blank_close x r : Blank x -> strstr (B "</p>") (B "<p>" ++ x ++ B "</p>" ++ r) = Some (3 + length x).
Proof.
  intros Bl. rewrite app_assoc. rewrite strstr_unbordered; [rewrite app_length; reflexivity|reflexivity|discriminate|].
  intros (a & b & E). pose proof (blank_lt x Bl) as N. change (B "<p>" ++ x) with ("<"%char :: "p"%char :: ">"%char :: x) in E. destruct a as [|c a]; [discriminate|]. injection E as _ E.
  assert (I : In "<"%char ("p"%char :: ">"%char :: x)) by (rewrite E; apply in_or_app; right; left; reflexivity). destruct I as [I|[I|I]]; [discriminate|discriminate|contradiction].
Qed.
Lemma para_step fuel c t : (exists x rest, blank_paragraph x (c :: t) rest /\ paragraphs (S fuel) (c :: t) = paragraphs fuel rest) \/
  ((forall x rest, ~ blank_paragraph x (c :: t) rest) /\ paragraphs (S fuel) (c :: t) = c :: paragraphs fuel t).
Proof.
  remember (c :: t) as s eqn:Es. assert (P : paragraphs (S fuel) s = if starts (B "<p>") s then match strstr (B "</p>") s with
            | Some k => let content := firstn (k - 3) (skipn 3 s) in if empties (S (length content)) content && (0 <? length content) then paragraphs fuel (skipn (k + 4) s) else c :: paragraphs fuel t
            | None => c :: paragraphs fuel t end else c :: paragraphs fuel t) by (rewrite Es; reflexivity).
  destruct (starts (B "<p>") s) eqn:S1.
  2:{ right. split; [|exact P]. intros x rest (E & _). rewrite E in S1. rewrite (proj2 (starts_spec _ _)) in S1 by eauto. discriminate. }
  destruct (strstr (B "</p>") s) as [k|] eqn:K.
  2:{ right. split; [|exact P]. intros x rest (E & _). apply (strstr_none _ _ K (B "<p>" ++ x) rest). rewrite E, <- app_assoc. reflexivity. }
  apply starts_spec in S1 as [u S1]. pose proof K as K'. apply strstr_some in K' as (a & r & E & La & _).
  assert (A : exists x, a = B "<p>" ++ x).
  { rewrite S1 in E. change (B "<p>" ++ u) with ("<"%char :: "p"%char :: ">"%char :: u) in E. destruct a as [|a0 [|a1 [|a2 a]]]; try discriminate E. injection E as <- <- <- _. exists a. reflexivity. }
  destruct A as [x ->]. subst k. rewrite app_length in P. change (length (B "<p>")) with 3 in P.
  assert (C : firstn (3 + length x - 3) (skipn 3 s) = x) by (rewrite E; replace (3 + length x - 3) with (length x) by lia; change (skipn 3 ((B "<p>" ++ x) ++ B "</p>" ++ r)) with (x ++ B "</p>" ++ r); apply firstn_exact; reflexivity).
  assert (D : skipn (3 + length x + 4) s = r) by (rewrite E; replace ((B "<p>" ++ x) ++ B "</p>" ++ r) with ((B "<p>" ++ x ++ B "</p>") ++ r) by (rewrite <- !app_assoc; reflexivity); apply skipn_exact; rewrite !app_length; cbn; lia).
  cbv zeta in P. rewrite C, D in P. destruct (empties (S (length x)) x && (0 <? length x)) eqn:Q.
  - left. exists x, r. split; [|exact P]. apply andb_true_iff in Q as [Q1 Q2]. split; [rewrite E, <- app_assoc; reflexivity|]. split; [intros ->; discriminate|exact (empties_blank _ _ Q1)].
  - right. split; [|exact P]. intros x' r' (E' & Z & Bl). assert (K2 := blank_close x' r' Bl). rewrite <- E', K in K2. injection K2 as K2.
    assert (X : x = x'). { rewrite E in E'. rewrite <- app_assoc in E'. apply app_inv_head in E'. apply (f_equal (firstn (length x))) in E'. rewrite firstn_exact in E' by reflexivity. rewrite firstn_exact in E' by lia. exact E'. }
    subst x'. rewrite (blank_empties x Bl) in Q by lia. destruct x; [congruence|discriminate].
Qed.
Lemma paragraphs_cleaned fuel : forall s, length s < fuel -> Cleaned s (paragraphs fuel s).
Proof.
  induction fuel as [|fuel IH]; intros s L; [lia|]. destruct s as [|c t]; [constructor|]. destruct (para_step fuel c t) as [(x & rest & Bp & ->)|[N ->]].
  - eapply Cl_drop; [exact Bp|]. apply IH. destruct Bp as (E & _). rewrite E in L. rewrite !app_length in L. cbn in L. lia.
  - apply Cl_byte; [exact N|]. apply IH. cbn in L. lia.
Qed.
Lemma bp_unique x s r x' r' : blank_paragraph x s r -> blank_paragraph x' s r' -> r = r'.
Proof.
  intros (E & _ & Bl) (E' & _ & Bl'). assert (K := blank_close x r Bl). assert (K' := blank_close x' r' Bl'). rewrite <- E in K. rewrite <- E', K in K'. injection K' as K'.
  rewrite E in E'. apply app_inv_head in E'. apply (f_equal (skipn (length x))) in E'. rewrite skipn_exact in E' by reflexivity. rewrite skipn_exact in E' by lia. apply app_inv_head in E'. exact E'.
Qed.
Lemma cleaned_unique s h : Cleaned s h -> forall fuel, length s < fuel -> paragraphs fuel s = h.
Proof.
  induction 1 as [|x s r h Bp C IH|c s h N C IH]; intros fuel L; (destruct fuel as [|fuel]; [lia|]).
  - reflexivity.
  - destruct s as [|c t]; [destruct Bp as (E & _); discriminate|]. destruct (para_step fuel c t) as [(x' & rest & Bp' & ->)|[N _]]; [|exfalso; exact (N _ _ Bp)].
    rewrite <- (bp_unique _ _ _ _ _ Bp Bp'). apply IH. destruct Bp as (E & _). rewrite E in L. rewrite !app_length in L. cbn in L. lia.
  - destruct (para_step fuel c s) as [(x' & rest & Bp' & _)|[_ ->]]; [exfalso; exact (N _ _ Bp')|]. f_equal. apply IH. cbn in L. lia.
Qed.

(** ** The first heading *)
Lemma vis_tag x s : ~ In ">"%char x -> visible true (x ++ ">"%char :: s) = visible false s.
Proof.
  induction x as [|c x IH]; intros N; [reflexivity|]. cbn [app visible]. rewrite IH by (intros I; apply N; right; exact I).
  rewrite (proj2 (ceq_neq c ">"%char)) by (intros ->; apply N; left; reflexivity). destruct (ceq c "<"%char); reflexivity.
Qed.
Lemma vis_open x : ~ In ">"%char x -> visible true x = [].
Proof.
  induction x as [|c x IH]; intros N; [reflexivity|]. cbn [visible]. rewrite IH by (intros I; apply N; right; exact I).
  rewrite (proj2 (ceq_neq c ">"%char)) by (intros ->; apply N; left; reflexivity). destruct (ceq c "<"%char); reflexivity.
Qed.
Lemma shown_visible s h : Shown s h -> visible false s = h.
Proof.
  induction 1 as [|c s h N1 N2 H IH|s h H IH|x s h N H IH|x N].
  - reflexivity.
  - cbn [visible]. rewrite (proj2 (ceq_neq c _) N1), (proj2 (ceq_neq c _) N2), IH. reflexivity.
  - exact IH.
  - change (visible false (B "<" ++ x ++ B ">" ++ s)) with (visible true (x ++ ">"%char :: s)). rewrite vis_tag by exact N. exact IH.
  - change (visible false (B "<" ++ x)) with (visible true x). apply vis_open, N.
Qed.
Lemma visible_shown s : Shown s (visible false s).
Proof.
  assert (H : forall n s, length s < n -> Shown s (visible false s)).
  { induction n as [|n IH]; intros t L; [lia|]. destruct t as [|c t]; [constructor|]. cbn [length] in L. destruct (ascii_dec c "<"%char) as [->|N1].
    - change (visible false ("<"%char :: t)) with (visible true t). destruct (strchr_cut ">"%char t) as [N|(x & r & -> & N)].
      + rewrite vis_open by exact N. exact (Sh_open t N).
      + rewrite vis_tag by exact N. apply (Sh_tag x r _ N). apply IH. rewrite app_length in L. cbn in L. lia.
    - cbn [visible]. rewrite (proj2 (ceq_neq c _) N1). destruct (ascii_dec c ">"%char) as [->|N2]; [apply Sh_stray, IH; lia|]. rewrite (proj2 (ceq_neq c _) N2). apply Sh_text; [exact N1|exact N2|apply IH; lia]. }
  exact (H (S (length s)) s (Nat.lt_succ_diag_r _)).
Qed.
Lemma blank_white c : blank c = true <-> white c.
Proof. unfold blank, white. rewrite !orb_true_iff, !ceq_eq. tauto. Qed.
Lemma span_shape p s : Forall (fun c => p c = true) (fst (span p s)) /\ (forall c r, snd (span p s) = c :: r -> p c = false) /\ s = fst (span p s) ++ snd (span p s).
Proof.
  induction s as [|c s (F & H & E)]; [repeat split; [constructor|discriminate]|]. cbn [span]. destruct (p c) eqn:P.
  - destruct (span p s) as [a b]. cbn [fst snd] in *. repeat split; [constructor; assumption|exact H|rewrite E; reflexivity].
  - repeat split; [constructor|]. intros d r Q. injection Q as <- _. exact P.
Qed.
Lemma whites l : Forall (fun c => blank c = true) l <-> Forall white l.
Proof. split; apply Forall_impl; intros c; apply blank_white. Qed.
Lemma trim_trimmed s : Trimmed s (trim s).
Proof.
  unfold trim. destruct (span_shape blank (rev s)) as (F1 & H1 & E1). remember (fst (span blank (rev s))) as a eqn:Ea. remember (snd (span blank (rev s))) as b eqn:Eb. clear Ea Eb.
  destruct (span_shape blank (rev b)) as (F2 & H2 & E2). remember (fst (span blank (rev b))) as u eqn:Eu. remember (snd (span blank (rev b))) as t eqn:Et. clear Eu Et.
  exists u, (rev a). split; [|split; [|split; [|split]]].
  - rewrite <- (rev_involutive s), E1, rev_app_distr, E2, <- app_assoc. reflexivity.
  - apply whites, F2.
  - apply whites, Forall_rev, F1.
  - intros c t' -> W. apply blank_white in W. rewrite (H2 c t' eq_refl) in W. discriminate.
  - intros c t' -> W. apply blank_white in W. assert (Q : b = c :: rev (u ++ t')) by (rewrite <- (rev_involutive b), E2, app_assoc, rev_app_distr; reflexivity). rewrite (H1 c _ Q) in W. discriminate.
Qed.
Lemma last_cases (t : str) : t = [] \/ exists t' c, t = t' ++ [c].
Proof. destruct t as [|d t]; [left; reflexivity|right]. destruct (exists_last (l := d :: t)) as (t' & c & E); [discriminate|]. exists t', c. exact E. Qed.
Lemma span_all p (l : str) : Forall (fun c => p c = true) l -> span p l = (l, []).
Proof. intros F. rewrite <- (app_nil_r l) at 1. rewrite span_word by auto. reflexivity. Qed.
Lemma trimmed_trim s t : Trimmed s t -> trim s = t.
Proof.
  intros (u & w & -> & Fu & Fw & H1 & H2). unfold trim. apply whites in Fu, Fw. destruct (last_cases t) as [->|(t' & c & Et)].
  - cbn [app]. rewrite (span_all blank (rev (u ++ w))) by (apply Forall_rev, Forall_app; auto). reflexivity.
  - assert (R : rev (u ++ t ++ w) = rev w ++ c :: rev (u ++ t')) by (rewrite Et, app_assoc, rev_app_distr, app_assoc, (rev_app_distr (u ++ t')); reflexivity). rewrite R.
    rewrite span_word; [|apply Forall_rev, Fw|right; exists c, (rev (u ++ t')); split; [reflexivity|]]. 
    + cbn [snd rev]. rewrite rev_involutive, <- app_assoc, <- Et. rewrite span_word; [reflexivity|exact Fu|]. destruct t as [|d t]; [left; reflexivity|right; exists d, t; split; [reflexivity|]].
      apply bool_false. rewrite blank_white. exact (H1 d t eq_refl).
    + apply bool_false. rewrite blank_white. exact (H2 c t' Et).
Qed.
Lemma h1_spec html t : first_h1 html = Some t <-> first_heading html t.
Proof.
  split.
  - unfold first_h1. destruct (strstr_cut (B "<h1") html) as [N|(a & r & -> & N)]; [discriminate|reflexivity|rewrite strstr_absent by (try discriminate; exact N); discriminate|].
    rewrite strstr_unbordered by (try reflexivity; try discriminate; exact N). rewrite skipn_exact by reflexivity. cbv zeta.
    destruct (strchr_cut ">"%char (B "<h1" ++ r)) as [Nr|(b & r' & E & Nb)]; [rewrite strchr_absent by exact Nr; discriminate|]. rewrite E. rewrite strchr_at by exact Nb.
    assert (K : skipn (length b + 1) (b ++ ">"%char :: r') = r') by (change (">"%char :: r') with ([">"%char] ++ r'); rewrite app_assoc; apply skipn_exact; rewrite app_length; reflexivity). rewrite K.
    destruct (strstr_cut (B "</h1>") r') as [N2|(body & rest & -> & N2)]; [discriminate|reflexivity|rewrite strstr_absent by (try discriminate; exact N2); discriminate|].
    rewrite strstr_unbordered by (try reflexivity; try discriminate; exact N2). rewrite firstn_exact by reflexivity.
    destruct (trim (visible false body)) as [|d t'] eqn:T; [discriminate|]. intros Q. injection Q as <-.
    assert (Bb : exists b', b = B "<h1" ++ b' /\ r = b' ++ B ">" ++ body ++ B "</h1>" ++ rest).
    { change (B "<h1" ++ r) with ("<"%char :: "h"%char :: "1"%char :: r) in E. destruct b as [|b0 [|b1 [|b2 b]]]; try discriminate E. injection E as <- <- <- ->. exists b. split; reflexivity. }
    destruct Bb as (b' & -> & ->). exists a, b', body, rest, (visible false body). split; [reflexivity|]. split; [exact N|]. split; [intros I; apply Nb, in_or_app; right; exact I|]. split; [exact N2|].
    split; [apply visible_shown|]. split; [rewrite <- T; apply trim_trimmed|discriminate].
  - intros (a & b & body & rest & v & -> & N & Nb & N2 & Sh & Tr & Z). unfold first_h1. rewrite strstr_unbordered by (try reflexivity; try discriminate; exact N). rewrite skipn_exact by reflexivity. cbv zeta.
    change (B ">" ++ body ++ B "</h1>" ++ rest) with (">"%char :: body ++ B "</h1>" ++ rest). rewrite (app_assoc (B "<h1")). rewrite strchr_at by (rewrite in_app_iff; intros [I|I]; [revert I; cbn; intuition discriminate|contradiction]).
    assert (K : skipn (length (B "<h1" ++ b) + 1) ((B "<h1" ++ b) ++ ">"%char :: body ++ B "</h1>" ++ rest) = body ++ B "</h1>" ++ rest).
    { change (">"%char :: body ++ B "</h1>" ++ rest) with ([">"%char] ++ body ++ B "</h1>" ++ rest). rewrite app_assoc. apply skipn_exact. rewrite (app_length (B "<h1" ++ b)). reflexivity. }
    rewrite K. rewrite strstr_unbordered by (try reflexivity; try discriminate; exact N2). rewrite firstn_exact by reflexivity.
    rewrite (shown_visible _ _ Sh), (trimmed_trim _ _ Tr). destruct t; [congruence|reflexivity].
Qed.

(** ** Footnotes *)
Lemma break_none html : ~ has section html -> break_notes html = html.
Proof. intros N. unfold break_notes. change (B "<section class=""footnotes""") with section. rewrite strstr_absent by (try discriminate; exact N). reflexivity. Qed.
Lemma break_first a r : ~ has section a -> break_notes (a ++ section ++ r) = a ++ notes_break ++ section ++ r.
Proof. intros N. unfold break_notes. change (B "<section class=""footnotes""") with section. rewrite strstr_unbordered by (try reflexivity; try discriminate; exact N). rewrite firstn_exact, skipn_exact by reflexivity. reflexivity. Qed.
Lemma has_later x a b : has x b -> has x (a ++ b).
Proof. intros (u & w & ->). exists (a ++ u), w. rewrite <- app_assoc. reflexivity. Qed.
Lemma poem_marked s h : Poem s h -> ~ has (B "language-") s -> Marked s h.
Proof.
  induction 1 as [s N|a b N Nb|a b s h N Nb La R IH|a b s h N Nb La R IH]; intros K; [apply Ma_none; assumption|apply Ma_open; assumption| |].
  - exfalso. apply K. apply has_later, has_later. destruct La as (u & v & w & ->). exists (u ++ B "class=" ++ v), w. rewrite <- !app_assoc. reflexivity.
  - apply Ma_code; [exact N|exact Nb|]. apply IH. intros H. apply K. do 4 apply has_later. exact H.
Qed.
