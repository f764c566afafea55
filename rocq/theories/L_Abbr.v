(** Lemmas about extracting abbreviations. *)
From Verif Require Import Base BaseL M_Abbr S_Abbr L_Trans L_Highlight.

(** ** White space at the ends *)
Lemma white_all a : white a -> forallb isspace a = true.
Proof. intros W. apply forallb_forall. rewrite <- Forall_forall. exact W. Qed.
Lemma all_white a : forallb isspace a = true -> white a.
Proof. intros H. apply Forall_forall. apply forallb_forall. exact H. Qed.
Lemma white_rev a : white a -> white (rev a).
Proof. intros W. apply Forall_rev, W. Qed.
Lemma bare_nil : bare [].
Proof. split; [discriminate|]. intros r c E. destruct r; discriminate. Qed.

Lemma trims_unique s t : trims s t -> trim s = t.
Proof.
  intros ((H1 & H2) & a & b & -> & Wa & Wb). unfold trim. destruct t as [|c t].
  - cbn [app].
    assert (W : white (a ++ b)) by (apply Forall_app; auto).
    replace (a ++ b) with ((a ++ b) ++ []) by apply app_nil_r.
    rewrite (span_uniq isspace (a ++ b) [] (white_all _ W)) by discriminate. reflexivity.
  - rewrite (span_uniq isspace a ((c :: t) ++ b) (white_all _ Wa)) by (intros d r [= <- _]; exact (H1 _ _ eq_refl)).
    cbn [snd]. rewrite rev_app_distr.
    rewrite (span_uniq isspace (rev b) (rev (c :: t)) (white_all _ (white_rev _ Wb))).
    + cbn [snd]. apply rev_involutive.
    + intros d r E. apply (H2 (rev r) d). apply (f_equal (@rev ascii)) in E. rewrite rev_involutive in E. exact E.
Qed.
Lemma trim_trims s : trims s (trim s).
Proof.
  unfold trim. destruct (span isspace s) as [a q] eqn:E1. cbn [snd].
  apply span_spec in E1 as (E1 & Wa & N1).
  destruct (span isspace (rev q)) as [b m] eqn:E2. cbn [snd]. apply span_spec in E2 as (E2 & Wb & N2).
  assert (Q : q = rev m ++ rev b).
  { apply (f_equal (@rev ascii)) in E2. rewrite rev_involutive, rev_app_distr in E2. exact E2. }
  split.
  - split.
    + intros c r E. destruct q as [|d q]; [destruct (rev m); discriminate|].
      rewrite E in Q. injection Q as Q _. subst d. exact (N1 _ _ eq_refl).
    + intros r c E. apply (f_equal (@rev ascii)) in E. rewrite rev_involutive, rev_app_distr in E. exact (N2 _ _ E).
  - exists a, (rev b). split; [rewrite E1, Q; reflexivity|]. split; [apply all_white, Wa|apply white_rev, all_white, Wb].
Qed.

(** ** One inline definition *)
Lemma spaces_span g e : (forall r, e <> SP :: r) -> span (ceq SP) (repeat SP g ++ e) = (repeat SP g, e).
Proof.
  intros H. apply span_uniq.
  - induction g; [reflexivity|]. exact IHg.
  - intros c r E. destruct (ceq SP c) eqn:C; [|reflexivity]. apply ceq_eq in C. subst c. destruct (H r E).
Qed.
Lemma span_spaces s g e : span (ceq SP) s = (g, e) -> s = repeat SP (length g) ++ e /\ (forall r, e <> SP :: r).
Proof.
  intros H. apply span_spec in H as (-> & F & N). split.
  - f_equal. clear N. induction g as [|c g IH]; [reflexivity|]. cbn [forallb] in F. apply andb_true_iff in F as [F1 F2].
    apply ceq_eq in F1. subst c. cbn [length repeat]. f_equal. exact (IH F2).
  - intros r E. specialize (N _ _ E). rewrite ceq_refl in N. discriminate.
Qed.
Lemma chr_first c (a b : str) : ~ In c a -> strchr c (a ++ c :: b) = Some (length a).
Proof.
  induction a as [|d a IH]; intros H; cbn [app strchr].
  - rewrite ceq_refl. reflexivity.
  - destruct (ceq c d) eqn:E; [apply ceq_eq in E; subst d; destruct H; left; reflexivity|].
    rewrite IH; [reflexivity|]. intros I. apply H. right. exact I.
Qed.
Lemma chr_split c s i : strchr c s = Some i -> s = firstn i s ++ c :: skipn (S i) s /\ ~ In c (firstn i s) /\ length (firstn i s) = i.
Proof.
  revert i. induction s as [|d s IH]; intros i H; [discriminate|]. cbn [strchr] in H. destruct (ceq c d) eqn:E.
  - injection H as <-. apply ceq_eq in E. subst d. cbn. split; [reflexivity|]. split; [intros []|reflexivity].
  - destruct (strchr c s) as [j|] eqn:Ej; [|discriminate]. injection H as <-. destruct (IH j eq_refl) as (H1 & H2 & H3).
    cbn [firstn skipn app length]. split; [f_equal; exact H1|]. split; [|f_equal; exact H3].
    intros [->|I]; [rewrite ceq_refl in E; discriminate|exact (H2 I)].
Qed.
Lemma take_app {A} (a b : list A) : firstn (length a) (a ++ b) = a.
Proof. rewrite firstn_app, firstn_all, Nat.sub_diag. cbn. apply app_nil_r. Qed.
Lemma drop_app {A} (a b : list A) : skipn (length a) (a ++ b) = b.
Proof. rewrite skipn_app, skipn_all, Nat.sub_diag. reflexivity. Qed.
Lemma drop_app_S {A} (a : list A) x b : skipn (S (length a)) (a ++ x :: b) = b.
Proof. replace (S (length a)) with (length (a ++ [x])) by (rewrite app_length; cbn; lia). rewrite (app_assoc a [x] b : a ++ x :: b = _). apply drop_app. Qed.

Lemma inline_at_here a g e t : inline_ok (Inline a g e) ->
  inline_at (write_piece (Inline a g e) ++ t) = Some (a, e, t).
Proof.
  intros (Ha & He & Hs & La & Le). unfold inline_at. cbn [write_piece]. rewrite <- !app_assoc, starts_app.
  change (skipn 3 (B "[>(" ++ a ++ B ")" ++ repeat SP g ++ e ++ B "]" ++ t)) with (a ++ ")"%char :: (repeat SP g ++ e ++ "]"%char :: t)).
  cbv zeta. rewrite chr_first by exact Ha. rewrite drop_app_S, take_app, spaces_span.
  - cbn [snd]. rewrite chr_first by exact He. rewrite take_app, drop_app_S.
    destruct La as [La1 La2], Le as [Le1 Le2].
    apply Nat.ltb_lt in La1, La2, Le1, Le2. rewrite La1, La2, Le1, Le2. reflexivity.
  - intros r E. destruct e as [|c e]; [cbn in Le; lia|]. injection E as -> E. exact (Hs _ eq_refl).
Qed.
Lemma inline_at_some s a e r : inline_at s = Some (a, e, r) ->
  exists g, s = write_piece (Inline a g e) ++ r /\ inline_ok (Inline a g e).
Proof.
  unfold inline_at. destruct (starts (B "[>(") s) eqn:E0; [|discriminate]. apply starts_spec in E0 as [q ->].
  change (skipn 3 (B "[>(" ++ q)) with q. cbv zeta.
  destruct (strchr ")" q) as [i|] eqn:E1; [|discriminate]. apply chr_split in E1 as (Q & N1 & L1).
  destruct (span (ceq SP) (skipn (S i) q)) as [g x] eqn:E2. cbn [snd]. apply span_spaces in E2 as (E2 & N2).
  destruct (strchr "]" x) as [j|] eqn:E3; [|discriminate]. apply chr_split in E3 as (X & N3 & L3).
  destruct (_ && _ && _ && _)%bool eqn:C; [|discriminate]. intros H. apply Some_inj in H. injection H as <- <- <-.
  rewrite !andb_true_iff, !Nat.ltb_lt in C. exists (length g). split.
  - cbn [write_piece]. rewrite <- !app_assoc. f_equal. rewrite Q at 1. f_equal. cbn [B list_ascii_of_string app]. f_equal.
    rewrite E2. f_equal. exact X.
  - cbn [inline_ok]. rewrite L1, L3. split; [exact N1|]. split; [exact N3|]. split; [|lia].
    intros r E. destruct x as [|c x]; [rewrite firstn_nil in E; discriminate|].
    destruct j; [discriminate|]. cbn [firstn] in E. injection E as -> _. exact (N2 _ eq_refl).
Qed.
Lemma inline_at_none s : inline_at s = None <-> forall p t, inline_ok p -> s <> write_piece p ++ t.
Proof.
  split.
  - intros H [c|a g e] t O E; [destruct O|]. subst s. rewrite inline_at_here in H by exact O. discriminate.
  - intros H. destruct (inline_at s) as [[[a e] r]|] eqn:E; [|reflexivity].
    apply inline_at_some in E as (g & E & O). destruct (H _ _ O E).
Qed.

(** Every text is a list of pieces in exactly one way. *)
Lemma inline_shorter a g e r : length r < length (write_piece (Inline a g e) ++ r).
Proof. rewrite app_length. cbn [write_piece]. rewrite app_length. cbn [B list_ascii_of_string length]. lia. Qed.
Lemma pieces_exist n : forall s, length s <= n -> exists l, write_pieces l = s /\ pieces_ok l.
Proof.
  induction n as [|n IH]; intros s L.
  - destruct s; [|cbn in L; lia]. exists []. split; [reflexivity|exact I].
  - destruct s as [|c s]; [exists []; split; [reflexivity|exact I]|]. destruct (inline_at (c :: s)) as [[[a e] r]|] eqn:E.
    + apply inline_at_some in E as (g & E & O). pose proof (inline_shorter a g e r) as L2. rewrite <- E in L2.
      destruct (IH r) as (l & W & K); [lia|]. exists (Inline a g e :: l). split; [|split; assumption].
      unfold write_pieces in *. cbn [map concat]. rewrite W. symmetry. exact E.
    + destruct (IH s) as (l & W & K); [cbn in L; lia|]. exists (Char c :: l). split.
      * unfold write_pieces in *. cbn [map concat write_piece app]. rewrite W. reflexivity.
      * cbn [pieces_ok]. split; [|exact K]. rewrite W. apply inline_at_none, E.
Qed.
Lemma defines_exist l : exists d, defines_all l d.
Proof.
  induction l as [|[c|a g e] l [d D]].
  - exists []. constructor.
  - exists d. constructor. exact D.
  - exists (d ++ [(trim a, trim e)]). constructor; [exact D|apply trim_trims|apply trim_trims].
Qed.

(** ** All of them *)

Lemma left_over_tidy a g e : tidy (Inline a g e) -> trim_left_over a = a.
Proof.
  intros T. unfold trim_left_over. destruct (span isspace a) as [x q] eqn:E. cbn [snd].
  destruct q as [|c q]; [reflexivity|]. apply span_spec in E as (E & Fx & N). destruct T as [W|T].
  - exfalso. specialize (N _ _ eq_refl). apply white_all in W. rewrite E, forallb_app, andb_true_iff in W.
    destruct W as [_ W]. cbn [forallb] in W. rewrite N in W. discriminate.
  - destruct (rev a) as [|d y] eqn:R; [apply (f_equal (@rev ascii)) in R; rewrite rev_involutive in R; exact (eq_sym R)|].
    assert (Ed : isspace d = false).
    { apply (T (rev y)). apply (f_equal (@rev ascii)) in R. rewrite rev_involutive in R. exact R. }
    cbn [span]. rewrite Ed. cbn [snd]. rewrite <- R. apply rev_involutive.
Qed.
Lemma put_abbr_tidy a g e w : tidy (Inline a g e) -> length (w_out w) + length a < w_cap w -> w_oob w = false ->
  put_abbr a w = Wr (w_cap w) (w_out w ++ a) (w_rem w) false.
Proof.
  intros T L O. unfold put_abbr. rewrite (left_over_tidy a g e T), Nat.sub_diag. cbn [repeat]. rewrite app_nil_r. f_equal.
  unfold w_store. cbn [w_oob]. rewrite O. destruct (a ++ [NUL]) eqn:E; [reflexivity|]. rewrite <- E. cbn [orb].
  apply Nat.ltb_ge. rewrite app_length. cbn [length]. lia.
Qed.
Lemma inline_loop_ok l : forall d fuel items cap out rem,
  pieces_ok l -> Forall tidy l -> defines_all l d ->
  length (write_pieces l) < fuel -> length out + length (write_pieces l) < cap ->
  inline_loop fuel (write_pieces l) items (Wr cap out rem false) = Some (d ++ items, Wr cap (out ++ spoken l) rem false).
Proof.
  induction l as [|p l IH]; intros d fuel items cap out rem O T D Lf Lc.
  - inversion D. subst d. destruct fuel; [cbn in Lf; lia|]. change (write_pieces []) with (@nil ascii) in *. cbn [inline_loop].
    unfold w_term. cbn [w_cap w_out w_rem w_oob orb spoken map concat app]. rewrite app_nil_r. do 3 f_equal.
    apply Nat.leb_gt. cbn [length] in Lc. lia.
  - destruct fuel; [lia|]. apply Forall_inv_tail in T as T2. apply Forall_inv in T as T1. destruct p as [c|a g e].
    + cbn [pieces_ok] in O. destruct O as [O1 O2]. inversion D as [|? ? ? D'|]; subst.
      change (write_pieces (Char c :: l)) with (c :: write_pieces l) in *. cbn [inline_loop length] in *.
      rewrite (proj2 (inline_at_none _) O1).
      replace (w_store [c] (Wr cap out rem false)) with (Wr cap (out ++ [c]) rem false).
      * rewrite (IH d); [| assumption..|lia|rewrite app_length; cbn [length]; lia].
        rewrite <- app_assoc. reflexivity.
      * unfold w_store. cbn [w_cap w_out w_rem w_oob orb]. f_equal. symmetry. apply Nat.ltb_ge. cbn [length]. lia.
    + cbn [pieces_ok] in O. destruct O as [O1 O2]. inversion D as [|? ? ? D'|? ? ? ? d0 a' e' D' Ta Te]; subst.
      change (write_pieces (Inline a g e :: l)) with (write_piece (Inline a g e) ++ write_pieces l) in *.
      pose proof (inline_shorter a g e (write_pieces l)) as Sh.
      assert (La : length a + length (write_pieces l) < length (write_piece (Inline a g e) ++ write_pieces l)).
      { rewrite app_length. cbn [write_piece]. rewrite !app_length. cbn [B list_ascii_of_string length]. lia. }
      destruct (write_piece (Inline a g e) ++ write_pieces l) as [|x y] eqn:E; [cbn in Sh; lia|].
      cbn [inline_loop]. rewrite <- E, inline_at_here by exact O1.
      rewrite (put_abbr_tidy a g e) by (first [exact T1|reflexivity|cbn [w_out w_cap]; lia]). cbn [w_cap w_out w_rem].
      rewrite (IH d0); [| assumption..|lia|rewrite app_length; lia].
      apply trims_unique in Ta, Te. rewrite Ta, Te, <- !app_assoc. reflexivity.
Qed.

(** ** Lines *)
Lemma c_string_nul_free s : nul_free s -> c_string s = s.
Proof.
  intros H. unfold c_string. rewrite <- (app_nil_r s) at 1. rewrite span_uniq; [reflexivity| |discriminate].
  apply forallb_forall. intros c I. rewrite negb_true_iff. apply ceq_neq. intros ->. exact (H I).
Qed.
Lemma definition_after_some l d : definition_after l = Some d <->
  exists a e, l = a ++ B "]:" ++ e /\ ~ In "]"%char a /\
    d = match trim a, trim e with [], _ | _, [] => None | _, _ => Some (trim a, trim e) end.
Proof.
  unfold definition_after. split.
  - destruct (strchr "]" l) as [i|] eqn:E; [|discriminate]. apply chr_split in E as (E & N & L).
    destruct (ceq (at_ l (S i)) ":") eqn:C; [|discriminate]. apply ceq_eq in C. intros H. apply Some_inj in H.
    exists (firstn i l), (skipn (i + 2) l). split; [|split; [exact N|exact (eq_sym H)]].
    rewrite E at 1. f_equal. cbn [B list_ascii_of_string app]. f_equal.
    unfold at_ in C. clear -C. revert i C. induction l as [|c l IH]; intros i C; [destruct i; discriminate|].
    destruct i; [|cbn [skipn Nat.add]; apply IH; exact C].
    cbn [skipn Nat.add nth] in *. destruct l as [|x l]; [discriminate|]. cbn in C |- *. rewrite C. reflexivity.
  - intros (a & e & -> & N & ->). cbn [B list_ascii_of_string app]. rewrite chr_first by exact N.
    unfold at_. rewrite app_nth2 by lia. replace (S (length a) - length a) with 1 by lia. cbn [nth]. rewrite ceq_refl, take_app.
    replace (skipn (length a + 2) (a ++ "]"%char :: ":"%char :: e)) with e; [reflexivity|].
    replace (a ++ "]"%char :: ":"%char :: e) with ((a ++ B "]:") ++ e) by (rewrite <- app_assoc; reflexivity).
    replace (length a + 2) with (length (a ++ B "]:")) by (rewrite app_length; reflexivity). symmetry. apply drop_app.
Qed.
Definition meaning (a e : str) : option (str * str) :=
  match trim a, trim e with [], _ | _, [] => None | _, _ => Some (trim a, trim e) end.
Lemma definition_line_some l d : definition_line l = Some d <-> exists a e, is_definition l a e /\ d = meaning a e.
Proof.
  unfold definition_line. split.
  - intros H. destruct (ceq (at_ l 0) "*" && ceq (at_ l 1) "[") eqn:C.
    + apply andb_true_iff in C as [C1 C2]. apply ceq_eq in C1, C2.
      destruct l as [|x [|y l]]; cbn in C1, C2; subst; try discriminate.
      destruct (definition_after (skipn 2 ("*"%char :: "["%char :: l))) as [d'|] eqn:E.
      * apply definition_after_some in E as (a & e & E & N & ->). apply Some_inj in H. subst d. cbn [skipn] in E. subst l.
        exists a, e. split; [exact (def_star a e N)|reflexivity].
      * cbn in H. discriminate.
    + destruct (ceq (at_ l 0) "[" && ceq (at_ l 1) ">") eqn:C3; [|discriminate].
      apply andb_true_iff in C3 as [C1 C2]. apply ceq_eq in C1, C2.
      destruct l as [|x [|y l]]; cbn in C1, C2; subst; try discriminate.
      apply definition_after_some in H as (a & e & E & N & ->). cbn [skipn] in E. subst l.
      exists a, e. split; [exact (def_angle a e N)|reflexivity].
  - intros (a & e & D & ->). inversion D as [a0 e0 N|a0 e0 N]; subst.
    + change (ceq (at_ (B "*[" ++ a ++ B "]:" ++ e) 0) "*" && ceq (at_ (B "*[" ++ a ++ B "]:" ++ e) 1) "[") with true.
      cbv iota. replace (definition_after _) with (Some (meaning a e)); [reflexivity|].
      symmetry. apply definition_after_some. exists a, e. split; [reflexivity|]. split; [exact N|reflexivity].
    + change (ceq (at_ (B "[>" ++ a ++ B "]:" ++ e) 0) "*" && ceq (at_ (B "[>" ++ a ++ B "]:" ++ e) 1) "[") with false.
      change (ceq (at_ (B "[>" ++ a ++ B "]:" ++ e) 0) "[" && ceq (at_ (B "[>" ++ a ++ B "]:" ++ e) 1) ">") with true.
      cbv iota. apply definition_after_some. exists a, e. split; [reflexivity|]. split; [exact N|reflexivity].
Qed.

Lemma lines_exist n : forall s, length s <= n -> exists ls, write_lines ls = s /\ lines_ok ls.
Proof.
  induction n as [|n IH]; intros s L; (destruct s as [|c s]; [exists []; split; [reflexivity|exact I]|]); [cbn in L; lia|].
  destruct (strchr NL (c :: s)) as [i|] eqn:E.
  - apply chr_split in E as (E & N & Li). destruct (IH (skipn (S i) (c :: s))) as (ls & W & K).
    { apply (f_equal (@length ascii)) in E. rewrite app_length in E. cbn [length] in E, L. lia. }
    exists ((firstn i (c :: s), true) :: ls). split.
    + unfold write_lines in *. cbn [map concat]. rewrite W. unfold write_line. cbn [fst snd]. rewrite <- app_assoc. symmetry. exact E.
    + cbn [lines_ok]. split; [exact N|]. split; [discriminate|exact K].
  - apply strchr_none in E. exists [(c :: s, false)]. split.
    + unfold write_lines, write_line. cbn [map concat fst snd]. rewrite !app_nil_r. reflexivity.
    + cbn [lines_ok]. split; [exact E|]. split; [|exact I]. intros _. split; [discriminate|reflexivity].
Qed.
Lemma sorted_exist ls : exists k d, sorted ls k d.
Proof.
  induction ls as [|[l n] ls (k & d & IH)]; [exists [], []; constructor|].
  destruct (definition_line l) as [o|] eqn:E.
  - apply definition_line_some in E as (a & e & D & _).
    destruct (trim a) as [|x xs] eqn:Ea; [exists k, d; eapply so_empty; [exact D|apply trim_trims|apply trim_trims|left; exact Ea|exact IH]|].
    destruct (trim e) as [|y ys] eqn:Ee; [exists k, d; eapply so_empty; [exact D|apply trim_trims|apply trim_trims|right; exact Ee|exact IH]|].
    exists k, ((trim a, trim e) :: d). eapply so_def; [exact D|apply trim_trims|apply trim_trims|congruence|congruence|exact IH].
  - exists ((l, n) :: k), d. apply so_kept; [|exact IH]. intros a e D.
    assert (X : definition_line l = Some (meaning a e)) by (apply definition_line_some; eauto). congruence.
Qed.
Lemma meaning_some a e a' e' : trims a a' -> trims e e' -> a' <> [] -> e' <> [] -> meaning a e = Some (a', e').
Proof.
  intros Ta Te Na Ne. apply trims_unique in Ta, Te. unfold meaning. rewrite Ta, Te. destruct a'; [congruence|]. destruct e'; [congruence|reflexivity].
Qed.
Lemma meaning_none a e a' e' : trims a a' -> trims e e' -> a' = [] \/ e' = [] -> meaning a e = None.
Proof.
  intros Ta Te N. apply trims_unique in Ta, Te. unfold meaning. rewrite Ta, Te. destruct N as [->| ->]; [reflexivity|]. destruct a'; reflexivity.
Qed.

Lemma lines_loop_line fuel l n ls items w : lines_ok ((l, n) :: ls) -> length l < 1024 ->
  lines_loop (S fuel) (write_lines ((l, n) :: ls)) items w =
  match definition_line l with
  | Some d => lines_loop fuel (write_lines ls) (items ++ match d with Some x => [x] | None => [] end) w
  | None => if n then lines_loop fuel (write_lines ls) items (w_store [NL] (w_store l w))
            else Some (items, w_term (w_store l w))
  end.
Proof.
  intros (N & K & _) L. change (write_lines ((l, n) :: ls)) with (write_line (l, n) ++ write_lines ls).
  unfold write_line. cbn [fst snd]. destruct n.
  - rewrite <- app_assoc. cbn [app lines_loop]. rewrite chr_first by exact N.
    rewrite Nat.min_l by lia. rewrite take_app, drop_app_S. reflexivity.
  - destruct (K eq_refl) as [K1 ->]. change (write_lines []) with (@nil ascii). rewrite !app_nil_r. cbn [lines_loop].
    rewrite (proj2 (strchr_none NL l) N). destruct l as [|c l]; [congruence|].
    rewrite Nat.min_l by lia. rewrite firstn_all. reflexivity.
Qed.
Lemma lines_loop_ok ls : forall k d fuel items cap out rem,
  lines_ok ls -> Forall (fun l => length (fst l) < 1024) ls -> sorted ls k d ->
  length (write_lines ls) < fuel -> length out + length (write_lines ls) < cap ->
  lines_loop fuel (write_lines ls) items (Wr cap out rem false) = Some (items ++ d, Wr cap (out ++ write_lines k) rem false).
Proof.
  induction ls as [|[l n] ls IH]; intros k d fuel items cap out rem O T D Lf Lc.
  - inversion D. subst. destruct fuel; [cbn in Lf; lia|]. cbn [write_lines map concat lines_loop strchr] in *.
    unfold w_term. cbn [w_cap w_out w_rem w_oob orb]. rewrite !app_nil_r. do 3 f_equal. apply Nat.leb_gt. cbn [length] in Lc. lia.
  - apply Forall_inv_tail in T as T2. apply Forall_inv in T as T1. cbn [fst] in T1.
    pose proof O as (N & K & O2).
    assert (LL : length (write_lines ((l, n) :: ls)) = length l + (if n then 1 else 0) + length (write_lines ls)).
    { change (write_lines ((l, n) :: ls)) with (write_line (l, n) ++ write_lines ls). rewrite app_length. unfold write_line. cbn [fst snd].
      rewrite app_length. destruct n; reflexivity. }
    assert (LS : length (write_lines ls) < length (write_lines ((l, n) :: ls))).
    { rewrite LL. destruct n; [lia|]. destruct (K eq_refl) as [K1 _]. destruct l; [congruence|cbn [length]; lia]. }
    destruct fuel; [lia|]. rewrite lines_loop_line by assumption.
    inversion D as [|? ? ? k' ? Nd Dd|? ? ? ? d' a e a' e' Df Ta Te Na Ne Dd|? ? ? ? ? a e a' e' Df Ta Te Ne Dd]; subst.
    + assert (E : definition_line l = None).
      { destruct (definition_line l) eqn:E; [|reflexivity]. apply definition_line_some in E as (a & e & E & _). destruct (Nd _ _ E). }
      rewrite E.
      assert (E1 : w_store l (Wr cap out rem false) = Wr cap (out ++ l) rem false).
      { unfold w_store. cbn [w_cap w_out w_rem w_oob orb]. f_equal. destruct l as [|c0 l0]; [reflexivity|]. apply Nat.ltb_ge. lia. }
      rewrite E1. destruct n.
      * replace (w_store [NL] (Wr cap (out ++ l) rem false)) with (Wr cap (out ++ l ++ [NL]) rem false).
        -- rewrite (IH k' d); [| assumption..|lia|rewrite !app_length; cbn [length]; lia].
           change (write_lines ((l, true) :: k')) with ((l ++ [NL]) ++ write_lines k'). rewrite <- !app_assoc. reflexivity.
        -- unfold w_store. cbn [w_cap w_out w_rem w_oob orb]. rewrite <- app_assoc. f_equal. symmetry. apply Nat.ltb_ge.
           rewrite app_length. cbn [length]. lia.
      * destruct (K eq_refl) as [K1 ->]. inversion Dd. subst. unfold w_term. cbn [w_cap w_out w_rem w_oob orb].
        change (write_lines [(l, false)]) with ((l ++ []) ++ []). rewrite !app_nil_r. do 3 f_equal. apply Nat.leb_gt. rewrite app_length.
        change (write_lines []) with (@nil ascii) in LL. cbn [length] in LL. lia.
    + assert (E : definition_line l = Some (Some (a', e'))).
      { apply definition_line_some. exists a, e. split; [exact Df|]. symmetry. apply meaning_some; assumption. }
      rewrite E. rewrite (IH k d'); [| assumption..|lia|lia]. rewrite <- app_assoc. reflexivity.
    + assert (E : definition_line l = Some None).
      { apply definition_line_some. exists a, e. split; [exact Df|]. symmetry. eapply meaning_none; eassumption. }
      rewrite E. rewrite (IH k d); [| assumption..|lia|lia]. rewrite app_nil_r. reflexivity.
Qed.

(** ** Extraction *)
Lemma spoken_nul_free l : nul_free (write_pieces l) -> nul_free (spoken l).
Proof.
  intros H I. apply H. clear H. induction l as [|[c|a g e] l IH]; [exact I| |].
  - change (spoken (Char c :: l)) with ([c] ++ spoken l) in I. change (write_pieces (Char c :: l)) with ([c] ++ write_pieces l).
    apply in_app_iff in I. apply in_app_iff. tauto.
  - change (spoken (Inline a g e :: l)) with (a ++ spoken l) in I.
    change (write_pieces (Inline a g e :: l)) with (write_piece (Inline a g e) ++ write_pieces l).
    apply in_app_iff in I. apply in_app_iff. destruct I as [I|I]; [|right; exact (IH I)]. left. cbn [write_piece].
    apply in_app_iff. right. apply in_app_iff. left. exact I.
Qed.
Lemma spoken_length l : length (spoken l) <= length (write_pieces l).
Proof.
  induction l as [|[c|a g e] l IH]; [reflexivity| |].
  - change (spoken (Char c :: l)) with (c :: spoken l). change (write_pieces (Char c :: l)) with (c :: write_pieces l). cbn [length]. lia.
  - change (spoken (Inline a g e :: l)) with (a ++ spoken l).
    change (write_pieces (Inline a g e :: l)) with (write_piece (Inline a g e) ++ write_pieces l).
    rewrite !app_length. cbn [write_piece]. rewrite !app_length. lia.
Qed.
Lemma kept_length ls k d : sorted ls k d -> length (write_lines k) <= length (write_lines ls).
Proof.
  induction 1; try (change (write_lines ((l, n) :: ls)) with (write_line (l, n) ++ write_lines ls); rewrite app_length); try lia.
  change (write_lines ((l, n) :: k)) with (write_line (l, n) ++ write_lines k). rewrite app_length. lia.
Qed.
Lemma kept_in ls k d : sorted ls k d -> forall c, In c (write_lines k) -> In c (write_lines ls).
Proof.
  induction 1; intros c I; [exact I|..];
    change (write_lines ((l, n) :: ls)) with (write_line (l, n) ++ write_lines ls); apply in_app_iff; auto.
  change (write_lines ((l, n) :: k)) with (write_line (l, n) ++ write_lines k) in I. apply in_app_iff in I. intuition.
Qed.
Lemma extract_ok l ls d0 k d :
  nul_free (write_pieces l) -> write_pieces l <> [] ->
  pieces_ok l -> Forall tidy l -> defines_all l d0 ->
  write_lines ls = spoken l -> lines_ok ls -> Forall (fun x => length (fst x) < 1024) ls -> sorted ls k d ->
  extract_abbreviations (write_pieces l) = Some (Extracted (d0 ++ d) (write_lines k) false).
Proof.
  intros Nf Ne O T D W Ol Tl So. unfold extract_abbreviations, inline_abbreviations, w_new.
  assert (0 < length (write_pieces l)) by (destruct (write_pieces l); [congruence|cbn; lia]).
  rewrite (inline_loop_ok l d0) by (first [assumption|cbn [length]; lia]). cbn [app w_out w_oob].
  rewrite app_nil_r. pose proof (spoken_nul_free l Nf) as Ns. pose proof (spoken_length l) as Ls.
  rewrite (c_string_nul_free (spoken l) Ns). cbv zeta. rewrite <- W.
  rewrite (lines_loop_ok ls k d) by (first [assumption|cbn [length]; lia]). cbn [app w_out w_oob].
  rewrite c_string_nul_free.
  - f_equal. f_equal. pose proof (kept_length _ _ _ So). rewrite W in *. cbn [orb].
    rewrite !(proj2 (Nat.ltb_ge _ _)) by lia. reflexivity.
  - intros I. apply Ns. rewrite <- W. exact (kept_in _ _ _ So _ I).
Qed.
