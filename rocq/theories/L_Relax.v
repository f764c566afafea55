(** Lemmas for tables without separator row. *)
From Verif Require Import Base BaseL L_Pass M_Relax S_Relax.

(** ** Kinds of lines *)
Lemma blank_bool l : is_blank l = true <-> blank l.
Proof. unfold is_blank, blank. rewrite forallb_forall, Forall_forall. reflexivity. Qed.

Lemma count_filter c l : length (filter (fun x => ceq x c) l) = count_occ ascii_dec l c.
Proof. induction l as [|x l IH]; [reflexivity|]. cbn [filter count_occ]. destruct (ascii_dec x c) as [->|N]; [rewrite ceq_refl; cbn [length]; lia|]. apply ceq_neq in N. rewrite N. exact IH. Qed.

Lemma pipes_bars l : pipes l = bars l.
Proof. apply count_filter. Qed.

Lemma gap_spec c : gap c = true <-> c = SP \/ c = TAB.
Proof. unfold gap. rewrite Bool.orb_true_iff, !ceq_eq. reflexivity. Qed.

Lemma span_cut p (s : str) : exists a, s = a ++ snd (span p s) /\ Forall (fun c => p c = true) a /\ (forall c r, snd (span p s) = c :: r -> p c = false).
Proof. destruct (span_shape p s) as (F & G & E). exists (fst (span p s)). auto. Qed.

Lemma span_at p a c r : Forall (fun c => p c = true) a -> p c = false -> snd (span p (a ++ c :: r)) = c :: r.
Proof.
  intros F C. induction F as [|x a X F IH]; cbn [app span]; [now rewrite C|]. rewrite X. destruct (span p (a ++ c :: r)). exact IH.
Qed.

Lemma lead_bool l : pipe_first l = true <-> lead l.
Proof.
  unfold pipe_first, lead. split.
  - destruct (span_cut gap l) as (a & E & F & _). destruct (snd (span gap l)) as [|c r]; [discriminate|]. intro C. apply ceq_eq in C. subst c. exists a, r. split; [exact E|]. eapply Forall_impl; [|exact F]. intros c. apply gap_spec.
  - intros (a & r & -> & F). rewrite span_at; [apply ceq_refl| |reflexivity]. eapply Forall_impl; [|exact F]. intros c. apply gap_spec.
Qed.

Lemma rule_bool l : is_rule l = true <-> rule_line l.
Proof.
  unfold is_rule, rule_line. destruct (span_cut gap l) as (a & E & F & _). set (q := snd (span gap l)) in *. rewrite E.
  assert (C0 : count_occ ascii_dec a "-"%char = 0) by (apply count_occ_not_In; intro I; rewrite Forall_forall in F; specialize (F _ I); discriminate F).
  rewrite count_occ_app, C0, Bool.andb_true_iff, Nat.leb_le, count_filter, Forall_app. cbn [Nat.add].
  assert (K : forall c, ceq c "-" || ceq c SP || ceq c TAB || ceq c NL || ceq c CR = true <-> In c (B "- " ++ [TAB; NL; CR])).
  { intro c. split; [intro H; repeat (apply Bool.orb_prop in H; destruct H as [H|H]); apply ceq_eq in H; subst c; cbn; auto 10|intro I; repeat (destruct I as [<-|I]; [reflexivity|]); destruct I]. }
  split.
  - intros [H N]. split; [|exact N]. split.
    + eapply Forall_impl; [|exact F]. intros c G. apply gap_spec in G. destruct G as [-> | ->]; cbn; auto.
    + apply Forall_forall. intros c I. apply K. rewrite forallb_forall in H. exact (H c I).
  - intros [[_ H] N]. split; [|exact N]. apply forallb_forall. intros c I. apply K. rewrite Forall_forall in H. exact (H c I).
Qed.

Lemma rule_no_bar l : rule_line l -> ~ In "|"%char l.
Proof. intros [F _] I. rewrite Forall_forall in F. specialize (F _ I). cbn in F. intuition discriminate. Qed.

Lemma sep_bool l : is_sep l = true <-> sep_line l.
Proof.
  unfold is_sep, sep_line.
  assert (K : forall c, ceq c "-" || ceq c "|" || ceq c SP || ceq c TAB || ceq c ":" || ceq c "+" = true <-> In c (B "-|:+ " ++ [TAB])).
  { intro c. split; [intro H; repeat (apply Bool.orb_prop in H; destruct H as [H|H]); apply ceq_eq in H; subst c; cbn; auto 10|intro I; repeat (destruct I as [<-|I]; [reflexivity|]); destruct I]. }
  assert (X : forall d, existsb (fun c => ceq c d) l = true <-> In d l).
  { intro d. rewrite existsb_exists. split; [intros (x & I & E); apply ceq_eq in E; subst; exact I|intro I; exists d; split; [exact I|apply ceq_refl]]. }
  destruct (is_rule l) eqn:R.
  - apply rule_bool in R. split; [discriminate|]. intros (_ & _ & I). now apply (rule_no_bar l R) in I.
  - rewrite !Bool.andb_true_iff, !X, forallb_forall, Forall_forall. split.
    + intros [[H A] C]. split; [intros c I; apply K; exact (H c I)|auto].
    + intros (H & A & C). split; [split; [intros c I; apply K; exact (H c I)|exact A]|exact C].
Qed.

Inductive kind := KBlank | KSep | KRule | KRow (n : nat) | KPlain.
Definition kind_of (l : str) : kind :=
  if is_blank l then KBlank else if is_sep l then KSep else if is_rule l then KRule
  else match columns l with Some (S n) => KRow (S n) | _ => KPlain end.

Lemma bars_in l : 0 < bars l <-> In "|"%char l.
Proof. unfold bars. symmetry. apply count_occ_In. Qed.

Lemma bool_not (b : bool) (P : Prop) : (b = true <-> P) -> ~ P -> b = false.
Proof. destruct b; [|reflexivity]. intros [H _] N. contradiction (N (H eq_refl)). Qed.

Lemma kind_blank l : blank l -> kind_of l = KBlank.
Proof. intro H. unfold kind_of. apply blank_bool in H. now rewrite H. Qed.

Lemma bar_not_blank l : In "|"%char l -> ~ blank l.
Proof. intros I F. unfold blank in F. rewrite Forall_forall in F. specialize (F _ I). discriminate F. Qed.

Lemma kind_sep l : sep_line l -> kind_of l = KSep.
Proof.
  intro H. unfold kind_of. rewrite (bool_not _ _ (blank_bool l)) by (apply bar_not_blank, H). apply sep_bool in H. now rewrite H.
Qed.

Lemma kind_rule l : rule_line l -> kind_of l = KRule.
Proof.
  intro H. unfold kind_of. rewrite (bool_not _ _ (blank_bool l)).
  - rewrite (bool_not _ _ (sep_bool l)); [|intros (_ & _ & I); exact (rule_no_bar l H I)]. apply rule_bool in H. now rewrite H.
  - intro E. destruct H as [_ H]. assert (I : In "-"%char l) by (apply (count_occ_In ascii_dec); lia). unfold blank in E. rewrite Forall_forall in E. specialize (E _ I). discriminate E.
Qed.

Lemma columns_row n l : 0 < n -> (columns l = Some n <-> 0 < bars l /\ (lead l /\ bars l = S n \/ ~ lead l /\ n = S (bars l))).
Proof.
  intro N. unfold columns. rewrite pipes_bars. destruct (Nat.eqb_spec (bars l) 0) as [E|E].
  - rewrite E. split; [discriminate|intros [H _]; lia].
  - destruct (pipe_first l) eqn:P.
    + apply lead_bool in P. split; [intro H; injection H as H; split; [lia|left; split; [exact P|lia]]|]. intros [_ [[_ H]|[H _]]]; [f_equal; lia|contradiction].
    + assert (~ lead l) by (intro H; apply lead_bool in H; congruence). split; [intro G; injection G as G; split; [lia|right; split; [assumption|lia]]|]. intros [_ [[H' _]|[_ H']]]; [contradiction|f_equal; lia].
Qed.

Lemma kind_row n l : row_line n l -> kind_of l = KRow n.
Proof.
  intros (S & N & Bl & H). unfold kind_of. assert (I : In "|"%char l) by now apply bars_in.
  rewrite (bool_not _ _ (blank_bool l)) by now apply bar_not_blank. rewrite (bool_not _ _ (sep_bool l) S).
  rewrite (bool_not _ _ (rule_bool l)) by (intro R; exact (rule_no_bar l R I)). rewrite (proj2 (columns_row n l N) (conj Bl H)). destruct n; [lia|reflexivity].
Qed.

Lemma kind_plain l : plain_line l -> kind_of l = KPlain.
Proof.
  intros (A & S & R & N). unfold kind_of. rewrite (bool_not _ _ (blank_bool l) A), (bool_not _ _ (sep_bool l) S), (bool_not _ _ (rule_bool l) R).
  destruct (columns l) as [[|n]|] eqn:E; try reflexivity. apply columns_row in E; [|lia]. contradiction (N (Datatypes.S n)). split; [exact S|]. split; [lia|exact E].
Qed.

Lemma kind_is l : match kind_of l with KBlank => blank l | KSep => sep_line l | KRule => rule_line l | KRow n => row_line n l | KPlain => plain_line l end.
Proof.
  unfold kind_of. destruct (is_blank l) eqn:A; [now apply blank_bool|]. destruct (is_sep l) eqn:S; [now apply sep_bool|]. destruct (is_rule l) eqn:R; [now apply rule_bool|].
  assert (NS : ~ sep_line l) by (intro H; apply sep_bool in H; congruence).
  assert (P : (forall n, columns l <> Some (Datatypes.S n)) -> plain_line l).
  { intro H. split; [intro X; apply blank_bool in X; congruence|]. split; [exact NS|]. split; [intro X; apply rule_bool in X; congruence|]. intros n (_ & N & X). apply (columns_row n l N) in X. destruct n; [lia|]. exact (H n X). }
  destruct (columns l) as [[|n]|] eqn:E; [apply P; discriminate| |apply P; discriminate]. apply columns_row in E; [|lia]. split; [exact NS|]. split; [lia|exact E].
Qed.

(** ** The pass on lists of lines, each with a newline *)
Definition row_of (l : str) (n : nat) : row := Row l n (pipe_first l).
Definition rows_text (rs : list row) : str := unlines (map w_text rs).
Definition sep_text (r : row) : str := match sep_row (w_cols r) (w_pipe r) with Some (_, x) => x | None => [] end.
Definition table_text (rs : list row) : str := match rs with [] => [] | r :: rs' => w_text r ++ [NL] ++ sep_text r ++ rows_text rs' end.

Definition pstep (L : nat) (st : list row * str * bool) (l : str) : list row * str * bool :=
  let '(rs, out, ch) := st in
  match kind_of l with
  | KBlank =>
      if 2 <=? length rs then ([], if length (out ++ table_text rs) =? 2 * L then out ++ table_text rs else (out ++ table_text rs) ++ [NL], true)
      else (rs, out ++ l ++ [NL], ch)
  | KSep | KRule => ([], (out ++ rows_text rs) ++ l ++ [NL], ch)
  | KRow n => match rs with r :: _ => if w_cols r =? n then (rs ++ [row_of l n], out, ch) else ([row_of l n], out ++ rows_text rs, ch) | [] => ([row_of l n], out, ch) end
  | KPlain => if 2 <=? length rs then ([], (out ++ table_text rs) ++ l ++ [NL], true) else ([], (out ++ rows_text rs) ++ l ++ [NL], ch)
  end.

Definition pend (rs : list row) : nat := length (rows_text rs).

Definition ok_row (r : row) : Prop := 0 < w_cols r /\ if w_pipe r then w_cols r < length (w_text r) else w_cols r <= length (w_text r).
Definition ok_rows (rs : list row) : Prop := Forall ok_row rs /\ forall r r', In r rs -> In r' rs -> w_cols r = w_cols r'.

Lemma row_ok n l : row_line n l -> ok_row (row_of l n).
Proof.
  intros (_ & N & Bl & H). unfold ok_row, row_of; cbn [w_cols w_pipe w_text]. split; [exact N|].
  assert (Le : forall s, bars s <= length s) by (intro s; unfold bars; rewrite <- count_filter; induction s as [|c s IH]; cbn [filter length]; [lia|]; destruct (ceq c "|"); cbn [length]; lia).
  destruct (pipe_first l) eqn:P.
  - apply lead_bool in P. destruct H as [[_ H]|[H _]]; [|contradiction]. specialize (Le l). lia.
  - assert (NL : ~ lead l) by (intro X; apply lead_bool in X; congruence). destruct H as [[H _]|[_ ->]]; [contradiction|].
    destruct l as [|c l]; [unfold bars in Bl; cbn in Bl; lia|]. specialize (Le l). cbn [length]. enough (bars (c :: l) = bars l) by lia.
    unfold bars. cbn [count_occ]. destruct (ascii_dec c "|") as [->|_]; [|reflexivity]. contradiction NL. exists [], l. split; [reflexivity|constructor].
Qed.

Lemma times_length n x : length (times n x) = n * length x.
Proof. induction n as [|n IH]; [reflexivity|]. cbn [times]. rewrite app_length, IH. reflexivity. Qed.

Lemma sep_length r : 0 < w_cols r -> length (sep_text r) = if w_pipe r then 6 * w_cols r + 2 else 4 * w_cols r + 1.
Proof.
  intro N. unfold sep_text, sep_row. destruct (Nat.ltb_spec (w_cols r) 1); [lia|]. destruct (w_pipe r); rewrite !app_length, times_length; cbn [length B list_ascii_of_string]; lia.
Qed.

Lemma unlines_app a b : unlines (a ++ b) = unlines a ++ unlines b.
Proof. unfold unlines. now rewrite map_app, concat_app. Qed.
Lemma unlines_cons l ls : unlines (l :: ls) = l ++ [NL] ++ unlines ls.
Proof. unfold unlines. cbn [map concat]. now rewrite <- app_assoc. Qed.
Lemma unlines_len l ls : length (unlines (l :: ls)) = length l + 1 + length (unlines ls).
Proof. rewrite unlines_cons, !app_length. cbn [length]. lia. Qed.
Lemma rows_cons r rs : rows_text (r :: rs) = w_text r ++ [NL] ++ rows_text rs.
Proof. unfold rows_text. cbn [map]. apply unlines_cons. Qed.
Lemma rows_app a b : rows_text (a ++ b) = rows_text a ++ rows_text b.
Proof. unfold rows_text. now rewrite map_app, unlines_app. Qed.
Lemma pend_cons r rs : pend (r :: rs) = length (w_text r) + 1 + pend rs.
Proof. unfold pend. rewrite rows_cons, !app_length. cbn [length]. lia. Qed.
Lemma pend_app a b : pend (a ++ b) = pend a + pend b.
Proof. unfold pend. now rewrite rows_app, app_length. Qed.

Lemma table_cost rs : ok_rows rs -> 2 <= length rs -> length (table_text rs) + 4 <= 4 * pend rs.
Proof.
  intros [F E] L. destruct rs as [|r [|r' rs]]; cbn [length] in L; try lia. inversion F as [|? ? [N R] F']; subst. inversion F' as [|? ? [N' R'] _]; subst.
  assert (Ec : w_cols r' = w_cols r) by (apply E; cbn; auto). unfold table_text. rewrite !app_length, (sep_length r N). fold (pend (r' :: rs)). rewrite !pend_cons. cbn [length].
  rewrite Ec in R'. destruct (w_pipe r), (w_pipe r'); lia.
Qed.

Lemma rows_cost rs : ok_rows rs -> rs <> [] -> pend rs + 4 <= 4 * pend rs.
Proof.
  intros [F _] N. destruct rs as [|r rs]; [congruence|]. inversion F as [|? ? [C R] _]; subst. rewrite pend_cons. destruct (w_pipe r); lia.
Qed.

(** ** The buffer *)
Definition good (L : nat) (b : buf) (out : str) : Prop :=
  b_bad b = false /\ b_out b = out /\ length out <= b_cap b /\ (b_cap b = 2 * L \/ 4 * L <= b_cap b /\ 2 * L <= length out).
Definition past (L : nat) (b : buf) : Prop := b_cap b = 2 * L \/ 4 * L <= b_cap b /\ 2 * L < length (b_out b).

Lemma put_good L b out x : good L b out -> length out + length x <= 4 * L -> good L (put x b) (out ++ x) /\ (length out + length x < 4 * L -> 0 < remaining (put x b)).
Proof.
  intros (A & E & C & D) K. unfold put. destruct (Nat.ltb_spec (length x) (remaining b)) as [H|H]; unfold remaining in *; rewrite E in H.
  - unfold good, write. cbn [b_bad b_out b_cap]. rewrite A, E, app_length. destruct (Nat.ltb_spec (b_cap b) (length out + length x)); [lia|]. split; [|lia]. split; [reflexivity|]. split; [reflexivity|]. split; [lia|]. destruct D as [D|[D1 D2]]; [left; exact D|right; split; lia].
  - unfold good, write, grow. cbn [b_bad b_out b_cap]. rewrite A, E, app_length. destruct (Nat.ltb_spec (b_cap b * 2) (length out + length x)); [lia|]. split; [|lia]. split; [reflexivity|]. split; [reflexivity|]. split; [lia|]. right. lia.
Qed.

Lemma line_good L b out x : good L b out -> length out + length x + 1 <= 4 * L -> good L (put_line true x b) (out ++ x ++ [NL]) /\ past L (put_line true x b).
Proof.
  intros G K. destruct (put_good L b out x G) as [(A & E & C & D) R]; [lia|]. specialize (R ltac:(lia)). unfold put_line, newline. destruct (Nat.ltb_spec 0 (remaining (put x b))); [|lia].
  unfold good, past, write. cbn [b_bad b_out b_cap]. unfold remaining in R. rewrite A, E in *. rewrite app_assoc, !app_length in *. cbn [length]. destruct (Nat.ltb_spec (b_cap (put x b)) (length out + length x + 1)); [lia|].
  split; [split; [reflexivity|split; [reflexivity|split; [lia|]]]|]; destruct D as [D|[D1 D2]]; [left; exact D|right; lia|left; exact D|right; lia].
Qed.

Lemma rows_good L rs : forall b out, good L b out -> length out + pend rs <= 4 * L -> good L (put_rows true rs b) (out ++ rows_text rs) /\ (rs <> [] -> past L (put_rows true rs b)).
Proof.
  induction rs as [|r rs IH]; intros b out G K.
  - unfold rows_text, unlines. cbn [map concat]. rewrite app_nil_r. split; [exact G|congruence].
  - rewrite pend_cons in K. destruct (line_good L b out (w_text r) G) as [G' P]; [lia|]. destruct (IH (put_line true (w_text r) b) _ G') as [G2 P2]; [rewrite !app_length; cbn [length]; lia|].
    unfold put_rows in *. cbn [fold_left]. rewrite rows_cons. rewrite <- !app_assoc in G2. split; [exact G2|]. intros _. destruct rs as [|r' rs]; [exact P|apply P2; discriminate].
Qed.

Lemma sep_good L r b out : ok_row r -> good L b out -> length out + length (sep_text r) <= 4 * L -> good L (put_sep r b) (out ++ sep_text r).
Proof.
  intros [N _] G K. pose proof (sep_length r N) as SL. unfold put_sep, sep_text in *. destruct (sep_row (w_cols r) (w_pipe r)) as [[size x]|] eqn:E.
  - replace (size <? length x + 1) with false; [apply put_good; assumption|]. symmetry. apply Nat.ltb_ge. rewrite SL. unfold sep_row in E. destruct (Nat.ltb_spec (w_cols r) 1); [lia|]. destruct (w_pipe r); injection E as <- _; lia.
  - rewrite app_nil_r. exact G.
Qed.

Lemma table_good L rs b out : good L b out -> ok_rows rs -> 2 <= length rs -> length out + length (table_text rs) <= 4 * L ->
  good L (put_table true rs b) (out ++ table_text rs) /\ past L (put_table true rs b).
Proof.
  intros G O N K. destruct rs as [|r rs]; [cbn in N; lia|]. destruct O as [F _]. inversion F as [|? ? O _]; subst. unfold table_text in *. rewrite !app_length in K. cbn [length] in K. fold (pend rs) in K.
  destruct (line_good L b out (w_text r) G) as [G1 _]; [lia|]. pose proof (sep_good L r _ _ O G1) as G2. rewrite !app_length in G2. cbn [length] in G2. specialize (G2 ltac:(lia)).
  destruct (rows_good L rs _ _ G2) as [G3 P]; [rewrite !app_length; cbn [length]; lia|]. rewrite <- !app_assoc in G3. split; [exact G3|]. apply P. intros ->. cbn in N. lia.
Qed.

Lemma blank_good L b out : good L b out -> past L b -> length out < 4 * L -> good L (newline b) (if length out =? 2 * L then out else out ++ [NL]).
Proof.
  intros (A & E & C & D) P K. unfold newline, remaining. rewrite E. destruct (Nat.eqb_spec (length out) (2 * L)) as [H|H].
  - destruct P as [P|[P1 P2]]; [|rewrite E in P2; lia]. destruct (Nat.ltb_spec 0 (b_cap b - length out)); [lia|]. unfold good. auto.
  - destruct (Nat.ltb_spec 0 (b_cap b - length out)); [|destruct P as [P|[P1 _]]; lia]. unfold good, write. cbn [b_bad b_out b_cap]. rewrite A, E, app_length. cbn [length]. destruct (Nat.ltb_spec (b_cap b) (length out + 1)); [lia|].
    split; [reflexivity|]. split; [reflexivity|]. split; [lia|]. destruct D as [D|[D1 D2]]; [left; exact D|right; lia].
Qed.

(** *** The pass in the buffer is the pass on lists. *)
Lemma ok_nil : ok_rows [].
Proof. split; [constructor|intros ? ? []]. Qed.
Lemma ok_one n l : row_line n l -> ok_rows [row_of l n].
Proof. intro R. split; [constructor; [exact (row_ok n l R)|constructor]|]. intros r r' [<-|[]] [<-|[]]. reflexivity. Qed.
Lemma ok_more r rs n l : ok_rows (r :: rs) -> w_cols r = n -> row_line n l -> ok_rows ((r :: rs) ++ [row_of l n]).
Proof.
  intros [F E] C R. split; [apply Forall_app; split; [exact F|constructor; [exact (row_ok n l R)|constructor]]|].
  assert (X : forall q, In q ((r :: rs) ++ [row_of l n]) -> w_cols q = n).
  { intros q I. apply in_app_or in I. destruct I as [I|[<-|[]]]; [|reflexivity]. rewrite <- C. apply E; [exact I|left; reflexivity]. }
  intros q q' I I'. now rewrite (X q I), (X q' I').
Qed.

Lemma step_good L rs b out ch l : good L b out -> ok_rows rs -> length out + 4 * pend rs + 4 * (length l + 1) <= 4 * L ->
  exists b', line_step (State rs b ch) (l, true) = State (fst (fst (pstep L (rs, out, ch) l))) b' (snd (pstep L (rs, out, ch) l))
    /\ good L b' (snd (fst (pstep L (rs, out, ch) l))) /\ ok_rows (fst (fst (pstep L (rs, out, ch) l)))
    /\ length (snd (fst (pstep L (rs, out, ch) l))) + 4 * pend (fst (fst (pstep L (rs, out, ch) l))) <= length out + 4 * pend rs + 4 * (length l + 1).
Proof.
  intros G O K. pose proof (kind_is l) as KI. unfold line_step, pstep. cbn [s_rows s_buf s_changed].
  assert (KK : forall (A : Type) (f : kind -> A), f (kind_of l) = if is_blank l then f KBlank else if is_sep l then f KSep else if is_rule l then f KRule else match columns l with Some (S n) => f (KRow (S n)) | _ => f KPlain end).
  { intros A f. unfold kind_of. destruct (is_blank l); [reflexivity|]. destruct (is_sep l); [reflexivity|]. destruct (is_rule l); [reflexivity|]. destruct (columns l) as [[|n]|]; reflexivity. }
  assert (RC : pend rs <= 4 * pend rs) by lia.
  assert (Kd : kind_of l = if is_blank l then KBlank else if is_sep l then KSep else if is_rule l then KRule else match columns l with Some (S n) => KRow (S n) | _ => KPlain end) by reflexivity.
  assert (Plain : exists b', put_line true l (put_rows true rs b) = b' /\ good L b' ((out ++ rows_text rs) ++ l ++ [NL])).
  { eexists. split; [reflexivity|]. destruct (rows_good L rs b out G) as [G1 _]; [lia|]. apply line_good; [exact G1|]. rewrite app_length. fold (pend rs). lia. }
  assert (Len : length ((out ++ rows_text rs) ++ l ++ [NL]) = length out + pend rs + (length l + 1)) by (rewrite !app_length; cbn [length]; reflexivity).
  destruct (is_blank l) eqn:E1; [|destruct (is_sep l) eqn:E2; [|destruct (is_rule l) eqn:E3; [|]]].
  - rewrite Kd. destruct (Nat.leb_spec 2 (length rs)) as [N|N].
    + pose proof (table_cost rs O N) as TC. destruct (table_good L rs b out G O N) as [G1 P]; [lia|]. eexists. split; [reflexivity|]. cbn [fst snd]. split; [apply blank_good; [exact G1|exact P|rewrite app_length; lia]|]. split; [apply ok_nil|].
      change (pend []) with 0. destruct (_ =? _); rewrite !app_length; cbn [length]; lia.
    + destruct (line_good L b out l G) as [G1 _]; [lia|]. eexists. split; [reflexivity|]. cbn [fst snd]. split; [exact G1|]. split; [exact O|]. rewrite !app_length. cbn [length]. lia.
  - rewrite Kd. destruct Plain as (b' & <- & G1). eexists. split; [reflexivity|]. cbn [fst snd]. split; [exact G1|]. split; [apply ok_nil|]. rewrite Len. change (pend []) with 0. lia.
  - rewrite Kd. destruct Plain as (b' & <- & G1). eexists. split; [reflexivity|]. cbn [fst snd]. split; [exact G1|]. split; [apply ok_nil|]. rewrite Len. change (pend []) with 0. lia.
  - assert (PlainCase : kind_of l = KPlain -> exists b', (if 2 <=? length rs then State [] (put_line true l (put_table true rs b)) true else State [] (put_line true l (put_rows true rs b)) ch)
        = State (fst (fst (if 2 <=? length rs then ([], (out ++ table_text rs) ++ l ++ [NL], true) else ([], (out ++ rows_text rs) ++ l ++ [NL], ch)))) b' (snd (if 2 <=? length rs then ([] : list row, (out ++ table_text rs) ++ l ++ [NL], true) else ([], (out ++ rows_text rs) ++ l ++ [NL], ch)))
        /\ good L b' (snd (fst (if 2 <=? length rs then ([] : list row, (out ++ table_text rs) ++ l ++ [NL], true) else ([], (out ++ rows_text rs) ++ l ++ [NL], ch))))
        /\ ok_rows (fst (fst (if 2 <=? length rs then ([], (out ++ table_text rs) ++ l ++ [NL], true) else ([], (out ++ rows_text rs) ++ l ++ [NL], ch))))
        /\ length (snd (fst (if 2 <=? length rs then ([] : list row, (out ++ table_text rs) ++ l ++ [NL], true) else ([], (out ++ rows_text rs) ++ l ++ [NL], ch)))) + 4 * pend (fst (fst (if 2 <=? length rs then ([], (out ++ table_text rs) ++ l ++ [NL], true) else ([], (out ++ rows_text rs) ++ l ++ [NL], ch)))) <= length out + 4 * pend rs + 4 * (length l + 1)).
    { intros _. destruct (Nat.leb_spec 2 (length rs)) as [N|N].
      - pose proof (table_cost rs O N) as TC. destruct (table_good L rs b out G O N) as [G1 P]; [lia|]. eexists. split; [reflexivity|]. cbn [fst snd]. split; [apply line_good; [exact G1|rewrite app_length; lia]|]. split; [apply ok_nil|]. change (pend []) with 0. rewrite !app_length. cbn [length]. lia.
      - destruct Plain as (b' & <- & G1). eexists. split; [reflexivity|]. cbn [fst snd]. split; [exact G1|]. split; [apply ok_nil|]. rewrite Len. change (pend []) with 0. lia. }
    destruct (columns l) as [[|n]|] eqn:E4; rewrite Kd; try (apply PlainCase; exact Kd). rewrite Kd in KI. fold (row_of l (S n)).
    destruct rs as [|r rs]; [|destruct (Nat.eqb_spec (w_cols r) (S n)) as [C|C]]; (eexists; split; [reflexivity|]); cbn [fst snd].
    + split; [exact G|]. split; [exact (ok_one _ _ KI)|]. rewrite pend_cons. cbn [w_text row_of]. change (pend []) with 0. lia.
    + split; [exact G|]. split; [exact (ok_more r rs _ l O C KI)|]. rewrite pend_app, (pend_cons (row_of l (S n)) []). cbn [w_text row_of]. change (pend []) with 0. lia.
    + split; [apply rows_good; [exact G|lia]|]. split; [exact (ok_one _ _ KI)|]. rewrite app_length. fold (pend (r :: rs)). rewrite (pend_cons (row_of l (S n)) []). cbn [w_text row_of]. change (pend []) with 0. lia.
Qed.

Lemma fold_good L ls : forall rs b out ch, good L b out -> ok_rows rs -> length out + 4 * pend rs + 4 * length (unlines ls) <= 4 * L ->
  exists b' rs' out' ch', fold_left (pstep L) ls (rs, out, ch) = (rs', out', ch') /\ fold_left line_step (map (fun l => (l, true)) ls) (State rs b ch) = State rs' b' ch'
    /\ good L b' out' /\ ok_rows rs' /\ length out' + 4 * pend rs' <= length out + 4 * pend rs + 4 * length (unlines ls).
Proof.
  induction ls as [|l ls IH]; intros rs b out ch G O K.
  - exists b, rs, out, ch. cbn. repeat split; try assumption; try apply G; try apply O. lia.
  - rewrite unlines_len in *. destruct (step_good L rs b out ch l G O) as (b' & E & G' & O' & K'); [lia|]. cbn [fold_left map]. rewrite E.
    destruct (pstep L (rs, out, ch) l) as [[rs' out'] ch']. cbn [fst snd] in *. destruct (IH rs' b' out' ch' G' O') as (b2 & rs2 & out2 & ch2 & E1 & E2 & G2 & O2 & K2); [lia|].
    exists b2, rs2, out2, ch2. split; [exact E1|]. split; [exact E2|]. split; [exact G2|]. split; [exact O2|]. lia.
Qed.

(** ** Lines of a text *)
Lemma cut_line l : ~ In NL l -> forall s, cut_lines (l ++ NL :: s) = (l, true) :: cut_lines s.
Proof.
  induction l as [|c l IH]; intros N s; [reflexivity|]. cbn [app cut_lines]. rewrite (proj2 (ceq_neq c NL)) by (intros ->; apply N; left; reflexivity).
  rewrite IH by (intro I; apply N; right; exact I). reflexivity.
Qed.

Lemma cut_tail l : ~ In NL l -> cut_lines l = match l with [] => [] | _ => [(l, false)] end.
Proof.
  induction l as [|c l IH]; intro N; [reflexivity|]. cbn [cut_lines]. rewrite (proj2 (ceq_neq c NL)) by (intros ->; apply N; left; reflexivity).
  rewrite IH by (intro I; apply N; right; exact I). destruct l; reflexivity.
Qed.

Definition no_nl (l : str) : Prop := ~ In NL l.

Lemma cut_text ls t : Forall no_nl ls -> no_nl t -> cut_lines (unlines ls ++ t) = map (fun l => (l, true)) ls ++ match t with [] => [] | _ => [(t, false)] end.
Proof.
  intros F T. induction F as [|l ls N F IH]; [exact (cut_tail t T)|]. rewrite unlines_cons, <- !app_assoc. cbn [app]. rewrite (cut_line l N). cbn [map app]. now rewrite IH.
Qed.

Lemma text_lines (s : str) : exists ls t, s = unlines ls ++ t /\ Forall no_nl ls /\ no_nl t.
Proof.
  induction s as [|c s (ls & t & -> & F & T)]; [exists [], []; repeat split; [constructor|intros []]|]. destruct (ascii_dec c NL) as [->|N].
  - exists ([] :: ls), t. rewrite unlines_cons. split; [reflexivity|]. split; [constructor; [intros []|exact F]|exact T].
  - destruct F as [|l ls Nl F].
    + exists [], (c :: t). split; [reflexivity|]. split; [constructor|]. intros [I|I]; [congruence|exact (T I)].
    + exists ((c :: l) :: ls), t. rewrite !unlines_cons. split; [reflexivity|]. split; [constructor; [intros [I|I]; [congruence|exact (Nl I)]|exact F]|exact T].
Qed.

(** ** The whole pass *)
Lemma last_good L b out x : good L b out -> length out + length x + 1 <= 4 * L -> good L (put_last x b) (out ++ x ++ [NL]).
Proof.
  intros G K. destruct (put_good L b out x G) as [(A & E & C & D) R]; [lia|]. specialize (R ltac:(lia)). unfold put_last, write, good, remaining in *. cbn [b_bad b_out b_cap]. rewrite A, E, app_assoc, !app_length in *. cbn [length].
  destruct (Nat.ltb_spec (b_cap (put x b)) (length out + length x + 1)); [lia|]. split; [reflexivity|]. split; [reflexivity|]. split; [lia|]. destruct D as [D|[D1 D2]]; [left; exact D|right; lia].
Qed.

Lemma lasts_good L rs : forall b out, good L b out -> length out + pend rs <= 4 * L -> good L (fold_left (fun b r => put_last (w_text r) b) rs b) (out ++ rows_text rs).
Proof.
  induction rs as [|r rs IH]; intros b out G K.
  - unfold rows_text, unlines. cbn [map concat fold_left]. rewrite app_nil_r. exact G.
  - rewrite pend_cons in K. cbn [fold_left]. rewrite rows_cons. specialize (IH (put_last (w_text r) b) (out ++ w_text r ++ [NL])). rewrite <- !app_assoc in IH. apply IH; [apply last_good; [exact G|lia]|rewrite !app_length; cbn [length]; lia].
Qed.

Lemma end_good L rs b out : good L b out -> ok_rows rs -> length out + length (table_text rs) <= 4 * L -> good L (put_end rs b) (out ++ table_text rs).
Proof.
  intros G O K. destruct rs as [|r rs]; [unfold put_end, table_text; rewrite app_nil_r; exact G|]. destruct O as [F _]. inversion F as [|? ? O _]; subst. unfold put_end, table_text in *. rewrite !app_length in K. cbn [length] in K. fold (pend rs) in K.
  pose proof (last_good L b out (w_text r) G ltac:(lia)) as G1. pose proof (sep_good L r _ _ O G1) as G2. rewrite !app_length in G2. cbn [length] in G2. specialize (G2 ltac:(lia)).
  pose proof (lasts_good L rs _ _ G2) as G3. rewrite !app_length in G3. cbn [length] in G3. specialize (G3 ltac:(lia)). rewrite <- !app_assoc in G3. exact G3.
Qed.

Definition pfin (st : list row * str * bool) : str := let '(rs, out, _) := st in out ++ if 2 <=? length rs then table_text rs else rows_text rs.

Lemma start_good (text : str) : good (length text) (Buf (length text * 2) [] false) [].
Proof. unfold good. cbn. repeat split; lia. Qed.

Lemma last_nl_unlines ls : ls <> [] -> last_nl (unlines ls) = true.
Proof.
  intro N. destruct (exists_last N) as (q & l & ->). unfold last_nl. rewrite unlines_app, unlines_cons. rewrite !rev_app_distr. reflexivity.
Qed.

Lemma relaxed_open text : text <> [] -> relaxed text =
  let st := fold_left line_step (cut_lines text) (State [] (Buf (length text * 2) [] false) false) in
  let b := if 2 <=? length (s_rows st) then put_end (s_rows st) (s_buf st) else put_rows (last_nl text) (s_rows st) (s_buf st) in
  if b_bad b then Bad else if negb (s_changed st) && (length text =? length (b_out b)) then Same
  else if (length text =? length (b_out b)) && seq_ text (b_out b) then Same else Out (b_out b).
Proof. destruct text; [congruence|reflexivity]. Qed.

Lemma relaxed_lines ls : Forall no_nl ls -> ls <> [] -> let L := length (unlines ls) in let st := fold_left (pstep L) ls ([], [], false) in
  relaxed (unlines ls) = if negb (snd st) && (L =? length (pfin st)) then Same else if seq_ (unlines ls) (pfin st) then Same else Out (pfin st).
Proof.
  intros F N L st. assert (Nt : unlines ls <> []) by (destruct ls as [|[|c l] ls]; [congruence|discriminate..]).
  destruct (fold_good L ls [] (Buf (length (unlines ls) * 2) [] false) [] false (start_good _) ok_nil) as (b' & rs' & out' & ch' & E1 & E2 & G & O & K); [cbn; lia|].
  rewrite (relaxed_open _ Nt). cbv zeta. replace (cut_lines (unlines ls)) with (map (fun l => (l, true)) ls) by (rewrite <- (app_nil_r (unlines ls)), (cut_text ls [] F ltac:(intros [])); now rewrite app_nil_r).
  rewrite E2. cbn [s_rows s_buf s_changed]. subst st. rewrite E1. cbn [snd pfin]. rewrite (last_nl_unlines ls N). change (pend []) with 0 in K. cbn [length] in K. fold L in K.
  set (b2 := if 2 <=? length rs' then put_end rs' b' else put_rows true rs' b').
  assert (G2 : good L b2 (out' ++ if 2 <=? length rs' then table_text rs' else rows_text rs')).
  { subst b2. destruct (Nat.leb_spec 2 (length rs')) as [H|H].
    - apply end_good; [exact G|exact O|]. pose proof (table_cost rs' O H). lia.
    - apply rows_good; [exact G|]. lia. }
  clearbody b2. destruct G2 as (A & E & _). rewrite A, E. fold L. set (o := out' ++ _).
  destruct (negb ch' && (L =? length o)); [reflexivity|]. destruct (Nat.eqb_spec L (length o)) as [H|H]; cbn [andb]; [reflexivity|].
  destruct (seq_ (unlines ls) o) eqn:Sq; [|reflexivity]. apply seq_eq in Sq. subst L. rewrite Sq in H. congruence.
Qed.

(** *** No byte beyond the buffer, whatever the text *)
Lemma put_rows_off L rs : forall b out, good L b out -> length out + pend rs <= 4 * L -> exists out', good L (put_rows false rs b) out' /\ length out' <= length out + pend rs.
Proof.
  induction rs as [|r rs IH]; intros b out G K; [exists out; split; [exact G|cbn; lia]|]. rewrite pend_cons in K. unfold put_rows in *. cbn [fold_left put_line].
  destruct (IH (put (w_text r) b) (out ++ w_text r)) as (o & Go & Lo); [apply put_good; [exact G|lia]|rewrite app_length; lia|]. exists o. split; [exact Go|]. rewrite pend_cons. rewrite app_length in Lo. lia.
Qed.

Lemma put_table_off L rs b out : good L b out -> ok_rows rs -> 2 <= length rs -> length out + length (table_text rs) <= 4 * L ->
  exists out', good L (put_table false rs b) out' /\ length out' <= length out + length (table_text rs).
Proof.
  intros G O N K. destruct rs as [|r rs]; [cbn in N; lia|]. destruct O as [F _]. inversion F as [|? ? O _]; subst. unfold table_text, put_table in *. rewrite !app_length in *. cbn [length] in *. fold (pend rs) in *. cbn [put_line].
  destruct (put_good L b out (w_text r) G) as [G1 _]; [lia|]. pose proof (sep_good L r _ _ O G1) as G2. rewrite app_length in G2. specialize (G2 ltac:(lia)).
  destruct (put_rows_off L rs _ _ G2) as (o & Go & Lo); [rewrite !app_length; lia|]. exists o. split; [exact Go|]. rewrite !app_length in Lo. lia.
Qed.

Lemma newline_safe L b out : good L b out -> b_bad (newline b) = false.
Proof.
  intros (A & E & C & _). unfold newline, remaining. destruct (Nat.ltb_spec 0 (b_cap b - length (b_out b))); [|exact A]. unfold write. cbn [b_bad]. rewrite A. cbn [orb]. apply Nat.ltb_ge. cbn [length]. lia.
Qed.

Definition fin (nl : bool) (st : state) : buf := if 2 <=? length (s_rows st) then put_end (s_rows st) (s_buf st) else put_rows nl (s_rows st) (s_buf st).

Lemma tail_safe L rs b out ch l : good L b out -> ok_rows rs -> l <> [] -> length out + 4 * pend rs + 4 * length l <= 4 * L -> b_bad (fin false (line_step (State rs b ch) (l, false))) = false.
Proof.
  intros G O N K. assert (Ln : 0 < length l) by (destruct l; [congruence|cbn; lia]).
  assert (Plain : b_bad (put_line false l (put_rows false rs b)) = false).
  { destruct (put_rows_off L rs b out G) as (o & Go & Lo); [lia|]. apply (put_good L _ o l Go). lia. }
  pose proof (kind_is l) as KI. unfold line_step. cbn [s_rows s_buf s_changed].
  assert (Kd : kind_of l = if is_blank l then KBlank else if is_sep l then KSep else if is_rule l then KRule else match columns l with Some (S n) => KRow (S n) | _ => KPlain end) by reflexivity.
  destruct (is_blank l); [|destruct (is_sep l); [|destruct (is_rule l); [|]]]; rewrite Kd in KI.
  - destruct (Nat.leb_spec 2 (length rs)) as [H|H].
    + pose proof (table_cost rs O H). destruct (put_table_off L rs b out G O H) as (o & Go & _); [lia|]. exact (newline_safe L _ _ Go).
    + unfold fin. cbn [s_rows s_buf put_line]. destruct (Nat.leb_spec 2 (length rs)); [lia|]. destruct (put_good L b out l G) as [G1 _]; [lia|]. destruct (put_rows_off L rs _ _ G1) as (o & Go & _); [rewrite app_length; lia|]. apply Go.
  - exact Plain.
  - exact Plain.
  - assert (PC : b_bad (fin false (if 2 <=? length rs then State [] (put_line false l (put_table false rs b)) true else State [] (put_line false l (put_rows false rs b)) ch)) = false).
    { destruct (Nat.leb_spec 2 (length rs)) as [H|H]; [|exact Plain]. pose proof (table_cost rs O H). destruct (put_table_off L rs b out G O H) as (o & Go & Lo); [lia|]. apply (put_good L _ o l Go). lia. }
    destruct (columns l) as [[|n]|]; try exact PC. fold (row_of l (S n)).
    assert (One : forall b o, good L b o -> length o + 4 * length l <= 4 * L -> b_bad (fin false (State [row_of l (S n)] b ch)) = false).
    { intros b1 o G1 K1. unfold fin, put_rows. cbn [s_rows s_buf length Nat.leb fold_left put_line w_text row_of]. apply (put_good L b1 o l G1). lia. }
    destruct rs as [|r rs]; [apply (One b out G); cbn in K; lia|]. destruct (Nat.eqb_spec (w_cols r) (S n)) as [C|C].
    + pose proof (ok_more r rs _ l O C KI) as O2. unfold fin. cbn [s_rows s_buf]. assert (H : 2 <= length ((r :: rs) ++ [row_of l (S n)])) by (rewrite app_length; cbn [length]; lia). rewrite (proj2 (Nat.leb_le _ _) H).
      apply (end_good L _ _ _ G O2). pose proof (table_cost _ O2 H) as TC. rewrite pend_app, (pend_cons (row_of l (S n)) []) in TC. change (pend []) with 0 in TC. cbn [w_text row_of] in TC. lia.
    + destruct (put_rows_off L (r :: rs) b out G) as (o & Go & Lo); [lia|]. apply (One _ o Go). pose proof (rows_cost _ O ltac:(discriminate)). lia.
Qed.

Lemma relaxed_safe text : relaxed text <> Bad.
Proof.
  destruct (text_lines text) as (ls & t & -> & F & T). destruct t as [|c t].
  - rewrite app_nil_r. destruct ls as [|l ls]; [discriminate|]. rewrite (relaxed_lines _ F ltac:(discriminate)). destruct (_ && _); [discriminate|]. destruct (seq_ _ _); discriminate.
  - remember (c :: t) as tail eqn:Et. assert (Nt : tail <> []) by (subst; discriminate). set (text := unlines ls ++ tail). set (L := length text).
    destruct (fold_good L ls [] (Buf (length text * 2) [] false) [] false (start_good _)) as (b' & rs' & out' & ch' & E1 & E2 & G & O & K); [apply ok_nil|subst L text; rewrite app_length; cbn; lia|].
    change (pend []) with 0 in K. cbn [length] in K.
    pose proof (tail_safe L rs' b' out' ch' tail G O Nt) as S. assert (KL : L = length (unlines ls) + length tail) by (subst L text; apply app_length). specialize (S ltac:(lia)).
    assert (Ntext : text <> []) by (subst text; destruct (unlines ls); [exact Nt|discriminate]). assert (Cut : cut_lines text = map (fun l => (l, true)) ls ++ [(tail, false)]) by (subst text; rewrite (cut_text ls tail F T); destruct tail; [congruence|reflexivity]).
    assert (Ln : last_nl text = false).
    { subst text. unfold last_nl. destruct (last_cases tail) as [->|(q & d & Eq)]; [congruence|]. rewrite Eq, rev_app_distr, rev_app_distr. cbn [rev app]. apply ceq_neq. intros ->. apply T. rewrite Eq. apply in_or_app. right. left. reflexivity. }
    rewrite (relaxed_open text Ntext). cbv zeta. rewrite Cut, fold_left_app, E2. cbn [fold_left]. rewrite Ln. unfold fin in S. rewrite S. destruct (_ && _); [discriminate|]. destruct (_ && _); discriminate.
Qed.

(** ** Filling in *)
Lemma times_repeat n x : times n x = concat (repeat x n).
Proof. induction n as [|n IH]; [reflexivity|]. cbn [times repeat concat]. now rewrite IH. Qed.

Lemma sep_lead n : B "| " ++ times n (B "--- | ") ++ B "--- |" = B "|" ++ concat (repeat (B " --- |") (S n)).
Proof.
  induction n as [|n IH]; [reflexivity|]. change (times (S n) (B "--- | ")) with (B "--- | " ++ times n (B "--- | ")). change (repeat (B " --- |") (S (S n))) with (B " --- |" :: repeat (B " --- |") (S n)). cbn [concat].
  transitivity (B "| ---" ++ B " |" ++ concat (repeat (B " --- |") (S n))); [|reflexivity]. transitivity (B "| --- " ++ B "| " ++ times n (B "--- | ") ++ B "--- |"); [rewrite <- !app_assoc; reflexivity|]. rewrite IH. reflexivity.
Qed.

Lemma sep_like_text r n s : 0 < n -> sep_like r n s -> sep_text (row_of r n) = s ++ [NL].
Proof.
  intros N H. unfold sep_text, sep_row, row_of. cbn [w_cols w_pipe]. destruct (Nat.ltb_spec n 1); [lia|]. destruct H as [[P ->]|[P ->]].
  - rewrite (proj2 (lead_bool r) P). destruct n as [|n]; [lia|]. replace (S n - 1) with n by lia. rewrite <- sep_lead, <- !app_assoc. reflexivity.
  - rewrite (bool_not _ _ (lead_bool r) P), times_repeat. reflexivity.
Qed.

Lemma texts_of ls n : map w_text (map (fun l => row_of l n) ls) = ls.
Proof. rewrite map_map. cbn [w_text row_of]. apply map_id. Qed.

Lemma table_of r rs n s : 0 < n -> sep_like r n s -> table_text (map (fun l => row_of l n) (r :: rs)) = unlines (r :: s :: rs).
Proof.
  intros N H. cbn [map table_text]. rewrite (sep_like_text r n s N H). unfold rows_text. rewrite texts_of, !unlines_cons, <- !app_assoc. reflexivity.
Qed.

Lemma collect_more L n ls : forall r0 rs0 o ch, Forall (row_line n) ls -> w_cols r0 = n -> fold_left (pstep L) ls (r0 :: rs0, o, ch) = ((r0 :: rs0) ++ map (fun l => row_of l n) ls, o, ch).
Proof.
  induction ls as [|l ls IH]; intros r0 rs0 o ch F C; [cbn; now rewrite app_nil_r|]. inversion F as [|? ? R F']; subst. cbn [fold_left pstep]. rewrite (kind_row _ _ R), Nat.eqb_refl.
  change ((r0 :: rs0) ++ [row_of l (w_cols r0)]) with (r0 :: (rs0 ++ [row_of l (w_cols r0)])). rewrite (IH r0 (rs0 ++ [row_of l (w_cols r0)]) o ch F' eq_refl). cbn [map]. cbn [app]. rewrite <- app_assoc. reflexivity.
Qed.

Lemma collect L n ls o ch : Forall (row_line n) ls -> fold_left (pstep L) ls ([], o, ch) = (map (fun l => row_of l n) ls, o, ch).
Proof.
  destruct ls as [|l ls]; intro F; [reflexivity|]. inversion F as [|? ? R F']; subst. cbn [fold_left pstep]. rewrite (kind_row _ _ R). exact (collect_more L n ls (row_of l n) [] o ch F' eq_refl).
Qed.

Lemma two_rows (r : str) rs n : rs <> [] -> (2 <=? length (map (fun l => row_of l n) (r :: rs))) = true.
Proof. intro N. apply Nat.leb_le. rewrite map_length. destruct rs; [congruence|]. cbn [length]. lia. Qed.

Lemma nil_text : rows_text [] = [].
Proof. reflexivity. Qed.

Lemma filled_nil m k out : Filled m k [] out -> out = [].
Proof. intro H. inversion H as [| | | |? rs ? ? ? N|]; subst; [reflexivity|]. destruct rs; [congruence|discriminate]. Qed.

Lemma filled_pure L k ls out : Filled (2 * L) k ls out -> forall o ch, length o = k -> let st := fold_left (pstep L) ls ([], o, ch) in
  pfin st = o ++ unlines out /\ (snd st = true \/ snd st = ch /\ (out = ls \/ length (unlines ls) < length (unlines out))).
Proof.
  induction 1 as [k|k l ls out NR H IH|k r rs n s ls out N F E S H IH|k r rs n s l ls out N F Bl S D H IH|k rs n ls out N F E H IH|k r n ls out R E H IH]; intros o ch Lo.
  - cbn. rewrite !app_nil_r. auto.
  - assert (St : pstep L ([], o, ch) l = ([], o ++ l ++ [NL], ch)).
    { pose proof (kind_is l) as K. unfold pstep. destruct (kind_of l); rewrite ?nil_text, ?app_nil_r; try reflexivity. contradiction (NR n K). }
    cbn [fold_left]. rewrite St. specialize (IH (o ++ l ++ [NL]) ch). rewrite !app_length in IH. cbn [length] in IH. destruct (IH ltac:(lia)) as [I1 I2]. split; [rewrite I1, unlines_cons, <- !app_assoc; reflexivity|].
    destruct I2 as [I2|[I2 [->|I3]]]; [left; exact I2|right; auto|right]. split; [exact I2|right]. rewrite !unlines_len. lia.
  - assert (Np : 0 < n) by (inversion F as [|? ? R _]; subst; exact (proj1 (proj2 R))). rewrite fold_left_app, (collect L n _ o ch F).
    assert (Len : length (unlines (r :: rs)) < length (unlines (r :: s :: rs))) by (rewrite !unlines_len; lia).
    destruct E as [->|(l & q & -> & P)].
    + cbn [fold_left]. apply filled_nil in H. subst out. rewrite app_nil_r. unfold pfin. rewrite (two_rows r rs n N), (table_of r rs n s Np S). split; [reflexivity|]. right. split; [reflexivity|right]. rewrite app_nil_r. exact Len.
    + assert (St : pstep L (map (fun l => row_of l n) (r :: rs), o, ch) l = pstep L ([], o ++ unlines (r :: s :: rs), true) l).
      { unfold pstep. rewrite (kind_plain l P), (two_rows r rs n N), (table_of r rs n s Np S). cbn [length Nat.leb]. now rewrite nil_text, app_nil_r. }
      specialize (IH (o ++ unlines (r :: s :: rs)) true). rewrite app_length in IH. destruct (IH ltac:(lia)) as [I1 I2]. cbn [fold_left] in *. rewrite St. split; [rewrite I1, unlines_app, <- app_assoc; reflexivity|]. left. destruct I2 as [I2|[I2 _]]; exact I2.
  - assert (Np : 0 < n) by (inversion F as [|? ? R _]; subst; exact (proj1 (proj2 R))). rewrite fold_left_app, (collect L n _ o ch F). cbn [fold_left].
    assert (St : pstep L (map (fun l => row_of l n) (r :: rs), o, ch) l = ([], (o ++ unlines (r :: s :: rs)) ++ [NL], true)).
    { unfold pstep. rewrite (kind_blank l Bl), (two_rows r rs n N), (table_of r rs n s Np S). destruct (Nat.eqb_spec (length (o ++ unlines (r :: s :: rs))) (2 * L)) as [X|X]; [rewrite app_length in X; lia|reflexivity]. }
    rewrite St. specialize (IH ((o ++ unlines (r :: s :: rs)) ++ [NL]) true). rewrite !app_length in IH. cbn [length] in IH. destruct (IH ltac:(lia)) as [I1 I2]. split; [rewrite I1, unlines_app, (unlines_cons []), <- !app_assoc; reflexivity|]. left. destruct I2 as [I2|[I2 _]]; exact I2.
  - rewrite fold_left_app, (collect L n _ o ch F). destruct E as (l & q & -> & P).
    assert (St : pstep L (map (fun l => row_of l n) rs, o, ch) l = pstep L ([], o ++ unlines rs, ch) l).
    { unfold pstep. assert (T : rows_text (map (fun l => row_of l n) rs) = unlines rs) by (unfold rows_text; now rewrite texts_of). destruct P as [P|[P|(n' & Ne & P)]].
      - rewrite (kind_sep l P), T, nil_text, app_nil_r. reflexivity.
      - rewrite (kind_rule l P), T, nil_text, app_nil_r. reflexivity.
      - rewrite (kind_row n' l P). destruct rs as [|r rs]; [congruence|]. cbn [map] in *. change (w_cols (row_of r n)) with n. destruct (Nat.eqb_spec n n'); [congruence|]. rewrite T. reflexivity. }
    specialize (IH (o ++ unlines rs) ch). rewrite app_length in IH. destruct (IH ltac:(lia)) as [I1 I2]. cbn [fold_left] in *. rewrite St. split; [rewrite I1, unlines_app, <- app_assoc; reflexivity|].
    destruct I2 as [I2|[I2 [->|I3]]]; [left; exact I2|right; auto|right]. split; [exact I2|right]. rewrite !unlines_app, !app_length. lia.
  - cbn [fold_left]. assert (S0 : pstep L ([], o, ch) r = ([row_of r n], o, ch)) by (unfold pstep; rewrite (kind_row n r R); reflexivity). rewrite S0.
    destruct E as [->|(l & q & -> & P)].
    + apply filled_nil in H. subst out. cbn [fold_left pfin length Nat.leb]. rewrite rows_cons, nil_text, unlines_cons. split; [reflexivity|]. right. auto.
    + assert (St : pstep L ([row_of r n], o, ch) l = pstep L ([], o ++ r ++ [NL], ch) l).
      { unfold pstep. rewrite (kind_plain l P). cbn [length Nat.leb]. rewrite rows_cons, nil_text, !app_nil_r. reflexivity. }
      specialize (IH (o ++ r ++ [NL]) ch). rewrite !app_length in IH. cbn [length] in IH. destruct (IH ltac:(lia)) as [I1 I2]. cbn [fold_left] in *. rewrite St. split; [rewrite I1, unlines_cons, <- !app_assoc; reflexivity|].
      destruct I2 as [I2|[I2 [->|I3]]]; [left; exact I2|right; auto|right]. split; [exact I2|right]. rewrite (unlines_len r), (unlines_len r). lia.
Qed.

Lemma closed_lines ls : closed (unlines ls) = unlines ls.
Proof.
  unfold closed. destruct ls as [|l0 ls0] eqn:E; [reflexivity|]. assert (N : ls <> []) by (subst; discriminate). rewrite <- E. destruct (exists_last N) as (q & l & ->). rewrite unlines_app, unlines_cons. rewrite !rev_app_distr. reflexivity.
Qed.

Lemma stage_filled ls out : Forall no_nl ls -> Filled (2 * length (unlines ls)) 0 ls out -> stage relaxed (unlines ls) = Some (unlines out).
Proof.
  intros F H. unfold stage. rewrite closed_lines. destruct ls as [|l ls]; [apply filled_nil in H; subst; reflexivity|].
  rewrite (relaxed_lines _ F ltac:(discriminate)). destruct (filled_pure _ _ _ _ H [] false eq_refl) as [E D]. rewrite E. cbn [app] in *.
  destruct (fold_left _ _ _) as [[rs o] ch]. cbn [snd] in *. destruct D as [->|[-> [->|D]]]; cbn [negb andb].
  - destruct (seq_ _ _) eqn:Q; [apply seq_eq in Q; now rewrite Q|reflexivity].
  - rewrite Nat.eqb_refl. reflexivity.
  - rewrite (proj2 (Nat.eqb_neq _ _)) by lia. destruct (seq_ _ _) eqn:Q; [apply seq_eq in Q; rewrite Q in D; lia|reflexivity].
Qed.

(** ** Rows apart *)
Lemma apart_pure L ls : forall done rs o, apart (done ++ ls) -> length rs <= 1 ->
  (forall r, In r rs -> exists a x, done = a ++ w_text r :: x /\ Forall blank x /\ row_line (w_cols r) (w_text r)) -> length o + pend rs = length (unlines done) ->
  let st := fold_left (pstep L) ls (rs, o, false) in snd st = false /\ length (pfin st) = length (unlines (done ++ ls)).
Proof.
  induction ls as [|l ls IH]; intros done rs o A N In1 Le.
  - cbn [fold_left]. rewrite app_nil_r. split; [reflexivity|]. unfold pfin. destruct (Nat.leb_spec 2 (length rs)); [lia|]. rewrite app_length. fold (pend rs). exact Le.
  - cbn [fold_left]. change (l :: ls) with ([l] ++ ls) in A |- *. rewrite app_assoc in A |- *. pose proof (kind_is l) as K.
    assert (Dn : length (unlines (done ++ [l])) = length (unlines done) + (length l + 1)) by (rewrite unlines_app, app_length, unlines_len; cbn; lia).
    assert (P1 : pend [] = 0) by reflexivity. assert (New : forall n, row_line n l -> forall r, In r [row_of l n] -> exists a x, done ++ [l] = a ++ w_text r :: x /\ Forall blank x /\ row_line (w_cols r) (w_text r)).
    { intros n R r [<-|[]]. exists done, []. split; [reflexivity|]. split; [constructor|exact R]. }
    cbv zeta. generalize (eq_refl (pstep L (rs, o, false) l)). unfold pstep at 1. destruct (kind_of l) as [| | |n|].
    + destruct (Nat.leb_spec 2 (length rs)); [lia|]. intros <-; apply IH; [exact A|exact N| |rewrite !app_length, Dn; cbn [length]; lia]. intros r I. destruct (In1 r I) as (a & x & -> & Fx & R). exists a, (x ++ [l]). rewrite <- app_assoc. split; [reflexivity|]. split; [apply Forall_app; auto|exact R].
    + intros <-; apply IH; [exact A|cbn; lia|intros ? []|rewrite !app_length, Dn, P1; cbn [length]; fold (pend rs); lia].
    + intros <-; apply IH; [exact A|cbn; lia|intros ? []|rewrite !app_length, Dn, P1; cbn [length]; fold (pend rs); lia].
    + destruct rs as [|r rs].
      * intros <-; apply IH; [exact A|cbn; lia|exact (New n K)|rewrite Dn, pend_cons, P1; cbn [w_text row_of]; lia].
      * destruct (Nat.eqb_spec (w_cols r) n) as [C|C].
        -- intros _. exfalso. destruct (In1 r (or_introl eq_refl)) as (a & x & E & Fx & R). rewrite E in A. rewrite C in R. apply (A a (w_text r) x l ls n); [rewrite <- !app_assoc; reflexivity|exact Fx|exact R|exact K].
        -- intros <-; apply IH; [exact A|cbn; lia|exact (New n K)|]. rewrite app_length. fold (pend (r :: rs)). rewrite Dn, (pend_cons (row_of l n)), P1. cbn [w_text row_of]. lia.
    + destruct (Nat.leb_spec 2 (length rs)); [lia|]. intros <-; apply IH; [exact A|cbn; lia|intros ? []|rewrite !app_length, Dn, P1; cbn [length]; fold (pend rs); lia].
Qed.

Lemma relaxed_apart ls : Forall no_nl ls -> apart ls -> relaxed (unlines ls) = Same.
Proof.
  intros F A. destruct ls as [|l ls]; [reflexivity|]. rewrite (relaxed_lines _ F ltac:(discriminate)).
  destruct (apart_pure (length (unlines (l :: ls))) (l :: ls) [] [] [] A ltac:(cbn; lia)) as [E1 E2]; [intros ? []|reflexivity|]. rewrite E1, E2. cbn [negb andb app]. now rewrite Nat.eqb_refl.
Qed.
