(** Lemmas for C188-C194. *)
From Verif Require Import Base BaseL Dec M_Special S_Special L_Divs L_Divs2.
Local Arguments isdigit : simpl never.
Local Arguments int_max : simpl never.

Lemma blank_spec c : blank c = true <-> c = SP \/ c = TAB.
Proof. unfold blank. rewrite orb_true_iff, !ceq_eq. reflexivity. Qed.
Lemma blanks_span b r : blanks b -> (r = [] \/ exists c r', r = c :: r' /\ blank c = false) -> span blank (b ++ r) = (b, r).
Proof. intros H R. apply span_word; [|exact R]. revert H. apply Forall_impl. intros c H. apply blank_spec, H. Qed.
Lemma span_blank s : exists b r, s = b ++ r /\ blanks b /\ span blank s = (b, r) /\ (r = [] \/ exists c r', r = c :: r' /\ blank c = false).
Proof.
  induction s as [|c s (b & r & E & Hb & Sp & R)]; [exists [], []; repeat split; auto; constructor|]. destruct (blank c) eqn:C.
  - exists (c :: b), r. split; [cbn; congruence|]. split; [constructor; [apply blank_spec, C|exact Hb]|]. split; [cbn; rewrite C, Sp; reflexivity|exact R].
  - exists [], (c :: s). split; [reflexivity|]. split; [constructor|]. split; [cbn; rewrite C; reflexivity|]. right. eauto.
Qed.
Lemma rev_blanks b : blanks b -> blanks (rev b).
Proof. intros H. apply Forall_rev. exact H. Qed.
(** 34-43 *)
Lemma start_own u : line_start (rev u) = true <-> u = [] \/ exists a b, u = a ++ NL :: b /\ blanks b.
Proof.
  unfold line_start. split.
  - destruct (rev u) as [|c0 r0] eqn:E; [intros _; left; rewrite <- (rev_involutive u), E; reflexivity|]. rewrite <- E. clear E c0 r0.
    destruct (span_blank (rev u)) as (b & r & E & Hb & Sp & _). rewrite Sp. cbn [snd]. destruct r as [|c r]; [discriminate|]. intros C. apply ceq_eq in C. subst c. right.
    exists (rev r), (rev b). split; [|apply rev_blanks, Hb]. rewrite <- (rev_involutive u), E, rev_app_distr. cbn [rev]. rewrite <- app_assoc. reflexivity.
  - intros [->|(a & b & -> & Hb)]; [reflexivity|]. rewrite rev_app_distr. cbn [rev]. rewrite <- app_assoc. cbn [app].
    destruct (rev b ++ NL :: rev a) as [|c0 r0] eqn:E; [destruct (rev b); discriminate|]. rewrite <- E. clear E.
    rewrite blanks_span; [cbn [snd]; apply ceq_refl|apply rev_blanks, Hb|right; exists NL, (rev a); auto].
Qed.
Lemma end_line s rest : line_end s = Some rest <-> exists b nl, s = b ++ nl ++ rest /\ blanks b /\ (nl = [NL] \/ (nl = [] /\ rest = [])).
Proof.
  unfold line_end. split.
  - destruct (span_blank s) as (b & r & -> & Hb & Sp & _). rewrite Sp. cbn [snd]. destruct r as [|c r].
    + intros E. injection E as <-. exists b, []. auto.
    + destruct (ceq c NL) eqn:C; [|discriminate]. apply ceq_eq in C. subst c. intros E. injection E as <-. exists b, [NL]. auto.
  - intros (b & nl & -> & Hb & [-> | [-> ->]]).
    + rewrite blanks_span; [reflexivity|exact Hb|right; exists NL, rest; auto].
    + rewrite blanks_span; [reflexivity|exact Hb|left; reflexivity].
Qed.
Lemma digits_span ds r : digits ds -> (r = [] \/ exists c r', r = c :: r' /\ isdigit c = false) -> span isdigit (ds ++ r) = (ds, r).
Proof. intros H R. apply span_word; assumption. Qed.
Lemma span_digits s : exists ds r, s = ds ++ r /\ digits ds /\ span isdigit s = (ds, r).
Proof.
  induction s as [|c s (b & r & E & Hb & Sp)]; [exists [], []; repeat split; auto; constructor|]. destruct (isdigit c) eqn:C.
  - exists (c :: b), r. split; [cbn; congruence|]. split; [constructor; [exact C|exact Hb]|]. cbn. rewrite C, Sp. reflexivity.
  - exists [], (c :: s). split; [reflexivity|]. split; [constructor|]. cbn. rewrite C. reflexivity.
Qed.
Lemma zero_front z d : digits_value (repeat "0"%char z ++ d) = digits_value d.
Proof. induction z as [|z IH]; [reflexivity|]. exact IH. Qed.
Lemma zeros_span z r : (r = [] \/ exists c r', r = c :: r' /\ c <> "0"%char) -> span (ceq "0"%char) (repeat "0"%char z ++ r) = (repeat "0"%char z, r).
Proof.
  intros R. apply span_word.
  - apply Forall_forall. intros c I. apply repeat_spec in I as ->. apply ceq_refl.
  - destruct R as [->|(c & r' & -> & N)]; [auto|]. right. exists c, r'. split; [reflexivity|]. apply ceq_neq. congruence.
Qed.
Lemma canonical_unique ds d : Canonical ds d <-> d = without_zeros ds.
Proof.
  unfold without_zeros. split.
  - destruct 1 as [z|z c r N]; [rewrite <- (app_nil_r (repeat _ z))|]; rewrite zeros_span; auto. right. eauto.
  - intros ->. assert (E : exists z r, ds = repeat "0"%char z ++ r /\ (r = [] \/ exists c r', r = c :: r' /\ c <> "0"%char)).
    { induction ds as [|c ds (z & r & E & R)]; [exists 0, []; auto|]. destruct (ascii_dec c "0"%char) as [->|N]; [exists (S z), r; split; [cbn; congruence|exact R]|exists 0, (c :: ds); split; [reflexivity|right; eauto]]. }
    destruct E as (z & r & -> & R). rewrite (zeros_span z r R). cbn [snd]. destruct R as [->|(c & r' & -> & N)]; [rewrite app_nil_r; constructor|constructor; exact N].
Qed.
Lemma canonical_value ds d : Canonical ds d -> digits_value d = digits_value ds.
Proof. destruct 1 as [z|z c r N]; [|rewrite zero_front; reflexivity]. rewrite <- (app_nil_r (repeat _ z)), zero_front. reflexivity. Qed.
Lemma without_zeros_length ds : length (without_zeros ds) <= S (length ds).
Proof.
  unfold without_zeros. pose proof (span_length (ceq "0"%char) ds). destruct (snd (span _ ds)) as [|c r]; cbn [length] in *; [cbn; lia|lia].
Qed.
Lemma same_text : separate = separator /\ page = page_break /\ forall ds, wait (without_zeros ds) = pause ds.
Proof. split; [reflexivity|]. split; [reflexivity|]. intros ds. unfold wait, pause, attr. rewrite <- ?app_assoc. reflexivity. Qed.

(** ** A position *)
Definition index_free (s : str) : Prop := ~ exists r, s = B "{index}" ++ r.
Definition in_range (s : str) : Prop := forall ds r, digits ds -> s = B "<!--PAUSE:" ++ ds ++ B "-->" ++ r -> (digits_value ds <= int_max)%Z.
Definition front_ok (u : str) : Prop := blanks u -> u = [].
Lemma own_start u : front_ok u -> own_line u -> line_start (rev u) = true.
Proof. intros F H. apply start_own. destruct H as [H|H]; [left; apply F, H|right; exact H]. Qed.
Lemma start_own_line u : line_start (rev u) = true -> own_line u.
Proof. intros H. apply start_own in H as [->|H]; [left; constructor|right; exact H]. Qed.
Lemma starts_not lit s : (forall r, s <> lit ++ r) -> starts lit s = false.
Proof. intros H. destruct (starts lit s) eqn:E; [|reflexivity]. apply starts_spec in E as [r E]. destruct (H r E). Qed.
Lemma look_mark u m r rest : front_ok u -> index_free (m ++ rest) -> in_range (m ++ rest) -> Mark u m r rest ->
  look (rev u) (m ++ rest) = Fit r rest \/ look (rev u) (m ++ rest) = Grow r rest.
Proof.
  intros F I P M. destruct M as [b nl rest O Hb Hn|rest|rest|ds d rest Hd C|rest].
  - left. rewrite <- !app_assoc. change (B "^" ++ b ++ nl ++ rest) with ("^"%char :: b ++ nl ++ rest). unfold look. rewrite (own_start u F O).
    assert (E : line_end (b ++ nl ++ rest) = Some rest) by (apply end_line; eauto). rewrite E. reflexivity.
  - right. reflexivity.
  - right. reflexivity.
  - left. apply canonical_unique in C. subst d. rewrite (proj2 (proj2 same_text)). rewrite <- !app_assoc in *.
    assert (V : (digits_value ds <= int_max)%Z) by (apply (P ds rest Hd); reflexivity). apply Z.leb_le in V.
    change (B "<!--PAUSE:" ++ ds ++ B "-->" ++ rest) with ("<"%char :: B "!--PAUSE:" ++ ds ++ B "-->" ++ rest). unfold look.
    change (ceq "<"%char "^"%char) with false. cbn [andb].
    change (skipn 10 ("<"%char :: B "!--PAUSE:" ++ ds ++ B "-->" ++ rest)) with (ds ++ B "-->" ++ rest).
    rewrite digits_span; [|exact Hd|right; do 2 eexists; split; reflexivity].
    change (starts (B "<!--BREAK-->") ("<"%char :: B "!--PAUSE:" ++ ds ++ B "-->" ++ rest)) with false.
    change (starts (B "<!--PAUSE:") ("<"%char :: B "!--PAUSE:" ++ ds ++ B "-->" ++ rest)) with true.
    change (starts (B "-->") (B "-->" ++ rest)) with true. cbn [andb]. rewrite V. reflexivity.
  - destruct I. exists rest. reflexivity.
Qed.
Lemma look_byte u c s : index_free (c :: s) -> (forall m r rest, c :: s = m ++ rest -> ~ Mark u m r rest) -> look (rev u) (c :: s) = Copy c.
Proof.
  intros I N. unfold look.
  assert (E1 : (if ceq c "^"%char && line_start (rev u) then line_end s else None) = None).
  { destruct (ceq c "^"%char) eqn:C; [|reflexivity]. destruct (line_start (rev u)) eqn:L; [|reflexivity]. cbn [andb]. apply ceq_eq in C. subst c. destruct (line_end s) as [rest|] eqn:E; [|reflexivity].
    exfalso. apply end_line in E as (b & nl & -> & Hb & Hn). apply (N (B "^" ++ b ++ nl) separate rest); [cbn; rewrite <- !app_assoc; reflexivity|]. constructor; [apply start_own_line, L|exact Hb|exact Hn]. }
  rewrite E1. rewrite starts_not by (intros r E; exact (N _ _ _ E (M_break u r))).
  destruct (span_digits (skipn 10 (c :: s))) as (ds & t & E & Hd & Sp). rewrite Sp.
  assert (E2 : starts (B "<!--PAUSE:") (c :: s) && starts (B "-->") t = false).
  { destruct (starts (B "<!--PAUSE:") (c :: s)) eqn:S1; [|reflexivity]. destruct (starts (B "-->") t) eqn:S2; [|reflexivity]. exfalso. apply starts_spec in S1 as [r1 S1]. apply starts_spec in S2 as [r2 S2].
    rewrite S1 in E. change (skipn 10 (B "<!--PAUSE:" ++ r1)) with r1 in E. subst r1 t. apply (N (B "<!--PAUSE:" ++ ds ++ B "-->") (wait (without_zeros ds)) r2); [rewrite S1, <- !app_assoc; reflexivity|].
    constructor; [exact Hd|apply canonical_unique; reflexivity]. }
  rewrite E2. rewrite starts_not by (intros r E3; exact (N _ _ _ E3 (M_leanpub u r))).
  rewrite (starts_not (B "{index}")) by (intros r E3; apply I; exists r; exact E3). reflexivity.
Qed.
Lemma mark_nonempty u m r rest : Mark u m r rest -> m <> [].
Proof. destruct 1; discriminate. Qed.
Lemma fits_ok r cap o : length o + length r < cap -> if_fits r (St cap o) = St cap (o ++ r).
Proof. intros H. unfold if_fits, room. cbn [s_cap s_out]. rewrite (proj2 (Nat.ltb_lt _ _)) by lia. reflexivity. Qed.
Lemma grown_ok r cap o : length o + length r < cap -> grown r (St cap o) = St cap (o ++ r).
Proof. intros H. unfold grown, room. cbn [s_cap s_out]. rewrite (proj2 (Nat.leb_gt _ _)) by lia. reflexivity. Qed.
Lemma byte_ok c cap o : length o < cap -> byte c (St cap o) = St cap (o ++ [c]).
Proof. intros H. unfold byte, room. cbn [s_cap s_out]. rewrite (proj2 (Nat.ltb_lt _ _)) by lia. reflexivity. Qed.
Lemma next_back (u m rest : str) : rev (firstn (length (m ++ rest) - length rest) (m ++ rest)) ++ rev u = rev (u ++ m).
Proof. rewrite app_length. rewrite firstn_exact by lia. rewrite rev_app_distr. reflexivity. Qed.
Lemma index_suffix (a b : str) : ~ has (B "{index}") (a ++ b) -> ~ has (B "{index}") b.
Proof. intros H (x & y & ->). apply H. exists (a ++ x), y. rewrite <- !app_assoc. reflexivity. Qed.
Lemma pauses_suffix n a b : pauses_to n (a ++ b) -> pauses_to n b.
Proof. intros H ds D (x & y & ->). apply (H ds D). exists (a ++ x), y. rewrite <- !app_assoc. reflexivity. Qed.
Lemma front_app (u x : str) : u <> [] -> front_ok u -> front_ok (u ++ x).
Proof. intros N F H. apply Forall_app in H as [H _]. destruct (N (F H)). Qed.
Lemma index_here s : ~ has (B "{index}") s -> index_free s.
Proof. intros H [r ->]. apply H. exists [], r. reflexivity. Qed.
Lemma range_here s : pauses_to int_max s -> in_range s.
Proof. intros H ds r D ->. apply (H ds D). exists [], r. cbn [app]. rewrite <- !app_assoc. reflexivity. Qed.
Lemma run_step fuel back c s w : run (S fuel) back (c :: s) w =
  let next rest := rev (firstn (length (c :: s) - length rest) (c :: s)) ++ back in
  match look back (c :: s) with
  | Fit x rest => run fuel (next rest) rest (if_fits x w)
  | Grow x rest => run fuel (next rest) rest (grown x w)
  | Copy d => run fuel (d :: back) s (byte d w)
  | Past => None
  end.
Proof. reflexivity. Qed.
Lemma shows_run u s h : Shows u s h -> forall fuel cap o, length s < fuel -> front_ok u -> (u = [] -> no_front_blank s) ->
  ~ has (B "{index}") s -> pauses_to int_max s -> length o + length h < cap -> run fuel (rev u) s (St cap o) = Some (St cap (o ++ h)).
Proof.
  induction 1 as [u|u m r rest h M Sh IH|u c s h N Sh IH]; intros fuel cap o Lf F F0 I P L; (destruct fuel as [|fuel]; [lia|]).
  - cbn [run]. rewrite app_nil_r. reflexivity.
  - destruct (look_mark u m r rest F (index_here _ I) (range_here _ P) M) as [E|E];
      pose proof (mark_nonempty u m r rest M) as Z; destruct m as [|c m]; try congruence; clear Z; cbn [app] in E |- *;
      rewrite run_step, E; cbv zeta; cbv beta; change (c :: m ++ rest) with ((c :: m) ++ rest); rewrite next_back; rewrite app_length in L.
    + rewrite fits_ok by lia. rewrite IH; [rewrite <- app_assoc; reflexivity|rewrite app_length in Lf; cbn [length] in Lf; lia| | |apply (index_suffix (c :: m)), I|apply (pauses_suffix _ (c :: m)), P|rewrite app_length; lia].
      * destruct u as [|d u]; [|apply front_app; [discriminate|exact F]]. intros H. exfalso. cbn [app] in H. destruct (F0 eq_refl) as [F1 F2]. cbn in F1, F2. inversion H as [|? ? [A|A] ?]; congruence.
      * intros E0. apply app_eq_nil in E0 as [_ E0]. discriminate.
    + rewrite grown_ok by lia. rewrite IH; [rewrite <- app_assoc; reflexivity|rewrite app_length in Lf; cbn [length] in Lf; lia| | |apply (index_suffix (c :: m)), I|apply (pauses_suffix _ (c :: m)), P|rewrite app_length; lia].
      * destruct u as [|d u]; [|apply front_app; [discriminate|exact F]]. intros H. exfalso. cbn [app] in H. destruct (F0 eq_refl) as [F1 F2]. cbn in F1, F2. inversion H as [|? ? [A|A] ?]; congruence.
      * intros E0. apply app_eq_nil in E0 as [_ E0]. discriminate.
  - rewrite run_step, (look_byte u c s (index_here _ I) N). cbn [length] in L. rewrite byte_ok by lia.
    change (c :: rev u) with (rev [c] ++ rev u). rewrite <- rev_app_distr. rewrite IH; [rewrite <- app_assoc; reflexivity|cbn [length] in Lf; lia| | |apply (index_suffix [c]), I|apply (pauses_suffix _ [c]), P|rewrite app_length; cbn [length]; lia].
    + destruct u as [|d u]; [|apply front_app; [discriminate|exact F]]. intros H. exfalso. cbn [app] in H. destruct (F0 eq_refl) as [F1 F2]. cbn in F1, F2. inversion H as [|? ? [A|A] ?]; congruence.
    + intros E0. apply app_eq_nil in E0 as [_ E0]. discriminate.
Qed.
Lemma process_shows text h : Shows [] text h -> no_front_blank text -> ~ has (B "{index}") text -> pauses_to int_max text -> length h < 4 * length text -> process text = Out h.
Proof.
  intros Sh F I P L. unfold process. change (@nil ascii) with (rev (@nil ascii)) at 1.
  rewrite (shows_run [] text h Sh); [|lia|intros _; reflexivity|intros _; exact F|exact I|exact P|cbn; lia].
  unfold room. cbn [s_cap s_out app]. rewrite (proj2 (Nat.ltb_lt _ _)) by lia. reflexivity.
Qed.
Lemma unmarked_shows s : forall u, (forall v m r rest, s = v ++ m ++ rest -> ~ Mark (u ++ v) m r rest) -> Shows u s s.
Proof.
  induction s as [|c s IH]; intros u H; [constructor|]. constructor.
  - intros m r rest E M. apply (H [] m r rest E). rewrite app_nil_r. exact M.
  - apply IH. intros v m r rest E M. apply (H (c :: v) m r rest); [rewrite E; reflexivity|]. rewrite <- app_assoc in M. exact M.
Qed.

(** ** One marker *)
Lemma byte_any c cap o : byte c (St cap o) = St cap (o ++ firstn (cap - length o) [c]).
Proof.
  unfold byte, room. cbn [s_cap s_out]. destruct (Nat.ltb_spec 0 (cap - length o)) as [H|H].
  - destruct (cap - length o); [lia|]. destruct n; reflexivity.
  - replace (cap - length o) with 0 by lia. cbn [firstn]. rewrite app_nil_r. reflexivity.
Qed.
Lemma copy_run s t : forall fuel u cap o, length (s ++ t) < fuel -> (forall v c w, s = v ++ c :: w -> look (rev (u ++ v)) (c :: w ++ t) = Copy c) ->
  exists fuel', length t < fuel' /\ run fuel (rev u) (s ++ t) (St cap o) = run fuel' (rev (u ++ s)) t (St cap (o ++ firstn (cap - length o) s)).
Proof.
  induction s as [|c s IH]; intros fuel u cap o L H.
  - exists fuel. split; [exact L|]. rewrite firstn_nil, !app_nil_r. reflexivity.
  - destruct fuel as [|fuel]; [lia|]. cbn [app] in L |- *. rewrite run_step. pose proof (H [] c s eq_refl) as H0. rewrite app_nil_r in H0. rewrite H0. rewrite byte_any.
    change (c :: rev u) with (rev [c] ++ rev u). rewrite <- rev_app_distr.
    destruct (IH fuel (u ++ [c]) cap (o ++ firstn (cap - length o) [c])) as (f' & L' & E).
    + cbn [length] in L. lia.
    + intros v d w E. rewrite <- app_assoc. apply (H (c :: v) d w). rewrite E. reflexivity.
    + exists f'. split; [exact L'|]. rewrite E, <- !app_assoc. cbn [app]. f_equal. f_equal.
      rewrite app_length. destruct (cap - length o) as [|k] eqn:K.
      * cbn [firstn length]. replace (cap - (length o + 0)) with 0 by lia. reflexivity.
      * cbn [firstn]. assert (E1 : firstn k (@nil ascii) = []) by apply firstn_nil. rewrite E1. cbn [length]. replace (cap - (length o + 1)) with k by lia. reflexivity.
Qed.
Lemma copy_before u t : only_at u (u ++ t) -> t <> [] -> forall v c w, u = v ++ c :: w -> look (rev ([] ++ v)) (c :: w ++ t) = Copy c.
Proof.
  intros H Z v c w E. cbn [app].
  assert (N : forall m r rest, c :: w ++ t = m ++ rest -> ~ Mark v m r rest).
  { intros m r rest E2 M. assert (E3 : v = u) by (apply (H v m r rest); [rewrite E at 1; rewrite <- app_assoc; cbn [app]; rewrite E2; reflexivity|exact M]).
    apply (f_equal (@length ascii)) in E3. rewrite E, app_length in E3. cbn [length] in E3. lia. }
  apply look_byte; [|exact N]. intros [r E2]. exact (N _ _ _ E2 (M_index v r)).
Qed.
Lemma copy_after u x v : x <> [] -> only_at u (u ++ x ++ v) -> forall y c w, v = y ++ c :: w -> look (rev ((u ++ x) ++ y)) (c :: w ++ []) = Copy c.
Proof.
  intros Z H y c w E. rewrite app_nil_r.
  assert (N : forall m r rest, c :: w = m ++ rest -> ~ Mark ((u ++ x) ++ y) m r rest).
  { intros m r rest E2 M. assert (E3 : (u ++ x) ++ y = u) by (apply (H _ m r rest); [rewrite E, E2, <- !app_assoc; reflexivity|exact M]).
    apply (f_equal (@length ascii)) in E3. rewrite !app_length in E3. destruct x; [congruence|cbn [length] in E3; lia]. }
  apply look_byte; [|exact N]. intros [r E2]. exact (N _ _ _ E2 (M_index _ r)).
Qed.
Lemma grown_any r cap o : grown r (St cap o) = if cap - length o <=? length r then St ((length o + length r + 100) * 2) (o ++ r) else St cap (o ++ r).
Proof. unfold grown, room. cbn [s_cap s_out]. destruct (cap - length o <=? length r); reflexivity. Qed.
Lemma break_run fuel back v w : run (S fuel) back (B "<!--BREAK-->" ++ v) w = run fuel (rev (B "<!--BREAK-->") ++ back) v (grown page_break w).
Proof.
  change (B "<!--BREAK-->" ++ v) with ("<"%char :: B "!--BREAK-->" ++ v). rewrite run_step. unfold look. change (ceq "<"%char "^"%char) with false. cbn [andb].
  change (starts (B "<!--BREAK-->") ("<"%char :: B "!--BREAK-->" ++ v)) with true. cbv zeta iota beta. change (skipn 12 ("<"%char :: B "!--BREAK-->" ++ v)) with v.
  change ("<"%char :: B "!--BREAK-->" ++ v) with (B "<!--BREAK-->" ++ v). rewrite app_length. rewrite firstn_exact by lia. reflexivity.
Qed.
Lemma one_break u v : only_at u (u ++ B "<!--BREAK-->" ++ v) -> let n := 4 * length (u ++ B "<!--BREAK-->" ++ v) in
  process (u ++ B "<!--BREAK-->" ++ v) = if (length u + 189 <? n) && (n <=? length u + 189 + length v) then Bad else Out (u ++ page ++ v).
Proof.
  intros H n. unfold process. assert (En : length (u ++ B "<!--BREAK-->" ++ v) * 4 = n) by (unfold n; lia). rewrite En.
  assert (Ln : n = 4 * (length u + 12 + length v)) by (unfold n; rewrite !app_length; change (length (B "<!--BREAK-->")) with 12; lia). clearbody n. clear En.
  destruct (copy_run u (B "<!--BREAK-->" ++ v) (S (length (u ++ B "<!--BREAK-->" ++ v))) [] n []) as (f & Lf & E); [lia|apply copy_before; [exact H|discriminate]|].
  cbn [app rev length] in E. rewrite E. clear E. rewrite Nat.sub_0_r, firstn_all2 by lia.
  destruct f as [|f]; [lia|]. rewrite break_run. rewrite <- rev_app_distr. rewrite app_length in Lf. change (length (B "<!--BREAK-->")) with 12 in Lf.
  rewrite grown_any. change (length page_break) with 189.
  destruct (Nat.ltb_spec (length u + 189) n) as [K|K].
  - rewrite (proj2 (Nat.leb_gt (n - length u) 189)) by lia. cbn [s_cap s_out andb].
    destruct (copy_run v [] f (u ++ B "<!--BREAK-->") n (u ++ page_break)) as (f' & Lf' & E); [rewrite app_nil_r; lia|apply copy_after; [discriminate|exact H]|].
    rewrite app_nil_r in E. rewrite E. destruct f' as [|f']; [lia|]. cbn [run]. unfold room. cbn [s_cap s_out]. rewrite <- app_assoc, !app_length. change (length page_break) with 189. rewrite firstn_length.
    destruct (Nat.leb_spec n (length u + 189 + length v)).
    + rewrite (proj2 (Nat.ltb_ge _ _)) by lia. reflexivity.
    + rewrite (proj2 (Nat.ltb_lt _ _)) by lia. rewrite firstn_all2 by lia. reflexivity.
  - rewrite (proj2 (Nat.leb_le (n - length u) 189)) by lia. cbn [s_cap s_out andb].
    destruct (copy_run v [] f (u ++ B "<!--BREAK-->") ((length u + 189 + 100) * 2) (u ++ page_break)) as (f' & Lf' & E); [rewrite app_nil_r; lia|apply copy_after; [discriminate|exact H]|].
    rewrite app_nil_r in E. rewrite E. destruct f' as [|f']; [lia|]. cbn [run]. unfold room. cbn [s_cap s_out]. rewrite <- app_assoc, !app_length. change (length page_break) with 189. rewrite firstn_length.
    rewrite (proj2 (Nat.ltb_lt _ _)) by lia. rewrite firstn_all2 by lia. reflexivity.
Qed.
Lemma index_stays u v : v <> [] -> only_at u (u ++ B "{index}" ++ v) -> process (u ++ B "{index}" ++ v) = Out (u ++ B "{index}" ++ v).
Proof.
  intros Z H. set (s := B "{index}" ++ v). unfold process. 
  assert (Ls : length (u ++ s) = length u + 7 + length v) by (unfold s; rewrite !app_length; cbn; lia).
  destruct (copy_run u s (S (length (u ++ s))) [] (length (u ++ s) * 4) []) as (f & Lf & E); [lia|apply copy_before; [exact H|discriminate]|].
  cbn [app rev length] in E. rewrite E. clear E. rewrite Nat.sub_0_r, firstn_all2 by lia.
  destruct f as [|f]; [lia|]. change s with ("{"%char :: B "index}" ++ v) at 1. rewrite run_step.
  assert (K : look (rev u) ("{"%char :: B "index}" ++ v) = Copy "{"%char).
  { unfold look. change (ceq "{"%char "^"%char) with false. cbn [andb]. change (starts (B "<!--BREAK-->") ("{"%char :: B "index}" ++ v)) with false. cbv iota.
    destruct (span isdigit _) as [ds t]. change (starts (B "<!--PAUSE:") ("{"%char :: B "index}" ++ v)) with false. cbn [andb]. change (starts (B "{::pagebreak /}") ("{"%char :: B "index}" ++ v)) with false. cbv iota.
    destruct v as [|d v]; [congruence|]. change (length ("{"%char :: B "index}" ++ d :: v) =? 7) with false. rewrite andb_false_r. reflexivity. }
  rewrite K. rewrite byte_ok by lia. change ("{"%char :: rev u) with (rev (B "{") ++ rev u). rewrite <- rev_app_distr.
  change s with (B "{" ++ (B "index}" ++ v)) in *. rewrite <- (app_nil_r (B "index}" ++ v)).
  assert (Lv : length (B "index}" ++ v) = 6 + length v) by (rewrite app_length; reflexivity).
  destruct (copy_run (B "index}" ++ v) [] f (u ++ B "{") (length (u ++ B "{" ++ (B "index}" ++ v) ++ []) * 4) (u ++ ["{"%char])) as (f' & Lf' & E).
  - rewrite app_nil_r, Lv. rewrite app_length, Lv in Lf. cbn in Lf. lia.
  - apply copy_after; [discriminate|exact H].
  - rewrite E. destruct f' as [|f']; [lia|]. cbn [run]. unfold room. cbn [s_cap s_out]. rewrite app_nil_r. 
    rewrite (firstn_all2 (B "index}" ++ v)) by (rewrite !app_length; cbn; rewrite ?app_length; lia).
    rewrite <- app_assoc. rewrite (proj2 (Nat.ltb_lt _ _)); [reflexivity|]. rewrite !app_length in *. cbn. lia.
Qed.
Lemma index_last u : only_at u (u ++ B "{index}") -> process (u ++ B "{index}") = Bad.
Proof.
  intros H. unfold process.
  destruct (copy_run u (B "{index}") (S (length (u ++ B "{index}"))) [] (length (u ++ B "{index}") * 4) []) as (f & Lf & E); [lia|apply copy_before; [exact H|discriminate]|].
  cbn [app rev length] in E. rewrite E. clear E. destruct f as [|f]; [lia|]. reflexivity.
Qed.

(** ** Without page breaks *)
Lemma skipn_back n (s : str) : exists a, s = a ++ skipn n s.
Proof. exists (firstn n s). symmetry. apply firstn_skipn. Qed.
Lemma look_fit back s x rest : look back s = Fit x rest -> (length rest < length s) /\ (rest = [] \/ length x + 4 * length rest < 4 * length s) /\ exists a, s = a ++ rest.
Proof.
  unfold look. destruct s as [|c r]; [discriminate|].
  destruct (if ceq c "^"%char && line_start back then line_end r else None) as [rest'|] eqn:E.
  - intros K. injection K as <- <-. destruct (ceq c "^"%char && line_start back); [|discriminate]. apply end_line in E as (b & nl & -> & Hb & Hn).
    cbn [length]. rewrite !app_length. split; [lia|]. split.
    + destruct Hn as [-> | [-> ->]]; [right; cbn [length]; change (length separator) with 7; lia|left; reflexivity].
    + exists (c :: b ++ nl). cbn [app]. rewrite <- app_assoc. reflexivity.
  - destruct (starts (B "<!--BREAK-->") (c :: r)); [discriminate|]. destruct (span_digits (skipn 10 (c :: r))) as (ds & t & E2 & Hd & Sp). rewrite Sp.
    destruct (starts (B "<!--PAUSE:") (c :: r)) eqn:S1; cbn [andb].
    + destruct (starts (B "-->") t) eqn:S2.
      * destruct (digits_value ds <=? int_max)%Z; [|discriminate]. intros K. injection K as <- <-. apply starts_spec in S1 as [r1 S1]. apply starts_spec in S2 as [r2 S2].
        rewrite S1 in E2. change (skipn 10 (B "<!--PAUSE:" ++ r1)) with r1 in E2. subst r1 t. rewrite S1. change (match B "-->" ++ r2 with _ :: _ :: _ :: l1 => l1 | _ => [] end) with r2.
        rewrite !app_length. change (length (B "<!--PAUSE:")) with 10. change (length (B "-->")) with 3. split; [lia|]. split.
        -- right. unfold pause. rewrite !app_length. pose proof (without_zeros_length ds). cbn. lia.
        -- exists (B "<!--PAUSE:" ++ ds ++ B "-->"). rewrite <- !app_assoc. reflexivity.
      * destruct (starts (B "{::pagebreak /}") (c :: r)); [discriminate|]. destruct (starts (B "{index}") (c :: r)); [destruct (length (c :: r) =? 7)|]; discriminate.
    + destruct (starts (B "{::pagebreak /}") (c :: r)); [discriminate|]. destruct (starts (B "{index}") (c :: r)); [destruct (length (c :: r) =? 7)|]; discriminate.
Qed.
Lemma look_grow back s x rest : look back s = Grow x rest -> ~ no_pages s.
Proof.
  unfold look. destruct s as [|c r]; [discriminate|]. destruct (if ceq c "^"%char && line_start back then line_end r else None); [discriminate|].
  destruct (starts (B "<!--BREAK-->") (c :: r)) eqn:S1; [intros _ [H _]; apply starts_spec in S1 as [t S1]; apply H; exists [], t; exact S1|].
  destruct (span isdigit _) as [ds t]. destruct (_ && _); [destruct (_ <=? _)%Z; discriminate|].
  destruct (starts (B "{::pagebreak /}") (c :: r)) eqn:S2; [intros _ [_ H]; apply starts_spec in S2 as [t' S2]; apply H; exists [], t'; exact S2|].
  destruct (_ && _); discriminate.
Qed.
Lemma look_past back s : look back s = Past -> s = [] \/ s = B "{index}" \/ ~ pauses_to int_max s.
Proof.
  unfold look. destruct s as [|c r]; [auto|]. destruct (if ceq c "^"%char && line_start back then line_end r else None); [discriminate|].
  destruct (starts (B "<!--BREAK-->") (c :: r)); [discriminate|]. destruct (span_digits (skipn 10 (c :: r))) as (ds & t & E2 & Hd & Sp). rewrite Sp.
  destruct (starts (B "<!--PAUSE:") (c :: r) && starts (B "-->") t) eqn:S.
  - apply andb_true_iff in S as [S1 S2]. destruct (Z.leb_spec (digits_value ds) int_max) as [K|K]; [discriminate|]. intros _. right. right. intros P.
    apply starts_spec in S1 as [r1 S1]. apply starts_spec in S2 as [r2 S2]. rewrite S1 in E2. change (skipn 10 (B "<!--PAUSE:" ++ r1)) with r1 in E2. subst r1 t.
    assert (digits_value ds <= int_max)%Z; [|lia]. apply (P ds Hd). exists [], r2. rewrite S1, <- !app_assoc. reflexivity.
  - destruct (starts (B "{::pagebreak /}") (c :: r)); [discriminate|]. destruct (starts (B "{index}") (c :: r)) eqn:S1; cbn [andb]; [|discriminate].
    destruct (Nat.eqb_spec (length (c :: r)) 7) as [K|K]; [|discriminate]. intros _. right. left. apply starts_spec in S1 as [t' S1]. rewrite S1 in *. rewrite app_length in K. change (length (B "{index}")) with 7 in K.
    destruct t'; [apply app_nil_r|cbn [length] in K; lia].
Qed.
Lemma look_copy back s c : look back s = Copy c -> exists r, s = c :: r.
Proof.
  unfold look. destruct s as [|d r]; [discriminate|]. destruct (if ceq d "^"%char && line_start back then line_end r else None); [discriminate|].
  destruct (starts (B "<!--BREAK-->") (d :: r)); [discriminate|]. destruct (span isdigit _) as [ds t]. destruct (_ && _); [destruct (_ <=? _)%Z; discriminate|].
  destruct (starts (B "{::pagebreak /}") (d :: r)); [discriminate|]. destruct (_ && _); [discriminate|]. intros K. injection K as <-. eauto.
Qed.
Definition calm (s : str) : Prop := no_pages s /\ pauses_to int_max s /\ (forall a, s <> a ++ B "{index}").
Lemma calm_suffix a b : calm (a ++ b) -> calm b.
Proof.
  intros ((P1 & P2) & P & E). split; [split; intros (x & y & ->); [apply P1|apply P2]; exists (a ++ x), y; rewrite <- !app_assoc; reflexivity|].
  split; [apply (pauses_suffix _ a), P|]. intros x ->. apply (E (a ++ x)). rewrite <- app_assoc. reflexivity.
Qed.
Lemma run_calm fuel : forall back s w, length s < fuel -> calm s -> 4 * length s <= room w -> (s = [] -> 0 < room w) -> exists w', run fuel back s w = Some w' /\ 0 < room w'.
Proof.
  induction fuel as [|fuel IH]; intros back s w L C R R0; [lia|]. destruct s as [|c s]; [exists w; split; [reflexivity|apply R0; reflexivity]|].
  rewrite run_step. cbv zeta. destruct (look back (c :: s)) as [x rest|x rest|d|] eqn:K.
  - destruct (look_fit _ _ _ _ K) as (L1 & L2 & a & E). apply IH; [lia|rewrite E in C; exact (calm_suffix _ _ C)| |].
    + unfold if_fits. destruct (Nat.ltb_spec (length x) (room w)) as [Q|Q]; [|lia]. unfold room in *. cbn [s_cap s_out]. rewrite app_length. destruct L2 as [-> | L2]; cbn [length] in *; lia.
    + intros ->. unfold if_fits. destruct (Nat.ltb_spec (length x) (room w)) as [Q|Q]; [|cbn [length] in *; lia]. unfold room in *. cbn [s_cap s_out]. rewrite app_length. lia.
  - destruct (look_grow _ _ _ _ K). apply C.
  - destruct (look_copy _ _ _ K) as [r E]. injection E as -> ->. cbn [length] in *. apply IH; [lia|exact (calm_suffix [d] r C)| |].
    + unfold byte. rewrite (proj2 (Nat.ltb_lt _ _)) by lia. unfold room in *. cbn [s_cap s_out]. rewrite app_length. cbn [length]. lia.
    + intros ->. cbn [length] in *. unfold byte. rewrite (proj2 (Nat.ltb_lt _ _)) by lia. unfold room in *. cbn [s_cap s_out]. rewrite app_length. cbn [length]. lia.
  - exfalso. destruct C as (_ & P & E). apply look_past in K as [K|[K|K]]; [discriminate|exact (E [] K)|contradiction].
Qed.
Lemma process_calm text : text <> [] -> calm text -> exists t, process text = Out t.
Proof.
  intros Z C. unfold process. destruct (run_calm (S (length text)) [] text (St (length text * 4) [])) as (w & E & R); [lia|exact C|unfold room; cbn; lia|intros E; destruct (Z E)|].
  rewrite E. rewrite (proj2 (Nat.ltb_lt _ _)) by exact R. eauto.
Qed.
