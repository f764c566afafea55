(** Lemmas on captions. *)
From Verif Require Import Base BaseL L_Pass M_Relax S_Relax L_Relax M_Spans S_Spans L_Spans L_Alpha M_Caption S_Caption.

(** ** Lengths *)
Lemma drop_end_shape f s : exists v, s = drop_end f s ++ v /\ Forall (fun c => f c = true) v.
Proof.
  induction s as [|c s (v & E & F)]; [exists []; auto|]. cbn [drop_end]. destruct (drop_end f s) as [|d q].
  - cbn [app] in E. subst v. destruct (f c) eqn:C; [exists (c :: s); split; [reflexivity|now constructor]|]. exists s. auto.
  - exists v. split; [cbn [app] in *; now rewrite E at 1|exact F].
Qed.

Lemma span_parts p (s : str) : s = fst (span p s) ++ snd (span p s).
Proof. apply span_shape. Qed.

Lemma pandoc_shape s c r : pandoc_caption s = (c, r) -> exists w, s = w ++ c ++ r.
Proof.
  unfold pandoc_caption. intro E. injection E as E1 E2. exists (fst (span gap s)). rewrite (span_parts gap s) at 1. f_equal. rewrite <- E2. set (t := snd (span gap s)) in *. set (k := ial_cut (length t) t) in *.
  destruct (drop_end_shape (fun c => ceq c SP || ceq c TAB || ceq c CR) (firstn k t)) as (v & V & _). rewrite E1 in V.
  assert (T : t = c ++ v ++ skipn k t) by (rewrite app_assoc, <- V; symmetry; apply firstn_skipn). rewrite E1, T. rewrite skipn_app, Nat.sub_diag, skipn_all. reflexivity.
Qed.

Lemma colon_shape s c r : colon_caption s = (c, r) -> exists w, s = w ++ c ++ r.
Proof.
  unfold colon_caption. set (k := ial_cut (length s) s). pose proof (span_parts isspace (firstn k s)) as Sp. destruct (span isspace (firstn k s)) as [w t]. cbn [fst snd] in Sp. intro E. injection E as E1 E2. exists w.
  destruct (drop_end_shape isspace t) as (v & V & _). rewrite E1 in V. assert (T : s = w ++ c ++ v ++ skipn k s) by (rewrite (app_assoc c), <- V, app_assoc, <- Sp; symmetry; apply firstn_skipn).
  rewrite <- E2, E1. assert (Z : exists z, s = w ++ c ++ z) by (eexists; exact T). clear -Z. destruct Z as (z & ->). rewrite app_assoc, <- app_length, skipn_app, skipn_all, Nat.sub_diag. cbn [app skipn]. now rewrite <- app_assoc.
Qed.

Lemma attributes_cases r : attributes r = [] \/ exists w a, r = w ++ a /\ attributes r = SP :: a.
Proof. unfold attributes. pose proof (span_parts isspace r) as E. destruct (span isspace r) as [w a]. cbn [fst snd] in *. destruct a as [|d a]; [now left|right]. exists w, (d :: a). auto. Qed.

Lemma attributes_len r : length (attributes r) <= S (length r).
Proof. destruct (attributes_cases r) as [-> |(w & a & -> & ->)]; cbn; [lia|]. rewrite app_length. lia. Qed.

Lemma mark_shape l : some (strstr (B "Table:") l) || some (strstr (B "table:") l) = true -> exists m, In m table_marks /\ l = fst (mark_split l) ++ m ++ snd (mark_split l).
Proof.
  intro H. unfold mark_split. assert (K : forall m i, length m = 6 -> strstr m l = Some i -> l = firstn i l ++ m ++ skipn (i + 6) l).
  { intros m i Lm E. apply strstr_some in E as (a & b & -> & La & _). subst i. rewrite firstn_app, firstn_all, Nat.sub_diag. cbn [firstn]. rewrite app_nil_r. f_equal. f_equal. rewrite app_assoc. replace (length a + 6) with (length (a ++ m)) by (rewrite app_length; lia). rewrite skipn_app, Nat.sub_diag, skipn_all. reflexivity. }
  destruct (strstr (B "Table:") l) as [i|] eqn:E1; [exists (B "Table:"); split; [now left|exact (K (B "Table:") _ eq_refl E1)]|]. destruct (strstr (B "table:") l) as [i|] eqn:E2; [|discriminate H]. exists (B "table:"). split; [right; now left|exact (K (B "table:") _ eq_refl E2)].
Qed.

Lemma some_within m s : m <> [] -> some (strstr m s) = true <-> within m s.
Proof.
  intro Z. split.
  - destruct (strstr m s) as [i|] eqn:E; [|discriminate]. intros _. apply strstr_some in E as (a & b & -> & _). exists a, b. reflexivity.
  - intros (a & b & E). destruct (strstr m s) eqn:F; [reflexivity|]. exfalso. exact (strstr_none _ _ F a b E).
Qed.

Lemma within_more m w s : within m s -> within m (w ++ s).
Proof. intros (a & b & ->). exists (w ++ a), b. now rewrite <- app_assoc. Qed.

Lemma mark_len m : In m table_marks -> length m = 6.
Proof. intros [<-|[<-|[]]]; reflexivity. Qed.

(** What a step adds: at most twice the line and its end, a pending blank line counted as one byte. *)
Definition weight (s : cap) : nat := length (c_out s) + (if c_buf s then 1 else 0).

Ltac fields := cbn [c_code c_row c_blank c_buf c_sec c_out].

Lemma after_out k s buf sec o : c_out (after k s buf sec o) = o /\ c_buf (after k s buf sec o) = buf.
Proof. unfold after. destruct (k_code k), (k_row k), (k_blank k), (k_bracket k || k_pandoc k || k_colon k); auto. Qed.

Lemma pandoc_mark s l : k_pandoc (kinds_of s l) = true -> some (strstr (B "Table:") l) || some (strstr (B "table:") l) = true.
Proof.
  intro K2. cbn [kinds_of k_pandoc] in K2. pose proof (span_parts gap l) as Sp. destruct (span gap l) as [w p]. cbn [fst snd] in *. subst l.
  assert (P : some (strstr (B "Table:") p) || some (strstr (B "table:") p) = true).
  { apply Bool.orb_true_iff in K2. destruct K2 as [K2|K2]; [|now apply Bool.andb_true_iff in K2]. apply Bool.andb_true_iff in K2. destruct K2 as [_ K2]. apply Bool.orb_true_iff in K2. apply Bool.orb_true_iff.
    destruct K2 as [K2|K2]; apply starts_spec in K2; destruct K2 as (r & ->); [left|right]; (apply some_within; [discriminate|exists [], r; reflexivity]). }
  apply Bool.orb_true_iff in P. apply Bool.orb_true_iff. destruct P as [P|P]; (apply some_within in P; [|discriminate]); [left|right]; (apply some_within; [discriminate|now apply within_more]).
Qed.

Lemma step_weight s l e : l <> [] \/ e <> [] -> weight (cap_step s (l, e)) <= weight s + 2 * (length l + length e).
Proof.
  intro Z. unfold cap_step, weight. set (nl := match e with [] => [] | _ :: _ => [NL] end). assert (Ln : length nl <= length e) by (unfold nl; destruct e; cbn; lia). cbv zeta. set (k := kinds_of s l).
  assert (Af : forall buf sec o, length (c_out (after k s buf sec o)) + (if c_buf (after k s buf sec o) then 1 else 0) = length o + (if buf then 1 else 0)) by (intros buf sec o; destruct (after_out k s buf sec o) as [-> ->]; reflexivity).
  destruct (c_row s && k_bracket k) eqn:K1.
  { rewrite Af, !app_length. apply Bool.andb_true_iff in K1. destruct K1 as [_ K1]. cbn [k kinds_of k_bracket] in K1. apply Bool.andb_true_iff in K1. destruct K1 as [_ K1]. destruct l; [discriminate K1|]. cbn [length] in *. lia. }
  destruct (k_pandoc k) eqn:K2.
  { destruct (mark_shape l (pandoc_mark s l K2)) as (m & Im & E). destruct (mark_split l) as [x b]. cbn [fst snd] in E. destruct (pandoc_caption b) as [c r] eqn:Pc. apply pandoc_shape in Pc. destruct Pc as (w' & ->). apply mark_len in Im. apply (f_equal (@length ascii)) in E. rewrite !app_length in E.
    destruct c as [|d c]; [rewrite Af, !app_length; lia|]. rewrite Af, !app_length. pose proof (attributes_len r). change (length (B "[")) with 1. change (length (B "]")) with 1. cbn [length] in *. assert (length (match x with [] => [] | _ :: _ => x ++ [NL] end) <= S (length x)) by (destruct x; [cbn; lia|rewrite app_length; cbn; lia]). lia. }
  destruct (c_row s && k_colon k) eqn:K3.
  { apply Bool.andb_true_iff in K3. destruct K3 as [_ K3]. cbn [k kinds_of k_colon] in K3. apply Bool.andb_true_iff in K3. destruct K3 as [_ K3]. pose proof (span_parts gap l) as Sp. destruct (span gap l) as [w p]. cbn [fst snd] in *. subst l. destruct p as [|d [|d' p]]; try discriminate K3. cbn [skipn].
    destruct (colon_caption p) as [c r] eqn:Pc. apply colon_shape in Pc. destruct Pc as (w' & ->). rewrite Af, !app_length. pose proof (attributes_len r). change (length (B "[")) with 1. change (length (B "]")) with 1. cbn [length] in *. rewrite !app_length. lia. }
  destruct (k_blank k && near s) eqn:K4.
  { fields. assert (1 <= length l + length e) by (destruct Z as [Z|Z]; [destruct l|destruct e]; cbn [length]; try congruence; lia). destruct (c_buf s); lia. }
  rewrite Af, !app_length. set (x := negb _). assert (length (if c_buf s && x then [NL] else []) <= if c_buf s then 1 else 0) by (destruct (c_buf s), x; cbn; lia). lia.
Qed.

Definition begin : cap := Cap false false false false false [].

Lemma run_weight ls : Lines ls -> forall s, weight (fold_left cap_step ls s) <= weight s + 2 * length (join ls).
Proof.
  intro H. assert (F : Forall (fun p : str * str => fst p <> [] \/ snd p <> []) ls) by (induction H as [|l T N|l ls T H IH|l ls T H IH|l ls T C H IH]; [constructor|constructor; [left; exact N|constructor]| | |]; (constructor; [right; discriminate|exact IH])). clear H.
  intro s. revert s. induction F as [|[l e] ls Z F IH]; intro s; [cbn; lia|]. cbn [fold_left]. specialize (IH (cap_step s (l, e))). pose proof (step_weight s l e Z). unfold join in *. cbn [map concat fst snd]. rewrite !app_length. lia.
Qed.

(** ** The result ends with a newline *)
Definition nl_end (o : str) : Prop := o = [] \/ exists q, o = q ++ [NL].
Lemma nl_end_app o x : nl_end (o ++ x ++ [NL]).
Proof. right. exists (o ++ x). now rewrite app_assoc. Qed.

Lemma step_end s l e : e <> [] -> nl_end (c_out s) -> nl_end (c_out (cap_step s (l, e))).
Proof.
  intros E N. unfold cap_step. replace (match e with [] => [] | _ :: _ => [NL] end) with [NL] by (destruct e; congruence). cbv zeta. set (k := kinds_of s l).
  assert (Af : forall buf sec o, c_out (after k s buf sec o) = o) by (intros buf sec o; apply after_out).
  destruct (c_row s && k_bracket k). { rewrite Af. right. eexists. rewrite !app_assoc. reflexivity. }
  destruct (k_pandoc k). { destruct (mark_split l) as [x b]. destruct (pandoc_caption b) as [c r]. destruct c as [|d c]; rewrite Af; right; eexists; rewrite !app_assoc; reflexivity. }
  destruct (c_row s && k_colon k). { destruct (colon_caption (skipn 2 (snd (span gap l)))) as [c r]. rewrite Af. right. eexists. rewrite !app_assoc. reflexivity. }
  destruct (k_blank k && near s); [exact N|]. rewrite Af. right. eexists. rewrite !app_assoc. reflexivity.
Qed.

Lemma run_end ls : Forall (fun p : str * str => snd p <> []) ls -> forall s, nl_end (c_out s) -> nl_end (c_out (fold_left cap_step ls s)).
Proof. induction 1 as [|[l e] ls E F IH]; intros s N; [exact N|]. cbn [fold_left]. apply IH. now apply step_end. Qed.

Lemma captions_exact ls : Lines ls -> Forall (fun p => snd p <> []) ls -> captions (join ls) = Some (c_out (fold_left cap_step ls begin)) /\ nl_end (c_out (fold_left cap_step ls begin)).
Proof.
  intros H F. unfold captions. rewrite (cut_join ls H). change (Cap false false false false false []) with begin. pose proof (run_weight ls H begin) as W. pose proof (run_end ls F begin (or_introl eq_refl)) as N. set (o := c_out (fold_left cap_step ls begin)) in *. split; [|exact N].
  assert (E : ended_out o = o) by (unfold ended_out; destruct N as [-> |(q & ->)]; [reflexivity|]; rewrite rev_app_distr; reflexivity). rewrite E. unfold weight in W. cbn [begin c_out c_buf length] in W. fold o in W. destruct (Nat.ltb_spec (length (join ls) * 2 + 1) (length o + 1)); [lia|reflexivity].
Qed.

Lemma captioned_exact t ls : Lines ls -> Ended t (join ls) -> captioned t = Some (c_out (fold_left cap_step ls begin)) /\ nl_end (c_out (fold_left cap_step ls begin)).
Proof. intros H E. unfold captioned. rewrite <- (ended_unique t _ E). apply captions_exact; [exact H|]. exact (lines_closed ls _ H eq_refl (ended_closed t _ E)). Qed.
