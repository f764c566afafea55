(** Lemmas for C167-C178. *)
From Verif Require Import Base BaseL L_Csv L_Lines M_Emoji S_Emoji.
Local Arguments isspace : simpl never.
Local Arguments tolower : simpl never.

(** * The distance of words *)
Fixpoint dr (a : str) : str -> nat :=
  fix go (b : str) : nat :=
    match a, b with
    | [], _ => length b
    | _, [] => length a
    | c :: a', d :: b' => min3 (dr a' b + 1) (go b' + 1) (dr a' b' + if ceq c d then 0 else 1)
    end.
Lemma dr_nil_l b : dr [] b = length b.
Proof. destruct b; reflexivity. Qed.
Lemma dr_nil_r a : dr a [] = length a.
Proof. destruct a; reflexivity. Qed.
Lemma dr_cons c a d b : dr (c :: a) (d :: b) = min3 (dr a (d :: b) + 1) (dr (c :: a) b + 1) (dr a b + if ceq c d then 0 else 1).
Proof. reflexivity. Qed.
Lemma min3_spec d i s : min3 d i s <= d /\ min3 d i s <= i /\ min3 d i s <= s /\ (min3 d i s = d \/ min3 d i s = i \/ min3 d i s = s).
Proof. unfold min3. destruct (Nat.ltb_spec d i); [destruct (Nat.ltb_spec d s)|destruct (Nat.ltb_spec i s)]; lia. Qed.
Lemma edit_nil_l b : Edit (length b) [] b.
Proof. induction b as [|d b IH]; [constructor|]. cbn [length]. apply E_insert, IH. Qed.
Lemma edit_nil_r a : Edit (length a) a [].
Proof. induction a as [|d a IH]; [constructor|]. cbn [length]. apply E_delete, IH. Qed.
Lemma dr_edit a : forall b, Edit (dr a b) a b.
Proof.
  induction a as [|c a IH]; intros b; [rewrite dr_nil_l; apply edit_nil_l|].
  induction b as [|d b IHb]; [rewrite dr_nil_r; apply edit_nil_r|]. rewrite dr_cons.
  destruct (min3_spec (dr a (d :: b) + 1) (dr (c :: a) b + 1) (dr a b + if ceq c d then 0 else 1)) as (_ & _ & _ & [-> | [-> | ->]]).
  - rewrite Nat.add_1_r. apply E_delete, IH.
  - rewrite Nat.add_1_r. apply E_insert, IHb.
  - destruct (ceq c d) eqn:Ec; [apply ceq_eq in Ec; subst; rewrite Nat.add_0_r; apply E_keep, IH|rewrite Nat.add_1_r; apply E_change, IH].
Qed.
Lemma dr_min n a b : Edit n a b -> dr a b <= n.
Proof.
  induction 1 as [|n c a b H IH|n c d a b H IH|n d a b H IH|n c a b H IH].
  - cbn. lia.
  - rewrite dr_cons, ceq_refl. destruct (min3_spec (dr a (c :: b) + 1) (dr (c :: a) b + 1) (dr a b + 0)) as (_ & _ & K & _). lia.
  - rewrite dr_cons. destruct (min3_spec (dr a (d :: b) + 1) (dr (c :: a) b + 1) (dr a b + if ceq c d then 0 else 1)) as (_ & _ & K & _).
    destruct (ceq c d); lia.
  - destruct a as [|c a]; [rewrite dr_nil_l in *; cbn [length]; lia|]. rewrite dr_cons.
    destruct (min3_spec (dr a (d :: b) + 1) (dr (c :: a) b + 1) (dr a b + if ceq c d then 0 else 1)) as (_ & K & _ & _). lia.
  - destruct b as [|d b]; [rewrite dr_nil_r in *; cbn [length]; lia|]. rewrite dr_cons.
    destruct (min3_spec (dr a (d :: b) + 1) (dr (c :: a) b + 1) (dr a b + if ceq c d then 0 else 1)) as (K & _ & _ & _). lia.
Qed.
Lemma edit_app n a b m c d : Edit n a b -> Edit m c d -> Edit (n + m) (a ++ c) (b ++ d).
Proof. intros H K. induction H; cbn [app plus]; [exact K|constructor; assumption..]. Qed.
Lemma edit_rev n a b : Edit n a b -> Edit n (rev a) (rev b).
Proof.
  induction 1 as [|n c a b H IH|n c d a b H IH|n d a b H IH|n c a b H IH]; cbn [rev]; [constructor|..].
  - rewrite <- (Nat.add_0_r n). apply edit_app; [exact IH|repeat constructor].
  - rewrite <- Nat.add_1_r. apply edit_app; [exact IH|repeat constructor].
  - rewrite <- Nat.add_1_r. rewrite <- (app_nil_r (rev a)). apply edit_app; [exact IH|repeat constructor].
  - rewrite <- Nat.add_1_r. rewrite <- (app_nil_r (rev b)). apply edit_app; [exact IH|repeat constructor].
Qed.
Lemma dr_rev a b : dr (rev a) (rev b) = dr a b.
Proof.
  apply Nat.le_antisymm; apply dr_min.
  - apply edit_rev, dr_edit.
  - pose proof (edit_rev _ _ _ (dr_edit (rev a) (rev b))) as H. rewrite !rev_involutive in H. exact H.
Qed.
(** Prefixes of [s], longer and longer, backwards. *)
Fixpoint exts (u s : str) : list str := u :: match s with [] => [] | d :: s => exts (d :: u) s end.
Lemma exts_map (A : Type) (f : str -> A) u s : map f (exts u s) = f u :: match s with [] => [] | d :: s => map f (exts (d :: u) s) end.
Proof. destruct s; reflexivity. Qed.
Lemma row_spec c a s2 : forall u, dr (c :: a) u :: row c s2 (map (dr a) (exts u s2)) (dr (c :: a) u) = map (dr (c :: a)) (exts u s2).
Proof.
  induction s2 as [|d s2 IH]; intros u; [reflexivity|]. rewrite (exts_map _ (dr (c :: a)) u (d :: s2)). f_equal. rewrite <- IH.
  rewrite (exts_map _ (dr a) u (d :: s2)). rewrite (exts_map _ (dr a) (d :: u) s2) at 1. cbn [row]. cbv zeta. rewrite <- dr_cons.
  rewrite (exts_map _ (dr a) (d :: u) s2). reflexivity.
Qed.
Lemma rows_spec s1 s2 : forall a, rows s1 s2 (length a) (map (dr a) (exts [] s2)) = map (dr (rev s1 ++ a)) (exts [] s2).
Proof.
  induction s1 as [|c s1 IH]; intros a; [reflexivity|]. cbn [rows rev]. rewrite <- app_assoc. cbn [app].
  change (S (length a)) with (length (c :: a)) at 1. rewrite <- IH. f_equal. rewrite <- row_spec. rewrite dr_nil_r. reflexivity.
Qed.
Lemma first_row u s : map (dr []) (exts u s) = seq (length u) (S (length s)).
Proof.
  revert u. induction s as [|d s IH]; intros u; rewrite exts_map, dr_nil_l; [reflexivity|]. rewrite IH. reflexivity.
Qed.
Lemma exts_last s : forall u, nth (length s) (exts u s) [] = rev s ++ u.
Proof. induction s as [|d s IH]; intros u; [reflexivity|]. cbn [length exts nth rev]. rewrite IH, <- app_assoc. reflexivity. Qed.
Lemma exts_length s : forall u, length (exts u s) = S (length s).
Proof. induction s as [|d s IH]; intros u; cbn [exts length]; [reflexivity|]. rewrite IH. reflexivity. Qed.
Lemma levenshtein_dr a b : levenshtein a b = dr a b.
Proof.
  unfold levenshtein. destruct a as [|c a]; [rewrite dr_nil_l; reflexivity|]. destruct b as [|d b]; [rewrite dr_nil_r; reflexivity|].
  set (s1 := c :: a). set (s2 := d :: b). change (seq 0 (S (length s2))) with (seq (length (@nil ascii)) (S (length s2))).
  rewrite <- first_row. change 0 with (length (@nil ascii)) at 1. rewrite rows_spec, app_nil_r.
  rewrite (nth_indep _ 0 (dr (rev s1) [])) by (rewrite map_length, exts_length; lia).
  rewrite map_nth, exts_last, app_nil_r. apply dr_rev.
Qed.
Lemma levenshtein_distance a b : Distance (levenshtein a b) a b.
Proof. rewrite levenshtein_dr. split; [apply dr_edit|intros m; apply dr_min]. Qed.
Lemma distance_levenshtein d a b : Distance d a b -> levenshtein a b = d.
Proof.
  intros [H K]. destruct (levenshtein_distance a b) as [H' K']. apply Nat.le_antisymm; [apply K'|apply K]; assumption.
Qed.
Lemma edit_length n a b : Edit n a b -> length b <= length a + n.
Proof. induction 1; cbn [length]; lia. Qed.
Lemma edit_one c n x : Edit (S (length n)) (c :: n) [x].
Proof. apply E_change, edit_nil_r. Qed.

(** * The nearest name *)
Definition nearest_in (max : nat) (l : list entry) (n : str) (best : option (nat * str)) : Prop :=
  match best with
  | None => Far max l n
  | Some (d, m) => Distance d n m /\ Nearest max l n m
  end.
Lemma closest_spec max n l : forall l0 best, nearest_in max l0 n best -> nearest_in max (l0 ++ l) n (closest max n l best).
Proof.
  induction l as [|e l IH]; intros l0 best H; [rewrite app_nil_r; exact H|]. cbn [closest]. cbv zeta.
  replace (l0 ++ e :: l) with ((l0 ++ [e]) ++ l) by (rewrite <- app_assoc; reflexivity). apply IH. clear IH.
  pose proof (levenshtein_distance n (ename e)) as D. set (d := levenshtein n (ename e)) in *. clearbody d.
  assert (U : forall d', Distance d' n (ename e) -> d' = d).
  { intros d' D'. apply distance_levenshtein in D, D'. congruence. }
  destruct (Nat.leb_spec d max) as [L|L].
  - destruct best as [[d0 b]|]; cbn [nearest_in] in *.
    + destruct H as (D0 & l1 & e1 & l2 & d1 & -> & N1 & D1 & L1 & H1 & H2).
      assert (E1 : d1 = d0) by (apply distance_levenshtein in D0, D1; congruence). subst d1.
      destruct ((d <? d0) || (d =? d0) && (length (ename e) <? length b)) eqn:Q.
      * split; [exact D|]. exists (l1 ++ e1 :: l2), e, [], d. split; [reflexivity|]. split; [reflexivity|]. split; [exact D|]. split; [exact L|].
        split; [|intros e' d' []]. assert (Q' : d < d0 \/ (d = d0 /\ length (ename e) < length b)).
        { apply orb_true_iff in Q as [Q|Q]; [left; apply Nat.ltb_lt, Q|right]. apply andb_true_iff in Q as [Q1 Q2]. apply Nat.eqb_eq in Q1. apply Nat.ltb_lt in Q2. auto. }
        clear Q. intros e' d' I D'. apply in_app_or in I as [I|[<-|I]].
        -- destruct (H1 e' d' I D') as [K|[K1 K2]]; lia.
        -- rewrite N1 in *. assert (d' = d0) by (apply distance_levenshtein in D0, D'; congruence). subst d'. lia.
        -- destruct (H2 e' d' I D') as [K|[K1 K2]]; lia.
      * split; [exact D0|]. exists l1, e1, (l2 ++ [e]), d0. split; [rewrite <- app_assoc; reflexivity|]. split; [exact N1|]. split; [exact D0|]. split; [exact L1|].
        split; [exact H1|]. intros e' d' I D'. apply in_app_or in I as [I|[<-|[]]]; [exact (H2 e' d' I D')|].
        apply U in D'. subst d'. apply orb_false_iff in Q as [Q1 Q2]. apply Nat.ltb_ge in Q1.
        destruct (Nat.eqb_spec d d0) as [E|E]; [|left; lia]. right. split; [auto|]. cbn [andb] in Q2. apply Nat.ltb_ge in Q2. exact Q2.
    + split; [exact D|]. exists l0, e, [], d. split; [reflexivity|]. split; [reflexivity|]. split; [exact D|]. split; [exact L|].
      split; [|intros e' d' []]. intros e' d' I D'. pose proof (H e' d' I D'). left. lia.
  - destruct best as [[d0 b]|]; cbn [nearest_in] in *.
    + destruct H as (D0 & l1 & e1 & l2 & d1 & -> & N1 & D1 & L1 & H1 & H2). split; [exact D0|].
      exists l1, e1, (l2 ++ [e]), d1. split; [rewrite <- app_assoc; reflexivity|]. split; [exact N1|]. split; [exact D1|]. split; [exact L1|].
      split; [exact H1|]. intros e' d' I D'. apply in_app_or in I as [I|[<-|[]]]; [exact (H2 e' d' I D')|].
      apply U in D'. subst d'. left. lia.
    + intros e' d' I D'. apply in_app_or in I as [I|[<-|[]]]; [exact (H e' d' I D')|]. apply U in D'. lia.
Qed.
Lemma find_known table n : match find_entry table n with Some e => Known table n e | None => Unknown table n end.
Proof.
  unfold find_entry. induction table as [|e l IH]; [intros e []|]. cbn [find]. destruct (seq_ (ename e) n) eqn:E.
  - apply seq_eq in E. exists [], l. split; [reflexivity|]. split; [exact E|intros e' []].
  - assert (N : ename e <> n) by (intros Q; apply seq_eq in Q; congruence).
    destruct (find _ l) as [e1|].
    + destruct IH as (l1 & l2 & -> & K & H). exists (e :: l1), l2. split; [reflexivity|]. split; [exact K|].
      intros e' [<-|I]; [exact N|exact (H e' I)].
    + intros e' [<-|I]; [exact N|exact (IH e' I)].
Qed.
Lemma known_find table n e : Known table n e -> find_entry table n = Some e.
Proof.
  intros (l1 & l2 & -> & E & H). unfold find_entry. induction l1 as [|e1 l1 IH]; cbn [app find].
  - rewrite (proj2 (seq_eq _ _) E). reflexivity.
  - destruct (seq_ (ename e1) n) eqn:Q; [apply seq_eq in Q; destruct (H e1 (or_introl eq_refl) Q)|]. apply IH. intros e' I. apply H. right. exact I.
Qed.
Lemma unknown_find table n : Unknown table n -> find_entry table n = None.
Proof.
  intros H. pose proof (find_known table n) as K. destruct (find_entry table n) as [e|]; [|reflexivity].
  destruct K as (l1 & l2 & -> & E & _). destruct (H e); [apply in_or_app; right; left; reflexivity|exact E].
Qed.
(** Names without colons. *)
Lemma normalize_key n : ~ In colon n -> normalize n = key n.
Proof.
  intros H. unfold normalize, key. f_equal. induction n as [|c n IH]; [reflexivity|]. apply nin_cons in H as [N H]. cbn [filter].
  rewrite (proj2 (ceq_neq c colon)) by congruence. cbn [negb]. rewrite (IH H). reflexivity.
Qed.
Lemma key_length n : length (key n) = length n.
Proof. apply map_length. Qed.
Lemma find_best_spec table n : ~ In colon n -> match find_best table n with
  | Some m => (exists e, Known table (key n) e /\ m = ename e) \/ (Unknown table (key n) /\ Nearest 4 table (key n) m)
  | None => Unknown table (key n) /\ Far 4 table (key n)
  end.
Proof.
  intros H. unfold find_best. cbv zeta. rewrite (normalize_key _ H). pose proof (find_known table (key n)) as K.
  destruct (find_entry table (key n)) as [e|]; [left; eauto|].
  assert (C : nearest_in 4 ([] ++ table) (key n) (closest 4 (key n) table None)) by (apply closest_spec; intros e d []).
  cbn [app] in C. destruct (closest 4 (key n) table None) as [[d m]|]; [right; split; [exact K|apply C]|split; [exact K|exact C]].
Qed.
Lemma split_two (A : Type) (l1 : list A) e l2 l1' e' l2' : l1 ++ e :: l2 = l1' ++ e' :: l2' ->
  (e = e') \/ (In e l1' /\ In e' l2) \/ (In e' l1 /\ In e l2').
Proof.
  revert l1'. induction l1 as [|x l1 IH]; intros [|y l1'] H; cbn [app] in H; injection H as -> H.
  - left. reflexivity.
  - right. left. split; [left; reflexivity|rewrite H; apply in_or_app; right; left; reflexivity].
  - right. right. split; [left; reflexivity|rewrite <- H; apply in_or_app; right; left; reflexivity].
  - destruct (IH l1' H) as [->|[[K1 K2]|[K1 K2]]]; [left; reflexivity|right; left; split; [right; exact K1|exact K2]|right; right; split; [right; exact K1|exact K2]].
Qed.
Lemma nearest_unique max table n m m' : Nearest max table n m -> Nearest max table n m' -> m = m'.
Proof.
  intros (l1 & e & l2 & d & E & N & D & L & H1 & H2) (l1' & e' & l2' & d' & E' & N' & D' & L' & H1' & H2').
  rewrite E in E'. destruct (split_two _ _ _ _ _ _ _ E') as [<-|[[K1 K2]|[K1 K2]]]; [congruence|exfalso..].
  - pose proof (H1' e d K1) as A. pose proof (H2 e' d' K2) as C. rewrite N in A. rewrite N' in C. specialize (A D). specialize (C D'). lia.
  - pose proof (H1 e' d' K1) as A. pose proof (H2' e d K2) as C. rewrite N' in A. rewrite N in C. specialize (A D'). specialize (C D). lia.
Qed.
Lemma known_not_unknown table n e : Known table n e -> Unknown table n -> False.
Proof. intros (l1 & l2 & -> & E & _) H. apply (H e); [apply in_or_app; right; left; reflexivity|exact E]. Qed.
Lemma nearest_not_far max table n m : Nearest max table n m -> Far max table n -> False.
Proof.
  intros (l1 & e & l2 & d & -> & <- & D & L & _) H. pose proof (H e d (in_or_app l1 (e :: l2) e (or_intror (or_introl eq_refl))) D). lia.
Qed.
Lemma corrected_unique table n m m' : Corrected table n m -> Corrected table n m' -> m = m'.
Proof.
  destruct 1 as [R|e R K|m R U N|R U F]; destruct 1 as [R'|e' R' K'|m' R' U' N'|R' U' F']; try reflexivity; try contradiction.
  - destruct (known_not_unknown _ _ _ K U').
  - destruct (known_not_unknown _ _ _ K U').
  - destruct (known_not_unknown _ _ _ K' U).
  - exact (nearest_unique _ _ _ _ _ N N').
  - destruct (nearest_not_far _ _ _ _ N F').
  - destruct (known_not_unknown _ _ _ K' U).
  - destruct (nearest_not_far _ _ _ _ N' F).
Qed.

(** * Names between colons *)
Lemma pattern_some r n rest : pattern r = Some (n, rest) <-> r = n ++ colon :: rest /\ ~ In colon n /\ n <> [] /\ length n < 49.
Proof.
  unfold pattern. split.
  - destruct (strchr colon r) as [k|] eqn:E; [|discriminate]. apply strchr_some in E as (a & b & -> & <- & N).
    destruct ((0 <? length a) && (S (length a) <? 50)) eqn:Q; [|discriminate]. apply andb_true_iff in Q as [Q1 Q2].
    apply Nat.ltb_lt in Q1, Q2. rewrite (firstn_app (length a) a), firstn_all, Nat.sub_diag, firstn_O, app_nil_r.
    rewrite skipn_app, skipn_all2 by lia. replace (S (length a) - length a) with 1 by lia. cbn [app skipn].
    injection 1 as <- <-. split; [reflexivity|]. split; [exact N|]. split; [|lia]. intros ->. cbn in Q1. lia.
  - intros (-> & N & E & L). assert (S' : strchr colon (n ++ colon :: rest) = Some (length n)).
    { apply strchr_plain, N. }
    rewrite S'. replace (0 <? length n) with true by (symmetry; apply Nat.ltb_lt; destruct n; [congruence|cbn; lia]).
    replace (S (length n) <? 50) with true by (symmetry; apply Nat.ltb_lt; lia). cbn [andb].
    rewrite (firstn_app (length n) n), firstn_all, Nat.sub_diag, firstn_O, app_nil_r.
    rewrite skipn_app, skipn_all2 by lia. replace (S (length n) - length n) with 1 by lia. reflexivity.
Qed.
Lemma has_any_false l n : has_any l n = false <-> Forall (fun c => ~ In c l) n.
Proof.
  unfold has_any. induction n as [|c n IH]; cbn [existsb]; [split; [constructor|reflexivity]|]. rewrite orb_false_iff, IH.
  split.
  - intros [H1 H2]. constructor; [|exact H2]. intros I. assert (K : existsb (ceq c) l = true) by (apply existsb_exists; exists c; split; [exact I|apply ceq_refl]). congruence.
  - inversion 1 as [|? ? H1 H2]; subst. split; [|exact H2]. destruct (existsb (ceq c) l) eqn:K; [|reflexivity].
    apply existsb_exists in K as (x & I & Q). apply ceq_eq in Q. subst. contradiction.
Qed.
Lemma table_ruler n : ~ In colon n -> (table_pattern n = true <-> ruler n).
Proof.
  unfold table_pattern, ruler. induction n as [|c n IH]; intros N; cbn [forallb]; [split; [constructor|reflexivity]|].
  apply nin_cons in N as [N1 N2]. rewrite andb_true_iff, (IH N2). rewrite (proj2 (ceq_neq c colon)) by congruence. rewrite orb_false_r, orb_true_iff, !ceq_eq.
  split; [intros [H1 H2]; constructor; assumption|inversion 1; subst; split; assumption].
Qed.
(** What the scanners see at a colon. *)
Definition look (blank r : str) : option (str * str) :=
  match pattern r with Some (n, rest) => if has_any blank n then None else Some (n, rest) | None => None end.
Lemma look_some blank r n rest : look blank r = Some (n, rest) <-> r = n ++ colon :: rest /\ word blank n.
Proof.
  unfold look, word. destruct (pattern r) as [[n' rest']|] eqn:E.
  - apply pattern_some in E as (-> & N & Z & L). destruct (has_any blank n') eqn:Q.
    + split; [discriminate|]. intros (E & Z1 & L1 & N1 & F). assert (P : pattern (n' ++ colon :: rest') = Some (n', rest')) by (apply pattern_some; auto).
      assert (P' : pattern (n' ++ colon :: rest') = Some (n, rest)) by (apply pattern_some; auto). rewrite P in P'. injection P' as -> ->.
      apply has_any_false in F. congruence.
    + apply has_any_false in Q. split; [injection 1 as <- <-; auto 10|]. intros (E & Z1 & L1 & N1 & F).
      assert (P : pattern (n' ++ colon :: rest') = Some (n', rest')) by (apply pattern_some; auto).
      assert (P' : pattern (n' ++ colon :: rest') = Some (n, rest)) by (apply pattern_some; auto). rewrite P in P'. injection P' as -> ->. reflexivity.
  - split; [discriminate|]. intros (-> & Z1 & L1 & N1 & F).
    assert (P : pattern (n ++ colon :: rest) = Some (n, rest)) by (apply pattern_some; auto). congruence.
Qed.
Lemma look_none blank r : look blank r = None -> forall n rest, r = n ++ B ":" ++ rest -> ~ word blank n.
Proof. intros H n rest E W. assert (look blank r = Some (n, rest)) by (apply look_some; auto). congruence. Qed.
Lemma tokens_exist blank (ok : str -> Prop) (dec : forall n, {ok n} + {~ ok n}) : (forall n, ok n -> word blank n) -> forall s, exists l, Tokens ok s l.
Proof.
  intros OK s. remember (length s) as k eqn:E. assert (L : length s <= k) by lia. clear E. revert s L.
  induction k as [|k IH]; intros [|c s] L; [exists []; constructor|cbn in L; lia|exists []; constructor|]. cbn [length] in L.
  destruct (ceq c colon) eqn:Ec.
  - apply ceq_eq in Ec. subst c. destruct (look blank s) as [[n rest]|] eqn:Lk.
    + pose proof Lk as Lk'. apply look_some in Lk' as [-> W]. destruct (dec n) as [D|D].
      * destruct (IH rest) as [l Hl]; [rewrite app_length in L; cbn in L; lia|]. exists (Name n :: l).
        replace (colon :: n ++ colon :: rest) with (between n ++ rest) by (unfold between; cbn; rewrite <- app_assoc; reflexivity).
        constructor; assumption.
      * destruct (IH (n ++ colon :: rest)) as [l Hl]; [lia|]. exists (Char colon :: l). constructor; [|exact Hl].
        intros _ n' r' E' W'. assert (look blank (n ++ colon :: rest) = Some (n', r')) by (apply look_some; auto). rewrite Lk in H. injection H as <- <-. contradiction.
    + destruct (IH s) as [l Hl]; [lia|]. exists (Char colon :: l). constructor; [|exact Hl]. intros _ n' r' E' W'. exact (look_none _ _ Lk n' r' E' (OK _ W')).
  - destruct (IH s) as [l Hl]; [lia|]. exists (Char c :: l). constructor; [|exact Hl]. intros ->. unfold colon in Ec. rewrite ceq_refl in Ec. discriminate.
Qed.

(** * A writer that is never full *)
Definition wat (cap : nat) (t : str) : wr := Wr cap t (cap - length t) false.
Lemma wat_put cap t c : length t < cap -> w_put c (wat cap t) = wat cap (t ++ [c]).
Proof.
  intros H. unfold w_put, wat. cbn [w_rem]. rewrite (proj2 (Nat.ltb_lt 0 _)) by lia. unfold w_set_rem, w_store. cbn.
  rewrite app_length. cbn. f_equal; [lia|]. apply Nat.ltb_ge. lia.
Qed.
Lemma wat_lt cap t s : length t + length s < cap -> w_puts_lt s (wat cap t) = wat cap (t ++ s).
Proof.
  intros H. unfold w_puts_lt, wat. cbn [w_rem]. rewrite (proj2 (Nat.ltb_lt _ _)) by lia. unfold w_set_rem, w_store. cbn.
  rewrite app_length. f_equal; [lia|]. destruct s; [reflexivity|]. apply Nat.ltb_ge. lia.
Qed.
Lemma wat_le cap t s : length t + length s <= cap -> w_puts_le s (wat cap t) = wat cap (t ++ s).
Proof.
  intros H. unfold w_puts_le, wat. cbn [w_rem]. rewrite (proj2 (Nat.leb_le _ _)) by lia. unfold w_set_rem, w_store. cbn.
  rewrite app_length. f_equal; [lia|]. destruct s; [reflexivity|]. apply Nat.ltb_ge. lia.
Qed.
Lemma wat_finish cap t : length t < cap -> finish (Some (wat cap t)) = Out t.
Proof. intros H. unfold finish, w_term, wat. cbn. rewrite (proj2 (Nat.leb_gt _ _)) by lia. reflexivity. Qed.
Lemma wat_new cap : w_new cap cap = wat cap [].
Proof. unfold w_new, wat. cbn. rewrite Nat.sub_0_r. reflexivity. Qed.

(** * Autocorrection *)
Definition one_byte (table : list entry) : Prop := exists e x, In e table /\ ename e = [x].
Definition corrected (table : list entry) (n x : str) : Prop := exists m, Corrected table n m /\ x = between m.
Lemma corrected_length table n m : one_byte table -> n <> [] -> Corrected table n m -> length m <= 2 * length n.
Proof.
  intros (e1 & x & I1 & N1) Z. destruct 1 as [R|e R K|m R U N|R U F]; [lia|rewrite key_length; lia| |lia].
  destruct N as (l1 & e & l2 & d & E & N & D & L & H1 & H2). destruct D as [D D'].
  assert (K : d <= length (key n)).
  { destruct (key n) as [|c k] eqn:Q; [destruct n; [congruence|discriminate]|]. 
    destruct (levenshtein_distance (c :: k) [x]) as [X1 X2]. specialize (X2 _ (edit_one c k x)). cbn [length].
    assert (X3 : Distance (levenshtein (c :: k) [x]) (c :: k) (ename e1)) by (rewrite N1; apply levenshtein_distance).
    rewrite E in I1. apply in_app_or in I1 as [I1|[I1|I1]].
    - destruct (H1 e1 _ I1 X3) as [Y|[Y _]]; lia.
    - subst e1. pose proof (D' (S (length k))) as Y. rewrite <- N, N1 in Y. apply Y, edit_one.
    - destruct (H2 e1 _ I1 X3) as [Y|[Y _]]; lia. }
  apply edit_length in D. rewrite key_length in *. lia.
Qed.
Lemma found_corrected table n : word blanks n -> table_pattern n = false ->
  Corrected table n (match (match find_entry table (normalize n) with Some _ => Some (normalize n) | None => find_best table n end) with Some m => m | None => n end).
Proof.
  intros (Z & L & N & F) T. assert (R : ~ ruler n) by (intros R; apply (table_ruler n N) in R; congruence).
  rewrite (normalize_key _ N). pose proof (find_known table (key n)) as K. destruct (find_entry table (key n)) as [e|]; [apply (C_known _ _ e); assumption|].
  pose proof (find_best_spec table n N) as H. destruct (find_best table n) as [m|].
  - destruct H as [(e & H & _)|[H1 H2]]; [destruct (known_not_unknown _ _ _ H K)|]. apply C_near; assumption.
  - destruct H. apply C_far; assumption.
Qed.
Lemma corrected_ruler table n : table_pattern n = true -> word blanks n -> Corrected table n n.
Proof. intros T (Z & L & N & F). apply C_ruler, (table_ruler n N), T. Qed.
Lemma colons_length n : length (colons n) = length n + 2.
Proof. unfold colons. cbn. rewrite app_length. cbn. lia. Qed.
Lemma between_length n : length (between n) = length n + 2.
Proof. apply (colons_length n). Qed.
Lemma correct_tokens table cap s l : one_byte table -> Tokens (word blanks) s l -> forall t, Meaning (corrected table) l t ->
  forall fuel p, length s < fuel -> length p + 2 * length s <= cap -> (s = [] -> length p < cap) ->
  correct table fuel s (wat cap p) = Some (wat cap (p ++ t)) /\ length (p ++ t) < cap.
Proof.
  intros O. induction 1 as [|c s l C H IH|n s l W H IH]; intros t M fuel p Lf Lc Le; inversion M as [|? ? t' M'|? x ? t' R M']; subst;
    (destruct fuel as [|fuel]; [cbn [length] in Lf; lia|]).
  - rewrite app_nil_r. split; [reflexivity|]. apply Le. reflexivity.
  - cbn [length] in Lf, Lc. specialize (IH t' M' fuel (p ++ [c])). rewrite app_length in IH. cbn [length] in IH.
    assert (P : correct table fuel s (w_put c (wat cap p)) = Some (wat cap (p ++ c :: t')) /\ length (p ++ c :: t') < cap).
    { rewrite wat_put by lia. rewrite <- !app_assoc in IH. apply IH; lia. }
    cbn [correct]. cbv zeta. destruct (ceq c colon) eqn:Ec; [|exact P]. apply ceq_eq in Ec. subst c.
    destruct (pattern s) as [[n rest]|] eqn:Ep; [|exact P]. destruct (has_any [SP; TAB; NL] n) eqn:Q; [exact P|exfalso].
    apply pattern_some in Ep as (-> & N & Z & L). apply has_any_false in Q. apply (C eq_refl n rest eq_refl). split; auto.
  - destruct R as (m & R & ->). assert (Lm : length m <= 2 * length n) by (apply (corrected_length table); [exact O|apply W|exact R]).
    rewrite app_length, between_length in Lf, Lc.
    specialize (IH t' M' fuel (p ++ colons m)). rewrite app_length, colons_length in IH.
    replace (p ++ between m ++ t') with ((p ++ colons m) ++ t') by (rewrite <- app_assoc; reflexivity).
    unfold between. change (B ":" ++ n ++ B ":") with (":"%char :: n ++ [":"%char]). cbn [app]. rewrite <- app_assoc. cbn [app correct]. cbv zeta.
    change (ceq ":" colon) with true. cbv iota. pose proof W as (Z & L & N & F).
    rewrite (proj2 (pattern_some (n ++ ":"%char :: s) n s)) by auto. cbv iota beta.
    change [SP; TAB; NL] with blanks. rewrite (proj2 (has_any_false _ _) F). destruct (table_pattern n) eqn:T.
    + rewrite (corrected_unique _ _ _ _ R (corrected_ruler table n T W)) in *. rewrite wat_lt by (rewrite colons_length; lia). apply IH; lia.
    + pose proof (found_corrected table n W T) as K. rewrite (corrected_unique _ _ _ _ R K) in *. clear R K.
      destruct (match find_entry table (normalize n) with Some _ => Some (normalize n) | None => find_best table n end) as [x|].
      * cbn [wat w_rem]. rewrite (proj2 (Nat.leb_le _ _)) by lia. rewrite wat_le by (rewrite colons_length; lia). apply IH; lia.
      * rewrite wat_lt by (rewrite colons_length; lia). apply IH; lia.
Qed.
Lemma autocorrect_tokens table text l t : one_byte table -> text <> [] -> Tokens (word blanks) text l -> Meaning (corrected table) l t -> autocorrect table text = Out t.
Proof.
  intros O Z T M. unfold autocorrect. cbv zeta. rewrite wat_new.
  destruct (correct_tokens table (length text * 2) text l O T t M (S (length text)) []) as [E L]; [lia|cbn; lia|congruence|].
  rewrite E. cbn [app] in *. apply wat_finish, L.
Qed.
Lemma word_dec blank n : {word blank n} + {~ word blank n}.
Proof.
  destruct (look blank (n ++ [colon])) as [[n' r]|] eqn:E.
  - pose proof E as E'. apply look_some in E' as [E' W]. destruct (list_eq_dec ascii_dec n n') as [<-|D]; [left; exact W|right].
    intros W'. assert (look blank (n ++ [colon]) = Some (n, [])) by (apply look_some; auto). congruence.
  - right. apply (look_none _ _ E n []). reflexivity.
Qed.
Lemma corrected_exists table n : word blanks n -> exists x, corrected table n x.
Proof.
  intros W. destruct (table_pattern n) eqn:T; [exists (between n), n; split; [apply corrected_ruler; assumption|reflexivity]|].
  eexists. eexists. split; [apply (found_corrected table n W T)|reflexivity].
Qed.
Lemma meaning_exists (ok : str -> Prop) R s l : (forall n, ok n -> exists x, R n x) -> Tokens ok s l -> exists t, Meaning R l t.
Proof.
  intros H. induction 1 as [|c s l C T [t IH]|n s l W T [t IH]]; [exists []; constructor|exists (c :: t); constructor; exact IH|].
  destruct (H n W) as [x Hx]. exists (x ++ t). constructor; assumption.
Qed.
