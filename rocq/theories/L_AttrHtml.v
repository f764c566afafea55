(** Lemmas on attributes in tags. *)
From Verif Require Import Base BaseL M_Attr S_Attr L_Put L_Attr.
From Verif Require L_Highlight.

(** ** Pieces: at most the first bytes of each are written, if there is room. *)
Definition run (l : list (nat * str)) (w : wr) : wr := fold_left (fun w p => w_puts_lt (firstn (fst p) (snd p)) w) l w.
Definition whole (l : list (nat * str)) : str := concat (map snd l).
Lemma run_app l m w : run (l ++ m) w = run m (run l w).
Proof. apply fold_left_app. Qed.
Lemma puts_pos s w : 0 < w_rem w -> 0 < w_rem (w_puts_lt s w).
Proof. unfold w_puts_lt. destruct (Nat.ltb_spec (length s) (w_rem w)); cbn [w_set_rem w_rem]; lia. Qed.
Lemma run_ok l : forall w, w_ok w -> 0 < w_rem w -> w_ok (run l w) /\ 0 < w_rem (run l w) /\ w_cap (run l w) = w_cap w.
Proof.
  induction l as [|p l IH]; intros w R P; [auto|]. cbn [run fold_left]. destruct (IH (w_puts_lt (firstn (fst p) (snd p)) w)) as (H1 & H2 & H3); [now apply w_puts_lt_ok|now apply puts_pos|].
  split; [exact H1|]. split; [exact H2|]. etransitivity; [exact H3|]. apply w_puts_lt_cap.
Qed.
Lemma puts_out s w : exists x, w_out (w_puts_lt s w) = w_out w ++ x /\ (x = s \/ x = [] /\ w_rem w <= length s).
Proof.
  unfold w_puts_lt. destruct (Nat.ltb_spec (length s) (w_rem w)); [exists s|exists []]; cbn [w_set_rem w_out w_store].
  - auto.
  - rewrite app_nil_r. auto.
Qed.
Lemma run_len l : forall w, length (w_out (run l w)) <= length (w_out w) + length (whole l).
Proof.
  induction l as [|p l IH]; intro w; [cbn; lia|]. change (run (p :: l) w) with (run l (w_puts_lt (firstn (fst p) (snd p)) w)). etransitivity; [apply IH|].
  destruct (puts_out (firstn (fst p) (snd p)) w) as (x & -> & H). change (whole (p :: l)) with (snd p ++ whole l). rewrite !app_length.
  assert (length x <= length (snd p)); [|lia]. destruct H as [->|[-> _]]; [rewrite firstn_length; lia|cbn; lia].
Qed.
Lemma run_exact l : forall w, w_ok w -> 0 < w_rem w ->
  (w_out (run l w) = w_out w ++ whole l <-> Forall (fun p => length (snd p) <= fst p) l /\ length (whole l) < w_rem w).
Proof.
  induction l as [|p l IH]; intros w R P.
  - cbn. rewrite app_nil_r. split; auto.
  - change (run (p :: l) w) with (run l (w_puts_lt (firstn (fst p) (snd p)) w)). change (whole (p :: l)) with (snd p ++ whole l). set (x := firstn (fst p) (snd p)).
    assert (R1 := w_puts_lt_ok x w R). assert (P1 := puts_pos x w P). specialize (IH _ R1 P1). split.
    + intro E. destruct (puts_out x w) as (y & Ey & Hy).
      pose proof (run_len l (w_puts_lt x w)) as L. rewrite E, Ey, !app_length in L.
      assert (Lx : length x <= length (snd p)) by (unfold x; rewrite firstn_length; lia).
      assert (Fx : length x = length (snd p) /\ y = x).
      { destruct Hy as [->|[-> H]]; [split; [lia|reflexivity]|]. cbn [length] in L. assert (length (snd p) = 0) as Z by lia. exfalso. lia. }
      destruct Fx as [Fx ->]. assert (Ef : length (snd p) <= fst p) by (unfold x in Fx; rewrite firstn_length in Fx; lia).
      assert (Ex : x = snd p) by (unfold x; now apply firstn_all2). rewrite Ey, Ex, <- app_assoc in IH. rewrite Ex in *. apply IH in E. destruct E as [F Lw]. split; [now constructor|].
      destruct R as [R _], R1 as [R1 _]. rewrite w_puts_lt_cap, Ey, app_length in R1. rewrite app_length. lia.
    + intros [F L]. inversion F as [|? ? Fp F']; subst. rewrite app_length in L. assert (Ex : x = snd p) by (unfold x; now apply firstn_all2). rewrite Ex in *.
      rewrite puts_lt_room in * by (auto; lia). rewrite put_out_rem in IH. destruct IH as [_ IH]. rewrite IH by (split; [exact F'|lia]). cbn [put_out w_out]. now rewrite <- app_assoc.
Qed.
(** ** The pieces of a tag *)
Definition uncut (s : str) : nat * str := (length s, s).
Fixpoint pair_pieces (first : bool) (l : list (str * str)) : list (nat * str) :=
  match l with [] => [] | kv :: l => (1023, emit first (fst kv) (snd kv)) :: pair_pieces false l end.
Definition id_pieces (id : option str) : list (nat * str) := match id with Some x => [(511, emit true (B "id") x)] | None => [] end.
Fixpoint name_pieces (first : bool) (l : list str) : list (nat * str) :=
  match l with [] => [] | x :: l => (if first then [] else [uncut [SP]]) ++ uncut x :: name_pieces false l end.
Definition class_pieces (first : bool) (l : list str) : list (nat * str) :=
  match l with [] => [] | _ => uncut ((if first then [] else [SP]) ++ B "class=" ++ [DQ]) :: name_pieces true l ++ [uncut [DQ]] end.
Lemma run_uncut s l w : run (uncut s :: l) w = run l (w_puts_lt s w).
Proof. cbn [run fold_left uncut fst snd]. now rewrite firstn_all. Qed.
Lemma put_classes_run l : forall first w, put_classes first l w = run (name_pieces first l) w.
Proof.
  induction l as [|x l IH]; intros first w; [reflexivity|]. cbn [put_classes name_pieces]. rewrite IH. destruct first; cbn [app]; now rewrite !run_uncut.
Qed.
Definition isnil {A} (l : list A) : bool := match l with [] => true | _ => false end.
Lemma html_classes_run a st : html_classes a st = ((fst st && isnil (a_classes a))%bool, run (class_pieces (fst st) (a_classes a)) (snd st)).
Proof.
  unfold html_classes, class_pieces. destruct (a_classes a) as [|x l]; [cbn [isnil run fold_left]; rewrite Bool.andb_true_r; now destruct st|]. cbn [isnil]. rewrite Bool.andb_false_r. f_equal.
  rewrite run_uncut, run_app, run_uncut, put_classes_run. reflexivity.
Qed.
Lemma html_id_run a w : html_id a (true, w) = (match a_id a with Some _ => false | None => true end, run (id_pieces (a_id a)) w).
Proof. unfold html_id. destruct (a_id a); reflexivity. Qed.
Lemma add_run k v st : add 1024 k v st = (false, run (pair_pieces (fst st) [(k, v)]) (snd st)).
Proof. reflexivity. Qed.
Lemma pair_pieces_app l m first : pair_pieces first (l ++ m) = pair_pieces first l ++ pair_pieces (first && isnil l) m.
Proof.
  revert first. induction l as [|x l IH]; intro first; cbn [app pair_pieces isnil]; [now rewrite Bool.andb_true_r|]. rewrite IH, Bool.andb_false_r. reflexivity.
Qed.
(** ** Sizes *)
Lemma is_size_iff k : is_size k = true <-> size_key k.
Proof. unfold is_size, size_key. now rewrite Bool.orb_true_iff, !seq_eq. Qed.
Lemma digits_forall n : forallb isdigit n = true <-> digits n.
Proof. apply forallb_forall. Qed.
Lemma ends_px_iff v : ends_px v = true <-> exists n, v = n ++ B "px".
Proof.
  unfold ends_px. rewrite !Bool.andb_true_iff, !ceq_eq, Nat.leb_le. split.
  - intros [[L E1] E2]. exists (firstn (length v - 2) v). rewrite <- (firstn_skipn (length v - 2) v) at 1. f_equal.
    assert (Ls : length (skipn (length v - 2) v) = 2) by (rewrite skipn_length; lia). destruct (skipn (length v - 2) v) as [|x [|y [|z r]]] eqn:E; try discriminate. clear Ls.
    assert (X : forall i, at_ v (length v - 2 + i) = at_ [x; y] i). { intro i. rewrite <- E. unfold at_. rewrite <- (firstn_skipn (length v - 2) v) at 2. rewrite app_nth2; rewrite firstn_length; [f_equal; lia|lia]. }
    pose proof (X 0) as X0. pose proof (X 1) as X1. rewrite Nat.add_0_r in X0. replace (length v - 2 + 1) with (length v - 1) in X1 by lia. rewrite E1 in X0. rewrite E2 in X1. cbn in X0, X1. now subst.
  - intros [n ->]. rewrite app_length. cbn [length B list_ascii_of_string]. unfold at_. rewrite !app_nth2 by lia. replace (length n + 2 - 2 - length n) with 0 by lia. replace (length n + 2 - 1 - length n) with 1 by lia. cbn. repeat split. lia.
Qed.
Lemma px_cut n : firstn (length (n ++ B "px") - 2) (n ++ B "px") = n.
Proof. rewrite app_length. cbn [length B list_ascii_of_string]. replace (length n + 2 - 2) with (length n) by lia. rewrite firstn_app, firstn_all, Nat.sub_diag. cbn [firstn]. now rewrite app_nil_r. Qed.
Lemma digits_not_px n m : digits n -> n <> m ++ B "px".
Proof. intros D ->. assert (isdigit "x" = true) by (apply D; apply in_or_app; right; cbn; tauto). discriminate. Qed.
Lemma size_exists v : exists z, size_of v z.
Proof.
  destruct (ends_px v && forallb isdigit (firstn (length v - 2) v))%bool eqn:E1.
  - apply Bool.andb_true_iff in E1. destruct E1 as [E1 E2]. apply ends_px_iff in E1. destruct E1 as [n ->]. rewrite px_cut in E2. exists (Pixels n). split; [now apply digits_forall|auto].
  - destruct (forallb isdigit v) eqn:E2; [exists (Pixels v); split; [now apply digits_forall|auto]|]. exists (Style v). split; [reflexivity|]. intros (n & D & [->| ->]).
    + apply digits_forall in D. congruence.
    + apply digits_forall in D. rewrite px_cut, D in E1. assert (ends_px (n ++ B "px") = true) as Z by (apply ends_px_iff; now exists n). rewrite Z in E1. discriminate.
Qed.
Lemma sizes_exist l : exists p s, sizes l p s.
Proof.
  induction l as [|[k v] l (p & s & IH)]; [exists [], []; constructor|]. destruct (is_size k) eqn:E.
  - apply is_size_iff in E. destruct (size_exists v) as [[n|v'] H].
    + exists ((k, n) :: p), s. now constructor.
    + exists p, ((k, v) :: s). pose proof H as [-> _]. now constructor.
  - exists p, s. constructor; auto. intro H. apply is_size_iff in H. congruence.
Qed.
(** The style buffer *)
Definition style_add (kv : str * str) (y : sty) : sty :=
  let y := s_cat (snd kv) (s_cat (B ": ") (s_cat (fst kv) (if s_has y then s_cat (B "; ") y else y))) in Sty (s_text y) true (s_bad y).
Lemma html_size_pixels k v n st y : size_key k -> digits n -> v = n \/ v = n ++ B "px" ->
  html_size (k, v) (st, y) = (add 1024 k n st, Sty (s_text y) (s_has y) (s_bad y || (ends_px v && Nat.leb 64 (length n)))%bool).
Proof.
  intros K D H. unfold html_size. apply is_size_iff in K. rewrite K. destruct H as [->| ->].
  - assert (ends_px n = false) as ->. { destruct (ends_px n) eqn:E; [|reflexivity]. apply ends_px_iff in E. destruct E as [m E]. now apply (digits_not_px n m) in D. }
    apply digits_forall in D. rewrite D. cbn [andb negb]. rewrite Bool.orb_false_r. now destruct y.
  - assert (ends_px (n ++ B "px") = true) as -> by (apply ends_px_iff; now exists n). rewrite px_cut. apply digits_forall in D. rewrite D. cbn [andb]. do 2 f_equal. rewrite app_length. cbn [length B list_ascii_of_string]. do 2 f_equal. lia.
Qed.
Lemma html_size_style k v st y : size_key k -> size_of v (Style v) -> html_size (k, v) (st, y) = (st, style_add (k, v) y).
Proof.
  intros K [_ N]. unfold html_size. apply is_size_iff in K. rewrite K.
  assert ((ends_px v && forallb isdigit (firstn (length v - 2) v))%bool = false) as ->.
  { destruct (_ && _)%bool eqn:E; [|reflexivity]. apply Bool.andb_true_iff in E. destruct E as [E1 E2]. apply ends_px_iff in E1. destruct E1 as [n ->]. rewrite px_cut in E2. exfalso. apply N. exists n. split; [now apply digits_forall|auto]. }
  assert ((negb (ends_px v) && forallb isdigit v)%bool = false) as ->; [|reflexivity].
  destruct (_ && _)%bool eqn:E; [|reflexivity]. apply Bool.andb_true_iff in E. destruct E as [_ E2]. exfalso. apply N. exists v. split; [now apply digits_forall|auto].
Qed.
Definition long_px (l : list (str * str)) : bool := existsb (fun kv => is_size (fst kv) && ends_px (snd kv) && forallb isdigit (firstn (length (snd kv) - 2) (snd kv)) && Nat.leb 64 (length (snd kv) - 2))%bool l.
Definition mark (b : bool) (y : sty) : sty := Sty (s_text y) (s_has y) (s_bad y || b)%bool.
Lemma style_add_mark kv b y : style_add kv (mark b y) = mark b (style_add kv y).
Proof. unfold style_add, mark. destruct y as [t h d]. cbn [s_has s_text s_bad]. destruct h; unfold s_cat; cbn [s_text s_bad]; f_equal; destruct b, d; cbn [orb]; rewrite ?Bool.orb_true_r, ?Bool.orb_false_r; reflexivity. Qed.
Lemma fold_mark s b : forall y, fold_left (fun y kv => style_add kv y) s (mark b y) = mark b (fold_left (fun y kv => style_add kv y) s y).
Proof. induction s as [|kv s IH]; intro y; [reflexivity|]. cbn [fold_left]. now rewrite style_add_mark. Qed.
Lemma mark_mark a b y : mark a (mark b y) = mark (b || a) y.
Proof. unfold mark. cbn. now rewrite Bool.orb_assoc. Qed.
Lemma html_sizes_run l p s : sizes l p s -> forall st y,
  html_sizes l (st, y) = ((fst st && isnil p)%bool, run (pair_pieces (fst st) p) (snd st), mark (long_px l) (fold_left (fun y kv => style_add kv y) s y)).
Proof.
  unfold html_sizes. induction 1 as [|k v l p s N H IH|k v n l p s K Z H IH|k v l p s K Z H IH]; intros st y; cbn [fold_left].
  - unfold mark. destruct st as [f w], y as [t h d]. cbn. now rewrite Bool.andb_true_r, Bool.orb_false_r.
  - assert (E : is_size k = false) by (destruct (is_size k) eqn:E; [apply is_size_iff in E; tauto|reflexivity]). assert (html_size (k, v) (st, y) = (st, y)) as -> by (unfold html_size; now rewrite E). rewrite IH. unfold long_px. cbn [existsb fst snd]. now rewrite E.
  - destruct Z as [D V]. rewrite (html_size_pixels k v n) by auto. rewrite IH, add_run. cbn [fst snd isnil pair_pieces]. rewrite !Bool.andb_false_r. cbn [andb]. f_equal.
    change (Sty (s_text y) (s_has y) (s_bad y || (ends_px v && Nat.leb 64 (length n)))) with (mark (ends_px v && Nat.leb 64 (length n)) y). rewrite fold_mark, mark_mark. f_equal. unfold long_px. cbn [existsb fst snd]. f_equal.
    apply is_size_iff in K. rewrite K. cbn [andb]. destruct V as [->| ->].
    + assert (ends_px n = false) as ->; [|reflexivity]. destruct (ends_px n) eqn:E; [|reflexivity]. apply ends_px_iff in E. destruct E as [m E]. now apply (digits_not_px n m) in D.
    + rewrite px_cut. apply digits_forall in D. rewrite D. assert (ends_px (n ++ B "px") = true) as -> by (apply ends_px_iff; now exists n). cbn [andb]. rewrite app_length. cbn [length B list_ascii_of_string]. f_equal. lia.
  - rewrite html_size_style by auto. rewrite IH. cbn [fold_left]. f_equal. f_equal. unfold long_px. cbn [existsb fst snd].
    assert ((is_size k && ends_px v && forallb isdigit (firstn (length v - 2) v) && Nat.leb 64 (length v - 2))%bool = false) as ->; [|reflexivity].
    destruct (ends_px v && forallb isdigit (firstn (length v - 2) v))%bool eqn:E; [|rewrite <- Bool.andb_assoc with (b1 := is_size k), E, Bool.andb_false_r; reflexivity].
    apply Bool.andb_true_iff in E. destruct E as [E1 E2]. apply ends_px_iff in E1. destruct E1 as [n ->]. rewrite px_cut in E2. exfalso. apply (proj2 Z). exists n. split; [now apply digits_forall|auto].
Qed.
Lemma long_px_iff l : long_px l = false <-> short_pixels l.
Proof.
  unfold short_pixels. split.
  - intros E k n I K D. destruct (Nat.le_gt_cases (length n) 63) as [H|H]; [exact H|]. exfalso.
    assert (long_px l = true); [|congruence]. apply existsb_exists. exists (k, n ++ B "px"). split; [exact I|]. cbn [fst snd]. apply is_size_iff in K. rewrite K, px_cut. apply digits_forall in D. rewrite D.
    assert (ends_px (n ++ B "px") = true) as -> by (apply ends_px_iff; now exists n). cbn [andb]. apply Nat.leb_le. rewrite app_length. cbn [length B list_ascii_of_string]. lia.
  - intro H. destruct (long_px l) eqn:E; [|reflexivity]. apply existsb_exists in E. destruct E as ([k v] & I & E). cbn [fst snd] in E. rewrite !Bool.andb_true_iff in E. destruct E as [[[E1 E2] E3] E4].
    apply is_size_iff in E1. apply ends_px_iff in E2. destruct E2 as [n ->]. rewrite px_cut in E3. apply digits_forall in E3. apply Nat.leb_le in E4. rewrite app_length in E4. cbn [length B list_ascii_of_string] in E4. specialize (H k n I E1 E3). lia.
Qed.
Lemma join_merge sep t d ds : join sep ((t ++ sep ++ d) :: ds) = join sep (t :: d :: ds).
Proof. destruct ds as [|x ds]; [reflexivity|]. cbn [join]. now rewrite <- !app_assoc. Qed.
Definition old_style (y : sty) : list str := if s_has y then [s_text y] else [].
Lemma style_add_spec kv y : (s_has y = false -> s_text y = []) ->
  s_text (style_add kv y) = join (B "; ") (old_style y ++ [declaration kv]) /\ s_has (style_add kv y) = true /\
  (s_bad (style_add kv y) = true <-> s_bad y = true \/ 1024 <= length (s_text (style_add kv y))) /\ length (s_text y) <= length (s_text (style_add kv y)).
Proof.
  intro H. unfold style_add, old_style, declaration. destruct y as [t h b]. cbn [s_has s_text s_bad] in *. destruct h.
  - unfold s_cat. cbn [s_text s_bad app join]. split; [now rewrite <- !app_assoc|]. split; [reflexivity|]. rewrite !Bool.orb_true_iff, !Nat.leb_le, !app_length. split; lia || (split; [lia|lia]).
  - rewrite H by reflexivity. unfold s_cat. cbn [s_text s_bad app join length]. split; [now rewrite <- !app_assoc|]. split; [reflexivity|]. rewrite !Bool.orb_true_iff, !Nat.leb_le, !app_length. split; lia || (split; [lia|lia]).
Qed.
Lemma style_fold s : forall y, (s_has y = false -> s_text y = []) ->
  let y' := fold_left (fun y kv => style_add kv y) s y in
  s_text y' = join (B "; ") (old_style y ++ map declaration s) /\ s_has y' = (s_has y || negb (isnil s))%bool /\
  (s_bad y' = true <-> s_bad y = true \/ s <> [] /\ 1024 <= length (s_text y')) /\ length (s_text y) <= length (s_text y').
Proof.
  induction s as [|kv s IH]; intros y H; cbn [fold_left map isnil negb].
  - cbn zeta. rewrite app_nil_r, Bool.orb_false_r. unfold old_style. split; [destruct (s_has y) eqn:E; [reflexivity|now rewrite H]|]. split; [reflexivity|]. split; [intuition congruence|lia].
  - destruct (style_add_spec kv y H) as (T & Hs & Bd & L). specialize (IH (style_add kv y)). rewrite Hs in IH. destruct IH as (T' & Hs' & Bd' & L'); [discriminate|].
    cbn zeta. split; [|split; [now rewrite Hs', Bool.orb_true_r|split; [|lia]]].
    + rewrite T'. unfold old_style at 1. rewrite Hs, T. unfold old_style. destruct (s_has y); cbn [app join]; [apply join_merge|reflexivity].
    + rewrite Bd', Bd. split.
      * intros [[A|A]|[_ A]]; [now left|right; split; [discriminate|lia]|right; split; [discriminate|exact A]].
      * intros [A|[_ A]]; [tauto|]. destruct s as [|d s]; [cbn [fold_left] in A; tauto|right; split; [discriminate|exact A]].
Qed.
Lemma find_first k l : find (fun p : str * str => seq_ (fst p) k) l = find (fun p => if list_eq_dec ascii_dec (fst p) k then true else false) l.
Proof. induction l as [|p l IH]; [reflexivity|]. cbn [find]. now rewrite seq_dec, IH. Qed.
Definition given (l : list (str * str)) : list str := match first_value (B "style") l with Some (c :: v) => [c :: v] | _ => [] end.
Lemma style0_spec a : let y := html_style0 a in (s_has y = false -> s_text y = []) /\ s_bad y = false /\ s_has y = negb (isnil (given (a_pairs a))) /\
  old_style y = match first_value (B "style") (a_pairs a) with Some (c :: v) => [firstn 1023 (c :: v)] | _ => [] end.
Proof.
  unfold html_style0, given, first_value, old_style. rewrite find_first. destruct (find _ (a_pairs a)) as [[k [|c v]]|]; cbn [snd s_has s_text s_bad isnil negb]; repeat split; auto; discriminate.
Qed.
Lemma firstn_pre n (p f z : str) : n <= length (p ++ f) -> firstn n (p ++ f ++ z) = firstn n (p ++ f).
Proof. intro L. rewrite app_assoc, firstn_app. replace (n - length (p ++ f)) with 0 by lia. now rewrite app_nil_r. Qed.
Lemma cut_style first x d : firstn 1023 (emit first (B "style") (join (B "; ") (firstn 1023 x :: d))) = firstn 1023 (emit first (B "style") (join (B "; ") (x :: d))).
Proof.
  destruct (Nat.le_gt_cases (length x) 1023) as [L|L]; [now rewrite (firstn_all2 x)|].
  assert (J : forall y, exists z, join (B "; ") (y :: d) = y ++ z) by (intro y; destruct d; [exists []; now rewrite app_nil_r|eexists; reflexivity]).
  destruct (J (firstn 1023 x)) as [z1 ->]. destruct (J x) as [z2 ->]. unfold emit. set (p := (if first then [] else [SP])). set (f := firstn 1023 x).
  assert (Lf : length f = 1023) by (unfold f; rewrite firstn_length; lia).
  replace (p ++ B "style" ++ B "=" ++ [DQ] ++ (f ++ z1) ++ [DQ]) with ((p ++ B "style" ++ B "=" ++ [DQ]) ++ f ++ z1 ++ [DQ]) by now rewrite <- !app_assoc.
  replace (p ++ B "style" ++ B "=" ++ [DQ] ++ (x ++ z2) ++ [DQ]) with ((p ++ B "style" ++ B "=" ++ [DQ]) ++ f ++ skipn 1023 x ++ z2 ++ [DQ]).
  2:{ rewrite <- !app_assoc. do 4 f_equal. rewrite app_assoc. unfold f. now rewrite firstn_skipn, !app_assoc. }
  rewrite !firstn_pre; [reflexivity| |]; rewrite app_length; lia.
Qed.
Lemma html_style_run a p s : sizes (a_pairs a) p s -> forall st,
  html_style (mark (long_px (a_pairs a)) (fold_left (fun y kv => style_add kv y) s (html_style0 a))) st =
  ((fst st && isnil (style_of (a_pairs a) s))%bool, run (pair_pieces (fst st) (style_of (a_pairs a) s)) (snd st)).
Proof.
  intros _ st. destruct (style0_spec a) as (H0 & _ & H1 & H2). destruct (style_fold s (html_style0 a) H0) as (T & Hs & _). unfold html_style, mark. cbn [s_has s_text]. rewrite Hs, T, H1, H2.
  unfold style_of, declarations, given. destruct (first_value (B "style") (a_pairs a)) as [[|c v]|]; cbn [isnil negb orb app]; [|rewrite Bool.andb_false_r; unfold add, snprintf; change (1024 - 1) with 1023; f_equal; cbn [pair_pieces run fold_left fst snd]; rewrite cut_style; reflexivity|].
  - destruct s as [|d s]; cbn [isnil negb map]; [rewrite Bool.andb_true_r; now destruct st|rewrite Bool.andb_false_r; reflexivity].
  - destruct s as [|d s]; cbn [isnil negb map]; [rewrite Bool.andb_true_r; now destruct st|rewrite Bool.andb_false_r; reflexivity].
Qed.
Lemma plain_iff k : plain_key k = negb (is_size k || seq_ k (B "style") || hidden k).
Proof.
  unfold plain_key. destruct (in_dec _ k _) as [I|I]; symmetry.
  - apply Bool.negb_false_iff. apply in_app_or in I. destruct I as [I|I].
    + cbn in I. destruct I as [<-|[<-|[<-|[]]]]; reflexivity.
    + apply Bool.orb_true_iff. right. apply existsb_exists. change meaning with markers in I. apply in_map_iff in I. destruct I as (q & E & I). exists q. split; [exact I|]. apply seq_eq. now symmetry.
  - apply Bool.negb_true_iff. destruct (_ || _)%bool eqn:E; [|reflexivity]. exfalso. apply I. apply in_or_app. apply Bool.orb_true_iff in E. destruct E as [E|E].
    + left. apply Bool.orb_true_iff in E. destruct E as [E|E]; [apply is_size_iff in E; destruct E as [->| ->]; cbn; tauto|apply seq_eq in E; subst; cbn; tauto].
    + right. apply existsb_exists in E. destruct E as (q & J & E). apply seq_eq in E. subst k. change meaning with markers. now apply in_map.
Qed.
Lemma html_other_run l : forall st, fold_left (fun st kv => html_other kv st) l st =
  ((fst st && isnil (filter (fun kv => plain_key (fst kv)) l))%bool, run (pair_pieces (fst st) (filter (fun kv => plain_key (fst kv)) l)) (snd st)).
Proof.
  induction l as [|[k v] l IH]; intro st; cbn [fold_left filter fst snd].
  - rewrite Bool.andb_true_r. now destruct st.
  - rewrite IH. unfold html_other. cbn [fst snd]. rewrite plain_iff. destruct (is_size k || seq_ k (B "style") || hidden k)%bool; cbn [negb]; [reflexivity|]. rewrite add_run. cbn [fst snd isnil andb pair_pieces]. now rewrite Bool.andb_false_r.
Qed.
Definition all_pieces (a : attrs) (p s : list (str * str)) : list (nat * str) :=
  let f1 := match a_id a with Some _ => false | None => true end in
  id_pieces (a_id a) ++ class_pieces f1 (a_classes a) ++ pair_pieces (f1 && isnil (a_classes a)) (p ++ style_of (a_pairs a) s ++ filter (fun kv => plain_key (fst kv)) (a_pairs a)).
Lemma in_buffers_iff a s : s_bad (mark (long_px (a_pairs a)) (fold_left (fun y kv => style_add kv y) s (html_style0 a))) = false <-> in_buffers (a_pairs a) s.
Proof.
  destruct (style0_spec a) as (H0 & B0 & H1 & H2). destruct (style_fold s (html_style0 a) H0) as (T & Hs & Bd & _). unfold mark, in_buffers. cbn [s_bad]. rewrite Bool.orb_false_iff, long_px_iff, <- H2, <- T. rewrite B0 in Bd.
  destruct (s_bad (fold_left (fun y kv => style_add kv y) s (html_style0 a))); split.
  - intros [A _]. discriminate.
  - intros [_ A]. destruct (proj1 Bd eq_refl) as [Q|[Q1 Q2]]; [discriminate|]. apply A in Q1. lia.
  - intros [_ A]. split; [exact A|]. intro Ns. destruct (Nat.le_gt_cases (length (s_text (fold_left (fun y kv => style_add kv y) s (html_style0 a)))) 1023) as [Q|Q]; [exact Q|]. destruct Bd as [_ Bd]. discriminate Bd. right. split; [exact Ns|lia].
  - intros [A _]. auto.
Qed.
Lemma to_html_run a p s : sizes (a_pairs a) p s ->
  (in_buffers (a_pairs a) s -> to_html a = Some (w_out (run (all_pieces a p s) (w_new 4096 4096)))) /\ (~ in_buffers (a_pairs a) s -> to_html a = None).
Proof.
  intro Z. unfold to_html. rewrite html_id_run, html_classes_run. cbn [fst snd]. rewrite (html_sizes_run _ _ _ Z). cbn [fst snd]. rewrite (html_style_run a p s Z), html_other_run. cbn [fst snd].
  set (w := run _ (run _ (run _ _))). assert (Ew : w = run (all_pieces a p s) (w_new 4096 4096)).
  { unfold w, all_pieces. cbv zeta. rewrite !pair_pieces_app, !run_app. reflexivity. }
  rewrite Ew. clear w Ew. pose proof (in_buffers_iff a s) as Ib. set (b := s_bad _) in *. set (w := run (all_pieces a p s) (w_new 4096 4096)).
  assert (Ok : w_ok w /\ 0 < w_rem w). { destruct (run_ok (all_pieces a p s) (w_new 4096 4096) (w_ok_new 4096)) as (R & P & _); [cbn; apply Nat.ltb_lt; reflexivity|]. now split. }
  destruct Ok as [R P]. assert (w_oob (w_term w) = false) as -> by now apply w_term_safe. rewrite Bool.orb_false_r. split.
  - intro H. apply Ib in H. rewrite H. reflexivity.
  - intro H. destruct b; [reflexivity|]. exfalso. tauto.
Qed.
(** The text *)
Lemma emit_attribute first kv : emit first (fst kv) (snd kv) = (if first then [] else [SP]) ++ attribute kv.
Proof. reflexivity. Qed.
Lemma tag_text_cons x l : tag_text (x :: l) = attribute x ++ (if isnil l then [] else [SP] ++ tag_text l).
Proof. unfold tag_text. cbn [map]. destruct l; cbn [map join isnil]; [now rewrite app_nil_r|reflexivity]. Qed.
Lemma whole_app l m : whole (l ++ m) = whole l ++ whole m.
Proof. unfold whole. now rewrite map_app, concat_app. Qed.
Lemma whole_pairs l : forall first, whole (pair_pieces first l) = (if first || isnil l then [] else [SP])%bool ++ tag_text l.
Proof.
  induction l as [|x l IH]; intro first; cbn [pair_pieces isnil]; [rewrite Bool.orb_true_r; reflexivity|]. change (whole (?a :: ?b)) with (snd a ++ whole b). cbn [snd]. rewrite IH, emit_attribute, tag_text_cons, Bool.orb_false_r. cbn [orb].
  rewrite <- app_assoc. f_equal. f_equal. destruct l; reflexivity.
Qed.
Lemma whole_names l : forall first, whole (name_pieces first l) = (if first || isnil l then [] else [SP])%bool ++ join [SP] l.
Proof.
  induction l as [|x l IH]; intro first; cbn [name_pieces isnil]; [rewrite Bool.orb_true_r; reflexivity|]. rewrite whole_app. change (whole (uncut x :: name_pieces false l)) with (x ++ whole (name_pieces false l)). rewrite IH, Bool.orb_false_r. cbn [orb].
  destruct first; cbn [app]; (destruct l; cbn [isnil join app]; [now rewrite ?app_nil_r|reflexivity]).
Qed.
Lemma whole_classes f l : l <> [] -> whole (class_pieces f l) = emit f (B "class") (join [SP] l).
Proof.
  intro N. unfold class_pieces, emit. destruct l as [|x l]; [congruence|]. change (whole (uncut ?a :: ?b)) with (a ++ whole b). rewrite whole_app, whole_names. cbn [orb app]. change (whole [uncut [DQ]]) with [DQ]. rewrite <- !app_assoc. reflexivity.
Qed.
Lemma whole_all a p s : whole (all_pieces a p s) = tag_text (tag_of (a_id a) (a_classes a) (a_pairs a) p s).
Proof.
  unfold all_pieces, tag_of. set (l := p ++ style_of (a_pairs a) s ++ filter (fun kv => plain_key (fst kv)) (a_pairs a)). cbv zeta. rewrite !whole_app, whole_pairs. destruct (a_id a) as [x|]; cbn [andb].
  - cbn [id_pieces]. change (whole [(511, emit true (B "id") x)]) with (emit true (B "id") x ++ []). rewrite app_nil_r. cbn [app]. rewrite tag_text_cons. change (emit true (B "id") x) with (attribute (B "id", x)). f_equal.
    destruct (a_classes a) as [|c cl]; cbn [app isnil]; [cbn [class_pieces whole map concat app]; cbn [orb]; destruct l; reflexivity|]. rewrite whole_classes by discriminate. rewrite tag_text_cons. cbn [orb]. unfold emit, attribute. cbn [fst snd]. rewrite <- !app_assoc.
    cbn [app]. do 4 f_equal. destruct l; reflexivity.
  - cbn [id_pieces app]. change (whole []) with (@nil ascii). cbn [app]. destruct (a_classes a) as [|c cl]; cbn [app isnil]; [reflexivity|]. rewrite whole_classes by discriminate. rewrite tag_text_cons. cbn [orb]. change (emit true (B "class") (join [SP] (c :: cl))) with (attribute (B "class", join [SP] (c :: cl))). f_equal. destruct l; reflexivity.
Qed.
Lemma forall_pairs l : forall first, Forall (fun p => length (snd p) <= fst p) (pair_pieces first l) <-> bounded first l.
Proof.
  induction l as [|x l IH]; intro first; cbn [pair_pieces bounded]; [split; auto|]. rewrite Forall_cons_iff, IH. cbn [fst snd]. rewrite emit_attribute, app_length. destruct first; cbn [length]; split; intros [A C]; (split; [lia|exact C]).
Qed.
Lemma forall_uncut f l : Forall (fun p => length (snd p) <= fst p) (class_pieces f l).
Proof.
  assert (N : forall l f, Forall (fun p => length (snd p) <= fst p) (name_pieces f l)).
  { clear. induction l as [|x l IH]; intro f; [constructor|]. cbn [name_pieces]. apply Forall_app. split; [destruct f; repeat constructor|constructor; [apply le_n|apply IH]]. }
  unfold class_pieces. destruct l; [constructor|]. constructor; [apply le_n|]. apply Forall_app. split; [apply N|repeat constructor].
Qed.
Lemma to_html_exact a p s : sizes (a_pairs a) p s ->
  (to_html a = Some (tag_text (tag_of (a_id a) (a_classes a) (a_pairs a) p s)) <-> fits (a_id a) (a_classes a) (a_pairs a) p s).
Proof.
  intro Z. destruct (to_html_run a p s Z) as [H1 H2]. pose proof (run_exact (all_pieces a p s) (w_new 4096 4096) (w_ok_new 4096)) as Ex. cbn [w_new w_rem w_out app] in Ex. specialize (Ex ltac:(apply Nat.ltb_lt; reflexivity)). rewrite whole_all in Ex.
  assert (Fo : Forall (fun p => length (snd p) <= fst p) (all_pieces a p s) <->
    (forall x, a_id a = Some x -> length (attribute (B "id", x)) <= 511) /\
    bounded (match a_id a, a_classes a with None, [] => true | _, _ => false end) (p ++ style_of (a_pairs a) s ++ filter (fun kv => plain_key (fst kv)) (a_pairs a))).
  { unfold all_pieces. cbv zeta. rewrite !Forall_app, forall_pairs. pose proof (forall_uncut (match a_id a with Some _ => false | None => true end) (a_classes a)) as U.
    destruct (a_id a) as [x|]; cbn [id_pieces andb].
    - rewrite Forall_cons_iff. cbn [fst snd]. change (emit true (B "id") x) with (attribute (B "id", x)). split.
      + intros ((A & _) & _ & C). split; [intros y E; injection E as <-; exact A|exact C].
      + intros (A & C). split; [split; [now apply A|constructor]|now split].
    - split.
      + intros (_ & _ & C). split; [discriminate|]. destruct (a_classes a); exact C.
      + intros (_ & C). split; [constructor|]. split; [exact U|]. destruct (a_classes a); exact C. }
  unfold fits. split.
  - intro E. assert (Ib : in_buffers (a_pairs a) s). { apply in_buffers_iff. destruct (s_bad _) eqn:Eb; [|reflexivity]. rewrite H2 in E; [discriminate|]. intro Q. apply in_buffers_iff in Q. congruence. }
    rewrite (H1 Ib) in E. injection E as E. apply Ex in E. destruct E as [F L]. apply Fo in F. destruct F as [F1 F2]. split; [exact F1|]. split; [exact F2|]. split; [apply Ib|]. apply Nat.lt_succ_r. exact L.
  - intros (F1 & F2 & Sp & L). rewrite H1.
    + f_equal. apply Ex. split; [now apply Fo|]. apply Nat.lt_succ_r. exact L.
    + split; [exact Sp|]. intro Ns. clear -F2 Ns.
      assert (Hs : exists d, style_of (a_pairs a) s = [(B "style", join (B "; ") d)] /\ d = given (a_pairs a) ++ map declaration s).
      { unfold style_of, declarations. fold (given (a_pairs a)). destruct (given (a_pairs a) ++ map declaration s) as [|x d] eqn:E; [destruct (given (a_pairs a)); [destruct s; [congruence|discriminate]|discriminate]|]. eexists. split; reflexivity. }
      destruct Hs as (d & Es & Ed). rewrite Es in F2.
      assert (Q : forall l f m kv, bounded f (l ++ kv :: m) -> length (attribute kv) <= 1023). { clear. induction l as [|x l IH]; intros f m kv [A C]; [lia|]. now apply (IH false m kv). }
      specialize (Q p _ _ _ F2). unfold attribute in Q. cbn [fst snd] in Q. rewrite !app_length in Q. cbn [length B list_ascii_of_string] in Q. rewrite Ed in Q.
      assert (Lj : forall x r, length (join (B "; ") (firstn 1023 x :: r)) <= length (join (B "; ") (x :: r))). { clear. intros x r. pose proof (firstn_length 1023 x). destruct r; cbn [join]; rewrite ?app_length; lia. }
      change [";"%char; " "%char] with (B "; ") in Q. unfold given in Q. destruct (first_value (B "style") (a_pairs a)) as [[|c v]|]; cbn [app] in *; [lia| |lia]. specialize (Lj (c :: v) (map declaration s)). lia.
Qed.
Lemma to_html_undef a p s : sizes (a_pairs a) p s -> (to_html a = None <-> ~ in_buffers (a_pairs a) s).
Proof.
  intro Z. destruct (to_html_run a p s Z) as [H1 H2]. split; [|exact H2]. intros E Ib. rewrite (H1 Ib) in E. discriminate.
Qed.
(** ** The text determines the attributes *)
Definition clean (kv : str * str) : Prop := ~ In "="%char (fst kv) /\ ~ In DQ (snd kv).
Lemma cut_uniq (c : ascii) x : forall y r s, ~ In c x -> ~ In c y -> x ++ c :: r = y ++ c :: s -> x = y /\ r = s.
Proof.
  induction x as [|d x IH]; intros [|e y] r s Nx Ny E; cbn [app] in E.
  - injection E as ->. auto.
  - injection E as -> _. exfalso. apply Ny. now left.
  - injection E as <- _. exfalso. apply Nx. now left.
  - injection E as -> E. destruct (IH y r s) as [-> ->]; auto; intro I; (apply Nx; now right) || (apply Ny; now right).
Qed.
Lemma tag_text_inj l : forall m, Forall clean l -> Forall clean m -> tag_text l = tag_text m -> l = m.
Proof.
  induction l as [|[k v] l IH]; intros [|[k' v'] m] Cl Cm E; [reflexivity| | |].
  - exfalso. rewrite tag_text_cons in E. apply f_equal with (f := @length _) in E. unfold attribute in E. rewrite !app_length in E. cbn in E. lia.
  - exfalso. rewrite tag_text_cons in E. apply f_equal with (f := @length _) in E. unfold attribute in E. rewrite !app_length in E. cbn in E. lia.
  - inversion Cl as [|? ? [C1 C2] Cl']; subst. inversion Cm as [|? ? [C3 C4] Cm']; subst. cbn [fst snd] in *. rewrite !tag_text_cons in E. unfold attribute in E. cbn [fst snd] in E. rewrite <- !app_assoc in E. cbn [app B list_ascii_of_string] in E.
    apply cut_uniq in E; [|exact C1|exact C3]. destruct E as [-> E]. injection E as E. apply cut_uniq in E; [|exact C2|exact C4]. destruct E as [-> E]. f_equal. apply IH; auto.
    destruct l as [|x l], m as [|y m]; cbn [isnil] in E; [reflexivity|discriminate|discriminate|]. now injection E as E.
Qed.
