(** Proofs about file handling. *)
From Verif Require Import Base BaseL L_MetaParse L_Trans M_Cli S_Cli.

(** ** Standard input *)
Lemma stdin_ok fuel : forall avail data cap w oob,
  length data < fuel -> length w + BUFFER_SIZE <= cap ->
  exists cap', stdin_loop fuel avail data cap w oob = Some (cap', w ++ data, oob) /\ length (w ++ data) < cap'.
Proof.
  assert (HB : 1 <= BUFFER_SIZE) by (unfold BUFFER_SIZE; lia).
  induction fuel as [|fuel IH]; intros avail data cap w oob L C; [lia|]. cbn [stdin_loop].
  set (found := match avail with [] => length data | a :: _ => S a end).
  destruct data as [|c data].
  { rewrite Nat.min_0_r. exists cap. rewrite app_nil_r. split; [reflexivity|lia]. }
  assert (F : 1 <= found) by (unfold found; destruct avail; cbn [length]; lia).
  set (n := Nat.min (Nat.min found (cap - length w)) (length (c :: data))).
  assert (N : 1 <= n <= length (c :: data) /\ n <= cap - length w) by (unfold n; cbn [length]; lia).
  clearbody n. destruct N as [N1 N2]. destruct n as [|n]; [lia|].
  assert (W : length (w ++ firstn (S n) (c :: data)) = length w + S n).
  { rewrite app_length, firstn_length. cbn [length] in *. lia. }
  rewrite W.
  destruct (Nat.ltb_spec cap (length w + S n)); [lia|]. rewrite orb_false_r.
  set (cap1 := if cap <? length w + S n + BUFFER_SIZE then cap * 2 else cap).
  destruct (IH (tl avail) (skipn (S n) (c :: data)) cap1 (w ++ firstn (S n) (c :: data)) oob) as (cap' & E & L').
  - rewrite skipn_length. lia.
  - rewrite W. unfold cap1. destruct (Nat.ltb_spec cap (length w + S n + BUFFER_SIZE)); lia.
  - exists cap'. rewrite <- app_assoc, firstn_skipn in E, L'. auto.
Qed.

Lemma read_stdin_ok avail data : read_stdin avail data = Some (data, false).
Proof.
  unfold read_stdin. destruct (stdin_ok (S (length data)) avail data BUFFER_SIZE [] false) as (cap & -> & L);
    [lia|cbn [length]; lia|]. cbn [app] in *. destruct (Nat.leb_spec cap (length data)); [lia|reflexivity].
Qed.

(** ** Heading shift *)
Lemma first_level_ok s : forall bol w, fits w -> length (w_out w) + 2 * length s < w_cap w ->
  fits (first_level bol s w) /\ w_out (first_level bol s w) = w_out w ++ bump 1 bol s /\ w_cap (first_level bol s w) = w_cap w.
Proof.
  induction s as [|c s IH]; intros bol w F L; cbn [first_level bump].
  - cbn [length] in L. split; [apply term_fits; [exact F|lia]|]. rewrite app_nil_r. split; reflexivity.
  - cbn [length] in L. destruct (bol && ceq c "#") eqn:E.
    + apply andb_true_iff in E as [_ E]. apply ceq_eq in E. subst c.
      destruct (IH false (w_store (B "##") w)) as (H1 & H2 & H3).
      * apply store_fits; [exact F|]. cbn [length B list_ascii_of_string]. lia.
      * cbn [w_store w_out w_cap]. rewrite app_length. cbn [length B list_ascii_of_string]. lia.
      * split; [exact H1|]. split; [|exact H3]. rewrite H2. cbn [w_store w_out]. rewrite <- app_assoc. reflexivity.
    + destruct (IH (ceq c NL) (w_store [c] w)) as (H1 & H2 & H3).
      * apply store_fits; [exact F|]. cbn [length]. lia.
      * cbn [w_store w_out w_cap]. rewrite app_length. cbn [length]. lia.
      * split; [exact H1|]. split; [|exact H3]. rewrite H2. cbn [w_store w_out]. rewrite <- app_assoc. reflexivity.
Qed.

(** [m] holds the bytes of [s] from [i] on, NUL-terminated. *)
Definition holds (m : mem) (i : nat) (s : list ascii) : Prop :=
  (forall j, j < length s -> m (i + j) = nth j s NUL) /\ m (i + length s) = NUL.
Lemma holds_cons m i c s : holds m i (c :: s) <-> m i = c /\ holds m (i + 1) s.
Proof.
  unfold holds. cbn [length]. split.
  - intros [H1 H2]. split; [specialize (H1 0); rewrite Nat.add_0_r in H1; apply H1; lia|]. split.
    + intros j L. specialize (H1 (S j)). replace (i + 1 + j) with (i + S j) by lia. apply H1. lia.
    + replace (i + 1 + length s) with (i + S (length s)) by lia. exact H2.
  - intros [H0 [H1 H2]]. split.
    + intros [|j] L; [rewrite Nat.add_0_r; exact H0|]. replace (i + S j) with (i + 1 + j) by lia. apply H1. lia.
    + replace (i + S (length s)) with (i + 1 + length s) by lia. exact H2.
Qed.
Lemma holds_ext m m' i s : (forall j, m' j = m j) -> holds m i s -> holds m' i s.
Proof. intros E [H1 H2]. split; [intros j L|]; rewrite E; auto. Qed.

Lemma mem_str_holds s : nul_free s -> forall fuel m i, length s < fuel -> holds m i s -> mem_str fuel m i = s.
Proof.
  induction s as [|c s IH]; intros N [|fuel] m i L H; try (cbn [length] in L; lia).
  - destruct H as [_ H]. cbn [length] in H. rewrite Nat.add_0_r in H. cbn [mem_str]. rewrite H, ceq_refl. reflexivity.
  - apply holds_cons in H as [H0 H]. apply nul_free_cons in N as [N1 N2]. cbn [mem_str]. rewrite H0.
    rewrite (proj2 (ceq_neq c NUL) N1). f_equal. apply IH; auto. cbn [length] in L. lia.
Qed.

(** No heading: nothing changes. *)
Fixpoint no_heading (bol : bool) (s : list ascii) : bool :=
  match s with
  | [] => true
  | c :: s' => negb (bol && ceq c "#") && no_heading (ceq c NL) s'
  end.

Lemma upd_same m i : forall j, upd i (m i) m j = m j.
Proof. intros j. unfold upd. destruct (Nat.eqb_spec j i); congruence. Qed.

Lemma in_place_same s : nul_free s -> forall fuel cap m i bol,
  no_heading bol s = true -> holds m i s -> i + length s < cap -> length s < fuel ->
  exists m', in_place fuel cap m i i bol = Some (Some m') /\ forall j, m' j = m j.
Proof.
  induction s as [|c s IH]; intros N [|fuel] cap m i bol NH H C L; try (cbn [length] in L; lia).
  - destruct H as [_ H]. cbn [length] in *. rewrite Nat.add_0_r in *. cbn [in_place]. rewrite H, ceq_refl.
    destruct (Nat.leb_spec cap i); [lia|]. exists (upd i NUL m). split; [reflexivity|]. intros j. rewrite <- H. apply upd_same.
  - apply nul_free_cons in N as [N1 N2]. apply holds_cons in H as [H0 H]. cbn [no_heading] in NH.
    apply andb_true_iff in NH as [NH1 NH2]. apply negb_true_iff in NH1. cbn [length] in *.
    cbn [in_place]. rewrite H0, (proj2 (ceq_neq c NUL) N1), NH1.
    destruct (Nat.leb_spec cap i); [lia|].
    destruct (IH N2 fuel cap (upd i c m) (i + 1) (ceq c NL) NH2) as (m' & E & Q).
    + eapply holds_ext; [|exact H]. rewrite <- H0. apply upd_same.
    + lia.
    + lia.
    + exists m'. split; [exact E|]. intros j. rewrite Q. rewrite <- H0. apply upd_same.
Qed.

(** Behind a heading: the hashes run to the end of the block. *)
Lemma runaway fuel : forall cap m i, m i = "#"%char -> i < cap -> cap - i < fuel ->
  in_place fuel cap m i (i + 1) false = Some None.
Proof.
  induction fuel as [|fuel IH]; intros cap m i H L F; [lia|]. cbn [in_place]. rewrite H.
  destruct (Nat.leb_spec cap i); [lia|]. change (ceq "#" NUL) with false. cbn [andb].
  destruct (Nat.leb_spec cap (i + 1)); [reflexivity|].
  change (ceq "#" NL) with false. apply IH; [|lia|lia].
  unfold upd. rewrite Nat.eqb_refl. reflexivity.
Qed.

Lemma in_place_heading s : nul_free s -> forall fuel cap m i bol,
  no_heading bol s = false -> holds m i s -> i + length s < cap -> cap - i < fuel ->
  in_place fuel cap m i i bol = Some None.
Proof.
  induction s as [|c s IH]; intros N fuel cap m i bol NH H C L; [discriminate|].
  destruct fuel as [|fuel]; [cbn [length] in *; lia|].
  apply nul_free_cons in N as [N1 N2]. apply holds_cons in H as [H0 H]. cbn [length] in *.
  cbn [in_place]. rewrite H0, (proj2 (ceq_neq c NUL) N1).
  destruct (Nat.leb_spec cap i); [lia|]. cbn [no_heading] in NH.
  destruct (bol && ceq c "#") eqn:E.
  - destruct (Nat.leb_spec cap (i + 1)); [lia|]. replace (i + 2) with (i + 1 + 1) by lia.
    apply runaway; [|lia|lia]. unfold upd. rewrite Nat.eqb_refl. reflexivity.
  - cbn [negb andb] in NH. apply IH; auto; [|lia|lia].
    eapply holds_ext; [|exact H]. rewrite <- H0. apply upd_same.
Qed.

Lemma no_heading_spec s : forall bol, no_heading bol s = false <->
  exists a b, s = a ++ "#"%char :: b /\ ((a = [] /\ bol = true) \/ exists a', a = a' ++ [NL]).
Proof.
  induction s as [|c s IH]; intros bol; cbn [no_heading].
  - split; [discriminate|]. intros (a & b & E & _). destruct a; discriminate.
  - rewrite andb_false_iff, negb_false_iff, andb_true_iff, IH. split.
    + intros [[-> H]|(a & b & -> & H)].
      * apply ceq_eq in H. subst c. exists [], s. auto.
      * exists (c :: a), b. split; [reflexivity|]. right. destruct H as [[-> H]|(a' & ->)].
        -- apply ceq_eq in H. subst c. exists []. reflexivity.
        -- exists (c :: a'). reflexivity.
    + intros (a & b & E & H). destruct a as [|d a].
      * injection E as -> ->. destruct H as [[_ ->]|(a' & H)]; [left; auto|destruct a'; discriminate].
      * injection E as -> ->. right. exists a, b. split; [reflexivity|].
        destruct H as [[H _]|(a' & H)]; [discriminate|]. destruct a' as [|e a'].
        -- injection H as -> ->. left. auto.
        -- injection H as -> ->. right. eauto.
Qed.

Lemma has_heading_spec s : has_heading s <-> no_heading true s = false.
Proof.
  rewrite no_heading_spec. unfold has_heading. split; intros (a & b & E & H); exists a, b; split; auto; intuition.
Qed.

Lemma bump_no k s : forall bol, no_heading bol s = true -> bump k bol s = s.
Proof.
  induction s as [|c s IH]; intros bol H; [reflexivity|]. cbn [no_heading bump] in *.
  apply andb_true_iff in H as [H1 H2]. apply negb_true_iff in H1. rewrite H1, IH by exact H2. reflexivity.
Qed.
Lemma bump_no_heading k s : forall bol, no_heading bol (bump (S k) bol s) = no_heading bol s.
Proof.
  induction s as [|c s IH]; intros bol; [reflexivity|]. cbn [bump no_heading].
  destruct (bol && ceq c "#") eqn:E.
  - apply andb_true_iff in E as [-> E]. reflexivity.
  - cbn [app no_heading]. rewrite E, IH. reflexivity.
Qed.
Lemma bump_nul_free k s : forall bol, nul_free s -> nul_free (bump k bol s).
Proof.
  unfold nul_free. induction s as [|c s IH]; intros bol N I; [exact (N I)|]. cbn [bump] in I.
  apply in_app_or in I as [I|[->|I]].
  - destruct (bol && ceq c "#"); [|destruct I]. apply repeat_spec in I. discriminate.
  - apply N. left. reflexivity.
  - eapply IH; [|exact I]. intros J. apply N. right. exact J.
Qed.
Lemma bump_length s : forall bol, length (bump 1 bol s) <= 2 * length s.
Proof.
  induction s as [|c s IH]; intros bol; [cbn; lia|]. cbn [bump]. rewrite app_length. cbn [length].
  specialize (IH (ceq c NL)). destruct (bol && ceq c "#"); cbn [repeat length]; lia.
Qed.

Lemma later_same n : forall cap m s, nul_free s -> no_heading true s = true -> holds m 0 s -> length s < cap ->
  exists m', later_levels n cap m = Some (Some m') /\ holds m' 0 s.
Proof.
  induction n as [|n IH]; intros cap m s N NH H L; cbn [later_levels]; [eauto|].
  destruct (in_place_same s N (S cap) cap m 0 true NH H) as (m' & -> & Q); [lia|lia|].
  apply IH; auto. eapply holds_ext; eassumption.
Qed.

Lemma shift_ok junk content k : nul_free content ->
  exists r, shift_headers junk content k = Some r /\
    ((k <= 1 \/ ~ has_heading content) -> r = Done (bump k true content)) /\
    (2 <= k -> has_heading content -> r = Overrun).
Proof.
  intros N. destruct k as [|n].
  { exists (Done content). split; [reflexivity|]. split; [|lia]. intros _. f_equal.
    clear N. generalize true. induction content as [|c s IH]; intros b; [reflexivity|]. cbn [bump].
    rewrite <- IH. destruct (b && ceq c "#"); reflexivity. }
  unfold shift_headers. set (cap := length content * (S n + 1) + 1).
  assert (Cap : 2 * length content < cap) by (unfold cap; nia).
  destruct (first_level_ok content true (w_new cap 0)) as (F1 & F2 & F3); [apply new_fits|exact Cap|].
  cbn [w_new w_out w_cap app] in F2, F3. set (w := first_level true content (w_new cap 0)) in *.
  rewrite (proj1 F1). set (s := bump 1 true content) in *. rewrite F2.
  set (m := fun j => if j <? length s then nth j s NUL else if j =? length s then NUL else junk j).
  assert (H : holds m 0 s).
  { split.
    - intros j L. unfold m. cbn [Nat.add]. destruct (Nat.ltb_spec j (length s)); [reflexivity|lia].
    - unfold m. cbn [Nat.add]. rewrite Nat.ltb_irrefl, Nat.eqb_refl. reflexivity. }
  pose proof (bump_length content true) as BL. fold s in BL.
  assert (Ns : nul_free s) by (apply bump_nul_free, N).
  destruct (no_heading true content) eqn:NH.
  - assert (Es : s = content) by (apply bump_no, NH).
    destruct (later_same n cap m s Ns) as (m' & -> & H'); [rewrite Es; exact NH|exact H|lia|].
    eexists. split; [reflexivity|]. split.
    + intros _. rewrite (mem_str_holds s) by (auto; lia). f_equal. rewrite Es. symmetry. apply bump_no, NH.
    + intros _ X. apply has_heading_spec in X. congruence.
  - assert (NHs : no_heading true s = false) by (unfold s; rewrite bump_no_heading; exact NH).
    destruct n as [|n].
    + cbn [later_levels]. eexists. split; [reflexivity|]. split; [|lia]. intros _.
      rewrite (mem_str_holds s) by (auto; lia). reflexivity.
    + cbn [later_levels]. rewrite (in_place_heading s) by (auto; lia).
      eexists. split; [reflexivity|]. split; [|reflexivity]. intros [X|X]; [lia|].
      destruct X. apply has_heading_spec, NH.
Qed.

(** ** Merge index *)
Lemma drop_last_trail f t : Forall (fun c => f c = true) t -> forall a : str, drop_last f (a ++ t) = drop_last f a.
Proof.
  intros F a. induction a as [|c a IH]; cbn [app drop_last].
  - induction F as [|c t H F IH]; [reflexivity|]. cbn [drop_last]. rewrite IH, H. reflexivity.
  - rewrite IH. reflexivity.
Qed.
Lemma drop_last_keep f (a : str) c : f c = false -> drop_last f (a ++ [c]) = a ++ [c].
Proof.
  intros H. induction a as [|d a IH]; cbn [app drop_last]; [rewrite H; reflexivity|].
  rewrite IH. destruct (a ++ [c]) eqn:E; [destruct a; discriminate|reflexivity].
Qed.
Lemma drop_last_name f (a n : str) : n <> [] -> (forall r c, n = r ++ [c] -> f c = false) -> drop_last f (a ++ n) = a ++ n.
Proof.
  intros H1 H2. destruct (exists_last H1) as (r & c & ->). rewrite app_assoc. apply drop_last_keep.
  apply (H2 r c eq_refl).
Qed.

Lemma blank_in c : blank c = true <-> In c [SP; TAB].
Proof.
  unfold blank. rewrite orb_true_iff, !ceq_eq. cbn [In]. intuition.
Qed.
Lemma blankcr_in c : blank c || ceq c CR = true <-> In c [SP; TAB; CR].
Proof. unfold blank. rewrite !orb_true_iff, !ceq_eq. cbn [In]. intuition. Qed.
Lemma blank_no c : ~ In c [SP; TAB] -> blank c = false.
Proof. intros N. destruct (blank c) eqn:E; [|reflexivity]. destruct N. apply blank_in, E. Qed.
Lemma blankcr_no c : ~ In c [SP; TAB; CR] -> blank c || ceq c CR = false.
Proof. intros N. destruct (blank c || ceq c CR) eqn:E; [|reflexivity]. destruct N. apply blankcr_in, E. Qed.

Lemma span_two (f : ascii -> bool) (a b : str) : Forall (fun c => f c = true) a ->
  (forall c r, b = c :: r -> f c = false) -> span f (a ++ b) = (a, b).
Proof.
  intros F H. induction F as [|c a Hc F IH]; cbn [app].
  - destruct b as [|c b]; [reflexivity|]. cbn [span]. rewrite (H c b eq_refl). reflexivity.
  - cbn [span]. rewrite Hc, IH. reflexivity.
Qed.

Lemma steps_blank i : Forall (fun c => blank c = true) (concat (map write_step i)).
Proof.
  induction i as [|[] i IH]; cbn [map concat write_step]; [constructor| |];
    repeat (apply Forall_cons; [reflexivity|]); exact IH.
Qed.

Lemma count_stray k n fuel : k < 4 -> (forall c r, n = c :: r -> ~ In c [SP; TAB; "#"%char]) -> n <> [] ->
  count_indent (S fuel) (repeat SP k ++ n) = (0, n).
Proof.
  intros L H E. destruct n as [|c n]; [congruence|]. specialize (H c n eq_refl). cbn [In] in H.
  assert (H1 : ceq c SP = false) by (apply ceq_neq; intros ->; apply H; auto).
  assert (H2 : ceq c TAB = false) by (apply ceq_neq; intros ->; apply H; auto).
  assert (H3 : ceq SP c = false) by (rewrite ceq_sym; exact H1).
  destruct k as [|[|[|[|k]]]]; [..|lia]; cbn [repeat app count_indent at_ nth]; rewrite ?H1, ?H2; [reflexivity|..];
    change (ceq SP TAB) with false; change (ceq SP SP) with true; cbn [starts]; rewrite ?ceq_refl, H3; cbn [andb span];
    rewrite ?ceq_refl, H1; reflexivity.
Qed.
Lemma count_steps i : forall fuel k n, length (concat (map write_step i)) < fuel -> k < 4 -> n <> [] ->
  (forall c r, n = c :: r -> ~ In c [SP; TAB; "#"%char]) ->
  count_indent fuel (concat (map write_step i) ++ repeat SP k ++ n) = (length i, n).
Proof.
  induction i as [|s i IH]; intros [|fuel] k n L Lk E H; try lia; cbn [map concat app length] in *.
  - apply count_stray; assumption.
  - destruct s; cbn [write_step app length] in *.
    + cbn [count_indent at_ nth skipn]. rewrite ceq_refl. rewrite IH by (auto; lia). reflexivity.
    + cbn [count_indent]. change (at_ _ 0) with SP. change (ceq SP TAB) with false. rewrite ceq_refl.
      change (starts [SP; SP; SP; SP] _) with true. cbn [skipn]. rewrite IH by (auto; lia). reflexivity.
Qed.

Lemma index_line_written l : good_line l ->
  index_line (write_iline l) = match l with Entry i _ n _ => Some (length i, n) | Ignored _ => None end.
Proof.
  destruct l as [i k n t|l]; cbn [good_line write_iline].
  - intros (Lk & (N1 & N2 & N3 & N4 & N5) & T). unfold index_line.
    assert (D : drop_last (fun c => blank c || ceq c CR) (concat (map write_step i) ++ repeat SP k ++ n ++ t) = concat (map write_step i) ++ repeat SP k ++ n).
    { rewrite !app_assoc. rewrite drop_last_trail.
      - apply drop_last_name; [exact N1|]. intros r c E. apply blankcr_no. eapply N5, E.
      - unfold blanks in T. eapply Forall_impl; [|exact T]. intros c. apply blankcr_in. }
    rewrite D. assert (Nb : forall c r, n = c :: r -> blank c = false).
    { intros c r E. apply blank_no. specialize (N4 c r E). cbn [In] in *. intuition. }
    assert (Sb : Forall (fun c => blank c = true) (concat (map write_step i) ++ repeat SP k)).
    { apply Forall_app. split; [apply steps_blank|]. clear. induction k; [constructor|]. constructor; [reflexivity|exact IHk]. }
    rewrite app_assoc. rewrite (span_two blank _ n Sb Nb). cbn [snd]. rewrite <- app_assoc.
    rewrite count_steps; [|rewrite !app_length; destruct n; [congruence|cbn [length]; lia]|exact Lk|exact N1|exact N4].
    destruct n as [|c n]; [congruence|]. cbn [at_ nth].
    rewrite (proj2 (ceq_neq c NUL)) by (intros ->; apply N2; left; reflexivity).
    rewrite (proj2 (ceq_neq c "#")) by (intros ->; apply (N4 _ _ eq_refl); cbn [In]; auto). cbn [orb].
    pose proof (span_two blank [] (c :: n) (Forall_nil _) Nb) as S0. cbn [app] in S0. rewrite S0. cbn [snd].
    pose proof (drop_last_name blank [] (c :: n)) as D0. cbn [app] in D0. rewrite D0; [reflexivity|discriminate|].
    intros r d E. apply blank_no. specialize (N5 r d E). cbn [In] in *. intuition.
  - intros (N1 & N2 & [H|(a & r & -> & H)]); unfold index_line.
    + assert (H' : Forall (fun c => blank c || ceq c CR = true) l).
      { unfold blanks in H. eapply Forall_impl; [|exact H]. intros c. apply blankcr_in. }
      pose proof (drop_last_trail (fun c => blank c || ceq c CR) l H' []) as D. cbn [app] in D. rewrite D. reflexivity.
    + assert (D : exists r', drop_last (fun c => blank c || ceq c CR) (a ++ "#"%char :: r) = a ++ "#"%char :: r').
      { clear. induction a as [|c a (r' & IH)]; cbn [app drop_last].
        - destruct (drop_last _ r) eqn:E; [exists []; reflexivity|eexists; reflexivity].
        - rewrite IH. exists r'. destruct (a ++ "#"%char :: r') eqn:E; [destruct a; discriminate|reflexivity]. }
      destruct D as (r' & ->). rewrite (span_two blank a).
      * reflexivity.
      * eapply Forall_impl; [|exact H]. intros c. apply blank_in.
      * intros c x E. injection E as <- <-. reflexivity.
Qed.

Lemma lines_from_app cur (l s : str) : ~ In NL l -> lines_from cur (l ++ NL :: s) = (cur ++ l) :: lines_from [] s.
Proof.
  revert cur. induction l as [|c l IH]; intros cur N; cbn [app lines_from].
  - rewrite ceq_refl, app_nil_r. reflexivity.
  - rewrite (proj2 (ceq_neq c NL)) by (intros ->; apply N; left; reflexivity).
    rewrite IH by (intros I; apply N; right; exact I). rewrite <- app_assoc. reflexivity.
Qed.
Lemma steps_no_nl i : ~ In NL (concat (map write_step i)).
Proof.
  intros I. pose proof (steps_blank i) as H. rewrite Forall_forall in H. specialize (H _ I). discriminate.
Qed.
Lemma good_no_nl l : good_line l -> ~ In NL (write_iline l).
Proof.
  destruct l as [i k n t|l]; cbn [good_line write_iline].
  - intros (Lk & (N1 & N2 & N3 & N4 & N5) & T) I. apply in_app_or in I as [I|I]; [exact (steps_no_nl i I)|].
    apply in_app_or in I as [I|I]; [apply repeat_spec in I; discriminate|].
    apply in_app_or in I as [I|I]; [exact (N3 I)|]. unfold blanks in T. rewrite Forall_forall in T.
    specialize (T _ I). cbn [In] in T. intuition discriminate.
  - intros (_ & N & _). exact N.
Qed.

Lemma index_written ls : Forall good_line ls -> index_entries (lines_of (write_index ls)) = entries ls.
Proof.
  unfold lines_of, write_index. induction 1 as [|l ls G F IH]; [reflexivity|]. cbn [map concat].
  rewrite <- app_assoc. cbn [app]. rewrite lines_from_app by (apply good_no_nl, G). cbn [app index_entries].
  rewrite (index_line_written l G), IH. destruct l; reflexivity.
Qed.

Lemma merge_ok junk files base es :
  (forall k n c, In (k, n) es -> files (entry_path base n) = Some c -> nul_free c /\ (k <= 1 \/ ~ has_heading c)) ->
  merge_entries junk files base es = Some (Done (merged (fun n => files (entry_path base n)) es)).
Proof.
  induction es as [|[k n] es IH]; intros H; [reflexivity|]. cbn [merge_entries merged map concat fst snd].
  fold (merged (fun n => files (entry_path base n)) es).
  rewrite IH by (intros k0 n0 c I E; apply (H k0 n0 c); [right; exact I|exact E]).
  destruct (files (entry_path base n)) as [c|] eqn:E; [|reflexivity].
  destruct (H k n c (or_introl eq_refl) E) as [N G].
  destruct (shift_ok junk c k N) as (r & -> & D & _). rewrite (D G). rewrite <- app_assoc. reflexivity.
Qed.

Lemma path_located base n : n <> [] -> length (located base n) < 4096 -> entry_path base n = located base n.
Proof.
  intros N L. unfold entry_path. destruct n as [|c n]; [congruence|]. cbn [at_ nth].
  assert (E : (if ceq c "/" then c :: n else base ++ B "/" ++ c :: n) = located base (c :: n)).
  { destruct (ceq c "/") eqn:C; [apply ceq_eq in C; subst c; reflexivity|]. apply ceq_neq in C.
    unfold located. destruct c as [[] [] [] [] [] [] [] []]; try reflexivity. congruence. }
  rewrite E. apply firstn_all2. change (2 * 2048 - 1) with (4096 - 1). lia.
Qed.
Lemma entries_named ls : Forall good_line ls -> forall k n, In (k, n) (entries ls) -> n <> [].
Proof.
  induction 1 as [|l ls G F IH]; cbn [entries]; [contradiction|]. destruct l as [i s n t|l]; [|exact IH].
  intros k m [E|I]; [injection E as <- <-; apply G|exact (IH k m I)].
Qed.
Lemma merged_ext f g es : (forall k n, In (k, n) es -> f n = g n) -> merged f es = merged g es.
Proof.
  intros H. unfold merged. f_equal. apply map_ext_in. intros [k n] I. cbn [fst snd]. rewrite (H k n I). reflexivity.
Qed.
Lemma merge_located junk files base ls : Forall good_line ls ->
  (forall k n, In (k, n) (entries ls) -> length (located base n) < 4096) ->
  (forall k n c, In (k, n) (entries ls) -> files (located base n) = Some c -> nul_free c /\ (k <= 1 \/ ~ has_heading c)) ->
  merge_index junk files base (write_index ls) = Some (Done (merged (fun n => files (located base n)) (entries ls))).
Proof.
  intros G L H. unfold merge_index. rewrite (index_written ls G).
  assert (P : forall k n, In (k, n) (entries ls) -> entry_path base n = located base n).
  { intros k n I. apply path_located; [eapply entries_named; eassumption|eapply L; exact I]. }
  rewrite merge_ok.
  - do 2 f_equal. apply merged_ext. intros k n I. rewrite (P k n I). reflexivity.
  - intros k n c I E. rewrite (P k n I) in E. exact (H k n c I E).
Qed.

(** ** Links *)
Lemma link_path_line pre title lead path trail post :
  ~ In "["%char pre -> ~ In "]"%char title -> Forall (fun c => In c [SP; TAB]) lead -> blanks trail -> plain_path path ->
  link_path (link_line pre title lead path trail post) =
  let p1 := match strchr "#" path with Some h => firstn h path | None => path end in
  match strstr (B "://") p1 with Some _ => None | None => Some p1 end.
Proof.
  intros N1 N2 Hl Ht (P1 & P2 & P5 & P6). unfold link_path, link_line.
  rewrite strchr_at by exact N1. rewrite skipn_app, skipn_all, Nat.sub_diag. cbn [app skipn].
  change (B "](" ++ lead ++ path ++ trail ++ ")"%char :: post) with
    ("]"%char :: "("%char :: lead ++ path ++ trail ++ ")"%char :: post).
  change ("["%char :: title ++ "]"%char :: "("%char :: lead ++ path ++ trail ++ ")"%char :: post) with
    (("["%char :: title) ++ "]"%char :: "("%char :: lead ++ path ++ trail ++ ")"%char :: post).
  rewrite strchr_at by (intros [E|I]; [discriminate|exact (N2 I)]).
  set (pt := "["%char :: title). set (tl_ := lead ++ path ++ trail ++ ")"%char :: post).
  assert (A : at_ (pt ++ "]"%char :: "("%char :: tl_) (length pt + 1) = "("%char).
  { unfold at_. rewrite app_nth2 by lia. replace (length pt + 1 - length pt) with 1 by lia. reflexivity. }
  rewrite A, ceq_refl.
  assert (K : skipn (length pt + 2) (pt ++ "]"%char :: "("%char :: tl_) = tl_).
  { rewrite skipn_app, skipn_all2 by lia. replace (length pt + 2 - length pt) with 2 by lia. reflexivity. }
  rewrite K. unfold tl_. rewrite !app_assoc.
  assert (N3 : ~ In ")"%char ((lead ++ path) ++ trail)).
  { rewrite !in_app_iff. rewrite Forall_forall in Hl. unfold blanks in Ht. rewrite Forall_forall in Ht.
    intros [[I|I]|I]; [|exact (P2 I)|].
    - specialize (Hl _ I). cbn [In] in Hl. intuition discriminate.
    - specialize (Ht _ I). cbn [In] in Ht. intuition discriminate. }
  rewrite strchr_at by exact N3.
  destruct (length ((lead ++ path) ++ trail)) as [|k] eqn:Lk.
  { destruct path; [congruence|]. rewrite !app_length in Lk. cbn [length] in Lk. lia. }
  rewrite <- Lk. rewrite firstn_app, firstn_all, Nat.sub_diag. cbn [firstn]. rewrite app_nil_r.
  rewrite <- app_assoc. rewrite (span_two blank lead (path ++ trail)).
  2: { eapply Forall_impl; [|exact Hl]. intros c. apply blank_in. }
  2: { intros c r E. destruct path as [|d path]; [congruence|]. injection E as -> E. apply blank_no. eapply P5. reflexivity. }
  cbn [snd]. rewrite drop_last_trail.
  2: { unfold blanks in Ht. eapply Forall_impl; [|exact Ht]. intros c. apply blankcr_in. }
  pose proof (drop_last_name (fun c => blank c || ceq c CR) [] path) as D. cbn [app] in D. rewrite D; [|exact P1|].
  2: { intros r c E. apply blankcr_no. eapply P6, E. }
  destruct path as [|c0 path]; [congruence|]. reflexivity.
Qed.

Lemma cut_anchor path a : ~ In "#"%char path -> anchor a ->
  match strchr "#" (path ++ a) with Some h => firstn h (path ++ a) | None => path ++ a end = path.
Proof.
  intros N [->|(r & ->)].
  - rewrite app_nil_r, (proj2 (strchr_none "#" path) N). reflexivity.
  - rewrite strchr_at by exact N. rewrite firstn_app, firstn_all, Nat.sub_diag. apply app_nil_r.
Qed.
Lemma good_sline_path l : good_sline l ->
  link_path (write_sline l) = match l with Link _ _ _ p _ _ _ => Some p | _ => None end.
Proof.
  destruct l as [pre title lead path a trail post|pre title lead path a trail post|l]; cbn [good_sline write_sline].
  - intros ((H1 & H2 & H3 & H4 & H5 & H6 & H7 & H8 & _) & R). rewrite link_path_line by assumption. rewrite cut_anchor by assumption.
    cbv zeta. destruct (strstr (B "://") path) as [i|] eqn:E; [|reflexivity].
    apply strstr_split in E as (E & _). destruct R. eexists. eexists. exact E.
  - intros ((H1 & H2 & H3 & H4 & H5 & H6 & H7 & H8 & _) & (x & y & R)). rewrite link_path_line by assumption. rewrite cut_anchor by assumption.
    cbv zeta. destruct (strstr (B "://") path) as [i|] eqn:E; [reflexivity|].
    destruct (strstr_none _ _ E x y R).
  - intros [N _]. unfold link_path. rewrite (proj2 (strchr_none "[" l) N). reflexivity.
Qed.
Lemma summary_written ls : Forall good_sline ls -> link_paths (lines_of (write_summary ls)) = paths ls.
Proof.
  unfold lines_of, write_summary. induction 1 as [|l ls G F IH]; [reflexivity|]. cbn [map concat].
  rewrite <- app_assoc. cbn [app]. rewrite lines_from_app.
  2: { destruct l as [pre title lead path a trail post|pre title lead path a trail post|l]; cbn [good_sline write_sline] in *; apply G. }
  cbn [app link_paths]. rewrite (good_sline_path l G), IH. destruct l; reflexivity.
Qed.

(** ** Combining *)
Definition tailed (cs : list str) : str := concat (map (fun c => [NL; NL] ++ c) cs).
Definition joined (cs : list str) : str := match cs with [] => [] | c :: r => c ++ tailed r end.
Lemma joined_separated cs : separated cs (joined cs).
Proof.
  destruct cs as [|c cs]; [constructor|]. cbn [joined]. revert c. induction cs as [|d cs IH]; intros c.
  - unfold tailed. cbn [map concat]. rewrite app_nil_r. constructor.
  - unfold tailed. cbn [map concat]. fold (tailed cs). rewrite <- app_assoc. apply sep_more. apply IH.
Qed.
Lemma write_chunks_true cs : fst (write_chunks true cs) = tailed cs.
Proof.
  induction cs as [|c cs IH]; [reflexivity|]. cbn [write_chunks]. destruct (write_chunks true cs) as [r n].
  cbn [fst] in *. rewrite IH. unfold tailed. cbn [map concat]. rewrite <- !app_assoc. reflexivity.
Qed.
Lemma write_chunks_false cs : fst (write_chunks false cs) = joined cs.
Proof.
  destruct cs as [|c cs]; [reflexivity|]. cbn [write_chunks]. pose proof (write_chunks_true cs) as E.
  destruct (write_chunks true cs) as [r n]. cbn [fst] in *. rewrite E. reflexivity.
Qed.
Lemma combine_true fs : combine true (map File fs) = tailed (documents fs).
Proof.
  unfold documents. induction fs as [|[c|] fs IH]; [reflexivity| |]; cbn [map combine concat app].
  - rewrite IH. unfold tailed. cbn [map concat]. rewrite <- app_assoc. reflexivity.
  - exact IH.
Qed.
Lemma combine_false fs : combine false (map File fs) = joined (documents fs).
Proof.
  unfold documents. induction fs as [|[c|] fs IH]; [reflexivity| |]; cbn [map combine concat app].
  - rewrite combine_true. reflexivity.
  - exact IH.
Qed.
Lemma tailed_app a b : tailed (a ++ b) = tailed a ++ tailed b.
Proof. unfold tailed. rewrite map_app, concat_app. reflexivity. Qed.

Lemma combine_files fs : separated (documents fs) (combine false (map File fs)).
Proof. rewrite combine_false. apply joined_separated. Qed.
Lemma combine_summary cs fs : cs <> [] ->
  separated (cs ++ documents fs) (combine false (Summary cs :: map File fs)).
Proof.
  intros N. cbn [combine]. rewrite write_chunks_false, combine_true. destruct cs as [|c cs]; [congruence|].
  cbn [joined app]. rewrite <- app_assoc, <- tailed_app. apply (joined_separated (c :: cs ++ documents fs)).
Qed.
Lemma separated_fun cs o : separated cs o -> o = joined cs.
Proof.
  induction 1 as [|c|c d l o H IH]; [reflexivity|unfold joined, tailed; cbn [map concat]; rewrite app_nil_r; reflexivity|].
  rewrite IH. unfold joined, tailed. cbn [map concat]. rewrite <- app_assoc. reflexivity.
Qed.

Lemma summary_files get base ls :
  separated (chunks_of get (map (fun p => base ++ B "/" ++ p) (link_paths (lines_of ls)))) (summary get base ls).
Proof. unfold summary. rewrite write_chunks_false. apply joined_separated. Qed.
