(** Proofs about metadata lists. *)
From Verif Require Import Base BaseL M_Meta S_Meta.

(** ** Bytes *)
Lemma isspace_spec c : isspace c = true <-> space_byte c.
Proof.
  unfold isspace, space_byte, between. rewrite orb_true_iff, ceq_eq, andb_true_iff, !N.leb_le.
  tauto.
Qed.

Lemma isspace_false c : isspace c = false <-> ~ space_byte c.
Proof. rewrite <- isspace_spec. destruct (isspace c); split; congruence. Qed.

Lemma isupper_spec c : isupper c = true <-> big c.
Proof. unfold isupper, big, between. rewrite andb_true_iff, !N.leb_le. tauto. Qed.

Lemma code_tolower c :
  code (tolower c) = if isupper c then (code c + 32)%N else code c.
Proof.
  unfold tolower. destruct (isupper c) eqn:E; [|reflexivity].
  apply isupper_spec in E. unfold big in E. apply code_of_N. lia.
Qed.

Lemma tolower_ci a b : tolower a = tolower b <-> ci a b.
Proof.
  unfold ci. split.
  - intros H. apply (f_equal code) in H. rewrite !code_tolower in H.
    destruct (isupper a) eqn:Ea, (isupper b) eqn:Eb.
    + left. apply code_inj. lia.
    + right; left. apply isupper_spec in Ea. auto.
    + right; right. apply isupper_spec in Eb. auto.
    + left. apply code_inj, H.
  - intros [->|[[H1 H2]|[H1 H2]]]; [reflexivity| |]; apply code_inj; rewrite !code_tolower.
    + rewrite (proj2 (isupper_spec a) H1). unfold big in H1.
      destruct (isupper b) eqn:E; [apply isupper_spec in E; unfold big in E; lia|lia].
    + rewrite (proj2 (isupper_spec b) H1). unfold big in H1.
      destruct (isupper a) eqn:E; [apply isupper_spec in E; unfold big in E; lia|lia].
Qed.

Lemma ci_space a b : ci a b -> isspace a = isspace b.
Proof.
  unfold ci, big. intros [->|[[H1 H2]|[H1 H2]]]; [reflexivity| |].
  - transitivity false; [|symmetry]; apply isspace_false; unfold space_byte;
      intros [->|H]; cbn in *; lia.
  - transitivity false; [|symmetry]; apply isspace_false; unfold space_byte;
      intros [->|H]; cbn in *; lia.
Qed.

(** ** Comparing keys *)
Lemma casecmp_map a b : casecmp a b = true <-> map tolower a = map tolower b.
Proof. unfold casecmp. apply seq_eq. Qed.

Lemma casecmp_ci a b : casecmp a b = true <-> same_ci a b.
Proof.
  rewrite casecmp_map. unfold same_ci. revert b.
  induction a as [|x a IH]; intros [|y b]; simpl; split; intros H; try discriminate;
    try (inversion H; fail); try constructor; try reflexivity.
  - injection H as H1 H2. apply tolower_ci, H1.
  - injection H as H1 H2. apply IH, H2.
  - inversion H; subst. f_equal; [apply tolower_ci; auto|apply IH; auto].
Qed.

Lemma normalize_key a b : normalize a = normalize b <-> same_key a b.
Proof.
  split.
  - assert (G : forall n a b, length a + length b < n -> normalize a = normalize b -> same_key a b);
      [|intros H; eapply G; [apply Nat.lt_succ_diag_r|exact H]].
    clear a b. induction n as [|n IH]; intros a b En H; [lia|].
    destruct a as [|x a].
    + destruct b as [|y b]; [constructor|]. simpl in H.
      destruct (isspace y) eqn:E; [|discriminate].
      apply sk_right; [apply isspace_spec, E|]. apply IH; [simpl in *; lia|exact H].
    + cbn [normalize] in H. destruct (isspace x) eqn:Ex.
      * apply sk_left; [apply isspace_spec, Ex|]. apply IH; [simpl in *; lia|exact H].
      * destruct b as [|y b]; [discriminate|]. cbn [normalize] in H.
        destruct (isspace y) eqn:Ey.
        -- apply sk_right; [apply isspace_spec, Ey|]. apply IH; [simpl in *; lia|].
           cbn [normalize]. rewrite Ex. exact H.
        -- injection H as H1 H2. apply sk_both; [apply tolower_ci, H1|].
           apply IH; [simpl in *; lia|exact H2].
  - induction 1 as [|c a b S _ IH|c a b S _ IH|c d a b C _ IH]; cbn [normalize].
    + reflexivity.
    + rewrite (proj2 (isspace_spec c) S). exact IH.
    + rewrite (proj2 (isspace_spec c) S). exact IH.
    + rewrite (ci_space _ _ C), IH, (proj2 (tolower_ci c d) C). reflexivity.
Qed.

Lemma same_ci_key a b : same_ci a b -> same_key a b.
Proof. induction 1; [constructor|apply sk_both; auto]. Qed.

Lemma same_key_sym a b : same_key a b -> same_key b a.
Proof. rewrite <- !normalize_key. congruence. Qed.
Lemma same_key_trans a b c : same_key a b -> same_key b c -> same_key a c.
Proof. rewrite <- !normalize_key. congruence. Qed.
Lemma same_ci_sym a b : same_ci a b -> same_ci b a.
Proof. rewrite <- !casecmp_ci, !casecmp_map. congruence. Qed.
Lemma same_ci_trans a b c : same_ci a b -> same_ci b c -> same_ci a c.
Proof. rewrite <- !casecmp_ci, !casecmp_map. congruence. Qed.
Lemma same_ci_nil a : same_ci a [] -> a = [].
Proof. inversion 1; reflexivity. Qed.

(** ** Lookup *)
Definition named (same : str -> bool) (k : str) : Prop := k <> [] /\ same k = true.

Lemma named_dec same k : {named same k} + {~ named same k}.
Proof.
  unfold named. destruct k as [|c k]; [right; intros [H _]; auto|].
  destruct (same (c :: k)); [left|right]; try split; try congruence. intros [_ H]; discriminate.
Qed.

Lemma get_with_cons same k v m :
  get_with same ((k, v) :: m) = if named_dec same k then Some v else get_with same m.
Proof.
  cbn [get_with]. destruct (named_dec same k) as [[N E]|N]; destruct k as [|c k]; try congruence.
  - rewrite E. reflexivity.
  - destruct (same (c :: k)) eqn:E; [|reflexivity]. destruct N. split; [discriminate|exact E].
Qed.

Lemma get_with_some same m v :
  get_with same m = Some v <-> first_item (named same) m v.
Proof.
  unfold first_item. induction m as [|[k w] m IH].
  - split; [discriminate|]. intros (a & k & b & H & _). destruct a; discriminate.
  - rewrite get_with_cons. destruct (named_dec same k) as [N|N].
    + split.
      * intros [= ->]. exists [], k, m. split; [reflexivity|]. split; [exact N|]. intros ? ? [].
      * intros (a & k1 & b & H & P & F). destruct a as [|[k2 v2] a]; simpl in H.
        -- injection H as -> -> _. reflexivity.
        -- injection H as -> -> _. destruct (F k2 v2 (or_introl eq_refl) N).
    + rewrite IH. split.
      * intros (a & k1 & b & -> & P & F). exists ((k, w) :: a), k1, b. split; [reflexivity|].
        split; [exact P|]. intros k' v' [[= <- <-]|I]; [exact N|exact (F k' v' I)].
      * intros (a & k1 & b & H & P & F). destruct a as [|[k2 v2] a]; simpl in H.
        -- injection H as -> -> _. destruct (N P).
        -- injection H as _ _ ->. exists a, k1, b. split; [reflexivity|]. split; [exact P|].
           intros k' v' I. apply (F k' v'). right; exact I.
Qed.

Lemma get_with_none same m :
  get_with same m = None <-> no_item (named same) m.
Proof.
  unfold no_item. induction m as [|[k w] m IH]; [split; [intros _ ? ? []|reflexivity]|].
  rewrite get_with_cons. destruct (named_dec same k) as [N|N].
  - split; [discriminate|]. intros H. destruct (H k w (or_introl eq_refl) N).
  - rewrite IH. split.
    + intros H k' v' [[= <- <-]|I]; [exact N|exact (H k' v' I)].
    + intros H k' v' I. apply (H k' v'). right; exact I.
Qed.

Lemma first_item_ext {V} (P Q : str -> Prop) (m : list (str * V)) v :
  (forall k, P k <-> Q k) -> first_item P m v -> first_item Q m v.
Proof.
  intros E (a & k & b & H & Pk & F). exists a, k, b. split; [exact H|].
  split; [apply E, Pk|]. intros k' v' I X. apply (F k' v' I), E, X.
Qed.
Lemma no_item_ext {V} (P Q : str -> Prop) (m : list (str * V)) :
  (forall k, P k <-> Q k) -> no_item P m -> no_item Q m.
Proof. intros E H k v I X. apply (H k v I), E, X. Qed.

Lemma named_ci key k : named (fun k => casecmp k key) k <-> k <> [] /\ same_ci k key.
Proof. unfold named. rewrite casecmp_ci. tauto. Qed.
Lemma named_key key k :
  named (fun k => seq_ (normalize k) (normalize key)) k <-> k <> [] /\ same_key k key.
Proof. unfold named. rewrite seq_eq, normalize_key. tauto. Qed.

Lemma meta_get_unfold m key :
  key <> [] ->
  meta_get m key = match get_with (fun k => casecmp k key) m with
                   | Some v => Some v
                   | None => get_with (fun k => seq_ (normalize k) (normalize key)) m
                   end.
Proof. destruct m, key; try reflexivity; congruence. Qed.

Lemma meta_get_nil_key m : meta_get m [] = None.
Proof. destruct m; reflexivity. Qed.

Lemma get_finds m key v : key <> [] -> (meta_get m key = Some v <-> finds m key v).
Proof.
  intros N. rewrite meta_get_unfold by exact N. unfold finds. split.
  - destruct (get_with (fun k => casecmp k key) m) as [w|] eqn:E.
    + intros [= ->]. left. apply get_with_some in E. eapply first_item_ext; [|exact E].
      apply named_ci.
    + intros H. right. split.
      * apply get_with_none in E. eapply no_item_ext; [|exact E]. apply named_ci.
      * apply get_with_some in H. eapply first_item_ext; [|exact H]. apply named_key.
  - intros [H|[H1 H2]].
    + apply (first_item_ext _ (named (fun k => casecmp k key))) in H; [|intros; rewrite named_ci; tauto].
      apply get_with_some in H. rewrite H. reflexivity.
    + apply (no_item_ext _ (named (fun k => casecmp k key))) in H1; [|intros; rewrite named_ci; tauto].
      apply get_with_none in H1. rewrite H1. apply get_with_some.
      eapply first_item_ext; [|exact H2]. intros; rewrite named_key; tauto.
Qed.

Lemma get_found m key :
  key <> [] ->
  (meta_get m key <> None <-> exists k v, In (k, v) m /\ k <> [] /\ same_key k key).
Proof.
  intros N. rewrite meta_get_unfold by exact N.
  destruct (get_with (fun k => casecmp k key) m) as [w|] eqn:E.
  - split; [|discriminate]. intros _. apply get_with_some in E as (a & k & b & -> & P & _).
    apply named_ci in P as [P1 P2]. exists k, w. split; [apply in_elt|].
    split; [exact P1|apply same_ci_key, P2].
  - destruct (get_with (fun k => seq_ (normalize k) (normalize key)) m) as [w|] eqn:E2.
    + split; [|discriminate]. intros _. apply get_with_some in E2 as (a & k & b & -> & P & _).
      apply named_key in P as [P1 P2]. exists k, w. split; [apply in_elt|]. auto.
    + split; [congruence|]. intros (k & v & I & K & S). exfalso.
      apply get_with_none in E2. apply (E2 k v I). apply named_key. auto.
Qed.

(** ** Merging: the items of one case class *)
Definition cls (k0 : str) (m : meta) : meta := filter (fun i => casecmp (fst i) k0) m.

Lemma casecmp_swap k a b : casecmp a b = true -> casecmp a k = casecmp b k.
Proof.
  intros H. apply casecmp_map in H. unfold casecmp. rewrite H. reflexivity.
Qed.

Lemma cls_remove k0 k m :
  cls k0 (remove_key k m) = if casecmp k k0 then tl (cls k0 m) else cls k0 m.
Proof.
  induction m as [|[k' v] m IH]; cbn [remove_key cls filter].
  - destruct (casecmp k k0); reflexivity.
  - destruct (casecmp k' k) eqn:E.
    + cbn [fst]. rewrite (casecmp_swap k0 _ _ E). destruct (casecmp k k0); reflexivity.
    + cbn [cls filter fst]. fold (cls k0 (remove_key k m)). rewrite IH.
      destruct (casecmp k' k0) eqn:E1.
      * destruct (casecmp k k0) eqn:E2; [|reflexivity]. exfalso.
        apply casecmp_map in E1, E2. unfold casecmp in E. rewrite E1, E2 in E.
        rewrite (proj2 (seq_eq _ _) eq_refl) in E. discriminate.
      * reflexivity.
Qed.

Lemma cls_merge_list k0 src : forall r,
  cls k0 (merge_list r src) =
  match rev (cls k0 src) with
  | [] => cls k0 r
  | x :: _ => x :: tl (cls k0 r)
  end.
Proof.
  induction src as [|[k v] src IH]; intros r; [reflexivity|].
  cbn [merge_list]. rewrite IH. unfold add_item. cbn [cls filter fst].
  fold (cls k0 src). fold (cls k0 (remove_key k r)). rewrite cls_remove.
  destruct (casecmp k k0).
  - cbn [rev]. destruct (rev (cls k0 src)) as [|x l]; reflexivity.
  - reflexivity.
Qed.

Lemma rev_filter {A} (f : A -> bool) l : filter f (rev l) = rev (filter f l).
Proof.
  induction l as [|a l IH]; [reflexivity|]. cbn [rev filter]. rewrite filter_app, IH. simpl.
  destruct (f a); [reflexivity|]. rewrite app_nil_r. reflexivity.
Qed.
Lemma cls_rev k0 m : cls k0 (rev m) = rev (cls k0 m).
Proof. apply rev_filter. Qed.
Lemma cls_app k0 a b : cls k0 (a ++ b) = cls k0 a ++ cls k0 b.
Proof. apply filter_app. Qed.

Lemma merge_rest_cls k0 args : forall r,
  Forall (fun l => l <> []) args ->
  hd_error (cls k0 (merge_rest r args)) = hd_error (rev (cls k0 (rev r ++ concat args))).
Proof.
  induction args as [|l args IH]; intros r F.
  - cbn [merge_rest concat]. rewrite app_nil_r, cls_rev, rev_involutive. reflexivity.
  - inversion F as [|? ? N F']; subst. destruct l as [|i l]; [congruence|].
    cbn [merge_rest]. rewrite IH by exact F'. cbn [concat].
    rewrite !cls_app, !cls_rev, cls_merge_list, !rev_app_distr, !rev_involutive.
    set (L := cls k0 (i :: l)). destruct (rev (cls k0 (concat args))); [|reflexivity].
    cbn [app]. destruct (rev L); reflexivity.
Qed.

Lemma merge_cls_hd k0 first args :
  Forall (fun l => l <> []) args ->
  hd_error (cls k0 (merge first args)) = hd_error (rev (cls k0 (first ++ concat args))).
Proof.
  intros F. unfold merge. rewrite merge_rest_cls by exact F. rewrite rev_involutive. reflexivity.
Qed.

Lemma get_with_cls k0 m :
  k0 <> [] -> get_with (fun k => casecmp k k0) m = option_map snd (hd_error (cls k0 m)).
Proof.
  intros N. induction m as [|[k v] m IH]; [reflexivity|].
  rewrite get_with_cons. cbn [cls filter fst]. fold (cls k0 m).
  destruct (named_dec (fun k => casecmp k k0) k) as [[_ E]|E].
  - rewrite E. reflexivity.
  - destruct (casecmp k k0) eqn:C; [|exact IH]. destruct E. split; [|exact C].
    intros ->. apply casecmp_ci in C. apply N, same_ci_nil, same_ci_sym, C.
Qed.

(** Every item of a merged list comes from one of the sources. *)
Lemma remove_key_in k m i : In i (remove_key k m) -> In i m.
Proof.
  induction m as [|[k' v] m IH]; [intros []|]. cbn [remove_key].
  destruct (casecmp k' k); [right; auto|]. intros [<-|H]; [left; reflexivity|right; auto].
Qed.
Lemma merge_list_in src : forall r i, In i (merge_list r src) -> In i r \/ In i src.
Proof.
  induction src as [|[k v] src IH]; intros r i H; [left; exact H|].
  cbn [merge_list] in H. apply IH in H as [[<-|H]|H].
  - right; left; reflexivity.
  - left; eapply remove_key_in, H.
  - right; right; exact H.
Qed.
Lemma merge_rest_in args : forall r i, In i (merge_rest r args) -> In i r \/ In i (concat args).
Proof.
  induction args as [|l args IH]; intros r i H; [left; exact H|].
  destruct l as [|x l]; [left; exact H|]. cbn [merge_rest] in H.
  apply IH in H as [H|H].
  - apply merge_list_in in H as [H|H]; [left; exact H|]. right. cbn [concat]. apply in_or_app; auto.
  - right. cbn [concat]. apply in_or_app; auto.
Qed.
Lemma merge_in first args i : In i (merge first args) -> In i (first ++ concat args).
Proof.
  intros H. apply merge_rest_in in H as [H|H]; apply in_or_app; [left; apply in_rev, H|right; exact H].
Qed.

(** ** Exact spelling: the last item of the last source wins *)
Lemma hd_rev_last (P : str -> Prop) k0 (m : meta) i :
  (forall k, casecmp k k0 = true <-> P k) ->
  hd_error (rev (cls k0 m)) = Some i -> last_item P m (snd i).
Proof.
  intros E H. rewrite <- cls_rev in H. unfold last_item.
  assert (G : forall l, hd_error (cls k0 l) = Some i ->
            exists a k b, l = a ++ (k, snd i) :: b /\ P k /\ forall k' v', In (k', v') a -> ~ P k').
  { induction l as [|[k v] l IH]; [discriminate|]. cbn [cls filter fst]. fold (cls k0 l).
    destruct (casecmp k k0) eqn:C.
    - cbn [hd_error]. intros [= <-]. exists [], k, l. split; [reflexivity|].
      split; [apply E, C|intros ? ? []].
    - intros X. destruct (IH X) as (a & k1 & b & -> & P1 & F). exists ((k, v) :: a), k1, b.
      split; [reflexivity|]. split; [exact P1|]. intros k' v' [[= <- <-]|I]; [|exact (F _ _ I)].
      intros Q. apply E in Q. congruence. }
  destruct (G _ H) as (a & k & b & E1 & P1 & F).
  exists (rev b), k, (rev a). split.
  - rewrite <- (rev_involutive m), E1, rev_app_distr. cbn [rev]. rewrite <- app_assoc. reflexivity.
  - split; [exact P1|]. intros k' v' I. apply (F k' v'), in_rev, I.
Qed.

Lemma last_item_fun {V} (P : str -> Prop) (m : list (str * V)) v w :
  last_item P m v -> last_item P m w -> v = w.
Proof.
  intros (a & k & b & E1 & P1 & F1) (c & k' & d & E2 & P2 & F2). subst m.
  revert c E2. induction a as [|x a IH]; intros c E2.
  - destruct c as [|y c]; simpl in E2; [congruence|]. injection E2 as _ ->.
    destruct (F1 k' w (in_elt _ _ _) P2).
  - destruct c as [|y c]; simpl in E2.
    + injection E2 as -> E. subst d. destruct (F2 k v (in_elt _ _ _) P1).
    + injection E2 as _ E. eapply IH, E.
Qed.

Lemma merge_spelled first args key v :
  key <> [] -> Forall (fun l => l <> []) args ->
  last_item (fun k => same_ci k key) (first ++ concat args) v ->
  meta_get (merge first args) key = Some v.
Proof.
  intros N F L. rewrite meta_get_unfold by exact N. rewrite get_with_cls by exact N.
  rewrite merge_cls_hd by exact F.
  destruct (hd_error (rev (cls key (first ++ concat args)))) as [i|] eqn:E.
  - cbn [option_map]. f_equal. eapply last_item_fun; [|exact L].
    eapply hd_rev_last; [|exact E]. intros; apply casecmp_ci.
  - exfalso. destruct L as (a & k & b & E1 & P & _). rewrite E1 in E.
    rewrite <- cls_rev, rev_app_distr in E. cbn [rev] in E. rewrite !cls_app in E.
    unfold cls in E at 2. cbn [filter fst] in E.
    rewrite (proj2 (casecmp_ci k key) P) in E.
    destruct (cls key (rev b)); discriminate.
Qed.

(** ** One spelling in every source: the last source that mentions the key wins *)
Definition mentions (key : str) (l : meta) : Prop :=
  exists k v, In (k, v) l /\ k <> [] /\ same_key k key.

Lemma no_item_mentions key (l : meta) :
  no_item (fun k => k <> [] /\ same_key k key) l <-> ~ mentions key l.
Proof.
  unfold no_item, mentions. split.
  - intros H (k & v & I & N & S). apply (H k v I). auto.
  - intros H k v I [N S]. apply H. exists k, v. auto.
Qed.

Lemma mentions_dec key l : {mentions key l} + {~ mentions key l}.
Proof.
  destruct (get_with (fun k => seq_ (normalize k) (normalize key)) l) as [v|] eqn:E.
  - left. apply get_with_some in E as (a & k & b & -> & P & _). apply named_key in P as [P1 P2].
    exists k, v. split; [apply in_elt|auto].
  - right. apply get_with_none in E. apply no_item_mentions. eapply no_item_ext; [|exact E].
    apply named_key.
Qed.

(** The items for [key] in a one-spelling list. *)
Lemma one_cls key k0 l :
  one_spelling key k0 l -> same_key k0 key -> k0 <> [] ->
  (mentions key l -> exists i, cls k0 l = [i]) /\ (~ mentions key l -> cls k0 l = []).
Proof.
  intros [H1 H2] S0 N0.
  assert (K : forall k v, In (k, v) l -> casecmp k k0 = true -> k <> [] /\ same_key k key).
  { intros k v I C. apply casecmp_ci in C. split.
    - intros ->. apply N0, same_ci_nil, same_ci_sym, C.
    - eapply same_key_trans; [apply same_ci_key, C|exact S0]. }
  split.
  - intros (k & v & I & N & S). apply in_split in I as (a & b & E).
    destruct (H2 a k v b E N S) as [Fa Fb]. exists (k, v). rewrite E, cls_app.
    unfold cls at 2. cbn [filter fst].
    assert (casecmp k k0 = true) as ->.
    { apply casecmp_ci. eapply H1; [rewrite E; apply in_elt|exact N|exact S]. }
    fold (cls k0 b).
    assert (Z : forall l', (forall i, In i l' -> In i l) ->
              no_item (fun k => k <> [] /\ same_key k key) l' -> cls k0 l' = []).
    { induction l' as [|[k' v'] l' IH]; intros Sub F; [reflexivity|]. cbn [cls filter fst].
      destruct (casecmp k' k0) eqn:C.
      - destruct (F k' v' (or_introl eq_refl)). eapply K; [|exact C].
        apply Sub. left; reflexivity.
      - apply IH; [intros i I; apply Sub; right; exact I|].
        intros k1 v1 I. apply (F k1 v1). right; exact I. }
    rewrite (Z a), (Z b); auto; intros i I; rewrite E; apply in_or_app; simpl; auto.
  - intros M. induction l as [|[k v] l IH]; [reflexivity|]. cbn [cls filter fst].
    destruct (casecmp k k0) eqn:C.
    + destruct M. exists k, v. split; [left; reflexivity|]. eapply K; [left; reflexivity|exact C].
    + apply IH.
      * intros k' v' I. apply (H1 k' v'). right; exact I.
      * intros a k' v' b E N S. destruct (H2 ((k, v) :: a) k' v' b) as [A1 A2]; auto.
        { rewrite E; reflexivity. }
        split; [|exact A2]. intros k1 v1 I. apply (A1 k1 v1). right; exact I.
      * intros k' v' I. apply (K k' v'). right; exact I.
      * intros (k' & v' & I & N & S). apply M. exists k', v'. split; [right; exact I|auto].
Qed.

Lemma get_of_cls key k0 m :
  same_key k0 key -> k0 <> [] -> key <> [] ->
  (forall k v, In (k, v) m -> k <> [] -> same_key k key -> same_ci k k0) ->
  meta_get m key = option_map snd (hd_error (cls k0 m)).
Proof.
  intros S0 N0 NK H. rewrite meta_get_unfold by exact NK.
  assert (Z : get_with (fun k => seq_ (normalize k) (normalize key)) m
              = get_with (fun k => casecmp k k0) m).
  { induction m as [|[k v] m IH]; [reflexivity|]. rewrite !get_with_cons.
    rewrite IH by (intros k' v' I; apply (H k' v'); right; exact I).
    destruct (named_dec (fun k => seq_ (normalize k) (normalize key)) k) as [P|P];
      destruct (named_dec (fun k => casecmp k k0) k) as [Q|Q]; try reflexivity.
    - exfalso. apply Q. apply named_key in P as [P1 P2]. apply named_ci. split; [exact P1|].
      eapply H; [left; reflexivity|exact P1|exact P2].
    - exfalso. apply P. apply named_ci in Q as [Q1 Q2]. apply named_key. split; [exact Q1|].
      eapply same_key_trans; [apply same_ci_key, Q2|exact S0]. }
  rewrite Z, <- get_with_cls by exact N0.
  destruct (get_with (fun k => casecmp k key) m) as [v|] eqn:E; [|reflexivity].
  assert (C : same_ci k0 key).
  { apply get_with_some in E as (a & k & b & -> & P & _). apply named_ci in P as [P1 P2].
    eapply same_ci_trans; [|exact P2]. apply same_ci_sym.
    eapply H; [apply in_elt|exact P1|apply same_ci_key, P2]. }
  rewrite <- E. clear E. unfold casecmp. apply casecmp_ci, casecmp_map in C. rewrite C. reflexivity.
Qed.

(** What a list of sources says about a key: the last that mentions it. *)
Fixpoint last_class (k0 : str) (acc : meta) (sources : list meta) : meta :=
  match sources with
  | [] => acc
  | l :: r => last_class k0 (match cls k0 l with [] => acc | x => x end) r
  end.

Lemma merge_rest_class k0 args : forall r,
  Forall (fun l => l <> []) args -> Forall (fun l => length (cls k0 l) <= 1) args ->
  length (cls k0 r) <= 1 ->
  cls k0 (merge_rest r args) = last_class k0 (cls k0 r) args.
Proof.
  induction args as [|l args IH]; intros r F C L; [reflexivity|].
  inversion F as [|? ? N F']; subst. inversion C as [|? ? Cl C']; subst.
  destruct l as [|i l]; [congruence|]. cbn [merge_rest last_class].
  assert (E : cls k0 (merge_list r (i :: l)) = match cls k0 (i :: l) with [] => cls k0 r | x => x end).
  { rewrite cls_merge_list. set (z := cls k0 (i :: l)) in *.
    destruct z as [|x [|y z]]; [reflexivity| |cbn in Cl; lia]. cbn.
    destruct (cls k0 r) as [|a [|b t]]; [reflexivity|reflexivity|cbn in L; lia]. }
  rewrite IH; auto.
  - rewrite E. reflexivity.
  - rewrite E. destruct (cls k0 (i :: l)); [exact L|exact Cl].
Qed.

Lemma merge_class k0 first args :
  Forall (fun l => l <> []) args -> Forall (fun l => length (cls k0 l) <= 1) (first :: args) ->
  cls k0 (merge first args) = last_class k0 [] (first :: args).
Proof.
  intros F C. inversion C as [|? ? C1 C2]; subst. unfold merge.
  assert (E : cls k0 (rev first) = cls k0 first).
  { rewrite cls_rev. destruct (cls k0 first) as [|a [|b t]]; [reflexivity|reflexivity|cbn in C1; lia]. }
  rewrite merge_rest_class; auto; rewrite E; [|exact C1].
  cbn [last_class]. destruct (cls k0 first); reflexivity.
Qed.

Lemma last_class_app k0 a b acc :
  last_class k0 acc (a ++ b) = last_class k0 (last_class k0 acc a) b.
Proof. revert acc; induction a as [|l a IH]; intros acc; [reflexivity|]. cbn. apply IH. Qed.

Lemma last_class_le k0 a : forall acc, length acc <= 1 ->
  Forall (fun l => length (cls k0 l) <= 1) a -> length (last_class k0 acc a) <= 1.
Proof.
  induction a as [|l a IH]; intros acc H F; [exact H|]. inversion F; subst. cbn. apply IH; auto.
  destruct (cls k0 l); auto.
Qed.

Lemma last_class_overrides key k0 sources :
  same_key k0 key -> k0 <> [] -> key <> [] -> Forall (one_spelling key k0) sources ->
  overrides meta_get sources key (option_map snd (hd_error (last_class k0 [] sources))).
Proof.
  intros S0 N0 NK. induction sources as [|l sources IH] using rev_ind; intros F.
  - left. split; [reflexivity|constructor].
  - apply Forall_app in F as [F1 F2]. inversion F2 as [|? ? Fl _]; subst.
    rewrite last_class_app. cbn [last_class].
    destruct (one_cls _ _ _ Fl S0 N0) as [Y Z].
    destruct (mentions_dec key l) as [M|M].
    + right. destruct (Y M) as [i Ei]. exists sources, l, []. split; [reflexivity|].
      split; [rewrite no_item_mentions; tauto|]. split; [constructor|].
      rewrite (get_of_cls key k0) by (try assumption; apply (proj1 Fl)).
      rewrite Ei. reflexivity.
    + rewrite (Z M). destruct (IH F1) as [[E1 E2]|(a & l' & b & E1 & E2 & E3 & E4)].
      * left. split; [exact E1|]. apply Forall_app. split; [exact E2|].
        constructor; [apply no_item_mentions, M|constructor].
      * right. exists a, l', (b ++ [l]). split; [rewrite E1, <- app_assoc; reflexivity|].
        split; [exact E2|]. split; [|exact E4]. apply Forall_app. split; [exact E3|].
        constructor; [apply no_item_mentions, M|constructor].
Qed.

Lemma none_overrides key sources m :
  key <> [] -> Forall (fun l => ~ mentions key l) sources ->
  (forall i, In i m -> In i (concat sources)) ->
  overrides meta_get sources key (meta_get m key).
Proof.
  intros NK F Sub. left. split.
  - destruct (meta_get m key) as [v|] eqn:E; [|reflexivity]. exfalso.
    assert (H : meta_get m key <> None) by (rewrite E; discriminate).
    apply get_found in H as (k & w & I & N & S); [|exact NK]. apply Sub in I.
    apply in_concat in I as (l & L & I). rewrite Forall_forall in F. apply (F l L).
    exists k, w. auto.
  - eapply Forall_impl; [|exact F]. intros l H. apply no_item_mentions, H.
Qed.

Lemma sources_overrides key k0 sources m :
  key <> [] -> Forall (one_spelling key k0) sources ->
  (forall i, In i m -> In i (concat sources)) ->
  (same_key k0 key -> k0 <> [] -> cls k0 m = last_class k0 [] sources) ->
  overrides meta_get sources key (meta_get m key).
Proof.
  intros NK F Sub H.
  destruct (Exists_dec (mentions key) sources (mentions_dec key)) as [X|X].
  - apply Exists_exists in X as (l & L & k & v & I & N & S).
    rewrite Forall_forall in F. pose proof (F l L) as [Fl _].
    pose proof (Fl k v I N S) as C.
    assert (S0 : same_key k0 key).
    { eapply same_key_trans; [|exact S]. apply same_key_sym, same_ci_key, C. }
    assert (N0 : k0 <> []) by (intros ->; apply N, same_ci_nil, C).
    rewrite (get_of_cls key k0); try assumption.
    + rewrite H by assumption. apply last_class_overrides; try assumption.
      apply Forall_forall. exact F.
    + intros k' v' I' N' S'. apply Sub in I'. apply in_concat in I' as (l' & L' & I').
      eapply (proj1 (F l' L')); eauto.
  - apply none_overrides; [exact NK| |exact Sub]. apply Forall_Exists_neg, X.
Qed.

Lemma one_le key k0 sources :
  same_key k0 key -> k0 <> [] -> Forall (one_spelling key k0) sources ->
  Forall (fun l => length (cls k0 l) <= 1) sources.
Proof.
  intros S N F. eapply Forall_impl; [|exact F]. intros l H.
  destruct (one_cls _ _ _ H S N) as [Y Z]. destruct (mentions_dec key l) as [M|M].
  - destruct (Y M) as [i ->]. cbn; lia.
  - rewrite (Z M). cbn; lia.
Qed.

Lemma merge_overrides key k0 first args :
  key <> [] -> Forall (fun l => l <> []) args ->
  Forall (one_spelling key k0) (first :: args) ->
  overrides meta_get (first :: args) key (meta_get (merge first args) key).
Proof.
  intros NK F O. eapply sources_overrides; [exact NK|exact O| |].
  - intros i I. cbn [concat]. apply merge_in, I.
  - intros S N. apply merge_class; [exact F|]. eapply one_le; eauto.
Qed.

(** ** The sources of one conversion *)
Lemma merge_snoc_nil first args : merge first (args ++ [[]]) = merge first args.
Proof.
  unfold merge. generalize (rev first). induction args as [|l args IH]; intros r; [reflexivity|].
  cbn [app]. destruct l; [reflexivity|]. cbn [merge_rest]. apply IH.
Qed.

Lemma merge2_class k0 a b c :
  (b <> [] \/ c = []) ->
  Forall (fun l => length (cls k0 l) <= 1) [a; b; c] ->
  cls k0 (merge a [b; c]) = last_class k0 [] [a; b; c].
Proof.
  intros G C. inversion C as [|? ? Ca C1]; subst. inversion C1 as [|? ? Cb C2]; subst.
  destruct c as [|ci c].
  - assert (E : merge a [b; []] = merge a [b]) by apply (merge_snoc_nil a [b]). rewrite E.
    destruct b as [|bi b].
    + assert (E2 : merge a [[]] = merge a []) by apply (merge_snoc_nil a []). rewrite E2.
      rewrite merge_class; [reflexivity|apply Forall_nil|apply Forall_cons; [exact Ca|apply Forall_nil]].
    + rewrite merge_class; [reflexivity|repeat constructor; discriminate|].
      constructor; [exact Ca|]. constructor; [exact Cb|constructor].
  - destruct G as [G|G]; [|discriminate]. apply merge_class; [|exact C].
    constructor; [exact G|]. constructor; [discriminate|constructor].
Qed.

Lemma cli_overrides key k0 g p e d c :
  key <> [] -> (p <> [] \/ e = []) -> (d <> [] \/ c = []) ->
  Forall (one_spelling key k0) [g; p; e; d; c] ->
  overrides meta_get [g; p; e; d; c] key (meta_get (cli_merge g p e d c) key).
Proof.
  intros NK G1 G2 O. eapply sources_overrides; [exact NK|exact O| |].
  - intros i I. unfold cli_merge in I. apply merge_in in I. apply in_app_or in I as [I|I].
    + apply merge_in in I. cbn [concat] in *. rewrite app_nil_r in I.
      rewrite !in_app_iff in *. tauto.
    + cbn [concat] in *. rewrite !in_app_iff in *. tauto.
  - intros S N. pose proof (one_le _ _ _ S N O) as L. unfold cli_merge.
    assert (L1 : Forall (fun l => length (cls k0 l) <= 1) [g; p; e]).
    { rewrite Forall_forall in L |- *. intros l I. apply L. cbn in *. tauto. }
    assert (Ld : Forall (fun l => length (cls k0 l) <= 1) [d; c]).
    { rewrite Forall_forall in L |- *. intros l I. apply L. cbn in *. tauto. }
    assert (E : cls k0 (merge g [p; e]) = last_class k0 [] [g; p; e]) by (apply merge2_class; auto).
    rewrite merge2_class; [|exact G2|].
    + cbn [last_class] in *. rewrite E.
      set (x := match cls k0 e with [] => _ | y => y end). destruct x; reflexivity.
    + constructor; [|exact Ld]. rewrite E. apply last_class_le; [cbn; lia|exact L1].
Qed.

(** Everything after a missing source is dropped. *)
Lemma merge_gap first before after :
  merge first (before ++ [] :: after) = merge first before.
Proof.
  unfold merge. generalize (rev first). induction before as [|l b IH]; intros r; [reflexivity|].
  cbn [app]. destruct l; [reflexivity|]. cbn [merge_rest]. apply IH.
Qed.

Lemma cli_lost g p e c : cli_merge g p e [] c = rev (merge g [p; e]).
Proof. unfold cli_merge. apply (merge_gap _ [] [c]). Qed.
