(** Lemmas on attribute lists. *)
From Verif Require Import Base BaseL M_Attr S_Attr L_Put.
From Verif Require L_Highlight.

(** ** Reading *)
Definition spaces (w : str) : Prop := forall c, In c w -> isspace c = true.
Lemma span_stop_at f x r : (forall c, In c x -> f c = true) -> (forall c q, r = c :: q -> f c = false) -> span f (x ++ r) = (x, r).
Proof.
  induction x as [|c x IH]; intros Hx Hr; cbn [app span].
  - destruct r as [|d r]; [reflexivity|]. cbn [span]. now rewrite (Hr d r eq_refl).
  - rewrite (Hx c (or_introl eq_refl)), IH; auto. intros d I. apply Hx. now right.
Qed.
Lemma skip_spaces w s : spaces w -> (forall c r, s = c :: r -> isspace c = false) -> snd (span isspace (w ++ s)) = s.
Proof. intros Hw Hs. now rewrite (span_stop_at isspace w s Hw Hs). Qed.
Lemma space_not c d : isspace d = false -> isspace c = true -> ceq c d = false.
Proof. intros Hd Hc. apply ceq_neq. intros ->. congruence. Qed.
Lemma to_quote_spec q v r : (q = DQ \/ q = SQ) -> none_of [q; BS] v -> to_quote q (v ++ q :: r) = Some (v, r).
Proof.
  intros Hq. induction v as [|c v IH]; intro N; cbn [app to_quote].
  - now rewrite ceq_refl.
  - assert (ceq c q = false) as -> by (apply ceq_neq; intros ->; apply (N q); [now left|cbn; tauto]).
    assert (ceq c BS = false) as -> by (apply ceq_neq; intros ->; apply (N BS); [now left|cbn; tauto]).
    rewrite IH; [reflexivity|]. intros d I. apply N. now right.
Qed.
Lemma curly_iff s : curly s = true <-> exists r, s = left_quote ++ r \/ s = right_quote ++ r.
Proof.
  unfold curly. rewrite Bool.orb_true_iff, !starts_spec. split.
  - intros [[r E]|[r E]]; exists r; auto.
  - intros [r [E|E]]; [left|right]; now exists r.
Qed.
Lemma to_curly_spec o v r : (o = left_quote \/ o = right_quote) -> (forall a b, v <> a ++ left_quote ++ b /\ v <> a ++ right_quote ++ b) ->
  to_curly (v ++ o ++ r) = Some (v, r).
Proof.
  intros Ho. induction v as [|c v IH]; intro N.
  - cbn [app]. destruct Ho as [-> | ->]; reflexivity.
  - assert (E : curly ((c :: v) ++ o ++ r) = false).
    { destruct (curly ((c :: v) ++ o ++ r)) eqn:E; [|reflexivity]. apply curly_iff in E. destruct E as [q E]. exfalso.
      destruct v as [|d [|e v]].
      - destruct Ho as [-> | ->]; destruct E as [E|E]; discriminate.
      - destruct Ho as [-> | ->]; destruct E as [E|E]; discriminate.
      - destruct E as [E|E]; injection E as -> -> -> E; destruct (N [] v) as [N1 N2]; (now apply N1) || (now apply N2). }
    cbn [app to_curly] in *. rewrite E, IH; [reflexivity|]. intros a b. destruct (N (c :: a) b) as [N1 N2]. split; intros ->; (now apply N1) || (now apply N2).
Qed.
Lemma marker_some k d : marker k = Some d <-> In (k, d) meaning.
Proof.
  unfold marker. change meaning with markers. split.
  - destruct (find _ markers) as [[k' d']|] eqn:E; [|discriminate]. intro H. injection H as <-. apply find_some in E. destruct E as [I E]. cbn [fst] in E. apply seq_eq in E. now subst.
  - intro I. repeat (destruct I as [I|I]; [injection I as <- <-; reflexivity|]). destruct I.
Qed.
Lemma marker_none k : marker k = None <-> forall d, ~ In (k, d) meaning.
Proof.
  split.
  - intros E d I. apply marker_some in I. congruence.
  - intro H. destruct (marker k) as [d|] eqn:E; [|reflexivity]. apply marker_some in E. now apply H in E.
Qed.
Definition apply_item (i : item) (a : attrs) : attrs :=
  match i with
  | Id x => set_id x a
  | Class x => add_class x a
  | Quoted k _ v | Curly k _ v _ | Unquoted k v => add_pair k v a
  | Known k => match marker k with Some d => add_pair d (B "1") a | None => a end
  | Word _ => a
  end.
Lemma name_span k r : name k -> (forall c q, r = c :: q -> In c (B "=}" ++ [SP; TAB])) ->
  span (fun c => negb (ceq c "=") && negb (ceq c SP) && negb (ceq c TAB) && negb (ceq c "}"))%bool (k ++ r) = (k, r).
Proof.
  intros [N _] Hr. apply span_stop_at.
  - intros c I. apply N in I. rewrite !Bool.andb_true_iff, !Bool.negb_true_iff, !ceq_neq. cbn in I. intuition auto.
  - intros c q E. apply Hr in E. cbn in E. destruct E as [<-|[<-|[<-|[<-|[]]]]]; reflexivity.
Qed.
Lemma known_name k d : In (k, d) meaning -> k <> [] /\ name k.
Proof.
  intro I. cbn in I. repeat (destruct I as [I|I]; [injection I as <- <-; (split; [discriminate|split; [intros c I; cbn in *; intuition (subst; discriminate)|intros c r E; injection E as <- _; repeat split; try reflexivity; discriminate]])|]). destruct I.
Qed.
(** One item. *)
Lemma item_step fuel i s a : proper i -> follows i s -> match i with Word _ => s <> [] | _ => True end ->
  forall w, spaces w -> exists s', parse_loop (S fuel) (w ++ written i ++ s) a = parse_loop fuel s' (apply_item i a) /\
    match i with Word _ => exists c, (c = SP \/ c = TAB) /\ s = c :: s' | _ => s' = s end.
Proof.
  intros P F Ns w Hw. cbn [parse_loop].
  assert (Key : forall k v, k <> [] -> name k -> exists c k', k = c :: k' /\ isspace c = false /\ ceq c "#" = false /\ ceq c "." = false /\ snd (span isspace (w ++ k ++ v)) = c :: k' ++ v).
  { intros k v Nk [_ Hk]. destruct k as [|c k]; [congruence|]. destruct (Hk c k eq_refl) as (H1 & H2 & H3). exists c, k. split; [reflexivity|]. split; [exact H1|]. rewrite !ceq_neq. split; [exact H2|]. split; [exact H3|].
    cbn [app]. apply skip_spaces; [exact Hw|]. intros d r E. injection E as <- _. exact H1. }
  destruct i as [x|x|k q v|k o v c|k v|k|k]; cbn [written proper follows apply_item] in *.
  - destruct P as (Nx & Sx & Dx). exists s. split; [|reflexivity]. rewrite skip_spaces by (auto; intros c r E; injection E as <- _; reflexivity).
    cbn [B list_ascii_of_string app]. rewrite ceq_refl. rewrite span_stop_at.
    + destruct x; [congruence|reflexivity].
    + intros c I. rewrite (Sx c I). specialize (Dx c I). cbn in Dx. rewrite !Bool.andb_true_iff, !Bool.negb_true_iff, !ceq_neq. intuition auto.
    + intros c q ->. destruct (F c q eq_refl) as [H| ->]; [now rewrite H|reflexivity].
  - destruct P as (Nx & Sx & Dx). exists s. split; [|reflexivity]. rewrite skip_spaces by (auto; intros c r E; injection E as <- _; reflexivity).
    cbn [B list_ascii_of_string app]. change (ceq "." "#") with false. rewrite ceq_refl. rewrite span_stop_at.
    + destruct x; [congruence|reflexivity].
    + intros c I. rewrite (Sx c I). specialize (Dx c I). cbn in Dx. rewrite !Bool.andb_true_iff, !Bool.negb_true_iff, !ceq_neq. intuition auto.
    + intros c q ->. destruct (F c q eq_refl) as [H|[-> | ->]]; [now rewrite H|reflexivity|reflexivity].
  - destruct P as (Nk & Hk & Hq & Hv). exists s. split; [|reflexivity]. rewrite <- !app_assoc. destruct (Key k (B "=" ++ [q] ++ v ++ [q] ++ s) Nk Hk) as (c & k' & -> & H1 & H2 & H3 & ->). rewrite H2, H3.
    change (c :: k' ++ B "=" ++ [q] ++ v ++ [q] ++ s) with ((c :: k') ++ B "=" ++ [q] ++ v ++ [q] ++ s). rewrite name_span; [|exact Hk|intros d r E; injection E as <- _; cbn; tauto].
    cbn [B list_ascii_of_string app at_ nth skipn]. rewrite ceq_refl. unfold value.
    assert (curly (q :: v ++ q :: s) = false) as -> by (destruct Hq as [-> | ->]; reflexivity).
    assert ((ceq q DQ || ceq q SQ)%bool = true) as -> by (destruct Hq as [-> | ->]; reflexivity). now rewrite to_quote_spec.
  - destruct P as (Nk & Hk & Ho & Hc & Hv). exists s. split; [|reflexivity]. rewrite <- !app_assoc. destruct (Key k (B "=" ++ o ++ v ++ c ++ s) Nk Hk) as (b & k' & -> & H1 & H2 & H3 & ->). rewrite H2, H3.
    change (b :: k' ++ B "=" ++ o ++ v ++ c ++ s) with ((b :: k') ++ B "=" ++ o ++ v ++ c ++ s). rewrite name_span; [|exact Hk|intros d r E; injection E as <- _; cbn; tauto].
    cbn [B list_ascii_of_string app at_ nth skipn]. rewrite ceq_refl. unfold value.
    assert (curly (o ++ v ++ c ++ s) = true) as -> by (apply curly_iff; exists (v ++ c ++ s); destruct Ho as [-> | ->]; auto).
    assert (skipn 3 (o ++ v ++ c ++ s) = v ++ c ++ s) as -> by (destruct Ho as [-> | ->]; reflexivity). now rewrite to_curly_spec.
  - destruct P as (Nk & Hk & Sv & Bv & Hv). exists s. split; [|reflexivity]. rewrite <- !app_assoc. destruct (Key k (B "=" ++ v ++ s) Nk Hk) as (b & k' & -> & H1 & H2 & H3 & ->). rewrite H2, H3.
    change (b :: k' ++ B "=" ++ v ++ s) with ((b :: k') ++ B "=" ++ v ++ s). rewrite name_span; [|exact Hk|intros d r E; injection E as <- _; cbn; tauto].
    cbn [B list_ascii_of_string app at_ nth skipn]. rewrite ceq_refl. unfold value.
    assert (Cu : curly (v ++ s) = false).
    { destruct (curly (v ++ s)) eqn:E; [|reflexivity]. apply curly_iff in E. destruct E as [q E]. exfalso.
      assert (Fs : forall d r, s = d :: r -> isspace d = true) by exact F.
      destruct v as [|x [|y [|z v]]]; cbn [app] in E.
      - destruct E as [E|E]; apply Fs in E; discriminate.
      - destruct E as [E|E]; injection E as _ E; apply Fs in E; discriminate.
      - destruct E as [E|E]; injection E as _ _ E; apply Fs in E; discriminate.
      - destruct (Hv v) as (_ & _ & V1 & V2). destruct E as [E|E]; injection E as -> -> -> E; (now apply V1) || (now apply V2). }
    rewrite Cu.
    assert (Sp : span (fun c => negb (isspace c) && negb (ceq c "}"))%bool (v ++ s) = (v, s)).
    { apply span_stop_at.
      - intros d I. rewrite (Sv d I). specialize (Bv d I). cbn in Bv. rewrite Bool.andb_true_iff, !Bool.negb_true_iff, ceq_neq. intuition auto.
      - intros d q ->. now rewrite (F d q eq_refl). }
    destruct (v ++ s) as [|d q] eqn:E; [cbn [span] in Sp; injection Sp as <- <-; reflexivity|].
    assert ((ceq d DQ || ceq d SQ)%bool = false) as ->; [|now rewrite Sp].
    rewrite Bool.orb_false_iff, !ceq_neq. destruct v as [|e v].
    + cbn [app] in E. pose proof (F d q E) as Hd. cbv beta in Hd. split; intros ->; discriminate.
    + injection E as -> _. destruct (Hv v) as (V1 & V2 & _). split; intros ->; (now apply V1) || (now apply V2).
  - destruct P as [d P]. destruct (known_name k d P) as [Nk Hk]. exists s. split; [|reflexivity]. destruct (Key k s Nk Hk) as (b & k' & -> & H1 & H2 & H3 & ->). rewrite H2, H3.
    change (b :: k' ++ s) with ((b :: k') ++ s). rewrite name_span; [|exact Hk|intros e r E; apply F in E; cbn; destruct E as [-> | ->]; tauto].
    assert (ceq (at_ s 0) "=" = false) as ->. { destruct s as [|e s]; [reflexivity|]. destruct (F e s eq_refl) as [-> | ->]; reflexivity. }
    apply marker_some in P. now rewrite P.
  - destruct P as (Nk & Hk & Hm). destruct s as [|e s]; [congruence|]. exists s. split; [|exists e; split; [exact (F e s eq_refl)|reflexivity]]. destruct (Key k (e :: s) Nk Hk) as (b & k' & -> & H1 & H2 & H3 & ->). rewrite H2, H3.
    change (b :: k' ++ e :: s) with ((b :: k') ++ e :: s). rewrite name_span; [|exact Hk|intros f r E; apply F in E; cbn; destruct E as [-> | ->]; tauto].
    assert (ceq (at_ (e :: s) 0) "=" = false) as ->. { destruct (F e s eq_refl) as [-> | ->]; reflexivity. }
    apply marker_none in Hm. now rewrite Hm.
Qed.
Definition apply_items (l : list (item * str)) (a : attrs) : attrs := fold_left (fun a i => apply_item (fst i) a) l a.
Lemma written_pos i : proper i -> 0 < length (written i).
Proof.
  destruct i; cbn [proper written]; intros P; rewrite ?app_length; cbn [length B list_ascii_of_string]; try lia.
  - destruct P as [d P]. destruct k; [apply known_name in P; tauto|cbn; lia].
  - destruct k; [tauto|cbn; lia].
Qed.
Lemma items_loop l tail : well tail l -> forall fuel w a, spaces w -> length (w ++ list_text l ++ tail) < fuel ->
  exists fuel' w', spaces w' /\ length (w' ++ tail) < fuel' /\ parse_loop fuel (w ++ list_text l ++ tail) a = parse_loop fuel' (w' ++ tail) (apply_items l a).
Proof.
  induction l as [|[i x] l IH]; intros W fuel w a Hw L.
  - exists fuel, w. now repeat split.
  - destruct W as (P & Hx & F & Nw & W). destruct fuel as [|fuel]; [lia|]. cbn [list_text] in *. rewrite <- !app_assoc in *. pose proof (written_pos i P) as Lp.
    destruct (item_step fuel i (x ++ list_text l ++ tail) a P F) with (w := w) as (s' & E & Es); [destruct i; auto; destruct x; [congruence|discriminate]|exact Hw|].
    assert (exists x', spaces x' /\ s' = x' ++ list_text l ++ tail /\ length s' <= length (x ++ list_text l ++ tail)) as (x' & Hx' & -> & Ll).
    { destruct i; try (exists x; subst s'; repeat split; auto; fail). destruct Es as (c & Hc & Es). destruct x as [|d x]; [congruence|].
      injection Es as -> <-. exists x. repeat split; [intros e I; apply Hx; now right|cbn; lia]. }
    rewrite E. destruct (IH W fuel x' (apply_item i a)) as (f' & w' & Hw' & L' & E'); [exact Hx'| |exists f', w'; auto].
    rewrite !app_length in *. lia.
Qed.
Lemma last_of_cons x l : last_of (x :: l) = match last_of l with Some y => Some y | None => Some x end.
Proof. revert x. induction l as [|y l IH]; intro x; [reflexivity|]. change (last_of (x :: y :: l)) with (last_of (y :: l)). rewrite (IH y). destruct (last_of l); reflexivity. Qed.
Lemma apply_items_attrs l : forall a, well [] l \/ (exists t, well t l) ->
  apply_items l a = Attrs (match last_of (ids l) with Some x => Some x | None => a_id a end) (a_classes a ++ classes l) (a_pairs a ++ pairs l).
Proof.
  induction l as [|[i w] l IH]; intros a W.
  - destruct a. cbn. now rewrite !app_nil_r.
  - assert (W' : exists t, well t l) by (destruct W as [W|[t W]]; [exists []|exists t]; apply W).
    assert (P : proper i) by (destruct W as [W|[t W]]; apply W).
    change (apply_items ((i, w) :: l) a) with (apply_items l (apply_item i a)). rewrite IH by auto.
    destruct i; cbn [apply_item ids classes pairs set_id add_class add_pair a_id a_classes a_pairs]; rewrite <- ?app_assoc; try reflexivity.
    + rewrite last_of_cons. destruct (last_of (ids l)); reflexivity.
    + cbn [proper] in P. destruct P as [d P]. destruct (marker k) eqn:M; [|apply marker_none with (d := d) in M; tauto].
      cbn [a_id a_classes a_pairs add_pair]. rewrite <- app_assoc. f_equal. f_equal. apply marker_some in M. clear -M.
      f_equal. cbn in M. repeat (destruct M as [M|M]; [injection M as <- <-; reflexivity|]). destruct M.
Qed.
Lemma spaces_done w fuel a : spaces w -> length w < fuel -> parse_loop fuel w a = Done a.
Proof.
  intros Hw L. destruct fuel as [|fuel]; [lia|]. cbn [parse_loop]. assert (snd (span isspace w) = []) as ->; [|reflexivity].
  rewrite <- (app_nil_r w). apply skip_spaces; [exact Hw|discriminate].
Qed.
Lemma parse_list w l : spaces w -> well [] l -> length (w ++ list_text l) <= 2047 -> parse (w ++ list_text l) = Done (Attrs (last_of (ids l)) (classes l) (pairs l)).
Proof.
  intros Hw W L. unfold parse. rewrite firstn_all2 by exact L. destruct (items_loop l [] W (S (length (w ++ list_text l))) w no_attrs Hw) as (f' & w' & Hw' & L' & E).
  - rewrite app_nil_r. lia.
  - rewrite !app_nil_r in *. rewrite E, spaces_done by auto. rewrite apply_items_attrs by auto. cbn [no_attrs a_id a_classes a_pairs app]. now destruct (last_of (ids l)).
Qed.
Lemma parse_word w l k : spaces w -> well k l -> proper (Word k) -> length (w ++ list_text l ++ k) <= 2047 -> parse (w ++ list_text l ++ k) = Undef.
Proof.
  intros Hw W (Nk & Hk & Hm) L. unfold parse. rewrite firstn_all2 by exact L. destruct (items_loop l k W (S (length (w ++ list_text l ++ k))) w no_attrs Hw) as (f' & w' & Hw' & L' & E); [lia|].
  rewrite E. destruct f' as [|f']; [lia|]. cbn [parse_loop]. rewrite skip_spaces; [|exact Hw'|intros c r ->; apply (proj2 Hk c r eq_refl)].
  destruct k as [|c k]; [congruence|]. destruct (proj2 Hk c k eq_refl) as (_ & H2 & H3). apply ceq_neq in H2, H3. rewrite H2, H3.
  pose proof (name_span (c :: k) [] Hk ltac:(discriminate)) as Sp. rewrite app_nil_r in Sp. rewrite Sp. cbn [at_ nth]. change (ceq NUL "=") with false. apply marker_none in Hm. now rewrite Hm.
Qed.
(** What is read past the end. *)
Lemma span_app_of f s : s = fst (span f s) ++ snd (span f s).
Proof. destruct (span f s) as [x r] eqn:E. apply L_Highlight.span_spec in E. now destruct E as [-> _]. Qed.
Lemma to_quote_len q s : forall v r, to_quote q s = Some (v, r) -> exists u, s = u ++ r /\ u <> [].
Proof.
  assert (H : forall n s, length s <= n -> forall v r, to_quote q s = Some (v, r) -> exists u, s = u ++ r /\ u <> []).
  { induction n as [|n IH]; intros [|c t] L v r E; cbn [length] in L; [discriminate|lia|discriminate|]. cbn [to_quote] in E. destruct (ceq c q); [injection E as <- <-; exists [c]; split; [reflexivity|discriminate]|].
    destruct (ceq c BS).
    - destruct t as [|d t]; [discriminate|]. cbn [length] in L. destruct (to_quote q t) as [[v' r']|] eqn:Et; [|discriminate]. injection E as <- <-. destruct (IH t) with (2 := Et) as (u & -> & _); [lia|].
      exists (c :: d :: u). split; [reflexivity|discriminate].
    - destruct (to_quote q t) as [[v' r']|] eqn:Et; [|discriminate]. injection E as <- <-. destruct (IH t) with (2 := Et) as (u & -> & _); [lia|]. exists (c :: u). split; [reflexivity|discriminate]. }
  apply (H (length s)). lia.
Qed.
Lemma to_curly_len s : forall v r, to_curly s = Some (v, r) -> exists u, s = u ++ r.
Proof.
  induction s as [|c s IH]; intros v r E; [discriminate|]. cbn [to_curly] in E. destruct (curly (c :: s)).
  - injection E as <- <-. exists (firstn 3 (c :: s)). now rewrite firstn_skipn.
  - destruct (to_curly s) as [[v' r']|] eqn:Es; [|discriminate]. injection E as <- <-. destruct (IH _ _ eq_refl) as [u ->]. now exists (c :: u).
Qed.
Lemma value_suffix s : exists u, s = u ++ snd (value s).
Proof.
  unfold value. destruct (curly s).
  - destruct (to_curly (skipn 3 s)) as [[v r]|] eqn:E.
    + apply to_curly_len in E. destruct E as [u E]. exists (firstn 3 s ++ u). cbn [snd]. now rewrite <- app_assoc, <- E, firstn_skipn.
    + exists (firstn 3 s). cbn [snd]. now rewrite firstn_skipn.
  - destruct s as [|q s]; [now exists []|]. destruct (ceq q DQ || ceq q SQ)%bool.
    + destruct (to_quote q s) as [[v r]|] eqn:E.
      * apply to_quote_len in E. destruct E as (u & -> & _). now exists (q :: u).
      * exists (q :: s). now rewrite app_nil_r.
    + eexists. apply span_app_of.
Qed.
(** Every step goes to a proper suffix. *)
Lemma parse_ind (Q : str -> attrs -> outcome attrs -> Prop) :
  (forall s a, spaces s -> Q s a (Done a)) ->
  (forall w k a, spaces w -> k <> [] -> none_of (B "=}" ++ [SP; TAB]) k -> marker k = None -> Q (w ++ k) a Undef) ->
  (forall u s a a' o, u <> [] -> Q s a' o -> Q (u ++ s) a o) ->
  forall fuel s a, length s < fuel -> Q s a (parse_loop fuel s a).
Proof.
  intros H1 H2 H3. induction fuel as [|fuel IH]; intros s a L; [lia|]. cbn [parse_loop].
  destruct (span isspace s) as [w t] eqn:E. apply L_Highlight.span_spec in E. destruct E as (-> & Fw & St). cbn [snd]. rewrite forallb_forall in Fw.
  destruct t as [|c t]; [rewrite app_nil_r; now apply H1|]. rewrite app_length in L. cbn [length] in L.
  assert (Go : forall u r a', c :: t = u ++ r -> u <> [] -> Q (w ++ c :: t) a (parse_loop fuel r a')).
  { intros u r a' E Nu. rewrite E, app_assoc. apply (H3 _ _ a a'); [destruct w; [exact Nu|discriminate]|]. apply IH. apply f_equal with (f := @length _) in E. rewrite app_length in E. cbn [length] in E. destruct u; [congruence|]. cbn [length] in E. lia. }
  destruct (ceq c "#").
  { destruct (span _ t) as [x r] eqn:E. apply L_Highlight.span_spec in E. destruct E as (-> & _). apply (Go (c :: x)); [reflexivity|discriminate]. }
  destruct (ceq c ".").
  { destruct (span _ t) as [x r] eqn:E. apply L_Highlight.span_spec in E. destruct E as (-> & _). apply (Go (c :: x)); [reflexivity|discriminate]. }
  destruct (span _ (c :: t)) as [k r] eqn:E. apply L_Highlight.span_spec in E. destruct E as (E & Fk & Sk). rewrite forallb_forall in Fk.
  destruct (ceq (at_ r 0) "=") eqn:Eq.
  { destruct r as [|d r]; [discriminate|]. cbn [skipn]. destruct (value r) as [v r'] eqn:Ev. destruct (value_suffix r) as [u Eu]. rewrite Ev in Eu. cbn [snd] in Eu. apply (Go (k ++ d :: u)).
    - rewrite E, Eu, <- app_assoc. reflexivity.
    - destruct k; discriminate. }
  destruct (marker k) as [d|] eqn:M.
  { apply (Go k); [exact E|]. intros ->. discriminate. }
  destruct r as [|d r].
  - rewrite app_nil_r in E. rewrite E. apply H2; [exact Fw|rewrite <- E; discriminate| |exact M]. intros x I. apply Fk in I. rewrite !Bool.andb_true_iff, !Bool.negb_true_iff, !ceq_neq in I. cbn. intuition auto.
  - apply (Go (k ++ [d])); [rewrite E, <- app_assoc; reflexivity|]. destruct k; discriminate.
Qed.
Lemma parse_total s : parse s <> Fuel.
Proof.
  unfold parse. apply (parse_ind (fun s a o => o <> Fuel)); [discriminate|discriminate|auto|lia].
Qed.
Lemma parse_undef s : parse s = Undef -> exists u k, firstn 2047 s = u ++ k /\ k <> [] /\ none_of (B "=}" ++ [SP; TAB]) k /\ forall d, ~ In (k, d) meaning.
Proof.
  unfold parse. set (t := firstn 2047 s). apply (parse_ind (fun t a o => o = Undef -> exists u k, t = u ++ k /\ k <> [] /\ none_of (B "=}" ++ [SP; TAB]) k /\ forall d, ~ In (k, d) meaning)).
  - discriminate.
  - intros w k a _ Nk Hk M _. exists w, k. repeat split; auto. now apply marker_none.
  - intros u r a a' o _ H E. destruct (H E) as (u' & k & -> & H'). exists (u ++ u'), k. now rewrite <- app_assoc.
  - lia.
Qed.
(** ** Merging *)
Lemma seq_dec (a b : str) : seq_ a b = if list_eq_dec ascii_dec a b then true else false.
Proof. destruct (list_eq_dec ascii_dec a b) as [->|N]; [now apply seq_eq|]. destruct (seq_ a b) eqn:E; [|reflexivity]. apply seq_eq in E. congruence. Qed.
Lemma first_value_cons k k' v l : first_value k ((k', v) :: l) = if list_eq_dec ascii_dec k' k then Some v else first_value k l.
Proof. unfold first_value. cbn [find fst]. destruct (list_eq_dec ascii_dec k' k); reflexivity. Qed.
Lemma put_pair_first k v l : forall k', first_value k' (put_pair k v l) = if list_eq_dec ascii_dec k k' then Some v else first_value k' l.
Proof.
  induction l as [|[k0 v0] l IH]; intro k'; cbn [put_pair]; [now rewrite first_value_cons|]. rewrite seq_dec. destruct (list_eq_dec ascii_dec k0 k) as [->|N].
  - rewrite !first_value_cons. destruct (list_eq_dec ascii_dec k k'); reflexivity.
  - rewrite !first_value_cons, IH. destruct (list_eq_dec ascii_dec k0 k') as [->|N']; [|reflexivity]. destruct (list_eq_dec ascii_dec k k'); [congruence|reflexivity].
Qed.
Lemma put_pair_keys k v l : map fst (put_pair k v l) = map fst l ++ (if in_dec (list_eq_dec ascii_dec) k (map fst l) then [] else [k]).
Proof.
  induction l as [|[k0 v0] l IH]; [reflexivity|]. cbn [put_pair map fst]. rewrite seq_dec. destruct (list_eq_dec ascii_dec k0 k) as [->|N].
  - cbn [map fst]. destruct (in_dec _ k (k :: map fst l)) as [_|H]; [now rewrite app_nil_r|]. exfalso. apply H. now left.
  - cbn [map fst app]. rewrite IH. f_equal. f_equal. destruct (in_dec _ k (map fst l)) as [I|I], (in_dec _ k (k0 :: map fst l)) as [J|J]; auto; exfalso.
    + apply J. now right.
    + destruct J as [J|J]; congruence.
Qed.
Lemma merge_pairs o : forall b k, first_value k (fold_left (fun l p => put_pair (fst p) (snd p) l) o b) = match last_value k o with Some v => Some v | None => first_value k b end.
Proof.
  induction o as [|[k0 v0] o IH]; intros b k; [reflexivity|]. cbn [fold_left fst snd last_value]. rewrite IH, put_pair_first. destruct (last_value k o); [reflexivity|]. destruct (list_eq_dec ascii_dec k0 k); reflexivity.
Qed.
Lemma merge_keys o : forall b, exists n, map fst (fold_left (fun l p => put_pair (fst p) (snd p) l) o b) = map fst b ++ n /\ (forall k, In k n -> In k (map fst o)).
Proof.
  induction o as [|[k0 v0] o IH]; intro b; cbn [fold_left fst snd].
  - exists []. split; [now rewrite app_nil_r|intros k []].
  - destruct (IH (put_pair k0 v0 b)) as (n & E & H). rewrite put_pair_keys in E. exists ((if in_dec (list_eq_dec ascii_dec) k0 (map fst b) then [] else [k0]) ++ n).
    split; [now rewrite E, app_assoc|]. intros k I. apply in_app_or in I. cbn [map fst]. destruct I as [I|I]; [destruct (in_dec _ k0 (map fst b)); [destruct I|destruct I as [<-|[]]; now left]|right; now apply H].
Qed.
Lemma merge_spec b o :
  a_id (merge b o) = match a_id o with Some x => Some x | None => a_id b end /\
  a_classes (merge b o) = a_classes b ++ a_classes o /\
  (forall k, first_value k (a_pairs (merge b o)) = match last_value k (a_pairs o) with Some v => Some v | None => first_value k (a_pairs b) end) /\
  (exists n, map fst (a_pairs (merge b o)) = map fst (a_pairs b) ++ n /\ forall k, In k n -> In k (map fst (a_pairs o))).
Proof. split; [reflexivity|]. split; [reflexivity|]. split; [intro k; apply merge_pairs|apply merge_keys]. Qed.
Lemma merge_none b : merge b no_attrs = b.
Proof. destruct b. unfold merge. cbn. now rewrite app_nil_r. Qed.
(** ** References *)
Lemma find_ald_spec ds nm a : find_ald ds nm = Some a <-> exists u v, ds = u ++ (nm, a) :: v /\ ~ In nm (map fst u).
Proof.
  unfold find_ald. induction ds as [|[n b] ds IH]; cbn [find fst snd].
  - split; [discriminate|]. intros (u & v & E & _). destruct u; discriminate.
  - rewrite seq_dec. destruct (list_eq_dec ascii_dec n nm) as [->|N].
    + cbn [snd]. split.
      * intro E. injection E as <-. exists [], ds. split; [reflexivity|intros []].
      * intros (u & v & E & Nu). destruct u as [|[m c] u]; [now injection E as -> _|]. injection E as <- _ _. exfalso. apply Nu. now left.
    + rewrite IH. split.
      * intros (u & v & -> & Nu). exists ((n, b) :: u), v. split; [reflexivity|]. intros [E|E]; [exact (N E)|tauto].
      * intros (u & v & E & Nu). destruct u as [|[m c] u]; [injection E as -> _ _; congruence|]. injection E as -> -> ->. exists u, v. split; [reflexivity|]. intro I. apply Nu. now right.
Qed.
Lemma strrchr_last c u r : ~ In c r -> strrchr c (u ++ c :: r) = Some (c :: r).
Proof.
  intro N. assert (Z : strrchr c r = None).
  { clear u. induction r as [|d r IH]; [reflexivity|]. cbn [strrchr]. rewrite IH by (intro; apply N; now right). destruct (ceq c d) eqn:E; [|reflexivity]. apply ceq_eq in E. subst. exfalso. apply N. now left. }
  induction u as [|d u IH]; cbn [app strrchr]; [now rewrite Z, ceq_refl|]. now rewrite IH.
Qed.
Lemma rtrim_spaces x w : spaces w -> (forall u c, x = u ++ [c] -> isspace c = false) -> rtrim (x ++ w) = x.
Proof.
  intros Hw Hx. unfold rtrim. rewrite rev_app_distr, skip_spaces; [apply rev_involutive| |].
  - intros c I. apply Hw. now apply in_rev.
  - intros c r E. apply (Hx (rev r)). rewrite <- (rev_involutive x), E. reflexivity.
Qed.
Lemma strchr_first c x r : ~ In c x -> strchr c (x ++ c :: r) = Some (length x).
Proof. intro N. apply strchr_some. now exists x, r. Qed.
(** A reference to a definition and nothing else *)
Lemma reference ds u w nm w' z a : spaces w -> spaces w' -> spaces z -> nm <> [] -> no_space nm -> none_of (B "{}#.=") nm ->
  length (w ++ nm ++ w') <= 2047 -> find_ald ds nm = Some a ->
  extract_ial ds (u ++ B "{:" ++ w ++ nm ++ w' ++ B "}" ++ z) = Done (Some a).
Proof.
  intros Hw Hw' Hz Nn Sn Dn L F. unfold extract_ial.
  assert (No : forall c x, isspace c = false -> spaces x -> ~ In c x) by (intros c x Hc Hx I; apply Hx in I; congruence).
  assert (Nb : ~ In "{"%char (":"%char :: w ++ nm ++ w' ++ B "}" ++ z)).
  { intros [E|I]; [discriminate|]. rewrite !in_app_iff in I. destruct I as [I|[I|[I|[I|I]]]]; [revert I; now apply No|apply Dn in I; cbn in I; tauto|revert I; now apply No|destruct I as [I|[]]; discriminate|revert I; now apply No]. }
  change (u ++ B "{:" ++ w ++ nm ++ w' ++ B "}" ++ z) with (u ++ "{"%char :: (":"%char :: w ++ nm ++ w' ++ B "}" ++ z)). rewrite strrchr_last by exact Nb. cbn [at_ nth]. change (ceq ":" ":") with true. cbn [orb].
  set (body := w ++ nm ++ w') in *.
  replace ("{"%char :: ":"%char :: w ++ nm ++ w' ++ B "}" ++ z) with (("{"%char :: ":"%char :: body) ++ "}"%char :: z) by (unfold body; cbn [app]; now rewrite <- !app_assoc).
  assert (Nc : ~ In "}"%char ("{"%char :: ":"%char :: body)).
  { intros [E|[E|I]]; [discriminate|discriminate|]. unfold body in I. rewrite !in_app_iff in I. destruct I as [I|[I|I]]; [revert I; now apply No|apply Dn in I; cbn in I; tauto|revert I; now apply No]. }
  rewrite strchr_first by exact Nc. cbn [length]. replace (skipn (S (S (S (length body)))) (("{"%char :: ":"%char :: body) ++ "}"%char :: z)) with z.
  2:{ change (z = skipn (S (length body)) (body ++ "}"%char :: z)). rewrite skipn_app, skipn_all2 by lia. now replace (S (length body) - length body) with 1 by lia. }
  assert (forallb isspace z = true) as -> by (apply forallb_forall; exact Hz).
  replace (firstn (S (S (length body)) - 2) (skipn 2 (("{"%char :: ":"%char :: body) ++ "}"%char :: z))) with body.
  2:{ change (skipn 2 (("{"%char :: ":"%char :: body) ++ "}"%char :: z)) with (body ++ "}"%char :: z). replace (S (S (length body)) - 2) with (length body) by lia. rewrite firstn_app, firstn_all, Nat.sub_diag. cbn [firstn]. now rewrite app_nil_r. }
  rewrite firstn_all2 by exact L. unfold body. rewrite (span_stop_at isspace w (nm ++ w') Hw).
  2:{ intros c q E. destruct nm as [|d nm]; [congruence|]. injection E as <- _. apply Sn. now left. }
  destruct nm as [|d nm]; [congruence|]. set (n := d :: nm) in *. change (n ++ w') with (d :: (nm ++ w')) at 1. cbn iota.
  rewrite span_stop_at.
  2:{ intros c I. rewrite (Sn c I). apply Dn in I. cbn in I. rewrite !Bool.andb_true_iff, !Bool.negb_true_iff, !ceq_neq. intuition auto. }
  2:{ intros c q E. rewrite (Hw' c); [reflexivity|]. rewrite E. now left. }
  rewrite rtrim_spaces; [|exact Hw'|intros v c E; apply Sn; rewrite E; apply in_or_app; right; now left].
  assert (match n with [] => None | _ => find_ald ds n end = Some a) as -> by exact F.
  rewrite skipn_all. cbn [span]. now rewrite merge_none.
Qed.
(** ** Definitions *)
Lemma ald_line_spec line : match ald_line line with
  | Some (nm, o) => exists content rest, definition line nm content rest /\ o = parse content
  | None => forall nm content rest, ~ definition line nm content rest
  end.
Proof.
  unfold ald_line. destruct (span isspace line) as [w p] eqn:E. apply L_Highlight.span_spec in E. destruct E as (-> & Fw & Sw). cbn [snd]. rewrite forallb_forall in Fw.
  assert (U : forall nm content rest, definition (w ++ p) nm content rest -> p = B "{:" ++ nm ++ B ":" ++ content ++ B "}" ++ rest).
  { intros nm content rest (w' & E & Hw' & _). assert (X : span isspace (w' ++ B "{:" ++ nm ++ B ":" ++ content ++ B "}" ++ rest) = (w', B "{:" ++ nm ++ B ":" ++ content ++ B "}" ++ rest)) by (apply span_stop_at; [exact Hw'|intros c q Eq; injection Eq as <- _; reflexivity]).
    assert (Y : span isspace (w ++ p) = (w, p)) by (apply span_stop_at; [exact Fw|exact Sw]). rewrite E in Y. congruence. }
  destruct (ceq (at_ p 0) "{" && ceq (at_ p 1) ":")%bool eqn:C.
  2:{ intros nm content rest H. apply U in H. rewrite H in C. discriminate. }
  rewrite Bool.andb_true_iff, !ceq_eq in C. destruct C as [C1 C2]. destruct p as [|x [|y p]]; [discriminate|discriminate|]. cbn in C1, C2. subst x y. cbn [skipn].
  destruct (span _ p) as [nm r] eqn:E. pose proof E as E0. apply L_Highlight.span_spec in E. destruct E as (-> & Fn & Sn). rewrite forallb_forall in Fn.
  assert (Fn' : none_of (B ":}") nm). { intros c I. apply Fn in I. rewrite Bool.andb_true_iff, !Bool.negb_true_iff, !ceq_neq in I. cbn. intuition auto. }
  assert (V : forall nm' content rest, none_of (B ":}") nm' -> nm ++ r = nm' ++ B ":" ++ content ++ B "}" ++ rest -> nm = nm' /\ r = B ":" ++ content ++ B "}" ++ rest).
  { intros nm' content rest N' E. rewrite E in E0. rewrite span_stop_at in E0; [now injection E0 as <- <-| |].
    - intros c I. apply N' in I. cbn in I. rewrite Bool.andb_true_iff, !Bool.negb_true_iff, !ceq_neq. intuition auto.
    - intros c q Eq. injection Eq as <- _. reflexivity. }
  destruct (ceq (at_ r 0) ":") eqn:C.
  2:{ intros nm' content rest H. pose proof H as (w' & _ & _ & _ & N' & _). apply U in H. injection H as H. destruct (V _ _ _ N' H) as [_ ->]. discriminate. }
  apply ceq_eq in C. destruct r as [|x r]; [discriminate|]. cbn in C. subst x. cbn [skipn].
  destruct nm as [|d nm].
  { intros nm' content rest H. pose proof H as (w' & _ & _ & Nn & N' & _). apply U in H. injection H as H. destruct (V _ _ _ N' H) as [<- _]. congruence. }
  destruct (strchr "}" r) as [k|] eqn:K.
  - apply strchr_some in K. destruct K as (content & rest & -> & Lc & Nc). subst k. exists content, rest. rewrite firstn_app, firstn_all, Nat.sub_diag. cbn [firstn]. rewrite app_nil_r. split; [|reflexivity].
    exists w. split; [reflexivity|]. split; [exact Fw|]. split; [discriminate|]. split; [exact Fn'|]. intros c I [<-|[]]. now apply Nc.
  - intros nm' content rest H. pose proof H as (w' & _ & _ & Nn & N' & Nc). apply U in H. injection H as H. destruct (V _ _ _ N' H) as [_ Er]. injection Er as ->. revert K. rewrite strchr_first; [discriminate|]. intro I. apply Nc in I. apply I. now left.
Qed.
Lemma definition_inj line nm c r nm' c' r' : definition line nm c r -> definition line nm' c' r' -> nm = nm' /\ c = c' /\ r = r'.
Proof.
  intros (w & E & Hw & Nn & N & Nc) (w' & E' & Hw' & Nn' & N' & Nc'). rewrite E in E'. clear E.
  assert (X : span isspace (w ++ B "{:" ++ nm ++ B ":" ++ c ++ B "}" ++ r) = (w, B "{:" ++ nm ++ B ":" ++ c ++ B "}" ++ r)) by (apply span_stop_at; [exact Hw|intros d q Eq; injection Eq as <- _; reflexivity]).
  rewrite E', span_stop_at in X; [|exact Hw'|intros d q Eq; injection Eq as <- _; reflexivity]. injection X as _ X. clear E'.
  set (f := fun d => (negb (ceq d ":") && negb (ceq d "}"))%bool).
  assert (Hf : forall n, none_of (B ":}") n -> forall d, In d n -> f d = true). { intros n Hn d I. apply Hn in I. cbn in I. unfold f. rewrite Bool.andb_true_iff, !Bool.negb_true_iff, !ceq_neq. intuition auto. }
  assert (Y : span f (nm ++ B ":" ++ c ++ B "}" ++ r) = (nm, B ":" ++ c ++ B "}" ++ r)) by (apply span_stop_at; [now apply Hf|intros d q Eq; injection Eq as <- _; reflexivity]).
  change (nm' ++ ":"%char :: c' ++ "}"%char :: r') with (nm' ++ B ":" ++ c' ++ B "}" ++ r') in X. change (nm ++ ":"%char :: c ++ "}"%char :: r) with (nm ++ B ":" ++ c ++ B "}" ++ r) in X.
  rewrite <- X, span_stop_at in Y; [|now apply Hf|intros d q Eq; injection Eq as <- _; reflexivity]. injection Y as -> Y. split; [reflexivity|].
  assert (Z1 : strchr "}" (c ++ "}"%char :: r) = Some (length c)) by (apply strchr_first; intro I; apply Nc in I; apply I; now left).
  change (c' ++ "}"%char :: r' = c ++ "}"%char :: r) in Y. rewrite <- Y in Z1. rewrite strchr_first in Z1 by (intro I; apply Nc' in I; apply I; now left). injection Z1 as Z1.
  assert (c' = c) as ->. { apply f_equal with (f := firstn (length c)) in Y. rewrite <- Z1 in Y at 1. rewrite !firstn_app, !firstn_all, !Nat.sub_diag in Y. cbn [firstn] in Y. now rewrite !app_nil_r in Y. }
  apply app_inv_head in Y. injection Y as ->. now split.
Qed.
Lemma ald_loop_lines l t ds last ld lt : kept (fun c a => parse c = Done a) l ds t ->
  (last = [] /\ ld = [] /\ lt = [] \/ last <> [] /\ kept (fun c a => parse c = Done a) [last] ld lt) ->
  (forall x, In x (last :: l) -> ~ In NL x /\ length x <= 2047) ->
  forall fuel, length (lines_text l last) < fuel -> ald_loop fuel (lines_text l last) = Done (ds ++ ld, lines_text t (concat lt)).
Proof.
  intros K Kl. induction K as [|x nm content rest a l ds t D P K IH|x l ds t D K IH]; intros H fuel L.
  - unfold lines_text in *. cbn [map concat app] in *. destruct fuel as [|fuel]; [lia|]. cbn [ald_loop]. destruct (H last) as [N Ll]; [now left|].
    destruct Kl as [(-> & -> & ->)|[Nl Kl]]; [reflexivity|]. destruct last as [|c last]; [congruence|]. set (x := c :: last) in *. cbn iota.
    assert (Sp : span (fun c => negb (ceq c NL)) x = (x, [])). { rewrite <- (app_nil_r x) at 1. apply span_stop_at; [|discriminate]. intros d I. apply Bool.negb_true_iff, ceq_neq. intros ->. now apply N. }
    change (c :: last) with x. rewrite Sp, firstn_all2 by exact Ll. pose proof (ald_line_spec x) as A. inversion Kl as [|y nm content rest a l' ds' t' D P K'|y l' ds' t' D K']; subst; inversion K'; subst.
    + destruct (ald_line x) as [[nm' o]|]; [|now apply A in D]. destruct A as (content' & rest' & D' & ->). destruct (definition_inj _ _ _ _ _ _ _ D D') as (<- & <- & _). rewrite P. cbn [skipn].
      assert (ald_loop fuel [] = Done ([], [])) as -> by (destruct fuel; [cbn in L; lia|reflexivity]). reflexivity.
    + destruct (ald_line x) as [[nm' o]|]; [destruct A as (c' & r' & D' & _); now apply D in D'|]. cbn [concat app]. now rewrite app_nil_r.
  - destruct fuel as [|fuel]; [lia|]. destruct (H x) as [N Lx]; [right; now left|].
    assert (E : lines_text (x :: l) last = x ++ NL :: lines_text l last) by (unfold lines_text; cbn [map concat]; rewrite <- !app_assoc; reflexivity). rewrite E in *. cbn [ald_loop].
    assert (Sp : span (fun c => negb (ceq c NL)) (x ++ NL :: lines_text l last) = (x, NL :: lines_text l last)). { apply span_stop_at; [|intros d q Eq; injection Eq as <- _; reflexivity]. intros d I. apply Bool.negb_true_iff, ceq_neq. intros ->. now apply N. }
    assert (Ne : exists d q, x ++ NL :: lines_text l last = d :: q) by (destruct x; eexists; eexists; reflexivity). destruct Ne as (d & q & Ne). rewrite Ne. rewrite <- Ne. rewrite Sp, firstn_all2 by exact Lx. cbn [skipn].
    pose proof (ald_line_spec x) as A. destruct (ald_line x) as [[nm' o]|]; [|now apply A in D]. destruct A as (content' & rest' & D' & ->). destruct (definition_inj _ _ _ _ _ _ _ D D') as (<- & <- & _). rewrite P.
    rewrite app_length in L. cbn [length] in L. rewrite IH; [reflexivity| |lia]. intros y I. apply H. destruct I as [I|I]; [now left|now right; right].
  - destruct fuel as [|fuel]; [lia|]. destruct (H x) as [N Lx]; [right; now left|].
    assert (E : forall l, lines_text (x :: l) last = x ++ NL :: lines_text l last) by (intro; unfold lines_text; cbn [map concat]; rewrite <- !app_assoc; reflexivity). rewrite E in *. cbn [ald_loop].
    assert (Sp : span (fun c => negb (ceq c NL)) (x ++ NL :: lines_text l last) = (x, NL :: lines_text l last)). { apply span_stop_at; [|intros d q Eq; injection Eq as <- _; reflexivity]. intros d I. apply Bool.negb_true_iff, ceq_neq. intros ->. now apply N. }
    assert (Ne : exists d q, x ++ NL :: lines_text l last = d :: q) by (destruct x; eexists; eexists; reflexivity). destruct Ne as (d & q & Ne). rewrite Ne. rewrite <- Ne. rewrite Sp, firstn_all2 by exact Lx.
    pose proof (ald_line_spec x) as A. destruct (ald_line x) as [[nm' o]|]; [destruct A as (c' & r' & D' & _); now apply D in D'|].
    rewrite app_length in L. cbn [length] in L. rewrite IH; [|intros y I; apply H; destruct I as [I|I]; [now left|now right; right]|lia].
    assert (E' : lines_text (x :: t) (concat lt) = x ++ NL :: lines_text t (concat lt)) by (unfold lines_text; cbn [map concat]; rewrite <- !app_assoc; reflexivity). now rewrite E'.
Qed.
