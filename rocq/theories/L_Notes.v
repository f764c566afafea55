(** Lemmas on inline footnotes. *)
From Verif Require Import Base BaseL Dec M_Notes S_Notes.
From Verif Require L_Highlight L_Abbr.

(** ** The buffer *)
Definition put_out (o : str) (w : wr) : wr := Wr (w_cap w) (w_out w ++ o) (w_rem w - length o) (w_oob w).
Lemma ok_store s w : w_ok w -> length s <= w_rem w -> w_set_rem (w_rem w - length s) (w_store s w) = put_out s w.
Proof.
  intros [R O] L. unfold w_set_rem, w_store, put_out. cbn [w_cap w_out w_rem w_oob]. f_equal. rewrite O. destruct s; [reflexivity|].
  cbn [orb]. apply Nat.ltb_ge. lia.
Qed.
Lemma put_out_ok o w : w_ok w -> length o <= w_rem w -> w_ok (put_out o w).
Proof. intros [R O] L. split; [|exact O]. cbn [put_out w_cap w_out w_rem]. rewrite app_length. lia. Qed.
Lemma puts_room s w : w_ok w -> length s < w_rem w -> w_puts_lt s w = put_out s w.
Proof. intros R L. unfold w_puts_lt. rewrite (proj2 (Nat.ltb_lt _ _) L). apply ok_store; [exact R|lia]. Qed.
Lemma put_room c w : w_ok w -> 1 <= w_rem w -> w_put c w = put_out [c] w.
Proof. intros R L. unfold w_put. rewrite (proj2 (Nat.ltb_lt _ _) L). now apply ok_store. Qed.
Lemma put_out_app a b w : put_out b (put_out a w) = put_out (a ++ b) w.
Proof. unfold put_out. cbn [w_cap w_out w_rem w_oob]. rewrite app_length, <- app_assoc. f_equal. lia. Qed.
Lemma put_out_rem a w : w_rem (put_out a w) = w_rem w - length a.
Proof. reflexivity. Qed.
Lemma put_out_nil w : put_out [] w = w.
Proof. unfold put_out. rewrite app_nil_r, Nat.sub_0_r. now destruct w. Qed.

(** ** Brackets *)
Lemma to_bracket_app a : balanced a -> forall d r, 0 < d ->
  to_bracket d (a ++ r) = match to_bracket d r with Some (x, y) => Some (a ++ x, y) | None => None end.
Proof.
  induction 1 as [|c s N1 N2 _ IH|a s _ IHa _ IHs]; intros d r D.
  - cbn [app]. now destruct (to_bracket d r) as [[? ?]|].
  - cbn [app to_bracket]. apply ceq_neq in N1, N2. rewrite N1, N2. destruct d as [|d]; [lia|]. rewrite IH by lia.
    now destruct (to_bracket (S d) r) as [[? ?]|].
  - cbn [B list_ascii_of_string app to_bracket]. rewrite ceq_refl. rewrite <- app_assoc. rewrite IHa by lia.
    cbn [app to_bracket]. replace (ceq "]" "[") with false by reflexivity. rewrite ceq_refl. cbn [Nat.sub]. destruct d as [|d]; [lia|].
    rewrite ?Nat.sub_0_r, IHs by lia. cbn [Nat.sub]. rewrite ?Nat.sub_0_r. destruct (to_bracket (S d) r) as [[x y]|]; [|reflexivity]. now rewrite <- app_assoc.
Qed.
Lemma to_bracket_some s : forall d a r, to_bracket (S d) s = Some (a, r) ->
  exists l b, s = a ++ B "]" ++ r /\ length l = d /\ Forall balanced l /\ balanced b /\ a = concat (map (fun x => x ++ B "]") l) ++ b.
Proof.
  induction s as [|c s IH]; intros d a r H; [discriminate|]. cbn [to_bracket] in H.
  destruct (ceq c "[") eqn:E1; [|destruct (ceq c "]") eqn:E2].
  - apply ceq_eq in E1 as ->. destruct (to_bracket (S (S d)) s) as [[a' r']|] eqn:E; [|discriminate]. injection H as <- <-.
    apply IH in E. destruct E as ([|x l] & b & -> & L & F & Bb & ->); [discriminate|]. injection L as L. inversion F as [|? ? Fx Fl]. subst.
    destruct l as [|y l].
    + exists [], (B "[" ++ x ++ B "]" ++ b). split; [reflexivity|]. split; [reflexivity|]. split; [constructor|]. split; [now constructor|].
      cbn [map concat app]. now rewrite <- !app_assoc.
    + inversion Fl as [|? ? Fy Fl']. subst. exists ((B "[" ++ x ++ B "]" ++ y) :: l), b. split; [reflexivity|]. split; [reflexivity|].
      split; [constructor; [now constructor|exact Fl']|]. split; [exact Bb|]. cbn [map concat]. rewrite <- !app_assoc. reflexivity.
  - apply ceq_eq in E2 as ->. cbn [Nat.sub] in H. rewrite Nat.sub_0_r in H. destruct d as [|d].
    + injection H as <- <-. exists [], []. repeat split; constructor.
    + destruct (to_bracket (S d) s) as [[a' r']|] eqn:E; [|discriminate]. injection H as <- <-.
      apply IH in E. destruct E as (l & b & -> & L & F & Bb & ->). exists ([] :: l), b. split; [reflexivity|]. split; [cbn; congruence|].
      split; [constructor; [constructor|exact F]|]. split; [exact Bb|]. reflexivity.
  - destruct (to_bracket (S d) s) as [[a' r']|] eqn:E; [|discriminate]. injection H as <- <-.
    apply ceq_neq in E1, E2. apply IH in E. destruct E as ([|x l] & b & -> & L & F & Bb & ->).
    + exists [], (c :: b). split; [reflexivity|]. split; [exact L|]. split; [constructor|]. split; [now constructor|]. reflexivity.
    + inversion F. subst. exists ((c :: x) :: l), b. split; [reflexivity|]. split; [reflexivity|]. split; [constructor; [now constructor|assumption]|].
      split; [exact Bb|]. reflexivity.
Qed.
Lemma to_bracket_spec s a r : to_bracket 1 s = Some (a, r) <-> s = a ++ B "]" ++ r /\ balanced a.
Proof.
  split.
  - intro H. apply to_bracket_some in H. destruct H as (l & b & -> & L & _ & Bb & ->). destruct l; [|discriminate]. cbn. auto.
  - intros [-> Ba]. rewrite to_bracket_app by (auto; lia). cbn. now rewrite app_nil_r.
Qed.
Lemma to_close_spec s a r : to_close s = Some (a, r) <-> s = a ++ B "]" ++ r /\ ~ In "]"%char a /\ ~ In NL a.
Proof.
  unfold to_close. set (f := fun c => (negb (ceq c "]") && negb (ceq c NL))%bool). split.
  - destruct (span f s) as [a' r'] eqn:E. apply L_Highlight.span_spec in E. destruct E as (-> & F & S0).
    destruct r' as [|c r']; [discriminate|]. destruct (ceq c "]") eqn:C; [|discriminate]. intro H. injection H as <- <-. apply ceq_eq in C as ->.
    split; [reflexivity|]. rewrite forallb_forall in F. split; intro I; apply F in I; unfold f in I; rewrite ceq_refl, ?Bool.andb_false_r in I; discriminate.
  - intros (-> & N1 & N2).
    assert (E : span f (a ++ B "]" ++ r) = (a, B "]" ++ r)).
    { clear - N1 N2. induction a as [|c a IH]; cbn [app].
      - reflexivity.
      - cbn [span]. unfold f at 1. rewrite (proj2 (ceq_neq c "]")), (proj2 (ceq_neq c NL)); [|intros ->; apply N2; now left|intros ->; apply N1; now left].
        cbn [negb andb]. rewrite IH; [reflexivity|intro; apply N1; now right|intro; apply N2; now right]. }
    rewrite E. cbn. reflexivity.
Qed.
Lemma has_space_spec a : has_space a = true <-> exists c, In c a /\ isspace c = true.
Proof. apply existsb_exists. Qed.
Lemma note_caret a r : balanced a -> note_at (B "^[" ++ a ++ B "]" ++ r) = Some (a, r).
Proof. intro Ba. unfold note_at. cbn [B list_ascii_of_string app at_ nth skipn]. rewrite !ceq_refl. cbn [andb]. 
  pose proof (proj2 (to_bracket_spec (a ++ B "]" ++ r) a r) (conj eq_refl Ba)) as E. cbn [B list_ascii_of_string app] in E. now rewrite E. Qed.
Lemma note_brackets a r : in_line a -> note_at (B "[^" ++ a ++ B "]" ++ r) = Some (a, r).
Proof.
  intros (N1 & N2 & Sp). unfold note_at. cbn [B list_ascii_of_string app at_ nth skipn]. replace (ceq "[" "^") with false by reflexivity. cbn [andb]. rewrite !ceq_refl. cbn [andb].
  pose proof (proj2 (to_close_spec (a ++ B "]" ++ r) a r) (conj eq_refl (conj N1 N2))) as E. cbn [B list_ascii_of_string app] in E. rewrite E.
  now rewrite (proj2 (has_space_spec a) Sp).
Qed.
Lemma note_none s : (forall a r, s = B "^[" ++ a ++ B "]" ++ r -> ~ balanced a) -> (forall a r, s = B "[^" ++ a ++ B "]" ++ r -> ~ in_line a) ->
  note_at s = None.
Proof.
  intros H1 H2. unfold note_at.
  assert (X : forall c d, (ceq (at_ s 0) c && ceq (at_ s 1) d)%bool = true -> d <> NUL -> s = c :: d :: skipn 2 s).
  { intros c d H N. apply Bool.andb_true_iff in H. destruct H as [A C]. apply ceq_eq in A, C. destruct s as [|x [|y s]]; cbn in *; try congruence. }
  destruct (ceq (at_ s 0) "^" && ceq (at_ s 1) "[")%bool eqn:C1.
  - apply X in C1; [|discriminate]. destruct (to_bracket 1 (skipn 2 s)) as [[a r]|] eqn:E.
    + exfalso. apply to_bracket_spec in E. destruct E as [E Ba]. apply (H1 a r); [|exact Ba]. rewrite C1, E. reflexivity.
    + assert (ceq (at_ s 0) "[" = false) as -> by (rewrite C1; reflexivity). reflexivity.
  - destruct (ceq (at_ s 0) "[" && ceq (at_ s 1) "^")%bool eqn:C2; [|reflexivity]. apply X in C2; [|discriminate].
    destruct (to_close (skipn 2 s)) as [[a r]|] eqn:E; [|reflexivity]. apply to_close_spec in E. destruct E as (E & N1 & N2).
    destruct (has_space a) eqn:Hs; [|reflexivity]. exfalso. apply (H2 a r); [rewrite C2, E; reflexivity|]. split; [exact N1|]. split; [exact N2|]. now apply has_space_spec.
Qed.
Lemma fence_spec s : fence s = true <-> opens_fence s.
Proof.
  unfold fence, opens_fence. rewrite Bool.orb_true_iff, !starts_spec. split.
  - intros [(r & H)|(r & H)]; eauto.
  - intros (r & [H|H]); [left|right]; eauto.
Qed.
Lemma fence_no s : ~ opens_fence s -> fence s = false.
Proof. intro H. destruct (fence s) eqn:E; [|reflexivity]. apply fence_spec in E. contradiction. Qed.

(** ** The loop *)
Lemma loop_byte c s f fuel : c <> "`"%char -> ~ opens_fence (c :: s) -> (f_block f = true \/ f_span f = true \/ note_at (c :: s) = None) ->
  notes_loop (S fuel) (c :: s) f = notes_loop fuel s (f_put c f).
Proof.
  intros N F H. cbn [notes_loop]. rewrite (fence_no _ F), (proj2 (ceq_neq _ _) N). cbn [andb].
  destruct H as [->|[->|H]]; [reflexivity|now rewrite Bool.orb_true_r|]. destruct (f_block f || f_span f)%bool; [reflexivity|]. now rewrite H.
Qed.
Lemma loop_in_block c s f fuel : ~ opens_fence (c :: s) -> f_block f = true ->
  notes_loop (S fuel) (c :: s) f = notes_loop fuel s (f_put c f).
Proof. intros F H. cbn [notes_loop]. rewrite (fence_no _ F), H. cbn [negb andb orb]. now rewrite Bool.andb_false_r. Qed.
Definition f_out (x : str) (f : fs) : fs := Fs (f_block f) (f_span f) (f_notes f) (put_out x (f_w f)).
Lemma f_put_room c f : w_ok (f_w f) -> 1 <= w_rem (f_w f) -> f_put c f = f_out [c] f.
Proof. intros R L. unfold f_put, f_out. now rewrite put_room. Qed.
Lemma f_out_app a b f : f_out b (f_out a f) = f_out (a ++ b) f.
Proof. unfold f_out. cbn [f_block f_span f_notes f_w]. now rewrite put_out_app. Qed.
Lemma block_run x : forall s f fuel, f_block f = true -> w_ok (f_w f) -> length x <= w_rem (f_w f) ->
  (forall a b, x = a ++ b -> b <> [] -> ~ opens_fence (b ++ s)) ->
  notes_loop (length x + fuel) (x ++ s) f = notes_loop fuel s (f_out x f).
Proof.
  induction x as [|c x IH]; intros s f fuel Hb R L F.
  - cbn. f_equal. destruct f. unfold f_out. cbn. now rewrite put_out_nil.
  - cbn [length] in L. cbn [length Nat.add app]. rewrite loop_in_block; [|apply (F [] (c :: x)); [reflexivity|discriminate]|exact Hb].
    rewrite f_put_room by (auto; lia). rewrite IH.
    + now rewrite f_out_app.
    + exact Hb.
    + apply put_out_ok; [exact R|cbn; lia].
    + cbn [f_out f_w]. rewrite put_out_rem. cbn. lia.
    + intros a b -> N. apply (F (c :: a) b); [reflexivity|exact N].
Qed.
Lemma span_run x : forall s f fuel, f_span f = true -> w_ok (f_w f) -> length x <= w_rem (f_w f) -> ~ In "`"%char x ->
  (forall a b, x = a ++ b -> b <> [] -> ~ opens_fence (b ++ s)) ->
  notes_loop (length x + fuel) (x ++ s) f = notes_loop fuel s (f_out x f).
Proof.
  induction x as [|c x IH]; intros s f fuel Hb R L N F.
  - cbn. f_equal. destruct f. unfold f_out. cbn. now rewrite put_out_nil.
  - cbn [length] in L. cbn [length Nat.add app]. rewrite loop_byte; [|intros ->; apply N; now left|apply (F [] (c :: x)); [reflexivity|discriminate]|now right; left].
    rewrite f_put_room by (auto; lia). rewrite IH.
    + now rewrite f_out_app.
    + exact Hb.
    + apply put_out_ok; [exact R|cbn; lia].
    + cbn [f_out f_w]. rewrite put_out_rem. cbn. lia.
    + intro I. apply N. now right.
    + intros a b -> Nb. apply (F (c :: a) b); [reflexivity|exact Nb].
Qed.
Definition flip_block (f : fs) : fs := Fs (negb (f_block f)) (f_span f) (f_notes f) (f_w f).
Definition flip_span (f : fs) : fs := Fs (f_block f) (negb (f_span f)) (f_notes f) (f_w f).
Lemma loop_fence c s f fuel : opens_fence (c :: s) -> notes_loop (S fuel) (c :: s) f = notes_loop fuel s (f_put c (flip_block f)).
Proof. intro H. apply fence_spec in H. cbn [notes_loop]. now rewrite H. Qed.
Lemma loop_tick s f fuel : ~ opens_fence (B "`" ++ s) -> f_block f = false ->
  notes_loop (S fuel) (B "`" ++ s) f = notes_loop fuel s (f_put "`" (flip_span f)).
Proof. intros F H. change (B "`" ++ s) with ("`"%char :: s) in *. cbn [notes_loop]. rewrite (fence_no _ F). unfold flip_span. now rewrite H. Qed.
Lemma not_fence1 t s : (t = "`"%char \/ t = "~"%char) -> ~ begins t s -> ~ opens_fence (t :: s) /\ ~ opens_fence (t :: t :: s).
Proof.
  intros T N. split; intros (r & [H|H]); injection H as -> H; subst; try (apply N; eexists; reflexivity).
  all: injection H as H; subst; try (apply N; eexists; reflexivity).
Qed.
Lemma three_fence t s : (t = "`"%char \/ t = "~"%char) -> opens_fence (t :: t :: t :: s).
Proof. intros [->| ->]; exists s; [now left|now right]. Qed.

Lemma fence_app b s : 3 <= length b -> opens_fence (b ++ s) -> opens_fence b.
Proof.
  intros L (r & H). destruct b as [|x [|y [|z b]]]; cbn in L; try lia. exists b. cbn [app] in H.
  destruct H as [H|H]; injection H as -> -> -> _; [now left|now right].
Qed.
Lemma begins_app t x s : x <> [] -> begins t (x ++ s) -> begins t x.
Proof. intros N (r & H). destruct x as [|c x]; [congruence|]. injection H as -> _. now exists x. Qed.
Lemma tilde_note s : note_at ("~"%char :: s) = None.
Proof. apply note_none; intros a r H; discriminate H. Qed.
Lemma f_out_ok x f : w_ok (f_w f) -> length x <= w_rem (f_w f) -> w_ok (f_w (f_out x f)).
Proof. intros R L. now apply put_out_ok. Qed.
Lemma f_out_rem x f : w_rem (f_w (f_out x f)) = w_rem (f_w f) - length x.
Proof. reflexivity. Qed.
Lemma flip_block_out x f : flip_block (f_out x f) = f_out x (flip_block f).
Proof. reflexivity. Qed.
Lemma flip_span_out x f : flip_span (f_out x f) = f_out x (flip_span f).
Proof. reflexivity. Qed.
Lemma flip_block2 f : flip_block (flip_block f) = f.
Proof. destruct f. unfold flip_block. cbn. now rewrite Bool.negb_involutive. Qed.
Lemma flip_span2 f : flip_span (flip_span f) = f.
Proof. destruct f. unfold flip_span. cbn. now rewrite Bool.negb_involutive. Qed.
Lemma fenced_run t x s f fuel : clear (Fenced t x) s -> f_block f = false -> f_span f = false -> w_ok (f_w f) ->
  length (source (Fenced t x)) <= w_rem (f_w f) ->
  notes_loop (length (source (Fenced t x)) + fuel) (source (Fenced t x) ++ s) f = notes_loop fuel s (f_out (source (Fenced t x)) f).
Proof.
  intros (T & N1 & N2 & C) Hb Hs R L.
  assert (X : x ++ three t <> []) by (destruct x; discriminate).
  assert (E : source (Fenced t x) ++ s = t :: (t :: t :: x) ++ t :: t :: t :: s).
  { cbn [source]. rewrite <- !app_assoc. reflexivity. }
  assert (Ln : length (source (Fenced t x)) = S (length (t :: t :: x) + 3)).
  { cbn [source]. rewrite !app_length. cbn. lia. }
  rewrite Ln in L. rewrite E, Ln. cbn [Nat.add]. rewrite <- Nat.add_assoc.
  rewrite loop_fence by now apply three_fence. rewrite f_put_room by (cbn [flip_block f_w]; auto; lia).
  rewrite block_run; [|cbn; now rewrite Hb|apply f_out_ok; [exact R|cbn [length flip_block f_w]; lia]|rewrite f_out_rem; cbn [flip_block f_w length] in *; lia|].
  2:{ intros a b Hab Nb. destruct a as [|a0 [|a1 a]].
      - cbn [app] in Hab. subst b. cbn [app]. apply not_fence1; [exact T|]. change (t :: t :: t :: s) with (three t ++ s). rewrite app_assoc.
        intro Q. apply N1. now apply begins_app in Q.
      - injection Hab as <- <-. cbn [app]. apply not_fence1; [exact T|]. change (t :: t :: t :: s) with (three t ++ s). rewrite app_assoc.
        intro Q. apply N1. now apply begins_app in Q.
      - injection Hab as <- <- ->. change (t :: t :: t :: s) with (three t ++ s). rewrite app_assoc. intro Q. apply fence_app in Q.
        + revert Q. apply (C a); [now rewrite app_assoc|]. rewrite app_length. destruct b; [congruence|cbn; lia].
        + rewrite app_length. cbn. lia. }
  rewrite f_out_app. cbn [Nat.add]. rewrite loop_fence by now apply three_fence. rewrite flip_block_out, flip_block2.
  rewrite f_put_room; [|apply f_out_ok; [exact R|cbn [length app] in *; lia]|rewrite f_out_rem; cbn [length app] in *; lia]. rewrite f_out_app.
  destruct (not_fence1 t s T N2) as [F1 F2].
  set (f1 := f_out _ f).
  assert (R1 : w_ok (f_w f1)). { apply f_out_ok; [exact R|rewrite !app_length; cbn [length app] in *; lia]. }
  assert (L1 : 2 <= w_rem (f_w f1)). { unfold f1. rewrite f_out_rem, !app_length. cbn [length app] in *. lia. }
  assert (Z : notes_loop (S (S fuel)) (t :: t :: s) f1 = notes_loop fuel s (f_out [t; t] f1)).
  { change [t; t] with ([t] ++ [t]). rewrite <- f_out_app. destruct T as [->| ->].
    - change ("`"%char :: "`"%char :: s) with (B "`" ++ B "`" ++ s). rewrite loop_tick; [|exact F2|exact Hb].
      rewrite f_put_room; [|exact R1|cbn [flip_span f_w]; lia]. rewrite loop_tick; [|exact F1|exact Hb].
      rewrite flip_span_out, flip_span2. rewrite f_put_room; [reflexivity|apply f_out_ok; cbn [length]; auto; lia|rewrite f_out_rem; cbn [length]; lia].
    - rewrite loop_byte; [|discriminate|exact F2|right; right; apply tilde_note].
      rewrite f_put_room; [|exact R1|lia]. rewrite loop_byte; [|discriminate|exact F1|right; right; apply tilde_note].
      rewrite f_put_room; [reflexivity|apply f_out_ok; cbn [length]; auto; lia|rewrite f_out_rem; cbn [length]; lia]. }
  rewrite Z. unfold f1. rewrite f_out_app. f_equal. f_equal. cbn [source]. cbn [app three]. rewrite <- !app_assoc. reflexivity.
Qed.
Lemma span_part_run x s f fuel : clear (Span x) s -> f_block f = false -> f_span f = false -> w_ok (f_w f) ->
  length (source (Span x)) <= w_rem (f_w f) ->
  notes_loop (length (source (Span x)) + fuel) (source (Span x) ++ s) f = notes_loop fuel s (f_out (source (Span x)) f).
Proof.
  intros (N & N2 & C) Hb Hs R L.
  assert (Ln : length (source (Span x)) = S (length x + 1)). { cbn [source]. rewrite !app_length. cbn. lia. }
  rewrite Ln in *. replace (source (Span x) ++ s) with (B "`" ++ x ++ B "`" ++ s) by (cbn [source]; now rewrite <- !app_assoc).
  assert (F0 : ~ opens_fence (B "`" ++ x ++ B "`" ++ s)).
  { intros (r & [H|H]); [|discriminate]. injection H as H. destruct x as [|c x].
    - cbn in H. injection H as H. apply N2. now exists r.
    - injection H as -> _. apply N. now left. }
  cbn [Nat.add]. rewrite <- Nat.add_assoc. rewrite loop_tick by assumption. rewrite f_put_room by (cbn [flip_span f_w]; auto; lia).
  rewrite span_run; [|cbn; now rewrite Hs|apply f_out_ok; [exact R|cbn [length flip_span f_w]; lia]|rewrite f_out_rem; cbn [flip_span f_w length] in *; lia|exact N|].
  2:{ intros a b -> Nb (r & [H|H]).
      - destruct b as [|c b]; [congruence|]. injection H as -> _. apply N. apply in_or_app. right. now left.
      - apply (C a (b ++ B "`")); [now rewrite app_assoc|]. destruct b as [|c1 [|c2 [|c3 b]]]; try discriminate; try congruence.
        injection H as -> -> -> _. exists (b ++ B "`"). now right. }
  rewrite f_out_app. cbn [Nat.add].
  rewrite loop_tick; [|intros (r & [H|H]); [injection H as H; apply N2; rewrite H; eexists; reflexivity|discriminate]|exact Hb].
  rewrite flip_span_out, flip_span2. rewrite f_put_room; [|apply f_out_ok; [exact R|cbn [length app] in *; lia]|rewrite f_out_rem; cbn [length app] in *; lia].
  rewrite f_out_app. reflexivity.
Qed.
Lemma label_is n : label n = reference n.
Proof. reflexivity. Qed.
Lemma note_run p a s f fuel : (p = Caret a \/ p = Brackets a) -> clear p s -> f_block f = false -> f_span f = false -> w_ok (f_w f) ->
  length (reference (S (length (f_notes f)))) < w_rem (f_w f) ->
  notes_loop (S fuel) (source p ++ s) f =
  notes_loop fuel s (Fs false false (f_notes f ++ [a]) (put_out (reference (S (length (f_notes f)))) (f_w f))).
Proof.
  intros P C Hb Hs R L.
  assert (N : note_at (source p ++ s) = Some (a, s)).
  { destruct P as [->| ->]; cbn [source]; rewrite <- !app_assoc; [now apply note_caret|now apply note_brackets]. }
  assert (Z : exists c s', source p ++ s = c :: s' /\ c <> "`"%char /\ ~ opens_fence (c :: s')).
  { destruct P as [->| ->]; cbn [source B list_ascii_of_string app]; eexists; eexists; split; try reflexivity; split; try discriminate;
      intros (r & [H|H]); discriminate H. }
  destruct Z as (c & s' & Z & N1 & F). rewrite Z in *. cbn [notes_loop]. rewrite (fence_no _ F), (proj2 (ceq_neq _ _) N1), Hb, Hs. cbn [andb orb].
  rewrite N. now rewrite puts_room.
Qed.
Lemma loop_parts l : forall f fuel, clear_all l -> f_block f = false -> f_span f = false -> w_ok (f_w f) ->
  length (text l) < fuel -> length (body (S (length (f_notes f))) l) < w_rem (f_w f) ->
  notes_loop fuel (text l) f = Some (Fs false false (f_notes f ++ notes l) (put_out (body (S (length (f_notes f))) l) (f_w f))).
Proof.
  induction l as [|p l IH]; intros f fuel C Hb Hs R Lf L.
  - destruct fuel as [|fuel]; [cbn in Lf; lia|]. cbn [text map concat notes_loop notes body]. rewrite app_nil_r, put_out_nil. f_equal.
    destruct f. cbn in *. congruence.
  - destruct C as [Cp C]. change (text (p :: l)) with (source p ++ text l) in *. rewrite app_length in Lf.
    assert (K : forall a, p = Caret a \/ p = Brackets a -> notes_loop fuel (source p ++ text l) f =
              Some (Fs false false (f_notes f ++ notes (p :: l)) (put_out (body (S (length (f_notes f))) (p :: l)) (f_w f)))).
    { intros a P.
      assert (Bd : body (S (length (f_notes f))) (p :: l) = reference (S (length (f_notes f))) ++ body (S (S (length (f_notes f)))) l)
        by (destruct P as [->| ->]; reflexivity).
      assert (Nt : notes (p :: l) = a :: notes l) by (destruct P as [->| ->]; reflexivity).
      assert (Ls : 0 < length (source p)) by (destruct P as [->| ->]; cbn; lia).
      rewrite Bd in *. rewrite Nt. rewrite app_length in L. destruct fuel as [|fuel]; [lia|]. rewrite (note_run p a); auto; [|lia].
      rewrite IH; cbn [f_block f_span f_notes f_w]; auto.
      - rewrite put_out_app, <- app_assoc. cbn [app]. rewrite app_length. cbn [length]. now rewrite Nat.add_1_r.
      - apply put_out_ok; [exact R|lia].
      - lia.
      - rewrite put_out_rem, app_length. cbn [length]. rewrite Nat.add_1_r. lia. }
    assert (J : notes (p :: l) = notes l -> (forall n, body n (p :: l) = source p ++ body n l) ->
              (forall k, length (source p) <= w_rem (f_w f) -> notes_loop (length (source p) + k) (source p ++ text l) f = notes_loop k (text l) (f_out (source p) f)) ->
              notes_loop fuel (source p ++ text l) f =
              Some (Fs false false (f_notes f ++ notes (p :: l)) (put_out (body (S (length (f_notes f))) (p :: l)) (f_w f)))).
    { intros -> Bd Step. rewrite Bd in *. rewrite app_length in L. replace fuel with (length (source p) + (fuel - length (source p))) by lia.
      rewrite Step by lia. rewrite IH; auto.
      - cbn [f_out f_notes f_w]. now rewrite put_out_app.
      - apply f_out_ok; [exact R|lia].
      - lia.
      - rewrite f_out_rem. cbn [f_out f_notes]. lia. }
    destruct p as [c|t x|x|a|a].
    + apply J; try reflexivity. intros k Lk. destruct Cp as (N1 & F & H1 & H2). cbn [source length Nat.add app] in *.
      rewrite loop_byte; [|exact N1|exact F|right; right; now apply note_none]. now rewrite f_put_room.
    + apply J; try reflexivity. intros k Lk. now apply fenced_run.
    + apply J; try reflexivity. intros k Lk. now apply span_part_run.
    + apply (K a). now left.
    + apply (K a). now right.
Qed.
Lemma defs_room l : forall n w, w_ok w -> length (definitions n l) < w_rem w -> put_defs n l w = put_out (definitions n l) w.
Proof.
  induction l as [|a l IH]; intros n w R L; [cbn; now rewrite put_out_nil|]. cbn [definitions] in L. rewrite !app_length in L. cbn [length] in L.
  cbn [put_defs definitions]. rewrite label_is.
  assert (Lr : length (reference n ++ B ": ") = length (reference n) + 2) by now rewrite app_length.
  change (length (B ": ")) with 2 in L. rewrite (puts_room (reference n ++ B ": ")) by (auto; lia).
  assert (R1 : w_ok (put_out (reference n ++ B ": ") w)) by (apply put_out_ok; auto; lia).
  rewrite (puts_room a) by (rewrite ?put_out_rem; auto; lia). rewrite put_out_app.
  assert (R2 : w_ok (put_out ((reference n ++ B ": ") ++ a) w)) by (apply put_out_ok; auto; rewrite app_length; lia).
  rewrite put_room by (rewrite ?put_out_rem, ?app_length in *; auto; lia). rewrite put_out_app.
  rewrite IH.
  - rewrite put_out_app. now rewrite <- !app_assoc.
  - apply put_out_ok; auto. rewrite !app_length in *. cbn [length] in *. lia.
  - rewrite put_out_rem, !app_length in *. cbn [length] in *. lia.
Qed.
Lemma inline_notes_enough l : clear_all l -> length (result l) < 3 * length (text l) ->
  exists w, inline_notes (text l) = Some w /\ w_out w = result l /\ w_oob w = false.
Proof.
  intros C L. unfold inline_notes. unfold result in *. rewrite app_length in L.
  rewrite loop_parts; cbn [f_block f_span f_notes f_w]; auto.
  2:{ apply w_ok_new. } 2:{ cbn [w_new w_rem length]. lia. }
  eexists; split; [reflexivity|]. cbn [length app]. set (w0 := w_new _ _).
  assert (R0 : w_ok w0) by apply w_ok_new. assert (L0 : w_rem w0 = 3 * length (text l)) by (cbn; lia).
  assert (R1 : w_ok (put_out (body 1 l) w0)) by (apply put_out_ok; [exact R0|lia]).
  destruct (notes l) as [|a ns].
  - cbn [app length] in *. rewrite app_nil_r. split; [reflexivity|]. apply w_term_safe; [exact R1|]. rewrite put_out_rem. lia.
  - rewrite app_length in L. cbn [length] in L. rewrite puts_room by (rewrite ?put_out_rem; cbn [length]; auto; lia). rewrite put_out_app.
    assert (R2 : w_ok (put_out (body 1 l ++ [NL; NL]) w0)) by (apply put_out_ok; [exact R0|rewrite app_length; cbn [length]; lia]).
    rewrite defs_room; [|exact R2|rewrite put_out_rem, app_length; cbn [length] in *; lia]. rewrite put_out_app, <- app_assoc.
    split; [reflexivity|]. apply w_term_safe; [apply put_out_ok; [exact R0|]|rewrite put_out_rem]; rewrite !app_length; cbn [length] in *; lia.
Qed.
(** ** Any text *)
Lemma put_defs_ok l : forall n w, w_ok w -> w_ok (put_defs n l w) /\ w_cap (put_defs n l w) = w_cap w.
Proof.
  induction l as [|a l IH]; intros n w R; [now split|]. cbn [put_defs].
  destruct (IH (S n) (w_put NL (w_puts_lt a (w_puts_lt (label n ++ B ": ") w)))) as [I1 I2].
  - apply w_put_ok, w_puts_lt_ok, w_puts_lt_ok, R.
  - split; [exact I1|]. rewrite I2. now rewrite w_put_cap, !w_puts_lt_cap.
Qed.
Lemma to_bracket_len s : forall d a r, to_bracket d s = Some (a, r) -> length r < length s.
Proof.
  induction s as [|c s IH]; intros d a r H; [discriminate|]. cbn [to_bracket] in H. cbn [length].
  destruct (if ceq c "[" then S d else if ceq c "]" then d - 1 else d) as [|d']; [injection H as <- <-; lia|].
  destruct (to_bracket (S d') s) as [[a' r']|] eqn:E; [|discriminate]. injection H as <- <-. apply IH in E. lia.
Qed.
Lemma note_len s a r : note_at s = Some (a, r) -> length r < length s.
Proof.
  assert (K : length (skipn 2 s) <= length s) by (rewrite skipn_length; lia). unfold note_at. intro H.
  assert (G : (if ceq (at_ s 0) "[" && ceq (at_ s 1) "^" then match to_close (skipn 2 s) with Some (a, r) => if has_space a then Some (a, r) else None | None => None end else None) = Some (a, r) -> length r < length s).
  { clear H. intro H. destruct (_ && _)%bool; [|discriminate]. destruct (to_close (skipn 2 s)) as [[a' r']|] eqn:E; [|discriminate].
    destruct (has_space a'); [|discriminate]. injection H as -> ->. apply to_close_spec in E. destruct E as [E _]. rewrite E in K. rewrite !app_length in K. cbn in K. lia. }
  destruct (ceq (at_ s 0) "^" && ceq (at_ s 1) "[")%bool; [|exact (G H)].
  destruct (to_bracket 1 (skipn 2 s)) as [[a' r']|] eqn:E; [|exact (G H)]. injection H as -> ->. apply to_bracket_len in E. lia.
Qed.
Lemma loop_total fuel : forall s f, length s < fuel -> w_ok (f_w f) ->
  exists f', notes_loop fuel s f = Some f' /\ w_ok (f_w f') /\ w_cap (f_w f') = w_cap (f_w f).
Proof.
  induction fuel as [|fuel IH]; intros s f L R; [lia|]. destruct s as [|c s]; [now exists f|]. cbn [length] in L. cbn [notes_loop].
  assert (K : forall g, f_w g = f_w f -> exists f', notes_loop fuel s (f_put c g) = Some f' /\ w_ok (f_w f') /\ w_cap (f_w f') = w_cap (f_w f)).
  { intros g G. destruct (IH s (f_put c g)) as (f' & H1 & H2 & H3); [lia|cbn [f_put f_w]; rewrite G; now apply w_put_ok|].
    exists f'. split; [exact H1|]. split; [exact H2|]. rewrite H3. cbn [f_put f_w]. now rewrite w_put_cap, G. }
  destruct (fence (c :: s)); [now apply K|]. destruct (_ && _)%bool; [now apply K|]. destruct (_ || _)%bool; [now apply K|].
  destruct (note_at (c :: s)) as [[a r]|] eqn:E; [|now apply K]. apply note_len in E. cbn [length] in E.
  match goal with |- context [notes_loop fuel r ?g] => destruct (IH r g) as (f' & H1 & H2 & H3) end.
  - lia.
  - cbn [f_w]. now apply w_puts_lt_ok.
  - exists f'. split; [exact H1|]. split; [exact H2|]. rewrite H3. cbn [f_w]. apply w_puts_lt_cap.
Qed.
Lemma inline_notes_total s : exists w, inline_notes s = Some w /\ length (w_out w) <= 3 * length s /\
  (w_oob w = true <-> length (w_out w) = 3 * length s).
Proof.
  unfold inline_notes. destruct (loop_total (S (length s)) s (Fs false false [] (w_new (length s * 3) (length s * 3)))) as (f & -> & R & Cp); [lia|apply w_ok_new|].
  eexists; split; [reflexivity|]. cbn [f_w w_new w_cap] in Cp.
  set (w := match f_notes f with [] => f_w f | _ => _ end).
  assert (K : w_ok w /\ w_cap w = length s * 3).
  { unfold w. destruct (f_notes f) as [|a l]; [now split|].
    destruct (put_defs_ok (a :: l) 1 (w_puts_lt [NL; NL] (f_w f))) as [K1 K2]; [now apply w_puts_lt_ok|]. split; [exact K1|]. rewrite K2, w_puts_lt_cap. exact Cp. }
  clearbody w. destruct K as [K1 K2]. pose proof (w_term_safe w K1) as T. destruct K1 as [K1 K3].
  assert (O : w_out (w_term w) = w_out w) by reflexivity. rewrite O. split; [lia|]. destruct (w_oob (w_term w)).
  - split; [intros _|reflexivity]. destruct (Nat.eq_dec (w_rem w) 0) as [Z|Z]; [lia|]. assert (0 < w_rem w) as Q by lia. apply T in Q. discriminate.
  - split; [discriminate|]. intro Q. assert (0 < w_rem w) as Z by now apply T. lia.
Qed.
Lemma inline_notes_exact l : clear_all l ->
  exists w, inline_notes (text l) = Some w /\ (w_out w = result l /\ w_oob w = false <-> length (result l) < 3 * length (text l)).
Proof.
  intro C. destruct (inline_notes_total (text l)) as (w & E & L & O). exists w. split; [exact E|]. split.
  - intros [H1 H2]. rewrite <- H1. destruct (Nat.eq_dec (length (w_out w)) (3 * length (text l))) as [Q|Q]; [|lia]. apply O in Q. congruence.
  - intro H. destruct (inline_notes_enough l C H) as (w' & E' & K). congruence.
Qed.
(** ** Texts without code *)
Lemma note_at_some s a r : note_at s = Some (a, r) -> (s = source (Caret a) ++ r /\ balanced a) \/ (s = source (Brackets a) ++ r /\ in_line a).
Proof.
  unfold note_at. intro H.
  assert (X : forall c d, (ceq (at_ s 0) c && ceq (at_ s 1) d)%bool = true -> d <> NUL -> s = c :: d :: skipn 2 s).
  { intros c d Q N. apply Bool.andb_true_iff in Q. destruct Q as [A C]. apply ceq_eq in A, C. destruct s as [|x [|y s]]; cbn in *; try congruence. }
  assert (G : (if ceq (at_ s 0) "[" && ceq (at_ s 1) "^" then match to_close (skipn 2 s) with Some (a, r) => if has_space a then Some (a, r) else None | None => None end else None) = Some (a, r) -> s = source (Brackets a) ++ r /\ in_line a).
  { clear H. intro H. destruct (_ && _)%bool eqn:C; [|discriminate]. apply X in C; [|discriminate]. destruct (to_close (skipn 2 s)) as [[a' r']|] eqn:E; [|discriminate].
    destruct (has_space a') eqn:Hs; [|discriminate]. injection H as -> ->. apply to_close_spec in E. destruct E as (E & N1 & N2). split.
    - rewrite C, E. cbn [source]. rewrite <- !app_assoc. reflexivity.
    - split; [exact N1|]. split; [exact N2|]. now apply has_space_spec. }
  destruct (ceq (at_ s 0) "^" && ceq (at_ s 1) "[")%bool eqn:C; [|right; exact (G H)]. apply X in C; [|discriminate].
  destruct (to_bracket 1 (skipn 2 s)) as [[a' r']|] eqn:E; [|right; exact (G H)]. injection H as -> ->. apply to_bracket_spec in E. destruct E as [E Ba]. left. split; [|exact Ba].
  rewrite C, E. cbn [source]. rewrite <- !app_assoc. reflexivity.
Qed.
Lemma plain_parts n : forall s, length s <= n -> ~ In "`"%char s -> (forall a b, s <> a ++ B "~~~" ++ b) -> exists l, text l = s /\ clear_all l.
Proof.
  induction n as [|n IH]; intros s L N1 N2.
  - destruct s; [now exists []|cbn in L; lia].
  - destruct s as [|c s]; [now exists []|]. cbn [length] in L.
    assert (K : forall x r, c :: s = x ++ r -> length r <= n -> exists l, text l = r /\ clear_all l).
    { intros x r E Lr. apply IH; [exact Lr|intro I; apply N1; rewrite E; apply in_or_app; now right|].
      intros a b ->. apply (N2 (x ++ a) b). rewrite E. now rewrite <- app_assoc. }
    destruct (note_at (c :: s)) as [[a r]|] eqn:E.
    + apply note_len in E as Lr. cbn [length] in Lr. apply note_at_some in E. destruct E as [[E Q]|[E Q]].
      * destruct (K _ r E) as (l & T & C); [lia|]. exists (Caret a :: l). split; [|now split]. change (source (Caret a) ++ text l = c :: s). now rewrite T.
      * destruct (K _ r E) as (l & T & C); [lia|]. exists (Brackets a :: l). split; [|now split]. change (source (Brackets a) ++ text l = c :: s). now rewrite T.
    + destruct (K [c] s eq_refl) as (l & T & C); [lia|]. exists (Byte c :: l). split; [change (c :: text l = c :: s); now rewrite T|]. split; [|exact C]. rewrite T. cbn [clear].
      split; [intros ->; apply N1; now left|]. split; [|split].
      * intros (r & [H|H]); [apply N1; rewrite H; now left|]. now apply (N2 [] r).
      * intros a r H Q. rewrite H in E. rewrite note_caret in E; [discriminate|exact Q].
      * intros a r H Q. rewrite H in E. rewrite note_brackets in E; [discriminate|exact Q].
Qed.
(** ** Definitions are unique *)
Notation mark := (B "[^fn").
Lemma defines_mark n s : defines n s = true -> starts mark s = true.
Proof. unfold defines. intro H. apply starts_spec in H. destruct H as (r & ->). unfold reference. rewrite <- !app_assoc. apply starts_app. Qed.
Lemma mark_cross x y : x <> [] -> (forall c r, y = c :: r -> c <> "^"%char /\ c <> "f"%char /\ c <> "n"%char) -> starts mark (x ++ y) = starts mark x.
Proof.
  intros N H.
  destruct y as [|d y]; [now rewrite app_nil_r|]. destruct (H d y eq_refl) as (A & C & D).
  assert (ceq "^" d = false /\ ceq "f" d = false /\ ceq "n" d = false) as (E1 & E2 & E3) by (repeat split; apply ceq_neq; congruence).
  destruct x as [|c1 [|c2 [|c3 [|c4 x]]]]; [congruence| | | |]; cbn [app B list_ascii_of_string starts]; rewrite ?E1, ?E2, ?E3; cbn [andb]; rewrite ?Bool.andb_false_r; reflexivity.
Qed.
Lemma count_app P x y : (forall s, P s = true -> starts mark s = true) -> (forall c r, y = c :: r -> c <> "^"%char /\ c <> "f"%char /\ c <> "n"%char) ->
  count (starts mark) x = 0 -> count P (x ++ y) = count P y.
Proof.
  intros HP H. induction x as [|c x IH]; intro Z; [reflexivity|]. cbn [count app] in *.
  assert (E : P (c :: x ++ y) = false).
  { destruct (P (c :: x ++ y)) eqn:E; [|reflexivity]. apply HP in E. change (c :: x ++ y) with ((c :: x) ++ y) in E. rewrite mark_cross in E; [|discriminate|exact H].
    rewrite E in Z. lia. }
  rewrite E. cbn [Nat.add]. apply IH. lia.
Qed.
Lemma count_suffix P x y : count P y <= count P (x ++ y).
Proof. induction x as [|c x IH]; [reflexivity|]. cbn [app count]. lia. Qed.
Lemma count_prefix x y : count (starts mark) x <= count (starts mark) (x ++ y).
Proof.
  induction x as [|c x IH]; [cbn; lia|]. cbn [app count].
  assert ((if starts mark (c :: x) then 1 else 0) <= (if starts mark (c :: x ++ y) then 1 else 0)); [|lia].
  destruct (starts mark (c :: x)) eqn:E; [|lia]. apply starts_spec in E. destruct E as (r & E). change (c :: x ++ y) with ((c :: x) ++ y). rewrite E, <- app_assoc, starts_app. lia.
Qed.
Lemma count_none P x y : (forall s, P s = true -> starts mark s = true) -> ~ In "["%char x -> count P (x ++ y) = count P y.
Proof.
  intros HP. induction x as [|c x IH]; intro N; [reflexivity|]. cbn [app count].
  destruct (P (c :: x ++ y)) eqn:E; [|apply IH; intro; apply N; now right].
  exfalso. apply HP in E. apply starts_spec in E. destruct E as (r & E). injection E as -> _. apply N. now left.
Qed.
Lemma dec_no_bracket n c : In c (dec n) -> isdigit c = true.
Proof. intro I. pose proof (proj2 (dec_all_digits n)) as H. rewrite forallb_forall in H. now apply H. Qed.
Lemma count_reference P m z : (forall s, P s = true -> starts mark s = true) ->
  count P (reference m ++ z) = (if P (reference m ++ z) then 1 else 0) + count P z.
Proof.
  intros HP. change (reference m) with ("["%char :: (B "^fn" ++ dec m ++ B "]")). cbn [app count]. f_equal. apply count_none; [exact HP|].
  rewrite !in_app_iff. cbn [B list_ascii_of_string In]. intros [[H|[H|[H|[]]]]|[H|[H|[]]]]; try discriminate. apply dec_no_bracket in H. discriminate.
Qed.
Lemma digits_cut (a b x y : str) : forallb isdigit a = true -> forallb isdigit b = true -> a ++ B "]" ++ x = b ++ B "]" ++ y -> a = b /\ x = y.
Proof.
  revert b. induction a as [|c a IH]; intros [|d b] Ha Hb H; cbn in *.
  - injection H as H. now split.
  - injection H as <- _. discriminate.
  - injection H as -> _. discriminate.
  - injection H as -> H. apply Bool.andb_true_iff in Ha, Hb. destruct (IH b (proj2 Ha) (proj2 Hb) H) as [-> ->]. now split.
Qed.
Lemma dec_inj n m : dec n = dec m -> n = m.
Proof. intro H. apply Nat2Z.inj. rewrite <- !dec_value. now rewrite H. Qed.
Lemma defines_reference n m z : defines n (reference m ++ z) = (Nat.eqb n m && starts (B ":") z)%bool.
Proof.
  apply Bool.eq_iff_eq_true. rewrite Bool.andb_true_iff, Nat.eqb_eq. unfold defines. rewrite !starts_spec. split.
  - intros (r & H). unfold reference in H. rewrite <- !app_assoc in H. cbn [B list_ascii_of_string app] in H. injection H as H.
    change (dec m ++ B "]" ++ z = dec n ++ B "]" ++ (":"%char :: r)) in H. apply digits_cut in H; try (eapply proj2; apply dec_all_digits). destruct H as [D ->].
    apply dec_inj in D. split; [now symmetry|]. now exists r.
  - intros [-> (r & ->)]. exists r. now rewrite <- app_assoc.
Qed.
Definition good (y : str) : Prop := forall c r, y = c :: r -> c <> "^"%char /\ c <> "f"%char /\ c <> "n"%char.
Lemma good_reference n y : good (reference n ++ y).
Proof. intros c r H. injection H as <- _. repeat split; discriminate. Qed.
Lemma good_nl y : good (NL :: y).
Proof. intros c r H. injection H as <- _. repeat split; discriminate. Qed.
Lemma body_begins c l : forall n, begins c (body n l) -> c <> "["%char -> begins c (text l).
Proof.
  induction l as [|p l IH]; intros n [r H] N; [discriminate|]. change (text (p :: l)) with (source p ++ text l). destruct p; cbn [body] in H.
  all: try (injection H as <- _; congruence).
  all: cbn [source] in *; injection H as -> _; eexists; reflexivity.
Qed.
Lemma body_count k l y : good y -> starts (B ":") y = false -> forall x n, no_colon l -> count (starts mark) (x ++ text l) = 0 -> count (defines k) (x ++ body n l ++ y) = count (defines k) y.
Proof.
  intros Gy Cy. induction l as [|p l IH]; intros x n C Z.
  - cbn [body app]. apply count_app; [apply defines_mark|exact Gy|]. cbn in Z. now rewrite app_nil_r in Z.
  - change (text (p :: l)) with (source p ++ text l) in Z.
    assert (J : body n (p :: l) = source p ++ body n l -> no_colon l -> count (defines k) (x ++ body n (p :: l) ++ y) = count (defines k) y).
    { intros -> Cl. rewrite <- !app_assoc, (app_assoc x). apply IH; [exact Cl|]. now rewrite <- app_assoc. }
    assert (K : body n (p :: l) = reference n ++ body (S n) l -> ~ begins ":"%char (text l) -> no_colon l -> count (defines k) (x ++ body n (p :: l) ++ y) = count (defines k) y).
    { intros -> Nc Cl. rewrite <- !app_assoc. rewrite count_app; [|apply defines_mark|apply good_reference|pose proof (count_prefix x (source p ++ text l)); lia].
      rewrite count_reference by apply defines_mark. rewrite defines_reference.
      assert (starts (B ":") (body (S n) l ++ y) = false) as ->.
      { destruct (starts (B ":") (body (S n) l ++ y)) eqn:E; [|reflexivity]. exfalso. destruct (body (S n) l) as [|c b] eqn:Eb; [cbn [app] in E; congruence|].
        apply starts_spec in E. destruct E as (r & E). injection E as -> _. apply Nc. apply (body_begins _ _ (S n)); [now exists b|discriminate]. }
      rewrite Bool.andb_false_r. cbn [Nat.add]. apply (IH [] (S n) Cl). cbn [app].
      pose proof (count_suffix (starts mark) (x ++ source p) (text l)) as Q. rewrite <- app_assoc in Q. lia. }
    destruct p; cbn [no_colon] in C; first [apply J; [reflexivity|exact C]|apply K; [reflexivity|apply C|apply C]].
Qed.
Lemma defs_count k l : forall n, Forall (fun a => count (starts mark) a = 0) l ->
  count (defines k) (definitions n l) = if (Nat.leb n k && Nat.ltb k (n + length l))%bool then 1 else 0.
Proof.
  induction l as [|a l IH]; intros n F.
  - cbn [definitions count length]. rewrite Nat.add_0_r. destruct (Nat.leb_spec n k); [|reflexivity]; cbn [andb]. rewrite (proj2 (Nat.ltb_ge k n)) by lia. reflexivity.
  - inversion F as [|? ? Fa Fl]. subst. cbn [definitions]. rewrite count_reference by apply defines_mark. rewrite defines_reference.
    cbn [B list_ascii_of_string app starts]. rewrite ceq_refl. rewrite !Bool.andb_true_r.
    change (":"%char :: " "%char :: a ++ NL :: definitions (S n) l) with (B ": " ++ a ++ NL :: definitions (S n) l).
    rewrite (count_none _ (B ": ")); [|apply defines_mark|cbn; intuition discriminate]. rewrite (count_app _ a); [|apply defines_mark|apply good_nl|exact Fa].
    change (NL :: definitions (S n) l) with ([NL] ++ definitions (S n) l). rewrite (count_none _ [NL]); [|apply defines_mark|cbn; intuition discriminate].
    rewrite IH by exact Fl. cbn [length].
    destruct (Nat.eqb_spec k n) as [Ek|Ne]; destruct (Nat.leb_spec (S n) k), (Nat.leb_spec n k); destruct (Nat.ltb_spec k (S n + length l)), (Nat.ltb_spec k (n + S (length l)));
      cbn [andb Nat.add]; try reflexivity; exfalso; lia.
Qed.
Lemma notes_count l : count (starts mark) (text l) = 0 -> Forall (fun a => count (starts mark) a = 0) (notes l).
Proof.
  induction l as [|p l IH]; intro Z; [constructor|]. change (text (p :: l)) with (source p ++ text l) in Z.
  assert (Zl : count (starts mark) (text l) = 0). { pose proof (count_suffix (starts mark) (source p) (text l)). lia. }
  assert (J : forall a x y, source p = x ++ a ++ y -> count (starts mark) a = 0).
  { intros a x y E. rewrite E, <- !app_assoc in Z. pose proof (count_suffix (starts mark) x (a ++ y ++ text l)). pose proof (count_prefix a (y ++ text l)). lia. }
  destruct p; cbn [notes]; try (apply IH; exact Zl).
  - constructor; [|apply IH; exact Zl]. exact (J a (B "^[") (B "]") eq_refl).
  - constructor; [|apply IH; exact Zl]. exact (J a (B "[^") (B "]") eq_refl).
Qed.
Lemma result_count k l : no_colon l -> count (starts mark) (text l) = 0 ->
  count (defines k) (result l) = if (Nat.leb 1 k && Nat.leb k (length (notes l)))%bool then 1 else 0.
Proof.
  intros C Z. unfold result. pose proof (notes_count l Z) as F. destruct (notes l) as [|a ns].
  - etransitivity; [exact (body_count k l [] ltac:(intros ? ? H; discriminate H) eq_refl [] 1 C Z)|]. now destruct k.
  - etransitivity; [exact (body_count k l _ (good_nl _) eq_refl [] 1 C Z)|]. etransitivity; [exact (count_none (defines k) [NL; NL] _ (defines_mark k) ltac:(cbn; intuition discriminate))|].
    rewrite defs_count by exact F. reflexivity.
Qed.
Lemma no_notes l : notes l = [] -> result l = text l.
Proof.
  intro H. unfold result. rewrite H, app_nil_r. assert (K : forall n, body n l = text l); [|apply K]. induction l as [|p l IH]; intro n; [reflexivity|].
  change (text (p :: l)) with (source p ++ text l). destruct p; cbn [body notes] in *; try discriminate; now rewrite IH.
Qed.
