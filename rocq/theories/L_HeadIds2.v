(** Lemmas on putting ids into headings. *)
From Verif Require Import Base BaseL M_Toc S_Toc M_HeadIds S_HeadIds L_HeadIds.
From Verif Require L_Highlight L_Abbr L_Toc2 L_Toc3.

(** ** The buffer *)
Definition roomy (w : wr) : Prop := S (length (w_out w) + w_rem w) = w_cap w /\ w_oob w = false.
Definition put_out (o : str) (w : wr) : wr := Wr (w_cap w) (w_out w ++ o) (w_rem w - length o) (w_oob w).
Lemma roomy_store s w : roomy w -> length s <= w_rem w -> w_set_rem (w_rem w - length s) (w_store s w) = put_out s w.
Proof.
  intros [R O] L. unfold w_set_rem, w_store, put_out. cbn [w_cap w_out w_rem w_oob]. f_equal. rewrite O. destruct s; [reflexivity|].
  cbn [orb]. apply Nat.ltb_ge. lia.
Qed.
Lemma put_out_roomy o w : roomy w -> length o <= w_rem w -> roomy (put_out o w).
Proof. intros [R O] L. split; [|exact O]. cbn [put_out w_cap w_out w_rem]. rewrite app_length. lia. Qed.
Lemma puts_room s w : roomy w -> length s <= w_rem w -> w_puts_le s w = put_out s w.
Proof. intros R L. unfold w_puts_le. rewrite (proj2 (Nat.leb_le _ _) L). now apply roomy_store. Qed.
Lemma put_room c w : roomy w -> 1 <= w_rem w -> w_put c w = put_out [c] w.
Proof. intros R L. unfold w_put. rewrite (proj2 (Nat.ltb_lt _ _) L). now apply roomy_store. Qed.
Lemma put_out_app a b w : put_out b (put_out a w) = put_out (a ++ b) w.
Proof. unfold put_out. cbn [w_cap w_out w_rem w_oob]. rewrite app_length, <- app_assoc. f_equal. lia. Qed.
Lemma put_out_rem a w : w_rem (put_out a w) = w_rem w - length a.
Proof. reflexivity. Qed.
Lemma put_all_room s : forall w, roomy w -> length s <= w_rem w -> put_all s w = put_out s w.
Proof.
  unfold put_all. induction s as [|c s IH]; intros w R L; cbn [fold_left length] in *.
  - unfold put_out. rewrite app_nil_r. cbn [length]. rewrite Nat.sub_0_r. now destruct w.
  - rewrite put_room by (auto; lia). rewrite IH; [now rewrite put_out_app|apply put_out_roomy; [exact R|cbn; lia]|rewrite put_out_rem; cbn [length]; lia].
Qed.
Lemma puts_roomy s w : roomy w -> roomy (w_puts_le s w).
Proof.
  intro R. unfold w_puts_le. destruct (Nat.leb _ _) eqn:E; [|exact R]. apply Nat.leb_le in E. rewrite roomy_store by assumption. now apply put_out_roomy.
Qed.
Lemma put_roomy c w : roomy w -> roomy (w_put c w).
Proof.
  intro R. unfold w_put. destruct (Nat.ltb 0 _) eqn:E; [|exact R]. apply Nat.ltb_lt in E.
  change 1 with (length [c]). rewrite roomy_store by (auto; cbn; lia). apply put_out_roomy; [exact R|cbn; lia].
Qed.
Lemma put_all_roomy s : forall w, roomy w -> roomy (put_all s w).
Proof. unfold put_all. induction s as [|c s IH]; intros w R; [exact R|]. cbn [fold_left]. apply IH. now apply put_roomy. Qed.

(** ** Safety and termination *)
Lemma tag_span s t r : span (fun c => negb (ceq c ">")) s = (t, r) -> s = t ++ r /\ ~ In ">"%char t /\ (r = [] \/ exists r', r = ">"%char :: r').
Proof.
  intro E. destruct (L_Highlight.span_spec _ _ _ _ E) as (A & F & S0).
  split; [exact A|]. split.
  - intro I. rewrite forallb_forall in F. apply F in I. now rewrite ceq_refl in I.
  - destruct r as [|c r]; [now left|right]. specialize (S0 c r eq_refl). apply Bool.negb_false_iff, ceq_eq in S0 as ->. eauto.
Qed.
Lemma span_tag t r : ~ In ">"%char t -> span (fun c => negb (ceq c ">")) (t ++ ">"%char :: r) = (t, ">"%char :: r).
Proof.
  induction t as [|c t IH]; intro N; cbn [app span].
  - now rewrite ceq_refl.
  - assert (ceq c ">" = false) as -> by (apply ceq_neq; intros ->; apply N; now left). cbn [negb]. rewrite IH; [reflexivity|]. intro I. apply N. now right.
Qed.
Lemma level_bytes c : between 49 54 c = true <-> is_level c.
Proof.
  assert (H : forall c, Bool.eqb (between 49 54 c) (existsb (ceq c) ["1"; "2"; "3"; "4"; "5"; "6"]%char) = true).
  { apply byte_forall. vm_compute. reflexivity. }
  specialize (H c). apply Bool.eqb_prop in H. rewrite H, existsb_exists. unfold is_level. split.
  - intros (x & I & E). apply ceq_eq in E. now subst.
  - intro I. exists c. now rewrite ceq_refl.
Qed.
Lemma opens_first s : opens_heading s = true <-> exists n d r, s = "<"%char :: "h"%char :: n :: d :: r /\ is_level n /\ (d = ">"%char \/ isspace d = true).
Proof.
  unfold opens_heading. split.
  - intro H. apply Bool.andb_true_iff in H. destruct H as [H H0]. apply Bool.andb_true_iff in H. destruct H as [H H1]. apply Bool.andb_true_iff in H. destruct H as [H H2].
    destruct s as [|c0 [|c1 [|c2 [|c3 r]]]]; try discriminate.
    cbn [at_ nth] in *. apply ceq_eq in H, H2. subst. exists c2, c3, r. split; [reflexivity|]. split; [now apply level_bytes|].
    apply Bool.orb_true_iff in H0. destruct H0 as [D|D]; [left; now apply ceq_eq|now right].
  - intros (n & d & r & -> & L & D). cbn [at_ nth]. rewrite !ceq_refl, (proj2 (level_bytes n) L). destruct D as [->| ->]; [now rewrite ceq_refl|].
    apply Bool.orb_true_r.
Qed.
Lemma tag_opens n a r : is_level n -> is_attrs a -> opens_heading (tag n a ++ r) = true.
Proof.
  intros L [_ [->|(c & a' & -> & C)]]; apply opens_first; unfold tag; cbn; eauto 8.
Qed.
Lemma opens_tag s t r : opens_heading s = true -> span (fun c => negb (ceq c ">")) s = (t, ">"%char :: r) ->
  exists n a, is_level n /\ is_attrs a /\ t = B "<h" ++ [n] ++ a /\ s = tag n a ++ r.
Proof.
  intros O E. apply opens_first in O. destruct O as (n & d & r' & -> & L & D). apply tag_span in E. destruct E as (E & N & _).
  destruct t as [|c0 [|c1 t]]; [discriminate|injection E as _ E; discriminate|]. injection E as <- <- E.
  destruct t as [|c2 t]; [injection E as -> _|injection E as <- E].
  { exfalso. clear - L. destruct L as [H|[H|[H|[H|[H|[H|[]]]]]]]; discriminate. }
  exists n, t. split; [exact L|]. split; [|split; [reflexivity|]].
  - split; [intro I; apply N; do 3 right; exact I|]. destruct t as [|c t]; [now left|right]. injection E as <- _. exists d, t. split; [reflexivity|].
    destruct D as [->|D]; [|exact D]. exfalso. apply N. do 3 right. now left.
  - unfold tag. rewrite <- !app_assoc. cbn. now rewrite E.
Qed.
Lemma old_id_end_len s : length (old_id_end s) <= length s.
Proof.
  unfold old_id_end.
  assert (X : forall f (s : str), length (snd (span f s)) <= length s).
  { clear. intros f s. induction s as [|c s IH]; cbn [span]; [apply le_n|]. destruct (f c); [|apply le_n]. destruct (span f s). cbn in *. lia. }
  set (f := fun c => ceq c SP || is_quote c). pose proof (X f s). set (s1 := snd (span f s)) in *.
  set (g := fun c => negb (is_quote c || ceq c SP || ceq c ">")). pose proof (X g s1). set (s2 := snd (span g s1)) in *.
  destruct (is_quote _); [|lia]. rewrite skipn_length. lia.
Qed.
Lemma inject_ends fuel anchors ids : forall s idx w, length s < fuel -> roomy w -> exists w', inject_loop fuel anchors ids s idx w = Some w' /\ roomy w' /\ w_cap w' = w_cap w.
Proof.
  assert (Cp : forall c w, w_cap (w_put c w) = w_cap w) by (intros; unfold w_put; destruct (Nat.ltb _ _); reflexivity).
  assert (Cs : forall s w, w_cap (w_puts_le s w) = w_cap w) by (intros; unfold w_puts_le; destruct (Nat.leb _ _); reflexivity).
  assert (Ca : forall s w, w_cap (put_all s w) = w_cap w).
  { unfold put_all. induction s as [|c s IH]; intro w; [reflexivity|]. cbn [fold_left]. now rewrite IH, Cp. }
  induction fuel as [|fuel IH]; intros s idx w L R; [lia|]. cbn [inject_loop]. destruct s as [|c s]; [eauto|]. cbn [length] in L.
  destruct (opens_heading (c :: s)) eqn:O; cycle 1.
  { destruct (IH s idx (w_put c w)) as (w' & E & R' & C); [lia|now apply put_roomy|]. rewrite Cp in C. eauto. }
  destruct (span _ (c :: s)) as [t r] eqn:S0. pose proof (tag_span _ _ _ S0) as (E & N & [->|(r' & ->)]).
  { destruct (IH s idx (w_put c w)) as (w' & E' & R' & C); [lia|now apply put_roomy|]. rewrite Cp in C. eauto. }
  assert (Lt : length t + S (length r') = S (length s)).
  { change (S (length s)) with (length (c :: s)). rewrite E, app_length. reflexivity. }
  assert (L3 : 1 <= length t).
  { destruct t; [|cbn; lia]. exfalso. apply opens_first in O. destruct O as (? & ? & ? & O & _). rewrite E in O. discriminate. }
  destruct (nth_error ids idx) as [id|].
  - destruct anchors.
    + edestruct IH as (w' & E' & R' & C); [| |exists w'; split; [exact E'|]; split; [exact R'|rewrite C; now rewrite !Cs]]; [lia|auto using puts_roomy].
    + destruct (strstr (B "id=") t) as [k|] eqn:K.
      * edestruct IH as (w' & E' & R' & C); [| |exists w'; split; [exact E'|]; split; [exact R'|rewrite C; now rewrite Ca, !Cs]]; [cbn [length]; lia|auto using puts_roomy, put_all_roomy].
      * edestruct IH as (w' & E' & R' & C); [| |exists w'; split; [exact E'|]; split; [exact R'|rewrite C; now rewrite Cp, !Cs, Cp, !Cs]]; [lia|auto 10 using puts_roomy, put_roomy].
  - edestruct IH as (w' & E' & R' & C); [| |exists w'; split; [exact E'|]; split; [exact R'|rewrite C; now rewrite !Cs]]; [lia|auto using puts_roomy].
Qed.
Lemma finish_safe w : roomy w -> w_oob (finish w) = false /\ w_out (finish w) = w_out w.
Proof.
  intros [R O]. unfold finish, w_term. destruct (Nat.ltb (w_rem w) 1); cbn [w_oob w_out w_cap]; (split; [|reflexivity]); rewrite O; cbn [orb]; apply Nat.leb_gt; lia.
Qed.
Lemma inject_safe anchors html ids : exists w, inject anchors html ids = Some w /\ w_oob w = false.
Proof.
  unfold inject. destruct ids as [|i ids]; [eauto|].
  edestruct (inject_ends (S (length html)) anchors (i :: ids) html 0) as (w & -> & R & _); [lia| |].
  2:{ cbn [option_map]. exists (finish w). split; [reflexivity|]. now apply finish_safe. }
  split; cbn [w_out w_rem w_cap w_oob w_new length]; [lia|reflexivity].
Qed.

(** ** What is written *)
Lemma id_whole id : length id <= 506 -> id_string id = B "id=""" ++ id ++ B """".
Proof. intro L. apply firstn_all2. unfold id_attr. rewrite !app_length. cbn [B list_ascii_of_string length]. lia. Qed.
Lemma no_id_tag n a : ~ has (B "id=") a -> is_level n -> strstr (B "id=") (B "<h" ++ [n] ++ a) = None.
Proof.
  intros N L. destruct (strstr (B "id=") (B "<h" ++ [n] ++ a)) as [k|] eqn:E; [|reflexivity]. exfalso.
  apply strstr_some in E. destruct E as (x & y & E & _). apply N.
  destruct x as [|x0 [|x1 [|x2 x]]]; try discriminate.
  - injection E as _ _ -> _. destruct L as [H|[H|[H|[H|[H|[H|[]]]]]]]; discriminate.
  - injection E as _ _ _ E. exists x, y. exact E.
Qed.
Lemma skip_nth (ids : list str) idx i r : skipn idx ids = i :: r -> nth_error ids idx = Some i /\ skipn (S idx) ids = r.
Proof.
  revert idx. induction ids as [|j ids IH]; intros [|idx] H; cbn in *; try discriminate.
  - injection H as -> ->. auto.
  - destruct ids as [|k ids]; [destruct idx; discriminate|]. apply IH in H. exact H.
Qed.
Lemma skip_nil (ids : list str) idx k : skipn idx ids = [] -> skipn (k + idx) ids = [] /\ nth_error ids idx = None.
Proof.
  intro H. assert (L : length ids <= idx).
  { apply (f_equal (@length _)) in H. rewrite skipn_length in H. cbn in H. lia. }
  split; [apply skipn_all2; lia|now apply nth_error_None].
Qed.
(** Behind an old id. *)
Lemma span_while f (a b : str) : forallb f a = true -> (forall c r, b = c :: r -> f c = false) -> span f (a ++ b) = (a, b).
Proof.
  induction a as [|c a IH]; cbn [forallb app]; intros F S0.
  - destruct b as [|c b]; [reflexivity|]. cbn [span]. now rewrite (S0 c b eq_refl).
  - apply Bool.andb_true_iff in F. destruct F as [F1 F2]. cbn [span]. rewrite F1, (IH F2 S0). reflexivity.
Qed.
Lemma old_id_spec v b : is_value v -> old_id_end (B """" ++ v ++ B """" ++ b) = b.
Proof.
  intros [N F]. unfold old_id_end.
  assert (E : span (fun c => ceq c SP || is_quote c) (B """" ++ v ++ B """" ++ b) = (B """", v ++ B """" ++ b)).
  { apply span_while; [reflexivity|]. intros c r H. destruct v as [|d v]; [congruence|]. injection H as <- _. inversion F as [|? ? X _]. unfold is_quote.
    rewrite !(fun a b => proj2 (ceq_neq a b)); [reflexivity| | |]; intros ->; apply X; cbn; auto. }
  rewrite E. cbn [snd]. clear E.
  assert (E : span (fun c => negb (is_quote c || ceq c SP || ceq c ">")) (v ++ B """" ++ b) = (v, B """" ++ b)).
  { apply span_while.
    - apply forallb_forall. intros c I. rewrite Forall_forall in F. apply F in I. unfold is_quote. rewrite !(fun a b => proj2 (ceq_neq a b)); [reflexivity| | | |]; intros ->; apply I; cbn; auto.
    - intros c r H. injection H as <- _. reflexivity. }
  rewrite E. reflexivity.
Qed.
Lemma old_found n a v b : is_level n -> is_attrs (a ++ [SP]) -> ~ has (B "id=") a ->
  strstr (B "id=") (B "<h" ++ [n] ++ a ++ B " id=""" ++ v ++ B """" ++ b) = Some (length (B "<h" ++ [n] ++ a ++ [SP])).
Proof.
  intros L A N.
  replace (B "<h" ++ [n] ++ a ++ B " id=""" ++ v ++ B """" ++ b) with ((B "<h" ++ [n] ++ a ++ [SP]) ++ B "id=" ++ B """" ++ v ++ B """" ++ b) by (rewrite <- !app_assoc; reflexivity).
  apply strstr_first. intros a' b' E. destruct (Nat.le_gt_cases (length (B "<h" ++ [n] ++ a ++ [SP])) (length a')) as [|Lt]; [assumption|]. exfalso.
  apply app_eq_app in E. destruct E as (l & [[E1 E2]|[E1 E2]]); cycle 1.
  { apply (f_equal (@length _)) in E1. rewrite (app_length _ l) in E1. lia. }
  destruct l as [|c l _] using rev_ind. { apply (f_equal (@length _)) in E1. rewrite app_nil_r in E1. lia. }
  rewrite !app_assoc in E1. apply app_inj_tail in E1. destruct E1 as [E1 <-].
  destruct l as [|c0 [|c1 [|c2 l]]]; try discriminate. injection E2 as <- <- <- _.
  pose proof (no_id_tag n a N L) as X. apply (strstr_none _ _ X a' l). rewrite <- !app_assoc in E1. rewrite E1. reflexivity.
Qed.

Lemma inject_room anchors ids rest s o : titled anchors true rest s o -> forall fuel idx w,
  Forall (short anchors) rest -> skipn idx ids = rest -> length s < fuel -> roomy w -> length o <= w_rem w ->
  inject_loop fuel anchors ids s idx w = Some (put_out o w).
Proof.
  induction 1 as [rest|rest c s o N T IH|id rest n a s o An L A NI T IH|id rest n a v b s o An L A NI V NB La T IH|id rest n a s o An L A T IH|n a s o L A T IH];
    intros fuel idx w Sh Sk Lf R Lo; (destruct fuel as [|fuel]; [lia|]).
  - cbn [inject_loop]. unfold put_out. rewrite app_nil_r, Nat.sub_0_r. now destruct w.
  - cbn [inject_loop length] in *.
    assert (X : inject_loop fuel anchors ids s idx (w_put c w) = Some (put_out (c :: o) w)).
    { rewrite put_room by (auto; lia). rewrite (IH fuel idx); [now rewrite put_out_app|exact Sh|exact Sk|lia| |rewrite put_out_rem; cbn [length]; lia].
      apply put_out_roomy; [exact R|cbn [length]; lia]. }
    destruct (opens_heading (c :: s)) eqn:O; [|exact X]. destruct (span _ (c :: s)) as [t r] eqn:S0.
    pose proof (tag_span _ _ _ S0) as (_ & _ & [->|(r' & ->)]); [exact X|].
    destruct (opens_tag _ _ _ O S0) as (n & a & L & A & _ & E). exfalso. exact (N n a r' L A E).
  - subst anchors. inversion Sh as [|? ? S1 S2]. subst. cbn [short] in S1.
    assert (Sp : span (fun c => negb (ceq c ">")) (tag n a ++ s) = (B "<h" ++ [n] ++ a, ">"%char :: s)).
    { unfold tag. rewrite <- !app_assoc. rewrite (app_assoc [n]), (app_assoc (B "<h")). apply span_tag. intros [I|[I|[I|I]]]; try discriminate.
      - subst n. destruct L as [H|[H|[H|[H|[H|[H|[]]]]]]]; discriminate.
      - now destruct A. }
    pose proof (tag_opens n a s L A) as Op.
    change (tag n a ++ s) with ("<"%char :: (("h"%char :: n :: a ++ B ">") ++ s)) in *. cbn [inject_loop]. rewrite Op, Sp.
    destruct (skip_nth _ _ _ _ Sk) as [Nt Sk']. rewrite Nt. rewrite no_id_tag by assumption.
    assert (Lo' : 10 + length a + length id + length o <= w_rem w).
    { unfold tag in Lo. rewrite !app_length in Lo. cbn [B list_ascii_of_string length] in Lo. lia. }
    cbn [B list_ascii_of_string app firstn skipn].
    rewrite (puts_room ["<"%char; "h"%char; n]) by (auto; cbn [length]; lia).
    assert (R1 : roomy (put_out ["<"%char; "h"%char; n] w)) by (apply put_out_roomy; [exact R|cbn [length]; lia]).
    rewrite (puts_room a) by (auto; rewrite put_out_rem; cbn [length]; lia). rewrite put_out_app.
    assert (R2 : roomy (put_out (["<"%char; "h"%char; n] ++ a) w)) by (apply put_out_roomy; [exact R|cbn [app length]; lia]).
    rewrite (put_room SP) by (auto; rewrite put_out_rem; cbn [app length]; lia). rewrite put_out_app.
    assert (R3 : roomy (put_out ((["<"%char; "h"%char; n] ++ a) ++ [SP]) w)) by (apply put_out_roomy; [exact R|rewrite app_length; cbn [app length]; lia]).
    rewrite id_whole by exact S1.
    rewrite puts_room by (auto; rewrite put_out_rem, !app_length; cbn [B list_ascii_of_string app length]; lia). rewrite put_out_app.
    assert (R4 : roomy (put_out (((["<"%char; "h"%char; n] ++ a) ++ [SP]) ++ B "id=""" ++ id ++ B """") w)).
    { apply put_out_roomy; [exact R|rewrite !app_length; cbn [B list_ascii_of_string app length]; lia]. }
    rewrite put_room by (auto; rewrite put_out_rem, !app_length; cbn [B list_ascii_of_string app length]; lia). rewrite put_out_app.
    rewrite (IH fuel (S idx)); [|exact S2|exact Sk'| | |].
    + rewrite put_out_app. unfold tag. do 2 f_equal. repeat (cbn [B list_ascii_of_string app]; rewrite <- app_assoc). reflexivity.
    + cbn [length] in Lf. rewrite !app_length in Lf. lia.
    + apply put_out_roomy; [exact R|rewrite !app_length; cbn [B list_ascii_of_string app length]; lia].
    + rewrite put_out_rem, !app_length; cbn [B list_ascii_of_string app length]; lia.
  - specialize (La eq_refl). subst anchors rest. inversion Sh as [|? ? S1 S2]. subst. cbn [short] in S1.
    set (a' := a ++ B " id=""" ++ v ++ B """" ++ b) in *.
    assert (A' : is_attrs a').
    { destruct A as [A1 A2]. split.
      - intro I. unfold a' in I. apply in_app_or in I. destruct I as [I|I]; [apply A1; apply in_or_app; now left|].
        cbn [B list_ascii_of_string app] in I. do 5 (destruct I as [I|I]; [discriminate|]).
        apply in_app_or in I. destruct I as [I|I].
        + destruct V as [_ V]. rewrite Forall_forall in V. apply (V _ I). cbn. auto.
        + destruct I as [I|I]; [discriminate|auto].
      - right. destruct a as [|c a]; [now exists SP, (B "id=""" ++ v ++ B """" ++ b)|].
        destruct A2 as [A2|(c' & r & A2 & C)]; [discriminate|]. injection A2 as -> A2. exists c'. eexists. split; [reflexivity|exact C]. }
    assert (Sp : span (fun c => negb (ceq c ">")) (tag n a' ++ s) = (B "<h" ++ [n] ++ a', ">"%char :: s)).
    { unfold tag. rewrite <- !app_assoc. rewrite (app_assoc [n]), (app_assoc (B "<h")). apply span_tag. intros [I|[I|[I|I]]]; try discriminate.
      - subst n. destruct L as [H|[H|[H|[H|[H|[H|[]]]]]]]; discriminate.
      - now destruct A'. }
    pose proof (tag_opens n a' s L A') as Op.
    change (tag n a' ++ s) with ("<"%char :: (("h"%char :: n :: a' ++ B ">") ++ s)) in *. cbn [inject_loop]. rewrite Op, Sp.
    destruct (skip_nth _ _ _ _ Sk) as [Nt Sk']. rewrite Nt. unfold a' at 1. rewrite (old_found n a v b L A NI).
    assert (F1 : firstn (length (B "<h" ++ [n] ++ a ++ [SP])) (B "<h" ++ [n] ++ a') = B "<h" ++ [n] ++ a ++ [SP]).
    { unfold a'. replace (B "<h" ++ [n] ++ a ++ B " id=""" ++ v ++ B """" ++ b) with ((B "<h" ++ [n] ++ a ++ [SP]) ++ B "id=""" ++ v ++ B """" ++ b) by (rewrite <- !app_assoc; reflexivity).
      apply L_Abbr.take_app. }
    rewrite F1.
    assert (F2 : old_id_end (skipn (length (B "<h" ++ [n] ++ a ++ [SP]) + 3) (B "<h" ++ [n] ++ a')) = b).
    { unfold a'. replace (B "<h" ++ [n] ++ a ++ B " id=""" ++ v ++ B """" ++ b) with ((B "<h" ++ [n] ++ a ++ B " id=") ++ B """" ++ v ++ B """" ++ b) by (rewrite <- !app_assoc; reflexivity).
      replace (length (B "<h" ++ [n] ++ a ++ [SP]) + 3) with (length (B "<h" ++ [n] ++ a ++ B " id=")) by (rewrite !app_length; cbn [B list_ascii_of_string length]; lia).
      rewrite L_Abbr.drop_app. now apply old_id_spec. }
    rewrite F2.
    assert (Lo' : 10 + length a + length id + length b + length o <= w_rem w).
    { unfold tag in Lo. rewrite !app_length in Lo. cbn [B list_ascii_of_string length] in Lo. lia. }
    set (x := B "<h" ++ [n] ++ a ++ [SP]). assert (Lx : length x = length a + 4) by (unfold x; rewrite !app_length; cbn; lia).
    rewrite (puts_room x) by (auto; lia). assert (R1 : roomy (put_out x w)) by (apply put_out_roomy; [exact R|lia]).
    rewrite id_whole by exact S1. set (y := B "id=""" ++ id ++ B """"). assert (Ly : length y = length id + 5) by (unfold y; rewrite !app_length; cbn [B list_ascii_of_string length]; lia).
    rewrite (puts_room y) by (auto; rewrite put_out_rem; lia). rewrite put_out_app.
    assert (R2 : roomy (put_out (x ++ y) w)) by (apply put_out_roomy; [exact R|rewrite app_length; lia]).
    rewrite put_all_room by (auto; rewrite put_out_rem, app_length; lia). rewrite put_out_app.
    assert (R3 : roomy (put_out ((x ++ y) ++ b) w)) by (apply put_out_roomy; [exact R|rewrite !app_length; lia]).
    cbn [length] in Lf. rewrite app_length in Lf. cbn [length] in Lf. rewrite app_length in Lf. cbn [B list_ascii_of_string length] in Lf.
    destruct fuel as [|fuel]; [lia|]. cbn [inject_loop].
    assert (Og : opens_heading (">"%char :: s) = false) by reflexivity. rewrite Og.
    rewrite put_room by (auto; rewrite put_out_rem, !app_length; lia). rewrite put_out_app.
    rewrite (IH fuel (S (S idx))).
    + rewrite put_out_app. unfold x, y, tag. repeat rewrite <- app_assoc. reflexivity.
    + constructor.
    + exact (proj1 (skip_nil _ _ 1 Sk')).
    + lia.
    + apply put_out_roomy; [exact R|rewrite !app_length; cbn [length]; lia].
    + rewrite put_out_rem, !app_length. cbn [length]. lia.
  - subst anchors. inversion Sh as [|? ? S1 S2]. subst. cbn [short] in S1.
    assert (Sp : span (fun c => negb (ceq c ">")) (tag n a ++ s) = (B "<h" ++ [n] ++ a, ">"%char :: s)).
    { unfold tag. rewrite <- !app_assoc. rewrite (app_assoc [n]), (app_assoc (B "<h")). apply span_tag. intros [I|[I|[I|I]]]; try discriminate.
      - subst n. destruct L as [H|[H|[H|[H|[H|[H|[]]]]]]]; discriminate.
      - now destruct A. }
    pose proof (tag_opens n a s L A) as Op.
    assert (Lt : length (tag n a) = length a + 4) by (unfold tag; rewrite !app_length; cbn; lia).
    assert (Tg : (B "<h" ++ [n] ++ a) ++ [">"%char] = tag n a) by (unfold tag; now rewrite <- !app_assoc).
    rewrite !app_length, Lt in *.
    assert (Ga : anchor id = anchor_of id) by (apply firstn_all2; exact S1).
    set (tg := tag n a) in *. assert (Ht : exists u, tg ++ s = "<"%char :: u) by (now eexists).
    destruct Ht as (u & Hu). rewrite Hu in *. cbn [inject_loop]. rewrite Op, Sp.
    destruct (skip_nth _ _ _ _ Sk) as [Nt Sk']. rewrite Nt, Tg, Ga.
    rewrite (puts_room tg) by (auto; lia). assert (R1 : roomy (put_out tg w)) by (apply put_out_roomy; [exact R|lia]).
    rewrite (puts_room (anchor_of id)) by (auto; rewrite put_out_rem; lia). rewrite put_out_app.
    rewrite (IH fuel (S idx)); [now rewrite put_out_app, <- app_assoc|exact S2|exact Sk'|lia| |].
    + apply put_out_roomy; [exact R|rewrite app_length; lia].
    + rewrite put_out_rem, app_length. lia.
  - assert (Sp : span (fun c => negb (ceq c ">")) (tag n a ++ s) = (B "<h" ++ [n] ++ a, ">"%char :: s)).
    { unfold tag. rewrite <- !app_assoc. rewrite (app_assoc [n]), (app_assoc (B "<h")). apply span_tag. intros [I|[I|[I|I]]]; try discriminate.
      - subst n. destruct L as [H|[H|[H|[H|[H|[H|[]]]]]]]; discriminate.
      - now destruct A. }
    pose proof (tag_opens n a s L A) as Op.
    assert (Lt : length (tag n a) = length a + 4) by (unfold tag; rewrite !app_length; cbn; lia).
    assert (Tg : (B "<h" ++ [n] ++ a) ++ [">"%char] = tag n a) by (unfold tag; now rewrite <- !app_assoc).
    rewrite !app_length, Lt in *.
    set (tg := tag n a) in *. assert (Ht : exists u, tg ++ s = "<"%char :: u) by (now eexists).
    destruct Ht as (u & Hu). rewrite Hu in *. cbn [inject_loop]. rewrite Op, Sp.
    destruct (skip_nil ids idx 1 Sk) as [Sk' Nt]. rewrite Nt, Tg.
    rewrite (puts_room tg) by (auto; lia). assert (R1 : roomy (put_out tg w)) by (apply put_out_roomy; [exact R|lia]).
    rewrite IH; [now rewrite put_out_app|constructor| |lia|exact R1|rewrite put_out_rem; lia].
    destruct (strstr _ _); [exact Sk|exact Sk'].
Qed.
Lemma inject_exact anchors html ids o : ids <> [] -> titled anchors true ids html o -> Forall (short anchors) ids ->
  exists w, inject anchors html ids = Some w /\ (w_out w = o <-> length o <= length html + 100 * length ids).
Proof.
  intros N T F. unfold inject. destruct ids as [|i ids0] eqn:Ei; [congruence|]. rewrite <- Ei in *. set (cap := length html + 100 * length ids).
  assert (R : roomy (w_new (S cap) cap)) by (split; reflexivity).
  destruct (inject_ends (S (length html)) anchors ids html 0 (w_new (S cap) cap)) as (w & E & Rw & C); [lia|exact R|].
  exists (finish w). split; [now rewrite E|]. rewrite (proj2 (finish_safe w Rw)). split.
  - intros <-. destruct Rw as [Rw _]. rewrite C in Rw. cbn in Rw. lia.
  - intro L. rewrite (inject_room anchors ids ids html o T) in E; [|exact F|reflexivity|lia|exact R|exact L]. injection E as <-. reflexivity.
Qed.
Lemma titled_exists anchors last : forall k html ids, length html <= k ->
  (anchors = true \/ forall x n a r, html = x ++ tag n a ++ r -> is_level n -> is_attrs a -> ~ has (B "id=") a) ->
  exists o, titled anchors last ids html o.
Proof.
  induction k as [|k IH]; intros html ids L H.
  { destruct html; [|cbn in L; lia]. exists []. constructor. }
  destruct html as [|c s]; [exists []; constructor|].
  assert (By : (forall n a r, is_level n -> is_attrs a -> c :: s <> tag n a ++ r) -> exists o, titled anchors last ids (c :: s) o).
  { intro N. destruct (IH s ids) as (o & T).
    - cbn in L. lia.
    - destruct H as [->|H]; [now left|right]. intros x n a r E. apply (H (c :: x) n a r). now rewrite E.
    - exists (c :: o). now constructor. }
  destruct (opens_heading (c :: s)) eqn:O; cycle 1.
  { apply By. intros n a r Ln A E. rewrite E, tag_opens in O by assumption. discriminate. }
  destruct (span (fun c => negb (ceq c ">")) (c :: s)) as [t r] eqn:S0.
  pose proof (tag_span _ _ _ S0) as (E & N & [->|(r' & ->)]).
  { apply By. intros n a r Ln A E'. apply N. rewrite app_nil_r in E. rewrite <- E, E'. unfold tag. rewrite <- !app_assoc.
    apply in_or_app. right. apply in_or_app. right. apply in_or_app. right. now left. }
  destruct (opens_tag _ _ _ O S0) as (n & a & Ln & A & Et & Es).
  assert (Lr : length r' <= k).
  { apply (f_equal (@length _)) in Es. rewrite app_length in Es. unfold tag in Es. rewrite !app_length in Es. cbn [length B list_ascii_of_string] in *. lia. }
  assert (H' : forall ids, exists o, titled anchors last ids r' o).
  { intro ids'. apply IH; [exact Lr|]. destruct H as [->|H]; [now left|right]. intros x m b q E'. apply (H (tag n a ++ x) m b q). now rewrite Es, E', <- !app_assoc. }
  rewrite Es in *. destruct ids as [|id ids].
  - destruct (H' []) as (o & T). exists (tag n a ++ o). now constructor.
  - destruct (H' ids) as (o & T). destruct anchors.
    + exists (tag n a ++ anchor_of id ++ o). now constructor.
    + exists (tag n (a ++ B " id=""" ++ id ++ B """") ++ o). apply t_new; auto.
      destruct H as [H|H]; [discriminate|]. exact (H [] n a r' eq_refl Ln A).
Qed.

(** ** Documents *)
Lemma headings_preorder n : headings n = preorder n.
Proof. reflexivity. Qed.
Lemma attr_id_none a : ~ has (B "id=""") a -> attr_id a = None.
Proof.
  intro N. unfold attr_id. destruct (strstr (B "id=""") a) as [k|] eqn:E; [|reflexivity].
  exfalso. apply N. apply strstr_some in E. destruct E as (x & y & E & _). now exists x, y.
Qed.
Lemma attr_id_first a i b : ~ In DQ i -> i <> [] -> (forall x y, a ++ B "id=""" ++ i ++ B """" ++ b = x ++ B "id=""" ++ y -> length a <= length x) ->
  attr_id (a ++ B "id=""" ++ i ++ B """" ++ b) = Some i.
Proof.
  intros N Ni F. unfold attr_id. rewrite strstr_first by exact F.
  replace (length a + 4) with (length (a ++ B "id=""")) by (rewrite app_length; reflexivity). rewrite app_assoc, L_Abbr.drop_app.
  change (B """" ++ b) with (DQ :: b). rewrite L_Abbr.chr_first by exact N. destruct i as [|c i]; [congruence|].
  cbn [length]. change (S (length i)) with (length (c :: i)). now rewrite L_Abbr.take_app.
Qed.
Lemma links_found idf doc : (forall h a, In (h, Some a) (preorder doc) -> ~ has (B "id=""") a) ->
  forall h, In h (map (number idf) (collect doc)) -> In (h_id h) (map (heading_id idf) (headings doc)).
Proof.
  intros H h I. rewrite headings_preorder. apply in_map_iff in I. destruct I as (x & <- & I).
  rewrite L_Toc3.collect_ok in I. apply in_map_iff in I. destruct I as ([x' a] & E & I). cbn in E. subst x'. apply filter_In in I. destruct I as [I _].
  apply in_map_iff. exists (x, a). split; [|exact I]. unfold heading_id. cbn [fst snd number h_id]. destruct a as [a|]; [|reflexivity].
  rewrite attr_id_none; [reflexivity|]. eapply H. exact I.
Qed.
Lemma ids_distinct idf doc : (forall h a, In (h, Some a) (preorder doc) -> ~ has (B "id=""") a) ->
  map (heading_id idf) (headings doc) = map (fun h => idf (snd (fst h))) (preorder doc).
Proof.
  intro H. rewrite headings_preorder. apply map_ext_in. intros [x a] I. unfold heading_id. cbn [fst snd]. destruct a as [a|]; [|reflexivity].
  rewrite attr_id_none; [reflexivity|]. eapply H. exact I.
Qed.
