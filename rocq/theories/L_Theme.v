From Verif Require Import Base BaseL S_Pass L_Pass M_Style M_Theme S_Theme L_Style.

Lemma words_blank s : blank s -> forall t, words [] (s ++ t) = words [] t.
Proof. induction 1 as [|c s W _ IH]; intro t; cbn [app words]; [reflexivity|]. now rewrite W. Qed.
Lemma words_solid w : Forall (fun c => isspace c = false) w -> forall acc b, words acc (w ++ b) = words (acc ++ w) b.
Proof. induction 1 as [|c w W _ IH]; intros acc b; cbn [app words]; [now rewrite app_nil_r|]. rewrite W, IH, <- app_assoc. reflexivity. Qed.
Lemma Words_words s ws : Words s ws -> words [] s = ws.
Proof.
  induction 1 as [s Bl|sp w b ws Bl (Nw & Fw) Hb _ IH].
  - rewrite <- (app_nil_r s), words_blank by exact Bl. reflexivity.
  - rewrite words_blank by exact Bl. rewrite words_solid by exact Fw. cbn [app]. destruct w as [|x w]; [congruence|]. destruct Hb as [-> |(c & r & -> & C)]; cbn [words] in *; [now rewrite <- IH|]. rewrite C in *. now rewrite IH.
Qed.
Lemma Words_exist s : exists ws, Words s ws.
Proof.
  induction s as [|c s (ws & IH)]; [exists []; constructor; constructor|]. destruct (isspace c) eqn:C.
  - exists ws. inversion IH as [? Bl|sp w b ws' Bl Sw Hb Hw]; subst; [constructor; now constructor|]. change (c :: sp ++ w ++ b) with ((c :: sp) ++ w ++ b). constructor; [now constructor|assumption|assumption|assumption].
  - assert (One : (s = [] \/ exists d r, s = d :: r /\ isspace d = true) -> exists ws, Words (c :: s) ws).
    { intro Hs. exists ([c] :: ws). change (c :: s) with ([] ++ [c] ++ s). constructor; [constructor| |exact Hs|exact IH]. split; [discriminate|constructor; [exact C|constructor]]. }
    inversion IH as [? Bl|sp w b ws' Bl (Nw & Fw) Hb Hw]; subst.
    + apply One. destruct Bl as [|d r D _]; [now left|right; eauto].
    + destruct Bl as [|d sp D Bl]; [|apply One; right; exists d; eexists; split; [reflexivity|exact D]]. exists ((c :: w) :: ws'). change (c :: [] ++ w ++ b) with ([] ++ (c :: w) ++ b). constructor; [constructor| |exact Hb|exact Hw]. split; [discriminate|now constructor].
Qed.
Lemma find_entry th w st : find th w = Some st <-> entry th w st.
Proof.
  unfold entry. induction th as [|[n s] th IH]; cbn [find].
  - split; [discriminate|intros (a & b & E & _); destruct a; discriminate].
  - destruct (seq_ n w) eqn:E.
    + apply seq_eq in E. subst n. split.
      * intro H. injection H as <-. exists [], th. split; [reflexivity|intros []].
      * intros (a & b & Eq & N). destruct a as [|[n' s'] a]; [cbn [app] in Eq; congruence|]. cbn [app] in Eq. destruct N. left. cbn. congruence.
    + rewrite IH. split.
      * intros (a & b & -> & N). exists ((n, s) :: a), b. split; [reflexivity|]. intros [X|X]; [|now apply N]. cbn in X. apply seq_eq in X. congruence.
      * intros (a & b & Eq & N). destruct a as [|[n' s'] a]; [cbn [app] in Eq; assert (seq_ w w = true) by (now apply seq_eq); congruence|]. cbn [app] in Eq. assert (th = a ++ (w, st) :: b) by congruence. exists a, b. split; [assumption|]. intro I. apply N. now right.
Qed.
Lemma find_none th w : find th w = None <-> ~ In w (map fst th).
Proof.
  induction th as [|[n s] th IH]; cbn [find map fst In]; [tauto|]. destruct (seq_ n w) eqn:E.
  - apply seq_eq in E. split; [discriminate|tauto].
  - rewrite IH. split; [|tauto]. intros N [X|X]; [apply seq_eq in X; congruence|tauto].
Qed.
Lemma first_known_spec th st : forall ws, first_known th ws = Some st <-> first_of th ws st.
Proof.
  unfold first_of. induction ws as [|w ws IH]; cbn [first_known].
  - split; [discriminate|intros (l & v & r & E & _); destruct l; discriminate].
  - destruct (find th w) as [s|] eqn:F.
    + split.
      * intro H. injection H as <-. exists [], w, ws. split; [reflexivity|]. split; [now apply find_entry|intros v []].
      * intros (l & v & r & E & En & N). destruct l as [|x l]; [injection E as <- _; apply find_entry in En; congruence|]. injection E as <- _. destruct (find_none th w) as (_ & K). rewrite K in F; [discriminate|]. apply N. now left.
    + rewrite IH. apply find_none in F. split.
      * intros (l & v & r & -> & En & N). exists (w :: l), v, r. split; [reflexivity|]. split; [exact En|]. intros x [<- |I]; [exact F|now apply N].
      * intros (l & v & r & E & En & N). destruct l as [|x l]; [|injection E as <- ->; exists l, v, r; split; [reflexivity|]; split; [exact En|intros x I; apply N; now right]].
        injection E as <- _. destruct En as (a & b & -> & _). destruct F. rewrite map_app. apply in_or_app. right. now left.
Qed.
Lemma upto_quote q v r : ~ In q v -> upto (ceq q) (v ++ q :: r) = v.
Proof.
  induction v as [|c v IH]; intro N; cbn [app upto]; [now rewrite ceq_refl|]. destruct (ceq q c) eqn:E; [apply ceq_eq in E; subst; destruct N; now left|]. rewrite IH; [reflexivity|]. intro I. apply N. now right.
Qed.
Lemma node_quoted th a q v r : (q = DQ \/ q = SQ) -> ~ has (B "class=") a -> ~ In q v -> node_style th (a ++ B "class=" ++ q :: v ++ q :: r) = class_style th (firstn 255 v).
Proof.
  intros Q N V. unfold node_style. rewrite strstr_unbordered; [|reflexivity|discriminate|exact N]. cbv zeta.
  assert (E : skipn (length a + 6) (a ++ B "class=" ++ q :: v ++ q :: r) = q :: v ++ q :: r) by (rewrite skipn_app, skipn_all2 by lia; replace (length a + 6 - length a) with 6 by lia; reflexivity). rewrite E.
  replace (ceq q DQ || ceq q SQ) with true by (destruct Q; subst; reflexivity). rewrite upto_quote by exact V. destruct v; reflexivity.
Qed.
