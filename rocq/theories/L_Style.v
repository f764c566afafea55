From Verif Require Import Base BaseL Dec L_Pass L_ImgUrl M_Style S_Style.
Local Open Scope N_scope.

Lemma words_split c t : isspace c = true -> forall s acc, words acc (s ++ c :: t) = words acc s ++ words [] t.
Proof.
  intros W s. induction s as [|d s IH]; intro acc; cbn [app words].
  - rewrite W. destruct acc; reflexivity.
  - destruct (isspace d); [destruct acc; rewrite IH; reflexivity|apply IH].
Qed.
Lemma words_one x : Forall (fun c => isspace c = false) x -> forall acc, words acc x = match acc ++ x with [] => [] | w => [w] end.
Proof.
  induction 1 as [|c x H _ IH]; intro acc; cbn [words]; [rewrite app_nil_r; destruct acc; reflexivity|]. rewrite H, IH, <- app_assoc. reflexivity.
Qed.
Lemma words_sub s : forall acc w, In w (words acc s) -> exists a b, acc ++ s = a ++ w ++ b /\ outset a.
Proof.
  induction s as [|c s IH]; intros acc w I; cbn [words] in I.
  - destruct acc as [|d acc]; [destruct I|]. destruct I as [<- |[]]. exists [], []. rewrite !app_nil_r. split; [reflexivity|now left].
  - destruct (isspace c) eqn:W.
    + assert (K : In w (words [] s) -> exists a b, acc ++ c :: s = a ++ w ++ b /\ outset a).
      { intro J. destruct (IH [] w J) as (a & b & E & O). cbn [app] in E. exists (acc ++ c :: a), b. split; [rewrite E, <- app_assoc; reflexivity|]. right.
        destruct O as [-> |(a' & d & -> & D)]; [exists acc, c; auto|]. exists (acc ++ c :: a'), d. rewrite <- app_assoc. auto. }
      destruct acc as [|d acc]; [now apply K|]. destruct I as [<- |I]; [|now apply K]. exists [], (c :: s). split; [reflexivity|now left].
    + destruct (IH (acc ++ [c]) w I) as (a & b & E & O). rewrite <- app_assoc in E. exists a, b. split; assumption.
Qed.

Lemma number_digits n : Forall (fun c => In c (B "0123456789;")) (number n).
Proof.
  unfold number. destruct (dec_all_digits (N.to_nat n)) as (_ & H). rewrite Forall_forall. intros c I. rewrite forallb_forall in H. specialize (H c I). revert c H I. 
  assert (K : forall c, negb (isdigit c) || existsb (ceq c) (B "0123456789;") = true) by (apply byte_forall; vm_compute; reflexivity). intros c H _. specialize (K c). rewrite H in K. cbn [negb orb] in K. apply existsb_exists in K as (d & I & E). apply ceq_eq in E. now subst.
Qed.
Lemma lit_digits s : forallb (fun c => existsb (ceq c) (B "0123456789;")) s = true -> Forall (fun c => In c (B "0123456789;")) s.
Proof. intro H. rewrite Forall_forall. rewrite forallb_forall in H. intros c I. specialize (H c I). apply existsb_exists in H as (d & J & E). apply ceq_eq in E. now subst. Qed.
Lemma sgr_one p : Forall (fun c => In c (B "0123456789;")) p -> Sgr (seq p).
Proof. intro F. unfold seq. pose proof (sgr_seq p [] F sgr_nil) as H. exact H. Qed.
Lemma sgr_app s t : Sgr s -> Sgr t -> Sgr (s ++ t).
Proof. induction 1 as [|p s F _ IH]; intro T; [exact T|]. cbn [app]. change ((B "[" ++ p ++ B "m" ++ s) ++ t) with (B "[" ++ (p ++ B "m" ++ s) ++ t). rewrite <- !app_assoc. apply sgr_seq; [exact F|now apply IH]. Qed.
Lemma sgr_named t : Sgr (named t).
Proof. unfold named. destruct (color t); [apply sgr_one; apply number_digits|apply sgr_nil]. Qed.
Lemma sgr_token wide t : starts (B "38;5;") t = false -> starts (B "48;5;") t = false -> Sgr (token wide t).
Proof.
  intros H1 H2. unfold token. rewrite H1, H2. cbn [orb]. repeat match goal with |- Sgr (if is_ ?a ?b then _ else _) => destruct (is_ a b); [apply sgr_one; apply lit_digits; reflexivity|] end.
  destruct (_ || _); [|apply sgr_named]. destruct (if starts (B "bg") t then _ else _) as [bg h]. destruct (rgb h) as [[[r g] b]|]; [|apply sgr_named]. destruct wide; [|apply sgr_named]. apply sgr_one. apply Forall_app. split; [destruct bg; apply lit_digits; reflexivity|apply number_digits].
Qed.

Lemma nibble_hexa c n : hexa c n -> nibble c = Some n.
Proof. unfold hexa. intro I. vm_compute in I. repeat (destruct I as [I|I]; [injection I as <- <-; reflexivity|]). destruct I. Qed.
Lemma hexa_byte c n : hexa c n -> c <> "#"%char /\ n < 16.
Proof. unfold hexa. intro I. vm_compute in I. repeat (destruct I as [I|I]; [injection I as <- <-; split; [discriminate|reflexivity]|]). destruct I. Qed.

(** Numbers below 256 *)
Lemma below (f : N -> bool) : forallb f (map N.of_nat (List.seq 0 256)) = true -> forall v, v < 256 -> f v = true.
Proof. intros H v L. rewrite forallb_forall in H. apply H. apply in_map_iff. exists (N.to_nat v). split; [apply N2Nat.id|]. apply in_seq. lia. Qed.

Lemma hexa_solid c n : hexa c n -> isspace c = false.
Proof. unfold hexa. intro I. vm_compute in I. repeat (destruct I as [I|I]; [injection I as <- <-; reflexivity|]). destruct I. Qed.
Lemma style_one wide t : t <> [] -> Forall (fun c => isspace c = false) t -> (length t <= 63)%nat -> style wide t = token wide t.
Proof.
  intros N F L. unfold style. rewrite (words_one t F). cbn [app]. destruct t as [|c r]; [congruence|]. cbn [flat_map]. rewrite app_nil_r, firstn_all2; [reflexivity|exact L].
Qed.
Definition shade (wide bg : bool) (r g b : N) : str := if wide then seq ((if bg then B "48;5;" else B "38;5;") ++ number (index r g b)) else named (nearest8 r g b).
Lemma tok_bg wide h r g b : rgb h = Some (r, g, b) -> token wide (B "bg" ++ h) = shade wide true r g b.
Proof. intro E. transitivity (match rgb h with Some (r, g, b) => shade wide true r g b | None => named (B "bg" ++ h) end); [reflexivity|now rewrite E]. Qed.
Lemma tok_on wide h r g b : rgb h = Some (r, g, b) -> token wide (B "on_" ++ h) = shade wide true r g b.
Proof. intro E. transitivity (match rgb h with Some (r, g, b) => shade wide true r g b | None => named (B "on_" ++ h) end); [reflexivity|now rewrite E]. Qed.
Lemma tok_fg wide h r g b : rgb (B "#" ++ h) = Some (r, g, b) -> token wide (B "#" ++ h) = shade wide false r g b.
Proof. intro E. transitivity (match rgb (B "#" ++ h) with Some (r, g, b) => shade wide false r g b | None => named (B "#" ++ h) end); [reflexivity|now rewrite E]. Qed.
Lemma rgb_plain c n s : hexa c n -> rgb (B "#" ++ c :: s) = rgb (c :: s).
Proof. intro H. apply hexa_byte in H as (H & _). unfold rgb. apply ceq_neq in H. cbn [B app list_ascii_of_string]. rewrite ceq_refl, H. reflexivity. Qed.
Lemma rgb6 x a x' a' y b y' b' z c z' c' : hexa x a -> hexa x' a' -> hexa y b -> hexa y' b' -> hexa z c -> hexa z' c' ->
  rgb [x; x'; y; y'; z; z'] = Some (16 * a + a', 16 * b + b', 16 * c + c').
Proof.
  intros H1 H2 H3 H4 H5 H6. destruct (hexa_byte _ _ H1) as (N1 & _). apply ceq_neq in N1. unfold rgb. rewrite N1.
  rewrite (nibble_hexa _ _ H1), (nibble_hexa _ _ H2), (nibble_hexa _ _ H3), (nibble_hexa _ _ H4), (nibble_hexa _ _ H5), (nibble_hexa _ _ H6).
  rewrite (N.mul_comm a), (N.mul_comm b), (N.mul_comm c). reflexivity.
Qed.
Lemma rgb3 x a y b z c : hexa x a -> hexa y b -> hexa z c -> rgb [x; y; z] = Some (16 * a + a, 16 * b + b, 16 * c + c).
Proof.
  intros H1 H2 H3. destruct (hexa_byte _ _ H1) as (N1 & _). apply ceq_neq in N1. unfold rgb. rewrite N1.
  rewrite (nibble_hexa _ _ H1), (nibble_hexa _ _ H2), (nibble_hexa _ _ H3), (N.mul_comm a), (N.mul_comm b), (N.mul_comm c). reflexivity.
Qed.

(** The palette *)
Lemma cube_le v : v < 256 -> cube v <= 5.
Proof. intro L. apply N.leb_le. revert v L. apply below. vm_compute. reflexivity. Qed.
Lemma cube_near v : v < 256 -> apart v (level (cube v)) <= 69.
Proof. intro L. apply N.leb_le. revert v L. apply (below (fun v => apart v (level (cube v)) <=? 69)). vm_compute. reflexivity. Qed.
Lemma palette_cube i j k : i <= 5 -> j <= 5 -> k <= 5 -> palette (16 + 36 * i + 6 * j + k) = (level i, level j, level k).
Proof.
  intros I J K. assert (C : forall n, n <= 5 -> n = 0 \/ n = 1 \/ n = 2 \/ n = 3 \/ n = 4 \/ n = 5) by (intros; lia).
  apply C in I, J, K. repeat destruct I as [I|I]; subst; repeat destruct J as [J|J]; subst; repeat destruct K as [K|K]; subst; vm_compute; reflexivity.
Qed.
Definition grey_index (v : N) : N := if v <? 8 then 16 else if 248 <? v then 231 else 232 + N.min 23 (grey v).
Lemma grey_range v : v < 256 -> 16 <= grey_index v /\ grey_index v <= 255.
Proof. intro L. enough (E : ((16 <=? grey_index v) && (grey_index v <=? 255))%bool = true) by (apply andb_prop in E as (E1 & E2); split; now apply N.leb_le). revert v L. apply (below (fun v => ((16 <=? grey_index v) && (grey_index v <=? 255))%bool)). vm_compute. reflexivity. Qed.
Lemma grey_near v : v < 256 -> near 11 (v, v, v) (palette (grey_index v)).
Proof.
  intro L. enough (E : (let '(a, b, c) := palette (grey_index v) in (apart v a <=? 11) && (apart v b <=? 11) && (apart v c <=? 11))%bool = true).
  - unfold near. destruct (palette (grey_index v)) as [[a b] c]. apply andb_prop in E as (E & E3). apply andb_prop in E as (E1 & E2). repeat split; now apply N.leb_le.
  - revert v L. apply (below (fun v => (let '(a, b, c) := palette (grey_index v) in (apart v a <=? 11) && (apart v b <=? 11) && (apart v c <=? 11))%bool)). vm_compute. reflexivity.
Qed.
Lemma index_grey v : index v v v = grey_index v.
Proof. unfold index, grey_index. now rewrite N.eqb_refl. Qed.
Lemma near_more m k p q : m <= k -> near m p q -> near k p q.
Proof. destruct p as [[a b] c], q as [[d e] f]. unfold near. intros. intuition lia. Qed.
Lemma index_cube r g b : (r =? g) && (g =? b) = false -> index r g b = 16 + 36 * cube r + 6 * cube g + cube b.
Proof. intro E. unfold index. now rewrite E. Qed.
Lemma index_near r g b : r < 256 -> g < 256 -> b < 256 -> 16 <= index r g b /\ index r g b <= 255 /\ near 69 (r, g, b) (palette (index r g b)).
Proof.
  intros R G Bb. destruct ((r =? g) && (g =? b)) eqn:E.
  - apply andb_prop in E as (E1 & E2). apply N.eqb_eq in E1, E2. subst. rewrite index_grey. destruct (grey_range b Bb). repeat split; [assumption|assumption|]. apply (near_more 11); [discriminate|now apply grey_near].
  - rewrite (index_cube _ _ _ E). pose proof (cube_le r R). pose proof (cube_le g G). pose proof (cube_le b Bb). rewrite palette_cube by assumption. split; [|split].
    + generalize dependent (cube r). generalize (cube g), (cube b). clear. intros. lia.
    + revert H H0 H1. generalize (cube r), (cube g), (cube b). clear. intros. lia.
    + repeat split; now apply cube_near.
Qed.
Lemma level_ends v : v = 0 \/ v = 255 -> level (cube v) = v.
Proof. intros [-> | ->]; reflexivity. Qed.
Lemma index_exact r g b : r < 256 -> g < 256 -> b < 256 -> forall c d e, palette (index r g b) = (c, d, e) -> (r = 0 \/ r = 255 -> c = r) /\ (g = 0 \/ g = 255 -> d = g) /\ (b = 0 \/ b = 255 -> e = b).
Proof.
  intros R G Bb c d e. destruct ((r =? g) && (g =? b)) eqn:E.
  - apply andb_prop in E as (E1 & E2). apply N.eqb_eq in E1, E2. subst. rewrite index_grey. intro P.
    assert (K : b = 0 \/ b = 255 -> c = b /\ d = b /\ e = b). { intros [-> | ->]; vm_compute in P; injection P as <- <- <-; repeat split. }
    repeat split; intro Z; now apply K.
  - rewrite (index_cube _ _ _ E), palette_cube by now apply cube_le. intro P. injection P as <- <- <-. repeat split; apply level_ends.
Qed.
