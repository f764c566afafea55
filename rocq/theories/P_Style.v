(** Styles on the terminal (src/ast_terminal.c 168-383). *)
From Verif Require Import Base BaseL Dec M_Style S_Style L_Style.
Local Open Scope N_scope.

(** C330. A style gives nothing but sequences that choose a rendition. False: a word that begins with 38;5; or 48;5; is passed on as it is, whatever follows. *)
Theorem C330_refuted :
  (forall wide x, Forall (fun c => isspace c = false) x -> (length x <= 58)%nat ->
     style wide (B "38;5;" ++ x) = esc :: B "[38;5;" ++ x ++ B "m" /\ style wide (B "48;5;" ++ x) = esc :: B "[48;5;" ++ x ++ B "m") /\
  ~ Sgr (style true (B "38;5;1m" ++ esc :: B "]0;title")).
Proof.
  split.
  - intros wide x F L. assert (T : forall p, (length p = 5)%nat -> Forall (fun c => isspace c = false) p -> style wide (p ++ x) = token wide (p ++ x)).
    { intros p P Fp. unfold style. rewrite (words_one (p ++ x)); [|now apply Forall_app]. cbn [app]. destruct (p ++ x) as [|c r] eqn:E; [destruct p; discriminate|]. rewrite <- E. cbn [flat_map]. rewrite app_nil_r, firstn_all2; [reflexivity|rewrite app_length; lia]. }
    split; (rewrite T; [reflexivity|reflexivity|repeat constructor]).
  - intro H. assert (E : style true (B "38;5;1m" ++ esc :: B "]0;title") = esc :: B "[38;5;1m" ++ esc :: B "]0;titlem") by (vm_compute; reflexivity). rewrite E in H. clear E.
    inversion H as [|p s F S E]. clear H. 
    assert (Q : forall q p s, Forall (fun c => In c (B "0123456789;")) q -> Forall (fun c => In c (B "0123456789;")) p -> forall t, p ++ B "m" ++ s = q ++ B "m" ++ t -> s = t).
    { clear. intros q p. revert q. induction p as [|c p IH]; intros q s Fq Fp t E.
      - destruct q as [|d q]; [now injection E|]. inversion Fq; subst. injection E as E _. subst. vm_compute in H1. intuition discriminate.
      - destruct q as [|d q]; inversion Fp; subst. + injection E as E _. subst. vm_compute in H1. intuition discriminate.
        + injection E as _ E. apply (IH q s (Forall_inv_tail Fq) (Forall_inv_tail Fp) t E). }
    assert (E2 : p ++ B "m" ++ s = B "38;5;1" ++ B "m" ++ esc :: B "]0;titlem") by exact E.
    apply Q in E2; [|apply lit_digits; reflexivity|exact F]. subst s. inversion S.
Qed.
(** What holds: as long as no word begins so, whatever the style. *)
Theorem C330_renditions_partial wide s : (forall a w, outset a -> s <> a ++ B "38;5;" ++ w /\ s <> a ++ B "48;5;" ++ w) -> Sgr (style wide s).
Proof.
  intro H. unfold style. assert (K : forall w, In w (words [] s) -> Sgr (token wide (firstn 63 w))).
  { intros w I. destruct (words_sub s [] w I) as (a & b & E & O). cbn [app] in E.
    assert (V : exists v, w ++ b = firstn 63 w ++ v) by (exists (skipn 63 w ++ b); now rewrite (app_assoc (firstn 63 w)), firstn_skipn). destruct V as (v & V). rewrite V in E.
    apply sgr_token; (destruct (starts _ (firstn 63 w)) eqn:T; [|reflexivity]); apply starts_spec in T as (u & T); rewrite T, <- app_assoc in E; destruct (H a (u ++ v) O) as (N1 & N2); contradiction. }
  induction (words [] s) as [|w l IH]; cbn [flat_map]; [apply sgr_nil|]. apply sgr_app; [apply K; now left|apply IH; intros v I; apply K; now right].
Qed.
Example C330_case : style true (B "b #ff8000 on_blue nothing") = esc :: B "[1m" ++ esc :: B "[38;5;214m" ++ esc :: B "[44m".
Proof. vm_compute. reflexivity. Qed.
Print Assumptions C330_refuted.
Print Assumptions C330_renditions_partial.

(** C331. A colour asked for behind the text (bg… or on_…) is one behind the text. False without 256 colours: the text itself is coloured, always. *)
Theorem C331_refuted x a x' a' y b y' b' z c z' c' p : hexa x a -> hexa x' a' -> hexa y b -> hexa y' b' -> hexa z c -> hexa z' c' -> In p [B "bg"; B "on_"; B "bg#"; B "on_#"] ->
  In (style false (p ++ [x; x'; y; y'; z; z'])) [esc :: B "[31m"; esc :: B "[32m"; esc :: B "[34m"; esc :: B "[37m"].
Proof.
  intros H1 H2 H3 H4 H5 H6 P. pose proof (rgb6 _ _ _ _ _ _ _ _ _ _ _ _ H1 H2 H3 H4 H5 H6) as E.
  assert (T : style false (p ++ [x; x'; y; y'; z; z']) = shade false true (16 * a + a') (16 * b + b') (16 * c + c')).
  { assert (F : Forall (fun c => isspace c = false) [x; x'; y; y'; z; z']) by (repeat constructor; eapply hexa_solid; eassumption).
    rewrite style_one; [|destruct p; discriminate|apply Forall_app; split; [|exact F]; destruct P as [<-|[<-|[<-|[<-|[]]]]]; repeat constructor|destruct P as [<-|[<-|[<-|[<-|[]]]]]; vm_compute; lia].
    destruct P as [<-|[<-|[<-|[<-|[]]]]]; [apply tok_bg; exact E|apply tok_on; exact E| |].
    - change (B "bg#" ++ [x; x'; y; y'; z; z']) with (B "bg" ++ B "#" ++ [x; x'; y; y'; z; z']). apply tok_bg. rewrite (rgb_plain _ _ _ H1). exact E.
    - change (B "on_#" ++ [x; x'; y; y'; z; z']) with (B "on_" ++ B "#" ++ [x; x'; y; y'; z; z']). apply tok_on. rewrite (rgb_plain _ _ _ H1). exact E. }
  rewrite T. unfold shade, nearest8. destruct (_ && _)%bool; [left; reflexivity|]. destruct (_ && _)%bool; [right; left; reflexivity|]. destruct (_ && _)%bool; [right; right; left; reflexivity|right; right; right; left; reflexivity].
Qed.
(** With 256 colours it is, and one without bg or on_ is the colour of the text; the number is one of the palette's and the colour with that number is near the one asked for: no part of it is more than 69 away (C332). *)
Theorem C331_behind_partial x a x' a' y b y' b' z c z' c' p q : hexa x a -> hexa x' a' -> hexa y b -> hexa y' b' -> hexa z c -> hexa z' c' ->
  In (p, q) [(B "bg", B "[48;5;"); (B "on_", B "[48;5;"); (B "bg#", B "[48;5;"); (B "on_#", B "[48;5;"); (B "#", B "[38;5;")] ->
  exists n, 16 <= n /\ n <= 255 /\ near 69 (16 * a + a', 16 * b + b', 16 * c + c') (palette n) /\
    style true (p ++ [x; x'; y; y'; z; z']) = esc :: q ++ dec (N.to_nat n) ++ B "m".
Proof.
  intros H1 H2 H3 H4 H5 H6 P. pose proof (rgb6 _ _ _ _ _ _ _ _ _ _ _ _ H1 H2 H3 H4 H5 H6) as E.
  exists (index (16 * a + a') (16 * b + b') (16 * c + c')).
  assert (L1 : 16 * a + a' < 256) by (apply hexa_byte in H1, H2; lia). assert (L2 : 16 * b + b' < 256) by (apply hexa_byte in H3, H4; lia). assert (L3 : 16 * c + c' < 256) by (apply hexa_byte in H5, H6; lia).
  destruct (index_near _ _ _ L1 L2 L3) as (R1 & R2 & R3). split; [exact R1|]. split; [exact R2|]. split; [exact R3|]. clear R1 R2 R3 L1 L2 L3.
  assert (F : Forall (fun c => isspace c = false) [x; x'; y; y'; z; z']) by (repeat constructor; eapply hexa_solid; eassumption).
  set (h := [x; x'; y; y'; z; z']) in *. assert (Lh : length h = 6%nat) by reflexivity. pose proof (rgb_plain x a [x'; y; y'; z; z'] H1) as E'. fold h in E'. rewrite E in E'. clearbody h.
  rewrite style_one; cycle 1.
  { repeat (destruct P as [P|P]; [injection P as <- <-; discriminate|]). destruct P. }
  { apply Forall_app. split; [|exact F]. repeat (destruct P as [P|P]; [injection P as <- <-; repeat constructor|]). destruct P. }
  { rewrite app_length, Lh. repeat (destruct P as [P|P]; [injection P as <- <-; cbn; lia|]). destruct P. }
  destruct P as [P|[P|[P|[P|[P|[]]]]]]; injection P as <- <-.
  - rewrite (tok_bg _ _ _ _ _ E). unfold shade, seq, number. rewrite <- !app_assoc. reflexivity.
  - rewrite (tok_on _ _ _ _ _ E). unfold shade, seq, number. rewrite <- !app_assoc. reflexivity.
  - change (B "bg#" ++ h) with (B "bg" ++ B "#" ++ h). rewrite (tok_bg _ _ _ _ _ E'). unfold shade, seq, number. rewrite <- !app_assoc. reflexivity.
  - change (B "on_#" ++ h) with (B "on_" ++ B "#" ++ h). rewrite (tok_on _ _ _ _ _ E'). unfold shade, seq, number. rewrite <- !app_assoc. reflexivity.
  - rewrite (tok_fg _ _ _ _ _ E'). unfold shade, seq, number. rewrite <- !app_assoc. reflexivity.
Qed.
Example C331_case : style false (B "bgFF0ACC") = esc :: B "[31m" /\ style true (B "bgFF0ACC") = esc :: B "[48;5;200m" /\ hexa "C" 12.
Proof. split; [vm_compute; reflexivity|]. split; [vm_compute; reflexivity|]. vm_compute. tauto. Qed.
Print Assumptions C331_refuted.
Print Assumptions C331_behind_partial.

(** C332. The number chosen for a colour is that of the nearest one of the palette. False: the steps of the palette are not even. *)
Theorem C332_refuted r : 26 <= r -> r <= 47 -> distance (r, 0, 0) (palette 16) < distance (r, 0, 0) (palette (index r 0 0)).
Proof.
  intros L1 L2. enough (E : ((26 <=? r) && (r <=? 47) && negb (distance (r, 0, 0) (palette 16) <? distance (r, 0, 0) (palette (index r 0 0))))%bool = false).
  - apply N.leb_le in L1, L2. rewrite L1, L2 in E. cbn [andb] in E. apply negb_false_iff in E. now apply N.ltb_lt in E.
  - apply negb_true_iff. assert (L : r < 256) by lia. clear L1 L2. revert r L. apply (below (fun r => negb ((26 <=? r) && (r <=? 47) && negb (distance (r, 0, 0) (palette 16) <? distance (r, 0, 0) (palette (index r 0 0))))%bool)). vm_compute. reflexivity.
Qed.
(** What holds: the number is one of the palette, no part of its colour is more than 69 away (greys: 11), and the parts that are 0 or 255 are exact. *)
Theorem C332_near_partial r g b : r < 256 -> g < 256 -> b < 256 ->
  16 <= index r g b /\ index r g b <= 255 /\ near 69 (r, g, b) (palette (index r g b)) /\ (r = g -> g = b -> near 11 (r, g, b) (palette (index r g b))) /\
  (forall c d e, palette (index r g b) = (c, d, e) -> (r = 0 \/ r = 255 -> c = r) /\ (g = 0 \/ g = 255 -> d = g) /\ (b = 0 \/ b = 255 -> e = b)).
Proof.
  intros R G Bb. destruct (index_near r g b R G Bb) as (I1 & I2 & I3). split; [exact I1|]. split; [exact I2|]. split; [exact I3|]. split.
  - intros -> ->. rewrite index_grey. now apply grey_near.
  - now apply index_exact.
Qed.
Example C332_case : index 30 0 0 = 52 /\ palette 52 = (95, 0, 0) /\ palette 16 = (0, 0, 0) /\ index 255 128 0 = 214 /\ palette 214 = (255, 175, 0).
Proof. vm_compute. repeat split. Qed.
Print Assumptions C332_refuted.
Print Assumptions C332_near_partial.

(** C333. A style is what its words are, one after the other. *)
Theorem C333_words wide s c t : isspace c = true -> style wide (s ++ c :: t) = style wide s ++ style wide t.
Proof. intro W. unfold style. rewrite (words_split c t W). apply flat_map_app. Qed.
(** Of no words there is nothing. *)
Theorem C333_nothing wide s : Forall (fun c => isspace c = true) s -> style wide s = [].
Proof. induction 1 as [|c s W _ IH]; [reflexivity|]. pose proof (C333_words wide [] c s W) as E. cbn [app] in E. rewrite E, IH. reflexivity. Qed.
Example C333_case : style false (B "b   red" ++ [TAB] ++ B "u ") = esc :: B "[1m" ++ esc :: B "[31m" ++ esc :: B "[4m".
Proof. vm_compute. reflexivity. Qed.
Print Assumptions C333_words.
Print Assumptions C333_nothing.

(** C334. Three digits are six: each one twice. *)
Theorem C334_short wide x a y b z c p : hexa x a -> hexa y b -> hexa z c -> In p [B "#"; B "bg"; B "on_"; B "bg#"; B "on_#"] ->
  style wide (p ++ [x; y; z]) = style wide (p ++ [x; x; y; y; z; z]) /\ style wide (p ++ [x; y; z]) <> [].
Proof.
  intros H1 H2 H3 P. pose proof (rgb3 _ _ _ _ _ _ H1 H2 H3) as E3. pose proof (rgb6 _ _ _ _ _ _ _ _ _ _ _ _ H1 H1 H2 H2 H3 H3) as E6.
  pose proof (rgb_plain x a [y; z] H1) as E3'. pose proof (rgb_plain x a [x; y; y; z; z] H1) as E6'. rewrite E3 in E3'. rewrite E6 in E6'.
  assert (S1 : isspace x = false) by (eapply hexa_solid; eassumption). assert (S2 : isspace y = false) by (eapply hexa_solid; eassumption). assert (S3 : isspace z = false) by (eapply hexa_solid; eassumption).
  assert (Fp : Forall (fun c => isspace c = false) p) by (destruct P as [<-|[<-|[<-|[<-|[<-|[]]]]]]; repeat constructor).
  assert (Lp : (length p <= 4)%nat) by (destruct P as [<-|[<-|[<-|[<-|[<-|[]]]]]]; cbn; lia).
  assert (N : forall bg r g b, shade wide bg r g b <> []).
  { intros bg r g b0. unfold shade. destruct wide; [discriminate|]. unfold nearest8. destruct (_ && _)%bool; [discriminate|]. destruct (_ && _)%bool; [discriminate|]. destruct (_ && _)%bool; discriminate. }
  rewrite !style_one; try (apply Forall_app; split; [exact Fp|repeat constructor; assumption]); try (rewrite app_length; cbn [length]; lia); try (destruct p; discriminate).
  destruct P as [<-|[<-|[<-|[<-|[<-|[]]]]]].
  - rewrite (tok_fg _ _ _ _ _ E3'), (tok_fg _ _ _ _ _ E6'). split; [reflexivity|apply N].
  - rewrite (tok_bg _ _ _ _ _ E3), (tok_bg _ _ _ _ _ E6). split; [reflexivity|apply N].
  - rewrite (tok_on _ _ _ _ _ E3), (tok_on _ _ _ _ _ E6). split; [reflexivity|apply N].
  - change (B "bg#") with (B "bg" ++ B "#"). rewrite <- !app_assoc. rewrite (tok_bg _ _ _ _ _ E3'), (tok_bg _ _ _ _ _ E6'). split; [reflexivity|apply N].
  - change (B "on_#") with (B "on_" ++ B "#"). rewrite <- !app_assoc. rewrite (tok_on _ _ _ _ _ E3'), (tok_on _ _ _ _ _ E6'). split; [reflexivity|apply N].
Qed.
Example C334_case : style true (B "#f80") = style true (B "#ff8800") /\ style true (B "#f80") = esc :: B "[38;5;214m".
Proof. vm_compute. split; reflexivity. Qed.
Print Assumptions C334_short.
