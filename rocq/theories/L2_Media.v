From Verif Require Import Base BaseL L_Pass L_Attr M_Attr M_Relax M_Spans M_Embed M_ImgUrl S_ImgUrl L_ImgUrl M_Media S_Media L_Media.

Lemma nocase_img s : nocase (B "<img") s = true -> exists x, map tolower s = B "<img" ++ x.
Proof.
  unfold nocase. intro H. apply seq_same in H. exists (map tolower (skipn 4 s)). rewrite <- H, <- map_app. f_equal. symmetry. apply (firstn_skipn 4).
Qed.
Lemma img_tag_img s : img_tag s = true -> exists x, map tolower s = B "<img" ++ x.
Proof. unfold img_tag. intro H. apply andb_true_iff in H as (H & _). now apply nocase_img. Qed.

(** Locality *)
Section local.
  Variables (fs1 fs2 : present) (base : str).
  Hypothesis H : forall u, there fs1 base u = there fs2 base u.
  Lemma has_local u : has fs1 base u = has fs2 base u.
  Proof using H. destruct u; [apply H|reflexivity]. Qed.
  Lemma has_x_local x src e : has_x fs1 base x src e = has_x fs2 base x src e.
  Proof using H. unfold has_x. rewrite has_local. reflexivity. Qed.
  Lemma format_local src e : format fs1 base src e = format fs2 base src e.
  Proof using H. unfold format. rewrite has_local, !has_x_local. reflexivity. Qed.
  Lemma first_local src l : first_there fs1 base src l = first_there fs2 base src l.
  Proof using H. induction l as [|e l IH]; [reflexivity|]. cbn [first_there]. rewrite IH. destruct (with_ext_auto src e); [now rewrite H|reflexivity]. Qed.
  Lemma replacement_local s n : replacement fs1 base s n = replacement fs2 base s n.
  Proof using H.
    unfold replacement, effective. rewrite first_local, H. cbv zeta. match goal with |- match ?x with Some _ => _ | None => _ end = _ => destruct x as [src|]; [|reflexivity] end. destruct (is_video_auto src).
    - f_equal. unfold video. cbv zeta. f_equal. f_equal. f_equal. f_equal. f_equal. apply flat_map_ext. intro e. destruct (with_ext_auto src (fst e)); [now rewrite H|reflexivity].
    - unfold picture, srcset_attr. cbv zeta. rewrite !format_local. cbn [existsb]. rewrite !has_local, !has_x_local. reflexivity.
  Qed.
  Lemma go_local fuel len : forall s b, go fuel len fs1 base s b = go fuel len fs2 base s b.
  Proof using H.
    induction fuel as [|fuel IH]; intros [|c r] b; try reflexivity. cbn [go]. assert (T : turn fs1 base (c :: r) = turn fs2 base (c :: r)) by (unfold turn; destruct (img_tag (c :: r)); [|reflexivity]; destruct (tag_end None (c :: r)); [|reflexivity]; now rewrite replacement_local). rewrite T. destruct (turn fs2 base (c :: r)); try reflexivity; apply IH.
  Qed.
End local.

Lemma there_ok fs base u : base <> [] -> u <> [] -> (forall r, u <> "/"%char :: r) -> ~ S_Media.within (B "://") u -> there fs base u = fs (base ++ B "/" ++ u).
Proof.
  intros N1 N2 N3 N4. destruct base as [|d base]; [contradiction|]. destruct u as [|c u]; [contradiction|]. unfold there. rewrite (proj2 (ceq_neq c "/")) by (intros ->; exact (N3 u eq_refl)). rewrite strstr_absent; [reflexivity|discriminate|exact N4].
Qed.

(** A plain name *)
Lemma auto_at a e k : ~ In "?"%char (a ++ e) -> ~ In "#"%char (a ++ e) -> ~ In "."%char e -> with_ext_auto (a ++ "."%char :: e) k = Some (a ++ "."%char :: k) /\ forall x, suffix_auto x (a ++ "."%char :: e) = Some (a ++ x ++ "."%char :: e).
Proof.
  intros N1 N2 N3. assert (I : inner (a ++ "."%char :: e)). { split; intro J; apply in_app_or in J as [J|[J|J]]; try discriminate J; first [apply N1; apply in_or_app; tauto | apply N2; apply in_or_app; tauto]. }
  assert (En : end_auto (a ++ "."%char :: e) = length (a ++ "."%char :: e)). { pose proof (end_at (a ++ "."%char :: e) [] I (or_introl eq_refl)) as P. rewrite app_nil_r in P. exact P. }
  assert (D : length (a ++ "."%char :: e) - length ("."%char :: e) = length a) by (rewrite app_length; lia).
  unfold with_ext_auto, suffix_auto. cbv zeta. rewrite En, firstn_all, strrchr_last by exact N3. rewrite D, first_n, skipn_all. split; [|intro x; now rewrite skip_n]. rewrite (proj2 (Nat.leb_gt _ _)) by (rewrite app_length; cbn [length]; lia). now rewrite app_nil_r.
Qed.

(** Attributes *)
Lemma attr_skip nm s k : forall v gap, ~ In "="%char v -> ~ In "="%char (firstn (length nm) s) -> attr gap nm (v ++ s) (length v + k) = attr (match rev v with [] => gap | c :: _ => isspace c end) nm s k.
Proof.
  assert (Z : forall v, ~ In "="%char v -> ~ In "="%char (firstn (length nm) s) -> v <> [] -> ceq (at_ (v ++ s) (length nm)) "=" = false).
  { intros v N1 N2 Nv. apply ceq_neq. unfold at_. intro E. destruct (Nat.lt_ge_cases (length nm) (length v)) as [G|G].
    - rewrite app_nth1 in E by exact G. apply N1. rewrite <- E. now apply nth_In.
    - rewrite app_nth2 in E by exact G. destruct v as [|c v]; [contradiction|]. apply N2. remember (length nm - length (c :: v)) as i eqn:Ei. assert (Li : i < length nm) by (cbn [length] in *; lia). assert (Ls : i < length s). { destruct (Nat.lt_ge_cases i (length s)) as [Q|Q]; [exact Q|]. rewrite nth_overflow in E by exact Q. discriminate E. }
      rewrite <- (firstn_skipn (length nm) s) in E. rewrite app_nth1 in E by (rewrite firstn_length; lia). rewrite <- E. apply nth_In. rewrite firstn_length. lia. }
  induction v as [|c v IH]; intros gap N1 N2; [reflexivity|]. change (attr gap nm ((c :: v) ++ s) (length (c :: v) + k)) with (if gap && nocase nm ((c :: v) ++ s) && ceq (at_ ((c :: v) ++ s) (length nm)) "=" then let j := length nm + 1 in if length (c :: v) + k <=? j then None else let q := at_ ((c :: v) ++ s) j in if ceq q DQ || ceq q SQ then value q (skipn (j + 1) ((c :: v) ++ s)) (length (c :: v) + k - (j + 1)) else None else attr (isspace c) nm (v ++ s) (length v + k)).
  rewrite (Z (c :: v)) by (assumption || discriminate). rewrite andb_false_r. rewrite IH by (try assumption; intro I; apply N1; now right). f_equal. cbn [rev]. destruct (rev v); reflexivity.
Qed.
Lemma value_in q v s n : ~ In q v -> ~ In BS v -> length v < n -> value q (v ++ q :: s) n = Some v.
Proof.
  revert n. induction v as [|c v IH]; intros [|n] N1 N2 L; cbn [length] in L; try lia; cbn [app value].
  - now rewrite ceq_refl.
  - rewrite (proj2 (ceq_neq c q)) by (intros ->; apply N1; now left). rewrite (proj2 (ceq_neq c BS)) by (intros ->; apply N2; now left). rewrite IH; [reflexivity| | |lia]; intro I; [apply N1|apply N2]; now right.
Qed.
Lemma attr_here nm v s n : nm <> [] -> map tolower nm = nm -> ~ In DQ v -> ~ In BS v -> length nm + length v + 2 < n -> attr true nm (nm ++ "="%char :: DQ :: v ++ DQ :: s) n = Some v.
Proof.
  intros N0 Lo N1 N2 L. destruct n as [|n]; [lia|]. remember (nm ++ "="%char :: DQ :: v ++ DQ :: s) as w eqn:Ew. assert (A1 : nocase nm w = true) by (unfold nocase; subst w; rewrite first_n; apply seq_same; exact Lo). assert (A2 : at_ w (length nm) = "="%char) by (subst w; unfold at_; rewrite app_nth2, Nat.sub_diag by lia; reflexivity). assert (A3 : at_ w (length nm + 1) = DQ). { subst w. unfold at_. rewrite app_nth2 by lia. replace (length nm + 1 - length nm) with 1 by lia. reflexivity. }
  assert (A4 : skipn (length nm + 1 + 1) w = v ++ DQ :: s). { subst w. rewrite skipn_app, skipn_all2 by lia. replace (length nm + 1 + 1 - length nm) with 2 by lia. reflexivity. }
  destruct w as [|c r]; [destruct nm; [contradiction|discriminate Ew]|]. cbn [attr]. rewrite A1, A2. cbn [andb]. rewrite ceq_refl. cbv zeta. rewrite (proj2 (Nat.leb_gt _ _)) by lia. rewrite A3. change (ceq DQ DQ || ceq DQ SQ) with true. cbv iota. rewrite A4. apply value_in; [exact N1|exact N2|lia].
Qed.

(** Tags made of pieces *)
Definition plain (c : ascii) : bool := negb (ceq c ">" || ceq c DQ || ceq c SQ).
Lemma tag_plain p n s : forallb plain p = true -> Tag n s -> Tag (length p + n) (p ++ s).
Proof.
  induction p as [|c p IH]; intros F T; [exact T|]. cbn [forallb] in F. apply andb_true_iff in F as (F1 & F2). unfold plain in F1. apply negb_true_iff, orb_false_iff in F1 as (F1 & F3). apply orb_false_iff in F1 as (F1 & F4). cbn [length Nat.add app]. apply tag_byte; [now apply ceq_neq|now apply ceq_neq|now apply ceq_neq|]. now apply IH.
Qed.
Lemma tag_dq v n s : ~ In DQ v -> ~ In BS v -> Tag n s -> Tag (length v + 2 + n) (DQ :: v ++ DQ :: s).
Proof. intros. apply tag_quote; auto. Qed.
Lemma attr_pass nm p s k n gap : ~ In "="%char p -> ~ In "="%char (firstn (length nm) s) -> n = length p + k -> attr gap nm (p ++ s) n = attr (match rev p with [] => gap | c :: _ => isspace c end) nm s k.
Proof. intros N1 N2 ->. now apply attr_skip. Qed.
(** A value that is not looked for is passed over. *)
Lemma not_in_b c s : existsb (ceq c) s = false -> ~ In c s.
Proof. intros H I. assert (E : existsb (ceq c) s = true); [apply existsb_exists; exists c; split; [exact I|apply ceq_refl]|congruence]. Qed.
Lemma marked_in s : S_Media.within marker s -> marked s = true.
Proof. intros (a & b & ->). unfold marked. destruct (strstr (B "data-apex-replace-auto=1") (a ++ marker ++ b)) eqn:E; [reflexivity|]. destruct (strstr_none _ _ E a b eq_refl). Qed.
Lemma concat_in (x : str) l : In x l -> length x <= length (concat l).
Proof. induction l as [|y l IH]; intros []; cbn [concat]; rewrite app_length; [subst; lia|]. specialize (IH H). lia. Qed.
Lemma video_long fs base src alt : 512 + 6 * length src <= length alt -> video fs base src alt = None.
Proof.
  intro L. unfold video, print. cbv zeta. rewrite (proj2 (Nat.ltb_ge _ _)); [reflexivity|]. destruct alt as [|c alt]; [cbn [length] in L; lia|]. remember (c :: alt) as v eqn:Ev. rewrite concat_app, app_length. cbn [app concat]. rewrite !app_length. unfold quoted. len. lia.
Qed.
