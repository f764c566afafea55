From Verif Require Import Base BaseL L_Pass L_Attr M_Attr M_Relax M_Spans M_Embed M_ImgUrl S_ImgUrl L_ImgUrl M_Media S_Media L_Media L2_Media.

Lemma clip_id s : length s <= 511 -> clip s = s.
Proof. intro L. unfold clip. now apply firstn_all2. Qed.
Lemma print_val cap ps : print cap ps <> None -> print cap ps = Some (concat ps) /\ length (concat ps) < cap.
Proof. unfold print. cbv zeta. destruct (length (concat ps) <? cap) eqn:E; [|contradiction]. intros _. apply Nat.ltb_lt in E. auto. Qed.

Lemma join_at s u m : s <> [] -> length (s ++ B ", " ++ u ++ B m) <= 511 -> join s u m = s ++ B ", " ++ u ++ B m.
Proof. intros N L. unfold join. destruct s as [|c s]; [contradiction|]. now rewrite clip_id. Qed.

Section image.
  Variables (fs : present) (base a e : str).
  Hypothesis (Nb : base <> []) (Na1 : ~ In "?"%char (a ++ e)) (Na2 : ~ In "#"%char (a ++ e)) (Ne : ~ In "."%char e) (Nc : ~ In ":"%char (a ++ e)) (Ns : forall r, a <> "/"%char :: r) (La : length a + length e <= 100).
  Let src : str := a ++ "."%char :: e.
  Let ex : str -> bool := fun u => fs (base ++ B "/" ++ u).

  Lemma there_ex x k : x = [] \/ x = B "@2x" \/ x = B "@3x" -> ~ In ":"%char k -> there fs base (a ++ x ++ "."%char :: k) = ex (a ++ x ++ "."%char :: k).
  Proof.
    intros X Nk. apply there_ok; [exact Nb| | |].
    - intro E. apply app_eq_nil in E as (_ & E). apply app_eq_nil in E as (_ & E). discriminate.
    - intros r E. destruct a as [|c a']; [|injection E as -> _; exact (Ns a' eq_refl)]. destruct X as [-> |[-> | ->]]; discriminate E.
    - intros (y & z & E). assert (I : In ":"%char (a ++ x ++ "."%char :: k)) by (rewrite E; apply in_or_app; right; now left). apply in_app_or in I as [I|I]; [apply Nc; apply in_or_app; now left|]. apply in_app_or in I as [I|[I|I]]; [|discriminate I|contradiction]. destruct X as [-> |[-> | ->]]; cbn in I; intuition discriminate.
  Qed.
  Lemma v1_at k : v1 src k = Some (a ++ [] ++ "."%char :: k).
  Proof. unfold v1, src. exact (proj1 (auto_at a e k Na1 Na2 Ne)). Qed.
  Lemma sx_at x : suffix_auto x src = Some (a ++ x ++ "."%char :: e).
  Proof. unfold src. exact (proj2 (auto_at a e [] Na1 Na2 Ne) x). Qed.
  Lemma vx_at x k : x = B "@2x" \/ x = B "@3x" -> vx x src k = Some (a ++ x ++ "."%char :: k).
  Proof.
    intro X. unfold vx. rewrite sx_at. rewrite app_assoc. assert (N : forall c, c <> "@"%char -> c <> "2"%char -> c <> "3"%char -> c <> "x"%char -> ~ In c (a ++ e) -> ~ In c ((a ++ x) ++ e)). { intros c N1 N2 N3 N4 N5 I. apply in_app_or in I as [I|I]; [|apply N5; apply in_or_app; now right]. apply in_app_or in I as [I|I]; [apply N5; apply in_or_app; now left|]. destruct X as [-> | ->]; cbn in I; intuition congruence. }
    rewrite (proj1 (auto_at (a ++ x) e k ltac:(apply N; (discriminate || assumption)) ltac:(apply N; (discriminate || assumption)) Ne)). now rewrite <- app_assoc.
  Qed.
  Definition e1 (k : str) : bool := ex (a ++ B "." ++ k).
  Definition e2 (k : str) : bool := ex (a ++ B "@2x." ++ k).
  Definition e3 (k : str) : bool := ex (a ++ B "@3x." ++ k).
  Lemma has1 k : ~ In ":"%char k -> has fs base (v1 src k) = e1 k.
  Proof. intro N. rewrite v1_at. unfold has. rewrite there_ex by auto. reflexivity. Qed.
  Lemma has2 k : ~ In ":"%char k -> has_x fs base (B "@2x") src k = e2 k.
  Proof. intro N. unfold has_x. rewrite v1_at, vx_at by auto. unfold has. rewrite there_ex by auto. reflexivity. Qed.
  Lemma has3 k : ~ In ":"%char k -> has_x fs base (B "@3x") src k = e3 k.
  Proof. intro N. unfold has_x. rewrite v1_at, vx_at by auto. unfold has. rewrite there_ex by auto. reflexivity. Qed.
  Lemma variants_at k : variants ex a k = (if e1 k then [(a ++ B "." ++ k) ++ B " 1x"] else []) ++ (if e2 k then [(a ++ B "@2x." ++ k) ++ B " 2x"] else []) ++ (if e3 k then [(a ++ B "@3x." ++ k) ++ B " 3x"] else []).
  Proof. unfold variants. cbn [flat_map fst snd app]. rewrite app_nil_r. reflexivity. Qed.

  Lemma format_at k : ~ In ":"%char k -> length k <= 4 -> plain_first ex a k -> concat (format fs base src k) = source_of ex a k /\ (e1 k || e2 k || e3 k = match source_of ex a k with [] => false | _ => true end).
  Proof.
    intros N Lk P. unfold format. cbv zeta. rewrite has1, has2, has3, v1_at, !vx_at by auto. unfold source_of. rewrite variants_at.
    assert (L0 : length a <= 100) by lia. cbn [app] in *. change (plain_first ex a k) with (e2 k = true \/ e3 k = true -> e1 k = true) in P.
    destruct (e1 k); [|destruct (e2 k); [discriminate P; now left|]; destruct (e3 k); [discriminate P; now right|]; split; reflexivity].
    set (x1 := (a ++ "."%char :: k) ++ B " 1x"). assert (N1 : x1 <> []) by (unfold x1; destruct a; discriminate). assert (L1 : length x1 <= 108) by (unfold x1; len; lia). rewrite (clip_id x1) by lia.
    set (u2 := a ++ B "@2x" ++ "."%char :: k). set (u3 := a ++ B "@3x" ++ "."%char :: k). assert (L2 : length u2 <= 108) by (unfold u2; len; lia). assert (L3 : length u3 <= 108) by (unfold u3; len; lia).
    change ((a ++ B "." ++ k) ++ B " 1x") with x1. change (a ++ B "@2x." ++ k) with u2. change (a ++ B "@3x." ++ k) with u3. clearbody x1 u2 u3. destruct (e2 k); destruct (e3 k); cbn [orb app commas]; rewrite ?(join_at x1) by (try exact N1; len; lia); rewrite ?join_at by (first [intro Z; apply app_eq_nil in Z as (Z & _); contradiction | len; lia]); (split; [|reflexivity]).
    all: match goal with |- concat (match ?x with [] => [] | _ => _ end) = _ => assert (Nx : x <> []) by (try exact N1; intro Z; apply app_eq_nil in Z as (Z & _); try (apply app_eq_nil in Z as (Z & _)); contradiction); remember x as y eqn:Ey; destruct y as [|c y]; [contradiction|rewrite Ey; cbn [concat]; rewrite app_nil_r; unfold quoted, q; repeat (progress (rewrite <- ?app_assoc; cbn [app])); reflexivity] end.
  Qed.
  Lemma srcset_at : e1 e = true -> srcset_attr fs base src = Some (match variants ex a e with _ :: _ :: _ => B " srcset=" ++ q (commas (variants ex a e)) | _ => [] end) /\ (has fs base (suffix_auto (B "@2x") src) || has fs base (suffix_auto (B "@3x") src) = match variants ex a e with _ :: _ :: _ => true | _ => false end).
  Proof.
    intro E1. assert (Ncc : ~ In ":"%char e) by (intro I; apply Nc; apply in_or_app; now right). unfold srcset_attr. cbv zeta. rewrite !sx_at. unfold has. rewrite !there_ex by auto. change (ex (a ++ B "@2x" ++ "."%char :: e)) with (e2 e). change (ex (a ++ B "@3x" ++ "."%char :: e)) with (e3 e). rewrite variants_at, E1.
    set (u2 := a ++ B "@2x" ++ "."%char :: e). set (u3 := a ++ B "@3x" ++ "."%char :: e). assert (L1 : length src <= 101) by (unfold src; len; lia). assert (L2 : length u2 <= 108) by (unfold u2; len; lia). assert (L3 : length u3 <= 108) by (unfold u3; len; lia).
    change (a ++ B "." ++ e) with src. change (a ++ B "@2x." ++ e) with u2. change (a ++ B "@3x." ++ e) with u3. clearbody src u2 u3. rewrite (clip_id (B " srcset=" ++ [DQ] ++ src ++ B " 1x")) by (len; lia).
    destruct (e2 e); destruct (e3 e); cbn [orb app commas]; (split; [|reflexivity]); try reflexivity.
    all: rewrite ?(clip_id (_ ++ B ", " ++ u2 ++ _)) by (len; lia); rewrite ?(clip_id (_ ++ B ", " ++ u3 ++ _)) by (len; lia).
    all: rewrite (proj2 (Nat.ltb_lt _ _)) by (len; lia).
    all: unfold q; repeat (progress (rewrite <- ?app_assoc; cbn [app])); reflexivity.
  Qed.
  Lemma picture_at alt : length alt <= 100 -> e1 e = true -> plain_first ex a (B "avif") -> plain_first ex a (B "webp") ->
    exists o, picture fs base src alt [] = Some o /\ (forall tag, match o with Some x => x | None => tag end = shown ex a e alt tag) /\ (forall x, o = Some x -> length x < 1900).
  Proof.
    intros Lal E1 P1 P2. assert (Ls : length src <= 160) by (clear - La; unfold src; len; lia). assert (Ls2 : length alt + length (@nil ascii) <= 400) by (clear - Lal; cbn [length]; lia). pose proof (picture_some fs base src alt [] Ls Ls2) as PS. unfold picture in *. cbv zeta in *. cbn [existsb] in *.
    assert (Ka : ~ In ":"%char (B "avif")) by (apply not_in_b; reflexivity). assert (Kw : ~ In ":"%char (B "webp")) by (apply not_in_b; reflexivity).
    destruct (format_at (B "avif") Ka ltac:(cbn; lia) P1) as (F1 & G1). destruct (format_at (B "webp") Kw ltac:(cbn; lia) P2) as (F2 & G2). destruct (srcset_at E1) as (S1 & S2). rewrite !has1, !has2, !has3 in * by assumption.
    rewrite G1, G2 in *. rewrite orb_false_r in *. rewrite S1 in *. rewrite <- !orb_assoc in *. rewrite S2 in *. unfold shown. cbv zeta. change (a ++ B "." ++ e) with src.
    remember (format fs base src (B "avif")) as fa eqn:Efa. remember (format fs base src (B "webp")) as fw eqn:Efw. remember (source_of ex a (B "avif")) as sa eqn:Esa. remember (source_of ex a (B "webp")) as sw eqn:Esw. remember (variants ex a e) as vs eqn:Evs. clear Efa Efw Esa Esw Evs G1 G2 S1 S2.
    assert (X : forall any : bool, any = (match sw with [] => false | _ => true end || match sa with [] => false | _ => true end) -> any = match sa ++ sw with [] => false | _ => true end) by (intros any ->; destruct sa; destruct sw; reflexivity).
    remember (match sw with [] => false | _ => true end || match sa with [] => false | _ => true end) as any eqn:Ea. specialize (X any eq_refl). rewrite orb_assoc in *. rewrite <- Ea in *.
    clear Ea. assert (Ls' : length src <= 101) by (clear - La; unfold src; len; lia). destruct any.
    - cbn [orb] in *. match type of PS with option_map Some (print ?c ?l) <> None => destruct (print_val c l) as (V & Lv); [intro Z; rewrite Z in PS; now apply PS|] end. rewrite V. eexists. split; [reflexivity|]. split; [|intros x Hx; apply some_eq in Hx; subst x; clear - Lv Ls'; lia].
      intro tag. destruct (sa ++ sw) as [|c r] eqn:Ez; [discriminate X|]. rewrite <- Ez. rewrite !concat_app, F1, F2. cbn [concat app]. rewrite !app_nil_r. unfold quoted, q. repeat (progress (rewrite <- ?app_assoc; cbn [app])). reflexivity.
    - destruct (sa ++ sw) as [|c r] eqn:Ez; [|discriminate X]. apply app_eq_nil in Ez as (-> & ->). cbn [orb] in *. destruct vs as [|y1 [|y2 vs]].
      + exists None. repeat split; discriminate.
      + exists None. repeat split; discriminate.
      + match type of PS with option_map Some (print ?c ?l) <> None => destruct (print_val c l) as (V & Lv); [intro Z; rewrite Z in PS; now apply PS|] end. rewrite V. eexists. split; [reflexivity|]. split; [|intros x Hx; apply some_eq in Hx; subst x; clear - Lv Ls'; lia].
        intro tag. rewrite !concat_app, F1, F2. cbn [concat app]. rewrite !app_nil_r. unfold quoted, q. repeat (progress (rewrite <- ?app_assoc; cbn [app])). reflexivity.
  Qed.
End image.

(** The loop over bytes *)
Lemma go_bytes len fs base s : forall a fuel cap out, length out + length a + 1 < cap -> (forall x y, a = x ++ y -> y <> [] -> img_tag (y ++ s) = false) -> go (length a + fuel) len fs base (a ++ s) (Buf cap out false) = go fuel len fs base s (Buf cap (out ++ a) false).
Proof.
  induction a as [|c a IH]; intros fuel cap out L H; [now rewrite app_nil_r|]. cbn [length Nat.add app go] in *. unfold turn. pose proof (H [] (c :: a) eq_refl ltac:(discriminate)) as I. cbn [app] in I. rewrite I. unfold remaining. cbn [b_cap b_out]. rewrite (proj2 (Nat.ltb_ge _ _)) by lia. unfold write. cbn [b_cap b_out b_bad orb length]. rewrite (proj2 (Nat.ltb_ge _ _)) by lia. rewrite IH; [now rewrite <- app_assoc|rewrite app_length; cbn [length]; lia|]. intros x y -> N. apply (H (c :: x)); [reflexivity|exact N].
Qed.
(** Text without <img in front of a tag *)
Lemma free_before a r : ~ S_Media.within (B "<img") (map tolower a) -> forall x y, a = x ++ y -> y <> [] -> img_tag (y ++ "<"%char :: r) = false.
Proof.
  intros N x y -> Ny. destruct (img_tag (y ++ "<"%char :: r)) eqn:I; [exfalso|reflexivity]. apply img_tag_img in I as (z & E). destruct y as [|c1 [|c2 [|c3 [|c4 y]]]]; [contradiction| | | |]; cbn [app map B list_ascii_of_string] in E; try discriminate E.
  injection E as E1 E2 E3 E4 _. apply N. exists (map tolower x), (map tolower y). rewrite map_app. cbn [map app B list_ascii_of_string]. now rewrite E1, E2, E3, E4.
Qed.
Lemma free_in t : ~ S_Media.within (B "<img") (map tolower t) -> forall x y, t = x ++ y -> img_tag y = false.
Proof.
  intros N x y ->. destruct (img_tag y) eqn:I; [exfalso|reflexivity]. apply img_tag_img in I as (z & E). apply N. exists (map tolower x), z. now rewrite map_app, E.
Qed.

(** One tag in a page without other images *)
Lemma one_tag fs base before tag rest o e : base <> [] -> (exists r, tag = "<"%char :: r) -> img_tag (tag ++ rest) = true -> tag_end None (tag ++ rest) = Some e -> length tag = e + 1 -> marked (tag ++ rest) = true -> replacement fs base (tag ++ rest) (e + 1) = Some o -> (forall x, o = Some x -> length x < 1900) ->
  ~ S_Media.within (B "<img") (map tolower before) -> ~ S_Media.within (B "<img") (map tolower rest) -> expand fs base (before ++ tag ++ rest) = Some (before ++ match o with Some x => x | None => tag end ++ rest).
Proof.
  intros Nb Hd I T Lm M R Lo Nbe Nre. set (page := before ++ tag ++ rest).
  assert (Lp : length page = length before + length tag + length rest) by (unfold page; rewrite !app_length; lia).
  assert (Free : forall len fuel cap out, length out + length rest < cap -> length rest < fuel -> go fuel len fs base rest (Buf cap out false) = Buf cap (out ++ rest) false).
  { intros len fuel cap out L1 L2. apply go_same; [exact L1|exact L2|]. intros x y E n0 o0. unfold turn. rewrite (free_in rest Nre x y E). split; discriminate. }
  assert (W : forall cap, cap = length page * 2 + 2048 -> go (S (length page)) (length page) fs base page (Buf cap [] false) = Buf cap ((before ++ match o with Some x => x | None => tag end) ++ rest) false).
  { intros cap Ec0. assert (C1 : length before + length tag + length rest + 2000 < cap) by lia. clear Ec0. replace (S (length page)) with (length before + S (length tag + length rest)) by lia. unfold page at 2. rewrite go_bytes.
    2:{ cbn [length]. lia. }
    2:{ destruct Hd as (r & ->). cbn [app]. now apply free_before. }
    cbn [app]. destruct (tag ++ rest) as [|c r] eqn:Ec; [destruct tag; [destruct Hd; discriminate|discriminate Ec]|]. cbn [go]. unfold turn. rewrite I, T, M, R. rewrite <- Ec, <- Lm. destruct o as [x|]; cbv beta iota; rewrite ?first_n, skip_n.
    - specialize (Lo x eq_refl). unfold remaining. cbn [b_cap b_out]. rewrite (proj2 (Nat.ltb_ge _ _)) by lia. unfold write. cbn [b_cap b_out b_bad orb]. rewrite (proj2 (Nat.ltb_ge _ _)) by lia. apply Free; [rewrite app_length; lia|lia].
    - unfold remaining. cbn [b_cap b_out]. rewrite (proj2 (Nat.leb_gt (cap - length before) (length tag))) by lia. unfold write. cbn [b_cap b_out b_bad orb]. rewrite (proj2 (Nat.ltb_ge _ _)) by lia. apply Free; [rewrite app_length; lia|lia]. }
  unfold expand. destruct base as [|d base0] eqn:Eb; [contradiction|]. rewrite <- Eb in *. cbv zeta. rewrite (W _ eq_refl). cbn [b_bad b_out]. rewrite <- app_assoc. reflexivity.
Qed.

Lemma attr_step g nm c r m : nocase nm (c :: r) = false -> attr g nm (c :: r) (S m) = attr (isspace c) nm r m.
Proof. intro H. cbn [attr]. rewrite H, andb_false_r. reflexivity. Qed.
Lemma wildcard_no a e : ~ In "."%char e -> e <> B "*" -> wildcard (a ++ "."%char :: e) = false.
Proof.
  intros N D. unfold wildcard. destruct (_ && _) eqn:W; [exfalso|reflexivity]. apply andb_true_iff in W as (_ & W). apply seq_same in W. apply D. pose proof (strrchr_last "." a e N) as S1. rewrite <- (firstn_skipn (length (a ++ "."%char :: e) - 2) (a ++ "."%char :: e)), W in S1. rewrite (strrchr_last "." _ (B "*")) in S1 by (apply not_in_b; reflexivity). injection S1 as <-. reflexivity.
Qed.
Lemma not_video a e : ~ In "?"%char (a ++ e) -> ~ In "#"%char (a ++ e) -> ~ In "."%char e -> ~ In (map tolower e) videos -> is_video_auto (a ++ "."%char :: e) = false.
Proof.
  intros N1 N2 N3 V. unfold is_video_auto. assert (I : inner (a ++ "."%char :: e)). { split; intro J; apply in_app_or in J as [J|[J|J]]; try discriminate J; first [apply N1; apply in_or_app; tauto | apply N2; apply in_or_app; tauto]. }
  pose proof (end_at (a ++ "."%char :: e) [] I (or_introl eq_refl)) as P. rewrite app_nil_r in P. rewrite P, firstn_all, strrchr_last by exact N3. destruct (video_ext e) eqn:E; [|reflexivity]. apply video_in in E. contradiction.
Qed.

(** The marked image *)
Definition mark_tag (src alt : str) : str := B "<img src=" ++ DQ :: src ++ DQ :: B " alt=" ++ DQ :: alt ++ DQ :: B " data-apex-replace-auto=1>".
Section tag.
  Variables (src alt rest : str).
  Hypothesis (S1 : ~ In DQ src) (S2 : ~ In BS src) (S3 : ~ In "="%char src) (A1 : ~ In DQ alt) (A2 : ~ In BS alt) (A3 : ~ In "="%char alt).
  Let n : nat := 44 + length src + length alt.
  Let tail_ : str := B "data-apex-replace-auto=1>" ++ rest.
  Let s0 : str := B "<img " ++ B "src" ++ "="%char :: DQ :: src ++ DQ :: SP :: B "alt" ++ "="%char :: DQ :: alt ++ DQ :: SP :: tail_.
  Lemma mark_shape : mark_tag src alt ++ rest = s0.
  Proof. unfold mark_tag, s0, tail_. repeat (progress (rewrite <- ?app_assoc; cbn [app])). reflexivity. Qed.
  Lemma mark_len : length (mark_tag src alt) = n.
  Proof. unfold mark_tag, n. len. lia. Qed.
  Lemma mark_end : tag_end None s0 = Some (n - 1).
  Proof.
    assert (T : Tag (9 + (length src + 2 + (5 + (length alt + 2 + (25 + 1))))) s0). { unfold s0, tail_. apply (tag_plain (B "<img src=")); [reflexivity|]. apply tag_dq; [exact S1|exact S2|]. apply (tag_plain (B " alt=")); [reflexivity|]. apply tag_dq; [exact A1|exact A2|]. apply (tag_plain (B " data-apex-replace-auto=1") 1 (">"%char :: rest)); [reflexivity|]. apply tag_gt. }
    apply tag_tag_end in T as (e & -> & E). f_equal. unfold n. lia.
  Qed.
  Lemma mark_src : attr true (B "src") s0 n = Some src.
  Proof.
    unfold s0. rewrite (attr_pass (B "src") (B "<img ") _ (n - 5)); [|apply not_in_b; reflexivity|apply not_in_b; reflexivity|unfold n; cbn [length B list_ascii_of_string]; lia]. apply (attr_here (B "src") src); [discriminate|reflexivity|exact S1|exact S2|unfold n; cbn [length B list_ascii_of_string]; lia].
  Qed.
  Lemma mark_alt : attr true (B "alt") s0 n = Some alt.
  Proof.
    unfold s0. rewrite (attr_pass (B "alt") (B "<img ") _ (n - 5)); [|apply not_in_b; reflexivity|apply not_in_b; reflexivity|unfold n; cbn [length B list_ascii_of_string]; lia].
    replace (n - 5) with (S (S (S (S (n - 9))))) by (unfold n; lia). cbn [B list_ascii_of_string app]. do 4 (rewrite attr_step by reflexivity).
    change (DQ :: src ++ DQ :: SP :: "a"%char :: "l"%char :: "t"%char :: "="%char :: DQ :: alt ++ DQ :: SP :: tail_) with ((DQ :: src) ++ [DQ; SP] ++ B "alt" ++ "="%char :: DQ :: alt ++ DQ :: SP :: tail_). rewrite app_assoc.
    change (["a"%char; "l"%char; "t"%char]) with (B "alt").
    rewrite (attr_pass (B "alt") ((DQ :: src) ++ [DQ; SP]) _ (n - 12 - length src)).
    - rewrite rev_app_distr. apply (attr_here (B "alt") alt); [discriminate|reflexivity|exact A1|exact A2|unfold n; cbn [length B list_ascii_of_string]; lia].
    - intro I. apply in_app_or in I as [[I|I]|[I|[I|[]]]]; (discriminate I || contradiction).
    - apply not_in_b; reflexivity.
    - unfold n. rewrite app_length. cbn [length]. lia.
  Qed.
  Lemma mark_title : attr true (B "title") s0 n = None.
  Proof.
    unfold s0. change (B "<img " ++ B "src" ++ "="%char :: DQ :: src ++ DQ :: SP :: B "alt" ++ "="%char :: DQ :: alt ++ DQ :: SP :: tail_) with ("<"%char :: "i"%char :: "m"%char :: "g"%char :: " "%char :: "s"%char :: "r"%char :: "c"%char :: "="%char :: (DQ :: src) ++ DQ :: SP :: "a"%char :: "l"%char :: "t"%char :: "="%char :: (DQ :: alt) ++ DQ :: SP :: tail_).
    replace n with (9 + (length (DQ :: src) + (6 + (length (DQ :: alt) + (2 + 25))))) by (unfold n; cbn [length]; lia). cbn [Nat.add]. do 9 (rewrite attr_step by reflexivity).
    rewrite attr_skip; [|intros [I|I]; [discriminate I|contradiction]|apply not_in_b; reflexivity]. do 6 (rewrite attr_step by reflexivity).
    rewrite attr_skip; [|intros [I|I]; [discriminate I|contradiction]|unfold tail_; apply not_in_b; reflexivity]. do 2 (rewrite attr_step by reflexivity). unfold tail_. cbn [B list_ascii_of_string app]. do 25 (rewrite attr_step by reflexivity). destruct rest; reflexivity.
  Qed.
  Lemma mark_marked : marked s0 = true.
  Proof. apply marked_in. exists (B "<img src=" ++ DQ :: src ++ DQ :: B " alt=" ++ DQ :: alt ++ DQ :: B " "), (B ">" ++ rest). unfold s0, tail_, marker. repeat (progress (rewrite <- ?app_assoc; cbn [app])). reflexivity. Qed.
End tag.

Lemma mark_facts src alt rest : ~ In DQ src -> ~ In BS src -> ~ In "="%char src -> ~ In DQ alt -> ~ In BS alt -> ~ In "="%char alt -> exists e, tag_end None (mark_tag src alt ++ rest) = Some e /\ length (mark_tag src alt) = e + 1 /\ attr true (B "src") (mark_tag src alt ++ rest) (e + 1) = Some src /\ attr true (B "alt") (mark_tag src alt ++ rest) (e + 1) = Some alt /\ attr true (B "title") (mark_tag src alt ++ rest) (e + 1) = None.
Proof.
  intros S1 S2 S3 A1 A2 A3. exists (43 + length src + length alt). replace (43 + length src + length alt + 1) with (44 + length src + length alt) by lia. rewrite mark_shape.
  split; [rewrite (mark_end src alt rest S1 S2 A1 A2); f_equal; lia|]. split; [exact (mark_len src alt)|]. split; [exact (mark_src src alt rest S1 S2)|]. split; [exact (mark_alt src alt rest S3 A1 A2)|exact (mark_title src alt rest S3 A3)].
Qed.
Lemma mark_marked2 src alt rest : marked (mark_tag src alt ++ rest) = true.
Proof. rewrite mark_shape. exact (mark_marked src alt rest). Qed.
Lemma mark_img src alt rest : img_tag (mark_tag src alt ++ rest) = true.
Proof. reflexivity. Qed.
