(** Lemmas for the signs in the page. *)
From Verif Require Import Base BaseL Dec L_Pass M_Relax S_Relax L_Relax M_Alpha S_Alpha L_Alpha.

Notation lit := (B "<p>[apex-alpha-list:").

Lemma lit_inside (y z : str) d q : y <> [] -> lit = y ++ z -> z = d :: q -> d <> "<"%char.
Proof.
  intros N E -> ->. assert (F : forallb (fun c => negb (ceq c "<")) (tl lit) = true) by reflexivity. destruct y as [|c y]; [congruence|]. rewrite E in F. cbn [app tl] in F. rewrite forallb_app in F. apply Bool.andb_true_iff in F. destruct F as [_ F]. discriminate F.
Qed.

Lemma no_mark (y p : str) : y <> [] -> ~ within lit y -> (p = [] \/ exists q, p = "<"%char :: q) -> mark (y ++ p) = None.
Proof.
  intros N W P. unfold mark. destruct (starts lit (y ++ p)) eqn:S; [exfalso|reflexivity]. apply starts_spec in S. destruct S as (r & E).
  destruct (Nat.le_gt_cases (length lit) (length y)) as [L|L].
  - destruct (app_split y p lit r E L) as (e & -> & _). apply W. exists [], e. reflexivity.
  - destruct (app_split lit r y p (eq_sym E) ltac:(lia)) as (z & E1 & E2). destruct z as [|d z]; [rewrite E1, app_nil_r in L; lia|].
    pose proof (lit_inside y (d :: z) d z N E1 eq_refl) as D. destruct P as [->|(q & ->)]; [discriminate|]. injection E2 as <- _. congruence.
Qed.

Definition sound (b : buf) (o : str) : Prop := b_bad b = false /\ b_out b = o /\ length o <= b_cap b.

Lemma ensure_sound n b o : sound b o -> sound (ensure n b) o /\ length o + n <= b_cap (ensure n b) /\ b_cap b <= b_cap (ensure n b).
Proof.
  intros (A & E & L). unfold ensure, remaining. rewrite E. destruct (Nat.ltb_spec (b_cap b - length o) n); unfold sound; cbn [b_bad b_out b_cap]; (split; [split; [exact A|split; [reflexivity || exact E|lia]]|lia]).
Qed.

Lemma write_sound x b o : sound b o -> length o + length x <= b_cap b -> sound (write x b) (o ++ x) /\ b_cap (write x b) = b_cap b.
Proof.
  intros (A & E & L) K. unfold write, sound. cbn [b_bad b_out b_cap]. rewrite A, E, app_length. destruct (Nat.ltb_spec (b_cap b) (length o + length x)); [lia|]. repeat split; try reflexivity; lia.
Qed.

Lemma put_sound x b o : sound b o -> sound (put x b) (o ++ x) /\ b_cap b <= b_cap (put x b).
Proof.
  intro S. unfold put. destruct (ensure_sound (length x) b o S) as (S1 & K & C). destruct (write_sound x _ o S1 K) as [S2 E]. rewrite E. auto.
Qed.

Lemma scan_text x p : ~ within lit x -> (p = [] \/ exists q, p = "<"%char :: q) -> forall fuel pend b, length x <= fuel -> scan fuel (x ++ p) pend b = scan (fuel - length x) p (pend ++ x) b.
Proof.
  intros W P. induction x as [|c x IH]; intros fuel pend b L; [cbn [app length]; now rewrite app_nil_r, Nat.sub_0_r|]. cbn [length] in L. destruct fuel as [|fuel]; [lia|].
  assert (W' : ~ within lit x) by (intros (a & r & ->); apply W; exists (c :: a), r; reflexivity).
  cbn [scan app]. change (c :: x ++ p) with ((c :: x) ++ p). rewrite (no_mark (c :: x) p ltac:(discriminate) W P). rewrite (IH W' fuel _ b ltac:(lia)). cbn [length]. rewrite <- app_assoc. reflexivity.
Qed.

Lemma white_in c : white c = true <-> In c [SP; TAB; NL; CR].
Proof.
  unfold white. rewrite !Bool.orb_true_iff, !ceq_eq. cbn [In]. split; [intros [[[H|H]|H]|H]; subst; auto|intros [H|[H|[H|[H|[]]]]]; subst; auto].
Qed.

Lemma whites_in w : Forall (fun c => In c [SP; TAB; NL; CR]) w -> Forall (fun c => white c = true) w.
Proof. apply Forall_impl. intro c. apply white_in. Qed.

Lemma mark_paragraph u r : mark (paragraph u ++ r) = Some u /\ skipn 30 (paragraph u ++ r) = r /\ (length (paragraph u ++ r) <? 30) = false.
Proof. destruct u; (split; [reflexivity|split; [reflexivity|apply Nat.ltb_ge; rewrite app_length; cbn [length paragraph app B list_ascii_of_string]; lia]]). Qed.

Lemma scan_mark u r fuel pend b : scan (S fuel) (paragraph u ++ r) pend b = let (w, q) := span white r in let b := put w (put pend b) in
  match ol_tag q with Some (tag, rest) => scan fuel rest [] (write (style u) (write tag (ensure (length tag + 50) b))) | None => match q with [] => Bad | d :: q => scan fuel q [d] b end end.
Proof.
  destruct (mark_paragraph u r) as (E1 & E2 & E3). assert (X : exists c t, paragraph u ++ r = c :: t) by (destruct u; eexists _, _; reflexivity). destruct X as (c & t & X). cbn [scan]. rewrite X in *. rewrite E1, E3, E2. reflexivity.
Qed.

Lemma tag_ok t s : (t = [] \/ exists d q, t = d :: q /\ In d [SP; TAB; NL]) -> ~ In ">"%char t -> ~ within (B "style=") t -> ol_tag (B "<ol" ++ t ++ B ">" ++ s) = Some (B "<ol" ++ t, s).
Proof.
  intros T N W. unfold ol_tag. rewrite starts_app.
  assert (C : ceq (at_ (B "<ol" ++ t ++ B ">" ++ s) 3) ">" || ceq (at_ (B "<ol" ++ t ++ B ">" ++ s) 3) SP || ceq (at_ (B "<ol" ++ t ++ B ">" ++ s) 3) TAB || ceq (at_ (B "<ol" ++ t ++ B ">" ++ s) 3) NL = true).
  { destruct T as [->|(d & q & -> & [<-|[<-|[<-|[]]]])]; reflexivity. }
  rewrite C. cbn [andb]. assert (K : strchr ">" (B "<ol" ++ t ++ B ">" ++ s) = Some (length (B "<ol" ++ t))).
  { apply strchr_some. exists (B "<ol" ++ t), s. split; [now rewrite <- app_assoc|]. split; [reflexivity|]. intro I. apply in_app_or in I. destruct I as [I|I]; [cbn in I; repeat (destruct I as [I|I]; [discriminate I|]); destruct I|contradiction]. }
  rewrite K. rewrite (app_assoc (B "<ol") t), firstn_app, firstn_all, Nat.sub_diag. cbn [firstn]. rewrite app_nil_r.
  assert (A : strstr (B "style=") (B "<ol" ++ t) = None).
  { apply strstr_absent; [discriminate|]. intros (a & r & E). destruct a as [|a0 [|a1 [|a2 a]]]; [discriminate E|discriminate E|discriminate E|]. injection E as _ _ _ E. apply W. exists a, r. exact E. }
  rewrite A. f_equal. f_equal. replace (S (length (B "<ol" ++ t))) with (length (B "<ol" ++ t) + 1) by lia. rewrite app_assoc.
  replace (length (B "<ol" ++ t) + 1) with (length ((B "<ol" ++ t) ++ B ">")) by (rewrite app_length; reflexivity). rewrite skipn_app, skipn_all, Nat.sub_diag. reflexivity.
Qed.

Lemma not_tag d q : d <> "<"%char -> ol_tag (d :: q) = None.
Proof. intro N. unfold ol_tag. cbn [starts B list_ascii_of_string]. destruct (ceq "<" d) eqn:E; [apply ceq_eq in E; congruence|reflexivity]. Qed.

Lemma signed_length s out k : Signed s out k -> length out <= length s + 7 * k.
Proof.
  induction 1 as [x W|x u w t s out k W F T N Ws H IH|x u w d s out k W F D H IH]; [lia| |]; rewrite !app_length; cbn [length]; destruct u; cbn [tag_style paragraph app length B list_ascii_of_string]; lia.
Qed.

Lemma signed_scan s out k : Signed s out k -> forall fuel pend b o, length s < fuel -> sound b o ->
  exists cap, b_cap b <= cap /\ scan fuel s pend b = if length (o ++ pend ++ out) =? cap then Bad else Text (o ++ pend ++ out).
Proof.
  induction 1 as [x W|x u w t s out k W F T N Ws H IH|x u w d s out k W F D H IH]; intros fuel pend b o L Sd.
  - assert (X : scan fuel x pend b = scan (fuel - length x) [] (pend ++ x) b) by (rewrite <- (scan_text x [] W ltac:(auto) fuel pend b ltac:(lia)), app_nil_r; reflexivity). rewrite X. destruct (fuel - length x) as [|f] eqn:E; [lia|]. cbn [scan]. destruct (put_sound (pend ++ x) b o Sd) as [(A & Eo & Lo) C]. exists (b_cap (put (pend ++ x) b)). split; [exact C|]. rewrite A, Eo. unfold remaining. rewrite Eo. cbn [orb].
    destruct (Nat.eqb_spec (length (o ++ pend ++ x)) (b_cap (put (pend ++ x) b))); destruct (Nat.eqb_spec (b_cap (put (pend ++ x) b) - length (o ++ pend ++ x)) 0); try lia; reflexivity.
  - rewrite scan_text; [|exact W|right; destruct u; eexists; reflexivity|rewrite app_length in L; lia]. rewrite !app_length in L. destruct (fuel - length x) as [|f] eqn:E; [lia|]. rewrite scan_mark.
    assert (Sp : span white (w ++ B "<ol" ++ t ++ B ">" ++ s) = (w, B "<ol" ++ t ++ B ">" ++ s)) by exact (span_pair white w "<" (B "ol" ++ t ++ B ">" ++ s) (whites_in w F) eq_refl).
    rewrite Sp. cbv zeta. rewrite (tag_ok t s T N Ws). destruct (put_sound (pend ++ x) b o Sd) as [S1 C1]. destruct (put_sound w _ _ S1) as [S2 C2]. destruct (ensure_sound (length (B "<ol" ++ t) + 50) _ _ S2) as (S3 & K3 & C3). destruct (write_sound (B "<ol" ++ t) _ _ S3 ltac:(lia)) as [S4 C4].
    destruct (write_sound (style u) _ _ S4) as [S5 C5]; [rewrite C4, app_length; destruct u; cbn [style app length B list_ascii_of_string] in *; lia|].
    destruct (IH f [] _ _ ltac:(destruct u; cbn [paragraph app length B list_ascii_of_string] in L; lia) S5) as (cap & Cc & R). exists cap. split; [lia|]. cbn [app] in R. unfold style in R. fold (tag_style u) in R. rewrite <- !app_assoc in R. cbn [app] in R |- *. rewrite <- ?app_assoc in R |- *. exact R.
  - rewrite scan_text; [|exact W|right; destruct u; eexists; reflexivity|rewrite app_length in L; lia]. rewrite !app_length in L. destruct (fuel - length x) as [|f] eqn:E; [lia|]. rewrite scan_mark.
    assert (Dw : white d = false) by (apply bool_false; intro X; apply white_in in X; apply D; cbn [In] in *; intuition).
    rewrite (span_pair white w d s (whites_in w F) Dw). cbv zeta. rewrite (not_tag d s) by (intro X; apply D; cbn; auto 10). destruct (put_sound (pend ++ x) b o Sd) as [S1 C1]. destruct (put_sound w _ _ S1) as [S2 C2].
    destruct (IH f [d] _ _ ltac:(cbn [length] in L; lia) S2) as (cap & Cc & R). exists cap. split; [lia|]. rewrite <- !app_assoc in R. rewrite R. reflexivity.
Qed.

Lemma signed_has s out k : Signed s out k -> s = out \/ within (B "[apex-alpha-list:") s.
Proof.
  destruct 1 as [x W|x u w t s out k W F T N Ws H|x u w d s out k W F D H]; [left; reflexivity|right..].
  - exists (x ++ B "<p>"), ((if u then B "upper" else B "lower") ++ B "]</p>" ++ w ++ B "<ol" ++ t ++ B ">" ++ s). unfold paragraph. rewrite <- !app_assoc. reflexivity.
  - exists (x ++ B "<p>"), ((if u then B "upper" else B "lower") ++ B "]</p>" ++ w ++ d :: s). unfold paragraph. rewrite <- !app_assoc. reflexivity.
Qed.

Lemma styled_exact s out k : Signed s out k -> k <= 146 -> styled s = Text out \/ styled s = Same /\ s = out.
Proof.
  intros H K. unfold styled. destruct (strstr (B "[apex-alpha-list:") s) as [i|] eqn:E.
  - left. destruct (signed_scan s out k H (S (length s)) [] (Buf (length s + 1024) [] false) [] ltac:(lia)) as (cap & C & R); [unfold sound; cbn; split; [reflexivity|split; [reflexivity|lia]]|]. rewrite R. cbn [app b_cap] in *. pose proof (signed_length s out k H). destruct (Nat.eqb_spec (length out) cap); [lia|reflexivity].
  - right. split; [reflexivity|]. destruct (signed_has s out k H) as [Q|(a & r & Q)]; [exact Q|]. exfalso. exact (strstr_none _ _ E a r Q).
Qed.

(** ** Lines that are short numbers, and alphabets *)
Lemma short_plain w c p : gaps w -> gap c = false -> isdigit c = false -> short_number (w ++ c :: p).
Proof.
  intros W C D w2 ds r E W2 F. apply gaps_bool in W, W2. destruct ds as [|d ds]; [cbn; lia|]. exfalso. apply Forall_inv in F.
  assert (G : gap d = false) by (pose proof (byte_forall (fun c => negb (isdigit c) || negb (gap c)) eq_refl d) as X; cbv beta in X; rewrite F in X; cbn in X; now apply Bool.negb_true_iff in X).
  assert (P : span gap (w ++ c :: p) = span gap (w ++ c :: p)) by reflexivity. rewrite E in P at 1. cbn [app] in P. rewrite (span_pair gap w2 d _ W2 G), (span_pair gap w c p W C) in P. injection P as _ -> _. congruence.
Qed.

Lemma short_gaps w : gaps w -> short_number w.
Proof.
  intros W w2 ds r E W2 F. destruct ds as [|d ds]; [cbn; lia|]. exfalso. apply Forall_inv in F. unfold gaps in W. rewrite E in W. apply Forall_app in W. destruct W as [_ W]. apply Forall_inv in W. destruct W as [-> | ->]; discriminate.
Qed.

Lemma item_short l w c r : item l w c r -> short_number l.
Proof.
  intros (-> & W & C & _). apply letter_bool in C. apply short_plain; [exact W|exact (letter_not_gap c C)|]. pose proof (byte_forall (fun c => negb (islower c || isupper c) || negb (isdigit c)) eq_refl c) as X. cbv beta in X. rewrite C in X. cbn in X. now apply Bool.negb_true_iff in X.
Qed.

Definition rest_ok (r : str) : Prop := r = [] \/ exists d q, r = d :: q /\ (d = SP \/ d = TAB).

Lemma al_in al i c : al = lowers \/ al = uppers -> nth_error al i = Some c -> In c (lowers ++ uppers).
Proof. intros A N. apply nth_error_In in N. apply in_or_app. destruct A as [-> | ->]; auto. Qed.

Lemma al_items al rs : al = lowers \/ al = uppers -> Forall rest_ok rs -> rs <> [] -> forall i c, nth_error al i = Some c -> i + length rs <= 26 ->
  exists e, Items c (i + 1) e (map (fun p => fst p :: "."%char :: snd p) (combine (skipn i al) rs)) (map (fun p => numbered (fst p) [] (snd p)) (combine (seq (i + 1) (length rs)) rs)).
Proof.
  intros A. induction rs as [|r rs IH]; [congruence|]. intros F _ i c N L. inversion F as [|? ? R Fr]; subst. cbn [length] in L.
  assert (Sk : skipn i al = c :: skipn (S i) al) by (clear - N; revert i N; induction al as [|x al IHl]; intros [|i] N; cbn in *; try discriminate; [injection N as ->; reflexivity|apply IHl; exact N]).
  assert (It : item (c :: "."%char :: r) [] c r) by (split; [reflexivity|split; [constructor|split; [exact (al_in al i c A N)|exact R]]]).
  rewrite Sk. cbn [combine map fst snd length seq]. destruct rs as [|r' rs].
  - exists c. rewrite combine_nil || idtac. destruct (skipn (S i) al); cbn [combine map seq length]; apply items_one; exact It.
  - assert (La : length al = 26) by (destruct A as [-> | ->]; reflexivity). destruct (nth_error al (S i)) as [d|] eqn:Nd; [|apply nth_error_None in Nd; cbn [length] in L; lia].
    destruct (IH Fr ltac:(discriminate) (S i) d Nd ltac:(cbn [length] in *; lia)) as (e & E). exists e. apply items_next with d; [exact It| |].
    + exists al, i. split; [exact A|]. split; [exact N|]. cbn [length] in L. rewrite Nat.mod_small by lia. rewrite Nat.add_1_r. exact Nd.
    + replace (S (i + 1)) with (S i + 1) by lia. exact E.
Qed.

Lemma items_lettered c e its nums : Items c 1 e its nums -> Lettered its (sign c :: [] :: nums).
Proof. intro H. rewrite <- (app_nil_r its), <- (app_nil_r nums). apply lettered_run with e; [exact H|left; reflexivity|constructor]. Qed.

Lemma al_short al rs : al = lowers \/ al = uppers -> Forall rest_ok rs -> Forall short_number (map (fun p => fst p :: "."%char :: snd p) (combine al rs)).
Proof.
  intros A F. apply Forall_forall. intros l I. apply in_map_iff in I. destruct I as ([c r] & <- & I). cbn [fst snd]. pose proof (in_combine_l _ _ _ _ I) as Ic. pose proof (in_combine_r _ _ _ _ I) as Ir. rewrite Forall_forall in F.
  apply (item_short _ [] c r). split; [reflexivity|]. split; [constructor|]. split; [apply in_or_app; destruct A as [-> | ->]; auto|exact (F r Ir)].
Qed.

Lemma al_no_nl al rs : al = lowers \/ al = uppers -> Forall no_nl rs -> Forall no_nl (map (fun p => fst p :: "."%char :: snd p) (combine al rs)).
Proof.
  intros A F. apply Forall_forall. intros l I. apply in_map_iff in I. destruct I as ([c r] & <- & I). cbn [fst snd]. pose proof (in_combine_l _ _ _ _ I) as Ic. pose proof (in_combine_r _ _ _ _ I) as Ir. rewrite Forall_forall in F.
  intros [X|[X|X]]; [|discriminate X|exact (F r Ir X)]. subst c. assert (Y : In NL (lowers ++ uppers)) by (apply in_or_app; destruct A as [-> | ->]; auto). apply letter_bool in Y. discriminate Y.
Qed.
