(** Lemmas for M_Liquid. *)
From Verif Require Import Base BaseL Dec L_Pass M_Relax M_Spans M_Liquid S_Liquid.

Lemma skipn_at (a b : str) : skipn (length a) (a ++ b) = b.
Proof. now rewrite skipn_app, skipn_all, Nat.sub_diag. Qed.
Lemma firstn_at (a b : str) : firstn (length a) (a ++ b) = a.
Proof. now rewrite firstn_app, firstn_all, Nat.sub_diag, app_nil_r. Qed.

Lemma digit_bool c : digit c <-> isdigit c = true.
Proof.
  split.
  - intro I. repeat (destruct I as [<-|I]; [reflexivity|]). destruct I.
  - pose (P := fun c => implb (isdigit c) (existsb (ceq c) (B "0123456789"))). assert (H : P c = true) by (apply byte_forall; vm_compute; reflexivity). unfold P in H. intro D. rewrite D in H. cbn [implb] in H. apply existsb_exists in H as (d & I & E). apply ceq_eq in E. now subst d.
Qed.
Lemma digits_bool ds : Forall digit ds <-> forallb isdigit ds = true.
Proof. rewrite forallb_forall, Forall_forall. split; intros H x I; apply digit_bool, H, I. Qed.

(** ** The buffer *)
Definition full (b : buf) : Prop := b_bad b = false /\ length (b_out b) <= b_cap b.
Definition fits (b : buf) : Prop := b_bad b = false /\ length (b_out b) < b_cap b.
Lemma fits_full b : fits b -> full b.
Proof. intros [A L]. split; [exact A|lia]. Qed.
Lemma paste_fits e x b : full b -> 0 < e -> fits (paste e x b) /\ b_out (paste e x b) = b_out b ++ x.
Proof.
  intros [G L] E. unfold paste, fits. destruct (remaining b <=? length x) eqn:R; unfold remaining in R; cbn [b_bad b_out b_cap write resize]; rewrite G, app_length; (split; [|reflexivity]); (split; [|]).
  - apply Nat.ltb_ge. lia.
  - lia.
  - apply Nat.leb_gt in R. apply Nat.ltb_ge. lia.
  - apply Nat.leb_gt in R. lia.
Qed.
Lemma end_fits b : fits b -> b_bad b || (remaining b =? 0) = false.
Proof. intros [G L]. rewrite G. unfold remaining. cbn. apply Nat.eqb_neq. lia. Qed.

(** ** Putting aside *)
Lemma open_unbordered : unbordered (B "{%") = true. Proof. reflexivity. Qed.
Lemma close_unbordered : unbordered (B "%}") = true. Proof. reflexivity. Qed.
Lemma prefix_unbordered : unbordered prefix = true. Proof. vm_compute. reflexivity. Qed.

Lemma hide_on fuel s n tags b : s <> [] -> hide (S fuel) s n tags b =
  match strstr (B "{%") s with
  | None => (tags, paste 1 s b)
  | Some i =>
      match strstr (B "%}") (skipn 2 (skipn i s)) with
      | None => (tags, paste 1 (skipn i s) (paste 64 (firstn i s) b))
      | Some j => hide fuel (skipn (j + 4) (skipn i s)) (S n) (tags ++ [firstn (j + 4) (skipn i s)]) (paste 64 (prefix ++ dec n) (paste 64 (firstn i s) b))
      end
  end.
Proof. destruct s; [congruence|reflexivity]. Qed.
Lemma hide_spec l r : Tagged l r -> forall fuel n tags b, length (tagged l r) < fuel -> fits b -> fst (hide fuel (tagged l r) n tags b) = tags ++ map snd l /\ fits (snd (hide fuel (tagged l r) n tags b)) /\ b_out (snd (hide fuel (tagged l r) n tags b)) = b_out b ++ covered n l r.
Proof.
  intros [F U]. induction F as [|[x g] l [Nx (y & Eg & Ny)] F IH]; intros fuel n tags b Lf G.
  - unfold tagged in *. cbn [map concat app covered] in *. rewrite app_nil_r. destruct r as [|c r]; [destruct fuel; cbn; rewrite app_nil_r; auto|]. destruct fuel as [|fuel]; [lia|]. set (s := c :: r) in *. assert (Z : s <> []) by discriminate. clearbody s. rewrite (hide_on fuel s n tags b Z).
    destruct (strstr (B "{%") s) as [i|] eqn:E.
    + pose proof E as E'. apply strstr_some in E' as (a & w & Q & La & _). subst i. destruct (paste_fits 64 a b (fits_full b G) ltac:(lia)) as [G1 O1]. assert (Q2 : skipn (length a) s = B "{%" ++ w) by (rewrite Q; apply skipn_at). assert (Q3 : firstn (length a) s = a) by (rewrite Q; apply firstn_at). rewrite Q2, Q3.
      replace (skipn 2 (B "{%" ++ w)) with w by reflexivity. destruct (strstr (B "%}") w) as [j|] eqn:E2.
      * exfalso. apply strstr_some in E2 as (a2 & b2 & -> & _). exact (U a a2 b2 Q).
      * cbn [fst snd]. destruct (paste_fits 1 (B "{%" ++ w) _ (fits_full _ G1) ltac:(lia)) as [G2 O2]. split; [reflexivity|]. split; [exact G2|]. rewrite O2, O1, Q, <- app_assoc. reflexivity.
    + cbn [fst snd]. destruct (paste_fits 1 s b (fits_full b G) ltac:(lia)) as [G2 O2]. auto.
  - cbn [fst snd] in *. set (t := tagged l r) in *. assert (Et : tagged ((x, g) :: l) r = x ++ B "{%" ++ y ++ B "%}" ++ t) by (unfold t, tagged; cbn [map concat fst snd]; rewrite Eg, <- !app_assoc; reflexivity). rewrite Et in *. clear Et. clearbody t.
    destruct fuel as [|fuel]; [lia|]. remember (x ++ B "{%" ++ y ++ B "%}" ++ t) as s eqn:Es. assert (Z : s <> []) by (rewrite Es; destruct x; discriminate). rewrite (hide_on fuel s n tags b Z).
    assert (E1 : strstr (B "{%") s = Some (length x)) by (rewrite Es; apply strstr_unbordered; [reflexivity|discriminate|exact Nx]). rewrite E1.
    assert (E2 : skipn (length x) s = B "{%" ++ y ++ B "%}" ++ t) by (rewrite Es; apply skipn_at). assert (E3 : firstn (length x) s = x) by (rewrite Es; apply firstn_at). rewrite E2, E3.
    replace (skipn 2 (B "{%" ++ y ++ B "%}" ++ t)) with (y ++ B "%}" ++ t) by reflexivity. rewrite (strstr_unbordered (B "%}") y t eq_refl ltac:(discriminate) Ny).
    assert (Lg : length y + 4 = length g) by (rewrite Eg; cbn [app B list_ascii_of_string length]; rewrite !app_length; cbn; lia). rewrite Lg.
    assert (E4 : B "{%" ++ y ++ B "%}" ++ t = g ++ t) by (rewrite Eg, <- !app_assoc; reflexivity). rewrite E4, skipn_at, firstn_at.
    destruct (paste_fits 64 x b (fits_full b G) ltac:(lia)) as [G1 O1]. destruct (paste_fits 64 (prefix ++ dec n) _ (fits_full _ G1) ltac:(lia)) as [G2 O2].
    assert (Lt : length t < fuel) by (rewrite Es, !app_length in Lf; cbn [length B list_ascii_of_string] in Lf; lia).
    destruct (IH fuel (S n) (tags ++ [g]) _ Lt G2) as (A & Gf & O). cbn [map snd covered]. rewrite A, O, O2, O1. split; [rewrite <- app_assoc; reflexivity|]. split; [exact Gf|]. unfold name, prefix. rewrite <- !app_assoc. reflexivity.
Qed.

Lemma tagged_total s : exists l r, Tagged l r /\ s = tagged l r.
Proof.
  remember (length s) as n eqn:E. revert s E. induction n as [n IH] using lt_wf_ind. intros s ->.
  destruct (strstr_cut (B "{%") s ltac:(discriminate) eq_refl) as [N|(a & w & -> & Na)].
  - exists [], s. split; [split; [constructor|]|reflexivity]. intros a x b Q. apply N. exists a, (x ++ B "%}" ++ b). exact Q.
  - destruct (strstr_cut (B "%}") w ltac:(discriminate) eq_refl) as [N|(y & t & -> & Ny)].
    + exists [], (a ++ B "{%" ++ w). split; [split; [constructor|]|reflexivity]. intros a' x b Q. apply N. cbn [app B list_ascii_of_string] in Q.
      assert (L : length a <= length a').
      { pose proof (strstr_unbordered (B "{%") a w eq_refl ltac:(discriminate) Na) as S1. pose proof (strstr_first (B "{%") a' (x ++ B "%}" ++ b)) as S2. cbn [app B list_ascii_of_string] in S1, S2. rewrite <- Q, S1 in S2. exact (S2 _ eq_refl). }
      destruct (app_split a' ("{"%char :: "%"%char :: x ++ B "%}" ++ b) a ("{"%char :: "%"%char :: w)) as (e & -> & E2); [symmetry; exact Q|exact L|]. destruct e as [|e1 e].
      * injection E2 as ->. exists x, b. reflexivity.
      * destruct e as [|e2 e]; [injection E2 as _ E2; discriminate E2|]. injection E2 as _ _ E2. rewrite E2. exists (e ++ "{"%char :: "%"%char :: x), b. rewrite <- app_assoc. reflexivity.
    + destruct (IH (length t)) with (s := t) as (l & r & T & ->); [rewrite !app_length; cbn; lia|reflexivity|]. destruct T as [F U]. exists ((a, B "{%" ++ y ++ B "%}") :: l), r. split.
      * split; [constructor; [|exact F]|exact U]. cbn [fst snd]. split; [exact Na|]. exists y. auto.
      * unfold tagged. cbn [map concat fst snd]. rewrite <- !app_assoc. reflexivity.
Qed.

Lemma protect_exact l r : Tagged l r -> protect (tagged l r) = match l with [] => Same | _ => Hidden (covered 0 l r) (map snd l) end.
Proof.
  intro T. unfold protect. destruct (hide_spec l r T (S (length (tagged l r))) 0 [] (Buf (length (tagged l r) + 64) [] false) ltac:(lia)) as (A & G & O); [split; [reflexivity|cbn; lia]|].
  destruct (hide _ _ _ _ _) as [tags b]. cbn [fst snd] in *. rewrite (end_fits b G), A, O. cbn [b_out app]. destruct l; reflexivity.
Qed.

(** No tag is left *)
Lemma no_brace n : ~ In "{"%char (name n).
Proof.
  unfold name. intro I. apply in_app_or in I. destruct I as [I|I]; [repeat (destruct I as [I|I]; [discriminate I|]); destruct I|]. destruct (dec_all_digits n) as [_ D]. rewrite forallb_forall in D. apply D in I. discriminate I.
Qed.
Lemma name_end n : exists q d, name n = q ++ [d] /\ d <> "{"%char.
Proof. destruct (last_cases (name n)) as [E|(q & d & E)]; [discriminate E|]. exists q, d. split; [exact E|]. intros ->. apply (no_brace n). rewrite E. apply in_or_app. cbn. auto. Qed.
Lemma open_behind x n t a w : ~ within (B "{%") x -> x ++ name n ++ t = a ++ B "{%" ++ w -> exists e, t = e ++ B "{%" ++ w.
Proof.
  intros N Q. destruct (Nat.le_gt_cases (length (x ++ name n)) (length a)) as [L|L].
  - destruct (app_split a (B "{%" ++ w) (x ++ name n) t) as (e & _ & E); [rewrite <- app_assoc; now symmetry|exact L|]. now exists e.
  - exfalso. rewrite app_assoc in Q. destruct (app_split (x ++ name n) t a (B "{%" ++ w) Q) as (e & E1 & E2); [lia|]. destruct e as [|e1 e]; [rewrite app_nil_r in E1; rewrite E1 in L; lia|].
    injection E2 as <- E2. destruct (Nat.le_gt_cases (length x) (length a)) as [La|La].
    + destruct (app_split a ("{"%char :: e) x (name n)) as (f & _ & E3); [now symmetry|exact La|]. apply (no_brace n). rewrite E3. apply in_or_app. cbn. auto.
    + destruct (app_split x (name n) a ("{"%char :: e) E1) as (f & E3 & E4); [lia|]. destruct f as [|f1 f]; [rewrite app_nil_r in E3; rewrite E3 in La; lia|]. injection E4 as <- E4. destruct f as [|f2 f].
      * cbn [app] in E4. unfold name in E4. rewrite E4 in E2. cbn in E2. discriminate E2.
      * rewrite E4 in E2. injection E2 as <- _. apply N. exists a, f. exact E3.
Qed.
Lemma covered_untagged l r : Tagged l r -> forall n, untagged (covered n l r).
Proof.
  intros [F U]. induction F as [|[x g] l [N _] F IH]; intro n; [exact U|]. cbn [covered fst] in *. intros a y b Q. destruct (open_behind x n _ a (y ++ B "%}" ++ b) N Q) as (e & E). exact (IH (S n) e y b E).
Qed.

(** ** Putting back *)
Lemma index_value ds : Forall digit ds -> index ds = (value 0 ds mod 2 ^ 64)%Z.
Proof.
  intros _. unfold index. change 0%Z with (0 mod 2 ^ 64)%Z at 1. generalize 0%Z. induction ds as [|c ds IH]; intro v; [reflexivity|]. cbn [fold_left value]. rewrite <- IH. f_equal. unfold digit_val. rewrite (Z.add_mod (v * 10)) by lia. rewrite (Z.add_mod (v mod 2 ^ 64 * 10)) by lia. f_equal. f_equal. rewrite Z.mul_mod_idemp_l by lia. reflexivity.
Qed.
Lemma index_bound ds : (0 <= value 0 ds mod 2 ^ 64 < 2 ^ 64)%Z.
Proof. apply Z.mod_pos_bound. lia. Qed.
Lemma pick (tags : list str) ds : Forall digit ds -> nth_error tags (Z.to_nat (index ds)) = nth_error tags (Z.to_nat (value 0 ds mod 2 ^ 64)).
Proof.
  intro D. now rewrite (index_value ds D).
Qed.

Lemma prefix_front q : strstr prefix (prefix ++ q) = Some 0.
Proof. reflexivity. Qed.

Lemma page_inv tags s o : Page tags s o -> (s = [] /\ o = [])
  \/ (exists ds g r o1, s = prefix ++ ds ++ r /\ o = g ++ o1 /\ number ds /\ no_digit r /\ nth_error tags (Z.to_nat (value 0 ds mod 2 ^ 64)) = Some g /\ Page tags r o1)
  \/ (exists ds r o1, s = prefix ++ ds ++ r /\ o = prefix ++ ds ++ o1 /\ number ds /\ no_digit r /\ nth_error tags (Z.to_nat (value 0 ds mod 2 ^ 64)) = None /\ Page tags r o1)
  \/ (exists c r o1, s = c :: r /\ o = c :: o1 /\ (forall d q, digit d -> c :: r <> prefix ++ d :: q) /\ Page tags r o1).
Proof. destruct 1 as [|ds g r o N D E P|ds r o N D E P|c r o H P]; [left; auto|right; left; exists ds, g, r, o; auto 10|right; right; left; exists ds, r, o; auto 10|right; right; right; exists c, r, o; auto]. Qed.
Lemma page_plain tags s o : Page tags s o -> ~ within prefix s -> o = s.
Proof.
  induction 1 as [|ds g r o N D E P IH|ds r o N D E P IH|c r o H P IH]; intro W; [reflexivity| | |].
  - exfalso. apply W. exists [], (ds ++ r). reflexivity.
  - exfalso. apply W. exists [], (ds ++ r). reflexivity.
  - f_equal. apply IH. intros (a & b & ->). apply W. exists (c :: a), b. reflexivity.
Qed.
Lemma page_skip tags a w : ~ within prefix a -> forall o, Page tags (a ++ prefix ++ w) o -> exists o', o = a ++ o' /\ Page tags (prefix ++ w) o'.
Proof.
  induction a as [|c a IH]; intros N o P; [exists o; auto|].
  assert (S : strstr prefix ((c :: a) ++ prefix ++ w) = Some (length (c :: a))) by (apply strstr_unbordered; [exact prefix_unbordered|discriminate|exact N]).
  assert (N' : ~ within prefix a) by (intros (x & y & ->); apply N; exists (c :: x), y; reflexivity).
  destruct (page_inv _ _ _ P) as [[E _]|[(ds & g & r & o1 & E & _)|[(ds & r & o1 & E & _)|(c1 & r & o1 & E & -> & _ & P')]]].
  - discriminate E.
  - exfalso. rewrite E, prefix_front in S. discriminate S.
  - exfalso. rewrite E, prefix_front in S. discriminate S.
  - injection E as <- <-. destruct (IH N' o1 P') as (o' & -> & P2). exists o'. auto.
Qed.

Lemma span_unique ds r : Forall digit ds -> no_digit r -> span isdigit (ds ++ r) = (ds, r).
Proof.
  intros D N. destruct r as [|c r].
  - rewrite app_nil_r. apply L_Pass.span_all. rewrite Forall_forall in *. intros x I. now apply digit_bool, D.
  - apply span_digits_stop; [now apply digits_bool|]. destruct (isdigit c) eqn:E; [|reflexivity]. apply digit_bool in E. contradiction.
Qed.

Lemma show_on fuel s tags b : s <> [] -> show (S fuel) s tags b =
  match strstr prefix s with
  | None => paste 1 s b
  | Some i =>
      let (ds, p) := span isdigit (skipn 16 (skipn i s)) in
      match ds with
      | [] => show fuel (skipn 1 (skipn i s)) tags (if 0 <? remaining (paste 64 (firstn i s) b) then write (firstn 1 (skipn i s)) (paste 64 (firstn i s) b) else paste 64 (firstn i s) b)
      | _ =>
          match nth_error tags (Z.to_nat (index ds)) with
          | Some g => show fuel p tags (paste 64 g (paste 64 (firstn i s) b))
          | None => show fuel p tags (paste 64 (prefix ++ ds) (paste 64 (firstn i s) b))
          end
      end
  end.
Proof.
  intro Z. destruct s as [|c s]; [congruence|]. cbn [show]. destruct (strstr prefix (c :: s)) as [i|]; [|reflexivity]. destruct (span isdigit _) as [ds p]. destruct ds as [|d ds]; [reflexivity|]. destruct (Z.ltb_spec (index (d :: ds)) (Z.of_nat (length tags))) as [L|L].
  - destruct (nth_error tags _) eqn:E; [reflexivity|]. apply nth_error_None in E. assert (0 <= index (d :: ds))%Z by (unfold index; rewrite <- (rev_involutive (d :: ds)); destruct (rev (d :: ds)) as [|e r]; [cbn; lia|]; cbn [rev]; rewrite fold_left_app; cbn [fold_left]; apply Z.mod_pos_bound; lia). lia.
  - destruct (nth_error tags _) eqn:E; [|reflexivity]. assert (Z.to_nat (index (d :: ds)) < length tags) by (apply nth_error_Some; rewrite E; discriminate). lia.
Qed.
Lemma show_spec fuel : forall tags s o b, length s < fuel -> Page tags s o -> full b -> (s = [] -> fits b) -> fits (show fuel s tags b) /\ b_out (show fuel s tags b) = b_out b ++ o.
Proof.
  induction fuel as [|fuel IH]; intros tags s o b L P G G0; [lia|]. destruct s as [|c0 s0] eqn:Es.
  - inversion P; subst. cbn. rewrite app_nil_r. auto.
  - rewrite <- Es in *. assert (Z : s <> []) by (rewrite Es; discriminate). rewrite (show_on fuel s tags b Z). clear Es c0 s0.
    destruct (strstr_cut prefix s ltac:(discriminate) prefix_unbordered) as [N|(a & w & Q & Na)].
    + rewrite (strstr_absent prefix s ltac:(discriminate) N). rewrite (page_plain tags s o P N). apply paste_fits; [exact G|lia].
    + assert (S1 : strstr prefix s = Some (length a)) by (rewrite Q; apply strstr_unbordered; [exact prefix_unbordered|discriminate|exact Na]). rewrite S1. rewrite Q in P. destruct (page_skip tags a w Na o P) as (o' & -> & P'). rewrite Q, skipn_at, firstn_at.
      destruct (paste_fits 64 a b G ltac:(lia)) as [G1 O1]. replace (skipn 16 (prefix ++ w)) with w by reflexivity. destruct (span isdigit w) as [ds p] eqn:Ew.
      assert (Lw : length s = length a + 16 + length w) by (rewrite Q, !app_length; cbn; lia).
      destruct (page_inv _ _ _ P') as [[X5 _]|[(ds' & g & r & o1 & X5 & -> & X1 & X2 & X3 & X4)|[(ds' & r & o1 & X5 & -> & X1 & X2 & X3 & X4)|(c1 & r & o1 & X5 & -> & X1 & X2)]]]; [discriminate X5| | |].
      * assert (Ed : w = ds' ++ r) by (now apply app_inv_head in X5). rewrite Ed, (span_unique ds' r (proj2 X1) X2) in Ew. injection Ew as <- <-. destruct ds' as [|d ds']; [destruct (proj1 X1 eq_refl)|]. rewrite (pick tags (d :: ds') (proj2 X1)), X3.
        destruct (paste_fits 64 g _ (fits_full _ G1) ltac:(lia)) as [G2 O2]. destruct (IH tags r o1 (paste 64 g (paste 64 a b))) as [G3 O3]; [rewrite Ed, app_length in Lw; cbn [length] in Lw; lia|exact X4|exact (fits_full _ G2)|auto|]. split; [exact G3|]. rewrite O3, O2, O1, <- !app_assoc. reflexivity.
      * assert (Ed : w = ds' ++ r) by (now apply app_inv_head in X5). rewrite Ed, (span_unique ds' r (proj2 X1) X2) in Ew. injection Ew as <- <-. destruct ds' as [|d ds']; [destruct (proj1 X1 eq_refl)|]. rewrite (pick tags (d :: ds') (proj2 X1)), X3.
        destruct (paste_fits 64 (prefix ++ d :: ds') _ (fits_full _ G1) ltac:(lia)) as [G2 O2]. destruct (IH tags r o1 (paste 64 (prefix ++ d :: ds') (paste 64 a b))) as [G3 O3]; [rewrite Ed, app_length in Lw; cbn [length] in Lw; lia|exact X4|exact (fits_full _ G2)|auto|]. split; [exact G3|]. rewrite O3, O2, O1, <- !app_assoc. reflexivity.
      * assert (Ed : ds = []).
        { destruct ds as [|d ds]; [reflexivity|]. exfalso. pose proof (span_app _ _ _ _ Ew) as Q1. pose proof (BaseL.span_all _ _ _ _ Ew) as Q2. cbn [forallb] in Q2. apply andb_true_iff in Q2 as [Q2 _]. apply digit_bool in Q2. apply (X1 d (ds ++ p) Q2). rewrite <- X5, Q1. reflexivity. }
        subst ds. cbn [skipn firstn prefix B list_ascii_of_string app] in *. injection X5 as <- X5. assert (R : 0 <? remaining (paste 64 a b) = true) by (apply Nat.ltb_lt; unfold remaining; destruct G1; lia). rewrite R.
        destruct (IH tags r o1 (write ["A"%char] (paste 64 a b))) as [G3 O3].
        -- rewrite <- X5. cbn [length]. lia.
        -- exact X2.
        -- destruct G1 as [G1 G1']. split; cbn [b_bad b_out b_cap write]; [rewrite G1; apply Nat.ltb_ge; cbn [length]; lia|rewrite app_length; cbn [length]; lia].
        -- rewrite <- X5. discriminate.
        -- rewrite X5. split; [exact G3|]. rewrite O3. cbn [write b_out]. rewrite O1, <- !app_assoc. reflexivity.
Qed.

Lemma page_total tags s : exists o, Page tags s o.
Proof.
  remember (length s) as n eqn:E. revert s E. induction n as [n IH] using lt_wf_ind. intros s ->. destruct s as [|c s]; [exists []; constructor|].
  destruct (starts prefix (c :: s)) eqn:St.
  - apply starts_spec in St as (w & Q). destruct (span isdigit w) as [ds p] eqn:Ew. pose proof (span_app _ _ _ _ Ew) as Q1. pose proof (BaseL.span_all _ _ _ _ Ew) as Q2. apply digits_bool in Q2. destruct ds as [|d ds].
    + destruct (IH (length s)) with (s := s) as (o & P); [cbn; lia|reflexivity|]. exists (c :: o). constructor; [|exact P]. intros d q D E. rewrite Q in E. change (prefix ++ w = prefix ++ d :: q) in E. apply app_inv_head in E. rewrite E in Ew. cbn [span] in Ew. apply digit_bool in D. rewrite D in Ew. destruct (span isdigit q); discriminate.
    + assert (Np : no_digit p) by (destruct p as [|e p]; [exact I|]; cbn [no_digit]; rewrite digit_bool; pose proof (proj1 (proj2 (span_shape isdigit w))) as Sp; rewrite Ew in Sp; rewrite (Sp e p eq_refl); discriminate).
      destruct (IH (length p)) with (s := p) as (o & P); [apply (f_equal (@length ascii)) in Q; rewrite Q1 in Q; cbn [length] in *; rewrite app_length in Q; cbn [length prefix B list_ascii_of_string] in Q; rewrite !app_length in Q; cbn [length] in Q; lia|reflexivity|].
      rewrite Q, Q1. destruct (nth_error tags (Z.to_nat (value 0 (d :: ds) mod 2 ^ 64))) as [g|] eqn:En.
      * exists (g ++ o). apply page_tag; [split; [discriminate|exact Q2]|exact Np|exact En|exact P].
      * exists (prefix ++ (d :: ds) ++ o). apply page_other; [split; [discriminate|exact Q2]|exact Np|exact En|exact P].
  - destruct (IH (length s)) with (s := s) as (o & P); [cbn; lia|reflexivity|]. exists (c :: o). constructor; [|exact P]. intros d q _ E. change (c :: s = prefix ++ d :: q) in E. exact (proj1 (starts_false _ _) St _ E).
Qed.

Lemma restore_exact tags s o : Page tags s o -> restore s tags = Some o.
Proof.
  intro P. unfold restore. destruct (show_spec (S (length s)) tags s o (Buf (Nat.max (length s + length tags * 64) (length s + 1)) [] false) ltac:(lia) P) as [G O]; [split; [reflexivity|cbn; lia]|intros _; split; [reflexivity|cbn; lia]|]. rewrite (end_fits _ G), O. reflexivity.
Qed.

(** ** Pages with names *)
Lemma nameless_tail c x : nameless (c :: x) -> nameless x.
Proof. intros N d D (a & b & ->). apply (N d D). exists (c :: a), b. reflexivity. Qed.
Lemma page_nameless tags x o t : nameless x -> (forall y z, x = y ++ z -> z <> [] -> forall d q, digit d -> z ++ t <> prefix ++ d :: q) -> Page tags t o -> Page tags (x ++ t) (x ++ o).
Proof.
  induction x as [|c x IH]; intros N H P; [exact P|]. cbn [app]. constructor.
  - intros d q D E. exact (H [] (c :: x) eq_refl ltac:(discriminate) d q D E).
  - apply IH; [exact (nameless_tail c x N)|intros y z -> Z; exact (H (c :: y) z eq_refl Z)|exact P].
Qed.
Lemma before_name y z t : nameless (y ++ z) -> z <> [] -> forall d q, digit d -> z ++ prefix ++ t <> prefix ++ d :: q.
Proof.
  intros N Z d q D E. destruct (Nat.le_gt_cases 16 (length z)) as [L|L].
  - destruct (app_split z (prefix ++ t) prefix (d :: q) E L) as (e & -> & E2). destruct e as [|e1 e]; [injection E2 as -> _; destruct D as [D|D]; [discriminate D|]; repeat (destruct D as [D|D]; [discriminate D|]); destruct D|]. injection E2 as <- E2. apply (N d D). exists y, e. unfold prefix. now rewrite <- !app_assoc.
  - assert (Nz : ~ within prefix z) by (intros (a & b & ->); rewrite !app_length in L; cbn in L; lia). pose proof (strstr_unbordered prefix z t prefix_unbordered ltac:(discriminate) Nz) as S. rewrite E, prefix_front in S. destruct z; [congruence|discriminate S].
Qed.
Lemma number_dec n : number (dec n).
Proof. destruct (dec_all_digits n) as [A D]. split; [exact A|now apply digits_bool]. Qed.
Lemma value_fold ds v : value v ds = fold_left (fun v c => (v * 10 + digit_val c)%Z) ds v.
Proof. revert v. induction ds as [|c ds IH]; intro v; [reflexivity|]. cbn [value fold_left]. apply IH. Qed.
Lemma value_dec n : value 0 (dec n) = Z.of_nat n.
Proof. rewrite value_fold. exact (dec_value n). Qed.

Lemma page_rest tags r : nameless r -> Page tags r r.
Proof.
  intro N. rewrite <- (app_nil_r r). apply page_nameless; [exact N| |constructor]. intros y z -> Z d q D E. rewrite app_nil_r in E. apply (N d D). exists y, q. rewrite E. unfold prefix. now rewrite <- !app_assoc.
Qed.
Lemma no_digit_app x t : no_digit x -> (x = [] -> no_digit t) -> no_digit (x ++ t).
Proof. destruct x; [intros _ H; exact (H eq_refl)|auto]. Qed.
Lemma page_named tags l r : (Z.of_nat (length tags) <= 2 ^ 64)%Z -> Forall (fun p => nameless (fst p) /\ snd p < length tags) l -> nameless r -> match l with [] => True | _ :: l => clear l r end -> Page tags (named l r) (filled tags l r).
Proof.
  intros Lt F N C. induction F as [|[x k] l [Nx Lk] F IH]; [exact (page_rest tags r N)|]. cbn [named filled fst snd] in *. apply page_nameless.
  - exact Nx.
  - intros y z -> Z d q D. unfold name. change (B "APEX_LIQUID_TAG_") with prefix. rewrite <- app_assoc. exact (before_name y z _ Nx Z d q D).
  - unfold name. rewrite <- app_assoc. apply page_tag.
    + apply number_dec.
    + destruct l as [|[x' k'] l]; [exact C|]. cbn [named clear] in *. apply no_digit_app; [exact (proj1 C)|]. intros _ D. repeat (destruct D as [D|D]; [discriminate D|]). destruct D.
    + rewrite value_dec, Z.mod_small by lia. rewrite Nat2Z.id. apply nth_error_nth'. exact Lk.
    + apply IH. destruct l as [|[x' k'] l]; [exact I|]. exact (proj2 C).
Qed.
Lemma covered_named l r : forall n, covered n l r = named (combine (map fst l) (seq n (length l))) r.
Proof. induction l as [|[x g] l IH]; intro n; [reflexivity|]. cbn [covered map fst length seq combine named]. now rewrite IH. Qed.
Lemma filled_tagged l r pre : filled (pre ++ map snd l) (combine (map fst l) (seq (length pre) (length l))) r = tagged l r.
Proof.
  revert pre. induction l as [|[x g] l IH]; intro pre; [reflexivity|]. cbn [map fst snd length seq combine filled]. unfold tagged. cbn [map concat fst snd]. rewrite app_nth2, Nat.sub_diag by lia. cbn [nth]. rewrite <- !app_assoc. f_equal. f_equal. specialize (IH (pre ++ [g])). rewrite app_length, Nat.add_1_r, <- app_assoc in IH. exact IH.
Qed.
