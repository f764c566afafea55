(** Lemmas for M_Embed: pages with one image. *)
From Verif Require Import Base BaseL L_Pass M_Attr M_Encode L_Encode S_Encode M_Relax M_Spans M_Embed S_Embed L_Embed.

Lemma first_gt (f g : str) : ~ In ">"%char f -> strchr ">" (f ++ ">"%char :: g) = Some (length f).
Proof. intro N. apply strchr_some. exists f, g. auto. Qed.
Lemma src_pos (a b : str) (q : ascii) : quote q -> ~ within (B "src=" ++ [q]) a -> strstr (B "src=" ++ [q]) (a ++ (B "src=" ++ [q]) ++ b) = Some (length a).
Proof. intros Q N. apply strstr_unbordered; [destruct Q as [-> | ->]; reflexivity|destruct Q as [-> | ->]; discriminate|exact N]. Qed.

Definition front (x : str) (q : ascii) (u y : str) : str := (B "<img" ++ x) ++ (B "src=" ++ [q]) ++ u ++ q :: y.
Lemma img_front x q u y t : img x q u y ++ t = front x q u y ++ ">"%char :: t.
Proof. unfold img, front. repeat (rewrite <- app_assoc; cbn [app B list_ascii_of_string]). reflexivity. Qed.
Lemma img_len x q u y : length (img x q u y) = length (front x q u y) + 1.
Proof. unfold img, front. len. Qed.
Lemma front_gt x q u y : quote q -> ~ In ">"%char (x ++ u ++ y) -> ~ In ">"%char (front x q u y).
Proof.
  intros Q N I. unfold front in I. rewrite !in_app_iff in I. cbn in I. apply N. rewrite !in_app_iff. destruct Q as [-> | ->]; repeat (destruct I as [I|I]; try discriminate I; try tauto).
Qed.

Lemma source_at x q u y t : first_src x u q y -> source (img x q u y ++ t) (length (front x q u y)) = Some (length (B "<img" ++ x), length u).
Proof.
  intros (Q & N & Nq & Nx & Ns). unfold source. set (s := img x q u y ++ t). set (e := length (front x q u y)).
  assert (Es : s = (B "<img" ++ x) ++ (B "src=" ++ [q]) ++ (u ++ q :: y ++ ">"%char :: t)) by (unfold s, img; repeat (rewrite <- app_assoc; cbn [app B list_ascii_of_string]); reflexivity).
  assert (Le : e = length (B "<img" ++ x) + 5 + length u + 1 + length y) by (unfold e, front; len).
  assert (K : match strstr (B "src=" ++ [DQ]) s with Some k => if e <? k then strstr (B "src='") s else Some k | None => strstr (B "src='") s end = Some (length (B "<img" ++ x))).
  { destruct Q as [-> | ->].
    - rewrite Es, (src_pos (B "<img" ++ x) _ DQ); [|now left|apply Nx; now left]. rewrite <- Es. replace (e <? length (B "<img" ++ x)) with false by (symmetry; apply Nat.ltb_ge; lia). reflexivity.
    - assert (P : strstr (B "src='") s = Some (length (B "<img" ++ x))) by (rewrite Es; apply (src_pos (B "<img" ++ x) _ SQ); [now right|apply Nx; now right]). destruct (strstr (B "src=" ++ [DQ]) s) as [k1|] eqn:E1; [|exact P]. replace (e <? k1) with true; [exact P|]. symmetry. apply Nat.ltb_lt. apply strstr_at in E1 as (a & b & E1 & L1). destruct (Nat.lt_ge_cases e k1) as [C|C]; [exact C|]. exfalso.
      specialize (Ns eq_refl). unfold s in E1. rewrite img_front in E1. destruct (app_split (front x SQ u y) (">"%char :: t) a ((B "src=" ++ [DQ]) ++ b)) as (z & Z1 & Z2); [exact E1|fold e; lia|].
      destruct (Nat.le_gt_cases 5 (length z)) as [L|L].
      + destruct (app_split z (">"%char :: t) (B "src=" ++ [DQ]) b) as (w & W1 & _); [now symmetry|exact L|]. apply Ns. rewrite <- (app_nil_r (img x SQ u y)), img_front, Z1, W1. exists a, (w ++ [">"%char]). repeat (rewrite <- app_assoc; cbn [app B list_ascii_of_string]). reflexivity.
      + destruct z as [|z1 [|z2 [|z3 [|z4 [|z5 z]]]]]; cbn in L; try lia; injection Z2 as; discriminate. }
  rewrite K. replace (length (B "<img" ++ x) <? e) with true by (symmetry; apply Nat.ltb_lt; lia).
  replace (at_ s (length (B "<img" ++ x) + 4)) with q by (rewrite Es; unfold at_; rewrite app_nth2 by lia; replace (length (B "<img" ++ x) + 4 - length (B "<img" ++ x)) with 4 by lia; reflexivity). replace (if ceq q DQ then DQ else SQ) with q by (destruct Q as [-> | ->]; reflexivity).
  replace (skipn (length (B "<img" ++ x) + 5) s) with (u ++ q :: y ++ ">"%char :: t). 2:{ rewrite Es, app_assoc. replace (length (B "<img" ++ x) + 5) with (length ((B "<img" ++ x) ++ B "src=" ++ [q])) by len. now rewrite skipn_len. }
  replace (strchr q (u ++ q :: y ++ ">"%char :: t)) with (Some (length u)) by (symmetry; apply strchr_some; exists u, (y ++ ">"%char :: t); auto). replace (length (B "<img" ++ x) + 5 + length u <? e) with true by (symmetry; apply Nat.ltb_lt; lia). reflexivity.
Qed.

Lemma turn_at fs base x q u y t : first_src x u q y -> turn fs base (img x q u y ++ t) = match data_url fs base u with Some d => Piece (length (img x q u y)) (img x DQ d y) (length (img x DQ d y) + 1) | None => Piece (length (img x q u y)) (img x q u y) (length (img x q u y)) end.
Proof.
  intro F. pose proof (source_at x q u y t F) as So. destruct F as (Q & N & Nq & _). set (s := img x q u y ++ t) in *.
  assert (St : starts (B "<img") s = true) by (apply starts_spec; eexists; unfold s, img; rewrite <- app_assoc; reflexivity). assert (Se : strchr ">" s = Some (length (front x q u y))) by (unfold s; rewrite img_front; apply first_gt; now apply front_gt).
  unfold turn. rewrite St, Se, So. rewrite <- img_len.
  assert (Es : s = ((B "<img" ++ x) ++ (B "src=" ++ [q])) ++ u ++ q :: y ++ ">"%char :: t) by (unfold s, img; repeat (rewrite <- app_assoc; cbn [app B list_ascii_of_string]); reflexivity).
  replace (firstn (length u) (skipn (length (B "<img" ++ x) + 5) s)) with u. 2:{ rewrite Es. replace (length (B "<img" ++ x) + 5) with (length ((B "<img" ++ x) ++ B "src=" ++ [q])) by len. now rewrite skipn_len, firstn_len. }
  destruct (data_url fs base u) as [d|]; [|unfold s; now rewrite firstn_len].
  replace (firstn (length (B "<img" ++ x)) s) with (B "<img" ++ x) by (rewrite Es, <- app_assoc; now rewrite firstn_len).
  assert (La : length (front x q u y) - (length (B "<img" ++ x) + 5 + length u) = length (y ++ B ">")) by (unfold front; len). rewrite La.
  replace (skipn (length (B "<img" ++ x) + 5 + length u + 1) s) with ((y ++ B ">") ++ t). 2:{ rewrite Es. replace (((B "<img" ++ x) ++ B "src=" ++ [q]) ++ u ++ q :: y ++ ">"%char :: t) with ((((B "<img" ++ x) ++ B "src=" ++ [q]) ++ u ++ [q]) ++ (y ++ B ">") ++ t) by (repeat (rewrite <- app_assoc; cbn [app B list_ascii_of_string]); reflexivity). replace (length (B "<img" ++ x) + 5 + length u + 1) with (length (((B "<img" ++ x) ++ B "src=" ++ [q]) ++ u ++ [q])) by len. now rewrite skipn_len. }
  rewrite firstn_len. f_equal. unfold img. len.
Qed.

Lemma go_piece fuel fs base s b n o need : s <> [] -> turn fs base s = Piece n o need -> go (S fuel) fs base s b = go fuel fs base (skipn n s) (write o (room need b)).
Proof. intros N T. destruct s as [|c r]; [now destruct N|]. cbn [go]. now rewrite T. Qed.

(** One piece between two texts without images *)
Lemma page_one fs base a g o need t : ~ within (B "<img") a -> ~ within (B "<img") t -> (exists r, g = B "<img" ++ r) -> turn fs base (g ++ t) = Piece (length g) o need -> length o <= need <= length o + 1 ->
  let cap := length (a ++ g ++ t) * 3 + 1024 in
  embed fs base (a ++ g ++ t) = if (length a + need <=? cap) && (cap <=? length a + length o + length t) then None else Some (a ++ o ++ t).
Proof.
  intros Na Nt (r & Eg) T Hn cap. unfold embed. fold cap. cbv zeta. assert (Lg : 4 <= length g) by (rewrite Eg; len). assert (Lc : length a + length g + length t <= cap /\ 1024 <= cap /\ 3 * (length a + length g + length t) + 1024 = cap) by (unfold cap; rewrite !app_length; lia).
  assert (G : go (S (length (a ++ g ++ t))) fs base (a ++ g ++ t) (Buf cap [] false) = go (length t + length g) fs base (t ++ []) (write o (room need (Buf cap a false)))).
  { replace (S (length (a ++ g ++ t))) with (length a + S (length t + length g)) by (rewrite !app_length; lia). rewrite go_text; [|exact Na|right; exists (r ++ t); rewrite Eg, <- app_assoc; reflexivity|cbn; lia]. cbn [b_cap b_out b_bad app]. unfold remaining. cbn [b_cap b_out length]. rewrite Nat.sub_0_r, firstn_all2 by lia.
    rewrite (go_piece _ fs base (g ++ t) _ (length g) o need); [|rewrite Eg; discriminate|exact T]. now rewrite skipn_len, app_nil_r. }
  rewrite G. clear G. assert (E0 : forall b, go (length g) fs base [] b = b) by (intro b; destruct (length g); reflexivity). destruct (cap - length a <? need) eqn:C.
  - assert (R : go (length t + length g) fs base (t ++ []) (write o (room need (Buf cap a false))) = Buf ((length a + need + 1) * 2) ((a ++ o) ++ t) false).
    { unfold room. change (remaining (Buf cap a false)) with (cap - length a). rewrite C. apply Nat.ltb_lt in C. unfold resize, write. cbn [b_cap b_out b_bad orb]. replace ((length a + need + 1) * 2 <? length a + length o) with false by (symmetry; apply Nat.ltb_ge; lia). rewrite go_text; [|exact Nt|now left|cbn [b_cap b_out]; rewrite app_length; lia]. rewrite E0. unfold remaining. cbn [b_cap b_out b_bad]. rewrite app_length, (firstn_all2 t) by lia. reflexivity. }
    rewrite R. unfold remaining. cbn [b_cap b_out b_bad orb]. apply Nat.ltb_lt in C. rewrite !app_length. replace ((length a + need + 1) * 2 - (length a + length o + length t) =? 0) with false by (symmetry; apply Nat.eqb_neq; lia). replace (length a + need <=? cap) with false by (symmetry; apply Nat.leb_gt; lia). cbn [andb]. now rewrite <- app_assoc.
  - set (n := cap - (length a + length o)). assert (R : go (length t + length g) fs base (t ++ []) (write o (room need (Buf cap a false))) = Buf cap ((a ++ o) ++ firstn n t) false).
    { unfold room. change (remaining (Buf cap a false)) with (cap - length a). rewrite C. apply Nat.ltb_ge in C. unfold write. cbn [b_cap b_out b_bad orb]. replace (cap <? length a + length o) with false by (symmetry; apply Nat.ltb_ge; lia). rewrite go_text; [|exact Nt|now left|cbn [b_cap b_out]; rewrite app_length; lia]. rewrite E0. unfold remaining. cbn [b_cap b_out b_bad]. now rewrite app_length. }
    rewrite R. unfold remaining. cbn [b_cap b_out b_bad orb]. apply Nat.ltb_ge in C. replace (length a + need <=? cap) with true by (symmetry; apply Nat.leb_le; lia). cbn [andb orb]. rewrite !app_length. destruct (cap <=? length a + length o + length t) eqn:C2.
    + apply Nat.leb_le in C2. rewrite firstn_length_le by (unfold n; lia). replace (cap - (length a + length o + n) =? 0) with true by (symmetry; apply Nat.eqb_eq; unfold n; lia). reflexivity.
    + apply Nat.leb_gt in C2. rewrite firstn_all2 by (unfold n; lia). replace (cap - (length a + length o + length t) =? 0) with false by (symmetry; apply Nat.eqb_neq; lia). now rewrite <- app_assoc.
Qed.
(** Nothing to replace *)
Lemma page_same fs base a g t : ~ within (B "<img") a -> ~ within (B "<img") t -> (exists r, g = B "<img" ++ r) -> turn fs base (g ++ t) = Piece (length g) g (length g) -> embed fs base (a ++ g ++ t) = Some (a ++ g ++ t).
Proof.
  intros Na Nt E T. rewrite (page_one fs base a g g (length g) t Na Nt E T) by lia. replace (length (a ++ g ++ t) * 3 + 1024 <=? length a + length g + length t) with false by (symmetry; apply Nat.leb_gt; rewrite !app_length; lia). now rewrite andb_false_r.
Qed.
