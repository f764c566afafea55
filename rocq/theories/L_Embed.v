(** Lemmas for M_Embed. *)
From Verif Require Import Base BaseL L_Pass M_Attr M_Encode L_Encode S_Encode M_Relax M_Spans M_Embed S_Embed.

(** ** Turns *)
Ltac len := repeat (progress (rewrite ?app_length; cbn [length app B list_ascii_of_string])); lia.
Lemma firstn_len (a b : str) : firstn (length a) (a ++ b) = a.
Proof. rewrite firstn_app, firstn_all, Nat.sub_diag. cbn. apply app_nil_r. Qed.
Lemma skipn_len (a b : str) : skipn (length a) (a ++ b) = b.
Proof. rewrite skipn_app, skipn_all, Nat.sub_diag. reflexivity. Qed.
Lemma strstr_at lit s k : strstr lit s = Some k -> exists a b, s = a ++ lit ++ b /\ length a = k.
Proof. intro H. apply strstr_some in H as (a & b & E & L & _). exists a, b. auto. Qed.

Lemma source_shape s e k j : starts (B "<img") s = true -> strchr ">" s = Some e -> source s e = Some (k, j) ->
  exists x q u y t, quote q /\ ~ In ">"%char (x ++ u ++ y) /\ ~ In q u /\ s = img x q u y ++ t /\ firstn k s = B "<img" ++ x /\ firstn j (skipn (k + 5) s) = u /\ e + 1 = length (img x q u y) /\ e - (k + 5 + j) = length (y ++ B ">") /\ firstn (e - (k + 5 + j)) (skipn (k + 5 + j + 1) s) = y ++ B ">" /\ k = length (B "<img" ++ x).
Proof.
  intros St Se So. apply strchr_some in Se as (f & g & E & Lf & Nf).
  assert (K : exists q, quote q /\ (exists a b, s = a ++ (B "src=" ++ [q]) ++ b /\ length a = k) /\ k < e /\ strchr q (skipn (k + 5) s) = Some j /\ k + 5 + j < e).
  { unfold source in So. set (o := match strstr (B "src=" ++ [DQ]) s with Some k0 => _ | None => _ end) in So.
    assert (O : forall k0, o = Some k0 -> exists q, quote q /\ exists a b, s = a ++ (B "src=" ++ [q]) ++ b /\ length a = k0). { unfold o. intros k0 H. destruct (strstr (B "src=" ++ [DQ]) s) as [k1|] eqn:E1; [destruct (e <? k1)|]; [|injection H as <-; exists DQ; split; [now left|exact (strstr_at _ _ _ E1)]|]; (exists SQ; split; [now right|exact (strstr_at _ _ _ H)]). }
    destruct o as [k0|]; [|discriminate So]. destruct (O k0 eq_refl) as (q & Hq & a & b & Es & La). destruct (k0 <? e) eqn:C1; [|discriminate So]. apply Nat.ltb_lt in C1.
    assert (Aq : at_ s (k0 + 4) = q). { rewrite Es, <- La. unfold at_. rewrite app_nth2 by lia. replace (length a + 4 - length a) with 4 by lia. reflexivity. }
    rewrite Aq in So. replace (if ceq q DQ then DQ else SQ) with q in So by (destruct Hq as [-> | ->]; reflexivity). destruct (strchr q (skipn (k0 + 5) s)) as [j0|] eqn:C2; [|discriminate So]. destruct (k0 + 5 + j0 <? e) eqn:C3; [|discriminate So]. apply Nat.ltb_lt in C3. injection So as <- <-. exists q. split; [exact Hq|]. split; [exists a, b; auto|]. auto. }
  destruct K as (q & Hq & (a & b & Es & La) & L1 & C2 & L3). apply starts_spec in St as (s' & Es').
  assert (Ka : exists x, a = B "<img" ++ x). { destruct (Nat.le_gt_cases 4 (length a)) as [L|L]; [destruct (app_split a ((B "src=" ++ [q]) ++ b) (B "<img") s') as (x & -> & _); [now rewrite <- Es, <- Es'|exact L|now exists x]|]. exfalso. rewrite Es in Es'. destruct a as [|a1 [|a2 [|a3 [|a4 a]]]]; cbn in L; try lia; injection Es' as; discriminate. }
  destruct Ka as (x & ->). assert (Sk : skipn (k + 5) s = b). { rewrite Es, <- La. replace ((B "<img" ++ x) ++ (B "src=" ++ [q]) ++ b) with (((B "<img" ++ x) ++ B "src=" ++ [q]) ++ b) by (now rewrite <- !app_assoc). replace (length (B "<img" ++ x) + 5) with (length ((B "<img" ++ x) ++ B "src=" ++ [q])) by len. apply skipn_len. }
  rewrite Sk in *. apply strchr_some in C2 as (u & v & -> & Lu & Nu).
  assert (Ee : exists y t, v = y ++ ">"%char :: t /\ f = (B "<img" ++ x) ++ (B "src=" ++ [q]) ++ u ++ q :: y). { rewrite E in Es. destruct (app_split f (">"%char :: g) ((B "<img" ++ x) ++ (B "src=" ++ [q]) ++ u ++ [q]) v) as (y & Qf & Qv); [rewrite Es, <- !app_assoc; reflexivity|rewrite Lf; rewrite <- Lu, <- La in L3; rewrite !app_length in *; cbn in *; lia|]. exists y, g. split; [exact Qv|]. rewrite Qf, <- !app_assoc. reflexivity. }
  destruct Ee as (y & t & -> & Qf). exists x, q, u, y, t. assert (Es2 : s = img x q u y ++ t) by (rewrite Es; unfold img; repeat (rewrite <- app_assoc; cbn [app B list_ascii_of_string]); reflexivity).
  assert (Le : e = length (B "<img" ++ x) + 5 + length u + 1 + length y) by (rewrite <- Lf, Qf; len).
  split; [exact Hq|]. split; [intro I; apply Nf; rewrite Qf; rewrite !in_app_iff in *; cbn; tauto|]. split; [exact Nu|]. split; [exact Es2|]. split; [rewrite Es, <- La; apply firstn_len|]. split; [rewrite <- Lu; apply firstn_len|]. split; [unfold img; rewrite Le; len|].
  assert (La' : e - (k + 5 + j) = length (y ++ B ">")) by (rewrite <- La, <- Lu, Le; len). split; [exact La'|]. split; [|now rewrite La].
  replace (skipn (k + 5 + j + 1) s) with ((y ++ B ">") ++ t); [rewrite La'; apply firstn_len|]. rewrite <- La, <- Lu, Es. replace ((B "<img" ++ x) ++ (B "src=" ++ [q]) ++ u ++ q :: y ++ ">"%char :: t) with (((B "<img" ++ x) ++ (B "src=" ++ [q]) ++ u ++ [q]) ++ (y ++ B ">") ++ t) by (repeat (rewrite <- app_assoc; cbn [app B list_ascii_of_string]); reflexivity).
  replace (length (B "<img" ++ x) + 5 + length u + 1) with (length ((B "<img" ++ x) ++ (B "src=" ++ [q]) ++ u ++ [q])) by len. now rewrite skipn_len.
Qed.

Lemma remote_bool u : starts (B "data:") u || (starts (B "http://") u || starts (B "https://") u || starts (B "//") u) = true <-> remote u.
Proof.
  rewrite !orb_true_iff, !starts_spec. split.
  - intros [(r & ->)|[[(r & ->)|(r & ->)]|(r & ->)]]; eexists; exists r; (split; [|reflexivity]); cbn; auto.
  - intros (p & r & I & ->). destruct I as [<-|[<-|[<-|[<-|[]]]]]; eauto.
Qed.
Lemma resolve_place base u : place base u (resolve u base).
Proof.
  unfold resolve, place. destruct (ceq (at_ u 0) "/") eqn:E.
  - left. apply ceq_eq in E. destruct u as [|c u]; [discriminate E|]. cbn in E. subst. split; [now exists u|reflexivity].
  - right. split; [intros (r & ->); discriminate E|]. destruct base as [[|d0 d]|]; [left; auto|right|left; auto]. exists (d0 :: d). repeat split. discriminate.
Qed.
Lemma data_found fs base u d : data_url fs base u = Some d -> found fs base u d.
Proof.
  unfold data_url. destruct (starts (B "data:") u || _) eqn:R; [discriminate|]. intro H. split; [intro K; apply remote_bool in K; rewrite K in R; discriminate R|]. unfold encoded in H. destruct (fs (resolve u base)) as [c|] eqn:F; [|discriminate H]. exists (resolve u base), c. split; [apply resolve_place|]. split; [exact F|].
  destruct (_ <? _)%N; [discriminate H|]. destruct (base64_encode c) as [e|] eqn:E; [|discriminate H]. injection H as <-. destruct (encode_shape c e E) as (L & _ & _ & k & D). exists (mime (resolve u base)), e, k. auto.
Qed.

(** ** What the pass would write with room enough *)
Fixpoint ideal (fuel : nat) (fs : files) (base : option str) (s : str) : str :=
  match s, fuel with
  | c :: r, S fuel => match turn fs base s with Byte => c :: ideal fuel fs base r | Piece n o _ => o ++ ideal fuel fs base (skipn n s) end
  | _, _ => []
  end.

(** What a turn can be *)
Inductive Turn (fs : files) (base : option str) (s : str) : Prop :=
| turn_byte : turn fs base s = Byte -> Turn fs base s
| turn_plain g t : s = g ++ t -> g <> [] -> turn fs base s = Piece (length g) g (length g) -> Turn fs base s
| turn_img x q u y d t : quote q -> ~ In ">"%char (x ++ u ++ y) -> ~ In q u -> s = img x q u y ++ t -> data_url fs base u = Some d -> turn fs base s = Piece (length (img x q u y)) (img x DQ d y) (length (img x DQ d y) + 1) -> Turn fs base s.
Lemma turn_cases fs base s : Turn fs base s.
Proof.
  destruct (starts (B "<img") s) eqn:St; [|apply turn_byte; unfold turn; now rewrite St]. destruct (strchr ">" s) as [e|] eqn:Se; [|apply turn_byte; unfold turn; now rewrite St, Se].
  assert (P : turn fs base s = Piece (e + 1) (firstn (e + 1) s) (e + 1) -> Turn fs base s). { intro T. pose proof Se as Se'. apply strchr_some in Se' as (f & g & E & L & _). replace (e + 1) with (length (f ++ B ">")) in T by (rewrite app_length; cbn; lia). replace s with ((f ++ B ">") ++ g) in T at 2 by (rewrite E, <- app_assoc; reflexivity). rewrite firstn_len in T. apply (turn_plain fs base s (f ++ B ">") g); [rewrite E, <- app_assoc; reflexivity|now destruct f|exact T]. }
  destruct (source s e) as [[k j]|] eqn:So; [|apply P; unfold turn; now rewrite St, Se, So]. destruct (data_url fs base (firstn j (skipn (k + 5) s))) as [d|] eqn:D; [|apply P; unfold turn; now rewrite St, Se, So, D].
  assert (T : turn fs base s = Piece (e + 1) (firstn k s ++ B "src=" ++ [DQ] ++ d ++ [DQ] ++ firstn (e - (k + 5 + j)) (skipn (k + 5 + j + 1) s)) (k + 5 + length d + 1 + (e - (k + 5 + j)) + 1)) by (unfold turn; rewrite St, Se, So, D; reflexivity).
  destruct (source_shape s e k j St Se So) as (x & q & u & y & t & Hq & N & Nq & Es & F1 & F2 & F3 & F4 & F5 & F6). rewrite F2 in D. apply (turn_img fs base s x q u y d t Hq N Nq Es D). rewrite T, F3, F1, F5. f_equal. rewrite F4, F6. unfold img. len.
Qed.

Lemma img_nonempty x q u y : 1 <= length (img x q u y).
Proof. unfold img. cbn. lia. Qed.
Lemma ideal_embedded fuel fs base : forall s, length s < fuel -> Embedded fs base s (ideal fuel fs base s).
Proof.
  assert (Pre : forall g s o, Embedded fs base s o -> Embedded fs base (g ++ s) (g ++ o)) by (intros g s o H; induction g as [|c g IH]; [exact H|]; now apply embedded_byte).
  induction fuel as [|fuel IH]; intros s L; [lia|]. destruct s as [|c r]; [constructor|]. cbn [ideal]. destruct (turn_cases fs base (c :: r)) as [T|g t E N T|x q u y d t Hq N Nq E D T]; rewrite T.
  - apply embedded_byte. apply IH. cbn in L. lia.
  - rewrite E, skipn_len. apply Pre. apply IH. rewrite E, app_length in L. destruct g; [now destruct N|cbn in L; lia].
  - rewrite E, skipn_len. apply embedded_img; [exact Hq|exact N|exact (data_found fs base u d D)|]. apply IH. rewrite E, app_length in L. pose proof (img_nonempty x q u y). lia.
Qed.

Lemma go_fits fuel fs base : forall s b, length s < fuel -> length (b_out b) + length (ideal fuel fs base s) < b_cap b -> go fuel fs base s b = Buf (b_cap b) (b_out b ++ ideal fuel fs base s) (b_bad b).
Proof.
  induction fuel as [|fuel IH]; intros s b L R; [lia|]. destruct s as [|c r]; [cbn [go ideal]; rewrite app_nil_r; now destruct b|]. cbn [go ideal] in *. destruct b as [cap out bad]. cbn [b_cap b_out b_bad] in *.
  assert (W : forall x, length out + length x <= cap -> write x (Buf cap out bad) = Buf cap (out ++ x) bad) by (intros x H; unfold write; cbn [b_cap b_out b_bad]; replace (cap <? length out + length x) with false by (symmetry; apply Nat.ltb_ge; exact H); now rewrite orb_false_r).
  destruct (turn_cases fs base (c :: r)) as [T|g t E N T|x q u y d t Hq N Nq E D T]; rewrite T in *.
  - unfold put1, remaining. cbn [b_cap b_out length] in *. replace (0 <? cap - length out) with true by (symmetry; apply Nat.ltb_lt; lia). rewrite W by (cbn; lia). rewrite IH; cbn [b_cap b_out b_bad]; [rewrite <- app_assoc; reflexivity|lia|rewrite app_length; cbn; lia].
  - rewrite E, skipn_len in *. rewrite app_length in R. unfold room, remaining. cbn [b_cap b_out]. replace (cap - length out <? length g) with false by (symmetry; apply Nat.ltb_ge; lia). rewrite W by lia. rewrite IH; cbn [b_cap b_out b_bad]; [rewrite <- app_assoc; reflexivity|rewrite app_length in L; destruct g; [now destruct N|cbn in L; lia]|rewrite app_length; lia].
  - rewrite E, skipn_len in *. rewrite app_length in R. unfold room, remaining. cbn [b_cap b_out]. replace (cap - length out <? length (img x DQ d y) + 1) with false by (symmetry; apply Nat.ltb_ge; lia). rewrite W by lia. rewrite IH; cbn [b_cap b_out b_bad]; [rewrite <- app_assoc; reflexivity|rewrite app_length in L; pose proof (img_nonempty x q u y); lia|rewrite app_length; lia].
Qed.
Lemma embed_fits fs base html : length (ideal (S (length html)) fs base html) < length html * 3 + 1024 -> embed fs base html = Some (ideal (S (length html)) fs base html).
Proof.
  intro H. unfold embed. rewrite go_fits; [|lia|exact H]. cbn [b_cap b_out b_bad app]. unfold remaining. cbn [b_cap b_out]. replace (length html * 3 + 1024 - length (ideal (S (length html)) fs base html) =? 0) with false by (symmetry; apply Nat.eqb_neq; lia). reflexivity.
Qed.
Lemma ideal_same fuel fs base : (forall u, data_url fs base u = None) -> forall s, length s < fuel -> ideal fuel fs base s = s.
Proof.
  intro F. induction fuel as [|fuel IH]; intros s L; [lia|]. destruct s as [|c r]; [reflexivity|]. cbn [ideal]. destruct (turn_cases fs base (c :: r)) as [T|g t E N T|x q u y d t Hq N Nq E D T]; rewrite T.
  - f_equal. apply IH. cbn in L. lia.
  - rewrite E, skipn_len. f_equal. apply IH. rewrite E, app_length in L. destruct g; [now destruct N|cbn in L; lia].
  - rewrite F in D. discriminate D.
Qed.

(** ** Text without images *)
Lemma starts_img_false s : (forall t, s <> B "<img" ++ t) -> starts (B "<img") s = false.
Proof. intro N. destruct (starts (B "<img") s) eqn:E; [|reflexivity]. apply starts_spec in E as (t & E). destruct (N t E). Qed.
Lemma go_byte fuel fs base c r b : starts (B "<img") (c :: r) = false -> go (S fuel) fs base (c :: r) b = go fuel fs base r (put1 c b).
Proof. intro H. cbn [go]. unfold turn. rewrite H. reflexivity. Qed.
Lemma within_tail m c s : ~ within m (c :: s) -> ~ within m s.
Proof. intros N (a & b & ->). apply N. exists (c :: a), b. reflexivity. Qed.
(** Before an image, or before the end *)
Lemma go_text fs base a : ~ within (B "<img") a -> forall z fuel b, z = [] \/ (exists t, z = B "<img" ++ t) -> length (b_out b) <= b_cap b -> go (length a + fuel) fs base (a ++ z) b = go fuel fs base z (Buf (b_cap b) (b_out b ++ firstn (remaining b) a) (b_bad b)).
Proof.
  induction a as [|c a IH]; intros N z fuel b Z R; [cbn [app length plus]; rewrite firstn_nil, app_nil_r; now destruct b|]. cbn [app length plus]. rewrite go_byte.
  2:{ apply starts_img_false. intros t E. assert (E2 : (c :: a) ++ z = B "<img" ++ t) by exact E. destruct (Nat.le_gt_cases 4 (length (c :: a))) as [L|L].
      - destruct (app_split (c :: a) z (B "<img") t E2 L) as (e & Q & _). apply N. exists [], e. exact Q.
      - destruct Z as [->|(t' & ->)]; [rewrite app_nil_r in E2; apply (f_equal (@length ascii)) in E2; rewrite app_length in E2; cbn in E2, L; lia|]. destruct a as [|a1 [|a2 [|a3 a]]]; cbn in L; try lia; injection E as; discriminate. }
  assert (K : put1 c b = Buf (b_cap b) (b_out b ++ firstn (remaining b) [c]) (b_bad b)). { unfold put1. destruct (0 <? remaining b) eqn:E; [apply Nat.ltb_lt in E; unfold write; destruct (remaining b) eqn:Er; [lia|]; cbn [firstn]; unfold remaining in Er; rewrite firstn_nil; replace (b_cap b <? length (b_out b) + length [c]) with false by (symmetry; apply Nat.ltb_ge; cbn; lia); now rewrite orb_false_r|]. apply Nat.ltb_ge in E. replace (remaining b) with 0 by lia. cbn. rewrite app_nil_r. now destruct b. }
  rewrite K, IH; [|exact (within_tail _ _ _ N)|exact Z|cbn [b_cap b_out]; rewrite app_length; unfold remaining; destruct (b_cap b - length (b_out b)) eqn:Er; cbn; rewrite ?firstn_nil; cbn; lia].
  f_equal. cbn [b_cap b_out b_bad]. unfold remaining. cbn [b_cap b_out]. rewrite <- app_assoc. f_equal. f_equal. rewrite app_length. destruct (b_cap b - length (b_out b)) as [|n] eqn:Er; cbn [firstn length app]; [replace (b_cap b - (length (b_out b) + 0)) with 0 by lia; reflexivity|]. rewrite firstn_nil. cbn [length]. replace (b_cap b - (length (b_out b) + 1)) with n by lia. reflexivity.
Qed.
