From Verif Require Import Base BaseL L_Pass L_Attr M_Attr M_Relax M_Spans M_Embed M_ImgUrl L_ImgUrl M_Media S_Media.

Ltac len := repeat (progress (rewrite ?app_length; cbn [length B list_ascii_of_string app])).
(** Lengths *)
Lemma some_eq {A} (x y : A) : Some x = Some y -> x = y.
Proof. congruence. Qed.
Lemma ext_len u e v : with_ext_auto u e = Some v -> length v <= length u + length e.
Proof.
  unfold with_ext_auto. destruct (strrchr "." u) as [s|] eqn:E; [|discriminate]. destruct (strrchr_inv _ _ _ E) as (a & b & -> & -> & _). cbv zeta. destruct (end_auto (a ++ "."%char :: b) <=? _) eqn:L; [discriminate|]. intro H. apply some_eq in H. subst v. apply Nat.leb_gt in L. rewrite app_length in L. cbn [length] in L. set (w := a ++ "."%char :: b) in *. assert (Lw : length w = length a + Datatypes.S (length b)) by (unfold w; now rewrite app_length). rewrite 3!app_length, firstn_length, skipn_length. change (length (B ".")) with 1. cbn [length] in *. lia.
Qed.
Lemma suf_len x u v : suffix_auto x u = Some v -> length v = length u + length x.
Proof.
  unfold suffix_auto. cbv zeta. destruct (strrchr "." (firstn (end_auto u) u)) as [s|] eqn:E; [|discriminate]. intro H. apply some_eq in H. subst v. rewrite !app_length. set (d := end_auto u - length s). rewrite <- (firstn_skipn d u) at 3. rewrite app_length. lia.
Qed.
Lemma vx_len x u e v : vx x u e = Some v -> length v <= length u + length x + length e.
Proof. unfold vx. destruct (suffix_auto x u) as [w|] eqn:E; [|discriminate]. intro H. apply suf_len in E. apply ext_len in H. lia. Qed.

Lemma tag_end_lt s : forall q e, tag_end q s = Some e -> e < length s.
Proof.
  assert (K : forall n s, length s <= n -> forall q e, tag_end q s = Some e -> e < length s).
  { induction n as [|n IH]; intros [|c r] L q e; cbn [tag_end length] in *; try discriminate; [lia|].
    assert (T : forall q', option_map Datatypes.S (tag_end q' r) = Some e -> e < Datatypes.S (length r)). { intros q' H. destruct (tag_end q' r) as [j|] eqn:E; [|discriminate]. injection H as <-. apply IH in E; lia. }
    destruct q as [k|].
    - destruct (ceq c BS); [|apply T]. destruct r as [|d r]; [discriminate|]. destruct (tag_end (Some k) r) as [j|] eqn:E; [|discriminate]. intros [= <-]. cbn [length] in *. apply IH in E; lia.
    - destruct (ceq c DQ || ceq c SQ); [apply T|]. destruct (ceq c ">"); [intros [= <-]; lia|apply T]. }
  intros q e. apply (K (length s)). lia.
Qed.
Lemma tag_end_q k v s : ~ In k v -> ~ In BS v -> k <> BS -> tag_end (Some k) (v ++ k :: s) = option_map (fun n => length v + 1 + n) (tag_end None s).
Proof.
  intros N1 N2 NB. induction v as [|c v IH]; cbn [app tag_end].
  - rewrite (proj2 (ceq_neq k BS)) by exact NB. rewrite ceq_refl. destruct (tag_end None s); reflexivity.
  - rewrite (proj2 (ceq_neq c BS)) by (intros ->; apply N2; now left). rewrite (proj2 (ceq_neq c k)) by (intros ->; apply N1; now left). rewrite IH by (intro I; first [apply N1; right; exact I | apply N2; right; exact I]). destruct (tag_end None s); reflexivity.
Qed.
Lemma tag_tag_end n s : Tag n s -> exists e, tag_end None s = Some e /\ n = e + 1.
Proof.
  induction 1 as [s|c n s N1 N2 N3 T (e & E & ->)|k v n s Q N1 N2 T (e & E & ->)].
  - exists 0. auto.
  - exists (Datatypes.S e). cbn [tag_end]. rewrite (proj2 (ceq_neq _ _) N2), (proj2 (ceq_neq _ _) N3), (proj2 (ceq_neq _ _) N1). cbn [orb]. rewrite E. auto.
  - exists (Datatypes.S (length v + 1 + e)). assert (H : ceq k DQ || ceq k SQ = true) by (destruct Q as [-> | ->]; reflexivity). cbn [tag_end]. rewrite H. rewrite tag_end_q by (try assumption; destruct Q as [-> | ->]; discriminate). rewrite E. split; [reflexivity|lia].
Qed.

Lemma value_len k n : forall s v, value k s n = Some v -> length v < n.
Proof.
  assert (K : forall m n s v, n <= m -> value k s n = Some v -> length v < n).
  { induction m as [|m IH]; intros [|j] [|c r] v L; cbn [value]; try discriminate; [lia|]. destruct (ceq c k); [intros [= <-]; cbn; lia|]. destruct (ceq c BS).
    - destruct j as [|j']; [discriminate|]. destruct r as [|d r]; [discriminate|]. destruct (value k r j') as [w|] eqn:E; [|discriminate]. intros [= <-]. apply IH in E; cbn [length]; lia.
    - destruct (value k r j) as [w|] eqn:E; [|discriminate]. intros [= <-]. apply IH in E; cbn [length]; lia. }
  intros s v. apply (K n). lia.
Qed.
Lemma attr_len name n : forall gap s v, attr gap name s n = Some v -> length v < n.
Proof.
  induction n as [|m IH]; intros gap [|c r] v; cbn [attr]; try discriminate. destruct (gap && nocase name (c :: r) && _).
  - cbv zeta. remember (Datatypes.S m) as n eqn:En. remember (length name + 1) as j eqn:Ej. destruct (n <=? j); [discriminate|]. destruct (_ || _); [|discriminate]. intro H. apply value_len in H. lia.
  - intro H. apply IH in H. lia.
Qed.

Lemma clip_len s : length (clip s) <= length s.
Proof. unfold clip. rewrite firstn_length. lia. Qed.
Lemma source_len u t : length (source u t) = 23 + length u + length t.
Proof. unfold source, quoted. rewrite !app_length. cbn [length B list_ascii_of_string app]. rewrite !app_length. cbn [length]. lia. Qed.

Lemma video_type_len u : length (video_type u) <= 15.
Proof. unfold video_type. destruct (strrchr "." u) as [[|c e]|]; try (cbn; lia). cbv zeta. repeat match goal with |- length (if ?b then _ else _) <= _ => destruct b end; cbn; lia. Qed.

Lemma video_some fs base src alt : length alt < 240 -> video fs base src alt <> None.
Proof.
  intro A. unfold video, print. cbv zeta. match goal with |- (if ?b then _ else _) <> None => assert (H : b = true); [|rewrite H; discriminate] end. apply Nat.ltb_lt.
  assert (V : forall e t, length e <= 4 -> length t <= 15 -> length (concat (match with_ext_auto src e with Some u => if there fs base u then [source u t] else [] | None => [] end)) <= length src + 42).
  { intros e t Le Lt. destruct (with_ext_auto src e) as [u|] eqn:E; [|cbn; lia]. apply ext_len in E. destruct (there fs base u); [|cbn; lia]. cbn [concat]. rewrite app_nil_r, source_len. lia. }
  cbn [flat_map fst snd]. rewrite !concat_app, !app_length.
  pose proof (V (B "webm") (B "video/webm") ltac:(cbn; lia) ltac:(cbn; lia)). pose proof (V (B "ogg") (B "video/ogg") ltac:(cbn; lia) ltac:(cbn; lia)). pose proof (V (B "mp4") (B "video/mp4") ltac:(cbn; lia) ltac:(cbn; lia)). pose proof (V (B "mov") (B "video/quicktime") ltac:(cbn; lia) ltac:(cbn; lia)). pose proof (V (B "m4v") (B "video/mp4") ltac:(cbn; lia) ltac:(cbn; lia)).
  assert (T : length (concat (match alt with [] => [] | _ => [B " title=" ++ quoted alt] end)) <= 9 + length alt). { destruct alt as [|c r]; [cbn; lia|]. cbn [concat]. rewrite app_nil_r. unfold quoted. rewrite !app_length. cbn [length B list_ascii_of_string app]. rewrite app_length. cbn [length]. lia. }
  assert (E : length (concat [source src (video_type src); B "</video>"]) <= length src + 46). { cbn [concat]. rewrite !app_length, source_len. pose proof (video_type_len src). cbn [length B list_ascii_of_string]. lia. }
  change (length (concat [B "<video"])) with 6. change (length (concat [B ">"])) with 1. change (length (concat (@nil str))) with 0. lia.
Qed.

Lemma format_len fs base src ext : length ext <= 4 -> length (concat (format fs base src ext)) <= 67 + 3 * length src.
Proof.
  intro Le. unfold format. cbv zeta. destruct (_ || _); [|cbn; lia].
  match goal with |- length (concat (match ?x with [] => [] | _ => _ end)) <= _ => assert (H : length x <= 31 + 3 * length src); [|destruct x as [|c r]; [cbn; lia|]] end.
  - assert (J : forall s u m, length (join s u m) <= length s + 2 + length u + length (B m)). { intros s u m. unfold join. etransitivity; [apply clip_len|]. rewrite !app_length. destruct s; cbn [length B list_ascii_of_string]; lia. }
    set (s1 := match v1 src ext with Some u => clip (u ++ B " 1x") | None => [] end). assert (L1 : length s1 <= length src + 7). { unfold s1, v1. destruct (with_ext_auto src ext) as [u|] eqn:E; [|cbn; lia]. apply ext_len in E. etransitivity; [apply clip_len|]. rewrite app_length. cbn [length B list_ascii_of_string]. lia. }
    set (s2 := match vx (B "@2x") src ext with Some u => if has_x fs base (B "@2x") src ext then join s1 u " 2x" else s1 | None => s1 end). assert (L2 : length s2 <= 2 * length src + 19). { unfold s2. destruct (vx (B "@2x") src ext) as [u|] eqn:E; [|lia]. apply vx_len in E. destruct (has_x _ _ _ _ _); [|lia]. etransitivity; [apply J|]. cbn [length B list_ascii_of_string] in *. lia. }
    clearbody s2. destruct (vx (B "@3x") src ext) as [u|] eqn:E; [|lia]. apply vx_len in E. destruct (has_x _ _ _ _ _); [|lia]. etransitivity; [apply J|]. cbn [length B list_ascii_of_string] in *. lia.
  - remember (c :: r) as x eqn:Ex. clear Ex. cbn [concat]. rewrite app_nil_r. unfold quoted. len. lia.
Qed.
Lemma srcset_some fs base src : length src <= 160 -> exists s, srcset_attr fs base src = Some s /\ length s <= 29 + 3 * length src.
Proof.
  intro L. unfold srcset_attr. cbv zeta. destruct (_ || _); [|exists []; split; [reflexivity|cbn; lia]].
  set (s1 := clip (B " srcset=" ++ [DQ] ++ src ++ B " 1x")). assert (L1 : length s1 <= length src + 12). { unfold s1. etransitivity; [apply clip_len|]. rewrite !app_length. cbn [length B list_ascii_of_string]. lia. }
  set (s2 := match suffix_auto (B "@2x") src with Some u => if has fs base (suffix_auto (B "@2x") src) then clip (s1 ++ B ", " ++ u ++ B " 2x") else s1 | None => s1 end). assert (L2 : length s2 <= 2 * length src + 20). { unfold s2. destruct (suffix_auto (B "@2x") src) as [u|] eqn:E; [|lia]. apply suf_len in E. destruct (has _ _ _); [|lia]. etransitivity; [apply clip_len|]. rewrite !app_length. cbn [length B list_ascii_of_string] in *. lia. }
  match goal with |- exists s, (if length ?x <? 511 then _ else _) = _ /\ _ => assert (L3 : length x <= 3 * length src + 28) end.
  { clearbody s2. destruct (suffix_auto (B "@3x") src) as [u|] eqn:E; [|lia]. apply suf_len in E. destruct (has _ _ _); [|lia]. etransitivity; [apply clip_len|]. rewrite !app_length. cbn [length B list_ascii_of_string] in *. lia. }
  rewrite (proj2 (Nat.ltb_lt _ _)) by lia. eexists. split; [reflexivity|]. rewrite app_length. cbn [length]. lia.
Qed.
Lemma picture_some fs base src alt title : length src <= 160 -> length alt + length title <= 400 -> picture fs base src alt title <> None.
Proof.
  intros Ls La. unfold picture. cbv zeta. destruct (_ || _); [|discriminate]. destruct (srcset_some fs base src Ls) as (sa & -> & Lsa). unfold print. cbv zeta.
  match goal with |- context [if ?b then Some _ else None] => assert (H : b = true); [|rewrite H; discriminate] end. apply Nat.ltb_lt.
  pose proof (format_len fs base src (B "avif") (le_n 4)). pose proof (format_len fs base src (B "webp") (le_n 4)). rewrite !concat_app, !app_length. cbn [concat]. rewrite !app_nil_r, !app_length. unfold quoted. cbn [length B list_ascii_of_string app]. rewrite !app_length.
  match goal with |- context [if ?b then _ else _] => generalize b; intro any end.
  assert (H1 : length (concat (if any then [B "<picture>"] else [])) <= 9) by (destruct any; cbn; lia). assert (H2 : length (if any then B "</picture>" else []) <= 10) by (destruct any; cbn; lia).
  assert (H3 : length (match title with [] => [] | _ => B " title=" ++ DQ :: title ++ [DQ] end) <= length title + 9). { destruct title as [|c r]; [cbn; lia|]. rewrite app_length. cbn [length B list_ascii_of_string]. rewrite app_length. cbn [length]. lia. }
  cbn [length B list_ascii_of_string app] in *. lia.
Qed.

Lemma effective_len fs base src v : effective fs base src = Some v -> length v <= length src + 4.
Proof.
  unfold effective. destruct (wildcard src); [|destruct (there fs base src); [intros [= <-]; lia|discriminate]].
  match goal with |- first_there _ _ _ ?l = _ -> _ => assert (H : forall e, In e l -> length e <= 4) by (intros e I; repeat (destruct I as [<- |I]; [cbn; lia|]); destruct I); revert H; generalize l end.
  induction l as [|e l IH]; intro H; cbn [first_there]; [discriminate|]. assert (H' : forall e, In e l -> length e <= 4) by (intros x I; apply H; now right). destruct (with_ext_auto src e) as [c|] eqn:E; [|now apply IH]. destruct (there fs base c); [|now apply IH]. intros [= <-]. apply ext_len in E. pose proof (H e (or_introl eq_refl)). lia.
Qed.
Lemma replacement_some fs base s n : n <= 150 -> replacement fs base s n <> None.
Proof.
  intro Ln. unfold replacement. cbv zeta. assert (G : forall name, length (match attr true name s n with Some v => v | None => [] end) <= 150). { intro name. destruct (attr true name s n) as [v|] eqn:E; [apply attr_len in E; lia|cbn; lia]. }
  destruct (effective fs base _) as [src|] eqn:E; [|discriminate]. apply effective_len in E. pose proof (G (B "src")). pose proof (G (B "alt")). pose proof (G (B "title")). destruct (is_video_auto src).
  - pose proof (video_some fs base src (match attr true (B "alt") s n with Some v => v | None => [] end) ltac:(lia)). destruct (video _ _ _ _); [discriminate|contradiction].
  - apply picture_some; lia.
Qed.

(** The loop *)
Lemma suffix_skip (n : nat) (s : str) : exists a, s = a ++ skipn n s.
Proof. exists (firstn n s). now rewrite firstn_skipn. Qed.
Lemma turn_pos fs base s n : (exists m, turn fs base s = Copy n m) \/ (exists o, turn fs base s = Repl n o) -> 1 <= n <= length s.
Proof.
  unfold turn. destruct (img_tag s); [|intros [(? & H)|(? & H)]; discriminate H]. destruct (tag_end None s) as [e|] eqn:E; [|intros [(? & H)|(? & H)]; discriminate H]. apply tag_end_lt in E. destruct (marked s).
  - destruct (replacement _ _ _ _) as [[o|]|]; intros [(? & H)|(? & H)]; try discriminate H; injection H as <- <-; lia.
  - intros [(? & H)|(? & H)]; try discriminate H; injection H as <- <-; lia.
Qed.
Lemma go_safe fuel len fs base : forall s b, b_bad b = false -> length (b_out b) <= b_cap b -> length s < fuel -> (forall a t, s = a ++ t -> turn fs base t <> Raw /\ turn fs base t <> Fail) -> b_bad (go fuel len fs base s b) = false.
Proof.
  induction fuel as [|fuel IH]; intros s b G L F H; [lia|]. destruct s as [|c r]; [exact G|]. cbn [length] in F. destruct b as [cap out bad]. cbn [b_bad b_out b_cap] in G, L. subst bad.
  destruct (H [] (c :: r) eq_refl) as (H1 & H2). pose proof (turn_pos fs base (c :: r)) as P. cbn [go]. destruct (turn fs base (c :: r)) as [| |n m|n o|] eqn:T; try contradiction.
  - apply IH; [| |lia|intros a t ->; apply (H (c :: a)); reflexivity].
    + unfold remaining, resize, write. cbn [b_cap b_out b_bad]. destruct (cap - length out <? 2) eqn:Q; cbn [b_cap b_out b_bad orb]; apply Nat.ltb_ge; [cbn [length]; lia|apply Nat.ltb_ge in Q; cbn [length]; lia].
    + unfold remaining, resize, write. cbn [b_cap b_out b_bad]. destruct (cap - length out <? 2) eqn:Q; cbn [b_cap b_out b_bad]; rewrite app_length; cbn [length]; [lia|apply Nat.ltb_ge in Q; lia].
  - destruct (P n) as (P1 & P2); [left; eexists; reflexivity|]. destruct (suffix_skip n (c :: r)) as (a0 & Ea). cbn [length] in P2. apply IH; [| |rewrite skipn_length; cbn [length]; lia|intros a t E; apply (H (a0 ++ a)); rewrite <- app_assoc, <- E; exact Ea].
    + unfold remaining, resize, write. cbn [b_cap b_out b_bad]. rewrite firstn_length_le by (cbn [length]; lia). destruct (cap - length out <=? n) eqn:Q; cbn [b_cap b_out b_bad orb]; apply Nat.ltb_ge; [lia|apply Nat.leb_gt in Q; lia].
    + unfold remaining, resize, write. cbn [b_cap b_out b_bad]. destruct (cap - length out <=? n) eqn:Q; cbn [b_cap b_out b_bad]; rewrite app_length, firstn_length_le by (cbn [length]; lia); [lia|apply Nat.leb_gt in Q; lia].
  - destruct (P n) as (P1 & P2); [right; eexists; reflexivity|]. destruct (suffix_skip n (c :: r)) as (a0 & Ea). cbn [length] in P2. apply IH; [| |rewrite skipn_length; cbn [length]; lia|intros a t E; apply (H (a0 ++ a)); rewrite <- app_assoc, <- E; exact Ea].
    + unfold remaining, resize, write. cbn [b_cap b_out b_bad]. destruct (cap - length out <? length o) eqn:Q; cbn [b_cap b_out b_bad orb]; apply Nat.ltb_ge; [lia|apply Nat.ltb_ge in Q; lia].
    + unfold remaining, resize, write. cbn [b_cap b_out b_bad]. destruct (cap - length out <? length o) eqn:Q; cbn [b_cap b_out b_bad]; rewrite app_length; [lia|apply Nat.ltb_ge in Q; lia].
Qed.
Lemma go_same fuel len fs base : forall s cap out, length out + length s < cap -> length s < fuel -> (forall a t, s = a ++ t -> forall n o, turn fs base t <> Repl n o /\ turn fs base t <> Fail) -> go fuel len fs base s (Buf cap out false) = Buf cap (out ++ s) false.
Proof.
  induction fuel as [|fuel IH]; intros s cap out L F H; [lia|]. destruct s as [|c r]; [cbn [go]; now rewrite app_nil_r|]. cbn [length] in F, L. pose proof (H [] (c :: r) eq_refl) as H1. pose proof (turn_pos fs base (c :: r)) as P.
  assert (W : write [c] (Buf cap out false) = Buf cap (out ++ [c]) false). { unfold write. cbn [b_cap b_out b_bad orb length]. f_equal. apply Nat.ltb_ge. lia. }
  assert (R : go fuel len fs base r (Buf cap (out ++ [c]) false) = Buf cap (out ++ c :: r) false). { rewrite IH; [now rewrite <- app_assoc|rewrite app_length; cbn [length]; lia|lia|intros a t ->; apply (H (c :: a)); reflexivity]. }
  cbn [go]. destruct (turn fs base (c :: r)) as [| |n m|n o|] eqn:T.
  - now rewrite W.
  - unfold remaining. cbn [b_cap b_out]. rewrite (proj2 (Nat.ltb_ge _ _)) by lia. now rewrite W.
  - destruct (P n) as (P1 & P2); [left; eexists; reflexivity|]. destruct (suffix_skip n (c :: r)) as (a0 & Ea). cbn [length] in P2. unfold remaining. cbn [b_cap b_out]. rewrite (proj2 (Nat.leb_gt (cap - length out) n)) by lia. unfold write. cbn [b_cap b_out b_bad orb].
    rewrite (proj2 (Nat.ltb_ge _ _)) by (rewrite firstn_length_le by (cbn [length]; lia); lia). rewrite IH.
    + rewrite <- app_assoc, firstn_skipn. reflexivity.
    + rewrite app_length, firstn_length_le, skipn_length by (cbn [length]; lia). cbn [length]. lia.
    + rewrite skipn_length. cbn [length]. lia.
    + intros a t E. apply (H (a0 ++ a)). rewrite <- app_assoc, <- E. exact Ea.
  - destruct (proj1 (H1 n o) eq_refl).
  - destruct (proj2 (H1 0 []) eq_refl).
Qed.

Lemma there_rel fs base u : there fs base u = true -> relative u /\ fs (base ++ B "/" ++ u) = true.
Proof.
  unfold there. destruct base as [|d base]; [discriminate|]. destruct u as [|c u]; [discriminate|]. rewrite !andb_true_iff, negb_true_iff. intros ((H1 & H2) & H3). split; [split|exact H3].
  - intros r [= -> _]. discriminate H1.
  - intro W. destruct (strstr (B "://") (c :: u)) eqn:E; [discriminate|]. destruct W as (a & b & W). exact (strstr_none _ _ E a b W).
Qed.
