(** Properties C304-C310: images are embedded in the page. *)
From Verif Require Import Base BaseL L_Pass M_Attr L_Attr M_Encode L_Encode S_Encode M_Relax M_Spans M_Embed S_Embed L_Embed L_Embed2 L_Embed3.

Definition no_img (t : str) : Prop := ~ within (B "<img") t.
Lemma no_img_b t : strstr (B "<img") t = None -> no_img t.
Proof. intros H (a & b & ->). exact (strstr_none _ _ H a b eq_refl). Qed.
Lemma img_starts x q u y : exists r, img x q u y = B "<img" ++ r.
Proof. eexists. reflexivity. Qed.

(** C304: nothing is written behind the buffer *)
Theorem C304_refuted : forall t, no_img t -> 4 <= length t -> (N.of_nat (length t) < 4000000)%N -> exists fs, embed fs None (img (B " ") DQ (B "a") [] ++ t) = None.
Proof.
  intros t N L Lm. set (m := (3 * length t + 1028) / 4). assert (M : 4 * m <= 3 * length t + 1028 < 4 * m + 4) by (unfold m; pose proof (Nat.div_mod (3 * length t + 1028) 4 ltac:(discriminate)); pose proof (Nat.mod_upper_bound (3 * length t + 1028) 4 ltac:(discriminate)); lia).
  destruct (filler_data m) as (d & D & Ld); [lia|lia|]. exists (filler m). pose proof (turn_at (filler m) None (B " ") DQ (B "a") [] t (first_ab "a" (or_introl eq_refl))) as T. rewrite D in T.
  assert (Lo : length (img (B " ") DQ d []) = 34 + 4 * m) by (unfold img; rewrite !app_length, Ld; cbn; lia). assert (Lg : length (img (B " ") DQ (B "a") []) = 13) by reflexivity. pose proof (page_one (filler m) None [] _ _ _ t ltac:(intros ([|? ?] & ? & H); discriminate H) N (img_starts _ _ _ _) T ltac:(lia)) as P. cbn [app length] in P. rewrite P. rewrite app_length, Lg, Lo.
  replace (0 + (34 + 4 * m + 1) <=? (13 + length t) * 3 + 1024) with true by (symmetry; apply Nat.leb_le; lia). replace ((13 + length t) * 3 + 1024 <=? 0 + (34 + 4 * m) + length t) with true by (symmetry; apply Nat.leb_le; lia). reflexivity.
Qed.
Example C304_refuted_case : exists fs, embed fs None (B "<img src=""a""></p>") = None.
Proof. exact (C304_refuted (B "</p>") (no_img_b (B "</p>") eq_refl) (le_n 4) eq_refl). Qed.
Print Assumptions C304_refuted.

(** Exactly when, for a page with one image; and then the page is complete. *)
Theorem C304_partial : forall fs base a x q u y t, no_img a -> no_img t -> first_src x u q y ->
  let page := a ++ img x q u y ++ t in let cap := 3 * length page + 1024 in
  exists o, (o = img x q u y \/ exists d, found fs base u d /\ o = img x DQ d y)
    /\ (embed fs base page = None <-> length a + length o < cap <= length a + length o + length t)
    /\ (embed fs base page <> None -> embed fs base page = Some (a ++ o ++ t)).
Proof.
  intros fs base a x q u y t Na Nt F page cap. pose proof (turn_at fs base x q u y t F) as T. destruct (data_url fs base u) as [d|] eqn:D.
  - exists (img x DQ d y). split; [right; exists d; split; [exact (data_found _ _ _ _ D)|reflexivity]|]. pose proof (page_one fs base a _ _ _ t Na Nt (img_starts _ _ _ _) T ltac:(lia)) as P. cbn zeta in P. unfold page. rewrite P. replace (length (a ++ img x q u y ++ t) * 3 + 1024) with cap by (unfold cap, page; lia).
    destruct (_ <=? cap) eqn:C1; [apply Nat.leb_le in C1|apply Nat.leb_gt in C1]; (destruct (cap <=? _) eqn:C2; [apply Nat.leb_le in C2|apply Nat.leb_gt in C2]); cbn [andb]; (split; [split; [try discriminate; intros _; lia|intro H; try reflexivity; exfalso; lia]|]); intro H; try reflexivity; now destruct H.
  - exists (img x q u y). split; [now left|]. pose proof (page_same fs base a _ t Na Nt (img_starts _ _ _ _) T) as P. fold page in P. rewrite P. split; [|reflexivity]. split; [discriminate|]. intro H. exfalso. unfold cap, page in H. rewrite !app_length in H. lia.
Qed.
Example C304_case : embed (fun _ => Some (B "abc")) None (B "<p><img src=""a.gif"" alt=""b""></p>") = Some (B "<p><img src=""data:image/gif;base64,YWJj"" alt=""b""></p>").
Proof. vm_compute. reflexivity. Qed.
Print Assumptions C304_partial.

(** C305 *)
Theorem C305_no_files : forall fs base html, (forall p, fs p = None) -> embed fs base html = Some html.
Proof.
  intros fs base html H. assert (D : forall u, data_url fs base u = None) by (intro u; unfold data_url, encoded; rewrite H; now destruct (_ || _)). rewrite embed_fits; rewrite (ideal_same _ fs base D html) by lia; [reflexivity|lia].
Qed.
Example C305_case : embed (fun _ => None) (Some (B "d")) (B "<img src='a' <img src=""b""> <imgx") = Some (B "<img src='a' <img src=""b""> <imgx").
Proof. vm_compute. reflexivity. Qed.
Print Assumptions C305_no_files.

(** C306: only the sources of images change *)
Theorem C306_refuted : forall t, no_img t -> 5 <= length t -> (N.of_nat (length t) < 4000000)%N ->
  exists fs d n, n < length t /\ embed fs None (img (B " ") DQ (B "a") [] ++ t ++ img (B " ") DQ (B "b") []) = Some (img (B " ") DQ d [] ++ firstn n t ++ img (B " ") DQ (B "b") []).
Proof.
  intros t N L Lm. set (cap := length (img (B " ") DQ (B "a") [] ++ t ++ img (B " ") DQ (B "b") []) * 3 + 1024). assert (Ec : cap = 3 * length t + 1102) by (unfold cap; rewrite !app_length; change (length (img (B " ") DQ (B "a") [])) with 13; change (length (img (B " ") DQ (B "b") [])) with 13; lia).
  set (m := (cap - 35) / 4). assert (M : 4 * m <= cap - 35 < 4 * m + 4) by (unfold m; pose proof (Nat.div_mod (cap - 35) 4 ltac:(discriminate)); pose proof (Nat.mod_upper_bound (cap - 35) 4 ltac:(discriminate)); lia).
  destruct (filler_data m) as (d & D & Ld); [lia|lia|]. exists (filler m), d, (cap - (34 + 4 * m)). split; [lia|]. set (ga := img (B " ") DQ (B "a") []) in *. set (gb := img (B " ") DQ (B "b") []) in *. assert (Lo : length (img (B " ") DQ d []) = 34 + 4 * m) by (unfold img; rewrite !app_length, Ld; cbn; lia). set (o := img (B " ") DQ d []) in *.
  pose proof (turn_at (filler m) None (B " ") DQ (B "a") [] (t ++ gb) (first_ab "a" (or_introl eq_refl))) as Ta. rewrite D in Ta. fold ga o in Ta. pose proof (turn_at (filler m) None (B " ") DQ (B "b") [] [] (first_ab "b" (or_intror eq_refl))) as Tb. fold gb in Tb. replace (data_url (filler m) None (B "b")) with (@None str) in Tb by reflexivity.
  assert (R : go (S (length (ga ++ t ++ gb))) (filler m) None (ga ++ t ++ gb) (Buf cap [] false) = Buf ((cap + 13 + 1) * 2) (o ++ firstn (cap - (34 + 4 * m)) t ++ gb) false).
  { rewrite (go_piece _ _ _ (ga ++ t ++ gb) _ _ _ _ ltac:(discriminate) Ta), skipn_len. unfold room. change (remaining (Buf cap [] false)) with (cap - 0). replace (cap - 0 <? length o + 1) with false by (symmetry; apply Nat.ltb_ge; lia). unfold write. cbn [b_cap b_out b_bad length app orb]. replace (cap <? 0 + length o) with false by (symmetry; apply Nat.ltb_ge; lia).
    replace (length (ga ++ t ++ gb)) with (length t + S (length ga + length gb - 1)) by (rewrite !app_length; change (length ga) with 13; lia). rewrite go_text; [|exact N|right; exists (B " src=""b"">"); reflexivity|cbn [b_cap b_out]; lia]. unfold remaining. cbn [b_cap b_out b_bad]. rewrite Lo. set (n := cap - (34 + 4 * m)).
    rewrite <- (app_nil_r gb) at 2. rewrite (go_piece _ _ _ (gb ++ []) _ _ _ _ ltac:(discriminate) Tb), skipn_len. change (length ga + length gb - 1) with 25. cbn [go]. unfold room, remaining. cbn [b_cap b_out]. assert (Lf : length (o ++ firstn n t) = cap) by (rewrite app_length, firstn_length_le, Lo by (unfold n; lia); unfold n; lia). rewrite Lf. change (length gb) with 13. replace (cap - cap <? 13) with true by (symmetry; apply Nat.ltb_lt; lia).
    unfold resize, write. cbn [b_cap b_out b_bad orb]. rewrite Lf. change (length gb) with 13. replace ((cap + 13 + 1) * 2 <? cap + 13) with false by (symmetry; apply Nat.ltb_ge; lia). f_equal. now rewrite <- app_assoc. }
  unfold embed. fold cap. rewrite R. unfold remaining. cbn [b_cap b_out b_bad orb]. rewrite !app_length, firstn_length_le by lia. rewrite Lo. change (length gb) with 13. replace ((cap + 13 + 1) * 2 - (34 + 4 * m + (cap - (34 + 4 * m) + 13)) =? 0) with false by (symmetry; apply Nat.eqb_neq; lia). reflexivity.
Qed.
Example C306_refuted_case : no_img (B "<p>Text</p>") /\ 5 <= length (B "<p>Text</p>").
Proof. split; [apply no_img_b; reflexivity|cbn; lia]. Qed.
Print Assumptions C306_refuted.
Theorem C306_partial : forall fs base html, (forall o, Embedded fs base html o -> length o < 3 * length html + 1024) -> exists o, embed fs base html = Some o /\ Embedded fs base html o.
Proof.
  intros fs base html H. exists (ideal (S (length html)) fs base html). pose proof (ideal_embedded (S (length html)) fs base html ltac:(lia)) as E. split; [|exact E]. apply embed_fits. specialize (H _ E). lia.
Qed.
Example C306_case : embed (fun p => if seq_ p (B "d/a") then Some (B "abcdef") else None) (Some (B "d")) (B "<img src='a'> and <img src=""b"">") = Some (B "<img src=""data:image/png;base64,YWJjZGVm""> and <img src=""b"">").
Proof. vm_compute. reflexivity. Qed.
Print Assumptions C306_partial.

(** C307: every local image is embedded. Not when a > stands in front of its source, whatever the files are: *)
Theorem C307_refuted : forall fs base a z w u t, no_img a -> ~ In ">"%char z -> ~ within (B "src=") (B "<img" ++ z) -> no_img (w ++ B " src=" ++ [DQ] ++ u ++ [DQ] ++ B ">" ++ t) ->
  let page := a ++ B "<img" ++ z ++ B ">" ++ w ++ B " src=" ++ [DQ] ++ u ++ [DQ] ++ B ">" ++ t in embed fs base page = Some page.
Proof.
  intros fs base a z w u t Na Nz Ns Nw page. pose proof (page_same fs base a (B "<img" ++ z ++ B ">") _ Na Nw ltac:(now exists (z ++ B ">")) (turn_none fs base z _ Nz Ns)) as P. unfold page. replace (B "<img" ++ z ++ B ">" ++ w ++ B " src=" ++ [DQ] ++ u ++ [DQ] ++ B ">" ++ t) with ((B "<img" ++ z ++ B ">") ++ w ++ B " src=" ++ [DQ] ++ u ++ [DQ] ++ B ">" ++ t) by (rewrite <- !app_assoc; reflexivity). exact P.
Qed.
Example C307_refuted_case : embed (fun _ => Some (B "abc")) None (B "<img alt=""1>0"" src=""a.png"">") = Some (B "<img alt=""1>0"" src=""a.png"">").
Proof. vm_compute. reflexivity. Qed.
Print Assumptions C307_refuted.
Theorem C307_partial : forall fs base a x q u y t p c, no_img a -> no_img t -> first_src x u q y -> ~ remote u -> place base u p -> fs p = Some c -> usable c ->
  let page := a ++ img x q u y ++ t in let cap := 3 * length page + 1024 in
  exists d, Data p c d /\ (let n := length a + length (img x DQ d y) in n + length t < cap \/ cap <= n -> embed fs base page = Some (a ++ img x DQ d y ++ t)).
Proof.
  intros fs base a x q u y t p c Na Nt F R P Ff U page cap. destruct (data_some fs base u p c R P Ff U) as (e & k & D & De & Le). eexists. split; [exists (mime p), e, k; split; [reflexivity|]; split; [exact De|exact Le]|]. intros n H. pose proof (turn_at fs base x q u y t F) as T. rewrite D in T. pose proof (page_one fs base a _ _ _ t Na Nt (img_starts _ _ _ _) T ltac:(lia)) as Pg. cbn zeta in Pg. unfold page. rewrite Pg. replace (length (a ++ img x q u y ++ t) * 3 + 1024) with cap by (unfold cap, page; lia).
  destruct (_ <=? cap) eqn:C1; [|reflexivity]. apply Nat.leb_le in C1. destruct (cap <=? _) eqn:C2; [|reflexivity]. apply Nat.leb_le in C2. exfalso. unfold n in H. lia.
Qed.
Example C307_case : first_src (B " ") (B "a") DQ [] /\ ~ remote (B "a") /\ place (Some (B "d")) (B "a") (B "d/a") /\ usable (B "abc").
Proof.
  split; [apply first_ab; now left|]. split; [intros (p & r & I & Q); cbn in I; destruct I as [<-|[<-|[<-|[<-|[]]]]]; discriminate Q|]. split; [right; split; [intros (r & Q); discriminate Q|]; right; exists (B "d"); repeat split; discriminate|]. split; [discriminate|]. vm_compute. discriminate.
Qed.
Print Assumptions C307_partial.

(** C308 *)
Theorem C308_remote : forall fs base a x q u y t, no_img a -> no_img t -> first_src x u q y -> remote u -> embed fs base (a ++ img x q u y ++ t) = Some (a ++ img x q u y ++ t).
Proof.
  intros fs base a x q u y t Na Nt F R. apply page_same; [exact Na|exact Nt|apply img_starts|]. rewrite (turn_at fs base x q u y t F). unfold data_url. now rewrite (proj2 (remote_bool u) R).
Qed.
Example C308_case : embed (fun _ => Some (B "abc")) None (B "<img src='//h/a.png'>") = Some (B "<img src='//h/a.png'>").
Proof. vm_compute. reflexivity. Qed.
Print Assumptions C308_remote.

(** C309: the media type is that of the extension *)
Lemma alone fs base u p c : ~ In ">"%char u -> ~ In DQ u -> ~ remote u -> place base u p -> fs p = Some c -> usable c -> exists e, embed fs base (img (B " ") DQ u []) = Some (img (B " ") DQ (B "data:" ++ mime p ++ B ";base64," ++ e) []).
Proof.
  intros N1 N2 R P F U. destruct (data_some fs base u p c R P F U) as (e & k & D & _). exists e. assert (Fs : first_src (B " ") u DQ []). { split; [now left|]. split; [intro I; apply in_app_or in I as [[I|[]]|I]; [discriminate I|apply in_app_or in I as [I|[]]; contradiction]|]. split; [exact N2|]. destruct (first_ab "a" (or_introl eq_refl)) as (_ & _ & _ & H & _). split; [exact H|discriminate]. }
  pose proof (turn_at fs base (B " ") DQ u [] [] Fs) as T. rewrite D in T. pose proof (page_one fs base [] _ _ _ [] ltac:(intros ([|? ?] & ? & H); discriminate H) ltac:(intros ([|? ?] & ? & H); discriminate H) (img_starts _ _ _ _) T ltac:(lia)) as Pg. cbn zeta in Pg. cbn [app] in Pg. rewrite !app_nil_r in Pg. rewrite Pg. cbn [length].
  destruct (_ <=? _) eqn:C1; [|reflexivity]. apply Nat.leb_le in C1. destruct (length (img (B " ") DQ u []) * 3 + 1024 <=? _) eqn:C2; [|reflexivity]. apply Nat.leb_le in C2. exfalso. clear - C1 C2. cbn [length] in C1, C2. lia.
Qed.
Lemma place_ext base r e p : place base (r ++ "."%char :: e) p -> exists r', p = r' ++ "."%char :: e.
Proof. intros [(_ & ->)|(_ & [(_ & ->)|(d & _ & _ & ->)])]; [now exists r|now exists r|]. exists (d ++ "/"%char :: r). now rewrite <- app_assoc. Qed.
Theorem C309_refuted : forall fs base r e p c, let u := r ++ "."%char :: e in (forall k, In k (B ".?#/ ") -> ~ In k e) -> (forall t, ~ In (map tolower e, t) types) -> ~ In ">"%char u -> ~ In DQ u -> ~ remote u -> place base u p -> fs p = Some c -> usable c ->
  exists w, embed fs base (img (B " ") DQ u []) = Some (img (B " ") DQ (B "data:image/png;base64," ++ w) []).
Proof.
  intros fs base r e p c u N1 N2 H1 H2 R P F U. destruct (alone fs base u p c H1 H2 R P F U) as (w & E). destruct (place_ext base r e p P) as (r' & ->). rewrite mime_other in E; [exists w; exact E|apply N1; now left| |exact N2]. intros k I. unfold stop_ext. rewrite !(proj2 (ceq_neq _ _)); [reflexivity| | | |]; intros ->; (eapply N1; [|exact I]; cbn; auto 6).
Qed.
Example C309_refuted_case : embed (fun _ => Some (B "abc")) None (B "<img src=""a.avif"">") = Some (B "<img src=""data:image/png;base64,YWJj"">").
Proof. vm_compute. reflexivity. Qed.
Print Assumptions C309_refuted.
Theorem C309_partial : forall fs base r e x t p c, let u := r ++ "."%char :: e in In (x, t) types -> map tolower e = x -> ~ In ">"%char u -> ~ In DQ u -> ~ remote u -> place base u p -> fs p = Some c -> usable c ->
  exists w, embed fs base (img (B " ") DQ u []) = Some (img (B " ") DQ (B "data:" ++ t ++ B ";base64," ++ w) []).
Proof.
  intros fs base r e x t p c u I E H1 H2 R P F U. destruct (alone fs base u p c H1 H2 R P F U) as (w & Em). destruct (place_ext base r e p P) as (r' & ->). rewrite (mime_known r' e x t I E) in Em. exists w. exact Em.
Qed.
Example C309_case : embed (fun _ => Some (B "abc")) (Some (B "d.png")) (B "<img src=""a.SvG"">") = Some (B "<img src=""data:image/svg+xml;base64,YWJj"">").
Proof. vm_compute. reflexivity. Qed.
Print Assumptions C309_partial.

(** C310: no attribute but src changes *)
Theorem C310_refuted : forall fs base u p c, ~ In ">"%char u -> ~ In DQ u -> ~ remote u -> place base u p -> fs p = Some c -> usable c ->
  exists d, Data p c d /\ embed fs base (B "<img data-src=" ++ [DQ] ++ u ++ [DQ] ++ B ">") = Some (B "<img data-src=" ++ [DQ] ++ d ++ [DQ] ++ B ">").
Proof.
  intros fs base u p c N1 N2 R P F U. assert (Fs : first_src (B " data-") u DQ []). { split; [now left|]. split; [intro I; apply in_app_or in I as [I|I]; [cbn in I; repeat (destruct I as [I|I]; [discriminate I|]); exact I|apply in_app_or in I as [I|[]]; contradiction]|]. split; [exact N2|]. split; [|discriminate]. intros k Hk (f & g & E). assert (Z : strstr (B "src=" ++ [k]) (B "<img" ++ B " data-") = None) by (destruct Hk as [-> | ->]; reflexivity). exact (strstr_none _ _ Z f g E). }
  destruct (data_some fs base u p c R P F U) as (e & k & D & De & Le). eexists. split; [exists (mime p), e, k; split; [reflexivity|]; split; [exact De|exact Le]|]. pose proof (turn_at fs base (B " data-") DQ u [] [] Fs) as T. rewrite D in T. pose proof (page_one fs base [] _ _ _ [] ltac:(intros ([|? ?] & ? & H); discriminate H) ltac:(intros ([|? ?] & ? & H); discriminate H) (img_starts _ _ _ _) T ltac:(lia)) as Pg. cbn zeta in Pg. cbn [app] in Pg. rewrite !app_nil_r in Pg.
  change (B "<img data-src=" ++ [DQ] ++ u ++ [DQ] ++ B ">") with (img (B " data-") DQ u []). rewrite Pg. cbn [length].
  destruct (_ <=? _) eqn:C1; [|reflexivity]. apply Nat.leb_le in C1. destruct (length (img (B " data-") DQ u []) * 3 + 1024 <=? _) eqn:C2; [|reflexivity]. apply Nat.leb_le in C2. exfalso. clear - C1 C2. cbn [length] in C1, C2. lia.
Qed.
Example C310_refuted_case : embed (fun _ => Some (B "abc")) None (B "<img data-src=""b"" src=""a"">") = Some (B "<img data-src=""data:image/png;base64,YWJj"" src=""a"">").
Proof. vm_compute. reflexivity. Qed.
Print Assumptions C310_refuted.
Theorem C310_partial : forall fs base a z t, no_img a -> no_img t -> ~ In ">"%char z -> ~ within (B "src=") (B "<img" ++ z) -> embed fs base (a ++ B "<img" ++ z ++ B ">" ++ t) = Some (a ++ B "<img" ++ z ++ B ">" ++ t).
Proof.
  intros fs base a z t Na Nt Nz Ns. pose proof (page_same fs base a (B "<img" ++ z ++ B ">") t Na Nt ltac:(now exists (z ++ B ">")) (turn_none fs base z t Nz Ns)) as P. replace (B "<img" ++ z ++ B ">" ++ t) with ((B "<img" ++ z ++ B ">") ++ t) by (rewrite <- !app_assoc; reflexivity). exact P.
Qed.
Example C310_case : embed (fun _ => Some (B "abc")) None (B "<img alt=""a"" title=""b""> src=""c"">") = Some (B "<img alt=""a"" title=""b""> src=""c"">").
Proof. vm_compute. reflexivity. Qed.
Print Assumptions C310_partial.
