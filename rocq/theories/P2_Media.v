(** The picture made of a marked image: C329. *)
From Verif Require Import Base BaseL L_Pass M_Attr M_Relax M_Embed M_ImgUrl S_ImgUrl L_ImgUrl M_Media S_Media L_Media L2_Media L3_Media P_Media.

(** The marked image, its address being name.ext *)
Definition marked_image (name ext alt : str) : str := B "<img src=" ++ DQ :: (name ++ "."%char :: ext) ++ DQ :: B " alt=" ++ DQ :: alt ++ DQ :: B " data-apex-replace-auto=1>".
Definition free (bad : string) (s : str) : Prop := forall c, In c s -> ~ In c (B bad).
Definition bytes_for (name ext alt : str) : Prop :=
  free "?#:=\" (name ++ ext) /\ ~ In DQ (name ++ ext) /\ (forall r, name <> "/"%char :: r) /\ ~ In "."%char ext /\ ext <> B "*" /\ ~ In (map tolower ext) videos /\ length name + length ext <= 100
  /\ free "=\" alt /\ ~ In DQ alt /\ length alt <= 100.

(** C329: full statement: the marked image becomes a picture that lists, in each format and density, just the variants that exist, and is left as it is if there are none. It is false: the plain variant of a format is listed if only a denser one exists. *)
Theorem C329_picture_refuted : ~ (forall fs base name ext alt before rest, base <> [] -> bytes_for name ext alt -> ~ S_Media.within (B "<img") (map tolower before) -> ~ S_Media.within (B "<img") (map tolower rest) -> fs (base ++ B "/" ++ name ++ B "." ++ ext) = true ->
  expand fs base (before ++ marked_image name ext alt ++ rest) = Some (before ++ shown (fun u => fs (base ++ B "/" ++ u)) name ext alt (marked_image name ext alt) ++ rest)).
Proof.
  intro H. specialize (H (disk ["d/a.png"; "d/a@2x.webp"]%string) (B "d") (B "a") (B "png") [] [] []). assert (N : ~ S_Media.within (B "<img") (map tolower [])) by (intros (x & y & E); destruct x; discriminate E). assert (P : bytes_for (B "a") (B "png") []).
  { split; [intros c I; cbn in I; repeat (destruct I as [<- |I]; [apply not_in_b; reflexivity|]); destruct I|]. split; [apply not_in_b; reflexivity|]. split; [discriminate|]. split; [apply not_in_b; reflexivity|]. split; [discriminate|]. split; [intro I; repeat (destruct I as [I|I]; [discriminate I|]); destruct I|]. split; [cbn; lia|]. split; [intros c []|]. split; [intros []|cbn; lia]. }
  specialize (H ltac:(discriminate) P N N eq_refl). vm_compute in H. discriminate H.
Qed.
Print Assumptions C329_picture_refuted.
(** What holds: so it is if in both formats the plain variant exists whenever a denser one does. *)
Theorem C329_picture_partial : forall fs base name ext alt before rest, base <> [] -> bytes_for name ext alt -> ~ S_Media.within (B "<img") (map tolower before) -> ~ S_Media.within (B "<img") (map tolower rest) -> fs (base ++ B "/" ++ name ++ B "." ++ ext) = true ->
  plain_first (fun u => fs (base ++ B "/" ++ u)) name (B "avif") -> plain_first (fun u => fs (base ++ B "/" ++ u)) name (B "webp") ->
  expand fs base (before ++ marked_image name ext alt ++ rest) = Some (before ++ shown (fun u => fs (base ++ B "/" ++ u)) name ext alt (marked_image name ext alt) ++ rest).
Proof.
  intros fs base a e alt before rest Nb (F1 & Q1 & Ns & Ne & Nw & Nv & La & F2 & Q2 & Lt) Nbe Nre Ex P1 P2.
  assert (G1 : forall c, In c (B "?#:=\") -> ~ In c (a ++ e)) by (intros c I J; exact (F1 c J I)). assert (G2 : forall c, In c (B "=\") -> ~ In c alt) by (intros c I J; exact (F2 c J I)).
  set (src := a ++ "."%char :: e). assert (K : forall c, c <> "."%char -> ~ In c (a ++ e) -> ~ In c src). { intros c D N I. apply in_app_or in I as [I|[I|I]]; [apply N; apply in_or_app; now left|congruence|apply N; apply in_or_app; now right]. }
  assert (Na1 : ~ In "?"%char (a ++ e)) by (apply G1; cbn; tauto). assert (Na2 : ~ In "#"%char (a ++ e)) by (apply G1; cbn; tauto). assert (Nc : ~ In ":"%char (a ++ e)) by (apply G1; cbn; tauto).
  assert (S1 : ~ In DQ src) by (apply K; [discriminate|exact Q1]). assert (S2 : ~ In BS src) by (apply K; [discriminate|apply G1; vm_compute; tauto]). assert (S3 : ~ In "="%char src) by (apply K; [discriminate|apply G1; vm_compute; tauto]). assert (A2 : ~ In BS alt) by (apply G2; vm_compute; tauto). assert (A3 : ~ In "="%char alt) by (apply G2; vm_compute; tauto).
  destruct (picture_at fs base a e Nb Na1 Na2 Ne Nc Ns La alt Lt Ex P1 P2) as (o & Po & So & Lo). fold src in Po.
  destruct (mark_facts src alt rest S1 S2 S3 Q2 A2 A3) as (n & T & Lm & H1 & H2 & H3).
  assert (R : replacement fs base (mark_tag src alt ++ rest) (n + 1) = Some o).
  { unfold replacement. rewrite H1, H2, H3. cbv zeta.
    assert (Ef : effective fs base src = Some src). { unfold effective, src. rewrite wildcard_no by assumption. pose proof (there_ex fs base a e Nb Na1 Na2 Nc Ns La [] e (or_introl eq_refl)) as Th. cbn [app] in Th. rewrite Th; [|intro I; apply Nc; apply in_or_app; now right]. change (a ++ B "." ++ e) with (a ++ "."%char :: e) in Ex. now rewrite Ex. }
    rewrite Ef. replace (is_video_auto src) with false by (symmetry; now apply not_video). exact Po. }
  change (marked_image a e alt) with (mark_tag src alt). rewrite <- So. apply (one_tag fs base before (mark_tag src alt) rest o n Nb); [eexists; reflexivity|apply mark_img|exact T|exact Lm|apply mark_marked2|exact R|exact Lo|exact Nbe|exact Nre].
Qed.
Print Assumptions C329_picture_partial.
Example C329_case :
  expand (disk ["d/x/a.png"; "d/x/a@3x.png"; "d/x/a.webp"; "d/x/a@2x.webp"]%string) (B "d") (B "<p>" ++ marked_image (B "x/a") (B "png") (B "A cat") ++ B "</p>") =
  Some (B "<p><picture><source type=" ++ q (B "image/webp") ++ B " srcset=" ++ q (B "x/a.webp 1x, x/a@2x.webp 2x") ++ B "><img src=" ++ q (B "x/a.png") ++ B " alt=" ++ q (B "A cat") ++ B " srcset=" ++ q (B "x/a.png 1x, x/a@3x.png 3x") ++ B "></picture></p>").
Proof. vm_compute. reflexivity. Qed.
