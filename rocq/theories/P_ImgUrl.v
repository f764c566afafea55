(** Properties C317-C324: addresses of images and their variants. *)
From Verif Require Import Base BaseL L_Pass M_Attr L_Attr M_Encode S_Encode M_ImgUrl S_ImgUrl L_ImgUrl L_ImgUrl2.

Ltac asc := repeat (progress (rewrite <- ?app_assoc; cbn [app])).
Ltac notin := let H := fresh in intro H; cbn in H; repeat (destruct H as [H|H]; [discriminate H|]); exact H.

(** C317 *)
Theorem C317_encode : forall u, exists o, url_encode u = Some o /\ Forall (fun c => In c url_bytes) o /\ pct_decode o = pct_decode u.
Proof. intro u. exists (flat_map esc u). split; [apply encode_all|]. split; [apply esc_bytes|exact (decode_encode _ u (le_n _))]. Qed.
Example C317_case : url_encode (B "my pic%20é%.png") = Some (B "my%20pic%20%C3%A9%.png").
Proof. vm_compute. reflexivity. Qed.
Print Assumptions C317_encode.

(** C318 *)
Theorem C318_fixed : forall u, (url_encode u = Some u <-> Forall (fun c => In c url_bytes) u) /\ exists o, url_encode u = Some o /\ url_encode o = Some o.
Proof.
  intro u. rewrite encode_all. split; [split; [intros [= H]; rewrite <- H; apply esc_bytes|intro H; now rewrite esc_same]|]. exists (flat_map esc u). split; [reflexivity|]. now rewrite encode_all, esc_same by apply esc_bytes.
Qed.
Example C318_case : url_encode (B "a%20b?c=d#e") = Some (B "a%20b?c=d#e").
Proof. vm_compute. reflexivity. Qed.
Print Assumptions C318_fixed.

(** C319: the host is never changed. It is when nothing follows it: *)
Theorem C319_refuted : forall k s a e, ~ In ":"%char s -> inner s -> ~ In "/"%char a -> inner a -> ~ In "/"%char e -> extension e ->
  suffix k (s ++ B "://" ++ a ++ "."%char :: e) = Some (s ++ B "://" ++ a ++ k ++ "."%char :: e).
Proof.
  intros k s a e N1 (S1 & S2) N2 (A1 & A2) N3 Ee. pose proof (start_host s (a ++ "."%char :: e) N1 ltac:(intro I; apply in_app_or in I as [I|[I|I]]; (contradiction || discriminate I))) as P.
  assert (E : s ++ B "://" ++ a ++ "."%char :: e = [] ++ (s ++ B "://" ++ a) ++ "."%char :: e ++ []) by (cbn [app]; rewrite app_nil_r, <- !app_assoc; reflexivity). assert (I : inner (s ++ B "://" ++ a)) by (split; intro I; apply in_app_or in I as [I|I]; try contradiction; apply in_app_or in I as [I|I]; try contradiction; cbn in I; repeat (destruct I as [I|I]; [discriminate I|]); exact I).
  destruct (suffix_at _ k (s ++ B "://" ++ a) e [] (cut_at _ [] (s ++ B "://" ++ a) e [] E P I Ee (or_introl eq_refl)) E) as (Q & _). rewrite Q, app_nil_r, <- !app_assoc. reflexivity.
Qed.
Example C319_refuted_case : suffix (B "@2x") (B "https://example.com") = Some (B "https://example@2x.com").
Proof. vm_compute. reflexivity. Qed.
Print Assumptions C319_refuted.
Theorem C319_partial : forall k s h r, ~ In ":"%char s -> ~ In "/"%char h -> let host := s ++ B "://" ++ h ++ B "/" in forall o, suffix k (host ++ r) = Some o -> exists r', o = host ++ r'.
Proof.
  intros k s h r N1 N2 host o H. pose proof (start_abs s h r N1 N2) as P. assert (E : host ++ r = (s ++ B "://" ++ h) ++ "/"%char :: r) by (unfold host; asc; reflexivity). assert (P' : path_start ((s ++ B "://" ++ h) ++ "/"%char :: r) = length (s ++ B "://" ++ h)) by (rewrite <- P; f_equal; asc; reflexivity).
  rewrite E in H. destruct (suffix_from k _ _ P') as [Q|(y & e & t & Z & _ & _ & _ & Q)]; rewrite Q in H; [discriminate|]. injection H as <-. destruct y as [|c y]; [discriminate Z|]. cbn in Z. injection Z as <- Z. exists (y ++ k ++ "."%char :: e ++ t). unfold host. asc. reflexivity.
Qed.
Example C319_case : suffix (B "@2x") (B "https://a.b/c/d.png?e=f.g") = Some (B "https://a.b/c/d@2x.png?e=f.g").
Proof. vm_compute. reflexivity. Qed.
Print Assumptions C319_partial.

(** C320: the suffix goes before the extension of the file. Not with a slash in the query of a name without directory; nor with a dot in a directory: *)
Theorem C320_refuted : forall k d e q y x, ~ within (B "://") (d ++ "."%char :: e ++ "?"%char :: q ++ "/"%char :: y ++ "."%char :: x) -> ~ In "/"%char (d ++ "."%char :: e ++ "?"%char :: q) -> inner y -> extension x ->
  suffix k (d ++ "."%char :: e ++ "?"%char :: q ++ "/"%char :: y ++ "."%char :: x) = Some (d ++ "."%char :: e ++ "?"%char :: q ++ "/"%char :: y ++ k ++ "."%char :: x).
Proof.
  intros k d e q y x N1 N2 (Y1 & Y2) Ex. pose proof (start_rel _ N1) as P. set (f := d ++ "."%char :: e ++ "?"%char :: q) in *. assert (E : d ++ "."%char :: e ++ "?"%char :: q ++ "/"%char :: y ++ "."%char :: x = f ++ "/"%char :: y ++ "."%char :: x) by (unfold f; asc; reflexivity). rewrite E in P |- *. replace (strchr "/" (f ++ "/"%char :: y ++ "."%char :: x)) with (Some (length f)) in P by (symmetry; apply strchr_some; exists f, (y ++ "."%char :: x); auto).
  assert (E2 : f ++ "/"%char :: y ++ "."%char :: x = f ++ ("/"%char :: y) ++ "."%char :: x ++ []) by (rewrite app_nil_r; reflexivity). assert (I : inner ("/"%char :: y)) by (split; intros [I|I]; (discriminate I || contradiction)). destruct (suffix_at _ k (f ++ "/"%char :: y) x [] (cut_at _ f ("/"%char :: y) x [] E2 P I Ex (or_introl eq_refl))) as (Q & _); [rewrite E2, <- app_assoc; reflexivity|]. rewrite Q, app_nil_r. unfold f. asc. reflexivity.
Qed.
Example C320_refuted_case : suffix (B "@2x") (B "icon.png?x=a/b.c") = Some (B "icon.png?x=a/b@2x.c") /\ suffix (B "@2x") (B "img/v1.2/icon") = Some (B "img/v1@2x.2/icon").
Proof. vm_compute. split; reflexivity. Qed.
Print Assumptions C320_refuted.
Theorem C320_partial : forall k d e t, let u := d ++ "."%char :: e ++ t in ~ within (B "://") u -> inner d -> extension e -> ~ In "/"%char e -> tail t -> In "/"%char d \/ ~ In "/"%char t ->
  suffix k u = Some (d ++ k ++ "."%char :: e ++ t) /\ forall v, with_ext u v = Some (d ++ "."%char :: v ++ t).
Proof.
  intros k d e t u N (D1 & D2) Ee Ne T O. pose proof (start_rel u N) as P. destruct (strchr_cut "/" d) as [Nd|(p & q & -> & Np)].
  - assert (Nu : ~ In "/"%char u) by (intro I; apply in_app_or in I as [I|[I|I]]; [contradiction|discriminate I|]; apply in_app_or in I as [I|I]; [contradiction|]; destruct O as [O|O]; contradiction). rewrite (proj2 (strchr_none _ _) Nu) in P. exact (suffix_at u k d e t (cut_at u [] d e t eq_refl P (conj D1 D2) Ee T) eq_refl).
  - assert (E : u = p ++ ("/"%char :: q) ++ "."%char :: e ++ t) by (unfold u; rewrite <- app_assoc; reflexivity). replace (strchr "/" u) with (Some (length p)) in P by (symmetry; apply strchr_some; exists p, (q ++ "."%char :: e ++ t); split; [exact E|auto]). apply (suffix_at u k (p ++ "/"%char :: q) e t); [|reflexivity]. apply (cut_at u p ("/"%char :: q) e t E P); [split; intro I; [apply D1|apply D2]; apply in_or_app; now right|exact Ee|exact T].
Qed.
Example C320_case : suffix (B "@3x") (B "img/icon.png#f") = Some (B "img/icon@3x.png#f") /\ with_ext (B "icon.png?v=1.2") (B "webp") = Some (B "icon.webp?v=1.2").
Proof. vm_compute. split; reflexivity. Qed.
Print Assumptions C320_partial.

(** C321 *)
Theorem C321_shape : forall k v u, (suffix k u = None <-> with_ext u v = None) /\ forall o, suffix k u = Some o -> exists a e t, u = a ++ "."%char :: e ++ t /\ extension e /\ tail t /\ o = a ++ k ++ "."%char :: e ++ t /\ with_ext u v = Some (a ++ "."%char :: v ++ t).
Proof.
  intros k v u. split; [unfold suffix, with_ext; destruct (cut u) as [(d, n)|]; split; (discriminate || reflexivity)|]. intros o H. destruct (cut u) as [(d, n)|] eqn:C; [|unfold suffix in H; rewrite C in H; discriminate]. destruct (cut_inv u d n C) as (a & e & t & E & -> & -> & Ee & T). destruct (suffix_at u k a e t C E) as (Q1 & Q2). exists a, e, t. rewrite Q1 in H. injection H as <-. repeat split; auto; apply Ee.
Qed.
Example C321_case : suffix (B "@2x") (B "a.b") = Some (B "a@2x.b") /\ suffix (B "@2x") (B "a?b.c") = None.
Proof. vm_compute. split; reflexivity. Qed.
Print Assumptions C321_shape.

(** C322 *)
Theorem C322_srcset : forall u x w2 w3, srcset u x w2 w3 = Some None /\ with_ext u x = None \/
  exists a e t, u = a ++ "."%char :: e ++ t /\ extension e /\ tail t /\
    srcset u x w2 w3 = Some (Some (a ++ B "." ++ x ++ t ++ B " 1x" ++ (if w2 then B ", " ++ a ++ B "@2x." ++ x ++ t ++ B " 2x" else []) ++ (if w3 then B ", " ++ a ++ B "@3x." ++ x ++ t ++ B " 3x" else []))).
Proof.
  intros u x w2 w3. destruct (cut u) as [c|] eqn:C.
  - right. destruct (both u c C) as (a & e & t & E & Ee & T & W & K). exists a, e, t. split; [exact E|]. split; [exact Ee|]. split; [exact T|]. unfold srcset. rewrite W. destruct (K (B "@2x") ltac:(split; notin) ltac:(split; notin)) as (K1 & K2). destruct (K (B "@3x") ltac:(split; notin) ltac:(split; notin)) as (K3 & K4). rewrite K1, K3, K2, K4.
    replace (_ <? _) with true; [destruct w2, w3; cbn [app B list_ascii_of_string]; do 2 f_equal; asc; reflexivity|]. symmetry. apply Nat.ltb_lt. destruct w2, w3; rewrite ?app_length; cbn [length B list_ascii_of_string]; rewrite ?app_length; cbn [length B list_ascii_of_string]; rewrite ?app_length; cbn [length]; rewrite ?app_length; cbn [length]; lia.
  - left. unfold srcset. assert (W : with_ext u x = None) by (unfold with_ext; now rewrite C). rewrite W. split; reflexivity.
Qed.
Example C322_case : srcset (B "i/a.png?q") (B "webp") true true = Some (Some (B "i/a.webp?q 1x, i/a@2x.webp?q 2x, i/a@3x.webp?q 3x")).
Proof. vm_compute. reflexivity. Qed.
Print Assumptions C322_srcset.

(** C323: the renderer finds the variants of every address with an extension. Not with a dot in the query: *)
Theorem C323_refuted : forall a e q x v, inner a -> inner e -> ~ In "."%char x -> with_ext_auto (a ++ "."%char :: e ++ "?"%char :: q ++ "."%char :: x) v = None.
Proof.
  intros a e q x v (A1 & A2) (E1 & E2) N. unfold with_ext_auto. assert (E : a ++ "."%char :: e ++ "?"%char :: q ++ "."%char :: x = (a ++ "."%char :: e ++ "?"%char :: q) ++ "."%char :: x) by (asc; reflexivity). rewrite E, strrchr_last by exact N. rewrite <- E. replace (end_auto (a ++ "."%char :: e ++ "?"%char :: q ++ "."%char :: x)) with (length (a ++ "."%char :: e)).
  - rewrite E. rewrite !app_length. cbn [length]. rewrite !app_length. cbn [length]. rewrite (proj2 (Nat.leb_le _ _)) by lia. reflexivity.
  - symmetry. replace (a ++ "."%char :: e ++ "?"%char :: q ++ "."%char :: x) with ((a ++ "."%char :: e) ++ "?"%char :: q ++ "."%char :: x) by (rewrite <- app_assoc; reflexivity). apply end_at; [split; intro I; apply in_app_or in I as [I|[I|I]]; (contradiction || discriminate I)|right; left; eexists; reflexivity].
Qed.
Example C323_refuted_case : with_ext_auto (B "a.png?v=1.2") (B "webp") = None /\ with_ext (B "a.png?v=1.2") (B "webp") = Some (B "a.webp?v=1.2").
Proof. vm_compute. split; reflexivity. Qed.
Print Assumptions C323_refuted.
Theorem C323_partial : forall a e t v, inner a -> extension e -> ~ In "."%char t -> t = [] \/ (exists r, t = "?"%char :: r) \/ (exists r, t = "#"%char :: r /\ ~ In "?"%char r) -> with_ext_auto (a ++ "."%char :: e ++ t) v = Some (a ++ "."%char :: v ++ t).
Proof.
  intros a e t v (A1 & A2) ((E1 & E2) & E3) N T. unfold with_ext_auto. rewrite strrchr_last by (intro I; apply in_app_or in I as [I|I]; contradiction). assert (E : a ++ "."%char :: e ++ t = (a ++ "."%char :: e) ++ t) by (rewrite <- app_assoc; reflexivity). assert (Q : end_auto (a ++ "."%char :: e ++ t) = length (a ++ "."%char :: e)) by (rewrite E; apply end_at; [split; intro I; apply in_app_or in I as [I|[I|I]]; (contradiction || discriminate I)|exact T]). rewrite Q. replace (length (a ++ "."%char :: e ++ t) - length ("."%char :: e ++ t)) with (length a) by (rewrite app_length; lia).
  replace (length (a ++ "."%char :: e) <=? length a) with false by (symmetry; apply Nat.leb_gt; rewrite app_length; cbn; lia). rewrite first_n. rewrite E, skip_n. reflexivity.
Qed.
Example C323_case : with_ext_auto (B "d/a.png#x") (B "avif") = Some (B "d/a.avif#x").
Proof. vm_compute. reflexivity. Qed.
Print Assumptions C323_partial.

(** C324: videos are known by their extension. Not with a question mark in the fragment: *)
Theorem C324_refuted : forall a e r s, ~ In "?"%char a -> ~ In "?"%char e -> ~ In "?"%char r -> ~ In "."%char e -> ~ In "."%char r -> let u := a ++ "."%char :: e ++ "#"%char :: r ++ "?"%char :: s in is_video u = false /\ is_video_auto u = false.
Proof.
  intros a e r s N1 N2 N3 D1 D2 u. assert (Q : end_auto u = length (a ++ "."%char :: e ++ "#"%char :: r)). { unfold u. replace (a ++ "."%char :: e ++ "#"%char :: r ++ "?"%char :: s) with ((a ++ "."%char :: e) ++ "#"%char :: r ++ "?"%char :: s) by (rewrite <- app_assoc; reflexivity). rewrite end_late; [rewrite <- app_assoc; reflexivity| |exact N3]. intro I. apply in_app_or in I as [I|[I|I]]; (contradiction || discriminate I). }
  assert (E : u = (a ++ "."%char :: e ++ "#"%char :: r) ++ "?"%char :: s) by (unfold u; asc; reflexivity). assert (V : video_ext (e ++ "#"%char :: r) = false). { destruct (video_ext (e ++ "#"%char :: r)) eqn:V; [|reflexivity]. exfalso. apply video_in in V. rewrite map_app in V. cbn [map] in V. change (tolower "#"%char) with "#"%char in V. assert (I : In "#"%char (map tolower e ++ "#"%char :: map tolower r)) by (apply in_or_app; right; now left). cbn [videos In] in V. repeat (destruct V as [V|V]; [rewrite <- V in I; cbn in I; repeat (destruct I as [I|I]; [discriminate I|]); exact I|]). exact V. }
  unfold is_video, is_video_auto. rewrite Q, E, first_n. rewrite strrchr_last by (intro I; apply in_app_or in I as [I|[I|I]]; (contradiction || discriminate I)). rewrite V. split; [apply andb_false_r|reflexivity].
Qed.
Example C324_refuted_case : is_video (B "a.mp4#t=1?") = false.
Proof. vm_compute. reflexivity. Qed.
Print Assumptions C324_refuted.
Theorem C324_partial : (forall a e t, inner a -> In (map tolower e) videos -> t = [] \/ (exists r, t = "?"%char :: r) \/ (exists r, t = "#"%char :: r /\ ~ In "?"%char r) -> is_video_auto (a ++ "."%char :: e ++ t) = true /\ (a <> [] -> is_video (a ++ "."%char :: e ++ t) = true))
  /\ forall u, is_video u = true \/ is_video_auto u = true -> exists a e t, u = a ++ "."%char :: e ++ t /\ In (map tolower e) videos /\ tail t.
Proof.
  assert (Cl : forall e c, In (map tolower e) videos -> In c (B "?#.") -> ~ In c e). { intros e c V I J. apply (in_map tolower) in J. assert (T : tolower c = c) by (cbn in I; destruct I as [<-|[<-|[<-|[]]]]; reflexivity). rewrite T in J. cbn [videos In] in V. repeat (destruct V as [V|V]; [rewrite <- V in J; cbn in I; destruct I as [<-|[<-|[<-|[]]]]; cbn in J; repeat (destruct J as [J|J]; [discriminate J|]); exact J|]). exact V. }
  split.
  - intros a e t (A1 & A2) V T. assert (E : a ++ "."%char :: e ++ t = (a ++ "."%char :: e) ++ t) by (rewrite <- app_assoc; reflexivity). assert (Q : end_auto (a ++ "."%char :: e ++ t) = length (a ++ "."%char :: e)). { rewrite E. apply end_at; [|exact T]. split; intro I; apply in_app_or in I as [I|[I|I]]; try contradiction; try discriminate I; revert I; apply Cl; auto; cbn; auto. }
    unfold is_video, is_video_auto. rewrite Q, E, first_n, strrchr_last by (apply Cl; cbn; auto). rewrite (proj2 (video_in e) V). split; [reflexivity|]. intro Na. rewrite andb_true_r. apply negb_true_iff, Nat.eqb_neq. rewrite app_length. destruct a; [now destruct Na|cbn; lia].
  - intros u H. assert (K : exists e, strrchr "." (firstn (end_auto u) u) = Some ("."%char :: e) /\ video_ext e = true). { unfold is_video, is_video_auto in H. destruct (strrchr "." (firstn (end_auto u) u)) as [s|] eqn:S; [|destruct H; discriminate]. destruct (strrchr_inv _ _ _ S) as (a & e & _ & -> & _). exists e. split; [reflexivity|]. destruct H as [H|H]; [now apply andb_prop in H|exact H]. }
    destruct K as (e & S & V). destruct (strrchr_inv _ _ _ S) as (a & e' & E & [= <-] & _). exists a, e, (skipn (end_auto u) u). split; [rewrite <- (firstn_skipn (end_auto u) u) at 1; rewrite E, <- app_assoc; reflexivity|]. split; [now apply video_in|]. clear. unfold end_auto. destruct (strchr "?" u) as [k|] eqn:Q; [apply strchr_some in Q as (a & b & -> & <- & _); rewrite skip_n; right; exists b; now left|]. destruct (strchr "#" u) as [k|] eqn:R; [apply strchr_some in R as (a & b & -> & <- & _); rewrite skip_n; right; exists b; now right|]. rewrite skipn_all. now left.
Qed.
Example C324_case : is_video (B "dir/Clip.MP4?x=1") = true /\ is_video (B ".mp4") = false /\ is_video_auto (B ".mp4") = true.
Proof. vm_compute. repeat split. Qed.
Print Assumptions C324_partial.
