(** Images marked for automatic replacement: C325-C328. *)
From Verif Require Import Base BaseL L_Pass M_Attr M_Relax M_Embed M_ImgUrl S_ImgUrl L_ImgUrl M_Media S_Media L_Media L2_Media.

(** The marked video a.mp4 with a description *)
Definition described (alt rest : str) : str := B "<img src=" ++ DQ :: B "a.mp4" ++ DQ :: B " alt=" ++ DQ :: alt ++ DQ :: B " data-apex-replace-auto=1>" ++ rest.

(** C325: full statement: no file system and no page make the replacement write behind its buffers. It is false: with a description of 542 bytes or more the size that is left wraps around. *)
Theorem C325_media_safe_refuted : forall fs base alt rest, base <> [] -> fs (base ++ B "/a.mp4") = true -> ~ In DQ alt -> ~ In BS alt -> 542 <= length alt -> expand fs base (described alt rest) = None.
Proof.
  intros fs base alt rest Nb F N1 N2 L. unfold expand. destruct base as [|d base0] eqn:Eb; [contradiction|]. rewrite <- Eb in *. clear d base0 Eb.
  assert (T : Tag (9 + (5 + 2 + (5 + (length alt + 2 + (25 + 1))))) (described alt rest)).
  { unfold described. apply (tag_plain (B "<img src=")); [reflexivity|]. apply (tag_dq (B "a.mp4")); [apply not_in_b; reflexivity|apply not_in_b; reflexivity|]. apply (tag_plain (B " alt=")); [reflexivity|]. apply tag_dq; [exact N1|exact N2|]. apply (tag_plain (B " data-apex-replace-auto=1") 1 (">"%char :: rest)); [reflexivity|]. apply tag_gt. }
  apply tag_tag_end in T as (e & T & En).
  assert (M : marked (described alt rest) = true). { apply marked_in. exists (B "<img src=" ++ DQ :: B "a.mp4" ++ DQ :: B " alt=" ++ DQ :: alt ++ DQ :: B " "), (B ">" ++ rest). unfold described, marker. repeat (progress (rewrite <- ?app_assoc; cbn [app])). reflexivity. }
  assert (As : attr true (B "src") (described alt rest) (e + 1) = Some (B "a.mp4")).
  { unfold described. rewrite (attr_pass (B "src") (B "<img ") (B "src=" ++ DQ :: B "a.mp4" ++ DQ :: B " alt=" ++ DQ :: alt ++ DQ :: B " data-apex-replace-auto=1>" ++ rest) (e - 4)); [|apply not_in_b; reflexivity|apply not_in_b; reflexivity|change (length (B "<img ")) with 5; lia]. apply (attr_here (B "src") (B "a.mp4")); [discriminate|reflexivity|apply not_in_b; reflexivity|apply not_in_b; reflexivity|change (length (B "src")) with 3; change (length (B "a.mp4")) with 5; lia]. }
  assert (Aa : attr true (B "alt") (described alt rest) (e + 1) = Some alt).
  { unfold described. change (B "<img src=" ++ DQ :: B "a.mp4" ++ DQ :: B " alt=" ++ DQ :: alt ++ DQ :: B " data-apex-replace-auto=1>" ++ rest) with (B "<img " ++ B "src=" ++ (DQ :: B "a.mp4" ++ DQ :: B " ") ++ B "alt" ++ "="%char :: DQ :: alt ++ DQ :: B " data-apex-replace-auto=1>" ++ rest).
    rewrite (attr_pass (B "alt") (B "<img ") _ (e - 4)); [|apply not_in_b; reflexivity|apply not_in_b; reflexivity|change (length (B "<img ")) with 5; lia].
    remember (e - 8) as k eqn:Ek. replace (e - 4) with (S (S (S (S k)))) by lia. set (w := (DQ :: B "a.mp4" ++ DQ :: B " ") ++ B "alt" ++ "="%char :: DQ :: alt ++ DQ :: B " data-apex-replace-auto=1>" ++ rest). change (attr (match rev (B "<img ") with [] => true | c :: _ => isspace c end) (B "alt") (B "src=" ++ w) (S (S (S (S k))))) with (attr false (B "alt") w k). subst w.
    rewrite (attr_pass (B "alt") (DQ :: B "a.mp4" ++ DQ :: B " ") _ (e - 16)); [|apply not_in_b; reflexivity|apply not_in_b; reflexivity|change (length (DQ :: B "a.mp4" ++ DQ :: B " ")) with 8; lia]. apply (attr_here (B "alt") alt); [discriminate|reflexivity|exact N1|exact N2|change (length (B "alt")) with 3; lia]. }
  assert (R : replacement fs base (described alt rest) (e + 1) = None).
  { unfold replacement. rewrite As, Aa. cbv zeta. assert (Ef : effective fs base (B "a.mp4") = Some (B "a.mp4")). { unfold effective. change (wildcard (B "a.mp4")) with false. cbv iota. rewrite there_ok; [|exact Nb|discriminate|discriminate|]; [change (B "/" ++ B "a.mp4") with (B "/a.mp4"); now rewrite F|]. intros (a & b & E). assert (I : In ":"%char (B "a.mp4")) by (rewrite E; apply in_or_app; right; now left). cbn in I. intuition discriminate. }
    rewrite Ef. change (is_video_auto (B "a.mp4")) with true. cbv iota. rewrite video_long; [reflexivity|]. change (length (B "a.mp4")) with 5. lia. }
  remember (described alt rest) as page eqn:Ep. assert (I : img_tag page = true) by (subst page; reflexivity). destruct page as [|c r]; [discriminate I|]. cbn [go]. unfold turn. rewrite I, T, M, R. reflexivity.
Qed.
Print Assumptions C325_media_safe_refuted.

(** What holds: if every image tag of the page is finished within 150 bytes, everything is written within the buffers and nothing is cut. *)
Theorem C325_media_safe_partial : forall fs base html, short_tags 150 html -> expand fs base html <> None.
Proof.
  intros fs base html H. unfold expand. destruct base as [|d base]; [discriminate|]. cbv zeta. rewrite go_safe; [discriminate|reflexivity|cbn; lia|lia|]. intros a t E. unfold turn. destruct (img_tag t) eqn:I; [|split; discriminate]. destruct (H a t E (img_tag_img t I)) as (n & Ln & T). apply tag_tag_end in T as (e & -> & En). destruct (marked t); [|split; discriminate]. pose proof (replacement_some fs (d :: base) t (e + 1) ltac:(lia)) as R. destruct (replacement fs (d :: base) t (e + 1)) as [[o|]|]; [split; discriminate|split; discriminate|contradiction].
Qed.
Print Assumptions C325_media_safe_partial.

Definition disk (l : list string) : present := fun p => existsb (fun x => seq_ p (B x)) l.
Example C325_case :
  expand (disk ["d/a.png"; "d/a.webp"; "d/a@2x.png"]%string) (B "d") (B "<p><IMG src='a.*' alt='x>y' data-apex-replace-auto=1></p>") =
  Some (B "<p><picture><source type=" ++ quoted (B "image/webp") ++ B " srcset=" ++ quoted (B "a.webp 1x") ++ B "><img src=" ++ quoted (B "a.png") ++ B " alt=" ++ quoted (B "x>y") ++ B " srcset=" ++ quoted (B "a.png 1x, a@2x.png 2x") ++ B "></picture></p>").
Proof. vm_compute. reflexivity. Qed.

(** C326: full statement: an image without the mark is left as it is. It is false: the mark of a later image counts. *)
Theorem C326_only_marked_refuted : ~ (forall fs base tag rest o, Tag (length tag) tag -> ~ S_Media.within marker tag -> expand fs base (tag ++ rest) = Some o -> exists r, o = tag ++ r).
Proof.
  intro H. destruct (H (disk ["d/a.png"; "d/a.webp"]%string) (B "d") (B "<img src='a.png'>") (B "<img src='b.png' data-apex-replace-auto=1>") (B "<picture><source type=" ++ quoted (B "image/webp") ++ B " srcset=" ++ quoted (B "a.webp 1x") ++ B "><img src=" ++ quoted (B "a.png") ++ B " alt=" ++ quoted [] ++ B "></picture><img src='b.png' data-apex-replace-auto=1>")) as (r & E).
  - apply (tag_plain (B "<img src=") 8). reflexivity. apply (tag_quote SQ (B "a.png") 1 (B ">")); [now right|apply not_in_b; reflexivity|apply not_in_b; reflexivity|apply tag_gt].
  - intros (a & b & E). assert (I : In "x"%char (B "<img src='a.png'>")) by (rewrite E; apply in_or_app; right; apply in_or_app; left; vm_compute; tauto). vm_compute in I. intuition discriminate.
  - vm_compute. reflexivity.
  - vm_compute in E. discriminate E.
Qed.
Print Assumptions C326_only_marked_refuted.
(** What holds: a page without the mark is left as it is. *)
Theorem C326_only_marked_partial : forall fs base html, ~ S_Media.within marker html -> expand fs base html = Some html.
Proof.
  intros fs base html N. unfold expand. destruct base as [|d base]; [reflexivity|]. cbv zeta. rewrite go_same; [reflexivity|cbn [length]; lia|lia|]. intros a t -> n o. unfold turn. destruct (img_tag t); [|split; discriminate]. destruct (tag_end None t); [|split; discriminate]. replace (marked t) with false; [split; discriminate|]. symmetry. unfold marked. rewrite strstr_absent; [reflexivity|discriminate|]. intros (x & y & ->). apply N. exists (a ++ x), y. now rewrite <- app_assoc.
Qed.
Print Assumptions C326_only_marked_partial.
Example C326_case : expand (fun _ => true) (B "d") (B "<p><img src='a.png'><img ") = Some (B "<p><img src='a.png'><img ").
Proof. vm_compute. reflexivity. Qed.

(** C327: if no file with a relative address exists below the base directory, whatever else exists, the page is unchanged. *)
Theorem C327_nothing_there : forall fs base html, (forall u, relative u -> fs (base ++ B "/" ++ u) = false) -> expand fs base html = Some html.
Proof.
  intros fs base html H. unfold expand. destruct base as [|d base0] eqn:Eb; [reflexivity|]. rewrite <- Eb in *. clear Eb d base0. cbv zeta. rewrite go_same; [reflexivity|cbn [length]; lia|lia|]. intros a t _ n o. unfold turn. destruct (img_tag t); [|split; discriminate]. destruct (tag_end None t) as [e|]; [|split; discriminate]. destruct (marked t); [|split; discriminate].
  assert (N : forall u, there fs base u = false). { intro u. destruct (there fs base u) eqn:E; [|reflexivity]. apply there_rel in E as (R & F). rewrite (H u R) in F. discriminate. }
  assert (Ef : forall src, effective fs base src = None). { intro src. unfold effective. rewrite N. destruct (wildcard src); [|reflexivity]. match goal with |- first_there _ _ _ ?l = _ => generalize l end. induction l as [|x l IH]; [reflexivity|]. cbn [first_there]. rewrite IH. destruct (with_ext_auto src x); [now rewrite N|reflexivity]. }
  unfold replacement. rewrite Ef. split; discriminate.
Qed.
Print Assumptions C327_nothing_there.
Example C327_case : expand (disk ["/a.png"; "http://x/a.png"; "e/a.png"]%string) (B "d") (B "<img src='/a.png' data-apex-replace-auto=1><img src='http://x/a.png' data-apex-replace-auto=1><img src='a.png' data-apex-replace-auto=1>")
  = Some (B "<img src='/a.png' data-apex-replace-auto=1><img src='http://x/a.png' data-apex-replace-auto=1><img src='a.png' data-apex-replace-auto=1>").
Proof. vm_compute. reflexivity. Qed.

(** C328: only files with a relative address below the base directory are looked at: two file systems that agree on them give the same page. *)
Theorem C328_only_below_base : forall fs1 fs2 base html, (forall u, relative u -> fs1 (base ++ B "/" ++ u) = fs2 (base ++ B "/" ++ u)) -> expand fs1 base html = expand fs2 base html.
Proof.
  intros fs1 fs2 base html H. unfold expand. destruct base as [|d base0] eqn:Eb; [reflexivity|]. rewrite <- Eb in *. clear Eb d base0. rewrite (go_local fs1 fs2); [reflexivity|]. intro u. destruct (there fs1 base u) eqn:E1; destruct (there fs2 base u) eqn:E2; try reflexivity.
  - pose proof (there_rel fs1 base u E1) as (R & F). unfold there in E1, E2. destruct base; [discriminate|]. destruct u; [discriminate|]. rewrite <- (H _ R), F in E2. rewrite F in E1. congruence.
  - pose proof (there_rel fs2 base u E2) as (R & F). unfold there in E1, E2. destruct base; [discriminate|]. destruct u; [discriminate|]. rewrite (H _ R), F in E1. rewrite F in E2. congruence.
Qed.
Print Assumptions C328_only_below_base.
Example C328_case : expand (disk ["d/a.png"; "d/a.webp"]%string) (B "d") (B "<img src='a.png' data-apex-replace-auto=1>") = expand (disk ["a.png"; "d/a.png"; "/a.webp"; "d/a.webp"]%string) (B "d") (B "<img src='a.png' data-apex-replace-auto=1>").
Proof. vm_compute. reflexivity. Qed.
