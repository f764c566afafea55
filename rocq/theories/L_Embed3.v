(** Lemmas for M_Embed: tags without a source, media types, and pages whose text is lost. *)
From Verif Require Import Base BaseL L_Pass M_Attr L_Attr M_Encode L_Encode S_Encode M_Relax M_Spans M_Embed S_Embed L_Embed L_Embed2.

Lemma far_src f w q : ~ within (B "src=") f -> quote q -> forall k, strstr (B "src=" ++ [q]) (f ++ ">"%char :: w) = Some k -> length f < k.
Proof.
  intros N Q k E. apply strstr_at in E as (a & b & E & L). destruct (Nat.lt_ge_cases (length f) k) as [C|C]; [exact C|]. exfalso. destruct (app_split f (">"%char :: w) a ((B "src=" ++ [q]) ++ b) E) as (z & Z1 & Z2); [lia|]. destruct (Nat.le_gt_cases 4 (length z)) as [K|K].
  - destruct (app_split z (">"%char :: w) (B "src=") (q :: b)) as (v & V & _); [rewrite <- Z2; reflexivity|exact K|]. apply N. rewrite Z1, V. exists a, v. reflexivity.
  - destruct z as [|z1 [|z2 [|z3 [|z4 z]]]]; cbn in K; try lia; injection Z2 as; discriminate.
Qed.
Lemma no_source f w : ~ within (B "src=") f -> source (f ++ ">"%char :: w) (length f) = None.
Proof.
  intro N. unfold source. assert (K2 : forall k, strstr (B "src='") (f ++ ">"%char :: w) = Some k -> (k <? length f) = false) by (intros k E; apply Nat.ltb_ge; pose proof (far_src f w SQ N (or_intror eq_refl) k E); lia).
  destruct (strstr (B "src=" ++ [DQ]) (f ++ ">"%char :: w)) as [k|] eqn:E.
  - pose proof (far_src f w DQ N (or_introl eq_refl) k E) as L. replace (length f <? k) with true by (symmetry; now apply Nat.ltb_lt). destruct (strstr (B "src='") _) as [k2|] eqn:E2; [|reflexivity]. now rewrite (K2 k2 eq_refl).
  - destruct (strstr (B "src='") _) as [k2|] eqn:E2; [|reflexivity]. now rewrite (K2 k2 eq_refl).
Qed.
Lemma turn_none fs base z w : ~ In ">"%char z -> ~ within (B "src=") (B "<img" ++ z) -> turn fs base ((B "<img" ++ z ++ B ">") ++ w) = Piece (length (B "<img" ++ z ++ B ">")) (B "<img" ++ z ++ B ">") (length (B "<img" ++ z ++ B ">")).
Proof.
  intros N1 N2. replace ((B "<img" ++ z ++ B ">") ++ w) with ((B "<img" ++ z) ++ ">"%char :: w) by (repeat (rewrite <- app_assoc; cbn [app B list_ascii_of_string]); reflexivity).
  unfold turn. replace (starts (B "<img") ((B "<img" ++ z) ++ ">"%char :: w)) with true by (symmetry; apply starts_spec; exists (z ++ ">"%char :: w); now rewrite <- app_assoc). rewrite first_gt by (intro I; apply in_app_or in I as [I|I]; [cbn in I; repeat (destruct I as [I|I]; [discriminate I|]); exact I|contradiction]). rewrite (no_source _ w N2).
  replace (length (B "<img" ++ z) + 1) with (length (B "<img" ++ z ++ B ">")) by len. replace ((B "<img" ++ z) ++ ">"%char :: w) with ((B "<img" ++ z ++ B ">") ++ w) by (repeat (rewrite <- app_assoc; cbn [app B list_ascii_of_string]); reflexivity). now rewrite firstn_len.
Qed.

Lemma data_some fs base u p c : ~ remote u -> place base u p -> fs p = Some c -> usable c -> exists e k, data_url fs base u = Some (B "data:" ++ mime p ++ B ";base64," ++ e) /\ b64_decode e = Some (c ++ repeat NUL k) /\ length e = (length c + 2) / 3 * 4.
Proof.
  intros R P F (Nz & L). assert (Ep : resolve u base = p). { unfold resolve. destruct P as [((r & ->) & ->)|(Nr & P)]; [reflexivity|]. rewrite (proj2 (ceq_neq _ _)) by (intro K; destruct u as [|k u]; [discriminate K|]; cbn in K; subst; apply Nr; now exists u). destruct P as [([-> | ->] & ->)|(d & -> & Nd & ->)]; [reflexivity|reflexivity|]. destruct d; [now destruct Nd|reflexivity]. }
  unfold data_url. destruct (starts (B "data:") u || _) eqn:E; [apply remote_bool in E; contradiction|]. rewrite Ep. unfold encoded. rewrite F. replace (10 * 1024 * 1024 <? N.of_nat (length c))%N with false by (symmetry; apply N.ltb_ge; exact L). destruct (base64_encode c) as [e|] eqn:Ee; [|destruct c; [now destruct Nz|discriminate Ee]]. destruct (encode_shape c e Ee) as (Le & _ & _ & k & D). exists e, k. auto.
Qed.

(** ** Media types *)
Lemma lower_stop c : stop_ext c = true \/ c = "."%char -> tolower c = c.
Proof. unfold stop_ext. rewrite !orb_true_iff, !ceq_eq. intros [[[[-> | ->]| ->]| ->]| ->]; reflexivity. Qed.
Lemma mime_known r e x t : In (x, t) types -> map tolower e = x -> mime (r ++ "."%char :: e) = t.
Proof.
  intros I E. assert (Nd : forall c, In c e -> stop_ext c = false /\ c <> "."%char). { intros c Ic. assert (K : forall d, tolower d = d -> (stop_ext d = true \/ d = "."%char) -> ~ In d e). { intros d Hd S Id. apply (in_map tolower) in Id. rewrite Hd, E in Id. clear - I Id S. unfold stop_ext in S. rewrite !orb_true_iff, !ceq_eq in S. cbn in I. repeat (destruct I as [I|I]; [injection I as <- _; cbn in Id; repeat (destruct Id as [<-|Id]; [destruct S as [[[[S|S]|S]|S]|S]; discriminate S|]); exact Id|]). exact I. }
    split; [destruct (stop_ext c) eqn:S; [|reflexivity]; destruct (K c (lower_stop c (or_introl S)) (or_introl S) Ic)|]. intros ->. exact (K "."%char eq_refl (or_intror eq_refl) Ic). }
  unfold mime. rewrite strrchr_last by (intro Id; destruct (Nd _ Id) as [_ H]; now apply H). replace (fst (span (fun c => negb (stop_ext c)) e)) with e. 2:{ rewrite <- (app_nil_r e) at 2. symmetry. clear - Nd. assert (F : Forall (fun c => negb (stop_ext c) = true) e) by (rewrite Forall_forall; intros c Ic; destruct (Nd c Ic) as [-> _]; reflexivity). rewrite app_nil_r. induction F as [|c e H F IH]; [reflexivity|]. cbn [span]. rewrite H. destruct (span _ e) eqn:Q. cbn [fst] in *. rewrite IH; [reflexivity|]. intros d Id. apply Nd. now right. }
  unfold nocase. cbn in I. repeat (destruct I as [I|I]; [injection I as <- <-; destruct e as [|e1 [|e2 [|e3 [|e4 [|e5 e]]]]]; try discriminate E; cbn [map] in E; injection E; intros; cbn [length B list_ascii_of_string firstn map]; repeat match goal with H : tolower _ = _ |- _ => rewrite H; clear H end; reflexivity|]). contradiction.
Qed.
Lemma seq_eq a b : seq_ a b = true -> a = b.
Proof. revert b. induction a as [|x a IH]; intros [|y b]; cbn; try discriminate; [reflexivity|]. intro H. apply andb_prop in H as [H1 H2]. apply ceq_eq in H1. apply IH in H2. congruence. Qed.
Lemma mime_other r e : ~ In "."%char e -> (forall c, In c e -> stop_ext c = false) -> (forall t, ~ In (map tolower e, t) types) -> mime (r ++ "."%char :: e) = B "image/png".
Proof.
  intros N1 N2 N3. unfold mime. rewrite strrchr_last by exact N1. replace (fst (span (fun c => negb (stop_ext c)) e)) with e. 2:{ clear - N2. induction e as [|c e IH]; [reflexivity|]. cbn [span]. rewrite (N2 c) by now left. cbn [negb]. destruct (span _ e) eqn:Q. cbn [fst] in *. f_equal. apply IH. intros d Id. apply N2. now right. }
  assert (K : forall x t, In (x, t) types -> (length e =? length x) && nocase x e = false). { intros x t I. destruct (length e =? length x) eqn:L; [|reflexivity]. apply Nat.eqb_eq in L. cbn [andb]. destruct (nocase x e) eqn:E; [|reflexivity]. exfalso. unfold nocase in E. rewrite <- L, firstn_all in E. apply seq_eq in E. apply (N3 t). rewrite E. exact I. }
  assert (K1 := K (B "jpg") _ (or_introl eq_refl)). assert (K2 := K (B "jpe") _ (or_intror (or_introl eq_refl))). assert (K3 := K (B "jpeg") _ (or_intror (or_intror (or_introl eq_refl)))). assert (K5 := K (B "gif") (B "image/gif")). assert (K6 := K (B "webp") (B "image/webp")). assert (K7 := K (B "svg") (B "image/svg+xml")). assert (K8 := K (B "bmp") (B "image/bmp")). assert (K9 := K (B "ico") (B "image/x-icon")).
  change (length (B "jpg")) with 3 in K1. change (length (B "jpe")) with 3 in K2. change (length (B "jpeg")) with 4 in K3. change (length (B "gif")) with 3 in K5. change (length (B "webp")) with 4 in K6. change (length (B "svg")) with 3 in K7. change (length (B "bmp")) with 3 in K8. change (length (B "ico")) with 3 in K9.
  rewrite andb_orb_distrib_r, K1, K2, K3, K5, K6, K7, K8, K9 by (cbn; auto 10). destruct (_ && nocase (B "png") e); reflexivity.
Qed.

(** ** A file that fills the buffer *)
Definition filler (m : nat) : files := fun p => if seq_ p (B "a") then Some (repeat "x"%char (3 * m)) else None.
Definition tag_a : str := img (B " ") DQ (B "a") [].
Definition tag_b : str := img (B " ") DQ (B "b") [].
Lemma first_ab c : c = "a"%char \/ c = "b"%char -> first_src (B " ") [c] DQ [].
Proof.
  intro C. split; [now left|]. split; [cbn; destruct C as [-> | ->]; intros [H|[H|[]]]; discriminate H|]. split; [destruct C as [-> | ->]; intros [H|[]]; discriminate H|]. split; [|discriminate]. intros p Hp (f & g & E). assert (L := f_equal (@length ascii) E). rewrite !app_length in L. cbn in L. destruct f; [discriminate E|cbn in L; lia].
Qed.
Lemma filler_data m : 1 <= m -> (N.of_nat (3 * m) <= 10 * 1024 * 1024)%N -> exists d, data_url (filler m) None (B "a") = Some d /\ length d = 22 + 4 * m.
Proof.
  intros M L. destruct (data_some (filler m) None (B "a") (B "a") (repeat "x"%char (3 * m))) as (e & k & E & _ & Le).
  - intros (p & r & I & Q). cbn in I. destruct I as [<-|[<-|[<-|[<-|[]]]]]; discriminate Q.
  - right. split; [intros (r & Q); discriminate Q|]. left. auto.
  - reflexivity.
  - split; [destruct m; [lia|]; discriminate|]. rewrite repeat_length. exact L.
  - eexists. split; [exact E|]. rewrite repeat_length in Le. replace (3 * m + 2) with (m * 3 + 2) in Le by lia. rewrite Nat.div_add_l in Le by lia. change (2 / 3) with 0 in Le. replace (mime (B "a")) with (B "image/png") by reflexivity. rewrite !app_length, Le. cbn. lia.
Qed.
