(** More lemmas about addresses: the variants of an address are cut at the same place. *)
From Verif Require Import Base BaseL L_Pass M_Attr L_Attr M_ImgUrl S_ImgUrl L_ImgUrl.

Lemma suffix_from k x z : path_start (x ++ z) = length x -> suffix k (x ++ z) = None \/ exists y e t, z = y ++ "."%char :: e ++ t /\ inner y /\ extension e /\ tail t /\ suffix k (x ++ z) = Some (x ++ y ++ k ++ "."%char :: e ++ t).
Proof.
  intro P. destruct (path_cut z) as (p & t & -> & (I1 & I2) & T). destruct (strrchr "." p) as [s|] eqn:S.
  - right. destruct (strrchr_inv _ _ _ S) as (y & e & -> & -> & N). assert (Iy : inner y) by (split; intro I; [apply I1|apply I2]; apply in_or_app; now left). assert (Ee : extension e) by (split; [split; intro I; [apply I1|apply I2]; apply in_or_app; right; now right|exact N]). exists y, e, t. split; [now rewrite <- app_assoc|]. split; [exact Iy|]. split; [exact Ee|]. split; [exact T|].
    assert (E : x ++ (y ++ "."%char :: e) ++ t = x ++ y ++ "."%char :: e ++ t) by (rewrite <- app_assoc; reflexivity). rewrite E in P |- *. destruct (suffix_at _ k (x ++ y) e t (cut_at _ x y e t eq_refl P Iy Ee T)) as (Q & _); [now rewrite <- app_assoc|]. rewrite Q. now rewrite <- app_assoc.
  - left. unfold suffix, cut. rewrite P, skip_n, path_len_at by (split || exact T; assumption). now rewrite first_n, S.
Qed.

Definition neutral (w : str) : Prop := ~ In ":"%char w /\ ~ In "/"%char w.
Lemma within_apart w a z : w <> [] -> neutral w -> within (B "://") (a ++ w ++ z) -> within (B "://") a \/ within (B "://") z.
Proof.
  intros Nw (W1 & W2) (f & g & E). destruct (Nat.le_gt_cases (length f + 3) (length a)) as [C|C].
  - left. assert (E' : f ++ B "://" ++ g = a ++ w ++ z) by congruence. replace (f ++ B "://" ++ g) with ((f ++ B "://") ++ g) in E' by (rewrite <- app_assoc; reflexivity). symmetry in E'. destruct (app_split a (w ++ z) (f ++ B "://") g E') as (v & V & _); [rewrite app_length; cbn; lia|]. exists f, v. rewrite V, <- app_assoc. reflexivity.
  - destruct (Nat.le_gt_cases (length a + length w) (length f)) as [D|D].
    + right. assert (E' : f ++ B "://" ++ g = (a ++ w) ++ z) by (rewrite <- app_assoc; congruence). destruct (app_split f (B "://" ++ g) (a ++ w) z E') as (v & V1 & V2); [rewrite app_length; lia|]. exists v, g. exact V2.
    + exfalso. set (i := Nat.max (length f) (length a)). assert (H1 : In (nth i (a ++ w ++ z) NUL) w). { rewrite app_nth2 by lia. rewrite app_nth1 by (destruct w; [now destruct Nw|cbn in *; lia]). apply nth_In. destruct w; [now destruct Nw|cbn in *; lia]. }
      rewrite E in H1. rewrite app_nth2 in H1 by lia. assert (K : i - length f < 3) by lia. destruct (i - length f) as [|[|[|?]]]; [exact (W1 H1)|exact (W2 H1)|exact (W2 H1)|lia].
Qed.
Lemma find_slash a w z : ~ In "/"%char w -> In "/"%char a -> exists j, j < length a /\ strchr "/" (a ++ w ++ z) = Some j /\ forall v, strchr "/" (a ++ v) = Some j.
Proof.
  intros _ I. destruct (strchr_cut "/" a) as [N|(p & q & -> & N)]; [contradiction|]. exists (length p). assert (K : forall v, strchr "/" ((p ++ "/"%char :: q) ++ v) = Some (length p)) by (intro v; apply strchr_some; exists p, (q ++ v); split; [now rewrite <- app_assoc|auto]). split; [rewrite app_length; cbn; lia|]. split; [apply K|exact K].
Qed.
Lemma late_slash a w z j : neutral w -> ~ In "/"%char a -> strchr "/" (a ++ w ++ z) = Some j -> length a + length w <= j.
Proof.
  intros (_ & W) N E. apply strchr_some in E as (p & q & E & <- & _). destruct (Nat.le_gt_cases (length a + length w) (length p)) as [C|C]; [exact C|]. exfalso. assert (I : In "/"%char (a ++ w)). { rewrite app_assoc in E. destruct (app_split (a ++ w) z p ("/"%char :: q) E) as (v & V1 & V2); [rewrite app_length; lia|]. destruct v as [|c v]; [rewrite app_nil_r in V1; rewrite <- V1, app_length in C; lia|]. cbn in V2. injection V2 as <- _. rewrite V1. apply in_or_app. right. now left. } apply in_app_or in I as [I|I]; contradiction.
Qed.
(** Inserting [x] before the dot does not move the path. *)
Lemma start_moves x a z : neutral x -> path_start (a ++ "."%char :: z) <= length a -> path_start (a ++ x ++ "."%char :: z) = path_start (a ++ "."%char :: z).
Proof.
  intros Nx. assert (Nd : neutral (B ".")) by (split; intros [H|[]]; discriminate H). assert (Nxd : neutral (x ++ B ".")) by (destruct Nx as (X1 & X2), Nd as (D1 & D2); split; intro I; apply in_app_or in I as [I|I]; contradiction).
  change (a ++ "."%char :: z) with (a ++ B "." ++ z). replace (a ++ x ++ "."%char :: z) with (a ++ (x ++ B ".") ++ z) by (rewrite <- app_assoc; reflexivity). generalize (B ".") (x ++ B ".") Nd Nxd (ltac:(discriminate) : B "." <> []) (ltac:(now destruct x) : x ++ B "." <> []). clear x Nx Nd Nxd. intros w v Nw Nv Zw Zv. unfold path_start.
  destruct (strstr_cut (B "://") a ltac:(discriminate) eq_refl) as [N|(p & q & -> & N)].
  - destruct (strstr_cut (B "://") z ltac:(discriminate) eq_refl) as [M|(p & q & -> & M)].
    + rewrite !strstr_absent; try discriminate; try (intro H; apply within_apart in H as [H|H]; [exact (N H)|exact (M H)|assumption|assumption]). cbn [skipn Nat.add].
      destruct (strchr "/" a) as [j|] eqn:S.
      * assert (I : In "/"%char a) by (apply strchr_some in S as (b & c & -> & _); apply in_or_app; right; now left). destruct (find_slash a w z (proj2 Nw) I) as (j' & _ & E1 & E2). rewrite E1, (E2 (v ++ z)). reflexivity.
      * apply strchr_none in S. destruct (strchr "/" (a ++ w ++ z)) as [j|] eqn:E1; [apply (late_slash a w z j Nw S) in E1; intro L; destruct w; [now destruct Zw|cbn in E1; lia]|]. intros _. rewrite (proj2 (strchr_none "/" (a ++ v ++ z))); [reflexivity|]. apply strchr_none in E1. intro I. apply in_app_or in I as [I|I]; [contradiction|]. apply in_app_or in I as [I|I]; [exact (proj2 Nv I)|]. apply E1. apply in_or_app. right. apply in_or_app. now right.
    + assert (Hw : forall w, w <> [] -> neutral w -> strstr (B "://") (a ++ w ++ p ++ B "://" ++ q) = Some (length (a ++ w ++ p))). { intros w' Z' N'. replace (a ++ w' ++ p ++ B "://" ++ q) with ((a ++ w' ++ p) ++ B "://" ++ q) by (rewrite <- !app_assoc; reflexivity). apply strstr_unbordered; [reflexivity|discriminate|]. intro H. apply within_apart in H as [H|H]; [exact (N H)|exact (M H)|assumption|assumption]. }
      assert (Hs : forall w, skipn (length (a ++ w ++ p) + 3) (a ++ w ++ p ++ B "://" ++ q) = q). { intro w'. replace (a ++ w' ++ p ++ B "://" ++ q) with ((a ++ w' ++ p ++ B "://") ++ q) by (rewrite <- !app_assoc; reflexivity). replace (length (a ++ w' ++ p) + 3) with (length (a ++ w' ++ p ++ B "://")) by (rewrite !app_length; cbn; lia). apply skip_n. }
      rewrite (Hw w Zw Nw), (Hw v Zv Nv), !Hs. destruct (strchr "/" q) as [j|]; [|reflexivity]. intro L. rewrite !app_length in L. lia.
  - assert (Hw : forall w, strstr (B "://") ((p ++ B "://" ++ q) ++ w) = Some (length p)). { intro w'. replace ((p ++ B "://" ++ q) ++ w') with (p ++ B "://" ++ (q ++ w')) by (rewrite <- !app_assoc; reflexivity). apply strstr_unbordered; [reflexivity|discriminate|exact N]. }
    assert (Hs : forall w, skipn (length p + 3) ((p ++ B "://" ++ q) ++ w) = q ++ w). { intro w'. replace ((p ++ B "://" ++ q) ++ w') with ((p ++ B "://") ++ q ++ w') by (rewrite <- !app_assoc; reflexivity). replace (length p + 3) with (length (p ++ B "://")) by (rewrite app_length; reflexivity). apply skip_n. }
    rewrite !Hw, !Hs. destruct (strchr "/" q) as [j|] eqn:S.
    + assert (I : In "/"%char q) by (apply strchr_some in S as (b & c & -> & _); apply in_or_app; right; now left). destruct (find_slash q w z (proj2 Nw) I) as (j' & _ & E1 & E2). rewrite E1, (E2 (v ++ z)). reflexivity.
    + apply strchr_none in S. destruct (strchr "/" (q ++ w ++ z)) as [j|] eqn:E1; [apply (late_slash q w z j Nw S) in E1; intro L; rewrite !app_length in L; cbn [length B list_ascii_of_string] in L; destruct w; [now destruct Zw|cbn in E1; lia]|]. intros _. rewrite (proj2 (strchr_none "/" (q ++ v ++ z))); [reflexivity|]. apply strchr_none in E1. intro I. apply in_app_or in I as [I|I]; [contradiction|]. apply in_app_or in I as [I|I]; [exact (proj2 Nv I)|]. apply E1. apply in_or_app. right. apply in_or_app. now right.
Qed.
(** Everything about a cut address *)
Lemma cut_full u d n : cut u = Some (d, n) -> exists x y e t, u = x ++ y ++ "."%char :: e ++ t /\ path_start u = length x /\ inner y /\ extension e /\ tail t.
Proof.
  unfold cut. intro H. remember (path_start u) as b eqn:Eb. destruct (path_cut (skipn b u)) as (p & q & E & (I1 & I2) & T). rewrite E in H. rewrite path_len_at in H by (split || exact T; assumption). rewrite first_n in H. destruct (strrchr "." p) as [s|] eqn:S; [|discriminate]. destruct (strrchr_inv _ _ _ S) as (y & e & -> & -> & N).
  assert (Lb : b <= length u). { destruct (Nat.le_gt_cases b (length u)) as [G|G]; [exact G|]. rewrite skipn_all2 in E by lia. destruct y; discriminate E. }
  exists (firstn b u), y, e, q. split; [rewrite <- (firstn_skipn b u) at 1; rewrite E, <- app_assoc; reflexivity|]. split; [now rewrite firstn_length_le by exact Lb|]. split; [split; intro I; [apply I1|apply I2]; apply in_or_app; now left|]. split; [split; [split; intro I; [apply I1|apply I2]; apply in_or_app; right; now right|exact N]|exact T].
Qed.
Lemma both u c : cut u = Some c -> exists a e t, u = a ++ "."%char :: e ++ t /\ extension e /\ tail t /\ (forall v, with_ext u v = Some (a ++ "."%char :: v ++ t))
  /\ forall k, neutral k -> inner k -> suffix k u = Some (a ++ k ++ "."%char :: e ++ t) /\ (forall v, with_ext (a ++ k ++ "."%char :: e ++ t) v = Some (a ++ k ++ "."%char :: v ++ t)).
Proof.
  destruct c as (d, n). intro C. destruct (cut_full u d n C) as (x & y & e & t & E & P & Iy & Ee & T). exists (x ++ y), e, t. assert (E2 : u = (x ++ y) ++ "."%char :: e ++ t) by (rewrite <- app_assoc; exact E). split; [exact E2|]. split; [exact Ee|]. split; [exact T|]. pose proof (fun k => suffix_at u k (x ++ y) e t (cut_at u x y e t E P Iy Ee T) E2) as Q. split; [exact (proj2 (Q []))|]. intros k Nk Ik. split; [exact (proj1 (Q k))|].
  assert (P' : path_start ((x ++ y) ++ k ++ "."%char :: e ++ t) = length x) by (rewrite start_moves; [rewrite <- E2; exact P|exact Nk|rewrite <- E2, P, app_length; lia]). assert (E3 : (x ++ y) ++ k ++ "."%char :: e ++ t = x ++ (y ++ k) ++ "."%char :: e ++ t) by (rewrite <- !app_assoc; reflexivity). rewrite E3 in P' |- *.
  assert (Iyk : inner (y ++ k)) by (destruct Iy, Ik; split; intro I; apply in_app_or in I as [I|I]; contradiction). destruct (suffix_at _ k (x ++ y ++ k) e t (cut_at _ x (y ++ k) e t eq_refl P' Iyk Ee T)) as (_ & R); [rewrite <- !app_assoc; reflexivity|]. intro v. rewrite R, <- !app_assoc. reflexivity.
Qed.
