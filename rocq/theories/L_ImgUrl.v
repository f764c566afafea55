(** Lemmas about addresses. *)
From Verif Require Import Base BaseL L_Pass M_Attr L_Attr M_Encode L_Encode S_Encode M_ImgUrl S_ImgUrl.

Definition esc (c : ascii) : str := if kept c then [c] else "%"%char :: hex2 c.
Lemma enc_all u : forall cap out, length out + 3 * length u < cap -> enc cap out u = Some (out ++ flat_map esc u).
Proof.
  induction u as [|c u IH]; intros cap out L; cbn [enc flat_map length] in *.
  - rewrite (proj2 (Nat.ltb_lt _ _)) by lia. now rewrite app_nil_r.
  - unfold esc at 1. destruct (kept c).
    + rewrite (proj2 (Nat.ltb_lt _ _)) by lia. rewrite IH by (rewrite app_length; cbn; lia). now rewrite <- app_assoc.
    + rewrite (proj2 (Nat.leb_le _ _)) by lia. rewrite IH by (rewrite app_length; cbn; lia). now rewrite <- app_assoc.
Qed.
Lemma encode_all u : url_encode u = Some (flat_map esc u).
Proof. unfold url_encode. rewrite enc_all; [reflexivity|cbn; lia]. Qed.

Lemma hex_back c : exists x y, hex_value (hex_upper (code c / 16)) = Some x /\ hex_value (hex_upper (code c mod 16)) = Some y /\ ascii_of_N (x * 16 + y) = c.
Proof.
  assert (H : forall c, match hex_value (hex_upper (code c / 16)), hex_value (hex_upper (code c mod 16)) with Some x, Some y => ceq (ascii_of_N (x * 16 + y)) c | _, _ => false end = true) by (apply byte_forall; vm_compute; reflexivity).
  specialize (H c). destruct (hex_value (hex_upper (code c / 16))) as [x|]; [|discriminate]. destruct (hex_value (hex_upper (code c mod 16))) as [y|]; [|discriminate]. exists x, y. split; [reflexivity|]. split; [reflexivity|now apply ceq_eq].
Qed.
Lemma hex_kept c : kept (hex_upper (code c / 16)) = true /\ kept (hex_upper (code c mod 16)) = true.
Proof.
  assert (H : forall c, kept (hex_upper (code c / 16)) && kept (hex_upper (code c mod 16)) = true) by (apply byte_forall; vm_compute; reflexivity). apply andb_prop. apply H.
Qed.
Lemma kept_bytes c : kept c = true <-> In c url_bytes.
Proof.
  assert (H : forall c, Bool.eqb (kept c) (existsb (ceq c) url_bytes) = true) by (apply byte_forall; vm_compute; reflexivity). specialize (H c). apply Bool.eqb_prop in H. rewrite H, existsb_exists. split; [intros (d & I & E); apply ceq_eq in E; now subst|intro I; exists c; split; [exact I|apply ceq_refl]].
Qed.
Lemma hex_is_kept c x : hex_value c = Some x -> kept c = true.
Proof.
  assert (H : forall c, match hex_value c with Some _ => kept c | None => true end = true) by (apply byte_forall; vm_compute; reflexivity). intro E. specialize (H c). now rewrite E in H.
Qed.

Lemma dec_other c r : c <> "%"%char -> pct_decode (c :: r) = c :: pct_decode r.
Proof. intro N. cbn [pct_decode]. destruct r as [|a [|b t]]; try reflexivity. now rewrite (proj2 (ceq_neq _ _) N). Qed.
Lemma dec_esc c t : pct_decode ("%"%char :: hex2 c ++ t) = c :: pct_decode t.
Proof. destruct (hex_back c) as (x & y & E1 & E2 & E3). unfold hex2. cbn [app pct_decode]. rewrite E1, E2, E3. reflexivity. Qed.
Lemma dec_bare_a a r : hex_value a = None -> pct_decode ("%"%char :: a :: r) = "%"%char :: pct_decode (a :: r).
Proof. intro H. cbn [pct_decode]. destruct r as [|b t]; [reflexivity|]. rewrite H. reflexivity. Qed.
Lemma dec_bare_b a b r : hex_value b = None -> pct_decode ("%"%char :: a :: b :: r) = "%"%char :: pct_decode (a :: b :: r).
Proof. intro H. cbn [pct_decode]. rewrite H. destruct (hex_value a); reflexivity. Qed.
Lemma pct_none : hex_value "%"%char = None.
Proof. reflexivity. Qed.
Lemma unkept_none c : kept c = false -> hex_value c = None.
Proof. intro K. destruct (hex_value c) as [x|] eqn:E; [|reflexivity]. rewrite (hex_is_kept c x E) in K. discriminate. Qed.
Lemma esc_head c : exists d r, esc c = d :: r /\ (kept c = true /\ d = c /\ r = [] \/ kept c = false /\ d = "%"%char).
Proof. unfold esc. destruct (kept c); [exists c, []; auto|]. exists "%"%char, (hex2 c). auto. Qed.

Lemma decode_encode n : forall u, length u <= n -> pct_decode (flat_map esc u) = pct_decode u.
Proof.
  induction n as [|n IH]; intros [|c u] L; cbn [length] in L; try reflexivity; [lia|]. cbn [flat_map]. destruct (kept c) eqn:K.
  2:{ replace (esc c) with ("%"%char :: hex2 c) by (unfold esc; now rewrite K). rewrite <- app_comm_cons, dec_esc, IH by lia. rewrite dec_other; [reflexivity|]. intros ->. discriminate K. }
  replace (esc c) with [c] by (unfold esc; now rewrite K). cbn [app]. destruct (ascii_dec c "%") as [-> |N]; [|rewrite !dec_other by exact N; now rewrite IH by lia].
  destruct u as [|a u]; [reflexivity|]. cbn [length] in L. destruct (hex_value a) as [x|] eqn:Ha.
  2:{ rewrite (dec_bare_a a u Ha). rewrite <- (IH (a :: u)) by (cbn; lia). cbn [flat_map]. destruct (esc_head a) as (d & r & E & D). rewrite E. cbn [app]. apply dec_bare_a. destruct D as [(_ & -> & _)|(_ & ->)]; [exact Ha|reflexivity]. }
  cbn [flat_map]. replace (esc a) with [a] by (unfold esc; now rewrite (hex_is_kept a x Ha)). cbn [app]. destruct u as [|b u].
  { reflexivity. }
  cbn [length] in L. destruct (hex_value b) as [y|] eqn:Hb.
  - cbn [flat_map]. replace (esc b) with [b] by (unfold esc; now rewrite (hex_is_kept b y Hb)). cbn [app pct_decode]. rewrite Ha, Hb. change (ceq "%" "%") with true. cbn [orb]. f_equal. apply IH. lia.
  - rewrite (dec_bare_b a b u Hb). rewrite <- (IH (a :: b :: u)) by (cbn; lia). cbn [flat_map]. replace (esc a) with [a] by (unfold esc; now rewrite (hex_is_kept a x Ha)). cbn [app]. destruct (esc_head b) as (d & r & E & D). rewrite E. cbn [app]. apply dec_bare_b. destruct D as [(_ & -> & _)|(_ & ->)]; [exact Hb|reflexivity].
Qed.
Lemma esc_bytes u : Forall (fun c => In c url_bytes) (flat_map esc u).
Proof.
  induction u as [|c u IH]; [constructor|]. cbn [flat_map]. apply Forall_app. split; [|exact IH]. unfold esc. destruct (kept c) eqn:K; [constructor; [now apply kept_bytes|constructor]|]. unfold hex2. destruct (hex_kept c) as (H1 & H2). repeat (constructor; [apply kept_bytes; (reflexivity || assumption)|]). constructor.
Qed.
Lemma esc_same u : Forall (fun c => In c url_bytes) u -> flat_map esc u = u.
Proof. induction 1 as [|c u H _ IH]; [reflexivity|]. cbn [flat_map]. rewrite IH. unfold esc. now rewrite (proj2 (kept_bytes c) H). Qed.

(** The path *)
Lemma path_len_at p t : inner p -> tail t -> path_len (p ++ t) = length p.
Proof.
  intros (N1 & N2) T. assert (K : forall c, ~ In c p -> forall k, strchr c (p ++ t) = Some k -> length p <= k). { intros c Nc k E. apply strchr_some in E as (a & b & E & <- & _). destruct (Nat.le_gt_cases (length p) (length a)) as [G|G]; [exact G|]. exfalso. apply Nc. destruct (app_split p t a (c :: b) E) as (z & Z1 & Z2); [lia|]. destruct z as [|d z]; [rewrite app_nil_r in Z1; subst; lia|]. rewrite Z1. cbn in Z2. injection Z2 as <- _. apply in_or_app. right. now left. }
  unfold path_len. destruct T as [-> |(r & [-> | ->])].
  - rewrite app_nil_r, !(proj2 (strchr_none _ _)) by assumption. reflexivity.
  - assert (E : strchr "?" (p ++ "?"%char :: r) = Some (length p)) by (apply strchr_some; exists p, r; auto). rewrite E. destruct (strchr "#" _) as [h|] eqn:H; [|reflexivity]. apply K in H; [|exact N2]. destruct (length p <? h) eqn:C; [reflexivity|]. apply Nat.ltb_ge in C. lia.
  - assert (E : strchr "#" (p ++ "#"%char :: r) = Some (length p)) by (apply strchr_some; exists p, r; auto). rewrite E. destruct (strchr "?" _) as [h|] eqn:H; [|reflexivity]. apply K in H; [|exact N1]. destruct (h <? length p) eqn:C; [apply Nat.ltb_lt in C; lia|reflexivity].
Qed.
Lemma path_cut t : exists p q, t = p ++ q /\ inner p /\ tail q.
Proof.
  induction t as [|c t (p & q & -> & (N1 & N2) & T)]; [exists [], []; repeat split; auto; now left|]. destruct (ascii_dec c "?") as [-> |D1]; [exists [], ("?"%char :: p ++ q); repeat split; auto; right; eexists; left; reflexivity|]. destruct (ascii_dec c "#") as [-> |D2]; [exists [], ("#"%char :: p ++ q); repeat split; auto; right; eexists; right; reflexivity|]. exists (c :: p), q. repeat split; [intros [E|E]; [congruence|contradiction]|intros [E|E]; [congruence|contradiction]|exact T].
Qed.
Lemma first_n (a b : str) : firstn (length a) (a ++ b) = a.
Proof. rewrite firstn_app, firstn_all, Nat.sub_diag. apply app_nil_r. Qed.
Lemma skip_n (a b : str) : skipn (length a) (a ++ b) = b.
Proof. rewrite skipn_app, skipn_all, Nat.sub_diag. reflexivity. Qed.
Lemma strrchr_inv c s e : strrchr c s = Some e -> exists a b, s = a ++ c :: b /\ e = c :: b /\ ~ In c b.
Proof.
  revert e. induction s as [|d s IH]; intros e; cbn [strrchr]; [discriminate|]. destruct (strrchr c s) as [t|] eqn:E.
  - intros [= <-]. destruct (IH t eq_refl) as (a & b & -> & -> & N). exists (d :: a), b. auto.
  - destruct (ceq c d) eqn:C; [|discriminate]. apply ceq_eq in C. subst d. intros [= <-]. exists [], s. repeat split. intro I. clear IH. induction s as [|x s IH]; [destruct I|]. cbn [strrchr] in E. destruct (strrchr c s) as [t|]; [discriminate|]. destruct (ceq c x) eqn:C; [discriminate|]. apply ceq_neq in C. destruct I as [->|I]; [now destruct C|exact (IH eq_refl I)].
Qed.
Lemma strrchr_no c s : ~ In c s -> strrchr c s = None.
Proof. intro N. destruct (strrchr c s) as [e|] eqn:E; [|reflexivity]. destruct (strrchr_inv c s e E) as (a & b & -> & _). destruct N. apply in_or_app. right. now left. Qed.

Lemma cut_at u x y e t : u = x ++ y ++ "."%char :: e ++ t -> path_start u = length x -> inner y -> extension e -> tail t -> cut u = Some (length (x ++ y), length (x ++ y) + 1 + length e).
Proof.
  intros -> P (Y1 & Y2) ((E1 & E2) & E3) T. unfold cut. rewrite P, skip_n. replace (y ++ "."%char :: e ++ t) with ((y ++ "."%char :: e) ++ t) by (rewrite <- app_assoc; reflexivity). rewrite path_len_at; [|split; intro I; apply in_app_or in I as [I|[I|I]]; (contradiction || discriminate I)|exact T]. rewrite first_n, strrchr_last by exact E3. f_equal. rewrite !app_length. cbn [length]. f_equal; lia.
Qed.
Lemma cut_inv u d n : cut u = Some (d, n) -> exists a e t, u = a ++ "."%char :: e ++ t /\ d = length a /\ n = length a + 1 + length e /\ extension e /\ tail t.
Proof.
  unfold cut. intro H. set (b := path_start u) in *. destruct (path_cut (skipn b u)) as (p & q & E & I & T). rewrite E in H. rewrite path_len_at in H by assumption. rewrite first_n in H. destruct (strrchr "." p) as [s|] eqn:S; [|discriminate]. destruct (strrchr_inv _ _ _ S) as (y & e & -> & -> & N). injection H as <- <-.
  assert (Lb : b <= length u). { destruct (Nat.le_gt_cases b (length u)) as [G|G]; [exact G|]. rewrite skipn_all2 in E by lia. destruct y; discriminate E. }
  exists (firstn b u ++ y), e, q. assert (Lf : length (firstn b u) = b) by (apply firstn_length_le; exact Lb). split; [rewrite <- (firstn_skipn b u) at 1; rewrite E, <- !app_assoc; reflexivity|]. rewrite !app_length, Lf. cbn [length]. split; [lia|]. split; [lia|]. destruct I as (I1 & I2). split; [|exact T]. split; [|exact N]. split; intro J; [apply I1|apply I2]; apply in_or_app; right; now right.
Qed.
Lemma suffix_at u x a e t : cut u = Some (length a, length a + 1 + length e) -> u = a ++ "."%char :: e ++ t -> suffix x u = Some (a ++ x ++ "."%char :: e ++ t) /\ forall k, with_ext u k = Some (a ++ "."%char :: k ++ t).
Proof.
  intros C ->. unfold suffix, with_ext. rewrite C, first_n, skip_n. split; [reflexivity|]. intro k. replace (skipn (length a + 1 + length e) (a ++ "."%char :: e ++ t)) with t; [reflexivity|]. replace (a ++ "."%char :: e ++ t) with ((a ++ "."%char :: e) ++ t) by (rewrite <- app_assoc; reflexivity). replace (length a + 1 + length e) with (length (a ++ "."%char :: e)) by (rewrite app_length; cbn; lia). now rewrite skip_n.
Qed.

(** Where the path begins *)
Lemma start_abs s h r : ~ In ":"%char s -> ~ In "/"%char h -> path_start (s ++ B "://" ++ h ++ "/"%char :: r) = length (s ++ B "://" ++ h).
Proof.
  intros N1 N2. unfold path_start. rewrite strstr_unbordered; [|reflexivity|discriminate|]. 2:{ intros (a & b & ->). apply N1. apply in_or_app. right. now left. }
  replace (s ++ B "://" ++ h ++ "/"%char :: r) with ((s ++ B "://") ++ h ++ "/"%char :: r) by (rewrite <- app_assoc; reflexivity). replace (length s + 3) with (length (s ++ B "://")) by (rewrite app_length; reflexivity). rewrite skip_n. replace (strchr "/" (h ++ "/"%char :: r)) with (Some (length h)) by (symmetry; apply strchr_some; exists h, r; auto). rewrite app_assoc, (app_length (s ++ B "://")). reflexivity.
Qed.
Lemma start_host s h : ~ In ":"%char s -> ~ In "/"%char h -> path_start (s ++ B "://" ++ h) = 0.
Proof.
  intros N1 N2. unfold path_start. rewrite strstr_unbordered; [|reflexivity|discriminate|]. 2:{ intros (a & b & ->). apply N1. apply in_or_app. right. now left. }
  replace (s ++ B "://" ++ h) with ((s ++ B "://") ++ h) by (rewrite <- app_assoc; reflexivity). replace (length s + 3) with (length (s ++ B "://")) by (rewrite app_length; reflexivity). rewrite skip_n, (proj2 (strchr_none _ _)) by exact N2. reflexivity.
Qed.
Lemma start_rel u : ~ within (B "://") u -> path_start u = match strchr "/" u with Some j => j | None => 0 end.
Proof. intro N. unfold path_start. rewrite (strstr_absent (B "://") u); [|discriminate|exact N]. reflexivity. Qed.
Lemma start_late a h r : ~ within (B "://") a -> ~ In "/"%char h -> path_start (a ++ B "://" ++ h ++ "/"%char :: r) = length (a ++ B "://" ++ h).
Proof.
  intros N1 N2. unfold path_start. rewrite strstr_unbordered; [|reflexivity|discriminate|exact N1].
  replace (a ++ B "://" ++ h ++ "/"%char :: r) with ((a ++ B "://") ++ h ++ "/"%char :: r) by (rewrite <- app_assoc; reflexivity). replace (length a + 3) with (length (a ++ B "://")) by (rewrite app_length; reflexivity). rewrite skip_n. replace (strchr "/" (h ++ "/"%char :: r)) with (Some (length h)) by (symmetry; apply strchr_some; exists h, r; auto). rewrite app_assoc, (app_length (a ++ B "://")). reflexivity.
Qed.

(** The other functions *)
Lemma end_at p t : inner p -> t = [] \/ (exists r, t = "?"%char :: r) \/ (exists r, t = "#"%char :: r /\ ~ In "?"%char r) -> end_auto (p ++ t) = length p.
Proof.
  intros (N1 & N2) T. unfold end_auto. destruct T as [-> |[(r & ->)|(r & -> & Nr)]].
  - rewrite app_nil_r, !(proj2 (strchr_none _ _)) by assumption. reflexivity.
  - replace (strchr "?" (p ++ "?"%char :: r)) with (Some (length p)) by (symmetry; apply strchr_some; exists p, r; auto). reflexivity.
  - rewrite (proj2 (strchr_none "?" _)) by (intro I; apply in_app_or in I as [I|[I|I]]; (contradiction || discriminate I)). replace (strchr "#" (p ++ "#"%char :: r)) with (Some (length p)) by (symmetry; apply strchr_some; exists p, r; auto). reflexivity.
Qed.
Lemma end_late p r s : ~ In "?"%char p -> ~ In "?"%char r -> end_auto (p ++ "#"%char :: r ++ "?"%char :: s) = length (p ++ "#"%char :: r).
Proof.
  intros N1 N2. unfold end_auto. replace (strchr "?" (p ++ "#"%char :: r ++ "?"%char :: s)) with (Some (length (p ++ "#"%char :: r))); [reflexivity|]. symmetry. apply strchr_some. exists (p ++ "#"%char :: r), s. split; [now rewrite <- app_assoc|]. split; [reflexivity|]. intro I. apply in_app_or in I as [I|[I|I]]; (contradiction || discriminate I).
Qed.
Lemma seq_same a b : seq_ a b = true <-> a = b.
Proof. revert b. induction a as [|x a IH]; intros [|y b]; cbn [seq_]; try (split; [discriminate|discriminate]); [split; reflexivity|]. rewrite andb_true_iff, ceq_eq, IH. split; [intros (-> & ->); reflexivity|intros [= -> ->]; auto]. Qed.
Lemma video_in e : video_ext e = true <-> In (map tolower e) videos.
Proof.
  unfold video_ext. assert (K : forall lit, (length e =? length lit) && seq_ (map tolower e) lit = true <-> lit = map tolower e). { intro lit. rewrite andb_true_iff, Nat.eqb_eq, seq_same. split; [intros (_ & ->); reflexivity|intros ->; split; [now rewrite map_length|reflexivity]]. }
  rewrite !orb_true_iff, !K. cbn [In videos]. tauto.
Qed.
