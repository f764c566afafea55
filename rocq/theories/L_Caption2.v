(** More lemmas on captions. *)
From Verif Require Import Base BaseL L_Pass M_Relax S_Relax L_Relax M_Spans S_Spans L_Spans L_Alpha M_Caption S_Caption L_Caption.

(** ** Bytes of the result *)
Lemma step_bytes a s l e : In a (c_out (cap_step s (l, e))) -> In a (c_out s) \/ In a l \/ In a [NL; SP; "["%char; "]"%char].
Proof.
  unfold cap_step. set (nl := match e with [] => [] | _ :: _ => [NL] end). cbv zeta. set (k := kinds_of s l).
  assert (Af : forall buf sec o, c_out (after k s buf sec o) = o) by (intros buf sec o; apply after_out).
  assert (Nl : In a nl -> In a [NL; SP; "["%char; "]"%char]) by (unfold nl; destruct e; cbn; tauto).
  assert (At : forall r, In a (attributes r) -> In a [NL; SP; "["%char; "]"%char] \/ In a r).
  { intros r. destruct (attributes_cases r) as [-> |(w & x & -> & ->)]; [intros []|]. intros [<-|I]; [left; cbn; tauto|right; apply in_or_app; now right]. }
  destruct (c_row s && k_bracket k).
  { rewrite Af, !in_app_iff. cbn [In]. intuition. }
  destruct (k_pandoc k) eqn:K2.
  { destruct (mark_shape l (pandoc_mark s l K2)) as (m & Im & E). destruct (mark_split l) as [x b]. cbn [fst snd] in E. destruct (pandoc_caption b) as [c r] eqn:Pc. apply pandoc_shape in Pc. destruct Pc as (w' & ->).
    assert (Il : In a x \/ In a c \/ In a r -> In a l) by (rewrite E, !in_app_iff; tauto).
    destruct c as [|d c]; rewrite Af; [rewrite !in_app_iff; intuition|]. assert (Ix : In a (match x with [] => [] | _ :: _ => x ++ [NL] end) -> In a x \/ a = NL) by (destruct x; [intros []|]; rewrite in_app_iff; cbn [In]; intuition).
    rewrite !in_app_iff. specialize (At r). change (In a (B "[")) with ("["%char = a \/ False). change (In a (B "]")) with ("]"%char = a \/ False). cbn [In] in *. intuition. }
  destruct (c_row s && k_colon k).
  { pose proof (span_parts gap l) as Sp. destruct (span gap l) as [w p]. cbn [fst snd] in *. destruct (colon_caption (skipn 2 p)) as [c r] eqn:Pc. apply colon_shape in Pc. destruct Pc as (w' & Pc).
    assert (Il : In a c \/ In a r -> In a l). { intro I. rewrite Sp. apply in_or_app. right. rewrite <- (firstn_skipn 2 p). apply in_or_app. right. rewrite Pc, !in_app_iff. tauto. }
    rewrite Af, !in_app_iff. specialize (At r). change (In a (B "[")) with ("["%char = a \/ False). change (In a (B "]")) with ("]"%char = a \/ False). cbn [In] in *. intuition. }
  destruct (k_blank k && near s); [fields; auto|]. rewrite Af, !in_app_iff. set (x := c_buf s && _). assert (In a (if x then [NL] else []) -> NL = a) by (destruct x; cbn; tauto). cbn [In] in *. intuition.
Qed.

Lemma run_bytes a ls : forall s, In a (c_out (fold_left cap_step ls s)) -> In a (c_out s) \/ (exists p, In p ls /\ In a (fst p)) \/ In a [NL; SP; "["%char; "]"%char].
Proof.
  induction ls as [|[l e] ls IH]; intros s I; [now left|]. cbn [fold_left] in I. apply IH in I. destruct I as [I|[(p & P & I)|I]]; [|right; left; exists p; split; [now right|exact I]|auto].
  apply step_bytes in I. destruct I as [I|[I|I]]; [auto|right; left; exists (l, e); split; [now left|exact I]|auto].
Qed.

Lemma lines_no_cr ls p : Lines ls -> In p ls -> ~ In CR (fst p).
Proof.
  intro H. induction H as [|l T N|l ls T H IH|l ls T H IH|l ls T C H IH]; intro I; [destruct I|destruct I as [<-|[]]; apply T| | |]; (destruct I as [<-|I]; [apply T|auto]).
Qed.

(** ** Lines *)
Definition feed (s : cap) (ls : list str) : cap := fold_left cap_step (map (fun l => (l, [NL])) ls) s.
Lemma feed_cons s l ls : feed s (l :: ls) = feed (cap_step s (l, [NL])) ls. Proof. reflexivity. Qed.
Lemma feed_app s ls ls' : feed s (ls ++ ls') = feed (feed s ls) ls'.
Proof. unfold feed. rewrite map_app. apply fold_left_app. Qed.

Lemma nl_lines ls : Forall line_text ls -> Lines (map (fun l => (l, [NL])) ls).
Proof. induction 1; [constructor|]. cbn [map]. now apply lines_nl. Qed.
Lemma nl_join ls : join (map (fun l => (l, [NL])) ls) = unlines ls.
Proof. unfold join, unlines. now rewrite map_map. Qed.

Lemma captioned_feed ls : Forall line_text ls -> captioned (unlines ls) = Some (c_out (feed begin ls)).
Proof.
  intro F. apply captioned_exact; [now apply nl_lines|]. rewrite nl_join. left. split; [|reflexivity]. destruct (join_closed _ (nl_lines ls F)) as [E|E]; [clear; induction ls; constructor; [discriminate|assumption]| |]; rewrite nl_join in E; auto.
Qed.

Lemma opens_span l w c p : opens l w c p -> span gap l = (w, c :: p).
Proof.
  intros (-> & W & N1 & N2). apply span_pair; [revert W; apply Forall_impl; intro; apply gap_spec|]. destruct (gap c) eqn:G; [|reflexivity]. apply gap_spec in G. destruct G; congruence.
Qed.
Lemma gaps_span g : gaps g -> span gap g = (g, []).
Proof. intro G. apply span_all. revert G. apply Forall_impl. intro. apply gap_spec. Qed.
Lemma no_fence l : ~ fence_line l -> fence l = false.
Proof. intro N. destruct (fence l) eqn:E; [|reflexivity]. exfalso. apply N. now apply fence_bool. Qed.
Lemma gaps_fence g : gaps g -> fence g = false.
Proof. intro G. unfold fence. now rewrite (gaps_span g G). Qed.
Lemma bar_bool l : has_bar l = true <-> In "|"%char l.
Proof. unfold has_bar. rewrite existsb_exists. split; [intros (c & I & E); apply ceq_eq in E; now subst|intro I; exists "|"%char; split; [exact I|reflexivity]]. Qed.
Lemma no_bar l : ~ In "|"%char l -> has_bar l = false.
Proof. intro N. destruct (has_bar l) eqn:E; [|reflexivity]. exfalso. apply N. now apply bar_bool. Qed.

Lemma kinds_open s l w c p : opens l w c p -> fence l = false -> c_code s = false ->
  kinds_of s l = let br := ceq c "[" in let fi := negb br && (starts (B "Table:") (c :: p) || starts (B "table:") (c :: p)) in
    Kinds false (has_bar l) false br (fi || negb br && near s && (some (strstr (B "Table:") (c :: p)) || some (strstr (B "table:") (c :: p)))) (negb br && negb fi && near s && ceq c ":" && match p with d :: _ => gap d | [] => false end).
Proof.
  intros O F C. unfold kinds_of. rewrite (opens_span _ _ _ _ O), F, C. cbn [xorb negb andb snd headed]. destruct p; reflexivity.
Qed.
Lemma kinds_gaps s g : gaps g -> c_code s = false -> kinds_of s g = Kinds false false true false false false.
Proof.
  intros G C. unfold kinds_of. rewrite (gaps_span g G), (gaps_fence g G), C. cbn [xorb negb andb snd headed]. rewrite no_bar; [reflexivity|]. intro I. unfold gaps in G. rewrite Forall_forall in G. destruct (G _ I); discriminate.
Qed.

Lemma starts_no (m : str) (s : str) : (forall r, s <> m ++ r) -> starts m s = false.
Proof. intro H. now apply starts_false. Qed.
Lemma within_no m s : m <> [] -> ~ within m s -> some (strstr m s) = false.
Proof. intros Z N. destruct (some (strstr m s)) eqn:E; [|reflexivity]. exfalso. apply N. now apply (some_within m s Z). Qed.

(** ** Text without tables *)
Definition N0 (o : str) : cap := Cap false false false false false o.
Definition N1 (o : str) : cap := Cap false false true false false o.
Definition N2 (o : str) : cap := Cap false false true true true o.

Lemma calm_step l o : calm l -> cap_step (N0 o) (l, [NL]) = N0 (o ++ l ++ [NL]).
Proof.
  intros (w & c & p & O & F & Nb & M). unfold cap_step. rewrite (kinds_open (N0 o) l w c p O (no_fence l F) eq_refl). rewrite (no_bar l Nb), (starts_no (B "Table:") (c :: p)), (starts_no (B "table:") (c :: p)) by (intro r; apply M; cbn; auto).
  cbn [N0 near c_row c_blank c_sec c_buf c_out orb andb k_bracket k_pandoc k_colon k_blank negb]. rewrite Bool.andb_false_r, !Bool.andb_false_r. cbn [andb orb]. unfold after. cbn [k_code k_row k_blank k_bracket k_pandoc k_colon]. destruct (ceq c "["); reflexivity.
Qed.

Lemma easy_kinds l s : easy l -> c_code s = false -> kinds_of s l = Kinds false false false false false false.
Proof.
  intros (w & c & p & O & F & Nb & Br & Co & M) C. rewrite (kinds_open s l w c p O (no_fence l F) C). assert (W : forall m, In m table_marks -> ~ within m (c :: p)) by (intros m I W; apply (M m I); destruct O as (-> & _); now apply within_more).
  rewrite (no_bar l Nb), (starts_no (B "Table:") (c :: p)), (starts_no (B "table:") (c :: p)), (within_no (B "Table:") (c :: p)), (within_no (B "table:") (c :: p));
    [|discriminate|apply W; cbn; auto|discriminate|apply W; cbn; auto|intros r E; apply (W (B "table:")); [cbn; auto|exists [], r; exact E]|intros r E; apply (W (B "Table:")); [cbn; auto|exists [], r; exact E]].
  assert (E : ceq c "[" = false) by now apply ceq_neq. rewrite E. cbn [negb andb orb]. rewrite Bool.andb_false_r. cbv zeta. f_equal. destruct (ceq c ":") eqn:K; [|now rewrite Bool.andb_false_r]. apply ceq_eq in K. destruct p as [|d p]; [now rewrite Bool.andb_false_r|]. destruct (Co d p K eq_refl) as [D1 D2]. assert (G : gap d = false) by (destruct (gap d) eqn:G; [apply gap_spec in G; destruct G; congruence|reflexivity]). rewrite G. apply Bool.andb_false_r.
Qed.

Lemma easy_step1 l o : easy l -> cap_step (N1 o) (l, [NL]) = N0 (o ++ l ++ [NL]).
Proof. intro E. unfold cap_step. rewrite (easy_kinds l (N1 o) E eq_refl). reflexivity. Qed.
Lemma easy_step2 l o : easy l -> cap_step (N2 o) (l, [NL]) = N0 (o ++ [NL] ++ l ++ [NL]).
Proof. intro E. unfold cap_step. rewrite (easy_kinds l (N2 o) E eq_refl). reflexivity. Qed.
Lemma blank_step0 g o : gaps g -> cap_step (N0 o) (g, [NL]) = N1 (o ++ g ++ [NL]).
Proof. intro G. unfold cap_step. rewrite (kinds_gaps (N0 o) g G eq_refl). reflexivity. Qed.
Lemma blank_step1 g o : gaps g -> cap_step (N1 o) (g, [NL]) = N2 o.
Proof. intro G. unfold cap_step. rewrite (kinds_gaps (N1 o) g G eq_refl). reflexivity. Qed.
Lemma blank_step2 g o : gaps g -> cap_step (N2 o) (g, [NL]) = N2 o.
Proof. intro G. unfold cap_step. rewrite (kinds_gaps (N2 o) g G eq_refl). reflexivity. Qed.
Lemma blanks_feed gs o : Forall gaps gs -> feed (N2 o) gs = N2 o.
Proof. induction 1 as [|g gs G F IH]; [reflexivity|]. rewrite feed_cons, (blank_step2 g o G). exact IH. Qed.

Lemma squeeze_feed b ls out : Squeeze b ls out -> forall o, c_out (feed (if b then N0 o else N1 o) ls) = o ++ unlines out.
Proof.
  intro H. induction H as [b|l ls out C H IH|g ls out G H IH|l ls out E H IH|gs l ls out Z G E H IH|gs G]; intro o.
  - unfold unlines. cbn. rewrite app_nil_r. destruct b; reflexivity.
  - rewrite feed_cons, (calm_step l o C), IH. rewrite unlines_cons. now rewrite <- !app_assoc.
  - rewrite feed_cons, (blank_step0 g o G), IH. rewrite unlines_cons. now rewrite <- !app_assoc.
  - rewrite feed_cons, (easy_step1 l o E), IH. rewrite unlines_cons. now rewrite <- !app_assoc.
  - destruct gs as [|g gs]; [congruence|]. inversion G as [|? ? G1 G2]; subst. cbn [app]. rewrite feed_cons, (blank_step1 g o G1), feed_app, (blanks_feed gs o G2), feed_cons, (easy_step2 l o E), IH. rewrite !unlines_cons. now rewrite <- !app_assoc.
  - destruct gs as [|g gs]; [unfold unlines; cbn; now rewrite app_nil_r|]. inversion G as [|? ? G1 G2]; subst. rewrite feed_cons, (blank_step1 g o G1), (blanks_feed gs o G2). unfold unlines. cbn. now rewrite app_nil_r.
Qed.

(** ** Rows and captions *)
Lemma row_step r o : S_Caption.row_line r -> cap_step (N0 o) (r, [NL]) = Cap false true false false true (o ++ r ++ [NL]).
Proof.
  intros (w & c & p & O & F & Hb & M). unfold cap_step. rewrite (kinds_open (N0 o) r w c p O (no_fence r F) eq_refl). rewrite (proj2 (bar_bool r) Hb), (starts_no (B "Table:") (c :: p)), (starts_no (B "table:") (c :: p)) by (intro q; apply M; cbn; auto).
  cbn [N0 near c_row c_blank c_sec c_buf c_out orb andb k_bracket k_pandoc k_colon k_blank negb]. rewrite !Bool.andb_false_r. cbn [andb orb]. reflexivity.
Qed.

Lemma row_blanks gs o b1 b2 : Forall gaps gs -> exists b1' b2', feed (Cap false true b1 b2 true o) gs = Cap false true b1' b2' true o /\ (gs = [] -> b1' = b1 /\ b2' = b2) /\ (gs <> [] -> b1' = true /\ b2' = true).
Proof.
  intro F. revert b1 b2. induction F as [|g gs G F IH]; intros b1 b2; [exists b1, b2; split; [reflexivity|]; split; [auto|congruence]|].
  rewrite feed_cons. assert (E : cap_step (Cap false true b1 b2 true o) (g, [NL]) = Cap false true true true true o) by (unfold cap_step; rewrite (kinds_gaps (Cap false true b1 b2 true o) g G eq_refl); reflexivity). rewrite E.
  destruct (IH true true) as (b1' & b2' & E' & K1 & K2). exists b1', b2'. split; [exact E'|]. split; [discriminate|]. intros _. destruct gs; [now apply K1|apply K2; discriminate].
Qed.

(** ** Attributes *)
Lemma at_app_r (a b : str) k : at_ (a ++ b) (length a + k) = at_ b k.
Proof. unfold at_. rewrite app_nth2 by lia. f_equal. lia. Qed.
Lemma at_app_l (a b : str) k : k < length a -> at_ (a ++ b) k = at_ a k.
Proof. intro L. unfold at_. now apply app_nth1. Qed.
Lemma at_in (a : str) k : k < length a -> In (at_ a k) a. Proof. apply nth_In. Qed.

Lemma cut_none s k : k <= length s -> ~ In "}"%char s -> ial_cut k s = length s.
Proof.
  intros L N. induction k as [|k IH]; [reflexivity|]. cbn [ial_cut]. destruct (ceq (at_ s k) "}") eqn:E; [|apply IH; lia]. exfalso. apply N. apply ceq_eq in E. rewrite <- E. apply at_in. lia.
Qed.

Lemma open_last u m v : ~ In "{"%char m -> last_open (length u + 1 + length m) (u ++ "{"%char :: m ++ v) = Some (length u).
Proof.
  intro N. assert (K : forall j, j <= length m -> last_open (length u + 1 + j) (u ++ "{"%char :: m ++ v) = Some (length u)).
  { induction j as [|j IH]; intro L.
    - replace (length u + 1 + 0) with (Datatypes.S (length u)) by lia. cbn [last_open]. replace (length u) with (length u + 0) at 1 by lia. rewrite at_app_r. reflexivity.
    - replace (length u + 1 + Datatypes.S j) with (Datatypes.S (length u + 1 + j)) by lia. cbn [last_open]. replace (length u + 1 + j) with (length u + Datatypes.S j) at 1 by lia. rewrite at_app_r. change (at_ ("{"%char :: m ++ v) (Datatypes.S j)) with (at_ (m ++ v) j). rewrite at_app_l by lia.
      destruct (ceq (at_ m j) "{") eqn:E; [exfalso; apply N; apply ceq_eq in E; rewrite <- E; apply at_in; lia|]. apply IH. lia. }
  apply K. lia.
Qed.

Lemma cut_some u d m v : In d (B ":#.") -> ~ In "{"%char m -> ~ In "}"%char v -> let s := u ++ B "{" ++ (d :: m) ++ B "}" ++ v in ial_cut (length s) s = length u.
Proof.
  intros D N V s. assert (Nd : ~ In "{"%char (d :: m)) by (intros [->|I]; [repeat (destruct D as [D|D]; [discriminate D|]); destruct D|contradiction]).
  set (q := length u + 1 + length (d :: m)). assert (Ls : length s = q + 1 + length v) by (unfold s, q; rewrite !app_length; change (length (B "{")) with 1; change (length (B "}")) with 1; lia).
  assert (K : forall j, j <= length v -> ial_cut (q + 1 + j) s = length u).
  { induction j as [|j IH]; intro L.
    - replace (q + 1 + 0) with (Datatypes.S q) by lia. cbn [ial_cut].
      assert (A : at_ s q = "}"%char). { unfold s, q. rewrite (app_assoc u), (app_assoc (u ++ B "{")). replace (length u + 1 + length (d :: m)) with (length ((u ++ B "{") ++ d :: m) + 0) by (rewrite !app_length; change (length (B "{")) with 1; lia). rewrite at_app_r. reflexivity. }
      rewrite A. change (ceq "}" "}") with true. cbv iota. unfold q, s. change (B "{" ++ (d :: m) ++ B "}" ++ v) with ("{"%char :: (d :: m) ++ B "}" ++ v). rewrite (open_last u (d :: m) _ Nd). replace (Datatypes.S (length u)) with (length u + 1) by lia. rewrite at_app_r. cbn [app at_ nth].
      replace (ceq d ":" || ceq d "#" || ceq d ".") with true; [reflexivity|]. repeat (destruct D as [<-|D]; [reflexivity|]). destruct D.
    - replace (q + 1 + Datatypes.S j) with (Datatypes.S (q + 1 + j)) by lia. cbn [ial_cut].
      assert (A : at_ s (q + 1 + j) = at_ v j). { unfold s, q. rewrite (app_assoc u), (app_assoc (u ++ B "{")), (app_assoc ((u ++ B "{") ++ d :: m)). replace (length u + 1 + length (d :: m) + 1 + j) with (length (((u ++ B "{") ++ d :: m) ++ B "}") + j) by (rewrite !app_length; change (length (B "{")) with 1; change (length (B "}")) with 1; lia). apply at_app_r. }
      rewrite A. destruct (ceq (at_ v j) "}") eqn:E; [exfalso; apply V; apply ceq_eq in E; rewrite <- E; apply at_in; lia|]. apply IH. lia. }
  rewrite Ls. apply K. lia.
Qed.

Lemma drop_end_app f (c v : str) : (exists q e, c = q ++ [e] /\ f e = false) -> Forall (fun x => f x = true) v -> drop_end f (c ++ v) = c.
Proof.
  intros (q & e & -> & E) V. assert (D : drop_end f v = []) by (induction V as [|x v X V IH]; [reflexivity|]; cbn [drop_end]; now rewrite IH, X).
  induction q as [|d q IH]; cbn [app drop_end]; [now rewrite D, E|]. rewrite IH. destruct q; reflexivity.
Qed.

Lemma trimmed_shape c : trimmed c -> (exists d q, c = d :: q /\ isspace d = false) /\ exists q e, c = q ++ [e] /\ isspace e = false.
Proof.
  intros (d & q & e & [[-> ->]|(m & -> & _)] & D & E); [split; [exists d, []; auto|exists [], d; auto]|]. split; [exists d, (m ++ [e]); auto|exists (d :: m), e; auto].
Qed.

Lemma space_gap c : isspace c = false -> gap c = false.
Proof. revert c. apply (byte_forall (fun c => isspace c = false -> gap c = false)) || (intros c H; destruct (gap c) eqn:G; [|reflexivity]; apply gap_spec in G; destruct G; subst c; discriminate H). Qed.

Lemma gaps_no a g : gaps g -> a <> SP -> a <> TAB -> ~ In a g.
Proof. intros G A C I. unfold gaps in G. rewrite Forall_forall in G. destruct (G _ I); congruence. Qed.
Lemma gaps_space g : gaps g -> Forall (fun c => isspace c = true) g.
Proof. apply Forall_impl. intros c [->| ->]; reflexivity. Qed.

Lemma attributes_gaps g : gaps g -> attributes g = [].
Proof. intro G. unfold attributes. now rewrite (span_all isspace g (gaps_space g G)). Qed.

Lemma attributes_of s a : Attributes s a -> attributes s = shown_attributes a /\ forall c, (a = [] -> ~ In "}"%char c) -> exists k, ial_cut (length (c ++ s)) (c ++ s) = length (c ++ k) /\ exists z, s = k ++ z /\ gaps k.
Proof.
  intros [[G ->]|(w & d & m & v & -> & W & -> & D & N & V)].
  - split; [now apply attributes_gaps|]. intros c Nc. exists s. split; [|exists []; split; [now rewrite app_nil_r|exact G]]. apply cut_none; [lia|]. intro I. apply in_app_or in I. destruct I as [I|I]; [now apply Nc|]. revert I. now apply gaps_no.
  - split.
    + unfold attributes. cbn [B list_ascii_of_string app]. rewrite (span_pair isspace w "{" _ (gaps_space w W) eq_refl). reflexivity.
    + intros c _. exists w. split; [|eexists; split; [reflexivity|exact W]]. rewrite app_assoc. apply cut_some; [exact D|exact N|]. now apply gaps_no.
Qed.

Lemma pandoc_of g c s a : gaps g -> trimmed c -> Attributes s a -> (a = [] -> ~ In "}"%char c) -> pandoc_caption (g ++ c ++ s) = (c, s).
Proof.
  intros G T A N. destruct (trimmed_shape c T) as [(d & q & Ec & D) (q' & e & Ec' & E)]. unfold pandoc_caption.
  assert (Sp : span gap (g ++ c ++ s) = (g, c ++ s)) by (rewrite Ec; apply span_pair; [revert G; apply Forall_impl; intro; apply gap_spec|now apply space_gap]). rewrite Sp. cbn [snd].
  destruct (proj2 (attributes_of s a A) c N) as (k & K & z & -> & Gk). rewrite K. rewrite (app_assoc c k z), firstn_app, firstn_all, Nat.sub_diag. cbn [firstn]. rewrite app_nil_r.
  rewrite drop_end_app; [f_equal; rewrite <- app_assoc, skipn_app, skipn_all, Nat.sub_diag; reflexivity| |revert Gk; apply Forall_impl; intros x [->| ->]; reflexivity].
  exists q', e. split; [exact Ec'|]. destruct (ceq e SP) eqn:X; [apply ceq_eq in X; subst e; discriminate E|]. destruct (ceq e TAB) eqn:Y; [apply ceq_eq in Y; subst e; discriminate E|]. destruct (ceq e CR) eqn:Z; [apply ceq_eq in Z; subst e; discriminate E|reflexivity].
Qed.

Lemma colon_of g c s a : gaps g -> trimmed c -> Attributes s a -> (a = [] -> ~ In "}"%char c) -> colon_caption (g ++ c ++ s) = (c, s).
Proof.
  intros G T A N. destruct (trimmed_shape c T) as [(d & q & Ec & D) (q' & e & Ec' & E)]. unfold colon_caption.
  assert (N' : a = [] -> ~ In "}"%char (g ++ c)) by (intros Z I; apply in_app_or in I; destruct I as [I|I]; [revert I; now apply gaps_no|now apply (N Z)]).
  destruct (proj2 (attributes_of s a A) (g ++ c) N') as (k & K & z & -> & Gk). rewrite (app_assoc g c). rewrite K. rewrite (app_assoc (g ++ c) k z), firstn_app, firstn_all, Nat.sub_diag. cbn [firstn]. rewrite app_nil_r.
  assert (Sp : span isspace ((g ++ c) ++ k) = (g, c ++ k)) by (rewrite <- app_assoc, Ec; apply (span_pair isspace g d (q ++ k) (gaps_space g G) D)). rewrite Sp.
  rewrite drop_end_app; [|exists q', e; auto|now apply gaps_space]. f_equal. rewrite <- app_length, <- app_assoc, skipn_app, skipn_all, Nat.sub_diag. reflexivity.
Qed.

(** ** Whole captions *)
Lemma calm_feed ls : Forall calm ls -> forall o, feed (N0 o) ls = N0 (o ++ unlines ls).
Proof.
  induction 1 as [|l ls C F IH]; intro o; [unfold unlines; cbn; now rewrite app_nil_r|]. rewrite feed_cons, (calm_step l o C), IH. rewrite unlines_cons. now rewrite <- !app_assoc.
Qed.

(** Text behind a caption *)
Definition behind (ls : list str) : Prop := ls = [] \/ exists l q, ls = l :: q /\ easy l /\ Forall calm q.
Lemma behind_feed ls b sec o : behind ls -> c_out (feed (Cap false b false false sec o) ls) = o ++ unlines ls.
Proof.
  intros [-> |(l & q & -> & E & F)]; [unfold unlines; cbn; now rewrite app_nil_r|]. rewrite feed_cons. assert (X : cap_step (Cap false b false false sec o) (l, [NL]) = N0 (o ++ l ++ [NL])).
  { unfold cap_step. rewrite (easy_kinds l (Cap false b false false sec o) E eq_refl). fields. cbn [k_bracket k_pandoc k_colon k_blank andb]. rewrite !Bool.andb_false_r. reflexivity. }
  rewrite X, (calm_feed q F). cbn [N0 c_out]. rewrite unlines_cons. now rewrite <- !app_assoc.
Qed.

Lemma mark_at m x b : In m table_marks -> (m = B "Table:" \/ ~ within (B "Table:") (x ++ m ++ b)) -> ~ within m x -> mark_split (x ++ m ++ b) = (x, b).
Proof.
  intros I D N. assert (U : strstr m (x ++ m ++ b) = Some (length x)) by (apply strstr_unbordered; [destruct I as [<-|[<-|[]]]; reflexivity|destruct I as [<-|[<-|[]]]; discriminate|exact N]).
  assert (L : length m = 6) by now apply mark_len. assert (P : (firstn (length x) (x ++ m ++ b), skipn (length x + 6) (x ++ m ++ b)) = (x, b)).
  { f_equal; [rewrite firstn_app, firstn_all, Nat.sub_diag; cbn [firstn]; apply app_nil_r|]. rewrite app_assoc, <- L, <- app_length, skipn_app, skipn_all, Nat.sub_diag. reflexivity. }
  unfold mark_split. destruct D as [-> |D]; [rewrite U; exact P|]. destruct I as [<-|[<-|[]]]; [rewrite U; exact P|].
  rewrite strstr_absent; [rewrite U; exact P|discriminate|exact D].
Qed.

Lemma mark_step m x g c s a st : In m table_marks -> (m = B "Table:" \/ ~ within (B "Table:") (x ++ m ++ g ++ c ++ s)) -> ~ within m x ->
  gaps g -> trimmed c -> Attributes s a -> (a = [] -> ~ In "}"%char c) -> c_code st = false -> (near st = true \/ gaps x) -> ~ fence_line (x ++ m ++ g ++ c ++ s) -> (forall w r, x <> w ++ "["%char :: r \/ ~ gaps w) ->
  exists b1 b3, cap_step st (x ++ m ++ g ++ c ++ s, [NL]) = Cap false b1 false false b3 (c_out st ++ (match x with [] => [] | _ => x ++ [NL] end) ++ [NL] ++ B "[" ++ c ++ B "]" ++ shown_attributes a ++ [NL]) /\ (c_row st = true -> b1 = true).
Proof.
  intros I D Nx G T A Na Cd Ne Nf Br. set (l := x ++ m ++ g ++ c ++ s) in *. destruct (attributes_of s a A) as [As _].
  assert (Hm : exists d q, m = d :: q /\ gap d = false /\ d <> "["%char) by (destruct I as [<-|[<-|[]]]; eexists _, _; (split; [reflexivity|split; [reflexivity|discriminate]])). destruct Hm as (dm & qm & Em & Gm & Bm).
  assert (O : exists w d p, opens l w d p /\ d <> "["%char /\ (some (strstr m (d :: p)) = true) /\ (gaps x -> w = x /\ starts m (d :: p) = true)).
  { assert (Zm : m <> []) by (rewrite Em; discriminate). destruct (span_shape gap x) as (W & H & E). destruct (span gap x) as [w p]. cbn [fst snd] in *. assert (Gw : gaps w) by (revert W; apply Forall_impl; intro; apply gap_spec). destruct p as [|d p].
    - exists w, dm, (qm ++ g ++ c ++ s). rewrite app_nil_r in E. subst x. split; [split; [unfold l; rewrite Em; reflexivity|split; [exact Gw|split; intros ->; discriminate Gm]]|]. split; [exact Bm|]. change (dm :: qm ++ g ++ c ++ s) with ((dm :: qm) ++ g ++ c ++ s). rewrite <- Em. split; [apply some_within; [exact Zm|exists [], (g ++ c ++ s); reflexivity]|]. intros _. split; [reflexivity|apply starts_app].
    - exists w, d, (p ++ m ++ g ++ c ++ s). specialize (H d p eq_refl). split; [split; [unfold l; rewrite E, <- app_assoc; reflexivity|split; [exact Gw|split; intros ->; discriminate H]]|]. split; [intros ->; destruct (Br w p) as [X|X]; [apply X; exact E|apply X; exact Gw]|]. split; [apply some_within; [exact Zm|exists (d :: p), (g ++ c ++ s); reflexivity]|].
      intro Gx. exfalso. unfold gaps in Gx. rewrite E in Gx. apply Forall_app in Gx. destruct Gx as [_ Gx]. inversion Gx as [|? ? X _]; subst. apply gap_spec in X. congruence. }
  destruct O as (w & d & p & O & Bd & Hs & Hg). unfold cap_step. pose proof (kinds_open st l w d p O (no_fence l Nf) Cd) as K. cbv zeta in K. assert (E : ceq d "[" = false) by now apply ceq_neq. rewrite E in K. cbn [negb andb] in K.
  assert (Pd : k_pandoc (kinds_of st l) = true).
  { rewrite K. cbn [k_pandoc]. assert (Some1 : some (strstr (B "Table:") (d :: p)) || some (strstr (B "table:") (d :: p)) = true) by (destruct I as [<-|[<-|[]]]; rewrite Hs; [reflexivity|apply Bool.orb_true_r]). destruct Ne as [Ne|Gx]; [rewrite Ne, Some1; cbn; apply Bool.orb_true_r|].
    destruct (Hg Gx) as [_ St]. destruct I as [<-|[<-|[]]]; rewrite St; [reflexivity|]. now rewrite Bool.orb_true_r. }
  assert (Kb : k_bracket (kinds_of st l) = false) by (rewrite K; reflexivity). rewrite Kb, Pd, Bool.andb_false_r. unfold l at 1. rewrite (mark_at m x (g ++ c ++ s) I D Nx). rewrite (pandoc_of g c s a G T A Na). destruct (trimmed_shape c T) as [(d' & q' & Ec & _) _].
  rewrite As. rewrite Ec. cbv iota. rewrite <- Ec. unfold after. rewrite Pd, Kb. assert (Kc : k_code (kinds_of st l) = false) by (rewrite K; reflexivity). assert (Kn : k_blank (kinds_of st l) = false) by (rewrite K; reflexivity). rewrite Kc, Kn. cbn [orb]. destruct (k_row (kinds_of st l)); eexists _, _; (split; [reflexivity|auto]).
Qed.

Lemma colon_step w d g c s a st : gaps w -> d = SP \/ d = TAB -> gaps g -> trimmed c -> Attributes s a -> (a = [] -> ~ In "}"%char c) -> c_code st = false -> c_row st = true ->
  (forall m, In m table_marks -> ~ within m (w ++ ":"%char :: d :: g ++ c ++ s)) ->
  exists b3, cap_step st (w ++ ":"%char :: d :: g ++ c ++ s, [NL]) = Cap false true false false b3 (c_out st ++ [NL] ++ B "[" ++ c ++ B "]" ++ shown_attributes a ++ [NL]).
Proof.
  intros W Dd G T A Na Cd Row M. set (l := w ++ ":"%char :: d :: g ++ c ++ s) in *. destruct (attributes_of s a A) as [As _].
  assert (O : opens l w ":" (d :: g ++ c ++ s)) by (split; [reflexivity|split; [exact W|split; discriminate]]).
  assert (Nf : fence l = false) by (unfold fence; rewrite (opens_span _ _ _ _ O); reflexivity).
  assert (Ws : forall m, In m table_marks -> ~ within m (":"%char :: d :: g ++ c ++ s)) by (intros m I X; apply (M m I); unfold l; now apply within_more).
  assert (Ne : near st = true) by (unfold near; rewrite Row; reflexivity). assert (Gd : gap d = true) by now apply gap_spec.
  pose proof (kinds_open st l w ":" (d :: g ++ c ++ s) O Nf Cd) as K. cbv zeta in K. change (ceq ":" "[") with false in K. change (ceq ":" ":") with true in K. cbn [negb andb] in K. rewrite Ne, Gd in K.
  rewrite (starts_no (B "Table:")), (starts_no (B "table:")), (within_no (B "Table:")), (within_no (B "table:")) in K; [|discriminate|apply Ws; cbn; auto|discriminate|apply Ws; cbn; auto|intros r X; discriminate X|intros r X; discriminate X]. cbn [orb andb negb] in K.
  unfold cap_step. rewrite K. rewrite Row. cbn [k_bracket k_pandoc k_colon andb]. rewrite (opens_span _ _ _ _ O). cbn [snd skipn]. rewrite (colon_of g c s a G T A Na), As. unfold after. cbn [k_code k_row k_blank k_bracket k_pandoc k_colon orb]. rewrite Row. destruct (has_bar l); eexists; reflexivity.
Qed.

(** ** Fences *)
Lemma step_mono s p : exists y, c_out (cap_step s p) = c_out s ++ y.
Proof.
  destruct p as [l e]. unfold cap_step. cbv zeta. set (k := kinds_of s l). assert (Af : forall buf sec o, c_out (after k s buf sec o) = o) by (intros buf sec o; apply after_out).
  destruct (c_row s && k_bracket k); [rewrite Af; eexists; reflexivity|]. destruct (k_pandoc k); [destruct (mark_split l) as [x b]; destruct (pandoc_caption b) as [c r]; destruct c; rewrite Af; eexists; reflexivity|].
  destruct (c_row s && k_colon k); [destruct (colon_caption (skipn 2 (snd (span gap l)))) as [c r]; rewrite Af; eexists; reflexivity|]. destruct (k_blank k && near s); [exists []; fields; now rewrite app_nil_r|]. rewrite Af. eexists. reflexivity.
Qed.
Lemma run_mono ls : forall s, exists y, c_out (fold_left cap_step ls s) = c_out s ++ y.
Proof. induction ls as [|p ls IH]; intro s; [exists []; cbn; now rewrite app_nil_r|]. cbn [fold_left]. destruct (IH (cap_step s p)) as (y & ->). destruct (step_mono s p) as (z & ->). exists (z ++ y). now rewrite app_assoc. Qed.

Lemma step_code s p : c_code (cap_step s p) = xorb (c_code s) (fence (fst p)).
Proof.
  destruct p as [l e]. cbn [fst]. assert (Af : forall buf sec o, c_code (after (kinds_of s l) s buf sec o) = xorb (c_code s) (fence l)).
  { intros buf sec o. unfold after. change (k_code (kinds_of s l)) with (xorb (c_code s) (fence l)). destruct (xorb (c_code s) (fence l)); [reflexivity|]. destruct (k_row (kinds_of s l)), (k_blank (kinds_of s l)), (k_bracket (kinds_of s l) || k_pandoc (kinds_of s l) || k_colon (kinds_of s l)); reflexivity. }
  unfold cap_step. cbv zeta. destruct (c_row s && k_bracket (kinds_of s l)); [apply Af|]. destruct (k_pandoc (kinds_of s l)); [destruct (mark_split l) as [x b]; destruct (pandoc_caption b) as [c r]; destruct c; apply Af|].
  destruct (c_row s && k_colon (kinds_of s l)); [destruct (colon_caption (skipn 2 (snd (span gap l)))) as [c r]; apply Af|]. destruct (k_blank (kinds_of s l) && near s) eqn:K; [|apply Af]. fields. apply Bool.andb_true_iff in K. destruct K as [K _]. cbn [kinds_of k_blank] in K. destruct (xorb (c_code s) (fence l)); [discriminate K|reflexivity].
Qed.
Lemma run_code ls : forall s, c_code (fold_left cap_step ls s) = flips (c_code s) ls.
Proof. induction ls as [|p ls IH]; intro s; [reflexivity|]. cbn [fold_left flips]. rewrite IH, step_code. reflexivity. Qed.

Lemma code_step s l e : xorb (c_code s) (fence l) = true -> e <> [] -> exists s', cap_step s (l, e) = s' /\ c_code s' = true /\ c_buf s' = false /\ c_out s' = c_out s ++ (if c_buf s then [NL] else []) ++ l ++ [NL].
Proof.
  intros X E. eexists. split; [reflexivity|]. split; [rewrite step_code; exact X|]. assert (K : kinds_of s l = Kinds true false false false false false) by (unfold kinds_of; rewrite X; reflexivity).
  unfold cap_step. rewrite K. replace (match e with [] => [] | _ :: _ => [NL] end) with [NL] by (destruct e; congruence). cbn [k_bracket k_pandoc k_colon k_blank andb orb negb]. rewrite !Bool.andb_false_r, Bool.andb_true_r. unfold after. cbn [k_code]. fields. auto.
Qed.

Lemma code_run body : Forall (fun p => ~ fence_line (fst p)) body -> Forall (fun p : str * str => snd p <> []) body -> forall s, c_code s = true -> c_buf s = false ->
  exists s', fold_left cap_step body s = s' /\ c_code s' = true /\ c_out s' = c_out s ++ unlines (map fst body).
Proof.
  induction 1 as [|[l e] body N F IH]; intros G s C Bf; [exists s; repeat split; [exact C|unfold unlines; cbn; now rewrite app_nil_r]|]. inversion G as [|? ? E G']; subst. cbn [fst snd] in *.
  destruct (code_step s l e ltac:(rewrite C, (no_fence l N); reflexivity) E) as (s1 & E1 & C1 & B1 & O1). cbn [fold_left]. rewrite E1. destruct (IH G' s1 C1 B1) as (s' & E' & C' & O'). exists s'. split; [exact E'|]. split; [exact C'|]. rewrite O', O1, Bf. cbn [map fst]. rewrite unlines_cons. cbn [app]. now rewrite <- !app_assoc.
Qed.
