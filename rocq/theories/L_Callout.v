(** Lemmas about callouts. *)
From Verif Require Import Base BaseL L_Highlight M_Md L_Md M_Callout S_ManHtml L_ManHtml S_Callout.

Lemma ceqt a b : ceq a b = true -> a = b.
Proof. apply ceq_eq. Qed.
(** ** Names *)
Lemma up_low c : toupper (tolower c) = toupper c.
Proof. apply ceq_eq. revert c. apply (byte_forall (fun c => ceq (toupper (tolower c)) (toupper c))). vm_compute. reflexivity. Qed.
Lemma low_up c : tolower (toupper c) = tolower c.
Proof. apply ceq_eq. revert c. apply (byte_forall (fun c => ceq (tolower (toupper c)) (tolower c))). vm_compute. reflexivity. Qed.
Lemma ups_lows s : map toupper (map tolower s) = map toupper s.
Proof. rewrite map_map. apply map_ext, up_low. Qed.
Lemma lows_ups s : map tolower (map toupper s) = map tolower s.
Proof. rewrite map_map. apply map_ext, low_up. Qed.
Lemma means_detect name class : means name class -> is_none (detect name) = false /\ type_name (detect name) = class.
Proof.
  intros (names & n & F & I & E). assert (U : map toupper name = map toupper n) by (rewrite <- ups_lows, E; apply ups_lows).
  assert (L : length name = length n) by (apply (f_equal (@length _)) in E; rewrite !map_length in E; exact E).
  unfold detect. rewrite L, U. clear E U L. cbn [families In] in F.
  repeat (destruct F as [F|F]; [injection F as <- <-; cbn [In] in I; repeat (destruct I as [<-|I]; [vm_compute; auto|]); contradiction|]). contradiction.
Qed.
Lemma detect_means name : is_none (detect name) = false -> means name (type_name (detect name)).
Proof.
  assert (W : forall x n class names, seq_ (map toupper name) x = true -> map tolower x = map tolower n -> In (class, names) families -> In n names -> means name class).
  { intros x n class names E1 E2 F I. exists names, n. split; [exact F|]. split; [exact I|]. unfold same_word. apply seq_eq in E1. rewrite <- lows_ups, E1. exact E2. }
  unfold detect. destruct (64 <=? length name); [discriminate|]. cbv zeta beta.
  repeat match goal with
  | |- is_none (if ?b then _ else _) = false -> _ => destruct b eqn:?; [intros _; cbn [type_name]|]
  end; [..|discriminate].
  all: repeat match goal with H : _ || _ = true |- _ => apply orb_true_iff in H as [H|H] end.
  all: match goal with H : seq_ _ ?x = true |- _ => eapply (W x (map tolower x) _ _ H); [vm_compute; reflexivity|..] end;
  [solve [unfold families; cbn [In]; repeat (first [left; reflexivity|right])]|vm_compute; auto].
Qed.
Lemma means_shape name class : means name class -> name <> [] /\ ~ In "]"%char name /\ length class <= 8 /\ ~ In "<"%char class /\ ~ In "&"%char class /\ class <> [].
Proof.
  intros (names & n & F & I & E).
  assert (X : name <> [] /\ ~ In "]"%char name <-> n <> [] /\ ~ In "]"%char (map tolower n)).
  { assert (L : length name = length n) by (apply (f_equal (@length _)) in E; rewrite !map_length in E; exact E).
    assert (J : In "]"%char name <-> In "]"%char (map tolower n)).
    { unfold same_word in E. rewrite <- E. split; [intros H; apply (in_map tolower) in H; exact H|]. intros H. apply in_map_iff in H as (c & Hc & H).
      assert (C : implb (ceq (tolower c) "]") (ceq c "]") = true) by (apply (byte_forall (fun c => implb (ceq (tolower c) "]") (ceq c "]"))); vm_compute; reflexivity).
      rewrite Hc in C. apply ceqt in C as ->. exact H. }
    rewrite J. split; intros [H1 H2]; split; try exact H2; intros ->; apply H1; [destruct name|destruct n]; try reflexivity; discriminate L. }
  assert (Y : negb (Nat.eqb (length n) 0) && negb (existsb (ceq "]") (map tolower n)) && (length class <=? 8) && negb (existsb (ceq "<") class) && negb (existsb (ceq "&") class) && negb (Nat.eqb (length class) 0) = true).
  { clear X E. cbn [families In] in F.
    repeat (destruct F as [F|F]; [injection F as <- <-; cbn [In] in I; repeat (destruct I as [<-|I]; [vm_compute; reflexivity|]); contradiction|]). contradiction. }
  assert (Z : forall c x, negb (existsb (ceq c) x) = true -> ~ In c x).
  { intros c x H J. assert (T : existsb (ceq c) x = true) by (apply existsb_exists; exists c; split; [exact J|apply ceq_refl]). rewrite T in H. discriminate H. }
  repeat (apply andb_true_iff in Y as [Y ?]). rewrite <- and_assoc, X. split; [|].
  - split; [intros ->; discriminate Y|apply Z; assumption].
  - split; [apply Nat.leb_le; assumption|]. split; [apply Z; assumption|]. split; [apply Z; assumption|]. intros ->. match goal with H : negb (length [] =? 0) = true |- _ => discriminate H end.
Qed.

(** ** The marker *)
Definition fold_of (c : callout) : folding := if c_fold c then if c_open c then Opened else Closed else Plain.
Definition title_of (c : callout) : str := match c_title c with Some t => t | None => [] end.
Definition gapb (c : ascii) : bool := ceq c SP || ceq c TAB.
Lemma gapb_spec c : gapb c = true <-> c = SP \/ c = TAB.
Proof. unfold gapb. rewrite orb_true_iff, !ceq_eq. reflexivity. Qed.
Lemma span_gap g t : blanks g -> (forall c x, t = c :: x -> c <> SP /\ c <> TAB) -> span gapb (g ++ t) = (g, t).
Proof.
  intros G T. induction G as [|c g H G IH].
  - cbn [app]. destruct t as [|c t]; [reflexivity|]. cbn [span]. destruct (gapb c) eqn:E; [|reflexivity]. apply gapb_spec in E. destruct (T c t eq_refl) as [? ?]. tauto.
  - cbn [app span]. rewrite (proj2 (gapb_spec c) H), IH. reflexivity.
Qed.
Lemma no_nl t : ~ In NL t -> strchr NL t = None.
Proof. apply strchr_none. Qed.
Lemma read_complete text class f title : ~ In NL text -> marker text class f title ->
  exists c, read_marker text = Some c /\ type_name (c_type c) = class /\ fold_of c = f /\ title_of c = title /\ (title = [] -> c_title c = None) /\ (title <> [] -> c_title c = Some title).
Proof.
  intros N (name & gap & -> & M & G & T & P). destruct (means_shape _ _ M) as (M1 & M2 & _). destruct (means_detect _ _ M) as [D1 D2].
  unfold read_marker.
  assert (ST : starts (B "[!") (B "[!" ++ name ++ B "]" ++ fold_mark f ++ gap ++ title) = true) by (apply starts_spec; eexists; reflexivity).
  rewrite ST. change (skipn 2 (B "[!" ++ name ++ B "]" ++ fold_mark f ++ gap ++ title)) with (name ++ "]"%char :: fold_mark f ++ gap ++ title). cbv zeta.
  assert (SC : strchr "]" (name ++ "]"%char :: fold_mark f ++ gap ++ title) = Some (length name)) by (apply strchr_some; exists name, (fold_mark f ++ gap ++ title); auto).
  rewrite SC. replace (length name =? 0) with false by (symmetry; apply Nat.eqb_neq; destruct name; [contradiction|discriminate]).
  rewrite firstn_app, firstn_all, Nat.sub_diag. cbn [firstn]. rewrite app_nil_r, D1.
  assert (SK : skipn (length name + 1) (name ++ "]"%char :: fold_mark f ++ gap ++ title) = fold_mark f ++ gap ++ title).
  { rewrite skipn_app, skipn_all2 by lia. replace (length name + 1 - length name) with 1 by lia. reflexivity. }
  rewrite SK. clear ST SC SK. change (fun c => ceq c SP || ceq c TAB) with gapb.
  assert (NT : strchr NL title = None) by (apply no_nl; intros J; apply N; rewrite !in_app_iff; auto 10).
  assert (FO : (ceq (at_ (fold_mark f ++ gap ++ title) 0) "+" = match f with Opened => true | _ => false end) /\
    (ceq (at_ (fold_mark f ++ gap ++ title) 0) "-" = match f with Closed => true | _ => false end)).
  { destruct f; [|split; reflexivity..]. cbn [fold_mark app]. destruct gap as [|g gap].
    - cbn [app]. destruct title as [|c t]; [split; reflexivity|]. destruct (P eq_refl eq_refl c t eq_refl) as [P1 P2]. split; apply ceq_neq; assumption.
    - inversion G as [|? ? [->| ->] ?]; split; reflexivity. }
  destruct FO as [-> ->].
  assert (SG : snd (span gapb (if match f with Opened => true | _ => false end || match f with Closed => true | _ => false end then skipn 1 (fold_mark f ++ gap ++ title) else fold_mark f ++ gap ++ title)) = title).
  { assert (E : span gapb (gap ++ title) = (gap, title)) by (apply span_gap; assumption). destruct f; cbn [orb fold_mark app skipn B list_ascii_of_string]; rewrite E; reflexivity. }
  rewrite SG. eexists. split; [reflexivity|]. cbn [c_type]. split; [exact D2|]. split; [destruct f; reflexivity|]. unfold title_of. cbn [c_title]. rewrite NT.
  split; [destruct title; reflexivity|]. split; [intros ->; reflexivity|]. intros H. destruct title; [contradiction|reflexivity].
Qed.
Lemma read_sound text c : ~ In NL text -> read_marker text = Some c -> marker text (type_name (c_type c)) (fold_of c) (title_of c).
Proof.
  intros N. unfold read_marker. destruct (starts (B "[!") text) eqn:ST; [|discriminate]. apply starts_spec in ST as (r & ->).
  change (skipn 2 (B "[!" ++ r)) with r. cbv zeta. destruct (strchr "]" r) as [k|] eqn:SC; [|discriminate].
  apply strchr_some in SC as (name & after & -> & <- & NB). destruct (length name =? 0); [discriminate|].
  rewrite firstn_app, firstn_all, Nat.sub_diag. cbn [firstn]. rewrite app_nil_r. destruct (is_none (detect name)) eqn:D; [discriminate|].
  assert (SK : skipn (length name + 1) (name ++ "]"%char :: after) = after).
  { rewrite skipn_app, skipn_all2 by lia. replace (length name + 1 - length name) with 1 by lia. reflexivity. }
  rewrite SK. change (fun c => ceq c SP || ceq c TAB) with gapb.
  set (fold := ceq (at_ after 0) "+" || ceq (at_ after 0) "-"). set (rest := if fold then skipn 1 after else after).
  destruct (span gapb rest) as [gap title] eqn:SG. cbn [snd]. apply span_spec in SG as (ER & GF & TF).
  set (f := if fold then if negb (ceq (at_ after 0) "-") then Opened else Closed else Plain).
  assert (EA : after = fold_mark f ++ rest).
  { unfold f, rest, fold. destruct after as [|a after]; [reflexivity|]. cbn [at_ nth]. destruct (ceq a "+") eqn:A1; [apply ceqt in A1 as ->; reflexivity|].
    cbn [orb]. destruct (ceq a "-") eqn:A2; [apply ceqt in A2 as ->; reflexivity|reflexivity]. }
  assert (NT : strchr NL title = None).
  { apply no_nl. intros J. apply N. rewrite EA, ER, !in_app_iff. right. right. right. rewrite !in_app_iff. auto. }
  rewrite NT. intros [= <-]. cbn [c_type]. unfold fold_of, title_of. cbn [c_fold c_open c_title]. fold f.
  replace (match (match title with [] => None | _ => Some title end) with Some t => t | None => [] end) with title by (destruct title; reflexivity).
  exists name, gap. split; [rewrite EA, ER; reflexivity|]. split; [apply detect_means; exact D|]. split; [|split].
  - apply Forall_forall. intros x J. rewrite forallb_forall in GF. apply gapb_spec, GF, J.
  - intros x t ->. specialize (TF x t eq_refl). split; intros ->; discriminate TF.
  - intros Pf -> x t ->. cbn [app] in ER. unfold f, fold in Pf. destruct (ceq (at_ after 0) "+") eqn:A1; [cbn [orb] in Pf; destruct (negb _) in Pf; discriminate Pf|].
    cbn [orb] in Pf. destruct (ceq (at_ after 0) "-") eqn:A2; [discriminate Pf|]. assert (RA : rest = after) by (subst rest fold; cbv beta; rewrite ?A1, ?A2; reflexivity). rewrite RA in ER. rewrite ER in A1, A2. cbn in A1, A2.
    split; apply ceq_neq; assumption.
Qed.

(** ** The frame *)
Definition shown_title (c : callout) : str := match c_title c with Some t => t | None => type_name (c_type c) end.
Definition pre (c : callout) : str :=
  let name := type_name (c_type c) in
  if c_fold c then
    B "<details class=" ++ [DQ] ++ B "callout callout-" ++ name ++ [DQ] ++ (if c_open c then B " open" else []) ++ B ">" ++ [NL] ++ B "<summary>"
  else B "<div class=" ++ [DQ] ++ B "callout callout-" ++ name ++ [DQ] ++ B ">" ++ [NL] ++ B "<div class=" ++ [DQ] ++ B "callout-title" ++ [DQ] ++ B ">".
Definition post (c : callout) : str :=
  (if c_fold c then B "</summary>" else B "</div>") ++ [NL] ++ B "<div class=" ++ [DQ] ++ B "callout-content" ++ [DQ] ++ B ">" ++ [NL].
Lemma html_start_eq c : length (shown_title c) <= 900 -> html_start c = pre c ++ shown_title c ++ post c.
Proof.
  intros L.
  assert (H : html_start c = firstn 1023 (pre c ++ shown_title c ++ post c)).
  { unfold html_start, pre, post, shown_title. destruct (c_fold c); f_equal; rewrite <- !app_assoc; reflexivity. }
  rewrite H. apply firstn_all2. rewrite !app_length. assert (P : length (pre c) <= 80 /\ length (post c) <= 43) by (unfold pre, post; destruct c as [[] ? [] []]; vm_compute; lia). lia.
Qed.
Lemma frame_run c : length (shown_title c) <= 900 -> ~ In "<"%char (shown_title c) -> ~ In "&"%char (shown_title c) ->
  complete (html_start c) /\ text_of (html_start c) = [NL] ++ shown_title c ++ [NL; NL] /\ tags_of (html_start c) = fst (frame_tags (type_name (c_type c)) (fold_of c)).
Proof.
  intros L N1 N2. rewrite (html_start_eq c L).
  assert (R : exists e1 e2, run Tx (pre c) = (Tx, e1) /\ run Tx (post c) = (Tx, e2) /\ shown e1 = [NL] /\ shown e2 = [NL; NL] /\ tags e1 ++ tags e2 = fst (frame_tags (type_name (c_type c)) (fold_of c))).
  { unfold pre, post, fold_of. destruct c as [ty ti fo op]. cbn [c_type c_fold c_open]. destruct fo, op; destruct ty; eexists; eexists; (split; [vm_compute; reflexivity|]); (split; [vm_compute; reflexivity|]); repeat split. }
  destruct R as (e1 & e2 & R1 & R2 & S1 & S2 & T).
  assert (R : run Tx (pre c ++ shown_title c ++ post c) = (Tx, e1 ++ map Ch (shown_title c) ++ e2)).
  { apply (run_to _ _ Tx Tx _ Tx); [exact R1|]. apply (run_to _ _ Tx Tx _ Tx); [exact (run_plain _ N1 N2)|exact R2]. }
  unfold complete, text_of, tags_of. rewrite R. cbn [fst snd]. split; [reflexivity|]. rewrite !shown_app, !tags_app, shown_ch, S1, S2.
  assert (T0 : tags (map Ch (shown_title c)) = []) by (clear; induction (shown_title c); [reflexivity|assumption]). rewrite T0. split; [reflexivity|exact T].
Qed.
Lemma end_run c : complete (html_end c) /\ text_of (html_end c) = [NL; NL] /\ tags_of (html_end c) = snd (frame_tags (type_name (c_type c)) (fold_of c)).
Proof. unfold html_end, fold_of. destruct c as [ty ti [] []]; repeat split. Qed.

(** ** Trees *)
Lemma process_eq k ch : process (Node k ch) = match is_callout (Node k ch) with
  | Some c => [Node (HtmlBlock (Some (html_start c))) []; without_marker (Node k ch); Node (HtmlBlock (Some (html_end c))) []]
  | None => [Node k (concat (map process ch))]
  end.
Proof.
  change (process (Node k ch)) with (match is_callout (Node k ch) with
  | Some c => [Node (HtmlBlock (Some (html_start c))) []; without_marker (Node k ch); Node (HtmlBlock (Some (html_end c))) []]
  | None => [Node k ((fix all (l : list node) := match l with [] => [] | c :: l => process c ++ all l end) ch)] end).
  destruct (is_callout (Node k ch)); [reflexivity|]. do 2 f_equal. induction ch as [|c ch IH]; [reflexivity|]. cbn [map concat]. rewrite <- IH. reflexivity.
Qed.
Lemma out_eq k ch : out (Node k ch) = own k ++ concat (map out ch).
Proof. cbn [out]. f_equal. induction ch as [|c ch IH]; [reflexivity|]. cbn [map concat]. rewrite <- IH. reflexivity. Qed.
Lemma is_callout_some n c : one_line_texts n -> is_callout n = Some c ->
  exists text tc ps ch, n = Node Quote (Node Paragraph (Node (Text text) tc :: ps) :: ch) /\ ~ In NL text /\ marker text (type_name (c_type c)) (fold_of c) (title_of c) /\ is_none (c_type c) = false /\
    shown_title c = match title_of c with [] => type_name (c_type c) | _ => title_of c end.
Proof.
  intros O H. destruct n as [k l]. destruct k; try discriminate H. destruct l as [|p ch]; [discriminate H|]. destruct p as [pk pl]. destruct pk; try discriminate H.
  destruct pl as [|t ps]; [discriminate H|]. destruct t as [tk tc]. destruct tk as [| | | | | | | | | text | | | | | | | | | | | |]; try discriminate H. cbn [is_callout] in H.
  assert (N : ~ In NL text).
  { apply (O text tc). eapply Within_child; [left; reflexivity|]. eapply Within_child; [left; reflexivity|]. apply Within_self. }
  exists text, tc, ps, ch. split; [reflexivity|]. split; [exact N|]. pose proof (read_sound text c N H) as M. split; [exact M|].
  destruct (read_complete _ _ _ _ N M) as (c' & E & _ & _ & _ & T1 & T2). rewrite H in E. injection E as <-. split.
  - unfold read_marker in H. destruct (starts _ _); [|discriminate H]. destruct (strchr _ _); [|discriminate H]. destruct (_ =? 0); [discriminate H|].
    destruct (is_none _) eqn:D; [discriminate H|]. injection H as <-. exact D.
  - unfold shown_title. destruct (title_of c) as [|x t]; [rewrite T1 by reflexivity; reflexivity|]. rewrite T2 by discriminate. reflexivity.
Qed.
Lemma is_callout_none n : one_line_texts n -> is_callout n = None <-> forall class f title, ~ callout_quote n class f title.
Proof.
  intros O. split.
  - intros H class f title (text & tc & ps & ch & -> & M). cbn [is_callout] in H.
    assert (N : ~ In NL text). { apply (O text tc). eapply Within_child; [left; reflexivity|]. eapply Within_child; [left; reflexivity|]. apply Within_self. }
    destruct (read_complete _ _ _ _ N M) as (c & E & _). rewrite H in E. discriminate E.
  - intros H. destruct (is_callout n) as [c|] eqn:E; [|reflexivity]. destruct (is_callout_some n c O E) as (text & tc & ps & ch & -> & _ & M & _).
    destruct (H (type_name (c_type c)) (fold_of c) (title_of c)). exists text, tc, ps, ch. auto.
Qed.
Lemma one_line_child k ch c : one_line_texts (Node k ch) -> In c ch -> one_line_texts c.
Proof. intros O I s tc W. apply (O s tc). eapply Within_child; [exact I|exact W]. Qed.
Lemma free_child k ch c : callout_free (Node k ch) -> In c ch -> callout_free c.
Proof. intros O I m class f title W. apply (O m class f title). eapply Within_child; [exact I|exact W]. Qed.
Lemma process_free n : one_line_texts n -> callout_free n -> process n = [n].
Proof.
  induction n as [k ch IH] using node_ind'. intros O F. rewrite process_eq. rewrite (proj2 (is_callout_none _ O)) by (intros; apply (F (Node k ch)); apply Within_self).
  do 2 f_equal. assert (A : forall c, In c ch -> process c = [c]) by (intros c I; rewrite Forall_forall in IH; apply IH; [exact I|exact (one_line_child _ _ _ O I)|exact (free_child _ _ _ F I)]).
  clear IH O F. induction ch as [|c ch IHc]; [reflexivity|]. cbn [map concat]. rewrite (A c (or_introl eq_refl)). cbn [app]. f_equal. apply IHc. intros d I. apply A. right. exact I.
Qed.
Lemma without_marker_eq text tc ps ch : ~ In NL text -> without_marker (Node Quote (Node Paragraph (Node (Text text) tc :: ps) :: ch)) = Node Quote (Node Paragraph ps :: ch).
Proof. intros N. cbn [without_marker]. rewrite (no_nl text N). reflexivity. Qed.
Lemma process_framed n : one_line_texts n -> framed n (process n).
Proof.
  induction n as [k ch IH] using node_ind'. intros O. rewrite process_eq. destruct (is_callout (Node k ch)) as [c|] eqn:E.
  - destruct (is_callout_some _ c O E) as (text & tc & ps & ch' & Hn & N & M & _). rewrite Hn, (without_marker_eq _ _ _ _ N). exact (Framed_callout text tc ps ch' _ _ _ _ _ M).
  - apply Framed_other; [apply is_callout_none; assumption|]. rewrite Forall_forall in IH.
    assert (A : forall l, (forall c, In c l -> In c ch) -> Forall2 framed l (map process l)).
    { induction l as [|c l IHl]; intros S; cbn [map]; constructor; [|apply IHl; intros d I; apply S; right; exact I].
      apply IH; [apply S; left; reflexivity|]. apply (one_line_child _ _ _ O). apply S. left. reflexivity. }
    apply A. auto.
Qed.
Lemma shows_free n : callout_free n -> shows n (out n).
Proof.
  induction n as [k ch IH] using node_ind'. intros F. rewrite out_eq. apply Shows_other; [intros; apply (F (Node k ch)); apply Within_self|].
  rewrite Forall_forall in IH. assert (A : forall l, (forall c, In c l -> In c ch) -> Forall2 shows l (map out l)).
  { induction l as [|c l IHl]; intros S; cbn [map]; constructor; [|apply IHl; intros d I; apply S; right; exact I].
    apply IH; [apply S; left; reflexivity|]. apply (free_child _ _ _ F). apply S. left. reflexivity. }
  apply A. auto.
Qed.
Lemma visible_app a b : visible (a ++ b) = visible a ++ visible b.
Proof. unfold visible. apply filter_app. Qed.
Definition outs (l : list node) : str := concat (map out l).
Lemma outs_app a b : outs (a ++ b) = outs a ++ outs b.
Proof. unfold outs. rewrite map_app. apply concat_app. Qed.
Lemma process_shows n : orderly n -> exists t, shows n t /\ visible (outs (process n)) = visible t.
Proof.
  induction n as [k ch IH] using node_ind'. intros [O D]. rewrite process_eq. destruct (is_callout (Node k ch)) as [c|] eqn:E.
  - destruct (is_callout_some _ c O E) as (text & tc & ps & ch' & Hn & N & M & TY & SH). rewrite Hn, (without_marker_eq _ _ _ _ N).
    assert (Q : callout_quote (Node k ch) (type_name (c_type c)) (fold_of c) (title_of c)) by (exists text, tc, ps, ch'; auto).
    destruct (D _ _ _ _ (Within_self _) Q) as (L & N1 & N2 & FR). injection Hn as -> ->. cbn [childs] in FR.
    destruct M as (name & gap & Hm & ME & MR). destruct (means_shape _ _ ME) as (_ & _ & K1 & K2 & K3 & K4).
    destruct (frame_run c) as (_ & FT & _).
    { rewrite SH. destruct (title_of c); [lia|exact L]. } { rewrite SH. destruct (title_of c); [exact K2|exact N1]. } { rewrite SH. destruct (title_of c); [exact K3|exact N2]. }
    destruct (end_run c) as (_ & ET & _).
    exists (match title_of c with [] => type_name (c_type c) | _ => title_of c end ++ outs (ps ++ ch')). split.
    + apply (Shows_callout text tc ps ch' (type_name (c_type c)) (fold_of c) (title_of c)); [exists name, gap; auto|].
      assert (A : forall l, (forall d, In d l -> callout_free d) -> Forall2 shows l (map out l)).
      { induction l as [|d l IHl]; intros S; cbn [map]; constructor; [apply shows_free, S; left; reflexivity|]. apply IHl. intros e I. apply S. right. exact I. }
      apply A. intros d I. apply in_app_iff in I as [I|I].
      * apply (free_child Paragraph (Node (Text text) tc :: ps)); [apply FR; left; reflexivity|right; exact I].
      * apply FR. right. exact I.
    + unfold outs at 1. cbn [map concat]. rewrite app_nil_r, !out_eq. cbn [own map concat app]. rewrite FT, ET, !app_nil_r, out_eq. cbn [own app].
      fold (outs ps) (outs ch'). rewrite outs_app, <- SH. match goal with |- visible (NL :: ?x) = _ => change (visible (NL :: x)) with (visible x) end. rewrite !visible_app.
      change (visible [NL; NL]) with (@nil ascii). rewrite !app_nil_r. reflexivity.
  - rewrite Forall_forall in IH.
    assert (OC : forall c, In c ch -> orderly c).
    { intros c I. split; [exact (one_line_child _ _ _ O I)|]. intros m class f title W. apply D. eapply Within_child; [exact I|exact W]. }
    assert (A : forall l, (forall c, In c l -> In c ch) -> exists ts, Forall2 shows l ts /\ visible (outs (concat (map process l))) = visible (concat ts)).
    { induction l as [|c l IHl]; intros S; [exists []; split; [constructor|reflexivity]|]. destruct IHl as (ts & F1 & F2); [intros d I; apply S; right; exact I|].
      destruct (IH c (S c (or_introl eq_refl)) (OC c (S c (or_introl eq_refl)))) as (t & S1 & S2). exists (t :: ts). split; [constructor; assumption|].
      cbn [map concat]. rewrite outs_app, !visible_app, S2, F2. reflexivity. }
    destruct (A ch (fun c I => I)) as (ts & F1 & F2). exists (own k ++ concat ts). split; [apply Shows_other; [apply is_callout_none; assumption|exact F1]|].
    unfold outs at 1. cbn [map concat]. rewrite app_nil_r, out_eq, !visible_app. fold (outs (concat (map process ch))). rewrite F2. reflexivity.
Qed.
Lemma callout_line t tc ps ch class f title : ~ In NL t -> marker t class f title ->
  length title <= 900 -> ~ In "<"%char title -> ~ In "&"%char title ->
  exists before after, process (Node Quote (Node Paragraph (Node (Text t) tc :: ps) :: ch)) =
      [Node (HtmlBlock (Some before)) []; Node Quote (Node Paragraph ps :: ch); Node (HtmlBlock (Some after)) []] /\
    text_of before = [NL] ++ (match title with [] => class | _ => title end) ++ [NL; NL] /\
    complete before /\ complete after /\ tags_of before = fst (frame_tags class f) /\ tags_of after = snd (frame_tags class f).
Proof.
  intros N M L N1 N2. pose proof M as (name & gap & _ & ME & _). destruct (means_shape _ _ ME) as (_ & _ & K1 & K2 & K3 & K4).
  destruct (read_complete _ _ _ _ N M) as (c & E & C1 & C2 & C3 & T1 & T2).
  assert (SH : shown_title c = match title with [] => class | _ => title end).
  { unfold shown_title. destruct title as [|x y]; [rewrite T1 by reflexivity; exact C1|rewrite T2 by discriminate; reflexivity]. }
  exists (html_start c), (html_end c). rewrite process_eq. cbn [is_callout]. rewrite E, (without_marker_eq _ _ _ _ N). split; [reflexivity|].
  destruct (frame_run c) as (F1 & F2 & F3); [rewrite SH; destruct title; [lia|exact L]|rewrite SH; destruct title; [exact K2|exact N1]|rewrite SH; destruct title; [exact K3|exact N2]|].
  destruct (end_run c) as (E1 & _ & E3). rewrite C1, C2 in F3, E3. rewrite F2, SH. auto.
Qed.
Lemma callout_frame n class f title : one_line_texts n -> callout_quote n class f title ->
  length title <= 900 -> ~ In "<"%char title -> ~ In "&"%char title ->
  exists before m after, process n = [Node (HtmlBlock (Some before)) []; m; Node (HtmlBlock (Some after)) []] /\
    complete before /\ complete after /\ tags_of before = fst (frame_tags class f) /\ tags_of after = snd (frame_tags class f) /\
    text_of before = [NL] ++ (match title with [] => class | _ => title end) ++ [NL; NL].
Proof.
  intros O (t & tc & ps & ch & -> & M) L N1 N2.
  assert (N : ~ In NL t). { apply (O t tc). eapply Within_child; [left; reflexivity|]. eapply Within_child; [left; reflexivity|]. apply Within_self. }
  destruct (callout_line t tc ps ch class f title N M L N1 N2) as (b & a & E & H1 & H2 & H3 & H4 & H5). exists b, (Node Quote (Node Paragraph ps :: ch)), a. auto 10.
Qed.
