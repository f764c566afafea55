(** Lemmas about the HTML man page. *)
From Verif Require Import Base BaseL Dec L_Highlight M_Md L_Md M_Man M_ManHtml S_ManHtml.

Lemma ceqs a b : ceq a b = true -> a = b.
Proof. apply ceq_eq. Qed.
Lemma run_app a : forall m b, run m (a ++ b) = let (m1, e1) := run m a in let (m2, e2) := run m1 b in (m2, e1 ++ e2).
Proof.
  induction a as [|c a IH]; intros m b; cbn [app run]; [destruct (run m b); reflexivity|].
  destruct (step m c) as [m1 e1]. rewrite IH. destruct (run m1 a) as [m2 e2]. destruct (run m2 b) as [m3 e3].
  rewrite app_assoc. reflexivity.
Qed.
Lemma run_to a b m m1 e1 m2 e2 : run m a = (m1, e1) -> run m1 b = (m2, e2) -> run m (a ++ b) = (m2, e1 ++ e2).
Proof. intros H1 H2. rewrite run_app, H1. cbv beta iota. rewrite H2. reflexivity. Qed.
Lemma shown_app a b : shown (a ++ b) = shown a ++ shown b.
Proof. apply flat_map_app. Qed.
Lemma tags_app a b : tags (a ++ b) = tags a ++ tags b.
Proof. apply flat_map_app. Qed.
Lemma links_app a b : links (a ++ b) = links a ++ links b.
Proof. apply flat_map_app. Qed.
Lemma visible_app a b : visible (a ++ b) = visible a ++ visible b.
Proof. apply filter_app. Qed.
Lemma run_esc s : run Tx (esc s) = (Tx, map Ch s).
Proof.
  induction s as [|c s IH]; [reflexivity|]. change (esc (c :: s)) with (esc1 c ++ esc s). cbn [map].
  change (Ch c :: map Ch s) with ([Ch c] ++ map Ch s). apply (run_to _ _ _ Tx); [|exact IH]. unfold esc1.
  destruct (ceq c "&") eqn:C1; [apply ceqs in C1 as ->; reflexivity|]. destruct (ceq c "<") eqn:C2; [apply ceqs in C2 as ->; reflexivity|].
  destruct (ceq c ">") eqn:C3; [apply ceqs in C3 as ->; reflexivity|]. destruct (ceq c DQ) eqn:C4; [apply ceqs in C4 as ->; reflexivity|].
  destruct (ceq c SQ) eqn:C5; [apply ceqs in C5 as ->; reflexivity|]. cbn [run step]. rewrite C2, C1. reflexivity.
Qed.
Lemma run_plain s : ~ In "<"%char s -> ~ In "&"%char s -> run Tx s = (Tx, map Ch s).
Proof.
  induction s as [|c s IH]; intros N1 N2; [reflexivity|]. cbn [run step].
  assert (C1 : ceq c "<" = false) by (apply ceq_neq; intros ->; apply N1; left; reflexivity).
  assert (C2 : ceq c "&" = false) by (apply ceq_neq; intros ->; apply N2; left; reflexivity).
  rewrite C1, C2, IH; [reflexivity|intros J; apply N1; right; exact J|intros J; apply N2; right; exact J].
Qed.
Lemma run_in_tag s : ~ In ">"%char s -> forall a, run (In_tag a) s = (In_tag (a ++ s), []).
Proof.
  induction s as [|c s IH]; intros N a; cbn [run step]; [rewrite app_nil_r; reflexivity|].
  assert (C1 : ceq c ">" = false) by (apply ceq_neq; intros ->; apply N; left; reflexivity).
  rewrite C1, IH by (intros J; apply N; right; exact J). rewrite <- app_assoc. reflexivity.
Qed.
Lemma run_tag t : ~ In ">"%char t -> run Tx (B "<" ++ t ++ B ">") = (Tx, [Tg t]).
Proof.
  intros N. apply (run_to (B "<") _ Tx (In_tag []) [] Tx [Tg t]); [reflexivity|].
  apply (run_to t _ _ (In_tag t) [] Tx [Tg t]); [exact (run_in_tag t N [])|reflexivity].
Qed.
Lemma shown_ch s : shown (map Ch s) = s.
Proof. induction s as [|c s IH]; [reflexivity|]. cbn. f_equal. exact IH. Qed.
Lemma tags_ch s : tags (map Ch s) = [].
Proof. induction s as [|c s IH]; [reflexivity|exact IH]. Qed.
Lemma esc_no s : ~ In ">"%char (esc s).
Proof.
  intros H. apply in_flat_map in H as (c & _ & H). unfold esc1 in H.
  destruct (ceq c "&"); [cbn in H; intuition discriminate|]. destruct (ceq c "<"); [cbn in H; intuition discriminate|].
  destruct (ceq c ">") eqn:C; [cbn in H; intuition discriminate|]. destruct (ceq c DQ); [cbn in H; intuition discriminate|].
  destruct (ceq c SQ); [cbn in H; intuition discriminate|]. destruct H as [->|[]]. discriminate C.
Qed.
Lemma text_esc s : text_of (esc s) = s.
Proof. unfold text_of. rewrite run_esc. apply shown_ch. Qed.

(** ** Nesting *)
Definition neutral (l : list str) : Prop := forall open r, nested open (l ++ r) <-> nested open r.
Lemma neutral_nil : neutral [].
Proof. intros o r. reflexivity. Qed.
Lemma neutral_app a b : neutral a -> neutral b -> neutral (a ++ b).
Proof. intros A N o r. rewrite <- app_assoc, (A o), (N o). reflexivity. Qed.
Definition opening (t : str) : Prop := match t with "/"%char :: _ => False | _ => void (tag_name t) = false end.
Lemma nested_open t l o : opening t -> nested o (t :: l) <-> nested (tag_name t :: o) l.
Proof.
  intros H. destruct t as [|c t]; cbn [nested]; cbn [opening] in H; [rewrite H; reflexivity|].
  destruct c as [[] [] [] [] [] [] [] []]; cbn [opening] in H; try contradiction; rewrite H; reflexivity.
Qed.
Lemma neutral_wrap t l : opening t -> neutral l -> neutral (t :: l ++ [B "/" ++ tag_name t]).
Proof.
  intros O N o r. change ((t :: l ++ [B "/" ++ tag_name t]) ++ r) with (t :: (l ++ [B "/" ++ tag_name t]) ++ r).
  rewrite (nested_open t _ o O), <- app_assoc, (N (tag_name t :: o)). cbn. split; [intros [_ H]; exact H|auto].
Qed.
Lemma neutral_nested l : neutral l -> nested [] l.
Proof. intros N. rewrite <- (app_nil_r l). apply N. reflexivity. Qed.

(** ** Parts of a page: what they show, where they link. *)
Definition part (s t : str) (u : list str) : Prop :=
  exists e, run Tx s = (Tx, e) /\ shown e = t /\ links (tags e) = u /\ neutral (tags e).
Lemma part_app s1 t1 u1 s2 t2 u2 : part s1 t1 u1 -> part s2 t2 u2 -> part (s1 ++ s2) (t1 ++ t2) (u1 ++ u2).
Proof.
  intros (e1 & R1 & T1 & U1 & N1) (e2 & R2 & T2 & U2 & N2). exists (e1 ++ e2).
  split; [exact (run_to _ _ _ _ _ _ _ R1 R2)|]. rewrite shown_app, tags_app, links_app, T1, T2, U1, U2.
  split; [reflexivity|]. split; [reflexivity|]. apply neutral_app; assumption.
Qed.
Lemma part_esc s : part (esc s) s [].
Proof. exists (map Ch s). rewrite shown_ch, tags_ch. split; [apply run_esc|]. split; [reflexivity|]. split; [reflexivity|exact neutral_nil]. Qed.
Lemma part_plain s : ~ In "<"%char s -> ~ In "&"%char s -> part s s [].
Proof. intros N1 N2. exists (map Ch s). rewrite shown_ch, tags_ch. split; [apply run_plain; assumption|]. split; [reflexivity|]. split; [reflexivity|exact neutral_nil]. Qed.
Lemma part_nil : part [] [] [].
Proof. exists []. repeat split; auto. Qed.
Lemma part_wrap t s x u : opening t -> ~ In ">"%char t -> part s x u ->
  part (B "<" ++ t ++ B ">" ++ s ++ B "</" ++ tag_name t ++ B ">") x (href t ++ u).
Proof.
  intros O N (e & R & T & U & W). exists ([Tg t] ++ e ++ [Tg (B "/" ++ tag_name t)]).
  assert (N' : ~ In ">"%char (B "/" ++ tag_name t)).
  { intros [H|H]; [discriminate H|]. apply N. unfold tag_name in H. destruct (span _ t) as [a b] eqn:E. apply span_spec in E as [-> _]. apply in_or_app. left. exact H. }
  split; [|split; [|split]].
  - replace (B "<" ++ t ++ B ">" ++ s ++ B "</" ++ tag_name t ++ B ">") with ((B "<" ++ t ++ B ">") ++ s ++ B "<" ++ (B "/" ++ tag_name t) ++ B ">").
    + apply (run_to _ _ _ Tx); [exact (run_tag t N)|]. apply (run_to _ _ _ Tx); [exact R|]. exact (run_tag _ N').
    + rewrite <- !app_assoc. reflexivity.
  - rewrite !shown_app. cbn. rewrite app_nil_r. exact T.
  - rewrite !tags_app, !links_app, U. unfold links at 1 2. cbn [tags flat_map app]. rewrite app_nil_r.
    replace (href (B "/" ++ tag_name t)) with (@nil str) by reflexivity. rewrite app_nil_r. reflexivity.
  - rewrite !tags_app. cbn [tags flat_map app]. apply neutral_wrap; assumption.
Qed.
Ltac lit := eexists; split; [vm_compute; reflexivity|split; [reflexivity|split; [reflexivity|exact neutral_nil]]].

Lemma inline_html_eq k ch : inline_html (Node k ch) =
  match k with
  | Text s => esc s
  | Code s => B "<code>" ++ esc s ++ B "</code>"
  | Hard => B "<br>" ++ [NL]
  | Soft => B " "
  | Strong => B "<strong>" ++ inlines_html ch ++ B "</strong>"
  | Emph => B "<em>" ++ inlines_html ch ++ B "</em>"
  | Link u _ => match opt u with [] => inlines_html ch | url => B "<a href=" ++ [DQ] ++ esc url ++ [DQ] ++ B ">" ++ inlines_html ch ++ B "</a>" end
  | Html _ => []
  | _ => inlines_html ch
  end.
Proof.
  assert (E : forall l, (fix all (l : list node) := match l with [] => [] | c :: l => inline_html c ++ all l end) l = inlines_html l).
  { induction l as [|c l IH]; [reflexivity|]. rewrite IH. reflexivity. }
  destruct k; cbn [inline_html]; rewrite ?E; reflexivity.
Qed.
Definition saids (l : list node) : str := concat (map said l).
Definition urls (l : list node) : list str := concat (map addresses l).
Lemma said_eq k ch : said (Node k ch) =
  match k with Text s | Code s => s | Soft => [SP] | Hard => [NL] | Html s => s | HtmlBlock s => opt s | CodeBlock _ s => opt s | _ => saids ch end.
Proof.
  assert (E : forall l, (fix all (l : list node) := match l with [] => [] | c :: l => said c ++ all l end) l = saids l).
  { induction l as [|c l IH]; [reflexivity|]. rewrite IH. reflexivity. }
  destruct k; cbn [said]; rewrite ?E; reflexivity.
Qed.
Lemma addresses_eq k ch : addresses (Node k ch) = match k with Link (Some (c :: u)) _ => (c :: u) :: urls ch | _ => urls ch end.
Proof.
  assert (E : forall l, (fix all (l : list node) := match l with [] => [] | c :: l => addresses c ++ all l end) l = urls l).
  { induction l as [|c l IH]; [reflexivity|]. rewrite IH. reflexivity. }
  destruct k; cbn [addresses]; rewrite ?E; try reflexivity. destruct url as [[|c u]|]; rewrite ?E; reflexivity.
Qed.
Lemma page_inline_eq k ch : page_inline (Node k ch) ->
  match k with
  | Text _ | Code _ | Soft | Hard => ch = []
  | Emph | Strong | Other | Link _ _ | Image _ _ _ => Forall page_inline ch
  | _ => False
  end.
Proof.
  intros H. cbn [page_inline] in H. destruct k; try exact H;
    (induction ch as [|c ch IH]; [constructor|destruct H as [H1 H2]; constructor; [exact H1|exact (IH H2)]]).
Qed.
Lemma parts l : Forall (fun n => part (inline_html n) (said n) (addresses n)) l -> part (inlines_html l) (saids l) (urls l).
Proof.
  induction 1 as [|n l H _ IH]; [exact part_nil|].
  change (inlines_html (n :: l)) with (inline_html n ++ inlines_html l). change (saids (n :: l)) with (said n ++ saids l).
  change (urls (n :: l)) with (addresses n ++ urls l). apply part_app; assumption.
Qed.
Lemma href_ok u : href (B "a href=" ++ [DQ] ++ esc u ++ [DQ]) = [u].
Proof.
  unfold href. change (starts (B "a href=" ++ [DQ]) (B "a href=" ++ [DQ] ++ esc u ++ [DQ])) with true. cbv iota.
  change (skipn 8 (B "a href=" ++ [DQ] ++ esc u ++ [DQ])) with (esc u ++ [DQ]). rewrite removelast_last, text_esc. reflexivity.
Qed.
Lemma part_link u s x v : part s x v -> part (B "<a href=" ++ [DQ] ++ esc u ++ [DQ] ++ B ">" ++ s ++ B "</a>") x (u :: v).
Proof.
  intros P. pose proof (part_wrap (B "a href=" ++ [DQ] ++ esc u ++ [DQ]) s x v) as H. rewrite href_ok in H.
  replace (B "<a href=" ++ [DQ] ++ esc u ++ [DQ] ++ B ">" ++ s ++ B "</a>") with
    (B "<" ++ (B "a href=" ++ [DQ] ++ esc u ++ [DQ]) ++ B ">" ++ s ++ B "</" ++ tag_name (B "a href=" ++ [DQ] ++ esc u ++ [DQ]) ++ B ">").
  - apply H; [reflexivity| |exact P]. intros J. apply in_app_or in J as [J|J]; [cbn in J; intuition discriminate|].
    apply in_app_or in J as [J|J]; [cbn in J; intuition discriminate|]. apply in_app_or in J as [J|J]; [exact (esc_no u J)|cbn in J; intuition discriminate].
  - change (tag_name (B "a href=" ++ [DQ] ++ esc u ++ [DQ])) with (B "a"). rewrite <- !app_assoc. reflexivity.
Qed.
Lemma inline_part n : page_inline n -> part (inline_html n) (said n) (addresses n).
Proof.
  induction n as [k ch IH] using node_ind'. intros T. apply page_inline_eq in T.
  assert (F : Forall page_inline ch -> part (inlines_html ch) (saids ch) (urls ch)).
  { intros G. apply parts. rewrite Forall_forall in *. intros c J. apply (IH c J), (G c J). }
  rewrite inline_html_eq, said_eq, addresses_eq. destruct k; try contradiction; try (subst ch; cbn [urls map concat]).
  - apply part_esc.
  - lit.
  - lit.
  - apply (part_wrap (B "code") (esc literal) literal []); [reflexivity|cbn; intuition discriminate|apply part_esc].
  - apply (part_wrap (B "em") (inlines_html ch) (saids ch) (urls ch)); [reflexivity|cbn; intuition discriminate|exact (F T)].
  - apply (part_wrap (B "strong") (inlines_html ch) (saids ch) (urls ch)); [reflexivity|cbn; intuition discriminate|exact (F T)].
  - destruct url as [[|c u]|]; cbn [opt]; [exact (F T)| |exact (F T)]. apply part_link, F, T.
  - exact (F T).
  - exact (F T).
Qed.

(** ** Blocks *)
Definition bpart (s t : str) (u : list str) : Prop := exists t', part s t' u /\ visible t' = visible t.
Lemma bpart_of s t u : part s t u -> bpart s t u.
Proof. intros P. exists t. auto. Qed.
Lemma bpart_nil : bpart [] [] [].
Proof. apply bpart_of, part_nil. Qed.
Lemma bpart_app s1 t1 u1 s2 t2 u2 : bpart s1 t1 u1 -> bpart s2 t2 u2 -> bpart (s1 ++ s2) (t1 ++ t2) (u1 ++ u2).
Proof. intros (x & P1 & V1) (y & P2 & V2). exists (x ++ y). split; [apply part_app; assumption|]. rewrite !visible_app, V1, V2. reflexivity. Qed.
Lemma bpart_blank s t u : bpart s t u -> bpart (s ++ [NL]) t u.
Proof. intros P. rewrite <- (app_nil_r t), <- (app_nil_r u). apply bpart_app; [exact P|]. exists [NL]. split; [lit|reflexivity]. Qed.
Lemma bpart_blank' s t u : bpart s t u -> bpart ([NL] ++ s) t u.
Proof. intros P. change t with ([] ++ t). change u with ([] ++ u). apply bpart_app; [|exact P]. exists [NL]. split; [lit|reflexivity]. Qed.
Lemma bpart_wrap t s x u : opening t -> ~ In ">"%char t -> href t = [] -> bpart s x u ->
  bpart (B "<" ++ t ++ B ">" ++ s ++ B "</" ++ tag_name t ++ B ">") x u.
Proof.
  intros O N H (y & P & V). exists y. split; [|exact V]. pose proof (part_wrap t s y u O N P) as Q. rewrite H in Q. exact Q.
Qed.
Definition blocks (item : bool) (l : list node) : str :=
  match l with [] => [] | c :: l => block_html item c ++ concat (map (block_html false) l) end.
Lemma blocks_false l : blocks false l = concat (map (block_html false) l).
Proof. destruct l; reflexivity. Qed.
Lemma block_html_eq item k ch : block_html item (Node k ch) =
  match k with
  | Document => blocks false ch
  | Heading level =>
      [NL] ++ B "<div class=" ++ [DQ] ++ B "man-section" ++ [DQ] ++ B "><" ++ heading_tag level ++ B " id=" ++ [DQ] ++ section_id (Node k ch) ++ [DQ] ++ B ">"
      ++ inlines_html ch ++ B "</" ++ heading_tag level ++ B "></div>" ++ [NL]
  | Paragraph => if item then inlines_html ch ++ [NL] else B "<p>" ++ inlines_html ch ++ B "</p>" ++ [NL]
  | Lst true _ => [NL] ++ B "<ol>" ++ [NL] ++ blocks false ch ++ B "</ol>" ++ [NL]
  | Lst false _ => [NL] ++ B "<ul>" ++ [NL] ++ blocks false ch ++ B "</ul>" ++ [NL]
  | Item _ => B "<li>" ++ blocks true ch ++ B "</li>" ++ [NL]
  | CodeBlock _ lit => [NL] ++ B "<pre><code>" ++ esc (opt lit) ++ B "</code></pre>" ++ [NL]
  | Quote => [NL] ++ B "<blockquote>" ++ [NL] ++ blocks false ch ++ B "</blockquote>" ++ [NL]
  | Rule => [NL] ++ B "<hr>" ++ [NL]
  | HtmlBlock lit => if is_dl (opt lit) then opt lit else []
  | _ => blocks false ch
  end.
Proof.
  assert (E : forall k l f, (fix all (first : bool) (l : list node) :=
    match l with [] => [] | c :: l => block_html (match k with Item _ => first | _ => false end) c ++ all false l end) f l =
    blocks (match k with Item _ => f | _ => false end) l).
  { intros k' l. assert (E0 : forall l, (fix all (first : bool) (l : list node) :=
      match l with [] => [] | c :: l => block_html (match k' with Item _ => first | _ => false end) c ++ all false l end) false l = concat (map (block_html false) l)).
    { clear l. induction l as [|c l IH]; [reflexivity|]. rewrite IH. destruct k'; reflexivity. }
    intros f. destruct l as [|c l]; [reflexivity|]. rewrite E0. reflexivity. }
  destruct k; try destruct ordered; cbn [block_html]; try rewrite (E Document); try rewrite (E Quote); try rewrite (E DefList); try rewrite (E DefTerm);
    try rewrite (E DefData); try rewrite (E Other); try rewrite (E (Item index)); try rewrite (E (Lst true start)); try rewrite (E (Lst false start)); try reflexivity.
Qed.
Lemma page_block_eq k ch : page_block (Node k ch) ->
  match k with
  | Document | Quote | Lst _ _ | Item _ | DefList | DefTerm | DefData | Other => Forall page_block ch
  | Paragraph | Heading _ => Forall page_inline ch
  | CodeBlock _ _ | Rule => ch = []
  | _ => False
  end.
Proof.
  intros H. cbn [page_block] in H. destruct k; try exact H;
    (induction ch as [|c ch IH]; [constructor|destruct H as [H1 H2]; constructor; [exact H1|exact (IH H2)]]).
Qed.
Lemma inlines_part l : Forall page_inline l -> part (inlines_html l) (saids l) (urls l).
Proof. intros F. apply parts. eapply Forall_impl; [|exact F]. intros n. apply inline_part. Qed.

(** ** Ids *)
Definition id_ok (c : ascii) : bool := isalnum c || ceq c "-"%char.
Lemma id_char_ok s : forallb id_ok (flat_map id_char s) = true.
Proof.
  apply forallb_forall. intros c H. apply in_flat_map in H as (d & _ & H). unfold id_char in H. unfold id_ok.
  destruct (ceq d SP || ceq d TAB); [destruct H as [<-|[]]; reflexivity|].
  destruct (isalnum d || ceq d "-") eqn:E; [destruct H as [<-|[]]; exact E|contradiction].
Qed.
Lemma section_id_ok n : forallb id_ok (section_id n) = true.
Proof.
  induction n as [k ch IH] using node_ind'. cbn [section_id]. induction IH as [|[k' ch'] ch H _ IHl]; [reflexivity|].
  destruct k'; try (rewrite forallb_app, H, IHl; reflexivity). apply id_char_ok.
Qed.
Lemma id_no c s : id_ok c = false -> forallb id_ok s = true -> ~ In c s.
Proof. intros H F J. rewrite forallb_forall in F. rewrite (F c J) in H. discriminate H. Qed.
Lemma dec4 n : n <= 3 -> heading_tag n = match n with 0 => B "h1" | 1 => B "h2" | 2 => B "h3" | _ => B "h4" end.
Proof. intros H. do 4 (destruct n as [|n]; [reflexivity|]). lia. Qed.
Lemma heading_tags n : In (heading_tag n) [B "h1"; B "h2"; B "h3"; B "h4"].
Proof.
  destruct (le_lt_dec n 3) as [H|H].
  - rewrite (dec4 n H). destruct n as [|[|[|n]]]; cbn; auto 6.
  - unfold heading_tag. replace (4 <? n + 1) with true by (symmetry; apply Nat.ltb_lt; lia). cbn. auto 6.
Qed.
Definition heading_open (n : node) (level : nat) : str := heading_tag level ++ B " id=" ++ [DQ] ++ section_id n ++ [DQ].
Lemma heading_open_ok n level : opening (heading_open n level) /\ ~ In ">"%char (heading_open n level) /\ href (heading_open n level) = [] /\ tag_name (heading_open n level) = heading_tag level.
Proof.
  unfold heading_open.
  assert (N : ~ In ">"%char (section_id n)) by (apply id_no; [reflexivity|apply section_id_ok]).
  destruct (heading_tags level) as [<-|[<-|[<-|[<-|[]]]]];
    (split; [reflexivity|split; [|split; reflexivity]]);
    (intros J; apply in_app_or in J as [J|J]; [cbn in J; intuition discriminate|];
     apply in_app_or in J as [J|J]; [cbn in J; intuition discriminate|]; apply in_app_or in J as [J|J]; [cbn in J; intuition discriminate|];
     apply in_app_or in J as [J|J]; [exact (N J)|cbn in J; intuition discriminate]).
Qed.
Definition div_open : str := B "div class=" ++ [DQ] ++ B "man-section" ++ [DQ].
Lemma heading_shape n level s : [NL] ++ B "<div class=" ++ [DQ] ++ B "man-section" ++ [DQ] ++ B "><" ++ heading_tag level ++ B " id=" ++ [DQ] ++ section_id n ++ [DQ] ++ B ">"
      ++ s ++ B "</" ++ heading_tag level ++ B "></div>" ++ [NL] =
  [NL] ++ (B "<" ++ div_open ++ B ">" ++ (B "<" ++ heading_open n level ++ B ">" ++ s ++ B "</" ++ tag_name (heading_open n level) ++ B ">") ++ B "</" ++ tag_name div_open ++ B ">") ++ [NL].
Proof.
  destruct (heading_open_ok n level) as (_ & _ & _ & ->). unfold heading_open. change (tag_name div_open) with (B "div"). unfold div_open.
  rewrite <- !app_assoc. reflexivity.
Qed.
Lemma heading_bpart n level s x u : bpart s x u ->
  bpart ([NL] ++ B "<div class=" ++ [DQ] ++ B "man-section" ++ [DQ] ++ B "><" ++ heading_tag level ++ B " id=" ++ [DQ] ++ section_id n ++ [DQ] ++ B ">"
      ++ s ++ B "</" ++ heading_tag level ++ B "></div>" ++ [NL]) x u.
Proof.
  intros P. rewrite heading_shape. apply bpart_blank', bpart_blank. destruct (heading_open_ok n level) as (O & N & H & _).
  apply bpart_wrap; [reflexivity|cbn; intuition discriminate|reflexivity|]. apply bpart_wrap; assumption.
Qed.
Ltac wrap t := match goal with |- bpart ?s _ _ => apply (bpart_wrap t); [reflexivity|cbn; intuition discriminate|reflexivity|] end.
Lemma bparts item l : Forall (fun n => forall item, bpart (block_html item n) (said n) (addresses n)) l -> bpart (blocks item l) (saids l) (urls l).
Proof.
  assert (K : forall l, Forall (fun n => forall item, bpart (block_html item n) (said n) (addresses n)) l -> bpart (concat (map (block_html false) l)) (saids l) (urls l)).
  { induction 1 as [|n l' H _ IH]; [exact bpart_nil|]. exact (bpart_app _ _ _ _ _ _ (H false) IH). }
  intros F. destruct F as [|n l H F]; [exact bpart_nil|]. exact (bpart_app _ _ _ _ _ _ (H item) (K l F)).
Qed.
Lemma bpart_code s : bpart ([NL] ++ B "<pre><code>" ++ esc s ++ B "</code></pre>" ++ [NL]) s [].
Proof.
  replace (B "<pre><code>" ++ esc s ++ B "</code></pre>" ++ [NL]) with ((B "<" ++ B "pre" ++ B ">" ++ (B "<" ++ B "code" ++ B ">" ++ esc s ++ B "</" ++ tag_name (B "code") ++ B ">") ++ B "</" ++ tag_name (B "pre") ++ B ">") ++ [NL]).
  - apply bpart_blank', bpart_blank. wrap (B "pre"). wrap (B "code"). apply bpart_of, part_esc.
  - change (tag_name (B "code")) with (B "code"). change (tag_name (B "pre")) with (B "pre"). rewrite <- !app_assoc. reflexivity.
Qed.
Lemma bpart_p s x u : bpart s x u -> bpart (B "<p>" ++ s ++ B "</p>" ++ [NL]) x u.
Proof.
  intros P. replace (B "<p>" ++ s ++ B "</p>" ++ [NL]) with ((B "<" ++ B "p" ++ B ">" ++ s ++ B "</" ++ tag_name (B "p") ++ B ">") ++ [NL]);
    [apply bpart_blank; wrap (B "p"); exact P|]. change (tag_name (B "p")) with (B "p"). rewrite <- !app_assoc. reflexivity.
Qed.
Lemma bpart_li s x u : bpart s x u -> bpart (B "<li>" ++ s ++ B "</li>" ++ [NL]) x u.
Proof.
  intros P. replace (B "<li>" ++ s ++ B "</li>" ++ [NL]) with ((B "<" ++ B "li" ++ B ">" ++ s ++ B "</" ++ tag_name (B "li") ++ B ">") ++ [NL]);
    [apply bpart_blank; wrap (B "li"); exact P|]. change (tag_name (B "li")) with (B "li"). rewrite <- !app_assoc. reflexivity.
Qed.
Lemma bpart_group o c t s x u : o = B "<" ++ t ++ B ">" -> c = B "</" ++ t ++ B ">" -> opening t -> ~ In ">"%char t -> href t = [] -> tag_name t = t -> bpart s x u ->
  bpart ([NL] ++ o ++ [NL] ++ s ++ c ++ [NL]) x u.
Proof.
  intros -> -> O N H E P. replace ([NL] ++ (B "<" ++ t ++ B ">") ++ [NL] ++ s ++ (B "</" ++ t ++ B ">") ++ [NL]) with
    ([NL] ++ (B "<" ++ t ++ B ">" ++ ([NL] ++ s) ++ B "</" ++ tag_name t ++ B ">") ++ [NL]).
  - apply bpart_blank', bpart_blank, bpart_wrap; [assumption..|]. apply bpart_blank'. exact P.
  - rewrite E, <- !app_assoc. reflexivity.
Qed.
Ltac group t := apply (bpart_group _ _ t); [reflexivity|reflexivity|reflexivity|cbn; intuition discriminate|reflexivity|reflexivity|].
Lemma block_bpart n : page_block n -> forall item, bpart (block_html item n) (said n) (addresses n).
Proof.
  induction n as [k ch IH] using node_ind'. intros T item. apply page_block_eq in T.
  assert (F : forall item, Forall page_block ch -> bpart (blocks item ch) (saids ch) (urls ch)).
  { intros i G. apply bparts. rewrite Forall_forall in *. intros c J. apply (IH c J), (G c J). }
  assert (I : Forall page_inline ch -> bpart (inlines_html ch) (saids ch) (urls ch)).
  { intros G. apply bpart_of, inlines_part, G. }
  rewrite block_html_eq, said_eq, addresses_eq. destruct k; try contradiction; try (subst ch; cbn [urls map concat]).
  - exact (F false T).
  - destruct item; [apply bpart_blank|apply bpart_p]; exact (I T).
  - apply heading_bpart. exact (I T).
  - apply bpart_code.
  - group (B "blockquote"). exact (F false T).
  - destruct ordered; [group (B "ol")|group (B "ul")]; exact (F false T).
  - apply bpart_li. exact (F true T).
  - exists [NL; NL]. split; [lit|reflexivity].
  - exact (F false T).
  - exact (F false T).
  - exact (F false T).
  - exact (F false T).
Qed.
