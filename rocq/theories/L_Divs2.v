(** More lemmas for C179-C187: documents of lines, and custom elements in HTML. *)
From Verif Require Import Base BaseL L_Csv L_Lines M_Divs S_Divs L_Divs.
Local Arguments isspace : simpl never.

(** * Documents *)
Fixpoint ldivs (ls : list (str * str)) (stack : list str) (w : st) : option st :=
  match ls with
  | [] => close_all stack w
  | (line, nl) :: rest =>
      match opening line with
      | Some a =>
          let (t, a) := block_type a in
          match attributes a with
          | None => None
          | Some h => match emit (open_tag t h) (ensure (open_needed t h) w) with Some w => ldivs rest (t :: stack) (newline w) | None => None end
          end
      | None =>
          match closing line, stack with
          | true, t :: stack' => match emit (close_tag t) (ensure (length (close_tag t)) w) with Some w => ldivs rest stack' w | None => None end
          | _, _ => match store (line ++ nl) (ensure (length line + 1) w) with Some w => ldivs rest stack w | None => None end
          end
      end
  end.
Lemma is_eol_false c : c <> NL -> c <> CR -> is_eol c = false.
Proof. intros A C. unfold is_eol. apply ceq_neq in A, C. rewrite A, C. reflexivity. Qed.
Lemma line_span l r : no_eol l -> (r = [] \/ exists c r', r = c :: r' /\ is_eol c = true) -> span (fun c => negb (is_eol c)) (l ++ r) = (l, r).
Proof.
  intros [N1 N2] H. apply span_word.
  - apply Forall_forall. intros c I. rewrite is_eol_false; [reflexivity|intros ->; contradiction..].
  - destruct H as [->|(c & r' & -> & C)]; [left; reflexivity|right; exists c, r'; rewrite C; auto].
Qed.
Lemma divs_lines s ls : Lines s ls -> forall fuel stack w, length s < fuel -> divs fuel s stack w = ldivs ls stack w.
Proof.
  induction 1 as [|l nl s ls N E L IH]; intros fuel stack w Lf; (destruct fuel as [|fuel]; [lia|]); [reflexivity|].
  assert (Sp : span (fun c => negb (is_eol c)) (l ++ nl ++ s) = (l, nl ++ s)).
  { apply line_span; [exact N|]. destruct E as [-> | [-> | [[-> _] | (-> & -> & _)]]]; [right; do 2 eexists; split; [reflexivity|reflexivity]..|left; reflexivity]. }
  assert (El : eol (nl ++ s) = (nl, s)).
  { destruct E as [-> | [-> | [[-> H] | (-> & -> & _)]]]; try reflexivity. cbn [app eol]. rewrite ceq_refl. destruct s as [|d s']; [reflexivity|]. cbn in H. rewrite (proj2 (ceq_neq d NL)) by exact H. reflexivity. }
  assert (Lr : length s < fuel).
  { rewrite !app_length in Lf. destruct E as [-> | [-> | [[-> _] | (-> & -> & Z)]]]; cbn [length] in *; try lia. destruct l; [congruence|cbn [length] in Lf; lia]. }
  cbn [divs ldivs]. destruct (l ++ nl ++ s) as [|c r] eqn:Q.
  { exfalso. apply app_eq_nil in Q as [-> Q]. apply app_eq_nil in Q as [-> ->]. destruct E as [E | [E | [[E _] | (_ & _ & Z)]]]; [discriminate..|congruence]. }
  rewrite Sp, El. clear Q.
  destruct (opening l) as [a|].
  - destruct (block_type a) as [t x]. destruct (attributes x) as [h|]; [|reflexivity]. destruct (emit _ _) as [w'|]; [|reflexivity]. apply IH, Lr.
  - destruct (closing l).
    + destruct stack as [|t stack']; [destruct (store _ _) as [w'|]; [|reflexivity]; apply IH, Lr|]. destruct (emit _ _) as [w'|]; [|reflexivity]. apply IH, Lr.
    + destruct (store _ _) as [w'|]; [|reflexivity]. apply IH, Lr.
Qed.
Lemma lines_exist s : exists ls, Lines s ls.
Proof.
  remember (length s) as k eqn:E. assert (L : length s <= k) by lia. clear E. revert s L. induction k as [|k IH]; intros s L.
  - destruct s; [exists []; constructor|cbn in L; lia].
  - destruct s as [|c0 s0]; [exists []; constructor|]. set (s := c0 :: s0) in *.
    assert (H : exists l r, s = l ++ r /\ no_eol l /\ (r = [] \/ exists c r', r = c :: r' /\ (c = NL \/ c = CR))).
    { clear. induction s as [|c s (l & r & E & [N1 N2] & H)]; [exists [], []; split; [reflexivity|split; [split; intros []|left; reflexivity]]|].
      destruct (ascii_dec c NL) as [->|D1]; [exists [], (NL :: s); split; [reflexivity|split; [split; intros []|right; eauto]]|].
      destruct (ascii_dec c CR) as [->|D2]; [exists [], (CR :: s); split; [reflexivity|split; [split; intros []|right; eauto]]|].
      exists (c :: l), r. split; [cbn; congruence|]. split; [|exact H]. split; (intros [X|X]; [congruence|contradiction]). }
    destruct H as (l & r & E & N & H). rewrite E in L |- *. rewrite app_length in L. destruct H as [->|(c & r' & -> & C)].
    + exists [(l, [])]. rewrite <- (app_nil_r (l ++ [])), <- app_assoc. apply (L_line l [] []); [exact N| |constructor]. right. right. right. split; [reflexivity|]. split; [reflexivity|].
      intros ->. subst s. discriminate.
    + cbn [length] in L. destruct C as [->| ->].
      * destruct (IH r') as [ls Hl]; [lia|]. exists ((l, [NL]) :: ls). apply (L_line l [NL] r'); auto.
      * destruct r' as [|d r''].
        -- exists [(l, [CR])]. apply (L_line l [CR] []); [exact N| |constructor]. right. right. left. split; [reflexivity|cbn; discriminate].
        -- destruct (ascii_dec d NL) as [->|D].
           ++ destruct (IH r'') as [ls Hl]; [cbn [length] in L; lia|]. exists ((l, [CR; NL]) :: ls). apply (L_line l [CR; NL] r''); auto.
           ++ destruct (IH (d :: r'')) as [ls Hl]; [lia|]. exists ((l, [CR]) :: ls). apply (L_line l [CR] (d :: r'')); [exact N| |exact Hl]. right. right. left. split; [reflexivity|exact D].
Qed.
Lemma open_same t h : open_tag t h = open_html t h.
Proof. unfold open_tag, open_html, markdown, prefix, marker, attribute. change (block_name t) with (is_block t). destruct (is_block t); rewrite <- !app_assoc; reflexivity. Qed.
Lemma close_same t : close_tag t = close_html t.
Proof. unfold close_tag, close_html. change (block_name t) with (is_block t). destruct (is_block t); reflexivity. Qed.
Lemma open_size t h : open_needed t h <= length (open_html t h) + 1.
Proof.
  rewrite <- open_same. unfold open_needed, open_tag, markdown, prefix. destruct (is_block t); rewrite !app_length; cbn; lia.
Qed.
Lemma ensure_ok n cap o : n <= cap - length o -> ensure n (St cap o) = St cap o.
Proof. intros H. unfold ensure, room. cbn [s_cap s_out]. rewrite (proj2 (Nat.ltb_ge _ _)) by exact H. reflexivity. Qed.
Lemma emit_ok s cap o : length o + length s < cap -> emit s (St cap o) = Some (St cap (o ++ s)).
Proof. intros H. unfold emit, room. cbn [s_cap s_out]. rewrite (proj2 (Nat.ltb_lt _ _)) by lia. reflexivity. Qed.
Lemma store_ok s cap o : length o + length s <= cap -> store s (St cap o) = Some (St cap (o ++ s)).
Proof. intros H. unfold store, room. cbn [s_cap s_out]. destruct (Nat.leb_spec (length s) (cap - length o)); [reflexivity|]. exfalso. lia. Qed.
Lemma newline_ok cap o : length o < cap -> newline (St cap o) = St cap (o ++ [NL]).
Proof. intros H. unfold newline, room. cbn [s_cap s_out]. rewrite (proj2 (Nat.ltb_lt _ _)) by lia. reflexivity. Qed.
Lemma start_read l t h : Start l t h -> exists a x, opening l = Some a /\ block_type a = (t, x) /\ attributes x = Some h.
Proof.
  intros (a & x & O & E & A). exists a, x. split; [apply opens_read, O|]. split; [apply element_read, E|apply attributes_read, A].
Qed.
Lemma not_opens l : (forall a, ~ Opens l a) -> opening l = None.
Proof. intros H. destruct (opening l) as [a|] eqn:E; [|reflexivity]. apply opens_read in E. destruct (H a E). Qed.
Lemma closes_not_opens l : Closes l -> opening l = None.
Proof.
  intros C. destruct (fence_read l [] C) as [K E]. unfold opening. rewrite E. cbv zeta. rewrite (proj2 (Nat.ltb_ge _ _)) by exact K. reflexivity.
Qed.
Lemma run_start l t h nl rest stack cap o : Start l t h -> length o + length (open_html t h) + 1 <= cap ->
  ldivs ((l, nl) :: rest) stack (St cap o) = ldivs rest (t :: stack) (St cap (o ++ open_html t h ++ [NL])).
Proof.
  intros S L. destruct (start_read l t h S) as (a & x & E1 & E2 & E3). cbn [ldivs]. rewrite E1, E2, E3. pose proof (open_size t h).
  rewrite ensure_ok by lia. rewrite open_same, emit_ok by lia. rewrite newline_ok by (rewrite app_length; lia). rewrite <- app_assoc. reflexivity.
Qed.
Lemma run_close l nl rest t stack cap o : Closes l -> length o + length (close_html t) < cap ->
  ldivs ((l, nl) :: rest) (t :: stack) (St cap o) = ldivs rest stack (St cap (o ++ close_html t)).
Proof.
  intros C L. cbn [ldivs]. rewrite (closes_not_opens l C), (proj2 (closes_read l) C). rewrite close_same, ensure_ok by lia. rewrite emit_ok by lia. reflexivity.
Qed.
Lemma blocks_run inner ls h : Blocks inner ls h -> forall rest stack cap o, (inner = false -> stack = []) -> length o + length h < cap ->
  ldivs (ls ++ rest) stack (St cap o) = ldivs rest stack (St cap (o ++ h)).
Proof.
  induction 1 as [inner|inner l nl ls h NO NC _ IH|inner l nl t x b hb l' nl' ls h S _ IHb C _ IH]; intros rest stack cap o I L.
  - rewrite app_nil_r. reflexivity.
  - rewrite !app_length in L. cbn [app ldivs]. rewrite (not_opens l NO).
    assert (P : match store (l ++ nl) (ensure (length l + 1) (St cap o)) with Some w => ldivs (ls ++ rest) stack w | None => None end = ldivs rest stack (St cap (o ++ l ++ nl ++ h))).
    { rewrite ensure_ok by lia. rewrite store_ok by (rewrite app_length; lia). rewrite IH; [rewrite <- !app_assoc; reflexivity|exact I|rewrite !app_length; lia]. }
    destruct (closing l) eqn:Cl; [|exact P]. destruct stack as [|t stack]; [exact P|]. exfalso. apply closes_read in Cl. destruct inner; [exact (NC eq_refl Cl)|discriminate (I eq_refl)].
  - rewrite !app_length in L. cbn [length] in L. cbn [app]. rewrite (run_start l t x nl _ stack cap o S) by lia. rewrite <- app_assoc.
    rewrite (IHb ((l', nl') :: ls ++ rest) (t :: stack) cap); [|discriminate|rewrite !app_length; cbn [length]; lia].
    rewrite (run_close l' nl' (ls ++ rest) t stack cap) by (try exact C; rewrite !app_length; cbn [length]; lia).
    rewrite IH; [rewrite <- !app_assoc; reflexivity|exact I|rewrite !app_length; cbn [length]; lia].
Qed.
Lemma doc_run inner ls h : Doc inner ls h -> forall stack cap o, (inner = false -> stack = []) -> length o + length h < cap ->
  ldivs ls stack (St cap o) = close_all stack (St cap (o ++ h)).
Proof.
  induction 1 as [inner ls h Bl|inner u hu l nl t x ls h Bl S _ IH]; intros stack cap o I L.
  - rewrite <- (app_nil_r ls). rewrite (blocks_run inner ls h Bl [] stack cap o I L). reflexivity.
  - rewrite !app_length in L. cbn [length] in L. rewrite (blocks_run inner u hu Bl _ stack cap o I) by lia.
    rewrite (run_start l t x nl ls stack cap _ S) by (rewrite app_length; lia).
    rewrite (IH (t :: stack) cap); [|discriminate|rewrite !app_length; cbn [length]; lia].
    cbn [close_all]. rewrite close_same, ensure_ok by (rewrite !app_length; cbn [length]; lia). rewrite emit_ok by (rewrite !app_length; cbn [length]; lia).
    rewrite <- !app_assoc. reflexivity.
Qed.
Lemma cstr_plain s : ~ In NUL s -> cstr s = s.
Proof.
  intros N. unfold cstr. rewrite <- (app_nil_r s) at 1. rewrite (span_word _ s []); [reflexivity| |left; reflexivity].
  apply Forall_forall. intros c I. rewrite (proj2 (ceq_neq c NUL)) by (intros ->; contradiction). reflexivity.
Qed.
Lemma process_doc text ls h : Lines text ls -> Doc false ls h -> ~ In NUL h -> length h < 2 * length text -> process text = Out h.
Proof.
  intros L D N K. unfold process. rewrite (divs_lines text ls L) by lia. rewrite (doc_run false ls h D [] _ []); [|reflexivity|cbn; lia].
  cbn [close_all s_out s_cap app]. rewrite (proj2 (Nat.ltb_lt _ _)) by lia. rewrite cstr_plain by exact N. reflexivity.
Qed.
Lemma plain_doc text ls : Lines text ls -> Forall (fun l => forall a, ~ Opens (fst l) a) ls -> Blocks false ls text.
Proof.
  induction 1 as [|l nl s ls N E L IH]; intros F; [constructor|]. inversion F as [|? ? F1 F2]; subst. constructor; [exact F1|discriminate|apply IH, F2].
Qed.

(** * Custom elements *)
Lemma prefix_within (l : str) c : ~ In c l -> forall x y r, x ++ c :: y = l ++ r -> exists r', x = l ++ r'.
Proof.
  intros N. induction l as [|d l IH]; intros x y r E; [exists x; reflexivity|]. apply nin_cons in N as [N1 N2]. destruct x as [|e x]; cbn [app] in E; injection E as E1 E2.
  - congruence.
  - destruct (IH N2 x y r E2) as [r' ->]. exists r'. subst e. reflexivity.
Qed.
Lemma starts_within c l x y : ~ In c l -> x <> [] -> starts (c :: l) (x ++ c :: y) = true -> exists r, x = (c :: l) ++ r.
Proof.
  intros N Z H. apply starts_spec in H as [r E]. destruct x as [|d x]; [congruence|]. cbn [app] in E. injection E as -> E. destruct (prefix_within l c N x y r E) as [r' ->].
  exists r'. reflexivity.
Qed.
Lemma strstr_marker c l a b : ~ In c l -> ~ has (c :: l) a -> strstr (c :: l) (a ++ (c :: l) ++ b) = Some (length a).
Proof.
  intros N H. induction a as [|d a IH].
  - cbn [app length]. assert (S : starts (c :: l) (c :: l ++ b) = true) by (apply starts_spec; exists b; reflexivity).
    change ((c :: l) ++ b) with (c :: l ++ b). cbn [strstr]. rewrite S. reflexivity.
  - assert (S : starts (c :: l) ((d :: a) ++ (c :: l) ++ b) = false).
    { destruct (starts _ _) eqn:S; [|reflexivity]. change ((c :: l) ++ b) with (c :: l ++ b) in S. apply starts_within in S as [r S]; [|exact N|discriminate].
      destruct H. exists [], r. rewrite S. reflexivity. }
    cbn [app] in S |- *. cbn [strstr]. rewrite S. cbn [app] in IH. rewrite IH; [reflexivity|]. intros (u & v & E). apply H. exists (d :: u), v. rewrite E. reflexivity.
Qed.
Lemma strstr_has lit s : strstr lit s = None <-> ~ has lit s.
Proof.
  split.
  - intros H (a & b & E). exact (strstr_none lit s H a b E).
  - intros H. destruct (strstr lit s) as [k|] eqn:E; [|reflexivity]. apply strstr_some in E as (a & b & E & _). destruct H. exists a, b. exact E.
Qed.
Lemma div_start_spec s : starts (B "<div") s && (ceq (at_ s 4) ">"%char || isspace (at_ s 4)) = true <-> div_start s.
Proof.
  unfold div_start. rewrite andb_true_iff, orb_true_iff, ceq_eq. split.
  - intros [H1 H2]. apply starts_spec in H1 as [r ->]. change (at_ (B "<div" ++ r) 4) with (at_ r 0) in H2. destruct r as [|c r]; [destruct H2 as [H2|H2]; discriminate|]. exists c, r. auto.
  - intros (c & r & -> & H). split; [apply starts_spec; eauto|]. exact H.
Qed.
Lemma close_at_step fuel fuel' s : forall d, length s < fuel -> length s < fuel' -> close_at fuel s d = close_at fuel' s d.
Proof.
  revert fuel' s. induction fuel as [|fuel IH]; intros fuel' s d L L'; [lia|]. destruct fuel' as [|fuel']; [lia|]. cbn [close_at]. destruct s as [|c r]; [reflexivity|]. cbn [length] in *.
  assert (K : forall n, length (skipn (S n) (c :: r)) <= length r) by (intros n; cbn [skipn]; rewrite skipn_length; lia).
  destruct (starts (B "</div>") (c :: r)).
  - destruct d as [|[|d]]; try reflexivity. f_equal. specialize (K 5). apply IH; lia.
  - destruct (_ && _).
    + cbv zeta. set (n := length (fst _)). f_equal. change (5 + n) with (S (4 + n)). specialize (K (4 + n)). apply IH; lia.
    + f_equal. apply IH; lia.
Qed.
Lemma balanced_scan b : Balanced b -> forall fuel rest d, length (b ++ "<"%char :: rest) < fuel ->
  close_at fuel (b ++ "<"%char :: rest) (S d) = option_map (fun k => k + length b) (close_at fuel ("<"%char :: rest) (S d)).
Proof.
  induction 1 as [|c s N1 N2 Bs IH|x b s Nx X Bb IHb Bs IHs]; intros fuel rest d L.
  - cbn [app length]. destruct (close_at fuel _ _); [cbn; rewrite Nat.add_0_r|]; reflexivity.
  - destruct fuel as [|fuel]; [lia|]. cbn [app length] in L. 
    assert (S1 : starts (B "</div>") ((c :: s) ++ "<"%char :: rest) = false).
    { destruct (starts _ _) eqn:S1; [|reflexivity]. apply starts_within in S1 as [r S1]; [|cbn; intuition discriminate|discriminate]. destruct N2. exists r. exact S1. }
    assert (S2 : starts (B "<div") ((c :: s) ++ "<"%char :: rest) && (ceq (at_ ((c :: s) ++ "<"%char :: rest) 4) ">"%char || isspace (at_ ((c :: s) ++ "<"%char :: rest) 4)) = false).
    { destruct (starts (B "<div") ((c :: s) ++ "<"%char :: rest)) eqn:S2; [|reflexivity]. cbn [andb]. apply starts_within in S2 as [r S2]; [|cbn; intuition discriminate|discriminate].
      rewrite S2, <- app_assoc. change (at_ (("<"%char :: ["d"; "i"; "v"]%char) ++ r ++ "<"%char :: rest) 4) with (at_ (r ++ "<"%char :: rest) 0). destruct r as [|e r]; [reflexivity|].
      cbn [app at_ nth]. destruct (ceq e ">"%char || isspace e) eqn:Q; [|reflexivity]. destruct N1. exists e, r. split; [exact S2|]. apply orb_true_iff in Q as [Q|Q]; [left; apply ceq_eq, Q|right; exact Q]. }
    change ((c :: s) ++ "<"%char :: rest) with (c :: s ++ "<"%char :: rest) in S1, S2 |- *.
    rewrite (close_at_step (S fuel) fuel ("<"%char :: rest)) by (rewrite app_length in L; cbn [length] in *; lia).
    cbn [close_at]. rewrite S1, S2. rewrite IH by lia.
    destruct (close_at fuel ("<"%char :: rest) (S d)); [|reflexivity]. cbn [option_map length]. f_equal. lia.
  - destruct fuel as [|fuel]; [lia|]. rewrite !app_length in L. cbn [length] in L. change (length (B "<div")) with 4 in L. change (length (B ">")) with 1 in L. change (length (B "</div>")) with 6 in L.
    set (tail := b ++ B "</div>" ++ s ++ "<"%char :: rest).
    assert (E : (B "<div" ++ x ++ B ">" ++ b ++ B "</div>" ++ s) ++ "<"%char :: rest = "<"%char :: ["d"; "i"; "v"]%char ++ x ++ ">"%char :: tail) by (unfold tail; rewrite <- !app_assoc; reflexivity).
    rewrite E. rewrite (close_at_step (S fuel) fuel ("<"%char :: rest)) by (cbn [length]; lia). cbn [close_at].
    assert (S1 : starts (B "</div>") ("<"%char :: ["d"; "i"; "v"]%char ++ x ++ ">"%char :: tail) = false) by reflexivity.
    assert (S2 : starts (B "<div") ("<"%char :: ["d"; "i"; "v"]%char ++ x ++ ">"%char :: tail) && (ceq (at_ ("<"%char :: ["d"; "i"; "v"]%char ++ x ++ ">"%char :: tail) 4) ">"%char || isspace (at_ ("<"%char :: ["d"; "i"; "v"]%char ++ x ++ ">"%char :: tail) 4)) = true).
    { apply div_start_spec. destruct X as [->|(c & x' & -> & C)]; [exists ">"%char, tail; auto|exists c, (x' ++ ">"%char :: tail); auto]. }
    rewrite S1, S2. change (skipn 4 ("<"%char :: ["d"; "i"; "v"]%char ++ x ++ ">"%char :: tail)) with (x ++ ">"%char :: tail).
    rewrite (span_word _ x (">"%char :: tail)); [|apply Forall_forall; intros c I; rewrite (proj2 (ceq_neq c ">"%char)) by (intros ->; contradiction); reflexivity|right; exists ">"%char, tail; auto].
    cbn [fst]. cbv zeta.
    assert (Sk : skipn (5 + length x) ("<"%char :: ["d"; "i"; "v"]%char ++ x ++ ">"%char :: tail) = tail).
    { change (5 + length x) with (S (S (S (S (S (length x)))))). cbn [skipn app]. change (match x ++ ">"%char :: tail with [] => [] | _ :: l => skipn (length x) l end) with (skipn (S (length x)) (x ++ ">"%char :: tail)).
      rewrite skipn_app, skipn_all2 by lia. replace (S (length x) - length x) with 1 by lia. reflexivity. }
    rewrite Sk. unfold tail. change (B "</div>" ++ s ++ "<"%char :: rest) with ("<"%char :: B "/div>" ++ s ++ "<"%char :: rest).
    rewrite IHb by (rewrite app_length; cbn [length]; rewrite !app_length; cbn; lia).
    change ("<"%char :: B "/div>" ++ s ++ "<"%char :: rest) with (B "</div>" ++ s ++ "<"%char :: rest).
    assert (S3 : close_at fuel (B "</div>" ++ s ++ "<"%char :: rest) (S (S d)) = option_map (fun k => k + 6) (close_at fuel (s ++ "<"%char :: rest) (S d))).
    { destruct fuel as [|fuel]; [lia|]. rewrite (close_at_step (S fuel) fuel (s ++ "<"%char :: rest)) by (rewrite app_length; cbn [length]; lia). reflexivity. }
    rewrite S3. rewrite IHs by (rewrite app_length; cbn [length]; lia).
    destruct (close_at fuel ("<"%char :: rest) (S d)); [|reflexivity]. cbn [option_map]. f_equal. rewrite !app_length. cbn. lia.
Qed.
Lemma balanced_close b rest : Balanced b -> forall fuel, length (b ++ B "</div>" ++ rest) < fuel -> close_at fuel (b ++ B "</div>" ++ rest) 1 = Some (length b).
Proof.
  intros Bb fuel L. change (B "</div>" ++ rest) with ("<"%char :: B "/div>" ++ rest) in *. rewrite balanced_scan by assumption. destruct fuel as [|fuel]; [lia|]. reflexivity.
Qed.

Lemma post_end_out s w : post_end s w = Out (s_out w ++ s).
Proof.
  destruct w as [cap o]. unfold post_end, grow, room. cbn [s_cap s_out]. destruct (Nat.leb_spec (cap - length o) (length s)) as [H|H]; cbn [s_cap s_out].
  - replace (length o + (length s + 1) - length o) with (length s + 1) by lia. rewrite (proj2 (Nat.ltb_lt _ _)) by lia. reflexivity.
  - rewrite (proj2 (Nat.ltb_lt _ _)) by lia. reflexivity.
Qed.
Lemma grow_no n extra cap o : length o + n < cap -> grow n extra (St cap o) = St cap o.
Proof. intros H. unfold grow, room. cbn [s_cap s_out]. rewrite (proj2 (Nat.leb_gt _ _)) by lia. reflexivity. Qed.
Definition element_html (t x b : str) : str := B "<" ++ t ++ (match x with [] => [] | _ => B " " ++ x end) ++ B ">" ++ b ++ B "</" ++ t ++ B ">".
Lemma has_app x a b : ~ has x (a ++ b) -> ~ has x a /\ ~ has x b.
Proof. intros H. split; intros (u & v & ->); apply H; [exists u, (v ++ b)|exists (a ++ u), v]; rewrite <- !app_assoc; reflexivity. Qed.
Lemma skipn_exact (a b : str) k : k = length a -> skipn k (a ++ b) = b.
Proof. intros ->. rewrite skipn_app, skipn_all, Nat.sub_diag. reflexivity. Qed.
Lemma firstn_exact (a b : str) k : k = length a -> firstn k (a ++ b) = a.
Proof. intros ->. rewrite firstn_app, firstn_all, Nat.sub_diag. cbn [firstn]. apply app_nil_r. Qed.
Lemma strchr_at c (a b : str) : ~ In c a -> strchr c (a ++ c :: b) = Some (length a).
Proof. intros N. apply strchr_some. exists a, b. auto. Qed.
Lemma post_element fuel n a t y b s cap o : ~ has prefix a -> 0 < length t <= 127 -> ~ In DQ t -> ~ In ">"%char y -> Balanced b ->
  length o + (length a + length t + length y + length b + length t + 40) < cap ->
  post (S fuel) n (a ++ prefix ++ t ++ [DQ] ++ y ++ B ">" ++ b ++ B "</div>" ++ s) (St cap o)
  = post fuel n s (St cap (o ++ a ++ element_html t (skip_space y) b)).
Proof.
  intros Ha [T1 T2] Nt Ny Bb L. cbn [post].
  assert (M : strstr prefix (a ++ prefix ++ t ++ [DQ] ++ y ++ B ">" ++ b ++ B "</div>" ++ s) = Some (length a)).
  { refine (strstr_marker "<"%char (tl prefix) a _ _ Ha). cbn. intuition discriminate. }
  rewrite M. rewrite firstn_exact by reflexivity. rewrite grow_no by lia. rewrite store_ok by lia.
  rewrite (app_assoc a prefix). rewrite skipn_exact by (rewrite app_length; reflexivity). cbv zeta.
  rewrite (strchr_at DQ t _ Nt : strchr DQ (t ++ [DQ] ++ _) = _).
  replace (length t =? 0) with false by (symmetry; apply Nat.eqb_neq; lia). replace (127 <? length t) with false by (symmetry; apply Nat.ltb_ge; lia). cbn [orb].
  rewrite firstn_exact by reflexivity. rewrite (app_assoc t [DQ]). rewrite skipn_exact by (rewrite app_length; cbn; lia).
  rewrite (strchr_at ">"%char y _ Ny : strchr ">"%char (y ++ B ">" ++ _) = _). rewrite firstn_exact by reflexivity.
  assert (Ls : length (skip_space y) <= length y).
  { clear. unfold skip_space. pose proof (span_length isspace y). lia. }
  set (x := skip_space y) in *. rewrite grow_no by (rewrite app_length; lia).
  rewrite store_ok by (rewrite !app_length; destruct x; cbn [length] in *; cbn; lia).
  rewrite (app_assoc y (B ">")). rewrite skipn_exact by (rewrite app_length; cbn; lia).
  rewrite balanced_close by (try exact Bb; lia).
  rewrite firstn_exact by reflexivity. rewrite grow_no by (rewrite !app_length; destruct x; cbn [length] in *; cbn; lia).
  rewrite store_ok by (rewrite !app_length; destruct x; cbn [length] in *; cbn; lia).
  rewrite grow_no by (rewrite !app_length; destruct x; cbn [length] in *; cbn; lia).
  rewrite store_ok by (rewrite !app_length; destruct x; cbn [length] in *; cbn; lia).
  rewrite (app_assoc b (B "</div>")). rewrite skipn_exact by (rewrite app_length; cbn; lia).
  f_equal. f_equal. unfold element_html. rewrite <- !app_assoc. destruct x; reflexivity.
Qed.
Lemma named_post s o : Named s o -> forall fuel n cap out, length s < fuel -> length out + length s + 1024 <= cap -> post fuel n s (St cap out) = Out (out ++ o).
Proof.
  induction 1 as [s H|a t sp x b s o Ha T Nt Sp Tx Nx Bb Hb Ns IH]; intros fuel n cap out Lf Lc; (destruct fuel as [|fuel]; [lia|]).
  - cbn [post]. rewrite (proj2 (strstr_has prefix s) H). rewrite post_end_out. reflexivity.
  - rewrite !app_length in Lf, Lc. cbn in Lf, Lc. assert (E : forall r : str, sp ++ x ++ r = (sp ++ x) ++ r) by (intros r; rewrite app_assoc; reflexivity). rewrite (E (B ">" ++ b ++ B "</div>" ++ s)).
    change marker with prefix. rewrite post_element; [|exact Ha|lia|exact Nt| |exact Bb|rewrite app_length; lia].
    2:{ rewrite in_app_iff. intros [I|I]; [|contradiction]. apply (proj1 (Forall_forall _ _) Sp) in I. discriminate. }
    assert (Sk : skip_space (sp ++ x) = x) by (apply skip_app; assumption).
    rewrite Sk, IH.
    + unfold element_html. rewrite <- !app_assoc. reflexivity.
    + lia.
    + unfold element_html. rewrite !app_length. destruct x; cbn [length] in *; cbn; lia.
Qed.
Lemma postprocess_named s o : Named s o -> postprocess s = Out o.
Proof. intros H. unfold postprocess. rewrite (named_post s o H) by (cbn; lia). reflexivity. Qed.
Lemma names_suffix n a b : names_up_to n (a ++ b) -> names_up_to n b.
Proof. intros H u t v E N. subst b. apply (H (a ++ u) t v); [rewrite <- !app_assoc; reflexivity|exact N]. Qed.
Lemma post_total fuel n s : forall cap out, length s < fuel -> names_up_to 33 s -> length out + length s + 1024 <= cap -> exists t, post fuel n s (St cap out) = Out t.
Proof.
  revert s. induction fuel as [|fuel IH]; intros s cap out Lf H L; [lia|]. cbn [post].
  destruct (strstr prefix s) as [k|] eqn:M; [|rewrite post_end_out; eauto]. apply strstr_some in M as (a & p & E & La & _). subst k.
  subst s. assert (L0 := L). rewrite !app_length in L0. change (length prefix) with 31 in L0.
  rewrite firstn_exact by reflexivity. rewrite grow_no by lia. rewrite store_ok by lia. cbv zeta.
  assert (Sp : skipn (length a + length prefix) (a ++ prefix ++ p) = p) by (rewrite app_assoc; apply skipn_exact; rewrite app_length; reflexivity). rewrite Sp.
  destruct (strchr DQ p) as [q|] eqn:Q; [|rewrite post_end_out; eauto].
  destruct ((q =? 0) || (127 <? q)); [rewrite post_end_out; eauto|].
  apply strchr_some in Q as (t & after & -> & Lt & Nt). rewrite !app_length in L0. cbn [length] in L0.
  assert (T : length t <= 33) by (apply (H a t after); [reflexivity|exact Nt]). subst q.
  rewrite firstn_exact by reflexivity. 
  assert (Sk : skipn (S (length t)) (t ++ DQ :: after) = after) by (change (t ++ DQ :: after) with (t ++ [DQ] ++ after); rewrite app_assoc; apply skipn_exact; rewrite app_length; cbn; lia).
  rewrite Sk. destruct (strchr ">"%char after) as [e|] eqn:Q; [|rewrite post_end_out; eauto].
  apply strchr_some in Q as (y & read & -> & Ly & Ny). subst e. rewrite firstn_exact by reflexivity.
  assert (Ls : length (skip_space y) <= length y) by (clear; unfold skip_space; pose proof (span_length isspace y); lia).
  set (x := skip_space y) in *. rewrite !app_length in L0. cbn [length] in L0.
  rewrite grow_no by (rewrite app_length; lia).
  rewrite store_ok by (rewrite !app_length; destruct x; cbn [length] in *; cbn; lia).
  assert (Sk2 : skipn (S (length y)) (y ++ ">"%char :: read) = read) by (change (y ++ ">"%char :: read) with (y ++ [">"%char] ++ read); rewrite app_assoc; apply skipn_exact; rewrite app_length; cbn; lia).
  rewrite Sk2. destruct (close_at (S (length read)) read 1) as [c|] eqn:C; [|rewrite post_end_out; eauto].
  assert (Lc : c + 6 <= length read).
  { assert (G : forall f s c d, close_at f s d = Some c -> c + 6 <= length s); [|exact (G _ _ _ _ C)]. clear. induction f as [|f IH]; intros s c d C; [discriminate|]. cbn [close_at] in C. destruct s as [|h r]; [discriminate|].
    destruct (starts (B "</div>") (h :: r)) eqn:S1.
    - assert (K : 6 <= length (h :: r)) by (apply starts_spec in S1 as [z ->]; rewrite app_length; cbn; lia).
      destruct d as [|[|d]]; [injection C as <-; lia|injection C as <-; lia|].
      destruct (close_at f (skipn 6 (h :: r)) (S d)) as [k|] eqn:K2; [|discriminate]. cbn [option_map] in C. injection C as <-. apply IH in K2. rewrite skipn_length in K2. lia.
    - destruct (_ && _).
      + cbv zeta in C. set (m := 5 + length _) in C. destruct (close_at f (skipn m (h :: r)) (S d)) as [k|] eqn:K2; [|discriminate]. cbn [option_map] in C. injection C as <-. apply IH in K2. rewrite skipn_length in K2. lia.
      + destruct (close_at f r d) as [k|] eqn:K2; [|discriminate]. cbn [option_map] in C. injection C as <-. apply IH in K2. cbn [length]. lia. }
  assert (Lfc : length (firstn c read) = c) by (rewrite firstn_length; lia).
  rewrite grow_no by (rewrite !app_length; destruct x; cbn [length] in *; cbn; lia).
  rewrite store_ok by (rewrite !app_length; destruct x; cbn [length] in *; cbn; lia).
  rewrite grow_no by (rewrite !app_length; destruct x; cbn [length] in *; cbn; lia).
  rewrite store_ok by (rewrite !app_length; destruct x; cbn [length] in *; cbn; lia).
  apply IH.
  - rewrite skipn_length. rewrite !app_length in Lf. change (length prefix) with 31 in Lf. cbn [length] in Lf. rewrite app_length in Lf. cbn [length] in Lf. lia.
  - apply (names_suffix 33 (a ++ prefix ++ t ++ [DQ] ++ y ++ [">"%char] ++ firstn (c + 6) read)). rewrite <- !app_assoc. rewrite firstn_skipn. exact H.
  - rewrite skipn_length, !app_length. destruct x; cbn [length] in *; cbn; lia.
Qed.
Lemma postprocess_total html : names_up_to 33 html -> exists t, postprocess html = Out t.
Proof. intros H. unfold postprocess. apply post_total; [lia|exact H|cbn; lia]. Qed.

Lemma closed_attributes x : tight x -> tight (rev x) -> at_ x 0 = "{"%char -> at_ (rev x) 0 = "}"%char -> exists h, attributes x = Some h.
Proof.
  intros T1 T2 E1 E2. destruct x as [|c r]; [discriminate|]. cbn in E1. subst c. unfold attributes. rewrite (tight_skip _ T1).
  assert (D : drop_back isspace ("{"%char :: r) = "{"%char :: r) by (rewrite <- (app_nil_r ("{"%char :: r)) at 1; apply drop_back_app; [constructor|exact T2]).
  rewrite D. cbv zeta. rewrite ceq_refl. cbn [rev] in E2. destruct (rev r) as [|d r'] eqn:R; [discriminate|]. cbn in E2. subst d. rewrite ceq_refl. cbn [orb].
  destruct (braces _ true _ _) as [a|] eqn:Q; [eauto|]. exfalso. revert Q. apply braces_total. lia.
Qed.
