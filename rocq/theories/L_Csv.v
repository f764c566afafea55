(** Lemmas for P_Csv. *)
From Verif Require Import Base BaseL M_Csv S_Csv.

Lemma nin_cons {A} (x c : A) l : ~ In x (c :: l) <-> c <> x /\ ~ In x l.
Proof. cbn. intuition congruence. Qed.

(** * Records *)
Lemma cells_plain d c : ~ In d c -> cells_ d c = [c].
Proof.
  induction c as [|x c IH]; [reflexivity|]. intros H. apply nin_cons in H as [H1 H2]. cbn [cells_].
  rewrite (proj2 (ceq_neq x d) H1), (IH H2). reflexivity.
Qed.
Lemma cells_more d c l : ~ In d c -> cells_ d (c ++ d :: l) = c :: cells_ d l.
Proof.
  induction c as [|x c IH]; intros H; cbn [app cells_].
  - rewrite ceq_refl. reflexivity.
  - apply nin_cons in H as [H1 H2]. rewrite (proj2 (ceq_neq x d) H1), (IH H2). reflexivity.
Qed.
Lemma cells_of d l cs : Cells d l cs -> cells_ d l = cs.
Proof. induction 1 as [c H|c l cs H _ IH]; [exact (cells_plain d c H)|]. rewrite (cells_more d c l H), IH. reflexivity. Qed.
Lemma of_cells d l : Cells d l (cells_ d l).
Proof.
  induction l as [|x l IH]; [apply C_last; intros []|]. cbn [cells_].
  destruct (ceq x d) eqn:E.
  - apply ceq_eq in E as ->. apply (C_more d [] l); [intros []|exact IH].
  - apply ceq_neq in E. inversion IH as [c H He Hc|c l' cs H H2 He Hc].
    + apply C_last. apply nin_cons. auto.
    + apply (C_more d (x :: c) l'); [apply nin_cons; auto|]. assumption.
Qed.
Lemma lines_plain l : ~ In NL l -> l <> [] -> lines_ l = [l].
Proof.
  induction l as [|x l IH]; [congruence|]. intros H _. apply nin_cons in H as [H1 H2]. cbn [lines_].
  rewrite (proj2 (ceq_neq x NL) H1). destruct l as [|y l]; [reflexivity|]. rewrite (IH H2); [reflexivity|discriminate].
Qed.
Lemma lines_more l s : ~ In NL l -> lines_ (l ++ NL :: s) = l :: lines_ s.
Proof.
  induction l as [|x l IH]; intros H; cbn [app lines_].
  - rewrite ceq_refl. reflexivity.
  - apply nin_cons in H as [H1 H2]. rewrite (proj2 (ceq_neq x NL) H1), (IH H2). reflexivity.
Qed.
Lemma records_of d s rs : Records d s rs -> map (cells_ d) (lines_ s) = rs.
Proof.
  induction 1 as [|l cs Hl Hn Hc|l cs s rs Hn Hc _ IH]; [reflexivity| |].
  - rewrite (lines_plain l Hn Hl). cbn. rewrite (cells_of d l cs Hc). reflexivity.
  - rewrite (lines_more l s Hn). cbn. rewrite (cells_of d l cs Hc), IH. reflexivity.
Qed.
Lemma split_line s : ~ In NL s \/ exists l r, s = l ++ NL :: r /\ ~ In NL l.
Proof.
  induction s as [|c s IH]; [left; intros []|]. destruct (ceq c NL) eqn:E.
  - right. exists [], s. apply ceq_eq in E as ->. split; [reflexivity|intros []].
  - apply ceq_neq in E. destruct IH as [H|(l & r & -> & H)].
    + left. apply nin_cons. auto.
    + right. exists (c :: l), r. split; [reflexivity|]. apply nin_cons. auto.
Qed.
Lemma of_records d s : Records d s (map (cells_ d) (lines_ s)).
Proof.
  remember (length s) as n eqn:E. assert (Hn : length s <= n) by lia. clear E. revert s Hn.
  induction n as [|n IH]; intros s Hn.
  - destruct s; [constructor|cbn in Hn; lia].
  - destruct (split_line s) as [H|(l & r & -> & H)].
    + destruct s as [|c s]; [constructor|]. rewrite (lines_plain (c :: s) H) by discriminate.
      apply R_last; [discriminate|exact H|apply of_cells].
    + rewrite (lines_more l r H). cbn. apply R_line; [exact H|apply of_cells|].
      apply IH. rewrite app_length in Hn. cbn in Hn. lia.
Qed.

(** * Alignment *)
Lemma lstrip_span s : snd (span isspace s) = lstrip s.
Proof. induction s as [|c s IH]; [reflexivity|]. cbn. destruct (isspace c); [|reflexivity]. destruct (span isspace s). exact IH. Qed.
Lemma trim_strip s : trim_ s = strip s.
Proof. unfold trim_, strip. rewrite !lstrip_span. reflexivity. Qed.
Lemma keyword_spec c a : keyword c = Some a <-> Keyword c a.
Proof.
  unfold keyword, Keyword. rewrite trim_strip. set (t := strip c).
  assert (Hl : length (map tolower t) = length t) by apply map_length.
  split.
  - destruct (length t =? 0); [discriminate|]. destruct (16 <=? length t); [discriminate|].
    destruct (seq_ _ (B "left")) eqn:E1; [apply seq_eq in E1; intros H; injection H as <-; exact E1|].
    destruct (seq_ _ (B "right")) eqn:E2; [apply seq_eq in E2; intros H; injection H as <-; exact E2|].
    destruct (seq_ _ (B "center")) eqn:E3; [apply seq_eq in E3; intros H; injection H as <-; exact E3|].
    destruct (seq_ _ (B "auto")) eqn:E4; [apply seq_eq in E4; intros H; injection H as <-; exact E4|]. discriminate.
  - intros H. rewrite H in Hl |- *.
    destruct a; cbn in Hl; rewrite <- Hl; reflexivity.
Qed.
Lemma keywords_spec cs al : keywords cs = Some al <-> Forall2 Keyword cs al.
Proof.
  revert al. induction cs as [|c cs IH]; intros al; cbn [keywords].
  - split; [intros H; injection H as <-; constructor|]. intros H. inversion H. reflexivity.
  - split.
    + destruct (keyword c) as [a|] eqn:E; [|discriminate]. destruct (keywords cs) as [l|]; [|discriminate].
      intros H; injection H as <-. constructor; [apply keyword_spec; exact E|]. apply IH. reflexivity.
    + intros H. inversion H as [|? a ? l H1 H2]; subst. apply keyword_spec in H1. apply IH in H2. rewrite H1, H2. reflexivity.
Qed.

(** * The text *)
Lemma emit_cells_spec n r : emit_cells n r = concat (map (fun c => SP :: c ++ [SP; "|"%char]) (fit n r)).
Proof.
  unfold fit. revert r. induction n as [|n IH]; intros r; [reflexivity|].
  destruct r as [|c r]; cbn [emit_cells tl].
  - rewrite IH. cbn. replace (n - 0) with n by lia. rewrite firstn_nil. reflexivity.
  - rewrite IH. cbn. rewrite <- app_assoc. reflexivity.
Qed.
Lemma emit_row_spec n r : emit_row n r = row_text n r.
Proof. unfold emit_row, row_text. rewrite emit_cells_spec. reflexivity. Qed.
Lemma fit_exact n (r : list str) : length r = n -> fit n r = r.
Proof. intros <-. unfold fit. rewrite firstn_all, Nat.sub_diag. cbn. apply app_nil_r. Qed.
Lemma sep_exact n al : length al = n -> "|"%char :: concat (map (fun x => spec_of x ++ B "|") al) ++ [NL] = row_text n (map mark al).
Proof.
  intros H. unfold row_text. rewrite fit_exact by (rewrite map_length; exact H). f_equal. f_equal. clear H.
  rewrite map_map. f_equal. apply map_ext. intros []; reflexivity.
Qed.
Lemma emit_sep_spec n a al : length al = n -> (a = Some al \/ a = None /\ al = repeat AAuto n) ->
  emit_sep n a = row_text n (map mark al).
Proof.
  intros H [-> | [-> ->]]; unfold emit_sep; [apply sep_exact; exact H|]. apply sep_exact. exact H.
Qed.
Lemma fit_length n (r : list str) : length (fit n r) = n.
Proof. unfold fit. rewrite app_length, firstn_length, repeat_length. lia. Qed.
Lemma concat_cells_length (r : list str) : length (concat (map (fun c => SP :: c ++ [SP; "|"%char]) r)) = 3 * length r + bytes r.
Proof.
  induction r as [|c r IH]; [reflexivity|]. change (bytes (c :: r)) with (length c + bytes r).
  cbn [map concat length]. cbn [app length]. rewrite !app_length, IH. cbn [length]. lia.
Qed.
Lemma bytes_app a b : bytes (a ++ b) = bytes a + bytes b.
Proof. unfold bytes. rewrite map_app, list_sum_app. reflexivity. Qed.
Lemma bytes_repeat n : bytes (repeat [] n) = 0.
Proof. induction n as [|n IH]; [reflexivity|]. unfold bytes in *. cbn. exact IH. Qed.
Lemma row_text_length n r : length (row_text n r) = row_bytes n r.
Proof.
  unfold row_text, row_bytes. cbn [length]. rewrite app_length, concat_cells_length, fit_length.
  unfold fit. rewrite bytes_app, bytes_repeat. cbn [length]. lia.
Qed.
Lemma rows_length n body : length (concat (map (row_text n) body)) = list_sum (map (row_bytes n) body).
Proof. induction body as [|r b IH]; [reflexivity|]. cbn [map concat]. rewrite app_length, row_text_length, IH. reflexivity. Qed.
Lemma table_text_length hd al body : length (table_text hd al body) + 1 = table_bytes hd al body.
Proof. unfold table_text, table_bytes. cbv zeta. rewrite !app_length, !row_text_length, rows_length. lia. Qed.
Lemma layout_length hd rs al body : Layout hd rs al body -> length al = length hd.
Proof.
  intros [k al' b Hl H|rs' H]; [|apply repeat_length]. rewrite <- Hl. symmetry. clear Hl.
  induction H; cbn; [reflexivity|]. f_equal. assumption.
Qed.
Lemma layout_some hd rs : exists al body, Layout hd rs al body.
Proof.
  destruct rs as [|k body]; [eexists _, _; apply L_plain; discriminate|].
  destruct (Nat.eq_dec (length k) (length hd)) as [E|E].
  - destruct (keywords k) as [al|] eqn:K.
    + exists al, body. apply L_keywords; [exact E|]. apply keywords_spec. exact K.
    + eexists _, _; apply L_plain. intros k' b al H _ F. injection H as <- <-.
      apply keywords_spec in F. congruence.
  - eexists _, _; apply L_plain. intros k' b al H L F. injection H as <- <-. contradiction.
Qed.
Lemma layout_model hd rs al body : Layout hd rs al body ->
  let a := alignment (length hd) (hd :: rs) in
  (a = Some al \/ a = None /\ al = repeat AAuto (length hd)) /\
  body = match a with Some _ => tl rs | None => rs end.
Proof.
  intros [k al' b Hl H|rs' H]; cbv zeta.
  - cbn [alignment]. rewrite Hl, Nat.eqb_refl. apply keywords_spec in H. rewrite H. split; [left; reflexivity|reflexivity].
  - assert (E : alignment (length hd) (hd :: rs') = None).
    { destruct rs' as [|k b]; [reflexivity|]. cbn [alignment]. destruct (length k =? length hd) eqn:E; [|reflexivity].
      apply Nat.eqb_eq in E. destruct (keywords k) as [al'|] eqn:K; [|reflexivity]. apply keywords_spec in K.
      exfalso. exact (H k b al' eq_refl E K). }
    rewrite E. split; [right; split; reflexivity|reflexivity].
Qed.
Lemma csv_spec tsv s hd rs al body : Records (delim tsv) s (hd :: rs) -> Layout hd rs al body ->
  csv_to_table s tsv = if length s * 4 + 64 <? table_bytes hd al body then Overrun else Table (table_text hd al body).
Proof.
  intros R L. unfold csv_to_table. fold (delim tsv). rewrite (records_of _ _ _ R).
  pose proof (layout_model hd rs al body L) as [Ha Hb]. pose proof (layout_length _ _ _ _ L) as Hl.
  cbv zeta in *. rewrite <- Hb.
  rewrite emit_row_spec, (emit_sep_spec (length hd) _ al Hl Ha).
  rewrite (map_ext _ _ (emit_row_spec (length hd))). fold (table_text hd al body).
  rewrite table_text_length. reflexivity.
Qed.
Lemma csv_some tsv s : s <> [] -> exists hd rs al body,
  Records (delim tsv) s (hd :: rs) /\ Layout hd rs al body /\
  csv_to_table s tsv = if length s * 4 + 64 <? table_bytes hd al body then Overrun else Table (table_text hd al body).
Proof.
  intros Hs. pose proof (of_records (delim tsv) s) as R.
  destruct (map (cells_ (delim tsv)) (lines_ s)) as [|hd rs] eqn:E.
  - exfalso. inversion R; subst; congruence.
  - destruct (layout_some hd rs) as (al & body & L). exists hd, rs, al, body.
    split; [exact R|]. split; [exact L|]. apply csv_spec with (rs := rs); assumption.
Qed.

(** * Reading a table back *)
Definition nobreak (s : str) : Prop := ~ In NL s /\ ~ In CR s.
Lemma md_line cur l s : nobreak l -> md_lines cur (l ++ NL :: s) = (rev cur ++ l) :: md_lines [] s.
Proof.
  revert cur. induction l as [|c l IH]; intros cur [H1 H2]; cbn [app md_lines].
  - rewrite ceq_refl, app_nil_r. reflexivity.
  - apply nin_cons in H1 as [N1 H1]. apply nin_cons in H2 as [N2 H2].
    rewrite (proj2 (ceq_neq c NL) N1), (proj2 (ceq_neq c CR) N2), IH by (split; assumption).
    cbn [rev]. rewrite <- app_assoc. reflexivity.
Qed.
Lemma piece esc cur x s : ~ In "|"%char x ->
  pieces esc cur (x ++ SP :: "|"%char :: s) = (rev cur ++ x ++ [SP]) :: pieces false [] s.
Proof.
  revert esc cur. induction x as [|c x IH]; intros esc cur H; cbn [app].
  - cbn. reflexivity.
  - apply nin_cons in H as [N H]. cbn [pieces]. rewrite (proj2 (ceq_neq c "|"%char) N). cbn [andb].
    rewrite IH by exact H. cbn [rev]. rewrite <- app_assoc. reflexivity.
Qed.
Lemma pieces_row r : Forall clean r ->
  pieces false [] (concat (map (fun c => SP :: c ++ [SP; "|"%char]) r)) = map (fun c => SP :: c ++ [SP]) r ++ [[]].
Proof.
  induction 1 as [|c r [H1 H2] H IH]; [reflexivity|]. cbn [map concat].
  replace ((SP :: c ++ [SP; "|"%char]) ++ concat (map (fun c => SP :: c ++ [SP; "|"%char]) r))
    with ((SP :: c) ++ SP :: "|"%char :: concat (map (fun c => SP :: c ++ [SP; "|"%char]) r))
    by (cbn [app]; rewrite <- app_assoc; reflexivity).
  rewrite piece by (apply nin_cons; split; [discriminate|exact H1]). rewrite IH. reflexivity.
Qed.
Lemma lstrip_sp c : lstrip (c ++ [SP]) = match lstrip c with [] => [] | z => z ++ [SP] end.
Proof. induction c as [|x c IH]; [reflexivity|]. cbn. destruct (isspace x); [exact IH|reflexivity]. Qed.
Lemma strip_sp c : strip (SP :: c ++ [SP]) = strip c.
Proof.
  unfold strip. change (lstrip (SP :: c ++ [SP])) with (lstrip (c ++ [SP])). rewrite lstrip_sp.
  destruct (lstrip c) as [|x z]; [reflexivity|]. rewrite rev_app_distr. reflexivity.
Qed.
Lemma read_row_spec r : Forall clean r ->
  read_row ("|"%char :: concat (map (fun c => SP :: c ++ [SP; "|"%char]) r)) = Some (map strip r).
Proof.
  intros H. unfold read_row. rewrite ceq_refl. cbv zeta. rewrite (pieces_row r H).
  rewrite last_last, removelast_last. cbn [strip lstrip rev]. f_equal. rewrite map_map. apply map_ext. exact strip_sp.
Qed.
Lemma nobreak_app a b : nobreak a -> nobreak b -> nobreak (a ++ b).
Proof. intros [H1 H2] [H3 H4]. split; rewrite in_app_iff; intuition. Qed.
Lemma nobreak_row r : Forall clean r -> Forall (fun c => ~ In NL c) r ->
  nobreak ("|"%char :: concat (map (fun c => SP :: c ++ [SP; "|"%char]) r)).
Proof.
  intros H1 H2. apply (nobreak_app ["|"%char]); [split; intros [E|[]]; discriminate|].
  induction r as [|c r IH]; [split; intros []|]. apply Forall_cons_iff in H1 as [[_ C1] H1]. apply Forall_cons_iff in H2 as [C2 H2].
  cbn [map concat]. apply nobreak_app; [|exact (IH H1 H2)].
  apply (nobreak_app [SP]); [split; intros [E|[]]; discriminate|].
  apply nobreak_app; [split; assumption|]. split; intros [E|[E|[]]]; discriminate.
Qed.
Lemma fit_forall (P : str -> Prop) n r : P [] -> Forall P r -> Forall P (fit n r).
Proof.
  intros H0 H. unfold fit. apply Forall_app. split.
  - rewrite Forall_forall in *. intros x Hx. apply H. rewrite <- (firstn_skipn n r). apply in_or_app. left. exact Hx.
  - apply Forall_forall. intros x Hx. apply repeat_spec in Hx as ->. exact H0.
Qed.
Lemma clean_nil : clean [].
Proof. split; intros []. Qed.
Lemma md_rows n rows : Forall (Forall clean) rows -> Forall (Forall (fun c => ~ In NL c)) rows -> forall s,
  md_lines [] (concat (map (row_text n) rows) ++ s) =
    map (fun r => "|"%char :: concat (map (fun c => SP :: c ++ [SP; "|"%char]) (fit n r))) rows ++ md_lines [] s.
Proof.
  intros H1 H2 s. induction rows as [|r rows IH]; [reflexivity|].
  apply Forall_cons_iff in H1 as [C1 H1]. apply Forall_cons_iff in H2 as [C2 H2].
  cbn [map concat app]. unfold row_text at 1.
  replace ((("|"%char :: concat (map (fun c => SP :: c ++ [SP; "|"%char]) (fit n r)) ++ [NL]) ++ concat (map (row_text n) rows)) ++ s)
    with (("|"%char :: concat (map (fun c => SP :: c ++ [SP; "|"%char]) (fit n r))) ++ NL :: (concat (map (row_text n) rows) ++ s))
    by (cbn [app]; rewrite <- !app_assoc; reflexivity).
  rewrite md_line.
  - cbn [rev app]. f_equal. exact (IH H1 H2).
  - apply nobreak_row; apply fit_forall; try assumption; [exact clean_nil|intros []].
Qed.
Lemma fit_strip n r : map strip (fit n r) = fit n (map strip r).
Proof.
  unfold fit. rewrite map_app, firstn_map, map_length. f_equal.
  induction (n - length r) as [|k IH]; [reflexivity|]. cbn [repeat map]. rewrite IH. reflexivity.
Qed.
Lemma mark_clean al : Forall clean (map mark al) /\ Forall (fun c => ~ In NL c) (map mark al).
Proof.
  assert (Hm : forall (x : ascii) a, existsb (ceq x) (mark a) = false -> ~ In x (mark a)).
  { intros x a E Hin. assert (existsb (ceq x) (mark a) = true); [|congruence]. apply existsb_exists. exists x. split; [exact Hin|apply ceq_refl]. }
  split; apply Forall_forall; intros x Hx; apply in_map_iff in Hx as (a & <- & _).
  - split; apply Hm; destruct a; reflexivity.
  - apply Hm; destruct a; reflexivity.
Qed.
Lemma mark_strip al : map strip (map mark al) = map mark al.
Proof. rewrite map_map. apply map_ext. intros []; reflexivity. Qed.
Lemma mark_read al : all_some read_delim (map mark al) = Some al.
Proof. induction al as [|a al IH]; [reflexivity|]. cbn [map all_some]. rewrite IH. destruct a; reflexivity. Qed.
Lemma read_rows n rows : Forall (Forall clean) rows ->
  all_some read_row (map (fun r => "|"%char :: concat (map (fun c => SP :: c ++ [SP; "|"%char]) (fit n r))) rows) =
    Some (map (fun r => fit n (map strip r)) rows).
Proof.
  induction 1 as [|r rows C H IH]; [reflexivity|]. cbn [map all_some].
  rewrite read_row_spec by (apply fit_forall; [exact clean_nil|exact C]). rewrite IH, fit_strip. reflexivity.
Qed.
Lemma read_table_text hd al body : length al = length hd ->
  Forall (Forall clean) (hd :: body) -> Forall (Forall (fun c => ~ In NL c)) (hd :: body) ->
  read_table (table_text hd al body) = Some (map strip hd, al, map (fun r => fit (length hd) (map strip r)) body).
Proof.
  intros Hl H1 H2. apply Forall_cons_iff in H1 as [C1 H1]. apply Forall_cons_iff in H2 as [C2 H2].
  destruct (mark_clean al) as [M1 M2].
  unfold read_table.
  replace (table_text hd al body) with (concat (map (row_text (length hd)) (hd :: map mark al :: body)) ++ []).
  2:{ unfold table_text. cbn [map concat]. rewrite app_nil_r. reflexivity. }
  rewrite md_rows by (repeat (constructor; try assumption)). cbn [md_lines]. rewrite app_nil_r.
  cbn [map]. rewrite !fit_exact by (try rewrite map_length; congruence).
  rewrite !read_row_spec by assumption. rewrite (read_rows (length hd) body H1), mark_strip, mark_read, map_length, Hl, Nat.eqb_refl.
  reflexivity.
Qed.
Lemma cells_nonl d l cs : Cells d l cs -> ~ In NL l -> Forall (fun c => ~ In NL c) cs.
Proof.
  induction 1 as [c H|c l cs H _ IH]; intros Hn; [repeat constructor; exact Hn|].
  rewrite in_app_iff in Hn. cbn in Hn. constructor; [tauto|]. apply IH. tauto.
Qed.
Lemma records_nonl d s rs : Records d s rs -> Forall (Forall (fun c => ~ In NL c)) rs.
Proof.
  induction 1 as [|l cs Hl Hn Hc|l cs s rs Hn Hc _ IH]; [constructor| |].
  - constructor; [|constructor]. exact (cells_nonl d l cs Hc Hn).
  - constructor; [|exact IH]. exact (cells_nonl d l cs Hc Hn).
Qed.
Lemma layout_incl hd rs al body (P : list str -> Prop) : Layout hd rs al body -> Forall P rs -> Forall P body.
Proof. intros [k al' b Hl H|rs' H] F; [apply Forall_cons_iff in F; apply F|exact F]. Qed.
Lemma csv_reads tsv s hd rs al body t : Records (delim tsv) s (hd :: rs) -> Layout hd rs al body ->
  Forall (Forall clean) (hd :: body) -> csv_to_table s tsv = Table t ->
  read_table t = Some (map strip hd, al, map (fun r => fit (length hd) (map strip r)) body).
Proof.
  intros R L C E. rewrite (csv_spec tsv s hd rs al body R L) in E.
  destruct (_ <? _); [discriminate|]. injection E as <-. apply records_nonl in R.
  apply Forall_cons_iff in R as [R0 R]. apply read_table_text; [exact (layout_length _ _ _ _ L)|exact C|].
  constructor; [exact R0|]. exact (layout_incl _ _ _ _ _ L R).
Qed.

(** * Room *)
Lemma cells_bytes d l cs : Cells d l cs -> bytes cs + length cs = length l + 1.
Proof.
  induction 1 as [c H|c l cs H _ IH]; [unfold bytes; cbn; lia|].
  change (bytes (c :: cs)) with (length c + bytes cs). rewrite app_length. cbn [length]. lia.
Qed.
Lemma records_bytes d s rs : Records d s rs -> list_sum (map (fun r => bytes r + length r) rs) <= length s + 1.
Proof.
  induction 1 as [|l cs Hl Hn Hc|l cs s rs Hn Hc _ IH]; [cbn; lia| |].
  - apply cells_bytes in Hc. cbn. lia.
  - apply cells_bytes in Hc. cbn [map]. change (list_sum (?a :: ?l)) with (a + list_sum l). rewrite app_length. cbn [length]. 
    rewrite Hc. lia.
Qed.
Lemma rect_sum n rs : Forall (fun r => length r = n) rs ->
  list_sum (map (fun r => bytes r + length r) rs) = list_sum (map bytes rs) + n * length rs.
Proof.
  induction 1 as [|r rs H _ IH]; [cbn; lia|]. cbn [map length]. change (list_sum (?a :: ?l)) with (a + list_sum l).
  rewrite IH, H. lia.
Qed.
Lemma rect_rows n rs : Forall (fun r => length r = n) rs ->
  list_sum (map (row_bytes n) rs) = list_sum (map bytes rs) + (2 + 3 * n) * length rs.
Proof.
  induction 1 as [|r rs H _ IH]; [cbn; lia|]. cbn [map length]. change (list_sum (?a :: ?l)) with (a + list_sum l).
  rewrite IH. unfold row_bytes. rewrite <- H, firstn_all. lia.
Qed.
Lemma mark_bytes al : bytes (map mark al) <= 5 * length al.
Proof. induction al as [|a al IH]; [cbn; lia|]. cbn [map length]. change (bytes (?a :: ?l)) with (length a + bytes l). destruct a; cbn; lia. Qed.
Lemma auto_bytes n : bytes (map mark (repeat AAuto n)) = 3 * n.
Proof. induction n as [|n IH]; [reflexivity|]. cbn [repeat map]. change (bytes (?a :: ?l)) with (length a + bytes l). rewrite IH. cbn. lia. Qed.
Lemma room_enough d s hd rs al body : Records d s (hd :: rs) -> Layout hd rs al body ->
  Forall (fun r => length r = length hd) rs -> 2 <= length hd -> (length hd <= 11 \/ 5 <= length rs) ->
  table_bytes hd al body <= length s * 4 + 64.
Proof.
  intros R L F Hn HR. apply records_bytes in R.
  assert (F' : Forall (fun r : list str => length r = length hd) (hd :: rs)) by (constructor; [reflexivity|exact F]).
  rewrite (rect_sum (length hd) _ F') in R. cbn [map length] in R. change (list_sum (?a :: ?l)) with (a + list_sum l) in R.
  unfold table_bytes. cbv zeta. unfold row_bytes at 1 2. rewrite firstn_all.
  rewrite firstn_all2 by (rewrite map_length, (layout_length _ _ _ _ L); lia).
  assert (HF : Forall (fun r : list str => length r = length hd) body) by exact (layout_incl _ _ _ _ _ L F).
  rewrite (rect_rows (length hd) body HF).
  destruct L as [k al b Hl HK|rs' HK].
  - pose proof (mark_bytes al) as Ma. assert (La : length al = length hd) by (rewrite <- Hl; symmetry; clear -HK; induction HK; cbn; congruence).
    rewrite La in Ma. cbn [map length] in R, HR. change (list_sum (?a :: ?l)) with (a + list_sum l) in R.
    set (n := length hd) in *. set (r := length b) in *. nia.
  - rewrite auto_bytes. set (n := length hd) in *. set (r := length rs') in *. nia.
Qed.

(** * Documents *)
Definition notnl (x : ascii) : bool := negb (ceq x NL).
Lemma span_line l r : ~ In NL l -> span notnl (l ++ NL :: r) = (l, NL :: r).
Proof.
  induction l as [|c l IH]; intros H; [reflexivity|]. apply nin_cons in H as [N H]. cbn [app span].
  unfold notnl at 1. rewrite (proj2 (ceq_neq c NL) N). cbn [negb]. rewrite (IH H). reflexivity.
Qed.
Lemma span_end l : ~ In NL l -> span notnl l = (l, []).
Proof.
  induction l as [|c l IH]; intros H; [reflexivity|]. apply nin_cons in H as [N H]. cbn [span].
  unfold notnl at 1. rewrite (proj2 (ceq_neq c NL) N). cbn [negb]. rewrite (IH H). reflexivity.
Qed.
Lemma span_cases s : (span notnl s = (s, []) /\ ~ In NL s) \/
  exists l r, s = l ++ NL :: r /\ ~ In NL l /\ span notnl s = (l, NL :: r).
Proof.
  destruct (split_line s) as [H|(l & r & -> & H)]; [left|right].
  - split; [apply span_end; exact H|exact H].
  - exists l, r. split; [reflexivity|]. split; [exact H|]. apply span_line. exact H.
Qed.
Lemma first_strstr w body rest : first w body -> strstr w (body ++ w ++ rest) = Some (length body).
Proof.
  intros F. apply strstr_first. intros a b E.
  destruct (le_lt_dec (length body) (length a)) as [|Hlt]; [assumption|exfalso].
  apply (f_equal (firstn (length body + length w))) in E.
  rewrite (app_assoc body), firstn_app, app_length in E.
  replace (length body + length w - (length body + length w)) with 0 in E by lia.
  rewrite <- app_length, firstn_all, firstn_O, app_nil_r in E.
  rewrite (app_assoc a), firstn_app, !app_length in E.
  rewrite firstn_all2 in E by (rewrite app_length; lia). rewrite <- app_assoc in E.
  pose proof (F _ _ E) as Z. apply (f_equal (@length ascii)) in E. rewrite Z, !app_length in E. cbn in E. lia.
Qed.
Lemma has_strstr w s : ~ has w s -> strstr w s = None.
Proof.
  intros H. destruct (strstr w s) as [k|] eqn:E; [|reflexivity]. apply strstr_some in E as (a & b & -> & _).
  exfalso. apply H. exists a, b. reflexivity.
Qed.
Lemma fence_parts_of blk info body closed rest : Fence blk info body closed rest ->
  fence_parts (blk ++ rest) = (info, body, if closed then Some rest else None).
Proof.
  intros [i b r Hi Hf|i b Hi Hh|i Hi]; unfold fence_parts; fold notnl.
  - replace (skipn 3 ((ticks ++ i ++ NL :: b ++ ticks) ++ r)) with (i ++ NL :: (b ++ ticks ++ r))
      by (cbn; rewrite <- !app_assoc; cbn; rewrite <- !app_assoc; reflexivity).
    rewrite (span_line i _ Hi). fold ticks. rewrite (first_strstr ticks b r Hf).
    rewrite firstn_app, Nat.sub_diag, firstn_all, firstn_O, app_nil_r.
    rewrite (app_assoc b), skipn_app, skipn_all2 by (rewrite app_length; cbn; lia).
    rewrite app_length. change (length ticks) with 3. rewrite Nat.sub_diag. reflexivity.
  - rewrite app_nil_r. replace (skipn 3 (ticks ++ i ++ NL :: b)) with (i ++ NL :: b) by reflexivity.
    rewrite (span_line i b Hi). fold ticks. rewrite (has_strstr ticks b Hh). reflexivity.
  - rewrite app_nil_r. replace (skipn 3 (ticks ++ i)) with i by reflexivity. rewrite (span_end i Hi). reflexivity.
Qed.
Lemma of_fence s : starts ticks s = true -> exists blk rest info body closed,
  s = blk ++ rest /\ Fence blk info body closed rest /\ fence_parts s = (info, body, if closed then Some rest else None).
Proof.
  intros H. apply starts_spec in H as [r ->].
  destruct (span_cases r) as [[E H]|(l & x & -> & H & E)].
  - exists (ticks ++ r), [], r, [], false. split; [symmetry; apply app_nil_r|].
    assert (F : Fence (ticks ++ r) r [] false []) by (apply F_line; exact H).
    split; [exact F|]. apply fence_parts_of in F. rewrite app_nil_r in F. exact F.
  - destruct (strstr ticks x) as [k|] eqn:Ek.
    + apply strstr_some in Ek as (a & b & -> & Hk & Hm).
      assert (F : Fence (ticks ++ l ++ NL :: a ++ ticks) l a true b).
      { apply F_closed; [exact H|]. intros a' b' E'.
        assert (Hl : length a <= length a').
        { apply (Hm a' (b' ++ b)). rewrite !(app_assoc _ _ b). rewrite E'. rewrite <- !app_assoc. reflexivity. }
        apply (f_equal (@length ascii)) in E'. rewrite !app_length in E'. destruct b'; [reflexivity|cbn in E'; lia]. }
      exists (ticks ++ l ++ NL :: a ++ ticks), b, l, a, true.
      assert (Es : ticks ++ l ++ NL :: a ++ ticks ++ b = (ticks ++ l ++ NL :: a ++ ticks) ++ b)
        by (rewrite <- !app_assoc; cbn [app]; rewrite <- !app_assoc; reflexivity).
      split; [exact Es|]. split; [exact F|]. rewrite Es. exact (fence_parts_of _ _ _ _ _ F).
    + exists (ticks ++ l ++ NL :: x), [], l, x, false. split; [symmetry; apply app_nil_r|].
      assert (F : Fence (ticks ++ l ++ NL :: x) l x false []).
      { apply F_open; [exact H|]. intros (a & b & Hx). exact (strstr_none _ _ Ek a b Hx). }
      split; [exact F|]. apply fence_parts_of in F. rewrite app_nil_r in F. exact F.
Qed.
Lemma fence_starts blk info body closed rest : Fence blk info body closed rest ->
  starts ticks (blk ++ rest) = true /\ (closed = false -> rest = []).
Proof. intros [i b r Hi Hf|i b Hi Hh|i Hi]; (split; [reflexivity|]); [discriminate|reflexivity|reflexivity]. Qed.
Lemma table_fence_spec info : is_table_fence info = true <-> Table_info info.
Proof.
  unfold is_table_fence, Table_info. rewrite trim_strip. cbv zeta. rewrite andb_true_iff, seq_eq, Nat.eqb_eq.
  split; [intros [_ H]; exact H|]. intros H. split; [|exact H]. rewrite <- (map_length tolower), H. reflexivity.
Qed.
Lemma existsb_in c s : existsb (ceq c) s = true <-> In c s.
Proof.
  rewrite existsb_exists. split.
  - intros (x & Hx & E). apply ceq_eq in E as <-. exact Hx.
  - intros H. exists c. split; [exact H|apply ceq_refl].
Qed.
Lemma existsb_nin c s : existsb (ceq c) s = false <-> ~ In c s.
Proof. rewrite <- existsb_in. destruct (existsb (ceq c) s); intuition congruence. Qed.
Lemma detect_some s b : detect_delimiter s = Some b <-> Delimiter s b.
Proof.
  unfold detect_delimiter. destruct (existsb (ceq TAB) s) eqn:E1.
  - apply existsb_in in E1. split; [intros H; injection H as <-; constructor; exact E1|]. intros [H|H _]; [reflexivity|contradiction].
  - apply existsb_nin in E1. destruct (existsb (ceq ",") s) eqn:E2.
    + apply existsb_in in E2. split; [intros H; injection H as <-; constructor; assumption|]. intros [H|_ _]; [contradiction|reflexivity].
    + apply existsb_nin in E2. split; [discriminate|]. intros [H|_ H]; contradiction.
Qed.
Lemma detect_none s : detect_delimiter s = None <-> forall b, ~ Delimiter s b.
Proof.
  split.
  - intros E b H. apply detect_some in H. congruence.
  - intros H. destruct (detect_delimiter s) as [b|] eqn:E; [|reflexivity]. apply detect_some in E. destruct (H b E).
Qed.
Lemma delimiter_ne s b : Delimiter s b -> s <> [].
Proof. intros [H|_ H] ->; destruct H. Qed.
Lemma csv_not_null s tsv : s <> [] -> csv_to_table s tsv <> Null.
Proof. intros H. destruct (csv_some tsv s H) as (hd & rs & al & body & _ & _ & ->). destruct (_ <? _); discriminate. Qed.

Definition isblank (c : ascii) : bool := ceq c SP || ceq c TAB.
Lemma isblank_spec c : isblank c = true <-> blankc c.
Proof. unfold isblank, blankc. rewrite orb_true_iff, !ceq_eq. reflexivity. Qed.
Lemma span_blanks w p : Forall blankc w -> match p with c :: _ => isblank c = false | [] => True end -> span isblank (w ++ p) = (w, p).
Proof.
  intros H Hp. induction H as [|c w Hc _ IH]; cbn [app].
  - destruct p as [|c p]; [reflexivity|]. cbn [span]. rewrite Hp. reflexivity.
  - cbn [span]. rewrite (proj2 (isblank_spec c) Hc), IH. reflexivity.
Qed.
Lemma marker_of m p : Marker m p -> skip_eol (skipn 12 (m ++ p)) = p /\ starts marker (m ++ p) = true /\ starts ticks (m ++ p) = false.
Proof.
  intros M. destruct M as [w e p0 Hw He]. split; [|split; reflexivity]. rename p0 into p'.
  replace (skipn 12 ((marker ++ w ++ e) ++ p')) with (w ++ e ++ p') by (rewrite <- !app_assoc; reflexivity).
  unfold skip_eol. fold isblank.
  assert (Hb : match e ++ p' with c :: _ => isblank c = false | [] => True end).
  { destruct He as [q|q Hn|q|q H1 H2 H3]; try reflexivity. cbn. destruct q as [|c q]; [exact I|].
    destruct (isblank c) eqn:E; [|reflexivity]. apply isblank_spec in E. destruct (H3 c q eq_refl E). }
  rewrite (span_blanks w (e ++ p') Hw Hb). cbn [snd].
  destruct He as [q|q Hn|q|q H1 H2 H3]; cbn.
  - reflexivity.
  - destruct q as [|c q]; [reflexivity|]. destruct (ceq c NL) eqn:E; [|reflexivity]. apply ceq_eq in E as ->. destruct (Hn q eq_refl).
  - reflexivity.
  - destruct q as [|c q]; [reflexivity|]. destruct (ceq c CR) eqn:E; [apply ceq_eq in E as ->; destruct (H2 q eq_refl)|].
    destruct (ceq c NL) eqn:E2; [apply ceq_eq in E2 as ->; destruct (H1 q eq_refl)|]. reflexivity.
Qed.
Lemma of_marker s : starts marker s = true -> exists m p, s = m ++ p /\ Marker m p.
Proof.
  intros H. apply starts_spec in H as [r ->].
  destruct (span isblank r) as [w p] eqn:E. pose proof (span_app _ _ _ _ E) as ->. pose proof (span_stop _ _ _ _ E) as Hs.
  apply span_all in E. assert (Hw : Forall blankc w).
  { rewrite forallb_forall in E. apply Forall_forall. intros x Hx. apply isblank_spec. auto. }
  assert (He : exists e q, p = e ++ q /\ Eol e q).
  { destruct p as [|c p].
    - exists [], []. split; [reflexivity|]. constructor; discriminate.
    - destruct (ceq c NL) eqn:E1.
      + apply ceq_eq in E1 as ->. exists [NL], p. split; [reflexivity|constructor].
      + destruct (ceq c CR) eqn:E2.
        * apply ceq_eq in E2 as ->. destruct p as [|d p].
          { exists [CR], []. split; [reflexivity|]. constructor. discriminate. }
          destruct (ceq d NL) eqn:E3.
          { apply ceq_eq in E3 as ->. exists [CR; NL], p. split; [reflexivity|constructor]. }
          exists [CR], (d :: p). split; [reflexivity|]. constructor. intros x Hx. injection Hx as -> _. discriminate E3.
        * exists [], (c :: p). split; [reflexivity|].
          constructor; [intros x Hx; injection Hx as -> _; discriminate E1|intros x Hx; injection Hx as -> _; discriminate E2|].
          intros c' x Hx Hb. injection Hx as <- <-. apply isblank_spec in Hb. congruence. }
  destruct He as (e & q & -> & He). exists (marker ++ w ++ e), q. split; [rewrite <- !app_assoc; reflexivity|].
  constructor; assumption.
Qed.
Lemma blank_spec l : blank_ l = true <-> Blank l.
Proof.
  unfold blank_, Blank. rewrite forallb_forall, Forall_forall. split; intros H x Hx; specialize (H x Hx).
  - rewrite !orb_true_iff, !ceq_eq in H. unfold blankc. tauto.
  - rewrite !orb_true_iff, !ceq_eq. unfold blankc in H. tauto.
Qed.
Lemma blank_false l : blank_ l = false <-> ~ Blank l.
Proof. rewrite <- blank_spec. destruct (blank_ l); intuition congruence. Qed.
Lemma data_split d after : Data d after -> firstn (data_len (d ++ after)) (d ++ after) = d /\ skipn (data_len (d ++ after)) (d ++ after) = after.
Proof.
  induction 1 as [|l x Hb Hn Hx|l Hb Hn|l d after Hb Hn _ [IH1 IH2]].
  - split; reflexivity.
  - assert (E : exists ls, lines_ (l ++ x) = l :: ls).
    { destruct Hx as [[-> Hl]|[y ->]]; [rewrite app_nil_r, (lines_plain l Hn Hl)|rewrite (lines_more l y Hn)]; eexists; reflexivity. }
    destruct E as [ls E]. unfold data_len. cbn [app]. rewrite E. cbn [upto_blank]. rewrite (proj2 (blank_spec l) Hb). split; reflexivity.
  - rewrite app_nil_r. unfold data_len. rewrite (lines_plain l Hn).
    2:{ intros ->. apply Hb. constructor. }
    cbn [upto_blank]. rewrite (proj2 (blank_false l) Hb). cbn [map list_sum fold_right upto_blank].
    split; [apply firstn_all2|apply skipn_all2]; lia.
  - assert (E : data_len ((l ++ NL :: d) ++ after) = length l + S (data_len (d ++ after))).
    { unfold data_len. rewrite <- app_assoc. cbn [app]. rewrite (lines_more l _ Hn). cbn [upto_blank].
      rewrite (proj2 (blank_false l) Hb). cbn [map]. change (list_sum (?a :: ?l)) with (a + list_sum l). cbv beta. lia. }
    rewrite E, <- app_assoc. cbn [app]. split.
    + rewrite firstn_app_2. cbn [firstn]. rewrite IH1. reflexivity.
    + rewrite skipn_app, skipn_all2 by lia. replace (length l + S (data_len (d ++ after)) - length l) with (S (data_len (d ++ after))) by lia.
      cbn [skipn app]. exact IH2.
Qed.
Lemma of_data p : exists d after, p = d ++ after /\ Data d after.
Proof.
  remember (length p) as n eqn:E. assert (Hn : length p <= n) by lia. clear E. revert p Hn.
  induction n as [|n IH]; intros p Hn.
  - destruct p; [|cbn in Hn; lia]. exists [], []. split; [reflexivity|constructor].
  - destruct (split_line p) as [H|(l & r & -> & H)].
    + destruct (blank_ p) eqn:B.
      * apply blank_spec in B. destruct p as [|c p]; [exists [], []; split; [reflexivity|constructor]|].
        exists [], (c :: p). split; [reflexivity|]. rewrite <- (app_nil_r (c :: p)). apply T_blank; [exact B|exact H|].
        left. split; [reflexivity|discriminate].
      * apply blank_false in B. exists p, []. split; [symmetry; apply app_nil_r|]. apply T_last; assumption.
    + destruct (blank_ l) eqn:B.
      * apply blank_spec in B. exists [], (l ++ NL :: r). split; [reflexivity|]. apply T_blank; [exact B|exact H|]. right. exists r. reflexivity.
      * apply blank_false in B. destruct (IH r) as (d & after & -> & D); [rewrite app_length in Hn; cbn in Hn; lia|].
        exists (l ++ NL :: d), after. split; [rewrite <- app_assoc; reflexivity|]. apply T_line; assumption.
Qed.

Definition tab (body : str) (tsv : bool) (t : str) : Prop := csv_to_table body tsv = Table t.
Lemma block_eq (blk rest : str) : firstn (length (blk ++ rest) - length rest) (blk ++ rest) = blk.
Proof. rewrite app_length, Nat.add_sub, firstn_app, Nat.sub_diag, firstn_all, firstn_O. apply app_nil_r. Qed.
Lemma go_fence f used cap blk info body closed rest : Fence blk info body closed rest ->
  go (S f) used cap (blk ++ rest) =
    if is_table_fence info then
      match detect_delimiter body with
      | None => copy blk used cap (fun u c => go f u c rest)
      | Some tsv =>
          match csv_to_table body tsv with
          | Overrun => Bad
          | Null => copy blk used cap (fun u c => go f u c rest)
          | Table t =>
              copy t used cap (fun u c =>
                match snd (span notnl rest) with
                | [] => go f u c []
                | _ :: p' => if u <? c then cons_ [NL] (go f (S u) c p') else Bad
                end)
          end
      end
    else copy blk used cap (fun u c => go f u c rest).
Proof.
  intros F. destruct (fence_starts _ _ _ _ _ F) as [Hs Hr]. apply fence_parts_of in F.
  assert (Ha : match (if closed then Some rest else None) with Some x => x | None => [] end = rest)
    by (destruct closed; [reflexivity|rewrite (Hr eq_refl); reflexivity]).
  pose proof (block_eq blk rest) as Hb.
  remember (blk ++ rest) as s eqn:Es. destruct s as [|c r]; [discriminate Hs|].
  cbn [go]. fold ticks. rewrite Hs, F. cbv zeta. rewrite Ha, Hb. fold notnl. reflexivity.
Qed.
Lemma go_marker f used cap m d after : Marker m (d ++ after) -> Data d after ->
  go (S f) used cap (m ++ d ++ after) =
    match d with
    | [] => copy m used cap (fun u c => go f u c after)
    | _ =>
        match detect_delimiter d with
        | None => copy (m ++ d) used cap (fun u c => go f u c after)
        | Some tsv =>
            match csv_to_table d tsv with
            | Overrun => Bad
            | Null => copy (m ++ d) used cap (fun u c => go f u c after)
            | Table t => copy t used cap (fun u c => go f u c after)
            end
        end
    end.
Proof.
  intros M D. destruct (marker_of _ _ M) as (E1 & E2 & E3). destruct (data_split _ _ D) as [D1 D2].
  pose proof (block_eq m (d ++ after)) as Hb.
  remember (m ++ d ++ after) as s eqn:Es. destruct s as [|c r]; [discriminate E2|].
  cbn [go]. fold ticks. rewrite E3. fold marker. rewrite E2, E1. cbv zeta. rewrite D1, D2, Hb.
  destruct d; reflexivity.
Qed.
Lemma go_char f used cap c s : starts ticks (c :: s) = false -> starts marker (c :: s) = false ->
  go (S f) used cap (c :: s) =
    if used <? cap then cons_ [c] (go f (S used) (if cap <=? S used + 1 then S used * 2 + 1 else cap) s) else Bad.
Proof. intros H1 H2. cbn [go]. fold ticks. rewrite H1. fold marker. rewrite H2. reflexivity. Qed.
Lemma cons_done t o x : cons_ t o = Done x -> exists y, o = Done y /\ x = t ++ y.
Proof. destruct o as [y| |]; cbn; try discriminate. intros H. injection H as <-. exists y. split; reflexivity. Qed.
Lemma starts_not w s : starts w s = false -> forall x, s <> w ++ x.
Proof. intros H x ->. rewrite starts_app in H. discriminate. Qed.
Lemma not_starts w s : (forall x, s <> w ++ x) -> starts w s = false.
Proof. intros H. destruct (starts w s) eqn:E; [|reflexivity]. apply starts_spec in E as [x E]. destruct (H x E). Qed.
Lemma go_converted f : forall used cap s o, go f used cap s = Done o -> Converted tab s o.
Proof.
  induction f as [|f IH]; intros used cap s o H; [discriminate H|].
  destruct (starts ticks s) eqn:E1.
  - destruct (of_fence s E1) as (blk & rest & info & body & closed & -> & F & _).
    rewrite (go_fence f used cap _ _ _ _ _ F) in H.
    assert (K : (~ Table_info info \/ (forall t, ~ Delimiter body t)) ->
      copy blk used cap (fun u c => go f u c rest) = Done o -> Converted tab (blk ++ rest) o).
    { intros N C. apply cons_done in C as (y & C & ->). eapply K_code; [exact F|exact N|]. exact (IH _ _ _ _ C). }
    destruct (is_table_fence info) eqn:Ei.
    2:{ apply K; [left|exact H]. intros T. apply table_fence_spec in T. congruence. }
    apply table_fence_spec in Ei. destruct (detect_delimiter body) as [tsv|] eqn:Ed.
    2:{ apply K; [right|exact H]. apply detect_none. exact Ed. }
    apply detect_some in Ed. destruct (csv_to_table body tsv) as [|t|] eqn:Et; [|clear K|discriminate H].
    { exfalso. exact (csv_not_null body tsv (delimiter_ne _ _ Ed) Et). }
    apply cons_done in H as (y & H & ->). destruct (span_cases rest) as [[Es Hn]|(l & x & -> & Hn & Es)]; rewrite Es in H; cbn [snd] in H.
    + assert (Hy : y = []).
      { destruct f; [discriminate H|]. cbn [go] in H. destruct (_ <? _); [|discriminate H]. injection H as <-. reflexivity. }
      subst y. rewrite app_nil_r. eapply K_fence_end; eassumption.
    + destruct (_ <? _); [|discriminate H]. apply cons_done in H as (z & H & ->).
      destruct closed.
      2:{ destruct (fence_starts _ _ _ _ _ F) as [_ Hr]. specialize (Hr eq_refl). destruct l; discriminate Hr. }
      cbn [app]. eapply K_fence_line; try eassumption. exact (IH _ _ _ _ H).
  - destruct (starts marker s) eqn:E2.
    + destruct (of_marker s E2) as (m & p & -> & M). destruct (of_data p) as (d & after & -> & D).
      rewrite (go_marker f used cap m d after M D) in H.
      destruct d as [|c0 d0].
      { apply cons_done in H as (y & H & ->). apply (K_marker_keep tab m [] after y M D).
        - intros t T. exact (delimiter_ne _ _ T eq_refl).
        - exact (IH _ _ _ _ H). }
      set (d := c0 :: d0) in *.
      destruct (detect_delimiter d) as [tsv|] eqn:Ed.
      2:{ apply cons_done in H as (y & H & ->). rewrite <- app_assoc. apply (K_marker_keep tab m d after y M D).
          - apply detect_none. exact Ed.
          - exact (IH _ _ _ _ H). }
      apply detect_some in Ed. destruct (csv_to_table d tsv) as [|t|] eqn:Et; [| |discriminate H].
      { exfalso. exact (csv_not_null d tsv (delimiter_ne _ _ Ed) Et). }
      apply cons_done in H as (y & H & ->). apply (K_marker tab m d after tsv t y M D Ed Et). exact (IH _ _ _ _ H).
    + destruct s as [|c s].
      * cbn [go] in H. destruct (_ <? _); [|discriminate H]. injection H as <-. constructor.
      * rewrite (go_char f used cap c s E1 E2) in H. destruct (_ <? _); [|discriminate H].
        apply cons_done in H as (y & H & ->). cbn [app]. apply K_char; [apply starts_not; exact E1|apply starts_not; exact E2|].
        exact (IH _ _ _ _ H).
Qed.
Lemma room_same k used cap : used + k < cap -> room k used cap = cap.
Proof. intros H. unfold room. destruct (Nat.leb_spec cap (used + k)); [lia|reflexivity]. Qed.
Lemma go_done s o : Converted tab s o -> forall f used cap, length s < f -> used + length o < cap ->
  go f used cap s = Done o.
Proof.
  induction 1 as [|c s o H1 H2 _ IH|blk info body closed rest o F N _ IH|blk info body tail rest tsv t o F T D Ht Hc _ IH
    |blk info body closed tail tsv t F T D Ht Hc|m d after o M D N _ IH|m d after tsv t o M D Hd Hc _ IH]; intros f used cap Hf Hu.
  - destruct f; [cbn in Hf; lia|]. cbn [go]. cbn in Hu. destruct (Nat.ltb_spec used cap); [reflexivity|lia].
  - destruct f; [cbn in Hf; lia|]. rewrite (go_char f used cap c s (not_starts _ _ H1) (not_starts _ _ H2)).
    cbn [length] in Hf, Hu. destruct (Nat.ltb_spec used cap); [|lia].
    rewrite IH; [reflexivity|lia|]. destruct (Nat.leb_spec cap (S used + 1)); lia.
  - destruct f; [lia|]. rewrite (go_fence f used cap _ _ _ _ _ F).
    assert (Hb : 1 <= length blk) by (destruct F; cbn; lia). rewrite app_length in Hf, Hu.
    assert (K : copy blk used cap (fun u c => go f u c rest) = Done (blk ++ o)).
    { unfold copy. rewrite room_same by lia. rewrite IH by lia. reflexivity. }
    destruct (is_table_fence info) eqn:Ei; [|exact K]. apply table_fence_spec in Ei.
    destruct N as [N|N]; [contradiction|]. apply detect_none in N. rewrite N. exact K.
  - destruct f; [lia|]. rewrite (go_fence f used cap _ _ _ _ _ F).
    assert (Hb : 1 <= length blk) by (destruct F; cbn; lia). rewrite !app_length in Hf. rewrite app_length in Hu. cbn [length] in Hf, Hu.
    rewrite (proj2 (table_fence_spec info) T), (proj2 (detect_some body tsv) D). unfold tab in Hc. rewrite Hc.
    rewrite (span_line tail rest Ht). cbn [snd]. unfold copy. rewrite room_same by lia.
    destruct (Nat.ltb_spec (used + length t) cap); [|lia]. rewrite IH by lia. reflexivity.
  - destruct f; [lia|]. rewrite (go_fence f used cap _ _ _ _ _ F).
    assert (Hb : 1 <= length blk) by (destruct F; cbn; lia). rewrite app_length in Hf.
    rewrite (proj2 (table_fence_spec info) T), (proj2 (detect_some body tsv) D). unfold tab in Hc. rewrite Hc.
    rewrite (span_end tail Ht). cbn [snd]. unfold copy. rewrite room_same by lia.
    destruct f; [lia|]. cbn [go]. destruct (Nat.ltb_spec (used + length t) cap); [|lia]. cbn. rewrite app_nil_r. reflexivity.
  - destruct f; [lia|]. rewrite (go_marker f used cap m d after M D).
    assert (Hb : 1 <= length m) by (destruct M; cbn; lia). rewrite !app_length in Hf, Hu.
    apply detect_none in N. rewrite N. destruct d as [|c0 d0].
    + unfold copy. rewrite room_same by lia. rewrite IH by (cbn in *; lia). reflexivity.
    + unfold copy. rewrite room_same by (rewrite app_length; lia). rewrite IH; [|lia|rewrite app_length; lia].
      cbn [cons_]. rewrite <- app_assoc. reflexivity.
  - destruct f; [lia|]. rewrite (go_marker f used cap m d after M D).
    assert (Hb : 1 <= length m) by (destruct M; cbn; lia). rewrite !app_length in Hf. rewrite app_length in Hu.
    rewrite (proj2 (detect_some d tsv) Hd). unfold tab in Hc. rewrite Hc. destruct d as [|c0 d0]; [destruct (delimiter_ne _ _ Hd eq_refl)|].
    unfold copy. rewrite room_same by lia. rewrite IH by (cbn in *; lia). reflexivity.
Qed.
Lemma cons_fuel t o : o <> NoFuel -> cons_ t o <> NoFuel.
Proof. destruct o; cbn; congruence. Qed.
Lemma go_fuel f : forall used cap s, length s < f -> go f used cap s <> NoFuel.
Proof.
  induction f as [|f IH]; intros used cap s Hf; [lia|].
  destruct (starts ticks s) eqn:E1.
  - destruct (of_fence s E1) as (blk & rest & info & body & closed & -> & F & _).
    assert (Hb : 1 <= length blk) by (destruct F; cbn; lia). rewrite app_length in Hf.
    rewrite (go_fence f used cap _ _ _ _ _ F).
    assert (K : copy blk used cap (fun u c => go f u c rest) <> NoFuel) by (apply cons_fuel, IH; lia).
    destruct (is_table_fence info); [|exact K]. destruct (detect_delimiter body); [|exact K].
    destruct (csv_to_table body _); [exact K| |discriminate]. apply cons_fuel.
    destruct (span_cases rest) as [[Es Hn]|(l & x & -> & Hn & Es)]; rewrite Es; cbn [snd].
    + apply IH. cbn. lia.
    + destruct (_ <? _); [|discriminate]. apply cons_fuel, IH. rewrite app_length in Hf. cbn in Hf. lia.
  - destruct (starts marker s) eqn:E2.
    + destruct (of_marker s E2) as (m & p & -> & M). destruct (of_data p) as (d & after & -> & D).
      assert (Hb : 1 <= length m) by (destruct M; cbn; lia). rewrite !app_length in Hf.
      rewrite (go_marker f used cap m d after M D).
      destruct d as [|c0 d0]; [apply cons_fuel, IH; lia|].
      destruct (detect_delimiter _); [|apply cons_fuel, IH; lia].
      destruct (csv_to_table _ _); [apply cons_fuel, IH; lia|apply cons_fuel, IH; lia|discriminate].
    + destruct s as [|c s]; [cbn [go]; destruct (_ <? _); discriminate|].
      rewrite (go_char f used cap c s E1 E2). destruct (_ <? _); [|discriminate]. apply cons_fuel, IH. cbn in Hf. lia.
Qed.

Lemma converted_fun s o1 o2 : Converted tab s o1 -> Converted tab s o2 -> o1 = o2.
Proof.
  intros H1 H2.
  pose proof (go_done s o1 H1 (S (length s)) 0 (length o1 + length o2 + 1)) as E1.
  pose proof (go_done s o2 H2 (S (length s)) 0 (length o1 + length o2 + 1)) as E2.
  rewrite E1 in E2 by lia. specialize (E2 ltac:(lia) ltac:(lia)). injection E2 as E2. exact E2.
Qed.
Lemma fence_block_info blk info body closed rest : Fence blk info body closed rest ->
  exists x, blk ++ rest = ticks ++ info ++ x /\ ~ In NL info /\ (x = [] \/ exists y, x = NL :: y).
Proof.
  intros [i b r Hi Hf|i b Hi Hh|i Hi].
  - exists (NL :: b ++ ticks ++ r). split; [rewrite <- !app_assoc; cbn [app]; rewrite <- !app_assoc; reflexivity|]. split; [exact Hi|]. right. eexists; reflexivity.
  - exists (NL :: b). rewrite app_nil_r. split; [reflexivity|]. split; [exact Hi|]. right. eexists; reflexivity.
  - exists []. rewrite !app_nil_r. split; [reflexivity|]. split; [exact Hi|]. left. reflexivity.
Qed.
Lemma no_request_app a s : no_request (a ++ s) -> no_request s.
Proof.
  intros [H1 H2]. split.
  - intros (x & y & ->). apply H1. exists (a ++ x), y. rewrite <- app_assoc. reflexivity.
  - intros x info b -> Hn Hb. apply (H2 (a ++ x) info b); [rewrite <- app_assoc; reflexivity|exact Hn|exact Hb].
Qed.
Lemma same s : no_request s -> Converted tab s s.
Proof.
  remember (length s) as n eqn:E. assert (Hn : length s <= n) by lia. clear E. revert s Hn.
  induction n as [|n IH]; intros s Hn H.
  - destruct s; [constructor|cbn in Hn; lia].
  - destruct (starts ticks s) eqn:E1.
    + destruct (of_fence s E1) as (blk & rest & info & body & closed & -> & F & _).
      assert (Hb : 1 <= length blk) by (destruct F; cbn; lia).
      eapply K_code; [exact F| |].
      * left. destruct (fence_block_info _ _ _ _ _ F) as (x & Hx & Hi & Hy). destruct H as [_ H].
        apply (H [] info x); assumption.
      * apply IH; [rewrite app_length in Hn; lia|]. exact (no_request_app _ _ H).
    + destruct s as [|c s]; [constructor|]. apply K_char; [apply starts_not; exact E1| |].
      * intros x Hx. destruct H as [H _]. apply H. exists [], x. exact Hx.
      * apply IH; [cbn in Hn; lia|]. exact (no_request_app [c] s H).
Qed.
Lemma inline_same s : no_request s -> inline_tables s = Done s.
Proof. intros H. apply go_done; [exact (same s H)|lia|lia]. Qed.
Lemma quiet_cons c pre x : quiet (c :: pre) x -> (forall y, c :: pre ++ x <> ticks ++ y) /\ (forall y, c :: pre ++ x <> marker ++ y) /\ quiet pre x.
Proof.
  intros H. split; [|split].
  - intros y Hy. pose proof (H ticks [] y (or_introl eq_refl) Hy) as L. cbn in L. lia.
  - intros y Hy. pose proof (H marker [] y (or_intror eq_refl) Hy) as L. cbn in L. lia.
  - intros w a b Hw E. pose proof (H w (c :: a) b Hw) as L. cbn in L. rewrite E in L. specialize (L eq_refl). lia.
Qed.
Lemma go_quiet pre x : quiet pre x -> forall f used cap o, go f used cap (pre ++ x) = Done o ->
  exists f' u c o', go f' u c x = Done o' /\ o = pre ++ o'.
Proof.
  induction pre as [|ch pre IH]; intros Q f used cap o H.
  - exists f, used, cap, o. split; [exact H|reflexivity].
  - apply quiet_cons in Q as (Q1 & Q2 & Q). destruct f; [discriminate H|]. cbn [app] in H.
    rewrite (go_char f used cap ch (pre ++ x) (not_starts _ _ Q1) (not_starts _ _ Q2)) in H.
    destruct (_ <? _); [|discriminate H]. apply cons_done in H as (y & H & ->).
    destruct (IH Q _ _ _ _ H) as (f' & u & c & o' & H' & ->). exists f', u, c, o'. split; [exact H'|reflexivity].
Qed.
Lemma code_kept pre blk info body closed rest o : quiet pre (blk ++ rest) -> Fence blk info body closed rest -> ~ Table_info info ->
  inline_tables (pre ++ blk ++ rest) = Done o -> exists o', o = pre ++ blk ++ o' /\ Converted tab rest o'.
Proof.
  intros Q F N H. destruct (go_quiet pre _ Q _ _ _ _ H) as (f' & u & c & o' & H' & ->). destruct f'; [discriminate H'|].
  rewrite (go_fence f' u c _ _ _ _ _ F) in H'. destruct (is_table_fence info) eqn:Ei; [apply table_fence_spec in Ei; contradiction|].
  apply cons_done in H' as (y & H' & ->). exists y. split; [reflexivity|]. exact (go_converted _ _ _ _ _ H').
Qed.
Lemma in_line c s : c <> NL -> In c s -> exists a l b, s = a ++ l ++ b /\ ~ In NL l /\ In c l /\
  (a = [] \/ exists a', a = a' ++ [NL]) /\ (b = [] \/ exists b', b = NL :: b').
Proof.
  intros Hc. remember (length s) as n eqn:E. assert (Hn : length s <= n) by lia. clear E. revert s Hn.
  induction n as [|n IH]; intros s Hn H; [destruct s; [destruct H|cbn in Hn; lia]|].
  destruct (split_line s) as [Hl|(l & r & -> & Hl)].
  - exists [], s, []. rewrite app_nil_r. split; [reflexivity|]. split; [exact Hl|]. split; [exact H|]. split; left; reflexivity.
  - apply in_app_iff in H as [H|[H|H]]; [| congruence |].
    + exists [], l, (NL :: r). split; [reflexivity|]. split; [exact Hl|]. split; [exact H|]. split; [left; reflexivity|right; eexists; reflexivity].
    + destruct (IH r) as (a & l' & b & -> & H1 & H2 & H3 & H4); [rewrite app_length in Hn; cbn in Hn; lia|exact H|].
      exists (l ++ NL :: a), l', b. split; [rewrite <- app_assoc; reflexivity|]. split; [exact H1|]. split; [exact H2|]. split; [|exact H4].
      right. destruct H3 as [-> | [a' ->]]; [exists l; reflexivity|]. exists (l ++ NL :: a'). rewrite <- app_assoc. reflexivity.
Qed.
Lemma comma_line s : In ","%char s -> on_line ","%char s.
Proof.
  intros H. destruct (in_line ","%char s ltac:(discriminate) H) as (a & l & b & E & H1 & H2 & H3 & H4).
  exists a, l, b. split; [exact E|]. split; [exact H1|]. split; [exact H2|]. split; [|split; assumption].
  intros Hb. unfold Blank in Hb. rewrite Forall_forall in Hb. specialize (Hb _ H2). destruct Hb as [[Hb|Hb]|Hb]; discriminate Hb.
Qed.
Lemma on_line_in c s : on_line c s -> In c s.
Proof. intros (a & l & b & -> & _ & H & _). rewrite !in_app_iff. tauto. Qed.
Lemma guide_delim s g : Guide s g -> (In TAB s -> on_line TAB s) ->
  match g with Some tsv => Delimiter s tsv | None => forall t, ~ Delimiter s t end.
Proof.
  intros G H. destruct G as [G|G1 G2|G1 G2].
  - constructor. apply on_line_in. exact G.
  - constructor; [intros T; exact (G1 (H T))|apply on_line_in; exact G2].
  - intros t [T|_ T]; [exact (G1 (H T))|]. exact (G2 (comma_line _ T)).
Qed.
Lemma on_line_more c l s : ~ In NL l -> on_line c s -> on_line c (l ++ NL :: s).
Proof.
  intros Hl (a & l' & b & -> & H1 & H2 & H3 & H4 & H5). exists (l ++ NL :: a), l', b.
  split; [rewrite <- app_assoc; reflexivity|]. split; [exact H1|]. split; [exact H2|]. split; [exact H3|]. split; [|exact H5].
  right. destruct H4 as [-> | [a' ->]]; [exists l; reflexivity|]. exists (l ++ NL :: a'). rewrite <- app_assoc. reflexivity.
Qed.
Lemma data_tab d after : Data d after -> In TAB d -> on_line TAB d.
Proof.
  induction 1 as [|l x Hb Hn Hx|l Hb Hn|l d after Hb Hn _ IH]; intros T.
  - destruct T.
  - destruct T.
  - exists [], l, []. rewrite app_nil_r. repeat split; auto.
  - apply in_app_iff in T as [T|[T|T]]; [|discriminate T|].
    + exists [], l, (NL :: d). split; [reflexivity|]. split; [exact Hn|]. split; [exact T|]. split; [exact Hb|].
      split; [left; reflexivity|right; eexists; reflexivity].
    + apply on_line_more; [exact Hn|]. exact (IH T).
Qed.
Lemma fence_guide body g o : first ticks body -> Guide body g -> (In TAB body -> on_line TAB body) ->
  inline_tables (ticks ++ B "table" ++ NL :: body ++ ticks) = Done o ->
  match g with Some tsv => csv_to_table body tsv = Table o | None => o = ticks ++ B "table" ++ NL :: body ++ ticks end.
Proof.
  intros F G T H. pose proof (guide_delim body g G T) as D. set (doc := ticks ++ B "table" ++ NL :: body ++ ticks) in *.
  assert (Fe : Fence doc (B "table") body true []).
  { apply F_closed; [|exact F]. cbn. intuition discriminate. }
  apply go_converted in H. destruct g as [tsv|].
  - destruct (csv_to_table body tsv) as [|t|] eqn:E.
    + destruct (csv_not_null body tsv (delimiter_ne _ _ D) E).
    + f_equal. apply (converted_fun doc); [|exact H]. rewrite <- (app_nil_r doc).
      eapply K_fence_end; try eassumption; [reflexivity|intros []].
    + exfalso. revert H. clear T G. intros H. rewrite <- (app_nil_r doc) in H.
      assert (X : go (S (length (doc ++ []))) 0 (length o + 1) (doc ++ []) = Done o) by (apply go_done; [exact H|lia|lia]).
      rewrite (go_fence _ _ _ _ _ _ _ _ Fe) in X.
      rewrite (proj2 (detect_some body tsv) D), E in X. discriminate X.
  - apply (converted_fun doc); [exact H|]. rewrite <- (app_nil_r doc).
    eapply K_code; [exact Fe|right; exact D|constructor].
Qed.
Lemma marker_guide m d after g o : Marker m (d ++ after) -> Data d after -> Guide d g ->
  inline_tables (m ++ d ++ after) = Done o ->
  exists o', Converted tab after o' /\
    match g with Some tsv => exists t, csv_to_table d tsv = Table t /\ o = t ++ o' | None => o = m ++ d ++ o' end.
Proof.
  intros M D G H. pose proof (guide_delim d g G (data_tab d after D)) as De. unfold inline_tables in H.
  rewrite (go_marker _ _ _ m d after M D) in H. destruct g as [tsv|].
  - rewrite (proj2 (detect_some d tsv) De) in H. pose proof (delimiter_ne _ _ De) as Hne. destruct d as [|c0 d0]; [congruence|].
    destruct (csv_to_table (c0 :: d0) tsv) as [|t|] eqn:E; [destruct (csv_not_null _ _ Hne E)| |discriminate H].
    apply cons_done in H as (y & H & ->). exists y. split; [exact (go_converted _ _ _ _ _ H)|]. exists t. split; reflexivity.
  - rewrite (proj2 (detect_none d) De) in H. destruct d as [|c0 d0].
    + apply cons_done in H as (y & H & ->). exists y. split; [exact (go_converted _ _ _ _ _ H)|reflexivity].
    + apply cons_done in H as (y & H & ->). exists y. split; [exact (go_converted _ _ _ _ _ H)|]. rewrite <- app_assoc. reflexivity.
Qed.
Lemma split_once (x : ascii) : forall p q a b, ~ In x p -> ~ In x a -> p ++ x :: q = a ++ x :: b -> p = a /\ q = b.
Proof.
  induction p as [|c p IH]; intros q a b Hp Ha E; destruct a as [|d a]; cbn in E.
  - injection E as ->. split; reflexivity.
  - injection E as -> _. destruct Ha. left. reflexivity.
  - injection E as -> _. destruct Hp. left. reflexivity.
  - injection E as -> E. apply nin_cons in Hp as [_ Hp]. apply nin_cons in Ha as [_ Ha].
    destruct (IH q a b Hp Ha E) as [-> ->]. split; reflexivity.
Qed.
Lemma tab_on_blank : let body := B "a,b" ++ [NL; TAB; NL] in Guide body (Some false).
Proof.
  cbv zeta. apply G_comma.
  - intros (a & l & b & E & Hn & Ht & Hb & _). apply in_split in Ht as (x & y & ->). apply Hb.
    assert (Hx : ~ In TAB (a ++ x)).
    { intros I. assert (C : 2 <= count_occ ascii_dec (B "a,b" ++ [NL; TAB; NL]) TAB).
      { rewrite E. replace (a ++ (x ++ TAB :: y) ++ b) with ((a ++ x) ++ TAB :: (y ++ b)) by (rewrite <- !app_assoc; reflexivity).
        rewrite (count_occ_app _ (a ++ x)). cbn [count_occ].
        destruct (ascii_dec TAB TAB); [|contradiction]. apply (count_occ_In ascii_dec) in I. lia. }
      vm_compute in C. lia. }
    replace (a ++ (x ++ TAB :: y) ++ b) with ((a ++ x) ++ TAB :: (y ++ b)) in E by (rewrite <- !app_assoc; reflexivity).
    assert (E' : (B "a,b" ++ [NL]) ++ TAB :: [NL] = (a ++ x) ++ TAB :: (y ++ b)) by exact E.
    apply split_once in E' as [E1 E2]; [|cbn; intuition discriminate|exact Hx].
    rewrite in_app_iff in Hn. cbn in Hn.
    assert (x = []) as ->.
    { destruct x as [|c x] using rev_ind; [reflexivity|]. rewrite app_assoc in E1. apply app_inj_tail in E1 as [_ E1].
      exfalso. apply Hn. left. rewrite E1. apply in_or_app. right. left. reflexivity. }
    assert (y = []) as ->.
    { destruct y as [|c y]; [reflexivity|]. injection E2 as E2 _. exfalso. apply Hn. right. right. left. symmetry. exact E2. }
    constructor; [left; right; reflexivity|constructor].
  - apply comma_line. cbn. auto.
Qed.
Lemma no_fence_app a s : no_fence (a ++ s) -> no_fence s.
Proof. intros H x info b -> Hn Hb. apply (H (a ++ x) info b); [rewrite <- app_assoc; reflexivity|exact Hn|exact Hb]. Qed.
Lemma room_more k used cap : used + k < room k used cap.
Proof. unfold room. destruct (Nat.leb_spec cap (used + k)); lia. Qed.
Lemma no_fence_info blk info body closed rest : Fence blk info body closed rest -> no_fence (blk ++ rest) -> ~ Table_info info.
Proof. intros F H. destruct (fence_block_info _ _ _ _ _ F) as (x & Hx & Hi & Hy). apply (H [] info x); assumption. Qed.
Lemma go_markers s o : Converted tab s o -> no_fence s -> forall f used cap, length s < f -> used < cap -> go f used cap s = Done o.
Proof.
  induction 1 as [|c s o H1 H2 _ IH|blk info body closed rest o F N _ IH|blk info body tail rest tsv t o F T D Ht Hc _ IH
    |blk info body closed tail tsv t F T D Ht Hc|m d after o M D N _ IH|m d after tsv t o M D Hd Hc _ IH]; intros Q f used cap Hf Hu.
  - destruct f; [cbn in Hf; lia|]. cbn [go]. destruct (Nat.ltb_spec used cap); [reflexivity|lia].
  - destruct f; [cbn in Hf; lia|]. rewrite (go_char f used cap c s (not_starts _ _ H1) (not_starts _ _ H2)).
    cbn [length] in Hf. destruct (Nat.ltb_spec used cap); [|lia].
    rewrite IH; [reflexivity|exact (no_fence_app [c] s Q)|lia|]. destruct (Nat.leb_spec cap (S used + 1)); lia.
  - destruct f; [lia|]. rewrite (go_fence f used cap _ _ _ _ _ F).
    assert (Hb : 1 <= length blk) by (destruct F; cbn; lia). rewrite app_length in Hf.
    destruct (is_table_fence info) eqn:Ei; [apply table_fence_spec in Ei; destruct (no_fence_info _ _ _ _ _ F Q Ei)|].
    unfold copy. rewrite IH; [reflexivity|exact (no_fence_app _ _ Q)|lia|apply room_more].
  - destruct (no_fence_info _ _ _ _ _ F Q T).
  - destruct (no_fence_info _ _ _ _ _ F Q T).
  - destruct f; [lia|]. rewrite (go_marker f used cap m d after M D).
    assert (Hb : 1 <= length m) by (destruct M; cbn; lia). rewrite !app_length in Hf.
    apply detect_none in N. rewrite N. assert (Q' : no_fence after) by exact (no_fence_app d _ (no_fence_app m _ Q)). destruct d as [|c0 d0].
    + unfold copy. rewrite IH; [reflexivity|exact Q'|cbn in *; lia|apply room_more].
    + unfold copy. rewrite IH; [|exact Q'|lia|apply room_more]. cbn [cons_]. rewrite <- app_assoc. reflexivity.
  - destruct f; [lia|]. rewrite (go_marker f used cap m d after M D).
    assert (Hb : 1 <= length m) by (destruct M; cbn; lia). rewrite !app_length in Hf.
    rewrite (proj2 (detect_some d tsv) Hd). unfold tab in Hc. rewrite Hc. destruct d as [|c0 d0]; [destruct (delimiter_ne _ _ Hd eq_refl)|].
    unfold copy. rewrite IH; [reflexivity|exact (no_fence_app (c0 :: d0) _ (no_fence_app m _ Q))|cbn in *; lia|apply room_more].
Qed.
