(** Proofs about the HTML filters: separator rows, heading levels, quotes. *)
From Verif Require Import Base BaseL L_Trans M_Html S_Html L_Html.

(** ** Cells *)
Lemma write_dash_cons d : exists c r, write_dash d = c :: r.
Proof. destruct d; cbn; eauto. Qed.
Lemma only_dashes_spec fuel : forall s has, length s < fuel -> ~ In "<"%char s ->
  exists b, only_dashes fuel s has = Some b /\
    (b = true <-> exists ds, s = concat (map write_dash ds) /\ Forall dash_ok ds /\ (has = true \/ Exists counts ds)).
Proof.
  induction fuel as [|fuel IH]; intros s has L N; [lia|]. cbn [only_dashes]. destruct s as [|c s].
  { exists has. split; [reflexivity|]. split.
    - intros ->. exists []. repeat split; auto.
    - intros (ds & E & _ & H). destruct ds as [|d ds].
      + destruct H as [H|H]; [exact H|inversion H].
      + destruct (write_dash_cons d) as (x & y & X). cbn [map concat] in E. rewrite X in E. discriminate. }
  cbn [length] in L. assert (N' : ~ In "<"%char s) by (intros I; apply N; right; exact I).
  assert (Nc : c <> "<"%char) by (intros ->; apply N; left; reflexivity).
  destruct (starts EMDASH (c :: s)) eqn:S.
  - apply starts_spec in S as (r & E). cbn [EMDASH app] in E. injection E as -> ->. cbn [skipn].
    destruct (IH r true) as (b & -> & H).
    + cbn [length] in L. lia.
    + intros I. apply N'. right. right. exact I.
    + exists b. split; [reflexivity|]. rewrite H. split.
      * intros (ds & -> & F & _). exists (Em :: ds). split; [reflexivity|]. split; [constructor; [exact I|exact F]|].
        right. left. left. reflexivity.
      * intros (ds & E & F & _). destruct ds as [|d ds]; [discriminate|]. inversion F as [|? ? Fd F']; subst. destruct d as [|x].
        -- cbn [map concat write_dash app] in E. injection E as ->. exists ds. auto.
        -- cbn [map concat write_dash app] in E. injection E as <- _. cbn [dash_ok In] in Fd. intuition discriminate.
  - assert (Step : forall has', (has' = has \/ (has' = true /\ counts (Ascii c))) -> (counts (Ascii c) -> has' = true) ->
      dash_ok (Ascii c) -> exists b, only_dashes fuel s has' = Some b /\
      (b = true <-> exists ds, c :: s = concat (map write_dash ds) /\ Forall dash_ok ds /\ (has = true \/ Exists counts ds))).
    { intros has' Hh Hc Dk. destruct (IH s has') as (b & -> & H); [lia|exact N'|]. exists b. split; [reflexivity|]. rewrite H. split.
      - intros (ds & -> & F & X). exists (Ascii c :: ds). split; [reflexivity|]. split; [constructor; assumption|].
        destruct X as [X|X]; [|right; right; exact X]. destruct Hh as [<-|[_ Hh]]; [left; exact X|right; left; exact Hh].
      - intros (ds & E & F & X). destruct ds as [|d ds]; [discriminate|]. inversion F as [|? ? Fd F']; subst.
        destruct d as [|x]; cbn [map concat write_dash app] in E.
        + injection E as -> ->. discriminate.
        + injection E as -> ->. exists ds. split; [reflexivity|]. split; [exact F'|].
          destruct X as [->|X].
          * left. destruct Hh as [->|[-> _]]; reflexivity.
          * inversion X as [? ? Y|? ? Y]; subst; [left; apply Hc, Y|right; exact Y]. }
    destruct (ceq c ":" || ceq c "-" || ceq c "|") eqn:D.
    + apply Step.
      * rewrite !orb_true_iff, !ceq_eq in D. destruct D as [[-> | ->]| ->]; cbn [ceq].
        -- right. split; [destruct has; reflexivity|]. right. right. reflexivity.
        -- right. split; [destruct has; reflexivity|]. right. left. reflexivity.
        -- left. destruct has; reflexivity.
      * intros [X|[X|X]]; [discriminate| |]; injection X as ->; destruct has; reflexivity.
      * rewrite !orb_true_iff, !ceq_eq in D. cbn [dash_ok In]. intuition.
    + destruct (gap c) eqn:G.
      * apply gap_in in G. apply Step; [left; reflexivity| |].
        -- unfold gap_byte in G. cbn [In] in G. intros [X|[X|X]]; [discriminate| |]; injection X as ->; intuition discriminate.
        -- unfold gap_byte in G. cbn [In dash_ok] in *. intuition.
      * apply ceq_neq in Nc. rewrite ceq_sym in Nc. cbn [starts B list_ascii_of_string]. rewrite Nc. cbn [andb orb].
        exists false. split; [reflexivity|]. split; [discriminate|]. intros (ds & E & F & _). exfalso.
        destruct ds as [|d ds]; [discriminate|]. inversion F as [|? ? Fd F']; subst.
        destruct d as [|x]; cbn [map concat write_dash app] in E; injection E as -> ->; [discriminate|].
        rewrite !orb_false_iff, !ceq_neq in D.
        assert (Gn : ~ gap_byte x) by (intros Y; apply gap_in in Y; congruence).
        unfold gap_byte in Gn. cbn [dash_ok In] in *. intuition.
Qed.
Lemma cell_dashes s : ~ In "<"%char s -> exists b, only_dashes (S (length s)) s false = Some b /\ (b = true <-> dashes s).
Proof.
  intros N. destruct (only_dashes_spec (S (length s)) s false) as (b & E & H); [lia|exact N|]. exists b. split; [exact E|].
  rewrite H. unfold dashes. split; intros (ds & H1 & H2 & H3); exists ds; intuition discriminate.
Qed.

(** ** Searching over cells *)
Lemma strstr_over l x : ~ In "<"%char x -> forall s,
  strstr ("<"%char :: l) (x ++ s) = option_map (Nat.add (length x)) (strstr ("<"%char :: l) s).
Proof.
  induction x as [|c x IH]; intros N s; cbn [app length Nat.add].
  - destruct (strstr _ s); reflexivity.
  - change (strstr ("<"%char :: l) (c :: x ++ s)) with
      (if starts ("<"%char :: l) (c :: x ++ s) then Some 0 else option_map S (strstr ("<"%char :: l) (x ++ s))).
    cbn [starts]. replace (ceq "<" c) with false.
    + cbn [andb]. rewrite IH by (intros I; apply N; right; exact I). destruct (strstr _ s); reflexivity.
    + symmetry. apply ceq_neq. intros <-. apply N. left. reflexivity.
Qed.

(** The text of a cell behind its [<]. *)
Definition cell_rest (c : cell) : str :=
  cell_tag c ++ c_attrs c ++ B ">" ++ c_text c.
Lemma write_cell_eq c : write_cell c = c_lead c ++ "<"%char :: cell_rest c ++ "<"%char :: "/"%char :: cell_tag c ++ [">"%char].
Proof.
  unfold write_cell, cell_rest. cbn [B list_ascii_of_string app]. rewrite <- !app_assoc. reflexivity.
Qed.
Lemma cell_rest_no c : cell_ok c -> ~ In "<"%char (cell_rest c).
Proof.
  intros (H1 & H2 & H3 & H4) I. unfold cell_rest in I. rewrite !in_app_iff in I.
  destruct I as [I|[I|[I|I]]]; [|exact (H3 I)| |exact (H4 I)].
  - unfold cell_tag in I. destruct (c_th c); cbn in I; intuition discriminate.
  - cbn in I. intuition discriminate.
Qed.
Lemma tag_end_no c : ~ In "<"%char ("/"%char :: cell_tag c ++ [">"%char]).
Proof. unfold cell_tag. destruct (c_th c); cbn; intuition discriminate. Qed.

Lemma strstr_step lit x s : starts lit (x :: s) = false -> strstr lit (x :: s) = option_map S (strstr lit s).
Proof. intros E. cbn [strstr]. rewrite E. reflexivity. Qed.

Lemma strstr_cell c s : cell_ok c ->
  strstr (B "</tr>") (write_cell c ++ s) = option_map (Nat.add (length (write_cell c))) (strstr (B "</tr>") s).
Proof.
  intros OK. pose proof OK as (H1 & _). rewrite write_cell_eq. cbn [B list_ascii_of_string]. rewrite <- app_assoc.
  rewrite strstr_over by (apply gap_no_lt, H1). cbn [app].
  rewrite strstr_step.
  2: { cbn [starts]. unfold cell_rest, cell_tag. destruct (c_th c); reflexivity. }
  rewrite <- app_assoc. rewrite strstr_over by (apply cell_rest_no, OK). cbn [app].
  rewrite strstr_step.
  2: { cbn [starts]. unfold cell_tag. destruct (c_th c); reflexivity. }
  change ("/"%char :: (cell_tag c ++ [">"%char]) ++ s) with (("/"%char :: cell_tag c ++ [">"%char]) ++ s).
  rewrite strstr_over by apply tag_end_no.
  destruct (strstr _ s) as [k|]; cbn [option_map]; [|reflexivity]. f_equal.
  rewrite !app_length. cbn [length]. rewrite !app_length. cbn [length]. rewrite !app_length. cbn [length]. lia.
Qed.
Definition inner (r : row) : str := concat (map write_cell (r_cells r)) ++ r_trail r.
Lemma write_row_eq r : write_row r = B "<tr>" ++ inner r ++ B "</tr>".
Proof. unfold write_row, inner. rewrite <- !app_assoc. reflexivity. Qed.
Lemma strstr_row r s : row_ok r -> strstr (B "</tr>") (inner r ++ B "</tr>" ++ s) = Some (length (inner r)).
Proof.
  intros [H1 H2]. unfold inner. induction H1 as [|c cs Hc F IH]; cbn [map concat app].
  - change (B "</tr>") with ("<"%char :: B "/tr>"). rewrite strstr_over by (apply gap_no_lt, H2).
    cbn [app B list_ascii_of_string strstr starts]. cbn. f_equal. lia.
  - rewrite <- !app_assoc. rewrite strstr_cell by exact Hc. rewrite <- app_assoc in IH. rewrite IH. cbn [option_map].
    rewrite !app_length. f_equal.
Qed.

(** ** The test of a row *)
Lemma not_cell_start c s : c <> "<"%char -> starts (B "<td") (c :: s) || starts (B "<th") (c :: s) = false.
Proof.
  intros N. cbn [starts B list_ascii_of_string]. apply ceq_neq in N. rewrite ceq_sym in N. rewrite N. reflexivity.
Qed.
Lemma separator_skip x : ~ In "<"%char x -> forall fuel s n, length x + n < fuel ->
  exists fuel', n < fuel' /\ separator_row fuel (x ++ s) (length x + n) = separator_row fuel' s n.
Proof.
  induction x as [|c x IH]; intros N fuel s n L; cbn [length app Nat.add] in *; [eauto|].
  destruct fuel as [|fuel]; [lia|]. cbn [separator_row Nat.eqb].
  rewrite not_cell_start by (intros ->; apply N; left; reflexivity). cbn [skipn].
  replace (S (length x + n) - 1) with (length x + n) by lia.
  apply IH; [intros I; apply N; right; exact I|lia].
Qed.
Lemma separator_end s : forall fuel, 5 < fuel -> separator_row fuel (B "</tr>" ++ s) 5 = Some true.
Proof.
  intros fuel L. do 6 (destruct fuel as [|fuel]; [lia|]). cbn. reflexivity.
Qed.
Lemma strchr_first c (a b : str) : ~ In c a -> strchr c (a ++ c :: b) = Some (length a).
Proof.
  induction a as [|d a IH]; intros N; cbn [app strchr length].
  - rewrite ceq_refl. reflexivity.
  - replace (ceq c d) with false by (symmetry; apply ceq_neq; intros ->; apply N; left; reflexivity).
    rewrite IH by (intros I; apply N; right; exact I). reflexivity.
Qed.
Lemma separator_cell c : cell_ok c -> forall fuel s n, length (write_cell c) + n < fuel ->
  exists fuel' b, n < fuel' /\ (b = true <-> dashes (c_text c)) /\
    separator_row fuel (write_cell c ++ s) (length (write_cell c) + n) =
    (if b then separator_row fuel' s n else Some false).
Proof.
  intros OK fuel s n L. pose proof OK as (H1 & H2 & H3 & H4).
  set (body := "<"%char :: cell_tag c ++ c_attrs c ++ ">"%char :: c_text c ++ B "</" ++ cell_tag c ++ B ">").
  assert (E : write_cell c = c_lead c ++ body).
  { unfold write_cell, body. cbn [B list_ascii_of_string app]. rewrite <- ?app_assoc. reflexivity. }
  rewrite E, <- app_assoc. rewrite E, app_length in L. rewrite app_length.
  replace (length (c_lead c) + length body + n) with (length (c_lead c) + (length body + n)) by lia.
  destruct (separator_skip (c_lead c) (gap_no_lt _ H1) fuel (body ++ s) (length body + n)) as (fuel1 & L1 & ->); [lia|].
  destruct fuel1 as [|fuel1]; [lia|]. clear L.
  assert (T : exists x, cell_tag c = ["t"%char; x] /\ (x = if c_th c then "h"%char else "d"%char)).
  { unfold cell_tag. destruct (c_th c); eexists; split; reflexivity. }
  destruct T as (x & T & X).
  assert (LB : length body = 3 + length (c_attrs c) + 1 + length (c_text c) + 5).
  { unfold body. rewrite T. cbn [length app B list_ascii_of_string]. rewrite !app_length. cbn [length]. rewrite !app_length. cbn [length app]. lia. }
  cbn [separator_row]. replace (Nat.eqb (length body + n) 0) with false by (symmetry; apply Nat.eqb_neq; lia).
  assert (BS : body ++ s = ("<"%char :: "t"%char :: x :: c_attrs c) ++ ">"%char :: c_text c ++ (B "</" ++ ["t"%char; x] ++ B ">") ++ s).
  { unfold body. rewrite T. cbn [B list_ascii_of_string app]. rewrite <- !app_assoc. cbn [app]. rewrite <- !app_assoc. reflexivity. }
  rewrite BS.
  assert (St : starts (B "<td") (("<"%char :: "t"%char :: x :: c_attrs c) ++ ">"%char :: c_text c ++ (B "</" ++ ["t"%char; x] ++ B ">") ++ s) = negb (c_th c)).
  { rewrite X. destruct (c_th c); reflexivity. }
  assert (Sh : starts (B "<th") (("<"%char :: "t"%char :: x :: c_attrs c) ++ ">"%char :: c_text c ++ (B "</" ++ ["t"%char; x] ++ B ">") ++ s) = c_th c).
  { rewrite X. destruct (c_th c); reflexivity. }
  rewrite St, Sh. replace (negb (c_th c) || c_th c) with true by (destruct (c_th c); reflexivity).
  rewrite strchr_first.
  2: { cbn [In]. intros [I|[I|[I|I]]]; try discriminate; [|exact (H2 I)]. rewrite X in I. destruct (c_th c); discriminate. }
  set (i := length ("<"%char :: "t"%char :: x :: c_attrs c)).
  assert (Sk : skipn (S i) (("<"%char :: "t"%char :: x :: c_attrs c) ++ ">"%char :: c_text c ++ (B "</" ++ ["t"%char; x] ++ B ">") ++ s)
               = c_text c ++ (B "</" ++ ["t"%char; x] ++ B ">") ++ s).
  { rewrite skipn_app, skipn_all2 by (unfold i; lia). fold i. replace (S i - i) with 1 by lia. reflexivity. }
  rewrite Sk.
  assert (F : strstr (if negb (c_th c) then B "</td>" else B "</th>") (c_text c ++ (B "</" ++ ["t"%char; x] ++ B ">") ++ s) = Some (length (c_text c))).
  { replace (if negb (c_th c) then B "</td>" else B "</th>") with ("<"%char :: "/"%char :: "t"%char :: x :: [">"%char]).
    - rewrite strstr_over by exact H4. cbn [B list_ascii_of_string app strstr starts]. rewrite !ceq_refl. cbn. f_equal. lia.
    - rewrite X. destruct (c_th c); reflexivity. }
  rewrite F.
  assert (Ei : S i + length (c_text c) + 5 = length body) by (unfold i; cbn [length]; lia).
  rewrite Ei. replace (Nat.leb (length body) (length body + n)) with true by (symmetry; apply Nat.leb_le; lia).
  rewrite firstn_app, firstn_all, Nat.sub_diag. cbn [firstn]. rewrite app_nil_r.
  destruct (cell_dashes (c_text c) H4) as (b & -> & Hb).
  exists fuel1, b. split; [lia|]. split; [exact Hb|]. destruct b; [|reflexivity].
  rewrite <- BS. rewrite skipn_app, skipn_all, Nat.sub_diag. cbn [app skipn].
  replace (length body + n - length body) with n by lia. reflexivity.
Qed.
Lemma separator_ok r s : row_ok r -> forall fuel, length (inner r) + 5 < fuel ->
  exists b, separator_row fuel (inner r ++ B "</tr>" ++ s) (length (inner r) + 5) = Some b /\
    (b = true <-> Forall (fun c => dashes (c_text c)) (r_cells r)).
Proof.
  intros [H1 H2]. unfold inner. induction H1 as [|c cs Hc F IH]; intros fuel L; cbn [map concat app] in *.
  - destruct (separator_skip (r_trail r) (gap_no_lt _ H2) fuel (B "</tr>" ++ s) 5 L) as (fuel' & L' & ->).
    exists true. rewrite separator_end by exact L'. split; [reflexivity|]. split; [constructor|reflexivity].
  - rewrite <- !app_assoc. rewrite <- !app_assoc, (app_length (write_cell c)) in L.
    rewrite (app_length (write_cell c)), <- Nat.add_assoc.
    destruct (separator_cell c Hc fuel (concat (map write_cell cs) ++ r_trail r ++ B "</tr>" ++ s)
                (length (concat (map write_cell cs) ++ r_trail r) + 5)) as (fuel' & b & L' & Hb & ->).
    { lia. }
    destruct b.
    + destruct (IH fuel' L') as (b & E & H). rewrite <- app_assoc in E. rewrite E. exists b. split; [reflexivity|].
      rewrite H. split.
      * intros X. constructor; [apply Hb; reflexivity|exact X].
      * intros X. inversion X; assumption.
    + exists false. split; [reflexivity|]. split; [discriminate|]. intros X. inversion X as [|? ? Y _]; subst. apply Hb in Y. discriminate.
Qed.

(** ** Copying *)
Definition quiet (t : bool) (s : str) : Prop :=
  table_open s = false /\ table_close s = false /\ (t && starts (B "<tr>") s = false).
Lemma rows_copy t x : forall s, (forall a b, x = a ++ b -> b <> [] -> quiet t (b ++ s)) ->
  forall fuel w, length x + length s < fuel ->
  exists fuel' w', length s < fuel' /\ rows_loop fuel (x ++ s) t w = rows_loop fuel' s t w' /\
    w_out w' = w_out w ++ x /\ w_cap w' = w_cap w /\ (fits w -> length (w_out w) + length x <= w_cap w -> fits w').
Proof.
  induction x as [|c x IH]; intros s Q fuel w L; cbn [app length] in *.
  - exists fuel, w. rewrite app_nil_r. split; [lia|]. split; [reflexivity|]. split; [reflexivity|]. split; [reflexivity|]. auto.
  - destruct fuel as [|fuel]; [lia|]. cbn [rows_loop]. destruct (Q [] (c :: x) eq_refl) as (Q1 & Q2 & Q3); [discriminate|].
    cbn [app] in *. rewrite Q1, Q2, Q3.
    destruct (IH s) with (fuel := fuel) (w := w_store [c] w) as (fuel' & w' & L' & E & O & C & F).
    + intros a b X N. apply (Q (c :: a) b); [rewrite X; reflexivity|exact N].
    + lia.
    + exists fuel', w'. split; [exact L'|]. split; [exact E|]. split; [rewrite O; cbn [w_store w_out]; rewrite <- app_assoc; reflexivity|].
      split; [exact C|]. intros F1 L1. apply F; [apply store_fits; [exact F1|cbn [length]; lia]|].
      cbn [w_store w_out w_cap]. rewrite app_length. cbn [length]. lia.
Qed.
Lemma quiet_byte t c s : c <> "<"%char -> quiet t (c :: s).
Proof.
  intros N. unfold quiet, table_open, table_close. apply ceq_neq in N. rewrite ceq_sym in N.
  cbn [starts B list_ascii_of_string]. rewrite N. cbn [andb]. rewrite andb_false_r. auto.
Qed.
Lemma quiet_no_lt t x s : ~ In "<"%char x -> forall a b, x = a ++ b -> b <> [] -> quiet t (b ++ s).
Proof.
  intros N a [|c b] -> NE; [congruence|]. apply quiet_byte. intros ->. apply N. apply in_or_app. right. left. reflexivity.
Qed.
Lemma quiet_app t x y s : (forall a b, x = a ++ b -> b <> [] -> quiet t (b ++ y ++ s)) ->
  (forall a b, y = a ++ b -> b <> [] -> quiet t (b ++ s)) ->
  forall a b, x ++ y = a ++ b -> b <> [] -> quiet t (b ++ s).
Proof.
  intros H1 H2 a b E N. apply app_eq_app in E as (l & [[E1 E2]|[E1 E2]]).
  - destruct l as [|z l].
    + cbn [app] in E2. subst b. apply (H2 [] y eq_refl N).
    + subst b. rewrite <- app_assoc. apply (H1 a (z :: l) E1). discriminate.
  - apply (H2 l b E2 N).
Qed.
Lemma quiet_cons t c x s : quiet t (c :: x ++ s) -> (forall a b, x = a ++ b -> b <> [] -> quiet t (b ++ s)) ->
  forall a b, c :: x = a ++ b -> b <> [] -> quiet t (b ++ s).
Proof.
  intros H1 H2 [|y a] b E N; cbn [app] in E; [subst b; exact H1|]. injection E as _ E. exact (H2 a b E N).
Qed.
Lemma quiet_cell t c s : cell_ok c -> forall a b, write_cell c = a ++ b -> b <> [] -> quiet t (b ++ s).
Proof.
  intros OK. pose proof OK as (H1 & _). rewrite write_cell_eq. apply quiet_app; [apply quiet_no_lt, gap_no_lt, H1|].
  apply quiet_cons.
  { unfold quiet, table_open, table_close, cell_rest, cell_tag. destruct (c_th c); cbn; rewrite ?andb_false_r; auto. }
  apply quiet_app; [apply quiet_no_lt, cell_rest_no, OK|].
  apply quiet_cons; [|apply quiet_no_lt, tag_end_no].
  unfold quiet, table_open, table_close, cell_tag. destruct (c_th c); cbn; rewrite ?andb_false_r; auto.
Qed.
Lemma quiet_cells t cs s : Forall cell_ok cs -> forall a b, concat (map write_cell cs) = a ++ b -> b <> [] -> quiet t (b ++ s).
Proof.
  intros F. revert s. induction F as [|c cs H F IH]; intros s; cbn [map concat].
  - intros a b E N. destruct a; [|discriminate]. cbn [app] in E. congruence.
  - apply quiet_app; [intros a b; apply quiet_cell, H|apply IH].
Qed.
Lemma quiet_inner t r s : row_ok r -> forall a b, inner r ++ B "</tr>" = a ++ b -> b <> [] -> quiet t (b ++ s).
Proof.
  intros [H1 H2]. apply quiet_app.
  - unfold inner. apply quiet_app; [intros a b; apply quiet_cells, H1|apply quiet_no_lt, gap_no_lt, H2].
  - change (B "</tr>") with ("<"%char :: B "/tr>"). apply quiet_cons.
    + unfold quiet, table_open, table_close. cbn. rewrite ?andb_false_r. auto.
    + apply quiet_no_lt. cbn. intuition discriminate.
Qed.

Lemma rows_ok l : forall fuel t w, items_ok l -> length (write_items l) < fuel -> fits w ->
  length (w_out w) + length (write_items l) < w_cap w ->
  exists w' o, rows_loop fuel (write_items l) t w = Some w' /\ fits w' /\ without_separators t l o /\
    w_out w' = w_out w ++ write_items o.
Proof.
  induction l as [|i l IH]; intros fuel t w OK L F C.
  - destruct fuel as [|fuel]; [lia|]. cbn in C |- *. exists (w_term w), []. split; [reflexivity|].
    split; [apply term_fits; [exact F|lia]|]. split; [constructor|]. cbn [w_term w_out]. rewrite app_nil_r. reflexivity.
  - destruct OK as [Hi OK]. change (write_items (i :: l)) with (write_item i ++ write_items l) in *.
    rewrite app_length in L, C.
    destruct i as [c|c| |r]; cbn [write_item] in *.
    + (* byte *)
      destruct fuel as [|fuel]; [cbn in L; lia|]. cbn [app rows_loop length] in *.
      destruct Hi as (B1 & B2 & B3).
      assert (Q1 : table_open (c :: write_items l) = false).
      { destruct (table_open _) eqn:E; [|reflexivity]. apply table_open_spec in E. destruct (B1 E). }
      assert (Q2 : table_close (c :: write_items l) = false).
      { destruct (table_close _) eqn:E; [|reflexivity]. apply table_close_spec in E. destruct (B2 E). }
      assert (Q3 : starts (B "<tr>") (c :: write_items l) = false).
      { destruct (starts _ _) eqn:E; [|reflexivity]. apply starts_spec in E as (x & E). destruct (B3 x E). }
      rewrite Q1, Q2, Q3, andb_false_r.
      destruct (IH fuel t (w_store [c] w)) as (w' & o & E & F' & W & O); auto; [lia| | |].
      * apply store_fits; [exact F|cbn [length]; lia].
      * cbn [w_store w_out w_cap]. rewrite app_length. cbn [length]. lia.
      * exists w', (Byte c :: o). split; [exact E|]. split; [exact F'|]. split; [constructor; exact W|].
        rewrite O. cbn [w_store w_out]. rewrite <- app_assoc. reflexivity.
    + (* <table *)
      destruct fuel as [|fuel]; [cbn in L; lia|].
      assert (TO : table_open ((B "<table" ++ [c]) ++ write_items l) = true).
      { apply table_open_spec. exists c, (write_items l). rewrite <- app_assoc. split; [reflexivity|exact Hi]. }
      assert (Tl : ~ In "<"%char (B "table" ++ [c])).
      { cbn [B list_ascii_of_string app In] in *. intuition (try discriminate). subst. discriminate. subst. discriminate. }
      change ((B "<table" ++ [c]) ++ write_items l) with ("<"%char :: (B "table" ++ [c]) ++ write_items l) in *.
      cbn [rows_loop]. rewrite TO.
      destruct (rows_copy true (B "table" ++ [c]) (write_items l) (quiet_no_lt true _ (write_items l) Tl) fuel (w_store ["<"%char] w))
        as (fuel' & w1 & L1 & E1 & O1 & C1 & F1).
      { cbn [length app B list_ascii_of_string] in *. lia. }
      rewrite E1. cbn [length app B list_ascii_of_string] in L, C.
      destruct (IH fuel' true w1) as (w' & o & E & F' & W & O); auto.
      * apply F1; [apply store_fits; [exact F|cbn [length]; lia]|]. cbn [w_store w_out w_cap]. rewrite !app_length. cbn. lia.
      * rewrite O1, C1. cbn [w_store w_out w_cap]. rewrite !app_length. cbn. lia.
      * exists w', (OpenTable c :: o). split; [exact E|]. split; [exact F'|]. split; [constructor; exact W|].
        rewrite O, O1. cbn [w_store w_out]. change (write_items (OpenTable c :: o)) with ((B "<table" ++ [c]) ++ write_items o).
        rewrite <- !app_assoc. reflexivity.
    + (* </table> *)
      destruct fuel as [|fuel]; [cbn in L; lia|].
      assert (TO : table_open (B "</table>" ++ write_items l) = false) by reflexivity.
      assert (TC : table_close (B "</table>" ++ write_items l) = true) by (apply starts_app).
      assert (Tl : ~ In "<"%char (B "/table>")) by (cbn; intuition discriminate).
      change (B "</table>" ++ write_items l) with ("<"%char :: B "/table>" ++ write_items l) in *.
      cbn [rows_loop]. rewrite TO, TC.
      destruct (rows_copy false (B "/table>") (write_items l) (quiet_no_lt false _ (write_items l) Tl) fuel (w_store ["<"%char] w))
        as (fuel' & w1 & L1 & E1 & O1 & C1 & F1).
      { cbn [length app B list_ascii_of_string] in *. lia. }
      rewrite E1. cbn [length app B list_ascii_of_string] in L, C.
      destruct (IH fuel' false w1) as (w' & o & E & F' & W & O); auto.
      * apply F1; [apply store_fits; [exact F|cbn [length]; lia]|]. cbn [w_store w_out w_cap]. rewrite !app_length. cbn. lia.
      * rewrite O1, C1. cbn [w_store w_out w_cap]. rewrite !app_length. cbn. lia.
      * exists w', (CloseTable :: o). split; [exact E|]. split; [exact F'|]. split; [constructor; exact W|].
        rewrite O, O1. cbn [w_store w_out]. change (write_items (CloseTable :: o)) with (B "</table>" ++ write_items o).
        rewrite <- !app_assoc. reflexivity.
    + (* row *)
      destruct fuel as [|fuel]; [cbn in L; lia|].
      assert (LR : length (write_row r) = 4 + length (inner r ++ B "</tr>")).
      { rewrite write_row_eq, app_length. reflexivity. }
      assert (ER : forall z, write_row r ++ z = "<"%char :: B "tr>" ++ (inner r ++ B "</tr>") ++ z).
      { intros z. rewrite write_row_eq, <- !app_assoc. reflexivity. }
      assert (Kp : forall t0 w0 fuel0, fits w0 -> w_out w0 = w_out w ++ B "<tr>" -> w_cap w0 = w_cap w ->
        length (inner r ++ B "</tr>") + length (write_items l) < fuel0 ->
        exists w' o, rows_loop fuel0 ((inner r ++ B "</tr>") ++ write_items l) t0 w0 = Some w' /\ fits w' /\
          without_separators t0 l o /\ w_out w' = w_out w ++ write_items (TheRow r :: o)).
      { intros t0 w0 fuel0 F0 O0 C0 L0.
        destruct (rows_copy t0 (inner r ++ B "</tr>") (write_items l)) with (fuel := fuel0) (w := w0)
          as (fuel' & w1 & L1 & E1 & O1 & C1 & F1); [intros a b; apply quiet_inner, Hi|exact L0|].
        destruct (IH fuel' t0 w1) as (w' & o & E & F' & W & O); auto.
        - apply F1; [exact F0|]. rewrite O0, C0, app_length. change (length (B "<tr>")) with 4. lia.
        - rewrite O1, C1, O0, C0, (app_length (w_out w ++ _)), (app_length (w_out w)). change (length (B "<tr>")) with 4. lia.
        - exists w', o. rewrite E1. split; [exact E|]. split; [exact F'|]. split; [exact W|].
          rewrite O, O1, O0. change (write_items (TheRow r :: o)) with (write_row r ++ write_items o). rewrite write_row_eq.
          rewrite <- !app_assoc. reflexivity. }
      rewrite (ER (write_items l)). destruct t.
      * (* in a table *)
        cbn [rows_loop].
        change (table_open ("<"%char :: B "tr>" ++ (inner r ++ B "</tr>") ++ write_items l)) with false.
        change (table_close ("<"%char :: B "tr>" ++ (inner r ++ B "</tr>") ++ write_items l)) with false.
        change (starts (B "<tr>") ("<"%char :: B "tr>" ++ (inner r ++ B "</tr>") ++ write_items l)) with true.
        cbn [andb]. change (skipn 4 ("<"%char :: B "tr>" ++ (inner r ++ B "</tr>") ++ write_items l)) with
          ((inner r ++ B "</tr>") ++ write_items l).
        rewrite <- app_assoc. rewrite strstr_row by exact Hi.
        destruct (separator_ok r (write_items l) Hi (S (length (inner r) + 5))) as (b & -> & Hb); [lia|].
        destruct b.
        -- replace (skipn (length (inner r) + 5) (inner r ++ B "</tr>" ++ write_items l)) with (write_items l).
           2: { rewrite skipn_app, skipn_all2 by lia. replace (length (inner r) + 5 - length (inner r)) with 5 by lia. reflexivity. }
           destruct (IH fuel true w) as (w' & o & E & F' & W & O); auto; [lia|lia|].
           exists w', o. split; [exact E|]. split; [exact F'|]. split; [|exact O]. apply ws_drop; [apply Hb; reflexivity|exact W].
        -- rewrite app_assoc. destruct (Kp true (w_store (B "<tr>") w) fuel) as (w' & o & E & F' & W & O).
           ++ apply store_fits; [exact F|]. change (length (B "<tr>")) with 4. lia.
           ++ reflexivity.
           ++ reflexivity.
           ++ lia.
           ++ exists w', (TheRow r :: o). split; [exact E|]. split; [exact F'|]. split; [|exact O]. apply ws_keep; [|exact W]. right.
              assert (D : forall c, In c (r_cells r) -> dashes (c_text c) \/ ~ dashes (c_text c)).
              { intros c I. destruct Hi as [Hi _]. rewrite Forall_forall in Hi. destruct (Hi c I) as (_ & _ & _ & N).
                destruct (cell_dashes _ N) as (b & _ & H). destruct b; [left; apply H; reflexivity|right].
                intros X. apply H in X. discriminate. }
              assert (NF : ~ Forall (fun c => dashes (c_text c)) (r_cells r)) by (intros X; apply Hb in X; discriminate).
              clear -D NF. induction (r_cells r) as [|c cs IHc]; [destruct NF; constructor|].
              destruct (D c (or_introl eq_refl)) as [X|X]; [|left; exact X]. right. apply IHc.
              ** intros c' I. apply D. right. exact I.
              ** intros Y. apply NF. constructor; assumption.
      * (* not in a table *)
        assert (Qt : forall a b, B "<tr>" = a ++ b -> b <> [] -> quiet false (b ++ (inner r ++ B "</tr>") ++ write_items l)).
        { change (B "<tr>") with ("<"%char :: B "tr>"). apply quiet_cons; [unfold quiet; cbn; auto|].
          apply quiet_no_lt. cbn. intuition discriminate. }
        change ("<"%char :: B "tr>" ++ (inner r ++ B "</tr>") ++ write_items l) with (B "<tr>" ++ (inner r ++ B "</tr>") ++ write_items l).
        destruct (rows_copy false (B "<tr>") _ Qt (S fuel) w) as (fuel' & w1 & L1 & E1 & O1 & C1 & F1).
        { rewrite app_length. change (length (B "<tr>")) with 4. lia. }
        rewrite E1. destruct (Kp false w1 fuel') as (w' & o & E & F' & W & O).
        -- apply F1; [exact F|]. change (length (B "<tr>")) with 4. lia.
        -- exact O1.
        -- exact C1.
        -- rewrite app_length in L1. exact L1.
        -- exists w', (TheRow r :: o). split; [exact E|]. split; [exact F'|]. split; [|exact O]. apply ws_keep; [left; reflexivity|exact W].
Qed.
Lemma rows_exact l : items_ok l -> exists w o, remove_separator_rows (write_items l) = Some w /\ w_oob w = false /\
  without_separators false l o /\ w_out w = write_items o.
Proof.
  intros OK. unfold remove_separator_rows.
  destruct (rows_ok l (S (length (write_items l))) false (w_new (length (write_items l) + 1) 0)) as (w & o & E & F & W & O);
    [exact OK|lia|apply new_fits|cbn [w_new w_out w_cap length]; lia|].
  exists w, o. split; [exact E|]. split; [apply F|]. split; [exact W|exact O].
Qed.
Lemma without_fun t l o : without_separators t l o -> forall o', without_separators t l o' -> o = o'.
Proof.
  induction 1 as [t|t c l o W IH|t c l o W IH|t l o W IH|r l o D W IH|t r l o K W IH]; intros o' W'; inversion W'; subst;
    try reflexivity; try (f_equal; apply IH; assumption); try (apply IH; assumption).
  - exfalso. match goal with H : _ \/ _ |- _ => destruct H as [X|X]; [discriminate|] end.
    apply Exists_exists in X as (c & I & N). rewrite Forall_forall in D. exact (N (D c I)).
  - exfalso. destruct K as [K|K]; [discriminate|]. apply Exists_exists in K as (c & I & N).
    match goal with H : Forall _ _ |- _ => rewrite Forall_forall in H; exact (N (H c I)) end.
Qed.

(** ** Heading levels *)
Lemma level_text_digit n : 1 <= n <= 6 -> level_text n = [digit_of n] /\ level_digit (digit_of n) = true /\ level_of (digit_of n) = n
  /\ digit_of n <> ">"%char.
Proof.
  intros L. assert (H : n = 1 \/ n = 2 \/ n = 3 \/ n = 4 \/ n = 5 \/ n = 6) by lia.
  destruct H as [->|[->|[->|[->|[->| ->]]]]]; (split; [reflexivity|split; [reflexivity|split; [reflexivity|discriminate]]]).
Qed.
Lemma level_digit_range c : level_digit c = true -> 1 <= level_of c <= 6 /\ digit_of (level_of c) = c.
Proof.
  intros H.
  assert (A : forallb (fun c => negb (level_digit c) || (Nat.leb 1 (level_of c) && Nat.leb (level_of c) 6 && ceq (digit_of (level_of c)) c)) all_bytes = true)
    by (vm_compute; reflexivity).
  rewrite forallb_forall in A. specialize (A c (all_bytes_complete c)). rewrite H in A. cbn [negb orb] in A.
  rewrite !andb_true_iff, !Nat.leb_le, ceq_eq in A. lia || intuition.
Qed.

Definition tag_level (t : htok) : nat := match t with HByte _ => 0 | HOpen n _ => n | HClose n => n end.
Definition is_close (t : htok) : bool := match t with HClose _ => true | _ => false end.
Lemma htag_read t r : htag t -> header_tag (write_htok t ++ r) = Some (is_close t, tag_level t) /\
  strchr ">" (write_htok t ++ r) = Some (length (write_htok t) - 1) /\ 4 <= length (write_htok t).
Proof.
  destruct t as [c|n a|n]; cbn [htag write_htok is_close tag_level]; [intros []| |].
  - intros (Ln & Na & Ha). destruct (level_text_digit n Ln) as (E & D1 & D2 & D3). rewrite E.
    change (B "<h" ++ [digit_of n] ++ a ++ B ">") with ("<"%char :: "h"%char :: digit_of n :: a ++ [">"%char]).
    split; [|split].
    + unfold header_tag. cbn [at_ nth app ceq]. change (ceq "<" "<") with true. change (ceq "h" "/") with false.
      change (ceq "h" "h") with true. cbn [andb]. rewrite D1, D2. cbn [andb].
      destruct a as [|x a]; [reflexivity|]. cbn [app nth]. rewrite (Ha x a eq_refl), orb_true_r. reflexivity.
    + cbn [app length]. rewrite <- app_assoc. cbn [app].
      change ("<"%char :: "h"%char :: digit_of n :: a ++ ">"%char :: r) with (("<"%char :: "h"%char :: digit_of n :: a) ++ ">"%char :: r).
      rewrite strchr_first.
      * f_equal. cbn [length]. rewrite app_length. cbn [length]. lia.
      * cbn [In]. intros [I|[I|[I|I]]]; try discriminate; [congruence|exact (Na I)].
    + cbn [length]. rewrite app_length. cbn [length]. lia.
  - intros Ln. destruct (level_text_digit n Ln) as (E & D1 & D2 & D3). rewrite E.
    change (B "</h" ++ [digit_of n] ++ B ">") with ["<"%char; "/"%char; "h"%char; digit_of n; ">"%char].
    split; [|split].
    + unfold header_tag. cbn [at_ nth app]. change (ceq "<" "<") with true. change (ceq "/" "/") with true.
      change (ceq "h" "h") with true. change (ceq ">" ">") with true. cbn [andb]. rewrite D1, D2. reflexivity.
    + change (["<"%char; "/"%char; "h"%char; digit_of n; ">"%char] ++ r) with (["<"%char; "/"%char; "h"%char; digit_of n] ++ ">"%char :: r).
      rewrite strchr_first; [reflexivity|]. cbn [In]. intros [I|[I|[I|[I|[]]]]]; congruence.
    + cbn [length]. lia.
Qed.

Lemma at_cons (c : ascii) s k x : at_ s k = x -> x <> NUL -> exists a b, s = a ++ x :: b /\ length a = k.
Proof.
  intros <- N. unfold at_ in *. exists (firstn k s), (skipn (S k) s).
  assert (L : k < length s). { destruct (Nat.lt_ge_cases k (length s)) as [L|L]; [exact L|]. rewrite nth_overflow in N by exact L. congruence. }
  split; [|apply firstn_length_le; lia]. rewrite <- (firstn_skipn k s) at 1. f_equal.
  clear -L. revert s L. induction k as [|k IH]; intros [|y s] L; cbn [length] in L; try lia; [reflexivity|]. cbn [skipn nth]. apply IH. lia.
Qed.
Lemma header_tag_tok s b h e : header_tag s = Some (b, h) -> strchr ">" s = Some e ->
  exists t r, htag t /\ s = write_htok t ++ r.
Proof.
  unfold header_tag. intros H E.
  destruct (ceq (at_ s 0) "<") eqn:E0; [|discriminate]. apply ceq_eq in E0.
  destruct s as [|c0 s]; [discriminate|]. cbn [at_ nth] in E0. subst c0.
  destruct (ceq (at_ ("<"%char :: s) 1) "/" && ceq (at_ ("<"%char :: s) 2) "h" && level_digit (at_ ("<"%char :: s) 3) && ceq (at_ ("<"%char :: s) 4) ">") eqn:C.
  - rewrite !andb_true_iff, !ceq_eq in C. destruct C as [[[C1 C2] C3] C4].
    destruct s as [|c1 [|c2 [|c3 [|c4 s]]]]; cbn [at_ nth] in *; try discriminate.
    subst c1 c2 c4. destruct (level_digit_range c3 C3) as [R D]. exists (HClose (level_of c3)), s. split; [exact R|].
    cbn [write_htok]. rewrite (proj1 (level_text_digit _ R)), D. reflexivity.
  - clear C. destruct (ceq (at_ ("<"%char :: s) 1) "h" && level_digit (at_ ("<"%char :: s) 2) && (ceq (at_ ("<"%char :: s) 3) ">" || isspace (at_ ("<"%char :: s) 3))) eqn:C; [|discriminate].
    rewrite !andb_true_iff, ceq_eq in C. destruct C as [[C1 C2] C3].
    destruct s as [|c1 [|c2 s]]; cbn [at_ nth] in *; try discriminate. subst c1.
    destruct (level_digit_range c2 C2) as [R D].
    assert (N2 : c2 <> ">"%char) by (intros ->; discriminate).
    cbn [strchr] in E. change (ceq ">" "<") with false in E. change (ceq ">" "h") with false in E.
    replace (ceq ">" c2) with false in E by (symmetry; apply ceq_neq; congruence).
    destruct (strchr ">" s) as [k|] eqn:K; [|discriminate].
    apply strchr_some in K as (a & r & -> & L & Na).
    exists (HOpen (level_of c2) a), r. split.
    + split; [exact R|]. split; [exact Na|]. intros x y ->. cbn [app nth] in C3.
      apply orb_true_iff in C3 as [C3|C3]; [|exact C3]. apply ceq_eq in C3. subst x. destruct Na. left. reflexivity.
    + cbn [write_htok]. rewrite (proj1 (level_text_digit _ R)), D. cbn [B list_ascii_of_string app]. rewrite <- app_assoc. reflexivity.
Qed.

(** There is always room. *)
Definition roomy (n : nat) (w : wr) : Prop :=
  w_oob w = false /\ w_rem w = w_cap w - length (w_out w) /\ length (w_out w) + n <= w_cap w.
Lemma spend_roomy x n w : roomy (length x + n) w -> roomy n (w_spend x w).
Proof.
  intros (O & R & C). unfold roomy, w_spend. cbn [w_set_rem w_store w_oob w_rem w_cap w_out]. rewrite O, app_length.
  split; [|split; lia]. destruct x as [|c x]; [reflexivity|]. cbn [orb]. apply Nat.ltb_ge. lia.
Qed.
Lemma spend_out x w : w_out (w_spend x w) = w_out w ++ x.
Proof. reflexivity. Qed.
Lemma put_char_roomy c n w : roomy (1 + n) w -> roomy n (put_char c w) /\ w_out (put_char c w) = w_out w ++ [c].
Proof.
  intros Rm. pose proof Rm as (O & R & C). unfold put_char. destruct (Nat.ltb_spec 0 (w_rem w)); [|lia].
  split; [apply (spend_roomy [c]), Rm|reflexivity].
Qed.
Lemma w_put_roomy c n w : roomy (1 + n) w -> roomy n (w_put c w) /\ w_out (w_put c w) = w_out w ++ [c].
Proof.
  intros Rm. pose proof Rm as (O & R & C). unfold w_put. destruct (Nat.ltb_spec 0 (w_rem w)); [|lia].
  split; [|reflexivity]. apply (spend_roomy [c]) in Rm. exact Rm.
Qed.

Lemma clamp_shift b h : 1 <= b -> 1 <= h <= 6 -> clamp (h + (b - 1)) = shift b h /\ 1 <= shift b h <= 6.
Proof.
  intros L H. unfold clamp, shift. destruct (Nat.ltb_spec 6 (h + (b - 1))), (Nat.ltb_spec (h + (b - 1)) 1); lia.
Qed.

Lemma levels_byte fuel b c s w : header_tag (c :: s) = None \/ strchr ">" (c :: s) = None ->
  exists w', levels_loop (S fuel) b (c :: s) w = levels_loop fuel b s w' /\ (w' = put_char c w \/ w' = w_put c w).
Proof.
  intros H. cbn [levels_loop]. destruct (header_tag (c :: s)) as [[cl h]|]; [|eauto].
  destruct H as [H|H]; [discriminate|]. rewrite H. eauto.
Qed.
Lemma htag_level t : htag t -> 1 <= tag_level t <= 6.
Proof. destruct t; cbn [htag tag_level]; [intros []|tauto|tauto]. Qed.

Lemma levels_tag fuel b t r w : htag t -> 1 <= b -> roomy (length (write_htok t) + length r + 100) w ->
  exists w', levels_loop (S fuel) b (write_htok t ++ r) w = levels_loop fuel b r w' /\ roomy (length r + 100) w' /\
    w_out w' = w_out w ++ write_htok (shift_htok b t).
Proof.
  intros T Lb Rm. destruct (htag_read t r T) as (H1 & H2 & H3). pose proof (htag_level t T) as Lv.
  pose proof Rm as (O & R & C). destruct (clamp_shift b (tag_level t) Lb Lv) as [Cl Sh].
  destruct (write_htok t ++ r) as [|c0 s0] eqn:E; [destruct (write_htok t); [cbn in H3; lia|discriminate]|].
  cbn [levels_loop]. rewrite H1, H2, Cl. rewrite <- E. set (e := length (write_htok t) - 1) in *.
  assert (Le : S e = length (write_htok t)) by (unfold e; lia).
  assert (Rest : skipn (S e) (write_htok t ++ r) = r).
  { rewrite Le, skipn_app, skipn_all, Nat.sub_diag. reflexivity. }
  rewrite Rest. destruct (Nat.eqb_spec (shift b (tag_level t)) (tag_level t)) as [Q|Q].
  - destruct (Nat.ltb_spec (e + 1) (w_rem w)); [|lia].
    replace (firstn (e + 1) (write_htok t ++ r)) with (write_htok t).
    2: { replace (e + 1) with (length (write_htok t)) by lia. rewrite firstn_app, firstn_all, Nat.sub_diag. cbn [firstn]. rewrite app_nil_r. reflexivity. }
    eexists. split; [reflexivity|]. split.
    + apply spend_roomy. split; [exact O|]. split; [exact R|]. lia.
    + rewrite spend_out. f_equal. destruct t; cbn [shift_htok tag_level] in *; [destruct T|rewrite Q; reflexivity|rewrite Q; reflexivity].
  - destruct (Nat.ltb_spec (w_rem w) (e + 10)); [lia|].
    destruct t as [c|n a|n]; cbn [is_close tag_level shift_htok] in *; [destruct T| |].
    + destruct T as (Ln & Na & Ha). cbn [write_htok]. rewrite (proj1 (level_text_digit _ Sh)).
      assert (Ea : e = 3 + length a).
      { unfold e. cbn [write_htok]. rewrite (proj1 (level_text_digit _ Ln)), !app_length. cbn. lia. }
      replace (firstn (e - 3) (skipn 3 ((B "<h" ++ level_text n ++ a ++ B ">") ++ r))) with a.
      2: { rewrite (proj1 (level_text_digit _ Ln)). cbn [B list_ascii_of_string app skipn]. replace (e - 3) with (length a) by lia.
           rewrite <- app_assoc. rewrite firstn_app, firstn_all, Nat.sub_diag. cbn [firstn]. rewrite app_nil_r. reflexivity. }
      set (w2 := w_spend [digit_of (shift b n)] (w_spend (B "h") (w_spend (B "<") w))).
      assert (R2 : roomy (length a + (1 + (length r + 100))) w2).
      { unfold w2. apply (spend_roomy [_]), (spend_roomy (B "h")), (spend_roomy (B "<")).
        split; [exact O|]. split; [exact R|]. cbn [length B list_ascii_of_string]. cbn [write_htok] in Le. lia. }
      assert (O2 : w_out w2 = w_out w ++ ["<"%char; "h"%char; digit_of (shift b n)]).
      { unfold w2. rewrite !spend_out, <- !app_assoc. reflexivity. }
      clearbody w2. pose proof R2 as (_ & R2' & C2).
      set (w3 := if (0 <? length a) && (length a <=? w_rem w2) then w_spend a w2 else w2).
      assert (R3 : roomy (1 + (length r + 100)) w3 /\ w_out w3 = w_out w2 ++ a).
      { unfold w3. destruct (Nat.ltb_spec 0 (length a)) as [P|P].
        - destruct (Nat.leb_spec (length a) (w_rem w2)); [|lia]. cbn [andb]. split; [apply spend_roomy, R2|reflexivity].
        - destruct a; [|cbn [length] in P; lia]. cbn [andb length] in *. split; [exact R2|rewrite app_nil_r; reflexivity]. }
      destruct R3 as [R3 O3]. eexists. split; [reflexivity|]. split; [apply (spend_roomy (B ">")), R3|].
      rewrite spend_out, O3, O2, <- !app_assoc. reflexivity.
    + cbn [write_htok]. rewrite (proj1 (level_text_digit _ Sh)). eexists. split; [reflexivity|]. split.
      * apply spend_roomy. split; [exact O|]. split; [exact R|]. rewrite !app_length. cbn [length B list_ascii_of_string].
        cbn [write_htok] in C. rewrite (proj1 (level_text_digit n T)), !app_length in C. cbn [length B list_ascii_of_string] in C. lia.
      * rewrite spend_out. reflexivity.
Qed.

Lemma byte_no_tag c l : (forall t' r, htag t' -> c :: write_htoks l <> write_htok t' ++ r) ->
  header_tag (c :: write_htoks l) = None \/ strchr ">" (c :: write_htoks l) = None.
Proof.
  intros H. destruct (header_tag (c :: write_htoks l)) as [[cl h]|] eqn:E1; [|auto].
  destruct (strchr ">" (c :: write_htoks l)) as [e|] eqn:E2; [|auto].
  destruct (header_tag_tok _ _ _ _ E1 E2) as (t & r & T & E). destruct (H t r T E).
Qed.

Lemma levels_ok b : 1 <= b -> forall l fuel w, htoks_ok l -> length (write_htoks l) < fuel ->
  roomy (length (write_htoks l) + 100) w ->
  exists w', levels_loop fuel b (write_htoks l) w = Some w' /\ w_oob w' = false /\
    w_out w' = w_out w ++ write_htoks (map (shift_htok b) l).
Proof.
  intros Lb. induction l as [|t l IH]; intros fuel w OK L Rm; (destruct fuel as [|fuel]; [lia|]).
  - cbn [write_htoks map concat levels_loop]. eexists. split; [reflexivity|]. destruct Rm as (O & R & C). cbn in C. split.
    + unfold w_term. cbn [w_oob]. rewrite O. cbn [orb]. apply Nat.leb_gt. lia.
    + cbn [w_term w_out]. rewrite app_nil_r. reflexivity.
  - destruct OK as [Ht OK]. change (write_htoks (t :: l)) with (write_htok t ++ write_htoks l) in *.
    change (write_htoks (map (shift_htok b) (t :: l))) with (write_htok (shift_htok b t) ++ write_htoks (map (shift_htok b) l)).
    rewrite app_length in L, Rm.
    assert (Tg : (exists c, t = HByte c) \/ htag t) by (destruct t; [left; eauto|right; exact Ht|right; exact Ht]).
    destruct Tg as [(c & ->)|Tg].
    + cbn [write_htok app length shift_htok] in *. destruct (levels_byte fuel b c (write_htoks l) w (byte_no_tag c l Ht)) as (w1 & -> & W1).
      assert (R1 : roomy (length (write_htoks l) + 100) w1 /\ w_out w1 = w_out w ++ [c]).
      { destruct W1 as [-> | ->]; [apply put_char_roomy|apply w_put_roomy]; exact Rm. }
      destruct R1 as [R1 O1]. destruct (IH fuel w1 OK) as (w' & E & O & Eo); [lia|exact R1|].
      exists w'. split; [exact E|]. split; [exact O|]. rewrite Eo, O1, <- app_assoc. reflexivity.
    + destruct (levels_tag fuel b t (write_htoks l) w Tg Lb) as (w1 & -> & R1 & O1); [exact Rm|].
      destruct (htag_read t [] Tg) as (_ & _ & L4).
      destruct (IH fuel w1 OK) as (w' & E & O & Eo); [lia|exact R1|].
      exists w'. split; [exact E|]. split; [exact O|]. rewrite Eo, O1, <- app_assoc. reflexivity.
Qed.

Lemma shift_one l : htoks_ok l -> map (shift_htok 1) l = l.
Proof.
  induction l as [|t l IH]; intros OK; [reflexivity|]. destruct OK as [Ht OK]. cbn [map]. rewrite IH by exact OK. f_equal.
  destruct t as [c|n a|n]; cbn [shift_htok htag] in *; [reflexivity| |]; unfold shift; f_equal; lia.
Qed.
Lemma levels_exact b l : htoks_ok l -> (1 <= b <= 6)%Z ->
  exists w, adjust_levels b (write_htoks l) = Some w /\ w_oob w = false /\
    w_out w = write_htoks (map (shift_htok (Z.to_nat b)) l).
Proof.
  intros OK R. unfold adjust_levels. destruct (Z.eqb_spec b 1) as [->|N].
  - rewrite orb_true_r. eexists. split; [reflexivity|]. split.
    + apply term_fits; [apply store_fits; [apply new_fits|]|]; cbn [w_new w_store w_out w_cap length app]; lia.
    + cbn [w_term w_store w_new w_out app]. change (Z.to_nat 1) with 1. rewrite shift_one by exact OK. reflexivity.
  - destruct (Z.leb_spec b 0); [lia|]. destruct (Z.ltb_spec 6 b); [lia|]. cbn [orb].
    destruct (levels_ok (Z.to_nat b) ltac:(lia) l (S (length (write_htoks l)))
      (w_new (length (write_htoks l) + 1024) (length (write_htoks l) + 1024)) OK) as (w & E & O & Eo).
    + lia.
    + split; [reflexivity|]. cbn [w_new w_rem w_cap w_out length]. lia.
    + exists w. split; [exact E|]. split; [exact O|exact Eo].
Qed.
Lemma levels_off b html : (b <= 0 \/ 6 < b)%Z ->
  exists w, adjust_levels b html = Some w /\ w_oob w = false /\ w_out w = html.
Proof.
  intros R. unfold adjust_levels. replace ((b <=? 0)%Z || (6 <? b)%Z || (b =? 1)%Z) with true.
  2: { destruct (Z.leb_spec b 0), (Z.ltb_spec 6 b); try reflexivity; lia. }
  eexists. split; [reflexivity|]. split; [|reflexivity].
  apply term_fits; [apply store_fits; [apply new_fits|]|]; cbn [w_new w_store w_out w_cap length app]; lia.
Qed.
Lemma htoks_exists n : forall s, length s <= n -> exists l, htoks_ok l /\ write_htoks l = s.
Proof.
  induction n as [|n IH]; intros s L.
  - destruct s; [|cbn [length] in L; lia]. exists []. split; [exact I|reflexivity].
  - destruct s as [|c s]; [exists []; split; [exact I|reflexivity]|]. cbn [length] in L.
    assert (D : (exists t r, htag t /\ c :: s = write_htok t ++ r) \/ (forall t r, htag t -> c :: s <> write_htok t ++ r)).
    { destruct (header_tag (c :: s)) as [[cl h]|] eqn:E1.
      - destruct (strchr ">" (c :: s)) as [e|] eqn:E2.
        + left. eapply header_tag_tok; eassumption.
        + right. intros t r T E. destruct (htag_read t r T) as (_ & X & _). rewrite <- E in X. congruence.
      - right. intros t r T E. destruct (htag_read t r T) as (X & _). rewrite <- E in X. congruence. }
    destruct D as [(t & r & T & E)|D].
    + destruct (htag_read t r T) as (_ & _ & L4). assert (Lr : length r <= n).
      { apply (f_equal (@length ascii)) in E. rewrite app_length in E. cbn [length] in E. lia. }
      destruct (IH r Lr) as (l & OK & El). exists (t :: l). split.
      * split; [|exact OK]. destruct t; [destruct T|exact T|exact T].
      * change (write_htoks (t :: l)) with (write_htok t ++ write_htoks l). rewrite El. symmetry. exact E.
    + destruct (IH s) as (l & OK & El); [lia|]. exists (HByte c :: l). split.
      * split; [|exact OK]. rewrite El. exact D.
      * change (write_htoks (HByte c :: l)) with (c :: write_htoks l). rewrite El. reflexivity.
Qed.
Lemma htoks_of s : exists l, htoks_ok l /\ write_htoks l = s.
Proof. exact (htoks_exists (length s) s (le_n _)). Qed.
Lemma nested_shift b l : nested l -> nested (map (shift_htok b) l).
Proof.
  induction 1 as [|c l N IH|n a l m N1 IH1 N2 IH2]; cbn [map shift_htok]; [constructor|constructor; exact IH|].
  rewrite map_app. cbn [map shift_htok]. constructor; assumption.
Qed.

(** ** Quotes *)
Definition pick (q : quotes) (k : quote) : str :=
  match k with DOpen => q_do q | DClose => q_dc q | SOpen => q_so q | SClose => q_sc q end.
Lemma quote_read q t r : (forall c, t <> QByte c) ->
  exists k, (t = Entity k \/ t = Curly k) /\ quote_at q (write_qtok t ++ r) = Some (pick q k, length (write_qtok t)).
Proof.
  intros N. destruct t as [c|[]|[]]; [destruct (N c eq_refl)|..]; eexists; (split; [eauto|reflexivity]).
Qed.
Lemma quote_found q s x : quote_at q s = Some x -> exists k r, s = write_qtok (Entity k) ++ r \/ s = write_qtok (Curly k) ++ r.
Proof.
  unfold quote_at. intros H.
  repeat match type of H with
  | (if starts ?l s then _ else _) = _ =>
      let E := fresh "E" in destruct (starts l s) eqn:E;
      [apply starts_spec in E as (r & ->);
       first [ exists DOpen, r; left; reflexivity | exists DClose, r; left; reflexivity
             | exists SOpen, r; left; reflexivity | exists SClose, r; left; reflexivity
             | exists DOpen, r; right; reflexivity | exists DClose, r; right; reflexivity
             | exists SOpen, r; right; reflexivity | exists SClose, r; right; reflexivity ] |]
  end. discriminate.
Qed.
Lemma quotes_ok q l : forall fuel w, qtoks_ok l -> length (write_qtoks l) < fuel ->
  roomy (length (concat (map (quoted (pick q)) l)) + 1) w ->
  exists w', quotes_loop fuel q (write_qtoks l) w = Some w' /\ w_oob w' = false /\
    w_out w' = w_out w ++ concat (map (quoted (pick q)) l).
Proof.
  induction l as [|t l IH]; intros fuel w OK L Rm; (destruct fuel as [|fuel]; [lia|]).
  - cbn [write_qtoks map concat quotes_loop]. eexists. split; [reflexivity|]. destruct Rm as (O & R & C). cbn in C. split.
    + unfold w_term. cbn [w_oob]. rewrite O. cbn [orb]. apply Nat.leb_gt. lia.
    + cbn [w_term w_out]. rewrite app_nil_r. reflexivity.
  - change (write_qtoks (t :: l)) with (write_qtok t ++ write_qtoks l) in *.
    cbn [map concat] in Rm |- *. rewrite app_length in L, Rm.
    assert (D : (exists c, t = QByte c) \/ forall c, t <> QByte c) by (destruct t; [left; eauto|right; discriminate|right; discriminate]).
    destruct D as [(c & ->)|D].
    + destruct OK as [Hc OK]. cbn [write_qtok app length quoted quotes_loop] in *.
      assert (Q : quote_at q (c :: write_qtoks l) = None).
      { destruct (quote_at q (c :: write_qtoks l)) as [x|] eqn:E; [|reflexivity].
        apply quote_found in E as (k & r & [E|E]); [destruct (proj1 (Hc k r) E)|destruct (proj2 (Hc k r) E)]. }
      rewrite Q. destruct (put_char_roomy c (length (concat (map (quoted (pick q)) l)) + 1) w) as [R1 O1]; [exact Rm|].
      destruct (IH fuel (put_char c w) OK) as (w' & E & O & Eo); [lia|exact R1|].
      exists w'. split; [exact E|]. split; [exact O|]. rewrite Eo, O1, <- app_assoc. reflexivity.
    + destruct (quote_read q t (write_qtoks l) D) as (k & Tk & Q).
      assert (OK' : qtoks_ok l) by (destruct t; [destruct (D c eq_refl)|exact OK|exact OK]).
      assert (Eq : quoted (pick q) t = pick q k) by (destruct Tk as [-> | ->]; reflexivity).
      assert (Lt : 1 <= length (write_qtok t)) by (destruct t as [|[]|[]]; cbn; lia).
      destruct (write_qtok t ++ write_qtoks l) as [|c0 s0] eqn:Es.
      { destruct (write_qtok t); [cbn in Lt; lia|discriminate]. }
      cbn [quotes_loop]. rewrite Q. rewrite <- Es. rewrite Eq in *. pose proof Rm as (O & R & C).
      destruct (Nat.ltb_spec (length (pick q k)) (w_rem w)); [|lia].
      rewrite skipn_app, skipn_all, Nat.sub_diag. cbn [app skipn].
      destruct (IH fuel (w_spend (pick q k) w) OK') as (w' & E & O' & Eo); [lia| |].
      * apply spend_roomy. rewrite Nat.add_assoc. exact Rm.
      * exists w'. split; [exact E|]. split; [exact O'|]. rewrite Eo, spend_out, <- app_assoc. reflexivity.
Qed.
Lemma qtoks_exists n : forall s, length s <= n -> exists l, qtoks_ok l /\ write_qtoks l = s.
Proof.
  set (q0 := Quotes [] [] [] []).
  induction n as [|n IH]; intros s L.
  - destruct s; [|cbn [length] in L; lia]. exists []. split; [exact I|reflexivity].
  - destruct s as [|c s]; [exists []; split; [exact I|reflexivity]|]. cbn [length] in L.
    destruct (quote_at q0 (c :: s)) as [x|] eqn:Q.
    + apply quote_found in Q as (k & r & E).
      assert (T : exists t, c :: s = write_qtok t ++ r /\ (t = Entity k \/ t = Curly k)) by (destruct E as [E|E]; eauto).
      destruct T as (t & E' & T). assert (Lr : length r <= n).
      { apply (f_equal (@length ascii)) in E'. rewrite app_length in E'. cbn [length] in E'.
        assert (1 <= length (write_qtok t)) by (destruct T as [-> | ->]; destruct k; cbn; lia). lia. }
      destruct (IH r Lr) as (l & OK & El). exists (t :: l). split; [destruct T as [-> | ->]; exact OK|].
      change (write_qtoks (t :: l)) with (write_qtok t ++ write_qtoks l). rewrite El. symmetry. exact E'.
    + destruct (IH s) as (l & OK & El); [lia|]. exists (QByte c :: l). split.
      * split; [|exact OK]. rewrite El. intros k r. split; intros E; rewrite E in Q; destruct k; discriminate.
      * change (write_qtoks (QByte c :: l)) with (c :: write_qtoks l). rewrite El. reflexivity.
Qed.
Lemma qtoks_of s : exists l, qtoks_ok l /\ write_qtoks l = s.
Proof. exact (qtoks_exists (length s) s (le_n _)). Qed.
Lemma spells_filter l w : spells l w -> map tolower (filter (fun c => negb (isspace c)) l) = w.
Proof. induction 1 as [|c l w S H IH|c l w S H IH]; cbn [filter]; [reflexivity| |]; rewrite S; cbn [negb map]; congruence. Qed.
Lemma filter_spells l : spells l (map tolower (filter (fun c => negb (isspace c)) l)).
Proof.
  induction l as [|c l IH]; [constructor|]. cbn [filter]. destruct (isspace c) eqn:S; cbn [negb map]; constructor; assumption.
Qed.
Lemma firstn_short (x w : str) n : firstn n x = w -> length w < n -> x = w.
Proof.
  intros <- L. rewrite firstn_length in L. rewrite firstn_all2; [reflexivity|]. lia.
Qed.
Lemma quotes_known name lang l : In (name, lang) language_names -> spells l (B name) ->
  exists q, quotes_for (language l) = Some q /\ forall k, language_quotes lang k = Some (pick q k).
Proof.
  intros I S. apply spells_filter in S. unfold language. rewrite S. cbn in I.
  repeat (destruct I as [I|I]; [injection I as <- <-; eexists; split; [reflexivity|intros []; reflexivity]|]). destruct I.
Qed.
Lemma quotes_unknown l q : quotes_for (language l) = Some q -> exists name lang, In (name, lang) language_names /\ spells l (B name).
Proof.
  unfold quotes_for. intros H. set (x := language l) in *.
  assert (K : forall name, seq_ x (B name) = true -> length (B name) < 63 -> spells l (B name)).
  { intros name E L. apply seq_eq in E. unfold x, language in E. apply firstn_short in E; [|exact L]. rewrite <- E. apply filter_spells. }
  repeat match type of H with
  | (if _ then None else _) = _ => match type of H with (if ?b then _ else _) = _ => destruct b; [discriminate|] end
  | (if seq_ x (B ?a) || seq_ x (B ?b) then Some _ else _) = _ =>
      destruct (seq_ x (B a)) eqn:?E; [exists a; eexists; split; [|apply K; [assumption|cbn; lia]]; cbn; tauto|];
      destruct (seq_ x (B b)) eqn:?E; [exists b; eexists; split; [|apply K; [assumption|cbn; lia]]; cbn; tauto|];
      cbn [orb] in H
  | (if seq_ x (B ?a) then Some _ else _) = _ =>
      destruct (seq_ x (B a)) eqn:?E; [exists a; eexists; split; [|apply K; [assumption|cbn; lia]]; cbn; tauto|]
  end.
  discriminate.
Qed.
Lemma map_quoted_ext f g l : (forall k, f k = g k) -> concat (map (quoted f) l) = concat (map (quoted g) l).
Proof. intros H. f_equal. apply map_ext. intros []; cbn [quoted]; auto. Qed.
Lemma quotes_exact name lang l f d : In (name, lang) language_names -> spells l (B name) ->
  (forall k, language_quotes lang k = Some (f k)) -> qtoks_ok d ->
  length (concat (map (quoted f) d)) < 2 * length (write_qtoks d) ->
  exists w, adjust_quotes l (write_qtoks d) = Some w /\ w_oob w = false /\ w_out w = concat (map (quoted f) d).
Proof.
  intros I S F OK L. destruct (quotes_known name lang l I S) as (q & E & K).
  rewrite (map_quoted_ext f (pick q)) in * by (intros k; specialize (F k); specialize (K k); congruence).
  unfold adjust_quotes. rewrite E.
  destruct (quotes_ok q d (Datatypes.S (length (write_qtoks d)))
    (w_new (length (write_qtoks d) * 2) (length (write_qtoks d) * 2)) OK) as (w & E1 & O & Eo).
  - lia.
  - split; [reflexivity|]. cbn [w_new w_rem w_cap w_out length]. lia.
  - exists w. split; [exact E1|]. split; [exact O|exact Eo].
Qed.
Lemma quotes_off l html : (forall name lang, In (name, lang) language_names -> ~ spells l (B name)) ->
  exists w, adjust_quotes l html = Some w /\ w_oob w = false /\ w_out w = html.
Proof.
  intros H. unfold adjust_quotes. destruct (quotes_for (language l)) as [q|] eqn:E.
  - apply quotes_unknown in E as (name & lang & I & S). destruct (H name lang I S).
  - eexists. split; [reflexivity|]. split; [|reflexivity].
    apply term_fits; [apply store_fits; [apply new_fits|]|]; cbn [w_new w_store w_out w_cap length app]; lia.
Qed.
