(** Lemmas for C223-C229. *)
From Verif Require Import Base BaseL M_Pass S_Pass L_Pass M_WrapData M_Wrap S_Wrap.

Definition code_part : str :=
  code_style ++ (B "    /* Pygments classes */" ++ [NL]) ++ pygments ++ (B "    /* Skylighting classes */" ++ [NL]) ++ skylighting ++ line_numbers.

(** ** Style elements *)

Lemma styled_check (s x : str) : s = held x -> forallb (fun c => negb (ceq c "<")) x = true -> styled s.
Proof.
  intros E F. exists x. split; [exact E|]. intro I. rewrite forallb_forall in F. specialize (F _ I). rewrite ceq_refl in F. discriminate F.
Qed.

Definition inner (s : str) : str := firstn (length s - 21) (skipn 10 s).

Lemma code_styled : styled code_part.
Proof. apply (styled_check _ (inner code_part)); vm_compute; reflexivity. Qed.

Lemma default_styled : styled default_style.
Proof. apply (styled_check _ (inner default_style)); vm_compute; reflexivity. Qed.

Lemma code_length : length code_part <= 8 * 1000 - 500.
Proof. apply Nat.leb_le. vm_compute. reflexivity. Qed.

Lemma default_length : length default_style <= 2000.
Proof. apply Nat.leb_le. vm_compute. reflexivity. Qed.

Global Opaque code_style pygments skylighting line_numbers default_style.

(** ** The buffer *)

Definition holds (o : option wr) (out : str) (r : nat) : Prop :=
  exists w, o = Some w /\ w_bad w = false /\ w_out w = out /\ length out + r < w_cap w.

Lemma emit_holds x w r : w_bad w = false -> length (w_out w) + (length x + r) < w_cap w -> holds (Some (emit x w)) (w_out w ++ x) r.
Proof.
  intros Bd L. exists (emit x w). unfold emit. cbn [w_bad w_out w_cap]. repeat split.
  - rewrite Bd. cbn [orb]. apply Nat.ltb_ge. lia.
  - rewrite app_length. lia.
Qed.

Lemma say_holds x o out r : holds o out (length x + r) -> holds (say x o) (out ++ x) r.
Proof.
  intros (w & -> & Bd & <- & L). cbn [say]. rewrite (proj2 (Nat.leb_gt _ _)) by (unfold left_; lia). apply emit_holds; assumption.
Qed.

Lemma more_holds n x o out r : holds o out (length x + r) -> holds (say_more n x o) (out ++ x) r.
Proof.
  intros (w & -> & Bd & <- & L). cbn [say_more]. rewrite (proj2 (Nat.leb_gt _ _)) by (unfold left_; lia). apply emit_holds; assumption.
Qed.

Lemma copy_holds x o out r : holds o out (length x + r) -> holds (copy x o) (out ++ x) r.
Proof.
  intros (w & -> & Bd & <- & L). cbn [copy]. unfold block. rewrite (proj2 (Nat.leb_gt _ _)) by (unfold left_; lia). apply emit_holds; assumption.
Qed.

Lemma links_holds ps : forall o out r, holds o out (length (concat (map linked ps)) + r) ->
  holds (fold_left (fun w p => say_more (length p + 100) (link_line p) w) ps o) (out ++ concat (map linked ps)) r.
Proof.
  induction ps as [|p ps IH]; intros o out r H; cbn [fold_left map concat].
  - rewrite app_nil_r. exact H.
  - rewrite app_assoc. apply IH. replace (link_line p) with (linked p) by (unfold linked, link_line, row; rewrite <- !app_assoc; reflexivity).
    apply more_holds. cbn [map concat] in H. rewrite app_length in H. rewrite Nat.add_assoc. exact H.
Qed.

Lemma links_length ps : length (concat (map linked ps)) <= fold_right (fun p k => length p + 50 + k) 0 ps.
Proof.
  induction ps as [|p ps IH]; cbn [map concat fold_right length]; [lia|].
  unfold linked at 1, row. rewrite !app_length. change (length (B "  <link rel=""stylesheet"" href=""")) with 31. change (length (B """>")) with 2. change (length [NL]) with 1. lia.
Qed.

(** ** What is kept of the content *)

Lemma at_starts x s k c r : starts x (skipn k s) = true -> x = c :: r -> at_ s k = c.
Proof.
  intros H ->. apply starts_spec in H. destruct H as [t E]. unfold at_.
  rewrite <- (firstn_skipn k s), E. cbn [app].
  assert (k <= length s) as L.
  { destruct (Nat.le_gt_cases k (length s)) as [?|G]; [assumption|]. rewrite skipn_all2 in E by lia. discriminate E. }
  rewrite app_nth2; rewrite firstn_length_le by exact L; [|lia]. rewrite Nat.sub_diag. reflexivity.
Qed.

Lemma skipn_next s : forall k (c : ascii) r, skipn k s = c :: r -> skipn (S k) s = r.
Proof.
  induction s as [|a s IH]; intros [|k] c r H; cbn [skipn] in *; try discriminate H.
  - injection H as _ ->. reflexivity.
  - exact (IH k c r H).
Qed.

Lemma body_none s : forall n, at_ s n <> "/"%char -> body_before n s = None.
Proof.
  induction n as [|j IH]; intro N; cbn [body_before]; [reflexivity|].
  destruct (starts (B "</body>") (skipn j s)) eqn:E.
  - exfalso. apply N. pose proof E as E'. apply starts_spec in E. destruct E as [t E]. cbn [B String.list_ascii_of_string app] in E.
    apply skipn_next in E.
    apply (at_starts (B "/body>") s (S j) "/"%char (B "body>")); [|reflexivity]. rewrite E. apply starts_spec. exists t. reflexivity.
  - destruct (negb (isspace (at_ s j)) && negb (ceq (at_ s j) ">")) eqn:F; [reflexivity|].
    apply IH. intro Q. rewrite Q in F. vm_compute in F. discriminate F.
Qed.

Lemma last_starts x s : forall n h, last_of n x s = Some h -> starts x (skipn h s) = true.
Proof.
  induction n as [|j IH]; intros h H; cbn [last_of] in H; [discriminate H|].
  destruct (starts x (skipn j s)) eqn:E; [injection H as <-; exact E|]. exact (IH _ H).
Qed.

Lemma kept_all s : kept s = length s.
Proof.
  unfold kept. destruct (last_of (length s) (B "</html>") s) as [h|] eqn:E; [|reflexivity].
  apply last_starts in E. rewrite body_none; [reflexivity|].
  rewrite (at_starts _ _ _ "<"%char (B "/html>") E eq_refl). discriminate.
Qed.

(** ** The document *)

Definition tail_of (footer : option str) : str := told footer (fun f => [NL] ++ f).

Lemma told_holds (p : option str) (f : str -> str) o out r : holds o out (length (told p f) + r) ->
  holds (match p with Some h => say (f h) o | None => o end) (out ++ told p f) r.
Proof. destruct p as [h|]; cbn [told]; intro H; [apply say_holds; exact H|]. rewrite app_nil_r. exact H. Qed.

Lemma holds_as o out out' r r' : holds o out r -> out = out' -> r = r' -> holds o out' r'.
Proof. intros H -> ->. exact H. Qed.

Definition sheets_part (css : option (list str)) : str := match css with None => default_style | Some ps => concat (map linked ps) end.
Definition body_part (hl : bool) (header : option str) : str :=
  told header (fun h => row (B "  " ++ h)) ++ row (B "</head>") ++ row (B "<body" ++ (if hl then B " class=""code-highlighted""" else []) ++ B ">") ++ row [].
Definition end_part (content : str) (footer : option str) : str :=
  content ++ tail_of footer ++ row [] ++ row (B "</body>") ++ row (B "</html>").

Lemma sheets_holds css o out r : holds o out (length (sheets_part css) + r) -> holds (say_sheets css o) (out ++ sheets_part css) r.
Proof. destruct css as [ps|]; intro H; [apply links_holds|apply say_holds]; exact H. Qed.

Lemma code_holds (hl : bool) o out r : holds o out (length (if hl then code_part else []) + r) ->
  holds (say_code hl o) (out ++ if hl then code_part else []) r.
Proof.
  destruct hl; intro H; [|rewrite app_nil_r; exact H].
  unfold code_part, say_code in *. cbv zeta. rewrite !app_length in H.
  rewrite app_assoc. rewrite app_assoc. rewrite app_assoc. rewrite app_assoc. rewrite app_assoc.
  apply more_holds, copy_holds, say_holds, copy_holds, say_holds, more_holds.
  eapply holds_as; [exact H|reflexivity|]. rewrite !app_length. lia.
Qed.

Lemma opening_holds l t o out r : holds o out (length (opening l t) + r) -> holds (say_opening l t o) (out ++ opening l t) r.
Proof.
  intro H. unfold say_opening. cbv zeta. eapply holds_as; [do 5 eapply say_holds; eapply holds_as; [exact H|reflexivity|]| |reflexivity].
  - unfold opening, row. rewrite !app_length. cbn [length B String.list_ascii_of_string]. lia.
  - unfold opening, row. rewrite <- !app_assoc. reflexivity.
Qed.

Lemma body_holds (hl : bool) header o out r : holds o out (length (body_part hl header) + r) -> holds (say_body hl header o) (out ++ body_part hl header) r.
Proof.
  intro H. unfold say_body. cbv zeta. eapply holds_as; [eapply say_holds; eapply (told_holds header (fun h => B "  " ++ h ++ [NL])); eapply holds_as; [exact H|reflexivity|]| |reflexivity].
  - unfold body_part, row. replace (told header (fun h => (B "  " ++ h) ++ [NL])) with (told header (fun h => B "  " ++ h ++ [NL])) by (destruct header; reflexivity).
    rewrite !app_length. cbn [length B String.list_ascii_of_string]. lia.
  - unfold body_part, row. replace (told header (fun h => (B "  " ++ h) ++ [NL])) with (told header (fun h => B "  " ++ h ++ [NL])) by (destruct header; reflexivity).
    rewrite <- !app_assoc. reflexivity.
Qed.

Lemma end_holds content footer o out r : holds o out (length (end_part content footer) + r) -> holds (say_end content footer o) (out ++ end_part content footer) r.
Proof.
  intro H. unfold say_end. cbv zeta. eapply holds_as; [eapply say_holds; eapply (told_holds footer (fun f => [NL] ++ f)); eapply say_holds; eapply holds_as; [exact H|reflexivity|]| |reflexivity].
  - unfold end_part, row, tail_of. rewrite !app_length. cbn [length B String.list_ascii_of_string]. lia.
  - unfold end_part, row, tail_of. rewrite <- !app_assoc. reflexivity.
Qed.

Lemma opening_length l t : length (opening l t) <= length l + length t + 300.
Proof. unfold opening, row. rewrite !app_length. cbn [length B String.list_ascii_of_string]. lia. Qed.

Lemma body_length hl header : length (body_part hl header) <= len_of header + 100.
Proof.
  unfold body_part, row. destruct hl, header; cbn [told len_of]; rewrite !app_length; cbn [length B String.list_ascii_of_string]; lia.
Qed.

Lemma end_length content footer : length (end_part content footer) <= length content + len_of footer + 100.
Proof.
  unfold end_part, row. destruct footer; cbn [tail_of told len_of]; rewrite !app_length; cbn [length B String.list_ascii_of_string]; lia.
Qed.

Lemma sheets_length css : length (sheets_part css) <= match css with None => 0 | Some ps => fold_right (fun p k => length p + 50 + k) 0 ps end + 2000.
Proof. pose proof default_length. destruct css as [ps|]; cbn [sheets_part]; [pose proof (links_length ps); lia|lia]. Qed.

Lemma hl_length (hl : bool) : length (if hl then code_part else []) <= (if hl then 8 * 1000 else 0).
Proof. pose proof code_length. destruct hl; [lia|]. apply Nat.le_refl. Qed.

Lemma wrap_spec content title css (hl : bool) header footer lang :
  wrap content title css hl header footer lang =
  Out (document (some_or (B "en") lang) (some_or (B "Document") title) (if hl then code_part else []) (sheets_part css) header hl content (tail_of footer)).
Proof.
  unfold wrap. cbv zeta. rewrite kept_all, firstn_all.
  change (or_else title (B "Document")) with (some_or (B "Document") title). change (or_else lang (B "en")) with (some_or (B "en") lang).
  generalize (some_or (B "en") lang) (some_or (B "Document") title). intros l t.
  pose proof (opening_length l t) as L1. pose proof (hl_length hl) as L2. pose proof (sheets_length css) as L3.
  pose proof (body_length hl header) as L4. pose proof (end_length content footer) as L5.
  match goal with |- match ?o with _ => _ end = Out ?d => assert (holds o d 0) as (w & -> & Bd & <- & L) end.
  2: { rewrite Bd. rewrite (proj2 (Nat.ltb_lt _ _)) by (unfold left_; lia). reflexivity. }
  eapply holds_as; [eapply end_holds, body_holds, sheets_holds, code_holds, opening_holds| |reflexivity].
  - eexists. split; [reflexivity|]. split; [reflexivity|]. split; [reflexivity|]. cbn [w_cap w_out length].
    revert L1 L2 L3 L4 L5.
    generalize (length (opening l t)) (length (if hl then code_part else [])) (length (sheets_part css)) (length (body_part hl header)) (length (end_part content footer)) (if hl then 8 * 1000 else 0)
      (match css with None => 0 | Some ps => fold_right (fun p k => length p + 50 + k) 0 ps end) (len_of header) (len_of footer) (length l) (length t) (length content).
    intros. lia.
  - unfold document, end_part, body_part. rewrite <- !app_assoc. reflexivity.
Qed.

(** ** Scripts *)

Lemma rows_spec tags : all_rows tags (some_or [] (scripts_html tags)).
Proof.
  assert (forall tags, all_rows tags (concat (map (fun t => t ++ [NL]) (filter (fun t => negb (length t =? 0)) tags)))) as H.
  { clear tags. intro tags. induction tags as [|t tags IH]; [constructor|]. destruct t as [|c t]; cbn [filter length Nat.eqb negb map concat]; constructor; exact IH. }
  specialize (H tags). unfold scripts_html. destruct (filter _ tags); exact H.
Qed.

Lemma rows_unique tags s : all_rows tags s -> forall s', all_rows tags s' -> s = s'.
Proof. induction 1; intros s' H'; inversion H'; subst; [reflexivity|auto|f_equal; auto]. Qed.

Lemma scripts_nonempty tags s : scripts_html tags = Some s -> s <> [].
Proof.
  unfold scripts_html. destruct (filter _ tags) as [|t ts]; intro H; [discriminate H|]. injection H as <-.
  cbn [map concat]. destruct t; discriminate.
Qed.

Lemma ending_spec footer tags s : all_rows tags s -> ending footer s (tail_of (footer_to_use footer (scripts_html tags))).
Proof.
  intro R. rewrite (rows_unique _ _ R _ (rows_spec tags)). destruct (scripts_html tags) as [x|] eqn:E.
  - pose proof (scripts_nonempty _ _ E) as N. cbn [some_or]. destruct footer as [[|c f]|]; unfold footer_to_use, tail_of, told, or_else; cbn [length Nat.ltb Nat.leb andb app].
    + apply end_scripts; [exact N|reflexivity].
    + destruct x as [|d x]; [destruct (N eq_refl)|]. cbn [length Nat.ltb Nat.leb app]. apply (end_both _ _ (c :: f)); [exact N|reflexivity|discriminate].
    + apply end_scripts; [exact N|reflexivity].
  - cbn [some_or]. destruct footer as [f|]; unfold footer_to_use, tail_of, told, or_else.
    + cbn [length]. rewrite andb_false_r. rewrite app_nil_r. apply (end_footer _ _ f); reflexivity.
    + apply end_none; reflexivity.
Qed.

Lemma snippet_spec tags s html : all_rows tags s -> appended html s (snippet tags html).
Proof.
  intro R. rewrite (rows_unique _ _ R _ (rows_spec tags)). unfold snippet. destruct (scripts_html tags) as [x|] eqn:E; [|apply app_none; reflexivity].
  pose proof (scripts_nonempty _ _ E) as N. cbn [some_or]. destruct (last_cases html) as [->|(h & c & ->)].
  - apply app_line. left. reflexivity.
  - rewrite last_last. rewrite app_length. cbn [length]. rewrite (proj2 (Nat.ltb_lt 0 (length h + 1))) by lia.
    destruct x as [|d x]; [destruct (N eq_refl)|]. cbn [length]. rewrite (proj2 (Nat.ltb_lt 0 (S (length x)))) by lia. cbn [andb].
    destruct (ceq c NL) eqn:C; cbn [negb app].
    + apply ceq_eq in C. subst c. apply app_line. right. exists h. reflexivity.
    + change ((h ++ [c]) ++ NL :: d :: x) with ((h ++ [c]) ++ [NL] ++ (d :: x)). rewrite app_assoc. apply app_break.
      * discriminate.
      * destruct h; discriminate.
      * intros k Q. apply app_inj_tail in Q. destruct Q as [_ Q]. subst c. rewrite ceq_refl in C. discriminate C.
Qed.

(** ** Reading the document *)

Lemma in_within (c : ascii) x s : In c x -> within x s -> In c s.
Proof. intros I (a & b & ->). apply in_or_app. right. apply in_or_app. left. exact I. Qed.

Lemma has_within x s : has x s <-> within x s.
Proof. split; intros (a & b & E); exists a, b; exact E. Qed.

Lemma unb_first x a r : unbordered x = true -> x <> [] -> ~ within x a -> forall u w, a ++ x ++ r = u ++ x ++ w -> length a <= length u.
Proof.
  intros U N H u w E. rewrite <- has_within in H. pose proof (strstr_unbordered x a r U N H) as F. rewrite E in F. apply strstr_first in F. exact F.
Qed.

Definition upto_title (lang : str) : str :=
  row (B "<!DOCTYPE html>") ++ row (B "<html lang=""" ++ lang ++ B """>") ++ row (B "<head>") ++
  row (B "  <meta charset=""UTF-8"">") ++
  row (B "  <meta name=""viewport"" content=""width=device-width, initial-scale=1.0"">") ++
  row (B "  <meta name=""generator"" content=""Apex 0.1.85"">") ++ B "  ".

Lemma between_unique open close s v v' : first_between open close s v -> first_between open close s v' -> v = v'.
Proof.
  intros (a & b & E & F & G) (a' & b' & E' & F' & G').
  assert (length a = length a') as La.
  { apply Nat.le_antisymm; [apply (F _ _ E')|apply (F' _ _ E)]. }
  rewrite E' in E. assert (a' = a) as Ea by (apply (f_equal (firstn (length a))) in E; rewrite La in E at 1; rewrite !firstn_app, La, Nat.sub_diag, !firstn_all in E; cbn [firstn] in E; rewrite !app_nil_r in E; rewrite <- La, firstn_all in E; exact E).
  subst a'. apply app_inv_head in E. apply app_inv_head in E.
  assert (length v = length v') as Lv.
  { apply Nat.le_antisymm; [apply (G _ _ (eq_sym E))|apply (G' _ _ E)]. }
  apply (f_equal (firstn (length v))) in E. rewrite Lv in E at 1. rewrite !firstn_app, Lv, Nat.sub_diag, !firstn_all in E. cbn [firstn] in E. rewrite !app_nil_r in E.
  rewrite <- Lv, firstn_all in E. symmetry. exact E.
Qed.

Lemma within_dec x s : within x s \/ ~ within x s.
Proof.
  destruct x as [|c x]; [left; exists [], s; reflexivity|].
  destruct (strstr (c :: x) s) as [k|] eqn:E.
  - left. destruct (strstr_some _ _ _ E) as (a & b & Er & _). exists a, b. exact Er.
  - right. intros (a & b & ->). exact (strstr_none _ _ E a b eq_refl).
Qed.

(** A '<' followed by the byte [c] *)
Fixpoint opens (c : ascii) (s : str) : bool :=
  match s with
  | [] => false
  | x :: t => (ceq x "<" && match t with y :: _ => ceq y c | [] => false end) || opens c t
  end.

Lemma opens_within c x s : within ("<"%char :: c :: x) s -> opens c s = true.
Proof.
  intros (a & b & ->). cbn [app]. induction a as [|d a IH]; cbn [app opens].
  - rewrite !ceq_refl. reflexivity.
  - rewrite IH. apply orb_true_r.
Qed.

Lemma opens_text c t s : ~ In "<"%char t -> opens c (t ++ s) = opens c s.
Proof.
  induction t as [|d t IH]; intro N; [reflexivity|]. cbn [app opens].
  rewrite (proj2 (ceq_neq d "<"%char)) by (intro Q; apply N; left; exact Q). cbn [andb orb]. apply IH. intro I. apply N. right. exact I.
Qed.

Lemma opens_row c a s : opens c (row a ++ s) = opens c (row a) || opens c s.
Proof.
  unfold row. induction a as [|d a IH]; [reflexivity|].
  cbn [app opens]. rewrite IH. rewrite orb_assoc. f_equal. f_equal. destruct a; reflexivity.
Qed.

Lemma opens_held c x s : ~ In "<"%char x -> c <> "s"%char -> c <> "/"%char -> opens c (held x ++ s) = opens c s.
Proof.
  intros N Hs Hl. unfold held. rewrite <- !app_assoc. rewrite opens_row. rewrite opens_text by exact N. rewrite opens_row.
  cbn [row B String.list_ascii_of_string app opens]. apply not_eq_sym in Hs, Hl. apply ceq_neq in Hs, Hl. rewrite Hs, Hl. reflexivity.
Qed.

Lemma opens_opening c l t s : ~ In "<"%char l -> ~ In "<"%char t -> c <> "!"%char -> c <> "h"%char -> c <> "m"%char -> c <> "t"%char -> c <> "/"%char ->
  opens c (opening l t ++ s) = opens c s.
Proof.
  intros Nl Nt H1 H2 H3 H4 H5. unfold opening. rewrite <- !app_assoc. rewrite !opens_row.
  apply not_eq_sym in H1, H2, H3, H4, H5. apply ceq_neq in H1, H2, H3, H4, H5.
  assert (opens c (row (B "<html lang=""" ++ l ++ B """>")) = false) as ->.
  { unfold row. rewrite <- !app_assoc. cbn [B String.list_ascii_of_string app opens]. rewrite H2. rewrite opens_text by exact Nl. reflexivity. }
  assert (opens c (row (B "  <title>" ++ t ++ B "</title>")) = false) as ->.
  { unfold row. rewrite <- !app_assoc. cbn [B String.list_ascii_of_string app opens]. rewrite H4. rewrite opens_text by exact Nt. cbn [app opens]. rewrite H5. reflexivity. }
  cbn [row B String.list_ascii_of_string app opens]. rewrite H1, H2, H3. reflexivity.
Qed.

Lemma upto_opens l : ~ In "<"%char l -> opens "t"%char (upto_title l) = false.
Proof.
  intro Nl. unfold upto_title. rewrite !opens_row.
  assert (opens "t" (row (B "<html lang=""" ++ l ++ B """>")) = false) as ->.
  { unfold row. rewrite <- !app_assoc. cbn [B String.list_ascii_of_string app opens]. rewrite opens_text by exact Nl. reflexivity. }
  reflexivity.
Qed.

Lemma opening_title l t : opening l t = upto_title l ++ B "<title>" ++ t ++ B "</title>" ++ [NL].
Proof. unfold opening, upto_title, row. rewrite <- !app_assoc. reflexivity. Qed.

Lemma title_read l t s : ~ In "<"%char l -> (first_between (B "<title>") (B "</title>") (opening l t ++ s) t <-> ~ within (B "</title>") t).
Proof.
  intro Nl. rewrite opening_title. rewrite <- !app_assoc. set (r := [NL] ++ s).
  assert (~ within (B "<title>") (upto_title l)) as F.
  { intro W. apply opens_within in W. rewrite (upto_opens l Nl) in W. discriminate W. }
  split.
  - intros (a & b & E & F1 & G) (u & w & ->).
    specialize (G u (w ++ B "</title>" ++ b)). rewrite <- !app_assoc in G. specialize (G eq_refl).
    rewrite !app_length in G. change (length (B "</title>")) with 8 in G. lia.
  - intro N. exists (upto_title l), r. split; [reflexivity|]. split.
    + intros u w E. exact (unb_first (B "<title>") _ _ eq_refl ltac:(discriminate) F _ _ E).
    + intros u w E. exact (unb_first (B "</title>") _ _ eq_refl ltac:(discriminate) N _ _ E).
Qed.

Lemma lang_read l t s : first_between (B "<html lang=""") [DQ] (opening l t ++ s) l <-> ~ In DQ l.
Proof.
  set (r := (B ">" ++ [NL] ++ row (B "<head>") ++
  row (B "  <meta charset=""UTF-8"">") ++
  row (B "  <meta name=""viewport"" content=""width=device-width, initial-scale=1.0"">") ++
  row (B "  <meta name=""generator"" content=""Apex 0.1.85"">") ++
  row (B "  <title>" ++ t ++ B "</title>")) ++ s).
  assert (opening l t ++ s = row (B "<!DOCTYPE html>") ++ B "<html lang=""" ++ l ++ [DQ] ++ r) as ->.
  { unfold opening, r, row. rewrite <- !app_assoc. reflexivity. }
  assert (~ within (B "<html lang=""") (row (B "<!DOCTYPE html>"))) as F.
  { intro W. apply opens_within in W. discriminate W. }
  split.
  - intros (a & b & E & F1 & G) I.
    apply in_split in I. destruct I as (u & w & ->).
    specialize (G u (w ++ [DQ] ++ b)). rewrite <- !app_assoc in G. specialize (G eq_refl). rewrite app_length in G. cbn [length] in G. lia.
  - intro N. exists (row (B "<!DOCTYPE html>")), r. split; [reflexivity|]. split.
    + intros u w E. exact (unb_first (B "<html lang=""") _ _ eq_refl ltac:(discriminate) F _ _ E).
    + intros u w E. apply (unb_first [DQ] l r eq_refl ltac:(discriminate)) in E; [exact E|]. intro W. apply N. apply (in_within DQ [DQ]); [left; reflexivity|exact W].
Qed.

(** ** Embedded style sheets *)

Lemma link_linked p : link_line p = linked p.
Proof. unfold linked, link_line, row. rewrite <- !app_assoc. reflexivity. Qed.

(** No link to [q] begins in [pre]. *)
Definition ahead (pre q : str) : Prop := forall z u w, pre ++ z = u ++ linked q ++ w -> length pre <= length u.

Definition shut (pre : str) : Prop := exists x, pre = x ++ B ">" ++ [NL].

Lemma nth_in_app (pre z u x w : str) k : pre ++ z = u ++ x ++ w -> length u + k < length pre -> k < length x -> nth (length u + k) pre NUL = nth k x NUL.
Proof.
  intros E L K. rewrite <- (app_nth1 pre z NUL L), E. rewrite app_nth2 by lia. replace (length u + k - length u) with k by lia. apply app_nth1. exact K.
Qed.

Lemma linked_head q : exists r, linked q = SP :: SP :: "<"%char :: "l"%char :: r.
Proof. eexists. unfold linked, row. cbn [B String.list_ascii_of_string app]. reflexivity. Qed.

Lemma shut_start pre z u w q : shut pre -> pre ++ z = u ++ linked q ++ w -> length u < length pre -> exists v, pre = u ++ (SP :: SP :: "<"%char :: "l"%char :: v).
Proof.
  intros [x Ex] E L. destruct (linked_head q) as [r Er].
  assert (4 <= length (linked q)) as L4 by (rewrite Er; cbn [length]; lia).
  assert (length pre = length x + 2) as Lp by (rewrite Ex, !app_length; cbn [length B String.list_ascii_of_string]; lia).
  assert (nth (length x) pre NUL = ">"%char) as P1.
  { rewrite Ex, app_nth2 by lia. rewrite Nat.sub_diag. reflexivity. }
  assert (nth (length x + 1) pre NUL = NL) as P2.
  { rewrite Ex, app_nth2 by lia. replace (length x + 1 - length x) with 1 by lia. reflexivity. }
  assert (length u + 4 <= length pre) as G.
  { destruct (Nat.le_gt_cases (length u + 4) (length pre)) as [?|G]; [assumption|]. exfalso.
    assert (length u + 0 = length x + 1 \/ length u + 0 = length x \/ length u + 1 = length x) as [Q|[Q|Q]] by lia.
    - pose proof (nth_in_app _ _ _ _ _ 0 E ltac:(lia) ltac:(lia)) as N. rewrite Q, P2, Er in N. discriminate N.
    - pose proof (nth_in_app _ _ _ _ _ 0 E ltac:(lia) ltac:(lia)) as N. rewrite Q, P1, Er in N. discriminate N.
    - pose proof (nth_in_app _ _ _ _ _ 1 E ltac:(lia) ltac:(lia)) as N. rewrite Q, P1, Er in N. discriminate N. }
  rewrite Er in E.
  assert (pre ++ z = (u ++ [SP; SP; "<"%char; "l"%char]) ++ (r ++ w)) as E' by (rewrite E, <- app_assoc; reflexivity).
  destruct (app_split _ _ _ _ E' ltac:(rewrite app_length; cbn [length]; lia)) as (e & Ee & _).
  exists e. rewrite Ee, <- app_assoc. reflexivity.
Qed.

Lemma ahead_start pre q : shut pre -> opens "l"%char pre = false -> ahead pre q.
Proof.
  intros Sh O z u w E. destruct (Nat.le_gt_cases (length pre) (length u)) as [?|L]; [assumption|]. exfalso.
  destruct (shut_start _ _ _ _ _ Sh E L) as [v Ev]. rewrite (opens_within "l"%char v) in O; [discriminate O|].
  exists (u ++ [SP; SP]), []. rewrite Ev, app_nil_r, <- app_assoc. reflexivity.
Qed.

Lemma split_once (c : ascii) (a a' b b' : str) : a ++ c :: b = a' ++ c :: b' -> ~ In c a -> ~ In c b -> a = a' /\ b = b'.
Proof.
  revert a'. induction a as [|d a IH]; intros [|d' a'] E Na Nb; cbn [app] in E.
  - injection E as ->. split; reflexivity.
  - injection E as <- E. exfalso. apply Nb. rewrite E. apply in_or_app. right. left. reflexivity.
  - injection E as -> E. exfalso. apply Na. left. reflexivity.
  - injection E as -> E. destruct (IH a' E) as [-> ->]; [intro I; apply Na; right; exact I|exact Nb|]. split; reflexivity.
Qed.

Lemma split_first (c : ascii) (a a' b b' : str) : a ++ c :: b = a' ++ c :: b' -> ~ In c a -> ~ In c a' -> a = a' /\ b = b'.
Proof.
  revert a'. induction a as [|d a IH]; intros [|d' a'] E Na Nb; cbn [app] in E.
  - injection E as ->. split; reflexivity.
  - injection E as -> E. exfalso. apply Nb. left. reflexivity.
  - injection E as -> E. exfalso. apply Na. left. reflexivity.
  - injection E as -> E. destruct (IH a' E) as [-> ->]; [intro I; apply Na; right; exact I|intro I; apply Nb; right; exact I|]. split; reflexivity.
Qed.

Lemma linked_shut p : shut (linked p).
Proof. exists (B "  <link rel=""stylesheet"" href=""" ++ p ++ B """"). unfold linked, row. rewrite <- !app_assoc. reflexivity. Qed.

Lemma shut_app a b : shut b -> shut (a ++ b).
Proof. intros [x ->]. exists (a ++ x). rewrite <- app_assoc. reflexivity. Qed.

Lemma linked_same p q z w : plain_path p -> plain_path q -> linked p ++ z = linked q ++ w -> p = q.
Proof.
  intros [Np _] [Nq _] E. unfold linked, row in E. rewrite <- !app_assoc in E. apply app_inv_head in E.
  change (p ++ DQ :: (B ">" ++ [NL] ++ z) = q ++ DQ :: (B ">" ++ [NL] ++ w)) in E. apply split_first in E; [exact (proj1 E)|exact Np|exact Nq].
Qed.

Lemma ahead_linked pre p q : plain_path p -> plain_path q -> p <> q -> ahead pre q -> ahead (pre ++ linked p) q.
Proof.
  intros Pp Pq N A z u w E. destruct (Nat.le_gt_cases (length (pre ++ linked p)) (length u)) as [?|L]; [assumption|]. exfalso.
  rewrite <- app_assoc in E. pose proof (A _ _ _ E) as Lu.
  destruct (app_split _ _ _ _ (eq_sym E) Lu) as (e & Eu & Ee). subst u.
  assert (length e < length (linked p)) as Le by (rewrite !app_length in L; lia).
  destruct (shut_start _ _ _ _ _ (linked_shut p) Ee Le) as [v Ev].
  assert (e = []) as ->.
  { destruct Pp as [_ Np].
    assert ([SP; SP] ++ "<"%char :: (B "link rel=""stylesheet"" href=""" ++ p ++ B """>" ++ [NL]) = (e ++ [SP; SP]) ++ "<"%char :: ("l"%char :: v)) as Q.
    { rewrite <- app_assoc. etransitivity; [|exact Ev]. unfold linked, row. rewrite <- !app_assoc. reflexivity. }
    apply split_once in Q.
    - destruct Q as [Q _]. apply (app_inv_tail [SP; SP] [] e) in Q. symmetry. exact Q.
    - vm_compute. intuition discriminate.
    - intro I. apply in_app_or in I. destruct I as [I|I]; [vm_compute in I; intuition discriminate|]. apply in_app_or in I. destruct I as [I|I]; [exact (Np I)|]. vm_compute in I. intuition discriminate. }
  cbn [app] in Ee. apply N. exact (linked_same _ _ _ _ Pp Pq Ee).
Qed.

Lemma embed_step read pre p r : ahead pre p -> exists s, sheet read p s /\ embed_one read p (pre ++ linked p ++ r) = pre ++ s ++ r.
Proof.
  intro A. unfold embed_one, sheet. destruct (read p) as [c|]; [|exists (linked p); split; reflexivity].
  destruct c as [|c x]; [exists (linked p); split; reflexivity|]. cbn [length Nat.eqb]. rewrite link_linked.
  destruct (length (linked p) <? 2048) eqn:L.
  - apply Nat.ltb_lt in L. exists (held (row (c :: x))). split; [left; split; [exact L|reflexivity]|].
    rewrite BaseL.strstr_first by (intros a' b' E; exact (A _ _ _ E)).
    rewrite firstn_app, firstn_all, Nat.sub_diag. cbn [firstn]. rewrite app_nil_r.
    assert (skipn (length pre + length (linked p)) (pre ++ linked p ++ r) = r) as ->.
    { rewrite app_assoc, <- app_length. rewrite skipn_app, skipn_all, Nat.sub_diag. reflexivity. }
    unfold held, row. rewrite <- !app_assoc. reflexivity.
  - apply Nat.ltb_ge in L. exists (linked p). split; [right; split; [exact L|reflexivity]|reflexivity].
Qed.

Lemma embed_all read ps : forall pre r, NoDup ps -> Forall plain_path ps -> Forall (ahead pre) ps ->
  exists ss, Forall2 (sheet read) ps ss /\ fold_right (embed_one read) (pre ++ concat (map linked ps) ++ r) ps = pre ++ concat ss ++ r.
Proof.
  induction ps as [|p ps IH]; intros pre r N P A; [exists []; split; [constructor|reflexivity]|].
  inversion N as [|? ? Ni N']; subst. inversion P as [|? ? Pp P']; subst. inversion A as [|? ? Ap A']; subst.
  cbn [map concat fold_right].
  destruct (IH (pre ++ linked p) r N' P') as (ss & Fs & Es).
  { rewrite Forall_forall in *. intros q I. apply ahead_linked; [exact Pp|exact (P' q I)|intros ->; exact (Ni I)|exact (A' q I)]. }
  rewrite <- !app_assoc in *. rewrite Es.
  destruct (embed_step read pre p (concat ss ++ r) Ap) as (s & Hs & Ee).
  exists (s :: ss). split; [constructor; assumption|]. cbn [concat]. rewrite <- app_assoc. exact Ee.
Qed.

Lemma front_ahead l t (hl : bool) q : ~ In "<"%char l -> ~ In "<"%char t -> ahead (opening l t ++ if hl then code_part else []) q.
Proof.
  intros Nl Nt. apply ahead_start.
  - destruct hl.
    + apply shut_app. destruct code_styled as (x & -> & _). unfold held. do 2 apply shut_app. exists (B "  </style"). reflexivity.
    + rewrite app_nil_r. rewrite opening_title. exists (upto_title l ++ B "<title>" ++ t ++ B "</title"). rewrite <- !app_assoc. reflexivity.
  - rewrite opens_opening; try assumption; try discriminate. destruct hl; [|reflexivity].
    destruct code_styled as (x & -> & Nx). rewrite <- (app_nil_r (held x)). rewrite opens_held; [reflexivity|exact Nx|discriminate|discriminate].
Qed.
