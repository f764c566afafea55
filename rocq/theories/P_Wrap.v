(** C223-C230: complete documents. *)
From Verif Require Import Base BaseL M_Pass S_Pass L_Pass M_WrapData M_Wrap S_Wrap L_Wrap.

(** C223: the document, for all inputs: nothing is written beyond the buffer, and the way out that gives the bare content back is never taken. *)
Theorem C223_document : exists code plain, styled code /\ styled plain /\
  forall content title css (hl : bool) header footer lang,
  wrap content title css hl header footer lang =
  Out (document (some_or (B "en") lang) (some_or (B "Document") title) (if hl then code else [])
         (match css with None => plain | Some ps => concat (map linked ps) end) header hl content
         (told footer (fun f => [NL] ++ f))).
Proof.
  exists code_part, default_style. split; [exact code_styled|]. split; [exact default_styled|].
  intros. exact (wrap_spec content title css hl header footer lang).
Qed.
Print Assumptions C223_document.

Example C223_case : wrap (B "<p>x</p>") (Some (B "T")) (Some [B "a.css"; B "b.css"]) false (Some (B "<meta>")) (Some (B "F")) None =
  Out (concat (map row [
    B "<!DOCTYPE html>"; B "<html lang=""en"">"; B "<head>"; B "  <meta charset=""UTF-8"">";
    B "  <meta name=""viewport"" content=""width=device-width, initial-scale=1.0"">"; B "  <meta name=""generator"" content=""Apex 0.1.85"">";
    B "  <title>T</title>"; B "  <link rel=""stylesheet"" href=""a.css"">"; B "  <link rel=""stylesheet"" href=""b.css"">"; B "  <meta>";
    B "</head>"; B "<body>"; []; B "<p>x</p>"; B "F"; B "</body>"; B "</html>"])).
Proof. vm_compute. reflexivity. Qed.

(** C224: closing tags at the end of the content are to be dropped ("Strip any existing </body></html> tags"). They never are: for every content the tags are there twice. *)
Theorem C224_refuted : forall a ws r title css hl header footer lang, Forall white ws ->
  exists d u v, wrap (a ++ B "</body>" ++ ws ++ B "</html>" ++ r) title css hl header footer lang = Out d
    /\ d = u ++ B "</body>" ++ ws ++ B "</html>" ++ r ++ v ++ [NL] ++ B "</body>" ++ [NL] ++ B "</html>" ++ [NL]
    /\ wrap (a ++ B "</body>" ++ ws ++ B "</html>" ++ r) title css hl header footer lang <> wrap a title css hl header footer lang.
Proof.
  intros a ws r title css hl header footer lang _. rewrite !wrap_spec. unfold document.
  eexists _, (opening (some_or (B "en") lang) (some_or (B "Document") title) ++ (if hl then code_part else []) ++ sheets_part css ++
    told header (fun h => row (B "  " ++ h)) ++ row (B "</head>") ++ row (B "<body" ++ (if hl then B " class=""code-highlighted""" else []) ++ B ">") ++ row [] ++ a), (tail_of footer).
  split; [reflexivity|]. split.
  - rewrite <- !app_assoc. reflexivity.
  - intro E. assert (forall x y : str, Out x = Out y -> length x = length y) as I by (intros x y Q; injection Q as ->; reflexivity). apply I in E. clear I. rewrite !app_length in E. change (length (B "</body>")) with 7 in E. lia.
Qed.
Print Assumptions C224_refuted.

(** What is true: content without such tags is there once and whole, and the document closes once after it. *)
Theorem C224_partial : forall content title css hl header footer lang, ~ within (B "</html>") content ->
  exists u v, wrap content title css hl header footer lang = Out (u ++ row [] ++ content ++ v ++ [NL] ++ B "</body>" ++ [NL] ++ B "</html>" ++ [NL])
    /\ (v = [] \/ exists f, footer = Some f /\ v = NL :: f).
Proof.
  intros content title css hl header footer lang _. rewrite wrap_spec. unfold document.
  eexists (opening (some_or (B "en") lang) (some_or (B "Document") title) ++ (if hl then code_part else []) ++ sheets_part css ++
    told header (fun h => row (B "  " ++ h)) ++ row (B "</head>") ++ row (B "<body" ++ (if hl then B " class=""code-highlighted""" else []) ++ B ">")), (tail_of footer).
  split; [rewrite <- !app_assoc; reflexivity|]. destruct footer as [f|]; [right; exists f; split; reflexivity|left; reflexivity].
Qed.
Print Assumptions C224_partial.

Example C224_case : exists d, wrap (B "<p>x</p></body></html>") None (Some []) false None None None = Out d
  /\ d = firstn 228 d ++ B "<p>x</p></body></html>" ++ [NL] ++ B "</body>" ++ [NL] ++ B "</html>" ++ [NL].
Proof. eexists. split; [vm_compute; reflexivity|]. vm_compute. reflexivity. Qed.

(** C225: the title and the language are the text of their element and the value of their attribute. Both are written as they are; the exact conditions are these. *)
Theorem C225_partial : forall content title css hl header footer lang,
  exists d, wrap content (Some title) css hl header footer (Some lang) = Out d
    /\ (~ In "<"%char lang -> (first_between (B "<title>") (B "</title>") d title <-> ~ within (B "</title>") title))
    /\ (first_between (B "<html lang=""") [DQ] d lang <-> ~ In DQ lang).
Proof.
  intros. rewrite wrap_spec. eexists. split; [reflexivity|]. unfold document. split; [apply title_read|apply lang_read].
Qed.
Print Assumptions C225_partial.

Theorem C225_refuted : exists title d v, wrap [] (Some title) None false None None None = Out d
  /\ first_between (B "<title>") (B "</title>") d v /\ v <> title /\ within (B "</title><script>") d.
Proof.
  exists (B "</title><script>"). rewrite wrap_spec. eexists. exists []. split; [reflexivity|]. unfold document. rewrite opening_title. rewrite <- !app_assoc. split; [|split].
  - exists (upto_title (B "en")). eexists. split; [reflexivity|]. split.
    + intros u w E. refine (unb_first (B "<title>") (upto_title (B "en")) _ eq_refl _ _ u w E); [discriminate|].
      intro W. apply opens_within in W. vm_compute in W. discriminate W.
    + intros u w _. apply Nat.le_0_l.
  - discriminate.
  - exists (upto_title (B "en") ++ B "<title>"). eexists. rewrite <- !app_assoc. reflexivity.
Qed.
Print Assumptions C225_refuted.

Example C225_case : exists d, wrap (B "x") (Some (B "Q & A")) None true None None (Some (B "de")) = Out d
  /\ first_between (B "<title>") (B "</title>") d (B "Q & A") /\ first_between (B "<html lang=""") [DQ] d (B "de").
Proof.
  destruct (C225_partial (B "x") (B "Q & A") None true None None (B "de")) as (d & E & T & L). exists d. split; [exact E|]. split.
  - apply T; [vm_compute; intuition discriminate|]. intros (a & b & Q). apply (strstr_none (B "</title>") (B "Q & A") eq_refl a b Q).
  - apply L. vm_compute. intuition discriminate.
Qed.

(** C226: the default style gives tables the width of the page ("width: 100%"). In every document without style sheets it says "100%%", which is no CSS value. *)
Lemma default_percent : within (B "width: 100%%; }") default_style.
Proof.
  destruct (strstr (B "width: 100%%; }") default_style) as [k|] eqn:E; [|vm_compute in E; discriminate E].
  destruct (strstr_some _ _ _ E) as (a & b & Q & _). exists a, b. exact Q.
Qed.

Theorem C226_refuted : forall content title hl header footer lang, exists d, wrap content title None hl header footer lang = Out d /\ within (B "width: 100%%; }") d.
Proof.
  intros. rewrite wrap_spec. eexists. split; [reflexivity|]. destruct default_percent as (a & b & E). unfold document. cbn [sheets_part]. rewrite E.
  exists (opening (some_or (B "en") lang) (some_or (B "Document") title) ++ (if hl then code_part else []) ++ a). eexists. rewrite <- !app_assoc. reflexivity.
Qed.
Print Assumptions C226_refuted.

Definition pure (s : str) : Prop := ~ In "%"%char s.

Lemma pure_app a b : pure (a ++ b) <-> pure a /\ pure b.
Proof. unfold pure. rewrite in_app_iff. tauto. Qed.

Lemma pure_lit s : forallb (fun c => negb (ceq c "%")) s = true -> pure s.
Proof. intros F I. rewrite forallb_forall in F. specialize (F _ I). rewrite ceq_refl in F. discriminate F. Qed.

Lemma pure_told o f : (forall x, o = Some x -> pure (f x)) -> pure (told o f).
Proof. destruct o as [x|]; intro H; [exact (H x eq_refl)|intros []]. Qed.

Lemma code_pure : pure code_part.
Proof. apply pure_lit. vm_compute. reflexivity. Qed.

(** With style sheets the document has no other percent sign than those of its parts. *)
Theorem C226_partial : forall content title ps hl header footer lang,
  pure content -> (forall t, title = Some t -> pure t) -> Forall pure ps -> (forall h, header = Some h -> pure h) ->
  (forall f, footer = Some f -> pure f) -> (forall l, lang = Some l -> pure l) ->
  exists d, wrap content title (Some ps) hl header footer lang = Out d /\ pure d.
Proof.
  intros content title ps hl header footer lang Pc Pt Pp Ph Pf Pl. rewrite wrap_spec. eexists. split; [reflexivity|].
  assert (pure (some_or (B "en") lang)) as Pl' by (destruct lang as [l|]; [exact (Pl l eq_refl)|apply pure_lit; reflexivity]).
  assert (pure (some_or (B "Document") title)) as Pt' by (destruct title as [t|]; [exact (Pt t eq_refl)|apply pure_lit; reflexivity]).
  unfold document, opening, row, sheets_part, tail_of. rewrite !pure_app. repeat split; try assumption; try (apply pure_lit; reflexivity).
  - destruct hl; [exact code_pure|intros []].
  - induction Pp as [|p ps P Pp' IH]; [intros []|]. cbn [map concat]. apply pure_app. split; [|exact IH].
    unfold linked, row. rewrite !pure_app. repeat split; try assumption; apply pure_lit; reflexivity.
  - apply pure_told. intros h E. rewrite !pure_app. repeat split; try (apply pure_lit; reflexivity). exact (Ph h E).
  - destruct hl; [apply pure_lit; reflexivity|intros []].
  - apply pure_told. intros f E. rewrite pure_app. split; [apply pure_lit; reflexivity|exact (Pf f E)].
Qed.
Print Assumptions C226_partial.

Example C226_case : exists d, wrap (B "a table") None (Some [B "t.css"]) true None (Some (B "end")) None = Out d /\ pure d.
Proof.
  apply C226_partial; try (intros ? Q; discriminate Q).
  - apply pure_lit. reflexivity.
  - repeat constructor. apply pure_lit. reflexivity.
  - intros f Q. injection Q as <-. apply pure_lit. reflexivity.
Qed.

(** C227: the scripts. The style sheets in the document, for options without embedding: those of the options, or else the one of the metadata. *)
Inductive taken : sheets -> option str -> option (list str) -> Prop :=
| take_options n p ps css : length (p :: ps) = n -> taken (Array n (p :: ps)) css (Some (p :: ps))
| take_css_none c : taken NoArray (Some c) (Some [c])
| take_css_zero c : taken (Array 0 []) (Some c) (Some [c])
| take_none : taken NoArray None None.

Lemma standalone_taken read o html css : taken (st_sheets o) (st_css o) css ->
  (st_embed o = false \/ exists n p ps, st_sheets o = Array n (p :: ps)) ->
  standalone read o html =
  match wrap html (titled o html) css (st_hl o) (st_header o) (footer_to_use (st_footer o) (scripts_html (st_scripts o))) (st_lang o) with
  | Out d => Out (if st_embed o then fold_right (embed_one read) d (match css with Some ps => ps | None => [] end) else d)
  | Bad => Bad
  end.
Proof.
  intros T E. unfold standalone. destruct o as [ti h1 sh cs hl he fo la em sc]. cbn [st_title st_h1 st_sheets st_css st_hl st_header st_footer st_lang st_embed st_scripts] in *.
  inversion T as [n p ps css' L|c|c|]; subst; cbv zeta.
  - cbn [length]. replace (firstn (S (length ps)) (p :: ps)) with (p :: ps) by (symmetry; exact (firstn_all (p :: ps))). reflexivity.
  - rewrite !wrap_spec. destruct E as [->|(n & p & ps & Q)]; [reflexivity|discriminate Q].
  - rewrite !wrap_spec. destruct E as [->|(n & p & ps & Q)]; [reflexivity|discriminate Q].
  - rewrite !wrap_spec. destruct E as [->|(n & p & ps & Q)]; [reflexivity|discriminate Q].
Qed.

Theorem C227_standalone : exists code plain, styled code /\ styled plain /\
  forall read o html css s, taken (st_sheets o) (st_css o) css -> st_embed o = false -> st_h1 o = false -> all_rows (st_scripts o) s ->
  exists tail, ending (st_footer o) s tail
    /\ standalone read o html =
       Out (document (some_or (B "en") (st_lang o)) (some_or (B "Document") (st_title o)) (if st_hl o then code else [])
              (match css with None => plain | Some ps => concat (map linked ps) end) (st_header o) (st_hl o) html tail).
Proof.
  exists code_part, default_style. split; [exact code_styled|]. split; [exact default_styled|].
  intros read o html css s T E H R. exists (tail_of (footer_to_use (st_footer o) (scripts_html (st_scripts o)))). split; [exact (ending_spec _ _ _ R)|].
  rewrite (standalone_taken read o html css T (or_introl E)), wrap_spec, E. unfold titled. rewrite H. reflexivity.
Qed.
Print Assumptions C227_standalone.

Theorem C227_fragment : forall tags s html, all_rows tags s -> appended html s (snippet tags html).
Proof. exact snippet_spec. Qed.
Print Assumptions C227_fragment.

Example C227_case : snippet [B "<script src=""a.js""></script>"; []; B "<script>b()</script>"] (B "<p>x</p>") =
    row (B "<p>x</p>") ++ row (B "<script src=""a.js""></script>") ++ row (B "<script>b()</script>")
  /\ footer_to_use (Some (B "F")) (scripts_html [B "S"; []; B "T"]) = Some (B "F" ++ [NL] ++ B "S" ++ [NL] ++ B "T" ++ [NL]).
Proof. split; reflexivity. Qed.

(** C228: style sheets are embedded. For a style sheet of the metadata the array is used after it has been freed, whatever the document. *)
Theorem C228_refuted : forall read o html c, st_embed o = true -> st_css o = Some c -> (st_sheets o = NoArray \/ exists ps, st_sheets o = Array 0 ps) ->
  standalone read o html = Bad.
Proof. intros read o html c E C S. unfold standalone. destruct S as [-> |(ps & ->)]; rewrite C, E; reflexivity. Qed.
Print Assumptions C228_refuted.

(** Style sheets of the options: every link gives way to the text of its file, where there is one. *)
Theorem C228_partial : exists code, styled code /\
  forall read o html ps s, st_sheets o = Array (length ps) ps -> ps <> [] -> st_embed o = true -> st_h1 o = false -> all_rows (st_scripts o) s ->
  NoDup ps -> Forall plain_path ps -> (forall l, st_lang o = Some l -> ~ In "<"%char l) -> (forall t, st_title o = Some t -> ~ In "<"%char t) ->
  exists ss tail, Forall2 (sheet read) ps ss /\ ending (st_footer o) s tail
    /\ standalone read o html =
       Out (document (some_or (B "en") (st_lang o)) (some_or (B "Document") (st_title o)) (if st_hl o then code else [])
              (concat ss) (st_header o) (st_hl o) html tail).
Proof.
  exists code_part. split; [exact code_styled|].
  intros read o html ps s S N E H R D P Nl Nt.
  assert (taken (st_sheets o) (st_css o) (Some ps)) as T by (rewrite S; destruct ps as [|p ps]; [destruct (N eq_refl)|constructor; reflexivity]).
  rewrite (standalone_taken read o html (Some ps) T) by (right; destruct ps as [|p ps]; [destruct (N eq_refl)|eexists _, _, _; exact S]).
  rewrite wrap_spec, E. unfold titled. rewrite H. cbn [andb]. unfold document. cbn [sheets_part].
  set (l := some_or (B "en") (st_lang o)). set (t := some_or (B "Document") (st_title o)).
  assert (~ In "<"%char l) as Nl' by (unfold l; destruct (st_lang o) as [x|]; [exact (Nl x eq_refl)|vm_compute; intuition discriminate]).
  assert (~ In "<"%char t) as Nt' by (unfold t; destruct (st_title o) as [x|]; [exact (Nt x eq_refl)|vm_compute; intuition discriminate]).
  match goal with |- context [concat (map linked ps) ++ ?x] => set (rest := x) end.
  destruct (embed_all read ps (opening l t ++ if st_hl o then code_part else []) rest D P) as (ss & F & Es).
  { apply Forall_forall. intros q _. apply front_ahead; assumption. }
  rewrite <- !app_assoc in Es. rewrite Es. unfold rest.
  exists ss, (tail_of (footer_to_use (st_footer o) (scripts_html (st_scripts o)))). split; [exact F|]. split; [exact (ending_spec _ _ _ R)|]. reflexivity.
Qed.
Print Assumptions C228_partial.

Definition sample_options (sh : sheets) (css : option str) (embed : bool) : standing :=
  {| st_title := Some (B "T"); st_h1 := false; st_sheets := sh; st_css := css; st_hl := false; st_header := None; st_footer := None; st_lang := None; st_embed := embed; st_scripts := [B "S"] |}.
Definition sample_read (p : str) : option str := if seq_ p (B "a.css") then Some (B "p{}") else None.

Example C228_case : standalone sample_read (sample_options (Array 2 [B "a.css"; B "b.css"]) None true) (B "x") =
  Out (opening (B "en") (B "T") ++ held (row (B "p{}")) ++ linked (B "b.css") ++ row (B "</head>") ++ row (B "<body>") ++ row [] ++ B "x" ++ [NL] ++ B "S" ++ [NL] ++ row [] ++ row (B "</body>") ++ row (B "</html>")).
Proof. vm_compute. reflexivity. Qed.

(** C229: the call leaves the array of style sheets of its caller alone and reads no freed memory. The exact conditions under which it does not. *)
Theorem C229_partial : forall read o html, standalone read o html = Bad <->
  (st_css o = None /\ exists n, st_sheets o = Array n []) \/
  (st_embed o = true /\ st_css o <> None /\ (st_sheets o = NoArray \/ exists ps, st_sheets o = Array 0 ps)).
Proof.
  intros read o html. unfold standalone. split.
  - destruct (st_sheets o) as [|[|n] ps]; destruct (st_css o) as [c|] eqn:C; rewrite ?wrap_spec.
    + destruct (st_embed o); intro Q; [|discriminate Q]. right. split; [reflexivity|]. split; [discriminate|]. left. reflexivity.
    + intro Q. discriminate Q.
    + destruct (st_embed o); intro Q; [|discriminate Q]. right. split; [reflexivity|]. split; [discriminate|]. right. exists ps. reflexivity.
    + destruct ps; intro Q; [|discriminate Q]. left. split; [reflexivity|]. exists 0. reflexivity.
    + destruct ps; intro Q; discriminate Q.
    + destruct ps; intro Q; [|discriminate Q]. left. split; [reflexivity|]. eexists. reflexivity.
  - intros [(C & n & S)|(E & C & S)].
    + rewrite S, C. destruct n; reflexivity.
    + destruct (st_css o) as [c|]; [|destruct (C eq_refl)]. rewrite E. destruct S as [->|(ps & ->)]; reflexivity.
Qed.
Print Assumptions C229_partial.

Theorem C229_refuted : exists o, forall read html, standalone read o html = Bad.
Proof. exists (sample_options (Array 0 []) None false). intros. reflexivity. Qed.
Print Assumptions C229_refuted.

Example C229_case : standalone sample_read (sample_options NoArray (Some (B "m.css")) false) (B "x") <> Bad.
Proof. intro Q. apply C229_partial in Q. destruct Q as [(Q & _)|(Q & _)]; discriminate Q. Qed.

(** C230: with the option, a document without a title takes the text of its first level-one heading. *)
Theorem C230_title : exists code plain, styled code /\ styled plain /\
  forall read o html css s, taken (st_sheets o) (st_css o) css -> st_embed o = false -> st_h1 o = true -> (st_title o = None \/ st_title o = Some []) -> all_rows (st_scripts o) s ->
  exists tail title, ending (st_footer o) s tail
    /\ (first_heading html title \/ (forall t, ~ first_heading html t) /\ title = some_or (B "Document") (st_title o))
    /\ standalone read o html =
       Out (document (some_or (B "en") (st_lang o)) title (if st_hl o then code else [])
              (match css with None => plain | Some ps => concat (map linked ps) end) (st_header o) (st_hl o) html tail).
Proof.
  exists code_part, default_style. split; [exact code_styled|]. split; [exact default_styled|].
  intros read o html css s T E H N R. exists (tail_of (footer_to_use (st_footer o) (scripts_html (st_scripts o)))).
  exists (some_or (B "Document") (titled o html)). split; [exact (ending_spec _ _ _ R)|]. split.
  - unfold titled. rewrite H. replace (match st_title o with None => true | Some [] => true | Some _ => false end) with true by (destruct N as [-> | ->]; reflexivity). cbn [andb].
    destruct (first_h1 html) as [t|] eqn:F.
    + left. apply h1_spec. exact F.
    + right. split; [|reflexivity]. intros t Q. apply h1_spec in Q. rewrite Q in F. discriminate F.
  - rewrite (standalone_taken read o html css T (or_introl E)), wrap_spec, E. reflexivity.
Qed.
Print Assumptions C230_title.

Example C230_case : titled {| st_title := None; st_h1 := true; st_sheets := NoArray; st_css := None; st_hl := false; st_header := None; st_footer := None; st_lang := None; st_embed := false; st_scripts := [] |} (B "<h1 id=""a"">Big <em>day</em></h1>") = Some (B "Big day").
Proof. vm_compute. reflexivity. Qed.
