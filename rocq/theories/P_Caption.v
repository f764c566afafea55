(** C281-C289: captions of tables before parsing (src/apex.c 1230-1630, 4476-4517). *)
From Verif Require Import Base BaseL L_Pass M_Relax S_Relax L_Relax M_Spans S_Spans L_Spans M_Caption S_Caption L_Caption L_Caption2.

Ltac noin := let I := fresh in intro I; repeat (destruct I as [I|I]; [discriminate I|]); destruct I.
Ltac ltext := split; noin.
Lemma not_fence l : fence l = false -> ~ fence_line l.
Proof. intros E F. apply fence_bool in F. congruence. Qed.
Lemma not_within m s : m <> [] -> strstr m s = None -> ~ within m s.
Proof. intros Z E (a & b & Q). exact (strstr_none _ _ E a b Q). Qed.
Lemma not_front m s : starts m s = false -> forall r, s <> m ++ r.
Proof. apply starts_false. Qed.
Ltac opened w c p := exists w, c, p; split; [split; [reflexivity|split; [repeat (constructor; [auto|]); constructor|split; discriminate]]|split; [apply not_fence; reflexivity|]].
Ltac calmc w c p := opened w c p; split; [noin|]; intros m r [<-|[<-|[]]]; apply not_front; reflexivity.
Ltac rowc w c p := opened w c p; split; [apply bar_bool; reflexivity|]; intros m r [<-|[<-|[]]]; apply not_front; reflexivity.
Ltac easyc w c p := opened w c p; split; [noin|]; split; [discriminate|]; split; [intros ? ? X _; discriminate X|]; intros m [<-|[<-|[]]]; (apply not_within; [discriminate|vm_compute; reflexivity]).
Ltac trimc d m e := exists d, m, e; split; [right; exists m; split; reflexivity|split; reflexivity].

(** C281. For every text: nothing is written behind the buffer, which is never checked. *)
Theorem C281_safe t : captioned t <> None.
Proof. destruct (some_lines t) as (ls & H & E). rewrite (proj1 (captioned_exact t ls H E)). discriminate. Qed.
Print Assumptions C281_safe.

Example C281_case : captioned (B "|" ++ [NL] ++ B "[" ++ [NL] ++ B ": ") = Some (unlines [B "|"; []; B "["; []; B "[]"]).
Proof. vm_compute. reflexivity. Qed.

(** C282. Text without tables and captions stays as it is, blank lines included (they count in indented code): false for three blank lines between any two lines. *)
Theorem C282_refuted a b : line_text a -> line_text b -> calm a -> easy b -> captioned (unlines [a; []; []; []; b]) = Some (unlines [a; []; []; b]).
Proof.
  intros Ta Tb C E. rewrite captioned_feed; [|repeat (constructor; [assumption || (split; intros [])|]); constructor]. f_equal. change (unlines [a; []; []; b]) with ([] ++ unlines [a; []; []; b]). apply (squeeze_feed true).
  apply squeeze_calm; [exact C|]. apply squeeze_blank; [constructor|]. apply (squeeze_blanks [[]; []] b [] []); [discriminate|repeat constructor|exact E|constructor].
Qed.
Print Assumptions C282_refuted.
Example C282_refuted_case : captioned (unlines [B "    code"; []; []; []; B "    more"]) = Some (unlines [B "    code"; []; []; B "    more"]).
Proof. vm_compute. reflexivity. Qed.

(** The exact result: of several blank lines two are left. *)
Theorem C282_partial ls out : Forall line_text ls -> Squeeze true ls out -> captioned (unlines ls) = Some (unlines out).
Proof. intros F H. rewrite (captioned_feed ls F). f_equal. exact (squeeze_feed true ls out H []). Qed.
Print Assumptions C282_partial.

Example C282_case : Squeeze true [B "Some text"; B "[a](b) and a table: that"; []; B "more"; [SP]; []] [B "Some text"; B "[a](b) and a table: that"; []; B "more"; [SP]].
Proof.
  apply squeeze_calm; [calmc (@nil ascii) "S"%char (B "ome text")|]. apply squeeze_calm; [calmc (@nil ascii) "["%char (B "a](b) and a table: that")|]. apply squeeze_blank; [constructor|]. apply squeeze_easy; [easyc (@nil ascii) "m"%char (B "ore")|].
  apply squeeze_blank; [constructor; [auto|constructor]|]. apply squeeze_tail. repeat constructor.
Qed.

(** C283. A line Table: caption behind a table, with any number of blank lines between, becomes [caption] in a paragraph of its own, its attributes behind it: false for table: when Table: stands in the caption. *)
Theorem C283_refuted : captioned (unlines [B "|a|"; B "table: like Table: two"]) = Some (unlines [B "|a|"; B "table: like "; []; B "[two]"]).
Proof. vm_compute. reflexivity. Qed.
Print Assumptions C283_refuted.

Theorem C283_partial pre r gs m g c s a post : Forall line_text (pre ++ [r] ++ gs ++ [m ++ g ++ c ++ s] ++ post) -> Forall calm pre -> S_Caption.row_line r -> Forall S_Caption.gaps gs -> In m table_marks -> (m = B "Table:" \/ ~ within (B "Table:") (m ++ g ++ c ++ s)) ->
  S_Caption.gaps g -> trimmed c -> Attributes s a -> (a = [] -> ~ In "}"%char c) -> behind post ->
  captioned (unlines (pre ++ [r] ++ gs ++ [m ++ g ++ c ++ s] ++ post)) = Some (unlines (pre ++ [r; []; B "[" ++ c ++ B "]" ++ shown_attributes a] ++ post)).
Proof.
  intros F P R Gs I D G T A Na Bh. rewrite (captioned_feed _ F). f_equal. rewrite feed_app. change begin with (N0 []). rewrite (calm_feed pre P). rewrite feed_app, feed_cons, (row_step r _ R). change (feed ?x []) with x. rewrite feed_app.
  destruct (row_blanks gs (([] ++ unlines pre) ++ r ++ [NL]) false false Gs) as (b1 & b2 & E & _). rewrite E. rewrite feed_app, feed_cons. change (feed ?x []) with x.
  assert (Nf : ~ fence_line ([] ++ m ++ g ++ c ++ s)).
  { intros (w & f & q & Q & W & Ff). assert (Hm : exists d k, m = d :: k /\ d <> SP /\ d <> TAB /\ d <> "`"%char /\ d <> "~"%char) by (destruct I as [<-|[<-|[]]]; eexists _, _; (split; [reflexivity|repeat split; discriminate])). destruct Hm as (d & k & -> & N1 & N2 & N3 & N4). destruct W as [|x w X W]; cbn in Q; [destruct Ff as [-> | ->]; injection Q as Q _; congruence|]. injection Q as Q _. destruct X; congruence. }
  assert (Zm : ~ within m []) by (intros (x & y & Q); destruct I as [<-|[<-|[]]]; destruct x; discriminate Q).
  destruct (mark_step m [] g c s a (Cap false true b1 b2 true (([] ++ unlines pre) ++ r ++ [NL])) I D Zm G T A Na eq_refl (or_introl eq_refl) Nf) as (b1' & b3 & St & K); [intros w q; left; destruct w; discriminate|]. change ([] ++ m ++ g ++ c ++ s) with (m ++ g ++ c ++ s) in St. rewrite St. rewrite (behind_feed post _ _ _ Bh). fields.
  unfold unlines. rewrite !map_app, !concat_app. cbn [map concat app]. rewrite <- !app_assoc. cbn [app]. rewrite <- !app_assoc. reflexivity.
Qed.
Print Assumptions C283_partial.

Example C283_case : captioned (unlines [B "Text"; B "| a |"; []; []; B "Table:  Some caption {#id .c}"; B "More"]) = Some (unlines [B "Text"; B "| a |"; []; B "[Some caption] {#id .c}"; B "More"])
  /\ S_Caption.row_line (B "| a |") /\ trimmed (B "Some caption") /\ Attributes (B " {#id .c}") (B "{#id .c}") /\ behind [B "More"].
Proof.
  split; [vm_compute; reflexivity|]. split; [rowc (@nil ascii) "|"%char (B " a |")|]. split; [trimc "S"%char (B "ome captio") "n"%char|]. split.
  - right. exists (B " "), "#"%char, (B "id .c"), []. split; [reflexivity|]. split; [constructor; [auto|constructor]|]. split; [reflexivity|]. split; [cbn; auto|]. split; [noin|constructor].
  - right. exists (B "More"), []. split; [reflexivity|]. split; [easyc (@nil ascii) "M"%char (B "ore")|constructor].
Qed.

(** C284. A line of text or a row in which Table: or table: stands somewhere is not cut in two: false for every line behind a blank line and behind a row. *)
Theorem C284_refuted y g x c : (S_Caption.gaps y \/ S_Caption.row_line y) -> line_text y -> line_text (x ++ B "table:" ++ g ++ c ++ []) -> x <> [] -> ~ within (B "Table:") (x ++ B "table:" ++ g ++ c ++ []) -> ~ within (B "table:") x -> S_Caption.gaps g -> trimmed c -> ~ In "}"%char c ->
  ~ fence_line (x ++ B "table:" ++ g ++ c ++ []) -> (forall w r, x <> w ++ "["%char :: r \/ ~ S_Caption.gaps w) ->
  captioned (unlines [y; x ++ B "table:" ++ g ++ c]) = Some (unlines [y; x; []; B "[" ++ c ++ B "]"]).
Proof.
  intros Y Ty Tl Zx D Nx G T Nc Nf Br. replace (x ++ B "table:" ++ g ++ c) with (x ++ B "table:" ++ g ++ c ++ []) by now rewrite app_nil_r. rewrite captioned_feed by (constructor; [exact Ty|constructor; [exact Tl|constructor]]). f_equal. rewrite feed_cons.
  assert (S1 : exists st, cap_step begin (y, [NL]) = st /\ c_code st = false /\ near st = true /\ c_out st = y ++ [NL]).
  { destruct Y as [Y|Y]; [exists (N1 ([] ++ y ++ [NL])); split; [exact (blank_step0 y [] Y)|auto]|]. eexists. split; [exact (row_step y [] Y)|auto]. }
  destruct S1 as (st & -> & C & Ne & O). rewrite feed_cons. destruct (mark_step (B "table:") x g c [] [] st) as (b1 & b3 & St & _); try assumption; [cbn; auto|now right|left; split; [constructor|reflexivity]|auto|now left|].
  rewrite St. change (feed ?x []) with x. fields. rewrite O. destruct x as [|x0 x']; [congruence|]. unfold unlines. cbn [map concat]. cbn [shown_attributes app]. rewrite app_nil_r, <- !app_assoc. reflexivity.
Qed.
Print Assumptions C284_refuted.
Example C284_refuted_case : captioned (unlines [[]; B "A vegetable: carrot."]) = Some (unlines [[]; B "A vege"; []; B "[carrot.]"])
  /\ captioned (unlines [B "|a|b|"; B "|-|-|"; B "|Timetable: see|c|"]) = Some (unlines [B "|a|b|"; B "|-|-|"; B "|Time"; []; B "[see|c|]"]).
Proof. split; vm_compute; reflexivity. Qed.

(** True for lines without a bar that do not begin with it and stand at the start or behind such lines. *)
Theorem C284_partial ls : Forall line_text ls -> Forall calm ls -> captioned (unlines ls) = Some (unlines ls).
Proof. intros F C. rewrite (captioned_feed ls F). change begin with (N0 []). now rewrite (calm_feed ls C). Qed.
Print Assumptions C284_partial.

Example C284_case : Forall calm [B "Some text"; B "A vegetable: carrot."].
Proof. constructor; [calmc (@nil ascii) "S"%char (B "ome text")|]. constructor; [calmc (@nil ascii) "A"%char (B " vegetable: carrot.")|constructor]. Qed.

(** C285. Lines in a fence stay as they are: false when a line in it starts with the other sign. *)
Theorem C285_refuted : captioned (unlines [B "```"; B "~~~"; B "Table: x"; B "```"]) = Some (unlines [B "```"; B "~~~"; []; B "[x]"; B "```"]).
Proof. vm_compute. reflexivity. Qed.
Print Assumptions C285_refuted.

(** True, up to the line ends, when all fences before are closed and no line in the fence starts as a fence does. *)
Theorem C285_partial t pre f e body post : Lines (pre ++ (f, e) :: body ++ post) -> Ended t (join (pre ++ (f, e) :: body ++ post)) -> Blocks pre -> fence_line f -> Forall (fun p => ~ fence_line (fst p)) body ->
  exists x y, captioned t = Some (x ++ unlines (f :: map fst body) ++ y).
Proof.
  intros H E P F Bd. rewrite (proj1 (captioned_exact t _ H E)). assert (En : Forall (fun p => snd p <> []) (pre ++ (f, e) :: body ++ post)) by exact (lines_closed _ _ H eq_refl (ended_closed t _ E)).
  apply Forall_app in En. destruct En as [_ En]. inversion En as [|? ? Ee En']; subst. cbn [snd] in Ee. apply Forall_app in En'. destruct En' as [Eb _]. rewrite fold_left_app. set (s := fold_left cap_step pre begin). assert (Cs : c_code s = false) by (unfold s; rewrite run_code; apply (blocks_flips pre P)).
  cbn [fold_left]. destruct (code_step s f e ltac:(rewrite Cs, (proj2 (fence_bool f) F); reflexivity) Ee) as (s1 & E1 & C1 & B1 & O1). rewrite E1, fold_left_app. destruct (code_run body Bd Eb s1 C1 B1) as (s2 & E2 & _ & O2). rewrite E2. destruct (run_mono post s2) as (y & ->).
  exists (c_out s ++ if c_buf s then [NL] else []), y. f_equal. rewrite O2, O1, unlines_cons. now rewrite <- !app_assoc.
Qed.
Print Assumptions C285_partial.

Example C285_case : captioned (unlines [B "|a|"; []; B "```"; B "Table: x"; []; []; []; B "```"]) = Some (unlines [B "|a|"; []; B "```"; B "Table: x"; []; []; []; B "```"]) /\ Blocks [(B "|a|", [NL]); ([], [NL])].
Proof. split; [vm_compute; reflexivity|]. apply blocks_line; [apply not_fence; reflexivity|]. apply blocks_line; [apply not_fence; reflexivity|constructor]. Qed.

(** C286. Whatever the line ends of the text are, the result has newlines only and, unless it is empty, ends with one. *)
Theorem C286_newlines t x : captioned t = Some x -> ~ In CR x /\ (x = [] \/ exists q, x = q ++ [NL]).
Proof.
  destruct (some_lines t) as (ls & H & E). destruct (captioned_exact t ls H E) as [-> N]. intro X. injection X as <-. split; [|exact N]. intro I. apply run_bytes in I. destruct I as [[]|[(p & P & I)|I]]; [exact (lines_no_cr ls p H P I)|]. revert I. noin.
Qed.
Print Assumptions C286_newlines.

Example C286_case : captioned (B "a" ++ [CR] ++ B "b" ++ [CR; NL] ++ B "c") = Some (unlines [B "a"; B "b"; B "c"]).
Proof. vm_compute. reflexivity. Qed.

(** C287. A paragraph behind a table and a blank line stays in one piece: false for every paragraph that begins with a bracket. *)
Theorem C287_refuted r g gs q l : line_text r -> Forall line_text (g :: gs) -> line_text ("["%char :: q) -> line_text l -> S_Caption.row_line r -> Forall S_Caption.gaps (g :: gs) -> ~ In "|"%char q -> easy l ->
  captioned (unlines ([r] ++ (g :: gs) ++ ["["%char :: q; l])) = Some (unlines [r; []; "["%char :: q; []; l]).
Proof.
  intros Tr Tg Tq Tl R G Nq El. rewrite captioned_feed; [|constructor; [exact Tr|]; apply Forall_app; split; [exact Tg|constructor; [exact Tq|constructor; [exact Tl|constructor]]]]. f_equal. rewrite feed_app, feed_cons. change begin with (N0 []). rewrite (row_step r [] R). change (feed ?x []) with x. rewrite feed_app.
  destruct (row_blanks (g :: gs) ([] ++ r ++ [NL]) false false G) as (b1 & b2 & E & _ & K). destruct (K ltac:(discriminate)) as [-> ->]. rewrite E, feed_cons, feed_cons.
  assert (O : opens ("["%char :: q) [] "[" q) by (split; [reflexivity|split; [constructor|split; discriminate]]). set (st := Cap false true true true true ([] ++ r ++ [NL])).
  assert (E1 : cap_step st ("["%char :: q, [NL]) = Cap false true false true true ((([] ++ r ++ [NL]) ++ [NL] ++ ("["%char :: q) ++ [NL]))).
  { unfold cap_step. rewrite (kinds_open st ("["%char :: q) [] "[" q O eq_refl eq_refl). rewrite no_bar by (intros [X|X]; [discriminate X|contradiction]). reflexivity. }
  rewrite E1. set (o := _ ++ [NL] ++ _). unfold cap_step. rewrite (easy_kinds l (Cap false true false true true o) El eq_refl). change (feed ?x []) with x. cbn. unfold o, unlines. cbn [map concat app]. rewrite !app_nil_r, <- !app_assoc. cbn [app]. now rewrite <- !app_assoc.
Qed.
Print Assumptions C287_refuted.
Example C287_refuted_case : captioned (unlines [B "|a|"; []; B "[See](x) this"; B "and that."]) = Some (unlines [B "|a|"; []; B "[See](x) this"; []; B "and that."]).
Proof. vm_compute. reflexivity. Qed.

(** True without the blank line (one is put before the bracket) and for paragraphs that begin otherwise. *)
Theorem C287_partial r q l gs x y : line_text r -> line_text ("["%char :: q) -> line_text l -> line_text x -> line_text y -> Forall line_text gs -> S_Caption.row_line r -> ~ In "|"%char q -> easy l -> Forall S_Caption.gaps gs -> gs <> [] -> easy x -> calm y ->
  captioned (unlines [r; "["%char :: q; l]) = Some (unlines [r; []; "["%char :: q; l]) /\ captioned (unlines ([r] ++ gs ++ [x; y])) = Some (unlines [r; []; x; y]).
Proof.
  intros Tr Tq Tl Tx Ty Tg R Nq El G Z Ex Cy. split.
  - rewrite captioned_feed by (constructor; [exact Tr|constructor; [exact Tq|constructor; [exact Tl|constructor]]]). f_equal. rewrite feed_cons. change begin with (N0 []). rewrite (row_step r [] R), feed_cons, feed_cons.
    assert (O : opens ("["%char :: q) [] "[" q) by (split; [reflexivity|split; [constructor|split; discriminate]]). set (st := Cap false true false false true ([] ++ r ++ [NL])).
    assert (E1 : cap_step st ("["%char :: q, [NL]) = Cap false true false false true ((([] ++ r ++ [NL]) ++ [NL] ++ ("["%char :: q) ++ [NL]))).
    { unfold cap_step. rewrite (kinds_open st ("["%char :: q) [] "[" q O eq_refl eq_refl). rewrite no_bar by (intros [X|X]; [discriminate X|contradiction]). reflexivity. }
    rewrite E1. set (o := _ ++ [NL] ++ _). unfold cap_step. rewrite (easy_kinds l (Cap false true false false true o) El eq_refl). change (feed ?x []) with x. cbn. unfold o, unlines. cbn [map concat app]. rewrite !app_nil_r, <- !app_assoc. cbn [app]. now rewrite <- !app_assoc.
  - rewrite captioned_feed by (constructor; [exact Tr|]; apply Forall_app; split; [exact Tg|constructor; [exact Tx|constructor; [exact Ty|constructor]]]). f_equal. rewrite feed_app, feed_cons. change begin with (N0 []). rewrite (row_step r [] R). change (feed ?x []) with x. rewrite feed_app.
    destruct (row_blanks gs ([] ++ r ++ [NL]) false false G) as (b1 & b2 & E & _ & K). destruct (K Z) as [-> ->]. rewrite E, feed_cons. set (o := [] ++ r ++ [NL]).
    assert (E1 : cap_step (Cap false true true true true o) (x, [NL]) = N0 (o ++ [NL] ++ x ++ [NL])) by (unfold cap_step; rewrite (easy_kinds x (Cap false true true true true o) Ex eq_refl); reflexivity). rewrite E1, feed_cons, (calm_step y _ Cy). change (feed ?x []) with x. cbn [N0 c_out]. unfold o, unlines. cbn [map concat app]. rewrite !app_nil_r, <- !app_assoc. cbn [app]. now rewrite <- !app_assoc.
Qed.
Print Assumptions C287_partial.

Example C287_case : captioned (unlines [B "|a|"; B "[caption]"; B "More"]) = Some (unlines [B "|a|"; []; B "[caption]"; B "More"]) /\ captioned (unlines [B "|a|"; []; B "More"; B "[and](more)"]) = Some (unlines [B "|a|"; []; B "More"; B "[and](more)"])
  /\ S_Caption.row_line (B "|a|") /\ easy (B "More") /\ calm (B "[and](more)").
Proof. split; [vm_compute; reflexivity|]. split; [vm_compute; reflexivity|]. split; [rowc (@nil ascii) "|"%char (B "a|")|]. split; [easyc (@nil ascii) "M"%char (B "ore")|calmc (@nil ascii) "["%char (B "and](more)")]. Qed.

(** C289. A line : caption behind a table, with any number of blank lines between, becomes [caption] in a paragraph of its own. *)
Theorem C289_colon pre r gs w d g c s a post : Forall line_text (pre ++ [r] ++ gs ++ [w ++ ":"%char :: d :: g ++ c ++ s] ++ post) -> Forall calm pre -> S_Caption.row_line r -> Forall S_Caption.gaps gs -> S_Caption.gaps w -> d = SP \/ d = TAB ->
  (forall m, In m table_marks -> ~ within m (w ++ ":"%char :: d :: g ++ c ++ s)) -> S_Caption.gaps g -> trimmed c -> Attributes s a -> (a = [] -> ~ In "}"%char c) -> behind post ->
  captioned (unlines (pre ++ [r] ++ gs ++ [w ++ ":"%char :: d :: g ++ c ++ s] ++ post)) = Some (unlines (pre ++ [r; []; B "[" ++ c ++ B "]" ++ shown_attributes a] ++ post)).
Proof.
  intros F P R Gs W Dd M G T A Na Bh. rewrite (captioned_feed _ F). f_equal. rewrite feed_app. change begin with (N0 []). rewrite (calm_feed pre P). rewrite feed_app, feed_cons, (row_step r _ R). change (feed ?x []) with x. rewrite feed_app.
  destruct (row_blanks gs (([] ++ unlines pre) ++ r ++ [NL]) false false Gs) as (b1 & b2 & E & _). rewrite E. rewrite feed_app, feed_cons. change (feed ?x []) with x.
  destruct (colon_step w d g c s a (Cap false true b1 b2 true (([] ++ unlines pre) ++ r ++ [NL])) W Dd G T A Na eq_refl eq_refl M) as (b3 & St). rewrite St. rewrite (behind_feed post _ _ _ Bh). fields.
  unfold unlines. rewrite !map_app, !concat_app. cbn [map concat app]. rewrite <- !app_assoc. cbn [app]. rewrite <- !app_assoc. reflexivity.
Qed.
Print Assumptions C289_colon.

Example C289_case : captioned (unlines [B "| a |"; []; B ": Some caption {.c}"; B "More"]) = Some (unlines [B "| a |"; []; B "[Some caption] {.c}"; B "More"]) /\ trimmed (B "Some caption").
Proof. split; [vm_compute; reflexivity|]. trimc "S"%char (B "ome captio") "n"%char. Qed.

(** C288. A definition, which is a line with a term and a line : text, is no caption: false for every term with a bar. *)
Theorem C288_refuted r c : line_text r -> line_text (B ": " ++ c) -> S_Caption.row_line r -> (forall m, In m table_marks -> ~ within m (B ": " ++ c)) -> trimmed c -> ~ In "}"%char c -> captioned (unlines [r; B ": " ++ c]) = Some (unlines [r; []; B "[" ++ c ++ B "]"]).
Proof.
  intros Tr Tc R M T Nc. pose proof (C289_colon [] r [] [] SP [] c [] [] []) as H. cbn [app shown_attributes] in H. rewrite !app_nil_r in H. apply H; [constructor; [exact Tr|constructor; [exact Tc|constructor]]|constructor|exact R|constructor|constructor|now left|exact M|constructor|exact T|left; split; [constructor|reflexivity]|auto|now left].
Qed.
Print Assumptions C288_refuted.
Example C288_refuted_case : captioned (unlines [B "a || b"; B ": the disjunction"]) = Some (unlines [B "a || b"; []; B "[the disjunction]"]).
Proof. vm_compute. reflexivity. Qed.

(** True for terms and texts without a bar. *)
Theorem C288_partial t c : line_text t -> line_text (B ": " ++ c) -> calm t -> ~ In "|"%char c -> captioned (unlines [t; B ": " ++ c]) = Some (unlines [t; B ": " ++ c]).
Proof.
  intros Tt Tc C N. apply C284_partial; [constructor; [exact Tt|constructor; [exact Tc|constructor]]|]. constructor; [exact C|]. constructor; [|constructor]. exists [], ":"%char, (SP :: c). split; [split; [reflexivity|split; [constructor|split; discriminate]]|].
  split; [intros (w & f & q & Q & W & F); destruct W as [|x w [-> | ->] W]; [destruct F as [-> | ->]|..]; discriminate Q|]. split; [intros [X|[X|X]]; [discriminate X|discriminate X|contradiction]|]. intros m r [<-|[<-|[]]]; discriminate.
Qed.
Print Assumptions C288_partial.

Example C288_case : calm (B "term") /\ captioned (unlines [B "term"; B ": text"]) = Some (unlines [B "term"; B ": text"]).
Proof. split; [calmc (@nil ascii) "t"%char (B "erm")|vm_compute; reflexivity]. Qed.
