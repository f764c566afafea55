(** What the JSON reader makes of what the JSON writer wrote. *)
From Coq Require Import Decimal DecimalString DecimalFacts DecimalNat.
From Verif Require Import Base BaseL M_Encode M_Json S_Json L_Json L_JsonTotal L_JsonWrite.

Lemma back_seen t : back_text t = map seen_byte t.
Proof. reflexivity. Qed.

Lemma parse_quoted t rest : json_parse_string (quoted t ++ rest) = (Some (back_text t), rest).
Proof.
  unfold json_parse_string. pose proof (parse_string_escaped [] t rest eq_refl) as E.
  cbn [app] in E. rewrite E. reflexivity.
Qed.
Lemma match_here ch rest : isspace ch = false -> match_char ch (ch :: rest) = (true, rest).
Proof. intros H. apply (match_char_ok ch []); [reflexivity|exact H]. Qed.
Lemma need_here ch rest : isspace ch = false -> need ch (ch :: rest) = Some rest.
Proof. intros H. unfold need. rewrite match_here by exact H. reflexivity. Qed.
Lemma need_not ch c rest : isspace c = false -> ceq c ch = false -> need ch (c :: rest) = None.
Proof. intros H N. unfold need, match_char. rewrite skip_ws_cons, N by exact H. reflexivity. Qed.
Lemma need_value_ok v rest : json v -> value_end rest -> need_value (v ++ rest) = Some rest.
Proof. intros H E. unfold need_value. rewrite json_skip_ok by assumption. reflexivity. Qed.
Lemma need_string_ok t rest : need_string (quoted t ++ rest) = Some (back_text t, rest).
Proof. unfold need_string. rewrite parse_quoted. reflexivity. Qed.

Lemma end_comma rest : value_end (","%char :: rest).
Proof. apply value_end_char. cbn; tauto. Qed.
Lemma end_bracket rest : value_end ("]"%char :: rest).
Proof. apply value_end_char. cbn; tauto. Qed.
Lemma end_brace rest : value_end ("}"%char :: rest).
Proof. apply value_end_char. cbn; tauto. Qed.
#[global] Hint Resolve end_comma end_bracket end_brace quoted_json attr_json html_json : core.

Lemma skip_json v rest : json v -> skip_ws (v ++ rest) = v ++ rest.
Proof. intros H. apply (skip_ws_value [] v); [reflexivity|apply json_starts, H]. Qed.

Lemma firstn_front (v rest : str) : firstn (length (v ++ rest) - length rest) (v ++ rest) = v.
Proof.
  rewrite app_length. replace (length v + length rest - length rest) with (length v) by lia.
  rewrite firstn_app, firstn_all, Nat.sub_diag. cbn. apply app_nil_r.
Qed.

Definition tc (tag v rest : str) : str :=
  quoted (B "t") ++ ":"%char :: quoted tag ++ ","%char :: quoted (B "c") ++ ":"%char :: v ++ rest.

Lemma quoted_head t rest : exists r, quoted t ++ rest = DQ :: r.
Proof. rewrite quoted_ok. eexists. reflexivity. Qed.
Lemma skip_quoted t rest : skip_ws (quoted t ++ rest) = quoted t ++ rest.
Proof. apply skip_json, quoted_json. Qed.
Lemma at_quoted t rest ch : ceq DQ ch = false -> ceq (at_ (quoted t ++ rest) 0) ch = false.
Proof. destruct (quoted_head t rest) as (r & ->). auto. Qed.

Lemma inl_obj fuel tag v rest : json v -> 3 <= fuel -> back_text tag = tag ->
  inl_fields fuel None None (tc tag v ("}"%char :: rest)) = Some (true, Some tag, Some v, rest).
Proof.
  intros V F T. destruct fuel as [|[|[|f]]]; try lia. unfold tc.
  cbn [inl_fields]. cbv zeta. rewrite skip_quoted, at_quoted by reflexivity.
  rewrite parse_quoted. rewrite match_here by reflexivity.
  change (seq_ (back_text (B "t")) (B "t")) with true. cbn iota.
  rewrite parse_quoted. rewrite skip_ws_cons by reflexivity.
  match goal with |- context [at_ (","%char :: ?x) 0] =>
    change (at_ (","%char :: x) 0) with ","%char end.
  rewrite ceq_refl. cbn iota. cbn [skipn].
  rewrite skip_quoted, at_quoted by reflexivity. rewrite parse_quoted, match_here by reflexivity.
  change (seq_ (back_text (B "c")) (B "t")) with false.
  change (seq_ (back_text (B "c")) (B "c")) with true. cbn iota.
  rewrite skip_json by exact V. rewrite json_skip_ok by auto.
  rewrite firstn_front. rewrite skip_ws_cons by reflexivity. rewrite T.
  match goal with |- context [at_ ("}"%char :: ?x) 0] =>
    change (at_ ("}"%char :: x) 0) with "}"%char end.
  change (ceq "}" ",") with false. cbn iota.
  rewrite skip_ws_cons by reflexivity. cbn. reflexivity.
Qed.

Lemma blk_obj fuel tag v rest : json v -> 3 <= fuel -> back_text tag = tag ->
  blk_fields fuel None None (tc tag v ("}"%char :: rest)) = Some (Some (tag, v), rest).
Proof.
  intros V F T. destruct fuel as [|[|[|f]]]; try lia. unfold tc.
  cbn [blk_fields]. cbv zeta. rewrite skip_quoted, at_quoted by reflexivity.
  rewrite parse_quoted. rewrite match_here by reflexivity.
  change (seq_ (back_text (B "t")) (B "t")) with true. cbn iota.
  rewrite parse_quoted. rewrite skip_ws_cons by reflexivity.
  match goal with |- context [at_ (","%char :: ?x) 0] =>
    change (at_ (","%char :: x) 0) with ","%char end.
  rewrite ceq_refl. cbn iota. cbn [skipn].
  rewrite skip_quoted, at_quoted by reflexivity. rewrite parse_quoted, match_here by reflexivity.
  change (seq_ (back_text (B "c")) (B "t")) with false.
  change (seq_ (back_text (B "c")) (B "c")) with true. cbn iota.
  rewrite skip_json by exact V. rewrite json_skip_ok by auto.
  rewrite firstn_front. rewrite skip_ws_cons by reflexivity. rewrite T.
  match goal with |- context [at_ ("}"%char :: ?x) 0] =>
    change (at_ ("}"%char :: x) 0) with "}"%char end.
  change (ceq "}" ",") with false. cbn iota.
  rewrite skip_ws_cons by reflexivity. cbn. reflexivity.
Qed.

Lemma tc_len tag v rest : length v + length rest + 2 <= length (tc tag v rest).
Proof. unfold tc. repeat (rewrite app_length; cbn [length]). lia. Qed.

(** Every inline element is written as an object. *)
Definition inl_tag (n : inl) : str :=
  match n with
  | IText _ | IOther _ => B "Str" | ISoft => B "SoftBreak" | ILine => B "LineBreak"
  | ICode _ => B "Code" | IEmph _ => B "Emph" | IStrong _ => B "Strong"
  | ILink _ _ _ => B "Link" | IImage _ _ _ => B "Image" | IHtml _ => B "RawInline"
  end.
Definition inl_val (n : inl) : str :=
  match n with
  | IText t | IOther t => quoted t | ISoft | ILine => B "[]"
  | ICode t => B "[" ++ attr_empty ++ B "," ++ quoted t ++ B "]"
  | IEmph l | IStrong l => B "[" ++ write_inlines l ++ B "]"
  | ILink u t l | IImage u t l => B "[" ++ attr_empty ++ B "," ++ write_inlines l ++
      B ",[" ++ quoted u ++ B "," ++ quoted t ++ B "]]"
  | IHtml t => B "[""html""," ++ quoted t ++ B "]"
  end.
Lemma inl_shape n rest : write_inline n ++ rest = "{"%char :: tc (inl_tag n) (inl_val n) ("}"%char :: rest).
Proof.
  destruct n; cbn [write_inline inl_tag inl_val]; unfold tc;
    repeat rewrite <- app_assoc; try reflexivity;
    unfold write_inlines; repeat rewrite <- app_assoc; reflexivity.
Qed.
Lemma inl_val_json n : json (inl_val n).
Proof.
  destruct n; cbn [inl_val]; auto; try (apply (j_array0 []); reflexivity).
  - apply (array_join [attr_empty; quoted lit]). fall.
  - pose proof (inlines_json kids). apply (array_join [write_inlines kids]). fall.
  - pose proof (inlines_json kids). apply (array_join [write_inlines kids]). fall.
  - pose proof (inlines_json kids) as J.
    pose proof (array_join [quoted url; quoted title] ltac:(fall)) as T.
    pose proof (array_join [attr_empty; write_inlines kids; _] ltac:(repeat (apply Forall_cons; [first [exact T|auto]|]); apply Forall_nil)) as X.
    cbn [join] in X. repeat rewrite <- app_assoc in X. exact X.
  - pose proof (inlines_json kids) as J.
    pose proof (array_join [quoted url; quoted title] ltac:(fall)) as T.
    pose proof (array_join [attr_empty; write_inlines kids; _] ltac:(repeat (apply Forall_cons; [first [exact T|auto]|]); apply Forall_nil)) as X.
    cbn [join] in X. repeat rewrite <- app_assoc in X. exact X.
  - apply (array_join [B """html"""; quoted lit]). fall.
Qed.

Definition reads_inline (n : inl) : Prop := forall fuel kids rest,
  2 * length (write_inline n) + 2 <= fuel ->
  inl_loop fuel kids (write_inline n ++ rest) =
    let s3 := skip_ws rest in
    if ceq (at_ s3 0) "," then inl_loop (fuel - 1) (kids ++ back_inline n) (skipn 1 s3)
    else Some (kids ++ back_inline n, s3).

Lemma code_text_ok v t rest : json v ->
  code_text (B "[" ++ v ++ B "," ++ quoted t ++ rest) = Some (back_text t).
Proof.
  intros V. unfold code_text. cbn [B list_ascii_of_string app].
  rewrite need_here by reflexivity. cbn [bind]. rewrite need_value_ok by auto. cbn [bind].
  rewrite need_here by reflexivity. cbn [bind]. rewrite need_string_ok. reflexivity.
Qed.

Lemma loop_reads l : l <> [] -> Forall reads_inline l -> forall fuel kids rest,
  2 * length (join (B ",") (map write_inline l)) + 2 <= fuel ->
  inl_loop fuel kids (join (B ",") (map write_inline l) ++ "]"%char :: rest) =
    Some (kids ++ flat_map back_inline l, "]"%char :: rest).
Proof.
  intros N H. induction H as [|x l Hx Hl IH]; [congruence|]. intros fuel kids rest F.
  destruct l as [|y l].
  - cbn [map join flat_map] in *. rewrite Hx by lia. rewrite skip_ws_cons by reflexivity.
    cbn. rewrite app_nil_r. reflexivity.
  - assert (NE : map write_inline (y :: l) <> []) by discriminate.
    change (map write_inline (x :: y :: l)) with (write_inline x :: map write_inline (y :: l)) in *.
    rewrite join_cons in * by exact NE. rewrite !app_length in F. cbn [length B list_ascii_of_string] in F.
    rewrite <- !app_assoc. rewrite Hx by lia. cbn [B list_ascii_of_string app].
    rewrite skip_ws_cons by reflexivity. cbv zeta.
    match goal with |- context [at_ (","%char :: ?x) 0] =>
      change (at_ (","%char :: x) 0) with ","%char end.
    rewrite ceq_refl. cbn iota. cbn [skipn]. change (join [","%char]) with (join (B ",")) in *. rewrite IH; [|discriminate|lia].
    cbn [flat_map]. rewrite <- app_assoc. reflexivity.
Qed.

Lemma inlines_head l rest : l <> [] -> exists r,
  join (B ",") (map write_inline l) ++ rest = "{"%char :: r.
Proof.
  intros N. destruct l as [|x [|y l]]; [congruence| |].
  - cbn [map join]. rewrite inl_shape. eauto.
  - change (map write_inline (x :: y :: l)) with (write_inline x :: map write_inline (y :: l)).
    rewrite join_cons by discriminate. rewrite <- app_assoc. rewrite inl_shape. eauto.
Qed.

Lemma inlines_read l : Forall reads_inline l -> forall fuel rest,
  2 * length (write_inlines l) + 1 <= fuel ->
  parse_inlines fuel (write_inlines l ++ rest) = Some (back_inlines l, rest).
Proof.
  intros H fuel rest F. destruct fuel as [|fuel]; [lia|]. cbn [parse_inlines].
  unfold write_inlines in *. rewrite !app_length in F. cbn [length B list_ascii_of_string] in F.
  rewrite <- !app_assoc. cbn [B list_ascii_of_string app]. rewrite match_here by reflexivity. cbv zeta.
  destruct l as [|x l].
  - cbn [map join app]. rewrite skip_ws_cons by reflexivity. cbn. reflexivity.
  - set (L := x :: l) in *. assert (L <> []) as N by discriminate.
    destruct (inlines_head L ("]"%char :: rest) N) as (r & E).
    change (join [","%char]) with (join (B ",")) in *. rewrite E. rewrite skip_ws_cons by reflexivity. rewrite <- E.
    assert (ceq (at_ (join (B ",") (map write_inline L) ++ "]"%char :: rest) 0) "]" = false) as ->
      by (rewrite E; reflexivity).
    rewrite loop_reads; [|exact N|exact H|lia]. rewrite match_here by reflexivity. reflexivity.
Qed.

Lemma reads_inline_all n : reads_inline n.
Proof.
  induction n using inl_ind2; intros fuel kids rest F;
    rewrite inl_shape; (destruct fuel as [|fuel]; [lia|]); cbn [inl_loop]; cbv zeta;
    rewrite skip_ws_cons by reflexivity;
    (match goal with |- context [at_ ("{"%char :: ?x) 0] =>
      change (at_ ("{"%char :: x) 0) with "{"%char end);
    rewrite ceq_refl; cbn [negb skipn];
    (rewrite inl_obj; [|apply inl_val_json|cbn [length]; pose proof (tc_len (inl_tag ISoft) [] []); cbn [length]|reflexivity]);
    try (unfold tc; repeat (rewrite app_length; cbn [length]); lia);
    cbn [inl_tag]; replace (S fuel - 1) with fuel by lia.
  - cbn [seq_ B list_ascii_of_string]. change (seq_ (B "Str") (B "Str")) with true. cbn iota.
    cbn [inl_val]. rewrite <- (app_nil_r (quoted t)), need_string_ok. reflexivity.
  - reflexivity.
  - reflexivity.
  - change (seq_ (B "Code") (B "Str")) with false. change (seq_ (B "Code") (B "SoftBreak")) with false.
    change (seq_ (B "Code") (B "LineBreak")) with false.
    change (seq_ (B "Code") (B "Emph") || seq_ (B "Code") (B "Strong")) with false.
    change (seq_ (B "Code") (B "Code")) with true. cbn iota. cbn [inl_val].
    rewrite code_text_ok by auto. reflexivity.
  - change (seq_ (B "Emph") (B "Str")) with false. change (seq_ (B "Emph") (B "SoftBreak")) with false.
    change (seq_ (B "Emph") (B "LineBreak")) with false.
    change (seq_ (B "Emph") (B "Emph") || seq_ (B "Emph") (B "Strong")) with true.
    change (seq_ (B "Emph") (B "Emph")) with true. cbn iota. cbn [inl_val].
    cbn [B list_ascii_of_string app]. rewrite need_here by reflexivity.
    assert (E : skip_ws (write_inlines l ++ ["]"%char]) = write_inlines l ++ ["]"%char])
      by (apply skip_json, inlines_json). rewrite E.
    change (ceq (at_ (write_inlines l ++ ["]"%char]) 0) "]") with false. cbn iota.
    rewrite inlines_read; [reflexivity|exact H|].
    change (write_inline (IEmph l)) with (B "{""t"":""Emph"",""c"":[" ++ write_inlines l ++ B "]}") in F.
    rewrite !app_length in F. change (length (B "]}")) with 2 in F. lia.
  - change (seq_ (B "Strong") (B "Str")) with false. change (seq_ (B "Strong") (B "SoftBreak")) with false.
    change (seq_ (B "Strong") (B "LineBreak")) with false.
    change (seq_ (B "Strong") (B "Emph") || seq_ (B "Strong") (B "Strong")) with true.
    change (seq_ (B "Strong") (B "Emph")) with false. cbn iota. cbn [inl_val].
    cbn [B list_ascii_of_string app]. rewrite need_here by reflexivity.
    assert (E : skip_ws (write_inlines l ++ ["]"%char]) = write_inlines l ++ ["]"%char])
      by (apply skip_json, inlines_json). rewrite E.
    change (ceq (at_ (write_inlines l ++ ["]"%char]) 0) "]") with false. cbn iota.
    rewrite inlines_read; [reflexivity|exact H|].
    change (write_inline (IStrong l)) with (B "{""t"":""Strong"",""c"":[" ++ write_inlines l ++ B "]}") in F.
    rewrite !app_length in F. change (length (B "]}")) with 2 in F. lia.
  - reflexivity.
  - reflexivity.
  - change (seq_ (B "RawInline") (B "Str")) with false. change (seq_ (B "RawInline") (B "SoftBreak")) with false.
    change (seq_ (B "RawInline") (B "LineBreak")) with false.
    change (seq_ (B "RawInline") (B "Emph") || seq_ (B "RawInline") (B "Strong")) with false.
    change (seq_ (B "RawInline") (B "Code")) with false.
    change (seq_ (B "RawInline") (B "Span")) with false.
    change (seq_ (B "RawInline") (B "Math")) with false.
    change (seq_ (B "RawInline") (B "RawInline")) with true. cbn iota. cbn [inl_val].
    pose proof (code_text_ok (B """html""") t (B "]") html_json) as E.
    match goal with |- context [code_text ?x] => change (code_text x) with
      (code_text (B "[" ++ B """html""" ++ B "," ++ quoted t ++ B "]")) end.
    rewrite E. reflexivity.
  - cbn [seq_ B list_ascii_of_string]. change (seq_ (B "Str") (B "Str")) with true. cbn iota.
    cbn [inl_val]. rewrite <- (app_nil_r (quoted t)), need_string_ok. reflexivity.
Qed.

Lemma write_inlines_read l fuel rest : 2 * length (write_inlines l) + 1 <= fuel ->
  parse_inlines fuel (write_inlines l ++ rest) = Some (back_inlines l, rest).
Proof. intros F. apply inlines_read; [|exact F]. apply Forall_forall. intros. apply reads_inline_all. Qed.

(** ** Blocks *)
Definition items_text (items : list (list blk)) : str :=
  join (B ",") (map (fun it => B "[" ++ join (B ",") (map write_block it) ++ B "]") items).

Definition blk_tag (b : blk) : str :=
  match b with
  | BPara _ | BOther _ => B "Para" | BHead _ _ => B "Header" | BRule => B "HorizontalRule"
  | BHtml _ => B "RawBlock" | BCode _ _ => B "CodeBlock"
  | BList true _ _ => B "OrderedList" | BList false _ _ => B "BulletList"
  | BQuote _ => B "BlockQuote"
  end.
Definition code_attr (lang : str) : str :=
  B "[" ++ quoted [] ++ B ",[" ++ (if 0 <? length lang then quoted lang else []) ++
  B "],[]]".
(** The value of "c", for the blocks written as well-formed objects. *)
Definition blk_val (b : blk) : str :=
  match b with
  | BPara l => write_inlines l
  | BHead level l => B "[" ++ dec (if level <=? 0 then 1 else level) ++ B "," ++
      attr_empty ++ B "," ++ write_inlines l ++ B "]"
  | BRule => B "[]"
  | BHtml t => B "[""html""," ++ quoted t ++ B "]"
  | BCode _ t => B "[["""",[""inc""],[[""inc"",""yes""]]]," ++ quoted (chop_nl t) ++ B "]"
  | BList _ _ items => B "[" ++ items_text items ++ B "]"
  | BQuote l => B "[" ++ write_blocks l ++ B "]"
  | BOther t => B "[{""t"":""Str"",""c"":" ++ quoted t ++ B "}]"
  end.

Lemma blk_shape b rest : plain_blocks b ->
  write_block b ++ rest = "{"%char :: tc (blk_tag b) (blk_val b) ("}"%char :: rest).
Proof.
  intros P. destruct b; cbn [write_block blk_tag blk_val]; unfold tc;
    try (repeat rewrite <- app_assoc; reflexivity).
  - cbn in P. subst lang. repeat rewrite <- app_assoc. reflexivity.
  - destruct P as [-> _]. repeat rewrite <- app_assoc. reflexivity.
Qed.

Lemma blk_head b rest : exists r, write_block b ++ rest = "{"%char :: r.
Proof. destruct b; try (eexists; reflexivity). cbn [write_block]. destruct ordered; eexists; reflexivity. Qed.

Lemma items_json items : Forall (Forall plain_blocks) items -> json (B "[" ++ items_text items ++ B "]").
Proof.
  intros P. apply array_join. rewrite Forall_map. apply Forall_forall. intros it I.
  apply array_join. rewrite Forall_map. apply Forall_forall. intros b Ib. apply block_json.
  rewrite Forall_forall in P. specialize (P it I). rewrite Forall_forall in P. auto.
Qed.

Lemma blk_val_json b : plain_blocks b -> json (blk_val b).
Proof.
  intros P. destruct b; cbn [blk_val].
  - apply inlines_json.
  - pose proof (dec_json (if level <=? 0 then 1 else level)). pose proof (inlines_json kids).
    pose proof (array_join [dec (if level <=? 0 then 1 else level); attr_empty; write_inlines kids] ltac:(fall)) as X.
    cbn [join] in X. repeat rewrite <- app_assoc in X. exact X.
  - apply (j_array0 []). reflexivity.
  - apply (array_join [B """html"""; quoted lit]). fall.
  - assert (json (B "["""",[""inc""],[[""inc"",""yes""]]]")) as A.
    { assert (json (B """inc""")) by (apply (j_string (B "inc")); body).
      assert (json (B """yes""")) by (apply (j_string (B "yes")); body).
      pose proof (array_join [B """inc"""; B """yes"""] ltac:(fall)).
      pose proof (array_join [B "[""inc"",""yes""]"] ltac:(fall)) as A2.
      pose proof (array_join [B """inc"""] ltac:(fall)) as A3.
      exact (array_join [quoted []; B "[""inc""]"; B "[[""inc"",""yes""]]"] ltac:(fall)). }
    apply (array_join [B "["""",[""inc""],[[""inc"",""yes""]]]"; quoted (chop_nl lit)]). fall.
  - apply items_json. apply plain_list in P as [_ P]. exact P.
  - apply blocks_json. apply plain_quote in P. exact P.
  - assert (json (B "{""t"":""Str"",""c"":" ++ quoted lit ++ B "}")) as J
      by (apply (obj_tc (B "Str")); [body|auto]).
    pose proof (array_join [_] ltac:(apply Forall_cons; [exact J|apply Forall_nil])) as X.
    cbn [join] in X. repeat rewrite <- app_assoc in X. exact X.
Qed.

(** Reading a decimal number back. *)
Lemma isdigit_not c : isdigit c = true -> isspace c = false /\ ceq c "-" = false.
Proof.
  assert (forall c, implb (isdigit c) (negb (isspace c) && negb (ceq c "-")) = true) as H
    by (apply byte_forall; vm_compute; reflexivity).
  specialize (H c). intros D. rewrite D in H. cbn [implb] in H.
  rewrite andb_true_iff, !negb_true_iff in H. exact H.
Qed.

Lemma parse_int_dec n c rest : isdigit c = false ->
  json_parse_int (dec n ++ c :: rest) = (Z.of_nat n, c :: rest).
Proof.
  intros N. unfold json_parse_int.
  pose proof (dec_digits n) as [D1 D2]. pose proof (dec_value n) as V.
  destruct (dec n) as [|d ds] eqn:E; [congruence|].
  assert (isdigit d = true) as Dd by (simpl in D2; apply andb_true_iff in D2; tauto).
  destruct (isdigit_not d Dd) as [S1 S2].
  change ((d :: ds) ++ c :: rest) with (d :: (ds ++ c :: rest)).
  rewrite skip_ws_cons by exact S1.
  change (at_ (d :: (ds ++ c :: rest)) 0) with d. rewrite S2.
  change (d :: (ds ++ c :: rest)) with ((d :: ds) ++ c :: rest).
  rewrite span_digits_stop by assumption. unfold digits_value in V. rewrite V. reflexivity.
Qed.

Definition reads_as (f : fate) (rest : str) : option (option (list blk) * str) :=
  match f with
  | Back b => Some (Some [b], rest)
  | Lost => Some (None, rest)
  | Ends => Some (None, B "]}" ++ rest)
  end.

Lemma tc_fuel tag v rest : 3 <= S (length (tc tag v rest)).
Proof. pose proof (tc_len tag v rest). lia. Qed.

Ltac tags :=
  repeat match goal with
  | |- context [seq_ (B ?tag) (B ?x)] =>
      let r := eval vm_compute in (seq_ (B tag) (B x)) in
      change (seq_ (B tag) (B x)) with r
  end; cbn [orb]; cbn iota.

Lemma skipn_app_here (v rest : str) : v ++ rest = v ++ rest. Proof. reflexivity. Qed.

Lemma plain_block_reads b rest fuel : plain_blocks b -> 3 <= fuel ->
  parse_block fuel (write_block b ++ rest) = reads_as (block_fate b) rest.
Proof.
  intros P F. destruct fuel as [|fuel]; [lia|]. rewrite blk_shape by exact P. cbn [parse_block].
  rewrite match_here by reflexivity. rewrite blk_obj; [|apply blk_val_json, P|apply tc_fuel|destruct b; try reflexivity; destruct ordered; reflexivity].
  cbv zeta. destruct b as [l|level l| |t|lang t|ordered start items|l|t].
  - cbn [blk_tag blk_val block_fate reads_as]. tags.
    rewrite <- (app_nil_r (write_inlines l)), write_inlines_read; [reflexivity|].
    rewrite app_nil_r. lia.
  - cbn [blk_tag blk_val block_fate reads_as]. tags.
    cbn [B list_ascii_of_string app]. rewrite need_here by reflexivity.
    rewrite parse_int_dec by reflexivity. rewrite need_here by reflexivity. cbn [bind].
    rewrite need_value_ok by auto. cbn [bind]. rewrite need_here by reflexivity.
    rewrite write_inlines_read by (rewrite app_length; lia).
    f_equal. f_equal. f_equal. f_equal. f_equal.
    unfold set_level. destruct level as [|level]; [reflexivity|].
    destruct (Nat.leb_spec (S level) 0); [lia|].
    destruct (Z.leb_spec (Z.of_nat (S level)) 0); [lia|].
    destruct (Nat.eqb_spec (S level) 0); [lia|].
    destruct (Z.leb_spec (Z.of_nat (S level)) 6); destruct (Nat.leb_spec (S level) 6); try lia.
    all: try reflexivity.
  - reflexivity.
  - cbn [blk_tag blk_val block_fate reads_as]. tags.
    match goal with |- context [need "[" ?x] => change (need "[" x) with
      (need "[" ("["%char :: B """html""" ++ ","%char :: quoted t ++ B "]")) end.
    rewrite need_here by reflexivity. cbn [bind]. rewrite need_value_ok by auto. cbn [bind].
    rewrite need_here by reflexivity. cbn [bind]. rewrite need_string_ok. cbn [bind].
    reflexivity.
  - cbn in P. subst lang. cbn [blk_tag blk_val block_fate reads_as].
    change (seq_ (B "inc") (B "inc")) with true. tags. cbn [reads_as].
    match goal with |- context [code_block ?x] => set (c := x) end.
    assert (code_block c = Some (B "inc", back_text (chop_nl t))) as ->; [|reflexivity].
    unfold c, code_block.
    match goal with |- context [need "[" ?x] => change (need "[" x) with
      (need "[" ("["%char :: "["%char :: quoted [] ++ ","%char :: "["%char :: quoted (B "inc") ++
         "]"%char :: ","%char :: B "[[""inc"",""yes""]]" ++ "]"%char :: ","%char :: quoted (chop_nl t) ++ B "]")) end.
    rewrite need_here by reflexivity. cbn [bind]. rewrite need_here by reflexivity. cbn [bind].
    rewrite parse_quoted. cbn [snd]. rewrite need_here by reflexivity. cbn [bind].
    rewrite need_here by reflexivity. cbn [bind]. rewrite skip_quoted.
    rewrite at_quoted by reflexivity. rewrite parse_quoted.
    rewrite need_here by reflexivity. cbn [bind]. rewrite need_here by reflexivity. cbn [bind].
    rewrite need_value_ok; [|clear|auto].
    2:{ assert (json (B """inc""")) by (apply (j_string (B "inc")); body).
      assert (json (B """yes""")) by (apply (j_string (B "yes")); body).
      pose proof (array_join [B """inc"""; B """yes"""] ltac:(fall)).
      exact (array_join [B "[""inc"",""yes""]"] ltac:(fall)). }
    cbn [bind]. rewrite need_here by reflexivity. cbn [bind]. rewrite need_here by reflexivity. cbn [bind].
    rewrite need_string_ok. reflexivity.
  - destruct P as [-> _]. cbn [blk_tag blk_val]. tags.
    cbn [B list_ascii_of_string app]. rewrite need_here by reflexivity. cbn [bind].
    destruct items as [|[|x it] items].
    + reflexivity.
    + unfold items_text. destruct items as [|it2 items].
      * cbn [map join B list_ascii_of_string app]. rewrite need_here by reflexivity.
        destruct fuel as [|fuel]; [lia|]. reflexivity.
      * cbn [map]. rewrite join_cons by discriminate. cbn [join B list_ascii_of_string app].
        rewrite need_here by reflexivity. rewrite skip_ws_cons by reflexivity.
        destruct fuel as [|fuel]; [lia|]. cbn [list_loop].
        match goal with |- context [at_ ("]"%char :: ?x) 0] =>
          change (at_ ("]"%char :: x) 0) with "]"%char end. rewrite ceq_refl. cbn iota.
        rewrite need_here by reflexivity. cbn [bind]. rewrite need_not by reflexivity. reflexivity.
    + assert (exists r, items_text ((x :: it) :: items) ++ ["]"%char] = "["%char :: "{"%char :: r) as (r & ->).
      { unfold items_text. cbn [map].
        assert (exists r, forall k, B "[" ++ join (B ",") (write_block x :: map write_block it) ++ k = "["%char :: "{"%char :: r ++ k) as (r & R).
        { destruct (map write_block it) as [|y l].
          - destruct (blk_head x []) as (r & E). rewrite app_nil_r in E. exists r. intros k. cbn [join]. rewrite E. reflexivity.
          - destruct (blk_head x (B "," ++ join (B ",") (y :: l))) as (r & E). exists r. intros k.
            rewrite join_cons by discriminate. rewrite E. reflexivity. }
        destruct items as [|it2 items].
        - cbn [map join]. rewrite <- !app_assoc. rewrite R. eauto.
        - cbn [map]. rewrite join_cons by discriminate. rewrite <- !app_assoc. rewrite R. eauto. }
      rewrite need_here by reflexivity. rewrite skip_ws_cons by reflexivity.
      destruct fuel as [|fuel]; [lia|]. cbn [list_loop].
      match goal with |- context [at_ ("{"%char :: ?x) 0] =>
          change (at_ ("{"%char :: x) 0) with "{"%char end. change (ceq "{" "]") with false. cbn iota.
      rewrite need_not by reflexivity. reflexivity.
  - cbn [blk_tag blk_val]. tags. cbn [B list_ascii_of_string app].
    rewrite need_here by reflexivity. destruct l as [|x l].
    + destruct fuel as [|fuel]; [lia|]. reflexivity.
    + assert (exists r, write_blocks (x :: l) ++ ["]"%char] = "{"%char :: r) as (r & ->).
      { unfold write_blocks. destruct l as [|y l].
        - cbn [map join]. apply blk_head.
        - cbn [map]. rewrite join_cons by discriminate. rewrite <- app_assoc. apply blk_head. }
      destruct fuel as [|fuel]; [lia|]. cbn [parse_blocks]. unfold match_char.
      rewrite skip_ws_cons by reflexivity. change (ceq "{" "[") with false. cbn iota.
      rewrite need_not by reflexivity. reflexivity.
  - cbn [blk_tag blk_val block_fate reads_as]. tags.
    pose proof (write_inlines_read [IOther t]) as X. cbn [write_inlines map join] in X.
    match goal with |- context [parse_inlines ?f ?x] =>
      specialize (X f []); change (parse_inlines f x) with (parse_inlines f (x)) end.
    rewrite app_nil_r in X.
    assert (E : B "[" ++ write_inline (IOther t) ++ B "]" = B "[{""t"":""Str"",""c"":" ++ quoted t ++ B "}]").
    { cbn [write_inline]. repeat rewrite <- app_assoc. reflexivity. }
    unfold write_inlines in X. cbn [map join] in X. rewrite E in X. rewrite X by lia. reflexivity.
Qed.

Lemma code_attr_json lang : json (code_attr lang).
Proof.
  unfold code_attr. assert (json (B "[]")) as E by (apply (j_array0 []); reflexivity).
  destruct (0 <? length lang).
  - pose proof (array_join [quoted lang] ltac:(fall)) as A. cbn [join] in A.
    pose proof (array_join [quoted []; _; B "[]"]
      ltac:(repeat (apply Forall_cons; [first [exact A|auto]|]); apply Forall_nil)) as X.
    cbn [join] in X. repeat rewrite <- app_assoc in X. exact X.
  - exact (array_join [quoted []; B "[]"; B "[]"] ltac:(fall)).
Qed.

Lemma tc_open tag v rest fuel : json_skip_value (v ++ rest) = Some (true, rest) -> starts_value v ->
  back_text tag = tag ->
  blk_fields (S (S fuel)) None None (tc tag v rest) =
    let s5 := skip_ws rest in
    blk_fields fuel (Some tag) (Some v) (if ceq (at_ s5 0) "," then skipn 1 s5 else s5).
Proof.
  intros V SV T. unfold tc.
  cbn [blk_fields]. cbv zeta. rewrite skip_quoted, at_quoted by reflexivity.
  rewrite parse_quoted. rewrite match_here by reflexivity.
  change (seq_ (back_text (B "t")) (B "t")) with true. cbn iota.
  rewrite parse_quoted. rewrite skip_ws_cons by reflexivity.
  match goal with |- context [at_ (","%char :: ?x) 0] =>
    change (at_ (","%char :: x) 0) with ","%char end.
  rewrite ceq_refl. cbn iota. cbn [skipn].
  rewrite skip_quoted, at_quoted by reflexivity. rewrite parse_quoted, match_here by reflexivity.
  change (seq_ (back_text (B "c")) (B "t")) with false.
  change (seq_ (back_text (B "c")) (B "c")) with true. cbn iota.
  assert (skip_ws (v ++ rest) = v ++ rest) as ->
    by (apply (skip_ws_value [] v); [reflexivity|exact SV]).
  rewrite V, firstn_front, T. reflexivity.
Qed.

Lemma code_block_ends lang t rest fuel : seq_ lang (B "inc") = false -> 1 <= fuel ->
  parse_block fuel (write_block (BCode lang t) ++ rest) = reads_as Ends rest.
Proof.
  intros N F. destruct fuel as [|fuel]; [lia|].
  assert (write_block (BCode lang t) ++ rest = "{"%char ::
    tc (B "CodeBlock") (B "[" ++ code_attr lang ++ B "]") (","%char :: quoted (chop_nl t) ++ B "]}" ++ rest)) as ->.
  { cbn [write_block]. rewrite N. unfold tc, code_attr. repeat rewrite <- app_assoc. reflexivity. }
  cbn [parse_block]. rewrite match_here by reflexivity.
  match goal with |- context [S (length ?x)] => set (n := length x) end.
  assert (3 <= n) as Hn by (unfold n, tc; repeat (rewrite app_length; cbn [length]); lia).
  clearbody n. destruct n as [|[|n]]; try lia.
  pose proof (code_attr_json lang) as J.
  pose proof (array_join [code_attr lang] ltac:(fall)) as A. cbn [join] in A.
  rewrite tc_open; [|apply json_skip_ok; [exact A|auto]|apply json_starts; exact A|reflexivity].
  cbv zeta. rewrite skip_ws_cons by reflexivity.
  match goal with |- context [at_ (","%char :: ?x) 0] =>
    change (at_ (","%char :: x) 0) with ","%char end. rewrite ceq_refl. cbn iota. cbn [skipn].
  cbn [blk_fields]. cbv zeta. rewrite skip_quoted, at_quoted by reflexivity.
  rewrite parse_quoted. unfold match_char. cbn [B list_ascii_of_string app].
  rewrite skip_ws_cons by reflexivity. change (ceq "]" ":") with false. reflexivity.
Qed.

Lemma ordered_head n : json (B "[" ++ dec n ++ B ",""Decimal"",""Period""]").
Proof.
  assert (json (B """Decimal""")) by (apply (j_string (B "Decimal")); body).
  assert (json (B """Period""")) by (apply (j_string (B "Period")); body).
  pose proof (dec_json n).
  pose proof (array_join [dec n; B """Decimal"""; B """Period"""] ltac:(fall)) as X.
  cbn [join] in X. repeat rewrite <- app_assoc in X. exact X.
Qed.

Lemma ordered_lost start items rest fuel : Forall (Forall plain_blocks) items -> 1 <= fuel ->
  parse_block fuel (write_block (BList true start items) ++ rest) = reads_as Lost rest.
Proof.
  intros P F. destruct fuel as [|fuel]; [lia|].
  set (h := B "[" ++ dec (if start <=? 0 then 1 else start) ++ B ",""Decimal"",""Period""]").
  set (its := B "[" ++ items_text items ++ B "]").
  assert (write_block (BList true start items) ++ rest = "{"%char ::
    tc (B "OrderedList") (B "[" ++ h ++ B "," ++ its) ("}"%char :: rest)) as ->.
  { cbn [write_block]. fold (items_text items). unfold tc, h, its. repeat rewrite <- app_assoc. reflexivity. }
  pose proof (ordered_head (if start <=? 0 then 1 else start)) as Jh. fold h in Jh.
  pose proof (items_json items P) as Ji. fold its in Ji.
  cbn [parse_block]. rewrite match_here by reflexivity.
  match goal with |- context [S (length ?x)] => set (n := length x) end.
  assert (3 <= n) as Hn by (unfold n, tc; repeat (rewrite app_length; cbn [length]); lia).
  clearbody n. destruct n as [|[|n]]; try lia.
  rewrite tc_open; [| |eexists _, _; split; [reflexivity|repeat split; reflexivity]|reflexivity].
  - cbv zeta. rewrite skip_ws_cons by reflexivity.
    match goal with |- context [at_ ("}"%char :: ?x) 0] =>
      change (at_ ("}"%char :: x) 0) with "}"%char end. change (ceq "}" ",") with false. cbn iota.
    cbn [blk_fields]. cbv zeta. rewrite skip_ws_cons by reflexivity.
    match goal with |- context [at_ ("}"%char :: ?x) 0] =>
      change (at_ ("}"%char :: x) 0) with "}"%char end. rewrite ceq_refl. cbn iota. cbn [skipn].
    tags. unfold h. cbn [B list_ascii_of_string app]. rewrite need_here by reflexivity. cbn [bind].
    unfold json_parse_int. rewrite skip_ws_cons by reflexivity.
    match goal with |- context [at_ ("["%char :: ?x) 0] =>
      change (at_ ("["%char :: x) 0) with "["%char end. change (ceq "[" "-") with false. cbn iota.
    cbn [span]. change (isdigit "[") with false. cbn iota. rewrite need_not by reflexivity. reflexivity.
  - unfold json_skip_value, skip_fuel. rewrite <- !app_assoc. cbn [B list_ascii_of_string app].
    match goal with |- context [skip_value (2 * ?l + 3)] => set (k := 2 * l + 3) end.
    assert (length h + length its + 4 <= k) as Hk.
    { unfold k. cbn [length]. rewrite !app_length. cbn [length]. rewrite !app_length. lia. }
    clearbody k. destruct k as [|[|[|k]]]; try lia. cbn [skip_value]. rewrite skip_ws_cons by reflexivity.
    change (ceq "[" DQ) with false. change (ceq "[" "{") with false. change (ceq "[" "[") with true. cbn iota.
    rewrite skip_array_step. cbv zeta. rewrite skip_json by exact Jh.
    destruct (at_head h (","%char :: its ++ "}"%char :: rest) (json_starts h Jh)) as [-> _].
    rewrite (proj1 skip_json_ok) by (auto; lia).
    rewrite skip_ws_cons by reflexivity.
    match goal with |- context [at_ (","%char :: ?x) 0] =>
      change (at_ (","%char :: x) 0) with ","%char end. rewrite ceq_refl. cbn iota. cbn [skipn].
    rewrite skip_array_step. cbv zeta. rewrite skip_json by exact Ji.
    destruct (at_head its ("}"%char :: rest) (json_starts its Ji)) as [-> _].
    rewrite (proj1 skip_json_ok) by (auto; lia).
    rewrite skip_ws_cons by reflexivity. reflexivity.
Qed.

Lemma shallow_reads b rest fuel : shallow b -> 3 <= fuel ->
  parse_block fuel (write_block b ++ rest) = reads_as (block_fate b) rest.
Proof.
  intros S F. destruct b; try (apply plain_block_reads; [exact S|exact F]).
  - cbn [block_fate]. destruct (seq_ lang (B "inc")) eqn:E.
    + rewrite plain_block_reads; [cbn [block_fate]; rewrite E; reflexivity|apply seq_eq; exact E|exact F].
    + apply code_block_ends; [exact E|lia].
  - destruct ordered.
    + rewrite ordered_lost by (exact S || lia). reflexivity.
    + apply plain_block_reads; [|exact F]. cbn in S. cbn [plain_blocks]. split; [reflexivity|].
      induction S as [|it its Hi Hs IH]; [exact I|]. split; [|exact IH].
      induction Hi as [|b l Hb Hl IHl]; [exact I|]. split; [exact Hb|exact IHl].
Qed.

(** The array of blocks. *)
Lemma loop_blocks doc : doc <> [] -> Forall shallow doc -> forall fuel acc rest,
  2 * length (write_blocks doc) + 5 <= fuel ->
  exists l s3, blocks_loop fuel acc (write_blocks doc ++ B "]}" ++ rest) = Some (l, s3) /\
  match back_doc doc with
  | Some r => exists rest', l = acc ++ r /\ s3 = B "]}" ++ rest' 
  | None => exists rest', s3 = B ",{" ++ rest'
  end.
Proof.
  intros N H. induction H as [|b doc Hb Hd IH]; [congruence|]. intros fuel acc rest F.
  destruct fuel as [|fuel]; [lia|].
  assert (EQ : exists tl, write_blocks (b :: doc) ++ B "]}" ++ rest = write_block b ++ tl /\
     length (write_block b) <= length (write_blocks (b :: doc)) /\
     (doc = [] -> tl = B "]}" ++ rest) /\
     (doc <> [] -> tl = B "," ++ write_blocks doc ++ B "]}" ++ rest /\
        length (write_blocks doc) < length (write_blocks (b :: doc)))).
  { unfold write_blocks. destruct doc as [|y doc].
    - exists (B "]}" ++ rest). cbn [map join]. repeat split; auto; congruence.
    - exists (B "," ++ write_blocks (y :: doc) ++ B "]}" ++ rest). unfold write_blocks.
      cbn [map]. rewrite join_cons by discriminate. rewrite <- !app_assoc.
      repeat split; try congruence; rewrite !app_length; cbn [length B list_ascii_of_string]; lia. }
  destruct EQ as (tl & -> & L1 & E1 & E2).
  cbn [blocks_loop].
  assert (skip_ws (write_block b ++ tl) = write_block b ++ tl) as ->.
  { destruct (blk_head b tl) as (r & ->). apply skip_ws_cons. reflexivity. }
  rewrite shallow_reads by (exact Hb || lia). cbn [back_doc].
  destruct (block_fate b) as [b'| |] eqn:BF; cbn [reads_as].
  - destruct doc as [|y doc].
    + rewrite E1 by reflexivity. cbn [B list_ascii_of_string app]. rewrite skip_ws_cons by reflexivity.
      eexists _, _. split; [reflexivity|]. cbn [back_doc]. eexists. split; reflexivity.
    + assert (y :: doc <> []) as NE by discriminate. destruct (E2 NE) as [-> L2].
      cbn [B list_ascii_of_string app]. rewrite skip_ws_cons by reflexivity. cbv zeta.
      match goal with |- context [at_ (","%char :: ?x) 0] =>
        change (at_ (","%char :: x) 0) with ","%char end. rewrite ceq_refl. cbn iota. cbn [skipn].
      destruct (IH NE fuel (acc ++ [b']) rest) as (l & s3 & E & R); [lia|].
      exists l, s3. split; [exact E|]. destruct (back_doc (y :: doc)) as [r|].
      * destruct R as (rest' & -> & ->). exists rest'. rewrite <- app_assoc. split; reflexivity.
      * exact R.
  - destruct doc as [|y doc].
    + rewrite E1 by reflexivity. eexists _, _. split; [reflexivity|].
      eexists. rewrite app_nil_r. split; reflexivity.
    + assert (y :: doc <> []) as NE by discriminate. destruct (E2 NE) as [-> L2].
      eexists _, _. split; [reflexivity|].
      assert (exists r, write_blocks (y :: doc) ++ B "]}" ++ rest = "{"%char :: r) as (r & ->).
      { unfold write_blocks. destruct doc as [|z doc].
        - cbn [map join]. apply blk_head.
        - cbn [map]. rewrite join_cons by discriminate. rewrite <- app_assoc. apply blk_head. }
      exists r. reflexivity.
  - eexists _, _. split; [reflexivity|]. eexists. rewrite app_nil_r. split; reflexivity.
Qed.

Lemma doc_fields_step fuel acc s key rest : s = quoted key ++ ":"%char :: rest ->
  back_text key = key ->
  doc_fields (S fuel) acc s =
    let next acc s4 :=
      let s5 := skip_ws s4 in
      if ceq (at_ s5 0) "," then doc_fields fuel acc (skipn 1 s5) else Some (Some acc) in
    if seq_ key (B "blocks") then
      match parse_blocks (blk_fuel rest) rest with
      | None => None
      | Some (l, s4) => next (acc ++ match l with Some l => l | None => [] end) s4
      end
    else
      match json_skip_value rest with
      | None => None
      | Some (false, _) => Some None
      | Some (true, s4) => next acc s4
      end.
Proof.
  intros -> T. cbn [doc_fields]. cbv zeta. rewrite skip_quoted, at_quoted by reflexivity.
  rewrite parse_quoted, match_here, T by reflexivity. reflexivity.
Qed.

Lemma of_to_json doc : Forall shallow doc -> of_json (to_json doc) = Some (back_doc doc).
Proof.
  intros H. unfold of_json, to_json. cbn [B list_ascii_of_string app]. rewrite match_here by reflexivity.
  match goal with |- context [write_blocks doc ++ ?k] => change k with (B "]}") end.
  match goal with |- context [S (length ?x)] => set (n := length x) end.
  assert (4 <= n) as Hn by (unfold n; cbn [length]; lia).
  clearbody n. destruct n as [|[|[|n]]]; try lia.
  rewrite (doc_fields_step _ _ _ (B "pandoc-api-version")
    (B "[1,23,1]" ++ ","%char :: quoted (B "meta") ++ ":"%char ::
      B "{}" ++ ","%char :: quoted (B "blocks") ++ ":"%char :: "["%char :: write_blocks doc ++ B "]}"))
    by reflexivity.
  cbv zeta. change (seq_ (B "pandoc-api-version") (B "blocks")) with false. cbn iota.
  rewrite json_skip_ok; [|clear|auto].
  2:{ assert (forall s, forallb isdigit s = true -> s <> [] -> (forall r, s = "0"%char :: r -> r = []) -> json s) as N.
      { intros s D E Z. apply j_number. exists [], s, [], []. rewrite !app_nil_r. cbn [app].
        repeat split; auto. }
      assert (json (B "1")) as N1 by (apply N; [reflexivity|discriminate|intros r [= ]]).
      assert (json (B "23")) as N2 by (apply N; [reflexivity|discriminate|intros r [= ]]).
      exact (array_join [B "1"; B "23"; B "1"] ltac:(fall)). }
  rewrite skip_ws_cons by reflexivity.
  match goal with |- context [at_ (","%char :: ?x) 0] =>
    change (at_ (","%char :: x) 0) with ","%char end. rewrite ceq_refl. cbn iota. cbn [skipn].
  erewrite doc_fields_step by reflexivity.
  cbv zeta. change (seq_ (B "meta") (B "blocks")) with false. cbn iota.
  rewrite json_skip_ok; [|apply (j_object0 []); reflexivity|auto].
  rewrite skip_ws_cons by reflexivity.
  match goal with |- context [at_ (","%char :: ?x) 0] =>
    change (at_ (","%char :: x) 0) with ","%char end. rewrite ceq_refl. cbn iota. cbn [skipn].
  erewrite doc_fields_step by reflexivity.
  cbv zeta. change (seq_ (B "blocks") (B "blocks")) with true. cbn iota.
  unfold blk_fuel.
  match goal with |- context [parse_blocks ?f _] => set (k := f) end.
  assert (2 * length (write_blocks doc) + 8 <= k) as Hk
    by (unfold k; cbn [length]; rewrite app_length; cbn [length B list_ascii_of_string]; lia).
  clearbody k. destruct k as [|k]; [lia|]. cbn [parse_blocks]. rewrite match_here by reflexivity. cbv zeta.
  destruct doc as [|b doc].
  - cbn. reflexivity.
  - assert (b :: doc <> []) as NE by discriminate.
    assert (exists r, forall tl, write_blocks (b :: doc) ++ tl = "{"%char :: r ++ tl) as (r & R).
    { unfold write_blocks. destruct doc as [|z doc].
      - cbn [map join]. destruct (blk_head b []) as (r & E). rewrite app_nil_r in E. exists r. intros. rewrite E. reflexivity.
      - cbn [map]. rewrite join_cons by discriminate.
        destruct (blk_head b []) as (r & E). rewrite app_nil_r in E. 
        exists (r ++ B "," ++ join (B ",") (write_block z :: map write_block doc)). intros.
        rewrite E. reflexivity. }
    assert (skip_ws (write_blocks (b :: doc) ++ B "]}") = write_blocks (b :: doc) ++ B "]}") as ->
      by (rewrite R; apply skip_ws_cons; reflexivity).
    assert (ceq (at_ (write_blocks (b :: doc) ++ B "]}") 0) "]" = false) as -> by (rewrite R; reflexivity).
    destruct (loop_blocks (b :: doc) NE H k [] []) as (l & s3 & E & Q); [lia|].
    rewrite app_nil_r in E. rewrite E.
    destruct (back_doc (b :: doc)) as [r'|].
    + destruct Q as (rest' & -> & ->). cbn [B list_ascii_of_string app]. rewrite match_here by reflexivity.
      rewrite skip_ws_cons by reflexivity. reflexivity.
    + destruct Q as (rest' & ->). cbn [B list_ascii_of_string app]. unfold match_char.
      rewrite skip_ws_cons by reflexivity. change (ceq "," "]") with false. cbn iota.
      rewrite skip_ws_cons by reflexivity.
      match goal with |- context [at_ (","%char :: ?x) 0] =>
        change (at_ (","%char :: x) 0) with ","%char end. rewrite ceq_refl. cbn iota. cbn [skipn].
      destruct n as [|n]; [lia|reflexivity].
Qed.

(** ** Which documents survive *)
Lemma back_text_clean t : back_text t = t <-> clean t.
Proof. rewrite seen_clean. reflexivity. Qed.

Lemma back_inline_len n : length (back_inline n) <= 1.
Proof. destruct n; cbn; lia. Qed.

Lemma survive_inlines l : Forall (fun x => back_inline x = [x] <-> simple_inline x) l ->
  (back_inlines l = l <-> simple_inlines l).
Proof.
  intros H. unfold back_inlines, simple_inlines. destruct l as [|x [|y l]].
  - cbn. tauto.
  - cbn [flat_map]. rewrite app_nil_r. inversion H as [|? ? Hx _]; subst.
    pose proof (back_inline_len x) as L. rewrite firstn_all2 by exact L. exact Hx.
  - split; [|tauto]. intros E. apply (f_equal (@length inl)) in E. rewrite firstn_length in E.
    cbn [length] in E. lia.
Qed.

Lemma survive_inline n : back_inline n = [n] <-> simple_inline n.
Proof.
  induction n using inl_ind2; cbn [back_inline simple_inline]; try tauto;
    try (rewrite <- back_text_clean; split; [intros [= E]; exact E|intros ->; reflexivity]).
    pose proof (survive_inlines l H) as S. unfold simple_inlines in S.
    split; [intros [= E]; apply S; exact E|intros E; apply S in E; unfold back_inlines in E; rewrite E; reflexivity].
  - pose proof (survive_inlines l H) as S. unfold simple_inlines in S.
    split; [intros [= E]; apply S; exact E|intros E; apply S in E; unfold back_inlines in E; rewrite E; reflexivity].
  - split; [discriminate|tauto].
  - split; [discriminate|tauto].
  - split; [discriminate|tauto].
Qed.

Lemma survive_block b : block_fate b = Back b <-> simple_block b.
Proof.
  assert (S : forall l, back_inlines l = l <-> simple_inlines l)
    by (intros; apply survive_inlines, Forall_forall; intros; apply survive_inline).
  destruct b as [l|level l| |t|lang t|ordered start items|l|t]; cbn [block_fate simple_block].
  - rewrite <- S. split; [intros [= E]; exact E|intros ->; reflexivity].
  - rewrite <- S. split.
    + intros [= E1 E2]. split; [|exact E2]. destruct (Nat.eqb_spec level 0); [lia|].
      destruct (Nat.leb_spec level 6); lia.
    + intros [L ->]. destruct (Nat.eqb_spec level 0); [lia|].
      destruct (Nat.leb_spec level 6); [reflexivity|lia].
  - tauto.
  - rewrite <- back_text_clean. split; [intros [= E]; exact E|intros ->; reflexivity].
  - destruct (seq_ lang (B "inc")) eqn:E.
    + apply seq_eq in E. subst lang. split.
      * intros [= X]. assert (chop_nl t = t) as C.
        { apply (f_equal (@length ascii)) in X. unfold back_text in X. rewrite map_length in X.
          unfold chop_nl in *. destruct ((0 <? length t) && ceq (last t NUL) NL) eqn:K; [|reflexivity].
          exfalso. destruct t as [|c t] using rev_ind; [discriminate|].
          rewrite removelast_last, app_length in X. cbn in X. lia. }
        split; [reflexivity|]. split; [|exact C]. rewrite C in X. apply back_text_clean. exact X.
      * intros (_ & C & ->). apply back_text_clean in C. rewrite C. reflexivity.
    + split; [discriminate|]. intros [-> _]. discriminate.
  - split; [|tauto]. destruct ordered; [discriminate|].
    destruct items as [|[|x it] [|it2 items]]; discriminate.
  - destruct l; split; try discriminate; reflexivity.
  - split; [discriminate|tauto].
Qed.

Lemma survive_doc doc : back_doc doc = Some doc <-> Forall simple_block doc.
Proof.
  induction doc as [|b doc IH]; [split; [constructor|reflexivity]|]. cbn [back_doc]. split.
  - destruct (block_fate b) as [b'| |] eqn:F.
    + destruct (back_doc doc) as [r|]; [|discriminate]. intros [= -> ->].
      constructor; [apply survive_block; exact F|apply IH; reflexivity].
    + destruct doc; discriminate.
    + discriminate.
  - intros H. inversion H as [|? ? H1 H2]; subst. apply survive_block in H1. apply IH in H2.
    rewrite H1, H2. reflexivity.
Qed.

Lemma simple_shallow b : simple_block b -> shallow b.
Proof. destruct b; cbn; try tauto. intros ->. exact I. Qed.

(** A text the reader cannot skip is not JSON. *)
Lemma json_document_skip s : json_document s ->
  exists w, json_skip_value s = Some (true, w) /\ all_ws w.
Proof.
  intros (w1 & v & w2 & -> & W1 & V & W2). exists w2. split; [|exact W2].
  unfold json_skip_value, skip_fuel.
  match goal with |- context [skip_value ?f] => set (k := f) end.
  assert (length v <= k) as Hk by (unfold k; rewrite !app_length; lia).
  assert (value_end w2) as E2.
  { intros c r ->. unfold all_ws in W2. simpl in W2. apply andb_true_iff in W2 as [W2 _]. left; exact W2. }
  rewrite <- (proj1 skip_json_ok v V k w2 Hk E2). clearbody k. destruct k as [|k]; [reflexivity|].
  cbn [skip_value]. rewrite skip_ws_value by (exact W1 || apply json_starts, V).
  rewrite skip_json by exact V. reflexivity.
Qed.

(** ** The request sent to a text plugin *)
Lemma plugin_request_ok id phase text :
  plugin_request id phase text =
    Some (B "{ ""version"": 1, ""plugin_id"": """ ++ id ++ B """, ""phase"": """ ++ phase ++
          B """, ""text"": """ ++ escaped text ++ B """ }" ++ [NL]).
Proof. unfold plugin_request. rewrite json_escape_ok. reflexivity. Qed.

Lemma plugin_request_json id phase text : json_body id -> json_body phase ->
  json_document (B "{ ""version"": 1, ""plugin_id"": """ ++ id ++ B """, ""phase"": """ ++ phase ++
          B """, ""text"": """ ++ escaped text ++ B """ }" ++ [NL]).
Proof.
  intros Hi Hp.
  assert (json (B "1")) as N1.
  { apply j_number. exists [], (B "1"), [], []. repeat split; auto; try discriminate. }
  pose proof (m_one (B " ") (B "text") [] (B " ") _ (B " ") eq_refl ltac:(body) eq_refl eq_refl
    (j_string _ (escaped_body text)) eq_refl) as M4.
  pose proof (m_more (B " ") (B "phase") [] (B " ") _ [] _ eq_refl ltac:(body) eq_refl eq_refl
    (j_string _ Hp) eq_refl M4) as M3.
  pose proof (m_more (B " ") (B "plugin_id") [] (B " ") _ [] _ eq_refl ltac:(body) eq_refl eq_refl
    (j_string _ Hi) eq_refl M3) as M2.
  pose proof (m_more (B " ") (B "version") [] (B " ") _ [] _ eq_refl ltac:(body) eq_refl eq_refl
    N1 eq_refl M2) as M1.
  apply j_object in M1. eexists [], _, [NL]. split; [|split; [reflexivity|split; [exact M1|reflexivity]]].
  cbn [B list_ascii_of_string app]. repeat (rewrite <- app_assoc; cbn [app]). reflexivity.
Qed.

Lemma body_text_fun b t1 t2 : body_text b t1 -> body_text b t2 -> t1 = t2.
Proof.
  intros H. revert t2. induction H as [|c b t L N1 N2 H IH|e d b t I H IH|h1 h2 h3 h4 d b t X E L H IH];
    intros t2 H2; inversion H2; subst; try congruence; try (f_equal; apply IH; assumption);
    repeat match goal with
    | K : In (?e, _) _ |- _ => revert K
    end.
  - intros K1 K2. f_equal; [|apply IH; assumption].
    cbn in K1, K2. clear - K1 K2.
    repeat match goal with K : _ \/ _ |- _ => destruct K as [K|K] end; try contradiction;
    vm_compute in K1, K2; inversion K1; inversion K2; congruence.
  - intros K. cbn in K. intuition discriminate.
  - intros K. cbn in K. intuition discriminate.
  - f_equal; [|apply IH; assumption].
    match goal with K1 : code d = _, K2 : code ?d' = _ |- _ => rewrite <- K2 in K1;
      unfold code in K1; rewrite <- (ascii_N_embedding d), <- (ascii_N_embedding d'), K1; reflexivity end.
Qed.

(** ** The buffer of the string reader *)
Lemma jps_safe : forall fuel cap out p r q, 2 <= cap -> length out < cap ->
  jps_loop fuel cap out false p = Some (Some r, q) -> snd r = false.
Proof.
  induction fuel as [|fuel IH]; intros cap out p r q C L; cbn [jps_loop]; [discriminate|].
  destruct p as [|c p1]; [discriminate|].
  destruct (ceq c DQ).
  { intros [= <- _]. cbn [snd orb]. apply Nat.leb_gt. exact L. }
  assert (G : forall c' p', jps_loop fuel (if cap <=? length out + 1 then cap * 2 else cap) (out ++ [c'])
     (false || ((if cap <=? length out + 1 then cap * 2 else cap) <=? length out)) p' = Some (Some r, q) -> snd r = false).
  { intros c' p'. set (cap' := if cap <=? length out + 1 then cap * 2 else cap).
    assert (length out + 1 < cap' /\ 2 <= cap') as [H1 H2]
      by (unfold cap'; destruct (Nat.leb_spec cap (length out + 1)); lia).
    assert (cap' <=? length out = false) as -> by (apply Nat.leb_gt; lia). cbn [orb].
    apply IH; [exact H2|rewrite app_length; cbn [length]; lia]. }
  cbv zeta. destruct (ceq c BS); [|apply G]. destruct p1 as [|e p2]; [discriminate|].
  destruct (ceq e "u"); [apply G|]. destruct (ceq (unescape e) "?"); apply G.
Qed.

Lemma parse_string_safe s : exists r q, json_parse_string_full s = Some (r, q) /\
  forall t oob, r = Some (t, oob) -> oob = false.
Proof.
  unfold json_parse_string_full. destruct (skip_ws s) as [|c p]; [eexists _, _; split; [reflexivity|discriminate]|].
  destruct (ceq c DQ); [|eexists _, _; split; [reflexivity|discriminate]].
  destruct (jps_total (S (length p)) 64 [] false p) as (r' & q' & E & _); [lia|].
  exists r', q'. split; [exact E|]. intros t oob ->. apply jps_safe in E; try (cbn; lia). exact E.
Qed.

(** ** Square brackets outside strings are balanced in JSON *)
Inductive scmode := Out | InStr | InEsc.
Definition sc (st : scmode * Z) (c : ascii) : scmode * Z :=
  let (m, n) := st in
  match m with
  | Out => if ceq c DQ then (InStr, n) else if ceq c "[" then (Out, n + 1)%Z
           else if ceq c "]" then (Out, n - 1)%Z else (Out, n)
  | InStr => if ceq c DQ then (Out, n) else if ceq c BS then (InEsc, n) else (InStr, n)
  | InEsc => (InStr, n)
  end.

Lemma sc_body b : json_body b -> forall n, fold_left sc b (InStr, n) = (InStr, n).
Proof.
  intros H. induction H as [|c b L N1 N2 H IH|e b I H IH|h1 h2 h3 h4 b X H IH]; intros n.
  - reflexivity.
  - cbn [fold_left sc]. apply ceq_neq in N1, N2. rewrite N1, N2. apply IH.
  - cbn [fold_left]. change (sc (InStr, n) BS) with (InEsc, n). cbn [sc]. apply IH.
  - cbn [fold_left]. change (sc (InStr, n) BS) with (InEsc, n).
    change (sc (InEsc, n) "u") with (InStr, n).
    assert (G : forall h, hexdigit h = true -> sc (InStr, n) h = (InStr, n)).
    { intros h. assert (forall h, implb (hexdigit h) (negb (ceq h DQ) && negb (ceq h BS)) = true) as K
        by (apply byte_forall; vm_compute; reflexivity).
      specialize (K h). intros Hh. rewrite Hh in K. cbn [implb] in K.
      rewrite andb_true_iff, !negb_true_iff in K. destruct K as [K1 K2]. cbn [sc]. rewrite K1, K2. reflexivity. }
    simpl in X. rewrite !andb_true_iff in X. destruct X as (X1 & X2 & X3 & X4 & _).
    rewrite !G by assumption. apply IH.
Qed.
Lemma sc_string b : json_body b -> forall n, fold_left sc (DQ :: b ++ [DQ]) (Out, n) = (Out, n).
Proof.
  intros H n. cbn [fold_left]. rewrite fold_left_app. change (sc (Out, n) DQ) with (InStr, n).
  rewrite sc_body by exact H. reflexivity.
Qed.
Lemma sc_tok v : forallb tokc v = true -> forall n, fold_left sc v (Out, n) = (Out, n).
Proof.
  induction v as [|c v IH]; intros H n; [reflexivity|]. simpl in H. apply andb_true_iff in H as [H1 H2].
  apply tokc_token in H1 as (_ & _ & K1 & _ & K2 & K3 & _). cbn [fold_left sc]. rewrite K1, K2, K3. auto.
Qed.
Lemma sc_ws w : all_ws w -> forall n, fold_left sc w (Out, n) = (Out, n).
Proof.
  unfold all_ws. induction w as [|c v IH]; intros H n; [reflexivity|]. simpl in H. apply andb_true_iff in H as [H1 H2].
  assert (forall h, implb (json_ws h) (negb (ceq h DQ) && negb (ceq h "[") && negb (ceq h "]")) = true) as K
        by (apply byte_forall; vm_compute; reflexivity).
  specialize (K c). rewrite H1 in K. cbn [implb] in K. rewrite !andb_true_iff, !negb_true_iff in K.
  destruct K as [[K1 K2] K3]. cbn [fold_left sc]. rewrite K1, K2, K3. auto.
Qed.
Lemma sc_json :
  (forall v, json v -> forall n, fold_left sc v (Out, n) = (Out, n)) /\
  (forall es, elements es -> forall n, fold_left sc es (Out, n) = (Out, n)) /\
  (forall ms, members ms -> forall n, fold_left sc ms (Out, n) = (Out, n)).
Proof.
  assert (O : forall n, fold_left sc (B "[") (Out, n) = (Out, n + 1)%Z) by reflexivity.
  assert (C : forall n, fold_left sc (B "]") (Out, n) = (Out, n - 1)%Z) by reflexivity.
  assert (O2 : forall n, fold_left sc (B "{") (Out, n) = (Out, n)) by reflexivity.
  assert (C2 : forall n, fold_left sc (B "}") (Out, n) = (Out, n)) by reflexivity.
  assert (K : forall n, fold_left sc (B ",") (Out, n) = (Out, n)) by reflexivity.
  assert (K2 : forall n, fold_left sc (B ":") (Out, n) = (Out, n)) by reflexivity.
  apply json_mutind; intros.
  - apply sc_string; assumption.
  - apply sc_tok. apply number_tokc; assumption.
  - apply sc_tok. apply literal_tokc; assumption.
  - rewrite !fold_left_app, O, sc_ws, C by assumption. f_equal. lia.
  - rewrite !fold_left_app, O, H, C. f_equal. lia.
  - rewrite !fold_left_app, O2, sc_ws, C2 by assumption. reflexivity.
  - rewrite !fold_left_app, O2, H, C2. reflexivity.
  - rewrite !fold_left_app, sc_ws, H, sc_ws by assumption. reflexivity.
  - rewrite !fold_left_app, (sc_ws w1), H, (sc_ws w2), K, H0 by assumption. reflexivity.
  - rewrite fold_left_app, sc_ws, fold_left_app, sc_string by assumption.
    rewrite !fold_left_app, (sc_ws w2), K2, (sc_ws w3), H, (sc_ws w4) by assumption. reflexivity.
  - rewrite fold_left_app, sc_ws, fold_left_app, sc_string by assumption.
    rewrite !fold_left_app, (sc_ws w2), K2, (sc_ws w3), H, (sc_ws w4), K, H0 by assumption. reflexivity.
Qed.
Lemma json_document_balanced s : json_document s -> fold_left sc s (Out, 0%Z) = (Out, 0%Z).
Proof.
  intros (w1 & v & w2 & -> & W1 & V & W2).
  rewrite !fold_left_app, (sc_ws w1), (proj1 sc_json v V), (sc_ws w2) by assumption. reflexivity.
Qed.
