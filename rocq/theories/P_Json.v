(** Property theorems about the JSON exchanged with plugins and filters. *)
From Verif Require Import Base BaseL M_Encode M_Json S_Json L_Json L_JsonTotal L_JsonWrite L_JsonRead.

(** C10: the string literal built for a text is a JSON string body (no raw
    quote, lone backslash or control byte), it fits its buffer, and every
    conforming reading of it gives the text. *)
Theorem C10_json_escape : forall text, exists e,
  json_escape text = Some (e, false) /\ json_body e /\ body_text e text /\
  forall t, body_text e t -> t = text.
Proof.
  intros text. exists (escaped text).
  refine (conj (json_escape_ok text) (conj (escaped_body text) (conj (escaped_text text) _))).
  exact (fun t H => body_text_fun _ _ _ H (escaped_text text)).
Qed.
Example C10_case : json_escape [DQ; BS; NL; "001"%char; "233"%char] =
  Some (B "\""\\\n\u0001" ++ ["233"%char], false).
Proof. vm_compute. reflexivity. Qed.

(** C11: a string written by the program is not always what it reads back: a
    control byte comes back as a question mark. *)
Theorem C11_string_round_trip_refuted : exists t rest,
  json_parse_string_full (quoted t ++ rest) = Some (Some (B "?", false), rest) /\ t <> B "?".
Proof. exists ["001"%char], (B "]"). split; [vm_compute; reflexivity|discriminate]. Qed.

(** What is read back, exactly; it is the text just if the text has no such byte. *)
Theorem C11_string_round_trip_partial : forall w t rest, all_ws w ->
  json_parse_string_full (w ++ quoted t ++ rest) = Some (Some (back_text t, false), rest) /\
  (back_text t = t <-> clean t).
Proof. exact (fun w t rest W => conj (parse_string_escaped w t rest W) (back_text_clean t)). Qed.
Example C11_case : clean (B "say ""hi""" ++ [NL] ++ B "\ tab" ++ [TAB; "233"%char]).
Proof. vm_compute. reflexivity. Qed.

(** C37: a plugin id is copied into the request without escaping. *)
Theorem C37_plugin_request_refuted : exists id phase text req,
  plugin_request id phase text = Some req /\ ~ json_document req.
Proof.
  exists (B "a""b"), (B "pre_parse"), (B "x"). eexists. split; [reflexivity|].
  intros H. apply json_document_skip in H as (w & E & W). vm_compute in E.
  injection E as <-. vm_compute in W. discriminate.
Qed.

(** The request is JSON when id and phase need no escaping, and its last field
    stands for the text. *)
Theorem C37_plugin_request_partial : forall id phase text, json_body id -> json_body phase ->
  exists e req, plugin_request id phase text = Some req /\ json_document req /\
    req = B "{ ""version"": 1, ""plugin_id"": """ ++ id ++ B """, ""phase"": """ ++ phase ++
          B """, ""text"": """ ++ e ++ B """ }" ++ [NL] /\
    (forall t, body_text e t <-> t = text).
Proof.
  exact (fun id phase text Hi Hp => ex_intro _ (escaped text) (ex_intro _ _
    (conj (plugin_request_ok id phase text) (conj (plugin_request_json id phase text Hi Hp)
    (conj eq_refl (fun t => conj (fun H => body_text_fun _ _ _ H (escaped_text text))
      (fun E => eq_ind_r (body_text _) (escaped_text text) E))))))).
Qed.
Example C37_case : json_body (B "smart-quotes").
Proof. body. Qed.

(** C38: the document is not always sent as JSON: one extra closing bracket for a
    code block, one too few for an ordered list. *)
Theorem C38_ast_json_refuted :
  ~ json_document (to_json [BCode [] (B "x")]) /\
  ~ json_document (to_json [BList true 1 [[BPara [IText (B "x")]]]]).
Proof.
  split; intros H; apply json_document_balanced in H; vm_compute in H; discriminate.
Qed.

(** Without them (at any depth) it is. *)
Theorem C38_ast_json_partial : forall doc, Forall plain_blocks doc -> json_document (to_json doc).
Proof.
  exact (fun doc H => ex_intro _ [] (ex_intro _ (to_json doc) (ex_intro _ []
    (conj (eq_sym (app_nil_r _)) (conj eq_refl (conj (to_json_json doc H) eq_refl)))))).
Qed.
Example C38_case : Forall plain_blocks
  [BHead 2 [IText (B "A ""title"""); IEmph [ILink (B "u") [] [ICode (B "\")]]];
   BList false 0 [[BPara [IText (B "x")]]; [BQuote [BRule; BHtml (B "<hr>")]]]].
Proof. repeat constructor. Qed.

(** C39: a filter that returns its input unchanged does not preserve the
    document: here it drops all but the first word of a paragraph, a link, and
    everything from a code block on; a list makes the whole document unreadable. *)
Theorem C39_identity_filter_refuted :
  of_json (to_json [BPara [IText (B "a"); IEmph [IText (B "b")]; IText (B "c")]])
    = Some (Some [BPara [IText (B "a")]]) /\
  of_json (to_json [BPara [ILink (B "u") [] [IText (B "a")]]]) = Some (Some [BPara []]) /\
  of_json (to_json [BPara [IText (B "a")]; BCode [] (B "x"); BPara [IText (B "b")]])
    = Some (Some [BPara [IText (B "a")]]) /\
  of_json (to_json [BList false 0 [[BPara [IText (B "a")]]]; BPara [IText (B "b")]]) = Some None.
Proof. repeat split; vm_compute; reflexivity. Qed.

(** Exactly what comes back, for every document whose code blocks and ordered
    lists are not nested in other blocks (the full statement, [of_json (to_json
    doc) = Some (Some doc)] for every [doc], fails as shown above; nested code
    blocks and ordered lists are missing here) and exactly which of these
    documents survive. *)
Theorem C39_identity_filter_partial : forall doc, Forall shallow doc ->
  of_json (to_json doc) = Some (back_doc doc) /\
  (of_json (to_json doc) = Some (Some doc) <-> Forall simple_block doc).
Proof.
  intros doc H. refine (conj (of_to_json doc H) _). rewrite (of_to_json doc H).
  refine (conj (fun E => proj1 (survive_doc doc) (Some_inj _ _ E))
               (fun E => f_equal Some (proj2 (survive_doc doc) E))).
Qed.
Example C39_case : Forall simple_block
  [BHead 2 [IText (B "Title")]; BPara [IEmph [IStrong [ICode (B "x")]]]; BRule; BHtml (B "<hr>")] /\
  Forall shallow [BCode (B "c") (B "x"); BList true 3 [[BQuote [BRule]]]].
Proof. split; repeat constructor; cbn; lia. Qed.

(** C40: the reader terminates on every text, well-formed or not, and its string
    buffer never overflows. *)
Theorem C40_json_reader_total : forall s,
  (exists r, of_json s = Some r) /\ (exists b q, json_skip_value s = Some (b, q)) /\
  exists r q, json_parse_string_full s = Some (r, q) /\
    forall t oob, r = Some (t, oob) -> oob = false.
Proof.
  intros s. refine (conj (of_json_total s) (conj _ (parse_string_safe s))).
  destruct (json_skip_total s) as (b & q & E & _). exact (ex_intro _ b (ex_intro _ q E)).
Qed.
Example C40_case : of_json (B "{""blocks"":[{""t"":""Para"",""c"":[{{[") = Some (Some []).
Proof. vm_compute. reflexivity. Qed.

(** C41: a field of unknown meaning is skipped exactly, whatever JSON value it has. *)
Theorem C41_skip_value : forall v rest, json v -> value_end rest ->
  json_skip_value (v ++ rest) = Some (true, rest).
Proof. exact json_skip_ok. Qed.
Example C41_case : json (B "[ 1, {""a"":[-0.5e+3,null],""]"":""}""} ]").
Proof.
  assert (json (B "1")) as N1.
  { apply j_number. exists [], (B "1"), [], []. repeat split; auto; discriminate. }
  assert (json (B "-0.5e+3")) as N2.
  { apply j_number. exists (B "-"), (B "0"), (B ".5"), (B "e+3"). repeat split; auto; try discriminate.
    - intros r [= <-]. reflexivity.
    - right. exists (B "5"). repeat split; discriminate.
    - right. exists "e"%char, (B "+"), (B "3"). repeat split; cbn; auto; discriminate. }
  assert (json (B "null")) as N3 by (apply j_literal; cbn; auto).
  assert (json (B "[-0.5e+3,null]")) as N4.
  { apply (j_array (B "-0.5e+3,null")). apply (e_more [] (B "-0.5e+3") [] (B "null")); try reflexivity; auto.
    apply (e_one [] (B "null") []); auto; reflexivity. }
  assert (json (B """}""")) as N5 by (apply (j_string (B "}")); body).
  assert (json (B "{""a"":[-0.5e+3,null],""]"":""}""}")) as N6.
  { apply (j_object (B """a"":[-0.5e+3,null],""]"":""}""")).
    apply (m_more [] (B "a") [] [] (B "[-0.5e+3,null]") [] (B """]"":""}""")); try reflexivity; auto; [body|].
    apply (m_one [] (B "]") [] [] (B """}""") []); try reflexivity; auto. body. }
  apply (j_array (B " 1, {""a"":[-0.5e+3,null],""]"":""}""} ")).
  apply (e_more (B " ") (B "1") []); try reflexivity; auto.
  apply (e_one (B " ") (B "{""a"":[-0.5e+3,null],""]"":""}""}") (B " ")); auto; reflexivity.
Qed.

Print Assumptions C10_json_escape.
Print Assumptions C11_string_round_trip_refuted.
Print Assumptions C11_string_round_trip_partial.
Print Assumptions C37_plugin_request_refuted.
Print Assumptions C37_plugin_request_partial.
Print Assumptions C38_ast_json_refuted.
Print Assumptions C38_ast_json_partial.
Print Assumptions C39_identity_filter_refuted.
Print Assumptions C39_identity_filter_partial.
Print Assumptions C40_json_reader_total.
Print Assumptions C41_skip_value.
