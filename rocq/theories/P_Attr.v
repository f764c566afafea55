(** Attribute lists: C99-C106. *)
From Verif Require Import Base BaseL M_Attr S_Attr L_Attr L_AttrHtml.

(** C99.  In full: an attribute list is read as it is written, a quotation mark in a value being
    written with a backslash before it.  Refuted: the backslash stays in the value, and what is
    behind the 2047th byte is lost. *)
Theorem C99_refuted :
  parse (B "title=" ++ [DQ] ++ B "a" ++ [BS; DQ] ++ B "b" ++ [DQ]) = Done (Attrs None [] [(B "title", B "a" ++ [BS; DQ] ++ B "b")]) /\
  (exists w l, (forall c, In c w -> isspace c = true) /\ well [] l /\ parse (w ++ list_text l) <> Done (Attrs (last_of (ids l)) (classes l) (pairs l))).
Proof.
  split; [vm_compute; reflexivity|]. exists [], [(Class (repeat "a"%char 2047), [])]. split; [intros c []|]. split.
  - cbn [well proper follows app list_text]. repeat split; try discriminate; try (intros c I; apply repeat_spec in I; subst c; reflexivity || (cbn; intuition discriminate)); intros c [].
  - vm_compute. intro E. discriminate E.
Qed.
Print Assumptions C99_refuted.
(** Without backslashes, and up to 2047 bytes: the last identifier, the classes and the attributes
    in their order. *)
Theorem C99_partial : forall w l, (forall c, In c w -> isspace c = true) -> well [] l -> length (w ++ list_text l) <= 2047 ->
  parse (w ++ list_text l) = Done (Attrs (last_of (ids l)) (classes l) (pairs l)).
Proof. exact parse_list. Qed.
Print Assumptions C99_partial.
Example C99_case : parse (B " #top .a.b lang=en @2x title=" ++ [DQ] ++ B "a b" ++ [DQ] ++ B ".c") =
  Done (Attrs (Some (B "top")) [B "a"; B "b"; B "c"] [(B "lang", B "en"); (B "data-srcset-2x", B "1"); (B "title", B "a b")]).
Proof. vm_compute. reflexivity. Qed.

(** C100.  In full: reading an attribute list never reads behind it, [forall s, parse s <> Undef].
    Refuted. *)
Theorem C100_refuted : parse (B ".note important") = Undef.
Proof. vm_compute. reflexivity. Qed.
Print Assumptions C100_refuted.
(** It always comes to an end, and it reads behind the list only when the list ends with a word
    that has no meaning. *)
Theorem C100_partial : forall s, parse s <> Fuel /\
  (parse s = Undef -> exists u k, firstn 2047 s = u ++ k /\ k <> [] /\ none_of (B "=}" ++ [SP; TAB]) k /\ forall d, ~ In (k, d) meaning).
Proof. intro s. split; [apply parse_total|apply parse_undef]. Qed.
Print Assumptions C100_partial.
(** Behind a proper list, every such word has this effect. *)
Theorem C100_word : forall w l k, (forall c, In c w -> isspace c = true) -> well k l -> proper (Word k) -> length (w ++ list_text l ++ k) <= 2047 ->
  parse (w ++ list_text l ++ k) = Undef.
Proof. exact parse_word. Qed.
Print Assumptions C100_word.
Example C100_case : parse (B ".note important ") = Done (Attrs None [B "note"] []) /\ parse (B "important .note") = Done (Attrs None [B "note"] []).
Proof. split; vm_compute; reflexivity. Qed.

(** C101.  In full: the tag gets the identifier, the classes, the sizes that are numbers, the
    style with the other sizes and the other attributes, [forall a p s, sizes (a_pairs a) p s ->
    to_html a = Some (tag_text (tag_of (a_id a) (a_classes a) (a_pairs a) p s))].  Refuted: an
    identifier of 507 bytes loses its closing quote. *)
Theorem C101_refuted : exists x, to_html (Attrs (Some x) [B "a"] []) = Some (B "id=" ++ [DQ] ++ x ++ B " class=" ++ [DQ] ++ B "a" ++ [DQ]).
Proof. exists (repeat "x"%char 507). vm_compute. reflexivity. Qed.
Print Assumptions C101_refuted.
(** It is so exactly when everything fits. *)
Theorem C101_partial : forall a p s, sizes (a_pairs a) p s ->
  (to_html a = Some (tag_text (tag_of (a_id a) (a_classes a) (a_pairs a) p s)) <-> fits (a_id a) (a_classes a) (a_pairs a) p s).
Proof. exact to_html_exact. Qed.
Print Assumptions C101_partial.
Theorem C101_sizes : forall l, exists p s, sizes l p s.
Proof. exact sizes_exist. Qed.
Print Assumptions C101_sizes.
Example C101_case : to_html (Attrs (Some (B "i")) [B "a"; B "b"] [(B "width", B "50%"); (B "k", B "v"); (B "style", B "color: red"); (B "height", B "20px"); (B "data-srcset-2x", B "1")]) =
  Some (B "id=" ++ [DQ] ++ B "i" ++ [DQ] ++ B " class=" ++ [DQ] ++ B "a b" ++ [DQ] ++ B " height=" ++ [DQ] ++ B "20" ++ [DQ] ++ B " style=" ++ [DQ] ++ B "color: red; width: 50%" ++ [DQ] ++ B " k=" ++ [DQ] ++ B "v" ++ [DQ]).
Proof. vm_compute. reflexivity. Qed.

(** C102.  In full: no byte is written outside the buffers, [forall a, to_html a <> None].  Refuted
    by an attribute list of 72 bytes, and by a long width. *)
Theorem C102_refuted :
  (exists s a, length s = 72 /\ parse s = Done a /\ to_html a = None) /\
  (exists s a, length s = 1023 /\ parse s = Done a /\ to_html a = None).
Proof.
  split.
  - exists (B "width=" ++ repeat "1"%char 64 ++ B "px"), (Attrs None [] [(B "width", repeat "1"%char 64 ++ B "px")]). split; [reflexivity|]. split; vm_compute; reflexivity.
  - exists (B "width=" ++ repeat "1"%char 1016 ++ B "%"), (Attrs None [] [(B "width", repeat "1"%char 1016 ++ B "%")]). split; [reflexivity|]. split; vm_compute; reflexivity.
Qed.
Print Assumptions C102_refuted.
Theorem C102_partial : forall a p s, sizes (a_pairs a) p s -> (to_html a = None <-> ~ in_buffers (a_pairs a) s).
Proof. exact to_html_undef. Qed.
Print Assumptions C102_partial.
Example C102_case : to_html (Attrs None [] [(B "width", repeat "1"%char 63 ++ B "px")]) = Some (B "width=" ++ [DQ] ++ repeat "1"%char 63 ++ [DQ]).
Proof. vm_compute. reflexivity. Qed.

(** C103.  In full: different attributes give different tags; no value becomes an attribute of
    its own.  Refuted: a quotation mark in a value is not escaped. *)
Theorem C103_refuted : exists s t a b, parse s = Done a /\ parse t = Done b /\
  a_pairs a = [(B "title", B "x" ++ [DQ] ++ B " onclick=" ++ [DQ] ++ B "y")] /\ a_pairs b = [(B "title", B "x"); (B "onclick", B "y")] /\ to_html a = to_html b /\ to_html b <> None.
Proof.
  exists (B "title=" ++ [SQ] ++ B "x" ++ [DQ] ++ B " onclick=" ++ [DQ] ++ B "y" ++ [SQ]), (B "title=" ++ [DQ] ++ B "x" ++ [DQ] ++ B " onclick=" ++ [DQ] ++ B "y" ++ [DQ]).
  eexists. eexists. split; [vm_compute; reflexivity|]. split; [vm_compute; reflexivity|]. split; [reflexivity|]. split; [reflexivity|]. split; vm_compute; [reflexivity|discriminate].
Qed.
Print Assumptions C103_refuted.
(** Without quotation marks in the values and equals signs in the names the tag determines the
    attributes. *)
Theorem C103_partial : forall a p s b q t, sizes (a_pairs a) p s -> sizes (a_pairs b) q t ->
  fits (a_id a) (a_classes a) (a_pairs a) p s -> fits (a_id b) (a_classes b) (a_pairs b) q t ->
  let l := tag_of (a_id a) (a_classes a) (a_pairs a) p s in let m := tag_of (a_id b) (a_classes b) (a_pairs b) q t in
  (forall k v, In (k, v) (l ++ m) -> ~ In "="%char k /\ ~ In DQ v) -> to_html a = to_html b -> l = m.
Proof.
  intros a p s b q t Z1 Z2 F1 F2 l m C E. apply (to_html_exact a p s Z1) in F1. apply (to_html_exact b q t Z2) in F2. rewrite F1, F2 in E. injection E as E.
  apply tag_text_inj; [| |exact E]; apply Forall_forall; intros [k v] I; apply C; apply in_or_app; auto.
Qed.
Print Assumptions C103_partial.

(** C104.  In full: the definitions are taken out of the text and the text is kept.  Refuted: what
    follows a definition in its line is lost, lines are cut, and definitions in code are taken out
    as well. *)
Theorem C104_refuted :
  extract_alds (B "{:a: .b} text") = Done ([(B "a", Attrs None [B "b"] [])], []) /\
  extract_alds (repeat "x"%char 2048) = Done ([], repeat "x"%char 2047) /\
  extract_alds (B "```" ++ [NL] ++ B "{:a: .b}" ++ [NL] ++ B "```") = Done ([(B "a", Attrs None [B "b"] [])], B "```" ++ [NL] ++ B "```").
Proof. repeat split; vm_compute; reflexivity. Qed.
Print Assumptions C104_refuted.
(** Every line up to 2047 bytes is kept or is a definition. *)
Theorem C104_partial : forall l t ds last ld lt,
  kept (fun c a => parse c = Done a) l ds t ->
  (last = [] /\ ld = [] /\ lt = [] \/ last <> [] /\ kept (fun c a => parse c = Done a) [last] ld lt) ->
  (forall x, In x (last :: l) -> ~ In NL x /\ length x <= 2047) ->
  extract_alds (lines_text l last) = Done (ds ++ ld, lines_text t (concat lt)).
Proof. intros l t ds last ld lt K Kl H. apply (ald_loop_lines l t ds last ld lt K Kl H). apply Nat.lt_succ_diag_r. Qed.
Print Assumptions C104_partial.
Example C104_case : extract_alds (B "one" ++ [NL] ++ B " {:n: #x}" ++ [NL] ++ B "two {:n}" ++ [NL]) = Done ([(B "n", Attrs (Some (B "x")) [] [])], B "one" ++ [NL] ++ B "two {:n}" ++ [NL]).
Proof. vm_compute. reflexivity. Qed.

(** C105.  In full: {:name more} gives the attributes of the definition, changed by the others.
    [forall ds u nm s d a, nm is a name -> find_ald ds nm = Some d -> parse s = Done a -> extract_ial ds
    (u ++ B "{:" ++ nm ++ B " " ++ s ++ B "}") = Done (Some (merge d a))].  Refuted: with more than
    the name the definition is not found, and a name of two words reads behind the list. *)
Theorem C105_refuted :
  let d := Attrs None [B "blue"] [] in
  (find_ald [(B "note", d)] (B "note") = Some d /\ parse (B ".big") = Done (Attrs None [B "big"] []) /\
   extract_ial [(B "note", d)] (B "text {:note .big}") = Done (Some (Attrs None [B "big"] []))) /\
  (find_ald [(B "side note", d)] (B "side note") = Some d /\ extract_ial [(B "side note", d)] (B "text {:side note}") = Undef).
Proof. cbv zeta. repeat split; vm_compute; reflexivity. Qed.
Print Assumptions C105_refuted.
(** A reference that is one word and nothing else gives the first definition with this name. *)
Theorem C105_partial : forall ds u w nm w' z a,
  (forall c, In c (w ++ w' ++ z) -> isspace c = true) -> nm <> [] -> no_space nm -> none_of (B "{}#.=") nm ->
  length (w ++ nm ++ w') <= 2047 -> (exists ds1 ds2, ds = ds1 ++ (nm, a) :: ds2 /\ ~ In nm (map fst ds1)) ->
  extract_ial ds (u ++ B "{:" ++ w ++ nm ++ w' ++ B "}" ++ z) = Done (Some a).
Proof.
  intros ds u w nm w' z a H Nn Sn Dn L F. apply find_ald_spec in F. apply reference; auto; intros c I; apply H; rewrite !in_app_iff; tauto.
Qed.
Print Assumptions C105_partial.
Example C105_case : let d := Attrs None [B "blue"] [] in extract_ial [(B "x", no_attrs); (B "note", d); (B "note", no_attrs)] (B "text {b} {: note} ") = Done (Some d).
Proof. vm_compute. reflexivity. Qed.

(** C106: when attributes are merged, the identifier and the values of the second list win, and
    nothing else is lost. *)
Theorem C106 : forall b o,
  a_id (merge b o) = match a_id o with Some x => Some x | None => a_id b end /\
  a_classes (merge b o) = a_classes b ++ a_classes o /\
  (forall k, first_value k (a_pairs (merge b o)) = match last_value k (a_pairs o) with Some v => Some v | None => first_value k (a_pairs b) end) /\
  (exists n, map fst (a_pairs (merge b o)) = map fst (a_pairs b) ++ n /\ forall k, In k n -> In k (map fst (a_pairs o))).
Proof. exact merge_spec. Qed.
Print Assumptions C106.
Example C106_case : merge (Attrs (Some (B "i")) [B "a"] [(B "k", B "1"); (B "m", B "2")]) (Attrs None [B "b"] [(B "n", B "3"); (B "k", B "4")]) =
  Attrs (Some (B "i")) [B "a"; B "b"] [(B "k", B "4"); (B "m", B "2"); (B "n", B "3")].
Proof. vm_compute. reflexivity. Qed.
