(** Property theorems C12, C13, C32, C45, C46 (src/extensions/metadata.c). *)
From Verif Require Import Base M_Meta S_Meta L_Meta L_MetaParse.

(** C12: lookup finds an entry iff there is one spelled like the key up to case
    and white space ... *)
Theorem C12_metadata_lookup :
  forall m key, key <> [] ->
  (meta_get m key <> None <-> exists k v, In (k, v) m /\ k <> [] /\ same_key k key).
Proof. exact get_found. Qed.
Print Assumptions C12_metadata_lookup.

(** ... and the value is determined: an entry that differs at most in case is
    preferred, and among several the one nearest the head is taken. *)
Theorem C12_metadata_value :
  forall m key v, key <> [] -> (meta_get m key = Some v <-> finds m key v).
Proof. exact get_finds. Qed.
Print Assumptions C12_metadata_value.

Example C12_case :
  meta_get [(B "Base Header Level", B "2"); (B "title", B "T")] (B "baseheaderLEVEL") = Some (B "2").
Proof. vm_compute. reflexivity. Qed.

(** C13 is false in three ways.  A missing source ends the merge: without
    metadata in the document, everything given on the command line is dropped. *)
Theorem C13_command_line_lost_refuted :
  (forall cmdline, cli_merge [] [] [] [] cmdline = []) /\
  exists cmdline, meta_get cmdline (B "title") = Some (B "T") /\
    meta_get (cli_merge [] [] [] [] cmdline) (B "title") = None.
Proof.
  split; [reflexivity|]. exists [(B "title", B "T")]. split; vm_compute; reflexivity.
Qed.
Print Assumptions C13_command_line_lost_refuted.

(** An earlier source that spells the key with spaces wins over a later one that
    does not; and of two items with one key in the first source the other one is
    returned after merging. *)
Theorem C13_merge_refuted :
  (exists early late v w, meta_get late (B "Base Header Level") = Some v /\
     meta_get (merge early [late]) (B "Base Header Level") = Some w /\ v <> w) /\
  (exists early late v w, meta_get early (B "title") = Some v /\ meta_get late (B "title") = None /\
     meta_get (merge early [late]) (B "title") = Some w /\ v <> w).
Proof.
  split.
  - exists [(B "Base Header Level", B "1")], [(B "baseheaderlevel", B "2")], (B "2"), (B "1").
    repeat split; try (vm_compute; reflexivity). discriminate.
  - exists [(B "title", B "A"); (B "title", B "B")], [(B "x", B "y")], (B "A"), (B "B").
    repeat split; try (vm_compute; reflexivity). discriminate.
Qed.
Print Assumptions C13_merge_refuted.

(** Without a missing source, and when every source names the key at most once
    and all spell it alike up to case, the last source that names it wins and
    otherwise the earlier value stays. *)
Theorem C13_merge_partial :
  forall key k0 first args, key <> [] -> Forall (fun l => l <> []) args ->
  Forall (one_spelling key k0) (first :: args) ->
  overrides meta_get (first :: args) key (meta_get (merge first args) key).
Proof. exact merge_overrides. Qed.
Print Assumptions C13_merge_partial.

(** The same for the five sources of one conversion (global configuration,
    project configuration, --meta-file, document, command line). *)
Theorem C13_cli_partial :
  forall key k0 g p e d c, key <> [] -> (p <> [] \/ e = []) -> (d <> [] \/ c = []) ->
  Forall (one_spelling key k0) [g; p; e; d; c] ->
  overrides meta_get [g; p; e; d; c] key (meta_get (cli_merge g p e d c) key).
Proof. exact cli_overrides. Qed.
Print Assumptions C13_cli_partial.

(** For a key spelled (up to case) as in the sources no restriction on the lists
    is needed: the last such item of the last source wins. *)
Theorem C13_spelled :
  forall first args key v, key <> [] -> Forall (fun l => l <> []) args ->
  last_item (fun k => same_ci k key) (first ++ concat args) v ->
  meta_get (merge first args) key = Some v.
Proof. exact merge_spelled. Qed.
Print Assumptions C13_spelled.

(** Exactly what a missing source does. *)
Theorem C13_missing_source :
  forall first before after, merge first (before ++ [] :: after) = merge first before.
Proof. exact merge_gap. Qed.
Print Assumptions C13_missing_source.

Example C13_case :
  let g := [(B "title", B "G"); (B "css", B "g.css")] in
  let d := [(B "Title", B "D")] in
  let c := [(B "TITLE", B "C")] in
  (meta_get (cli_merge g [] [] d c) (B "title"), meta_get (cli_merge g [] [] d c) (B "css"))
  = (Some (B "C"), Some (B "g.css")).
Proof. vm_compute. reflexivity. Qed.

(** C32 is false for an unquoted value with a comma in it, although the comma
    does not start another pair: the value is cut there, and later pairs are
    lost. *)
Theorem C32_command_metadata_refuted :
  parse_command (B "title=Hello, world") = Some [(B "title", B "Hello")] /\
  parse_command (B "a=1, 2, b=3") = Some [(B "a", B "1")] /\
  parse_command (B "a=""1"" , b=3") = Some [(B "a", B "1")].
Proof. repeat split; vm_compute; reflexivity. Qed.
Print Assumptions C32_command_metadata_refuted.

(** It holds for all lists of pairs whose values are quoted or free of commas. *)
Theorem C32_command_metadata_partial :
  forall ps, Forall plain_pair ps ->
  parse_command (write_pairs ps) = Some (rev (map pair_of ps)).
Proof. exact parse_written. Qed.
Print Assumptions C32_command_metadata_partial.

(** And parsing terminates for every argument. *)
Theorem C32_command_metadata_total : forall arg, exists m, parse_command arg = Some m.
Proof. exact parse_total. Qed.
Print Assumptions C32_command_metadata_total.

Example C32_case :
  parse_command (write_pairs
    [([], B "title", Quoted DQ, B "A, b=c"); (B " ", B "x", Bare, B "1=2"); ([], B "_y", Quoted SQ, B "")])
  = Some [(B "_y", []); (B "x", B "1=2"); (B "title", B "A, b=c")].
Proof. vm_compute. reflexivity. Qed.

(** C45: a key with a chain of transforms is read as written. *)
Theorem C45_transform_chain :
  forall key ls, ~ In ":"%char key -> Forall plain_link ls ->
  parse_chain (key ++ write_links ls) = Some (Some (key, ls)).
Proof. exact parse_chain_written. Qed.
Print Assumptions C45_transform_chain.
Theorem C45_transform_chain_total : forall input, exists r, parse_chain input = Some r.
Proof. exact parse_chain_total. Qed.
Print Assumptions C45_transform_chain_total.

Example C45_case :
  parse_chain (B "title:replace(a:b,c):upper") =
  Some (Some (B "title", [(B "replace", Some (B "a:b,c")); (B "upper", None)])).
Proof. vm_compute. reflexivity. Qed.

(** C46: which metadata values switch an option. *)
Theorem C46_truth_words :
  forall v,
  (is_true_value v = true <-> says (B "true") v \/ says (B "yes") v \/ says (B "1") v) /\
  (is_false_value v = true <-> says (B "false") v \/ says (B "no") v \/ says (B "0") v) /\
  (is_true_value v = true -> is_false_value v = false).
Proof. intros v. split; [apply is_true_ok|]. split; [apply is_false_ok|apply true_false]. Qed.
Print Assumptions C46_truth_words.

Example C46_case : (is_true_value (B "YES"), is_false_value (B "No"), is_true_value (B "on")) = (true, true, false).
Proof. vm_compute. reflexivity. Qed.
