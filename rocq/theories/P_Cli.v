(** File handling: standard input, heading shift, merge index, SUMMARY, combine. *)
From Verif Require Import Base BaseL M_Cli S_Cli L_Cli.

(** ** C15 — shifting headings of merged files *)

(** Full statement: every heading of a file merged at depth [k] gets [k] more #.
    False: from depth 2 on the shift runs past the end of its block. *)
Theorem C15_shift_refuted :
  ~ forall junk content k, nul_free content -> shift_headers junk content k = Some (Done (bump k true content)).
Proof.
  intros H. specialize (H (fun _ => NUL) (B "# a") 2).
  assert (N : nul_free (B "# a")) by (intros I; cbn in I; intuition discriminate).
  specialize (H N). vm_compute in H. discriminate.
Qed.
Print Assumptions C15_shift_refuted.

(** What holds: it is right at depths 0 and 1 and for files without headings; in
    all other cases the block is overrun. *)
Theorem C15_shift_partial : forall junk content k, nul_free content ->
  exists r, shift_headers junk content k = Some r /\
    ((k <= 1 \/ ~ has_heading content) -> r = Done (bump k true content)) /\
    (2 <= k -> has_heading content -> r = Overrun).
Proof. exact shift_ok. Qed.
Print Assumptions C15_shift_partial.

Example C15_case :
  shift_headers (fun _ => NUL) (B "# a" ++ [NL] ++ B "b # c" ++ [NL] ++ B "## d") 1
  = Some (Done (B "## a" ++ [NL] ++ B "b # c" ++ [NL] ++ B "### d")) /\
  bump 3 true (B "# a") = B "#### a" /\
  shift_headers (fun _ => NUL) (B "a # b") 5 = Some (Done (B "a # b")).
Proof. vm_compute. auto. Qed.

(** ** C60 — the merge index *)
Theorem C60_index : forall ls, Forall good_line ls -> index_entries (lines_of (write_index ls)) = entries ls.
Proof. exact index_written. Qed.
Print Assumptions C60_index.

Theorem C60_merge_partial : forall junk files base ls, Forall good_line ls ->
  (forall k n, In (k, n) (entries ls) -> length (located base n) < 4096) ->
  (forall k n c, In (k, n) (entries ls) -> files (located base n) = Some c ->
     nul_free c /\ (k <= 1 \/ ~ has_heading c)) ->
  merge_index junk files base (write_index ls) =
  Some (Done (merged (fun n => files (located base n)) (entries ls))).
Proof. exact merge_located. Qed.
Print Assumptions C60_merge_partial.

Example C60_case :
  let ls := [Ignored (B "# index"); Entry [] 2 (B "a.md") [CR]; Ignored []; Entry [Four] 0 (B "b c.md") [SP];
             Entry [Tab; Four] 3 (B "/d.md") []] in
  entries ls = [(0, B "a.md"); (1, B "b c.md"); (2, B "/d.md")] /\
  merge_index (fun _ => NUL) (fun p => if seq_ p (B "x/a.md") then Some (B "# A")
                                       else if seq_ p (B "x/b c.md") then Some (B "# B")
                                       else if seq_ p (B "/d.md") then Some (B "D") else None)
    (B "x") (write_index ls)
  = Some (Done (B "# A" ++ [NL; NL] ++ B "## B" ++ [NL; NL] ++ B "D" ++ [NL; NL])).
Proof. vm_compute. auto. Qed.

(** ** C61 — standard input *)
Theorem C61_stdin : forall avail data, read_stdin avail data = Some (data, false).
Proof. exact read_stdin_ok. Qed.
Print Assumptions C61_stdin.

Example C61_case : read_stdin [2; 0; 1] (B "hello world") = Some (B "hello world", false).
Proof. vm_compute. reflexivity. Qed.

(** ** C62 — combining files *)

(** Full statement: the documents of all files are written in order with a blank
    line between any two.  False when a SUMMARY follows another file. *)
Definition all_documents (fs : list combined) : list (list ascii) :=
  concat (map (fun f => match f with File (Some c) => [c] | File None => [] | Summary cs => cs end) fs).
Theorem C62_combine_refuted :
  ~ forall fs, separated (all_documents fs) (combine false fs).
Proof.
  intros H. specialize (H [File (Some (B "a")); Summary [B "b"]]).
  apply separated_fun in H. vm_compute in H. discriminate.
Qed.
Print Assumptions C62_combine_refuted.

Theorem C62_combine_partial : forall fs, separated (documents fs) (combine false (map File fs)).
Proof. exact combine_files. Qed.
Print Assumptions C62_combine_partial.

Theorem C62_summary_first_partial : forall cs fs, cs <> [] ->
  separated (cs ++ documents fs) (combine false (Summary cs :: map File fs)).
Proof. exact combine_summary. Qed.
Print Assumptions C62_summary_first_partial.

(** A SUMMARY contributes the files its link lines name, in order. *)
Theorem C62_summary_links : forall get base ls, Forall good_sline ls ->
  separated (chunks_of get (map (fun p => base ++ B "/" ++ p) (paths ls))) (summary get base (write_summary ls)).
Proof.
  intros get base ls G. rewrite <- (summary_written ls G). apply summary_files.
Qed.
Print Assumptions C62_summary_links.

Example C62_case :
  let ls := [Text (B "Summary"); Link (B "* ") (B "One") [] (B "a.md") (B "#x") [] [];
             Remote (B "* ") (B "Web") [] (B "http://a") [] [] [];
             Link (B "  * ") (B "Two") [SP] (B "b.md") [] [SP] (B " x")] in
  paths ls = [B "a.md"; B "b.md"] /\
  summary (fun p => Some (p ++ B "!")) (B "d") (write_summary ls) = B "d/a.md!" ++ [NL; NL] ++ B "d/b.md!" /\
  combine false [File (Some (B "a")); File None; File (Some (B "b"))] = B "a" ++ [NL; NL] ++ B "b".
Proof. vm_compute. auto. Qed.
