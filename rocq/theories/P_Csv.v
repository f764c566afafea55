(** Properties C138 to C147: comma and tab separated data as tables. *)
From Verif Require Import Base BaseL M_Csv S_Csv L_Csv.

(** C138.  In full: a reader of the table finds the cells of the data.
    [forall tsv s hd rs al body t, Records (delim tsv) s (hd :: rs) -> Layout hd rs al body -> csv_to_table s tsv = Table t ->
      read_table t = Some (map strip hd, al, map (fun r => fit (length hd) (map strip r)) body).]
    Refuted by a pipe in a cell and by lines that end with CR NL.  What is missing in the partial theorem: cells with a pipe or
    a CR. *)
Theorem C138_refuted : exists s hd rs t, Records (delim false) s (hd :: rs) /\ Layout hd rs (repeat AAuto (length hd)) rs /\
  csv_to_table s false = Table t /\
  read_table t <> Some (map strip hd, repeat AAuto (length hd), map (fun r => fit (length hd) (map strip r)) rs).
Proof.
  exists (B "a|b,c"), [B "a|b"; B "c"], [], (match csv_to_table (B "a|b,c") false with Table t => t | _ => [] end).
  split; [exact (of_records (delim false) (B "a|b,c"))|]. split; [apply L_plain; discriminate|]. split; [reflexivity|].
  vm_compute. discriminate.
Qed.
Print Assumptions C138_refuted.
Theorem C138_refuted_crlf : exists s hd rs t, Records (delim false) s (hd :: rs) /\ Layout hd rs (repeat AAuto (length hd)) rs /\
  csv_to_table s false = Table t /\ read_table t = None.
Proof.
  exists (B "a,b" ++ [CR; NL] ++ B "1,2" ++ [CR; NL]), [B "a"; B "b" ++ [CR]], [[B "1"; B "2" ++ [CR]]],
    (match csv_to_table (B "a,b" ++ [CR; NL] ++ B "1,2" ++ [CR; NL]) false with Table t => t | _ => [] end).
  split; [exact (of_records (delim false) (B "a,b" ++ [CR; NL] ++ B "1,2" ++ [CR; NL]))|].
  split; [|split; vm_compute; reflexivity]. apply L_plain. intros k body al E _ F. injection E as <- <-.
  apply keywords_spec in F. vm_compute in F. discriminate F.
Qed.
Print Assumptions C138_refuted_crlf.
Theorem C138_partial : forall tsv s hd rs al body t, Records (delim tsv) s (hd :: rs) -> Layout hd rs al body ->
  Forall (Forall clean) (hd :: body) -> csv_to_table s tsv = Table t ->
  read_table t = Some (map strip hd, al, map (fun r => fit (length hd) (map strip r)) body).
Proof. exact csv_reads. Qed.
Print Assumptions C138_partial.
(** Every text has records. *)
Theorem C138_records : forall d s, exists rs, Records d s rs /\ forall rs', Records d s rs' -> rs' = rs.
Proof.
  intros d s. exists (map (cells_ d) (lines_ s)). split; [apply of_records|]. intros rs' H. symmetry. exact (records_of d s rs' H).
Qed.
Print Assumptions C138_records.
Example C138_case : let s := B "name, n" ++ [NL] ++ B "LEFT,right" ++ [NL] ++ B "x" ++ [NL] ++ B "y,2" ++ [NL] in
  exists t, csv_to_table s false = Table t /\
  read_table t = Some ([B "name"; B "n"], [ALeft; ARight], [[B "x"; []]; [B "y"; B "2"]]).
Proof. eexists. split; vm_compute; reflexivity. Qed.

(** C139.  The table has a header row from the first record, a delimiter row, and a row for every further record; a second record
    of alignment words, one for each column, gives the alignments and is not a row; any other second record is a row. *)
Theorem C139 : forall tsv s hd rs t, Records (delim tsv) s (hd :: rs) -> csv_to_table s tsv = Table t ->
  exists al body, Layout hd rs al body /\ t = table_text hd al body.
Proof.
  intros tsv s hd rs t R E. destruct (layout_some hd rs) as (al & body & L). exists al, body. split; [exact L|].
  rewrite (csv_spec tsv s hd rs al body R L) in E. destruct (_ <? _); [discriminate E|]. injection E as <-. reflexivity.
Qed.
Print Assumptions C139.
Theorem C139_null : forall tsv s, csv_to_table s tsv = Null <-> s = [].
Proof.
  intros tsv s. split; [|intros ->; destruct tsv; reflexivity]. intros E. destruct s as [|c s]; [reflexivity|].
  destruct (csv_not_null (c :: s) tsv ltac:(discriminate) E).
Qed.
Print Assumptions C139_null.
Example C139_case : csv_to_table (B "a,b" ++ [NL] ++ B "left,mid" ++ [NL] ++ B "1") false =
  Table (B "| a | b |" ++ [NL] ++ B "| --- | --- |" ++ [NL] ++ B "| left | mid |" ++ [NL] ++ B "| 1 |  |" ++ [NL]).
Proof. vm_compute. reflexivity. Qed.

(** C140.  In full: no cell of the data is lost.
    [forall tsv s hd rs al body t r c, Records (delim tsv) s (hd :: rs) -> Layout hd rs al body -> csv_to_table s tsv = Table t ->
      In r body -> In c r -> has c t.]
    Refuted: a record longer than the header loses its last cells. *)
Theorem C140_refuted : exists s hd r t c, Records (delim false) s [hd; r] /\ Layout hd [r] (repeat AAuto (length hd)) [r] /\
  csv_to_table s false = Table t /\ In c r /\ ~ has c t.
Proof.
  exists (B "a,b" ++ [NL] ++ B "1,2,3"), [B "a"; B "b"], [B "1"; B "2"; B "3"],
    (match csv_to_table (B "a,b" ++ [NL] ++ B "1,2,3") false with Table t => t | _ => [] end), (B "3").
  split; [exact (of_records (delim false) (B "a,b" ++ [NL] ++ B "1,2,3"))|].
  split; [apply L_plain; intros k body al E L; injection E as <- <-; discriminate L|].
  split; [reflexivity|]. split; [cbn; auto|].
  intros (a & b & E). assert (I : In "3"%char (match csv_to_table (B "a,b" ++ [NL] ++ B "1,2,3") false with Table t => t | _ => [] end)).
  { rewrite E. apply in_or_app. right. left. reflexivity. }
  apply existsb_in in I. vm_compute in I. discriminate I.
Qed.
Print Assumptions C140_refuted.
(** The records no longer than the header are kept whole, each in its row and each cell in its column. *)
Theorem C140_partial : forall tsv s hd rs al body t i r, Records (delim tsv) s (hd :: rs) -> Layout hd rs al body ->
  Forall (Forall clean) (hd :: body) -> csv_to_table s tsv = Table t ->
  nth_error body i = Some r -> length r <= length hd ->
  exists h rows, read_table t = Some (h, al, rows) /\ nth_error rows i = Some (map strip r ++ repeat [] (length hd - length r)).
Proof.
  intros tsv s hd rs al body t i r R L C E N Hl. eexists _, _. split; [exact (csv_reads tsv s hd rs al body t R L C E)|].
  rewrite (map_nth_error (fun r => fit (length hd) (map strip r)) i body N). f_equal. unfold fit.
  rewrite map_length, firstn_all2 by (rewrite map_length; exact Hl). reflexivity.
Qed.
Print Assumptions C140_partial.
Example C140_case : exists t, csv_to_table (B "a,b" ++ [NL] ++ B "1") false = Table t /\ read_table t = Some ([B "a"; B "b"], [AAuto; AAuto], [[B "1"; []]]).
Proof. eexists. split; vm_compute; reflexivity. Qed.

(** C141.  In full: the table never outgrows its buffer.  [forall tsv s, csv_to_table s tsv <> Overrun.]
    Refuted: twelve empty cells; a header of 28 digits. *)
Theorem C141_refuted : csv_to_table (B ",,,,,,,,,,,") false = Overrun.
Proof. vm_compute. reflexivity. Qed.
Print Assumptions C141_refuted.
Theorem C141_refuted_header : csv_to_table (B "1,2,3,4,5,6,7,8,9,0,1,2,3,4,5,6,7,8,9,0,1,2,3,4,5,6,7,8") false = Overrun.
Proof. vm_compute. reflexivity. Qed.
Print Assumptions C141_refuted_header.
(** Exactly when it does. *)
Theorem C141_exact_partial : forall tsv s hd rs al body, Records (delim tsv) s (hd :: rs) -> Layout hd rs al body ->
  (csv_to_table s tsv = Overrun <-> 4 * length s + 64 < table_bytes hd al body).
Proof.
  intros tsv s hd rs al body R L. rewrite (csv_spec tsv s hd rs al body R L).
  destruct (Nat.ltb_spec (length s * 4 + 64) (table_bytes hd al body)); split; intros H0; try reflexivity; try discriminate H0; lia.
Qed.
Print Assumptions C141_exact_partial.
(** Never when all records are as long as the header and there are two to eleven columns, or at least two columns and six records. *)
Theorem C141_partial : forall tsv s hd rs, Records (delim tsv) s (hd :: rs) ->
  Forall (fun r => length r = length hd) rs -> 2 <= length hd -> (length hd <= 11 \/ 5 <= length rs) ->
  csv_to_table s tsv <> Overrun.
Proof.
  intros tsv s hd rs R F H1 H2. destruct (layout_some hd rs) as (al & body & L).
  rewrite (C141_exact_partial tsv s hd rs al body R L). pose proof (room_enough _ s hd rs al body R L F H1 H2). lia.
Qed.
Print Assumptions C141_partial.
Example C141_case : exists hd rs, Records (delim true) ([TAB; NL; TAB; NL]) (hd :: rs) /\ length hd = 2 /\ Forall (fun r => length r = length hd) rs.
Proof.
  exists [[]; []], [[[]; []]]. split; [exact (of_records TAB [TAB; NL; TAB; NL])|]. repeat constructor.
Qed.

(** C142.  Every table block of the document, a ```table block or the lines after a <!--TABLE--> marker, is replaced by its table
    and everything else is kept, from left to right. *)
Theorem C142 : forall s o, inline_tables s = Done o -> Converted tab s o.
Proof. intros s o. apply go_converted. Qed.
Print Assumptions C142.
Theorem C142_unique : forall s o o', Converted tab s o -> Converted tab s o' -> o = o'.
Proof. exact converted_fun. Qed.
Print Assumptions C142_unique.
Theorem C142_ends : forall s, inline_tables s <> NoFuel.
Proof. intros s. apply go_fuel. lia. Qed.
Print Assumptions C142_ends.
Example C142_case : inline_tables (B "x" ++ [NL] ++ B "``` Table" ++ [NL] ++ B "a,b" ++ [NL] ++ B "``` x" ++ [NL] ++ B "```c" ++ [NL] ++ B "<!--TABLE-->```") =
  Done (B "x" ++ [NL] ++ B "| a | b |" ++ [NL] ++ B "| --- | --- |" ++ [NL; NL] ++ B "```c" ++ [NL] ++ B "<!--TABLE-->```").
Proof. vm_compute. reflexivity. Qed.

(** C143.  A document that asks for no table comes back as it is. *)
Theorem C143 : forall s, no_request s -> inline_tables s = Done s.
Proof. exact inline_same. Qed.
Print Assumptions C143.
Example C143_case : inline_tables (B "a,b ```tables" ++ [NL] ++ B "c,d" ++ [NL] ++ B "```") = Done (B "a,b ```tables" ++ [NL] ++ B "c,d" ++ [NL] ++ B "```").
Proof. vm_compute. reflexivity. Qed.

(** C144.  In full: what is in a code block is kept.  For a block fenced by tildes:
    [forall body, ~ has (B "~~~") body -> ~ has ticks body -> inline_tables (B "~~~" ++ NL :: body ++ B "~~~") = Done (B "~~~" ++ NL :: body ++ B "~~~").]
    Refuted.  Blocks fenced by backticks are kept; not proved are those fenced by tildes and indented code. *)
Theorem C144_refuted : exists body, ~ has (B "~~~") body /\ ~ has ticks body /\
  inline_tables (B "~~~" ++ NL :: body ++ B "~~~") = Done (B "~~~" ++ NL :: B "| a | b |" ++ [NL] ++ B "| --- | --- |" ++ [NL] ++ B "| ~~~ |  |" ++ [NL]).
Proof.
  exists (B "<!--TABLE-->" ++ [NL] ++ B "a,b" ++ [NL]). split; [|split; [|vm_compute; reflexivity]].
  - intros (a & b & E). refine (strstr_none (B "~~~") _ _ a b E). vm_compute. reflexivity.
  - intros (a & b & E). refine (strstr_none ticks _ _ a b E). vm_compute. reflexivity.
Qed.
Print Assumptions C144_refuted.
Theorem C144_partial : forall pre blk info body closed rest o, quiet pre (blk ++ rest) -> Fence blk info body closed rest -> ~ Table_info info ->
  inline_tables (pre ++ blk ++ rest) = Done o -> exists o', o = pre ++ blk ++ o' /\ Converted tab rest o'.
Proof. exact code_kept. Qed.
Print Assumptions C144_partial.
Example C144_case : let blk := B "```c" ++ NL :: (B "<!--TABLE-->" ++ [NL] ++ B "a,b" ++ [NL]) ++ ticks in
  Fence blk (B "c") (B "<!--TABLE-->" ++ [NL] ++ B "a,b" ++ [NL]) true [NL] /\ ~ Table_info (B "c") /\ quiet [] (blk ++ [NL]) /\ inline_tables (blk ++ [NL]) = Done (blk ++ [NL]).
Proof.
  cbv zeta. split; [|split; [discriminate|split; [|vm_compute; reflexivity]]].
  - apply (F_closed (B "c")); [cbn; intuition discriminate|]. intros a b E.
    destruct (strstr_some ticks ((B "<!--TABLE-->" ++ [NL] ++ B "a,b" ++ [NL]) ++ ticks) 17 ltac:(vm_compute; reflexivity)) as (x & y & E' & Hx & Hm).
    specialize (Hm _ _ E). apply (f_equal (@length ascii)) in E. rewrite !app_length in E. cbn in E. destruct b; [reflexivity|cbn in E; lia].
  - intros w a b _ _. cbn. lia.
Qed.

(** C145.  In full: the delimiter of a ```table block is the tab if a line that is not blank has one, else the comma if one has one,
    else the block is kept.
    [forall body g o, first ticks body -> Guide body g -> inline_tables (ticks ++ B "table" ++ NL :: body ++ ticks) = Done o ->
      match g with Some tsv => csv_to_table body tsv = Table o | None => o = ticks ++ B "table" ++ NL :: body ++ ticks end.]
    Refuted: a tab on a blank line counts. *)
Theorem C145_refuted : exists body o, first ticks body /\ Guide body (Some false) /\
  inline_tables (ticks ++ B "table" ++ NL :: body ++ ticks) = Done o /\ csv_to_table body false <> Table o /\ csv_to_table body true = Table o.
Proof.
  exists (B "a,b" ++ [NL; TAB; NL]), (match csv_to_table (B "a,b" ++ [NL; TAB; NL]) true with Table t => t | _ => [] end).
  split; [|split; [exact tab_on_blank|]].
  - intros a b E.
    destruct (strstr_some ticks ((B "a,b" ++ [NL; TAB; NL]) ++ ticks) 6 ltac:(vm_compute; reflexivity)) as (x & y & E' & Hx & Hm).
    specialize (Hm _ _ E). apply (f_equal (@length ascii)) in E. rewrite !app_length in E. cbn in E. destruct b; [reflexivity|cbn in E; lia].
  - split; [vm_compute; reflexivity|]. split; [vm_compute; discriminate|vm_compute; reflexivity].
Qed.
Print Assumptions C145_refuted.
Theorem C145_partial : forall body g o, first ticks body -> Guide body g -> (In TAB body -> on_line TAB body) ->
  inline_tables (ticks ++ B "table" ++ NL :: body ++ ticks) = Done o ->
  match g with Some tsv => csv_to_table body tsv = Table o | None => o = ticks ++ B "table" ++ NL :: body ++ ticks end.
Proof. exact fence_guide. Qed.
Print Assumptions C145_partial.
Example C145_case : let body := B "a,b" ++ [NL] in first ticks body /\ Guide body (Some false) /\ inline_tables (ticks ++ B "table" ++ NL :: body ++ ticks) = Done (B "| a | b |" ++ [NL] ++ B "| --- | --- |" ++ [NL]).
Proof.
  cbv zeta. split; [|split; [|vm_compute; reflexivity]].
  - intros a b E.
    destruct (strstr_some ticks ((B "a,b" ++ [NL]) ++ ticks) 4 ltac:(vm_compute; reflexivity)) as (x & y & E' & Hx & Hm).
    specialize (Hm _ _ E). apply (f_equal (@length ascii)) in E. rewrite !app_length in E. cbn in E. destruct b; [reflexivity|cbn in E; lia].
  - apply G_comma; [intros H; apply on_line_in in H; cbn in H; intuition discriminate|]. apply comma_line. cbn. auto.
Qed.

(** C146.  The lines after a <!--TABLE--> marker, up to the next blank line, are the data of a table, by the same rule, and what
    follows is converted on its own. *)
Theorem C146 : forall m d after g o, Marker m (d ++ after) -> Data d after -> Guide d g ->
  inline_tables (m ++ d ++ after) = Done o ->
  exists o', Converted tab after o' /\
    match g with Some tsv => exists t, csv_to_table d tsv = Table t /\ o = t ++ o' | None => o = m ++ d ++ o' end.
Proof. exact marker_guide. Qed.
Print Assumptions C146.
Theorem C146_some : forall s, (exists x, s = marker ++ x) -> exists m d after, s = m ++ d ++ after /\ Marker m (d ++ after) /\ Data d after.
Proof.
  intros s [x ->]. destruct (of_marker (marker ++ x) (starts_app _ _)) as (m & p & E & M). destruct (of_data p) as (d & after & -> & D).
  exists m, d, after. split; [exact E|]. split; assumption.
Qed.
Print Assumptions C146_some.
Example C146_case : inline_tables (B "<!--TABLE--> " ++ [NL] ++ B "a,b" ++ [NL] ++ B "1,2" ++ [NL; SP; NL] ++ B "c,d") =
  Done (B "| a | b |" ++ [NL] ++ B "| --- | --- |" ++ [NL] ++ B "| 1 | 2 |" ++ [NL; SP; NL] ++ B "c,d").
Proof. vm_compute. reflexivity. Qed.

(** C147.  In full: the converted document never outgrows its buffer (when no table does).
    [forall s o, Converted tab s o -> inline_tables s = Done o.]
    Refuted by a document of 18 bytes.  True when the result is at most three times as long as the document; in the witness it is
    one byte longer than that. *)
Theorem C147_refuted : exists s o, Converted tab s o /\ length o = 3 * length s + 1 /\ inline_tables s = Bad.
Proof.
  exists (B "```table" ++ [NL] ++ B ",,," ++ [NL; NL] ++ B "```" ++ [NL]),
    (match go 100 0 100 (B "```table" ++ [NL] ++ B ",,," ++ [NL; NL] ++ B "```" ++ [NL]) with Done o => o | _ => [] end).
  split; [|split; vm_compute; reflexivity]. apply (go_converted 100 0 100). vm_compute. reflexivity.
Qed.
Print Assumptions C147_refuted.
Theorem C147_partial : forall s o, Converted tab s o -> length o <= 3 * length s -> inline_tables s = Done o.
Proof. intros s o H L. apply go_done; [exact H|lia|lia]. Qed.
Print Assumptions C147_partial.
(** And always when all tables come from markers. *)
Theorem C147_markers_partial : forall s o, Converted tab s o -> no_fence s -> inline_tables s = Done o.
Proof. intros s o H Q. apply go_markers; [exact H|exact Q|lia|lia]. Qed.
Print Assumptions C147_markers_partial.
Example C147_case : let s := B "<!--TABLE-->" ++ [NL] ++ B "a,b" ++ [NL] in exists o, Converted tab s o /\ length o <= 3 * length s.
Proof.
  exists (match inline_tables (B "<!--TABLE-->" ++ [NL] ++ B "a,b" ++ [NL]) with Done o => o | _ => [] end).
  split; [apply C142|]; vm_compute; [reflexivity|lia].
Qed.
