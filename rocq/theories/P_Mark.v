(** Property theorem C20 (src/extensions/special_markers.c). *)
From Verif Require Import Base Dec M_Mark S_Mark L_Mark.

(** C20 would say: every marker becomes what it stands for, everything else stays,
    and nothing is read or written outside the buffers.  It fails in four ways. *)

(** An index marker at the end of the text makes the scan go on behind the text ... *)
Theorem C20_index_refuted :
  forall l, mtoks_ok [] l -> short_pauses l -> index_at_end (write_mtoks l) ->
  special_markers (write_mtoks l) = Some Behind.
Proof. exact markers_index. Qed.
Print Assumptions C20_index_refuted.

(** ... and anywhere else it is no marker at all. *)
Theorem C20_index_kept_refuted :
  exists w, special_markers (B "a {index} b") = Some (Marked w) /\ w_out w = B "a {index} b".
Proof. eexists. split; vm_compute; reflexivity. Qed.
Print Assumptions C20_index_kept_refuted.

(** The empty text gets a block of no bytes and a terminator. *)
Theorem C20_empty_refuted : exists w, special_markers [] = Some (Marked w) /\ w_oob w = true.
Proof. eexists. split; vm_compute; reflexivity. Qed.
Print Assumptions C20_empty_refuted.

(** After a page break in a short text the rest of the text can be lost, and the
    terminator is written behind the block. *)
Theorem C20_page_break_refuted :
  exists text w, special_markers (B "<!--BREAK-->" ++ text) = Some (Marked w) /\ w_oob w = true /\
  w_out w = shown_all [Break] ++ firstn 3 text /\ length text = 36.
Proof. exists (B "abcdefghijklmnopqrstuvwxyz0123456789"). eexists. repeat split; vm_compute; reflexivity. Qed.
Print Assumptions C20_page_break_refuted.

(** What holds: if the result is shorter than four times the text, and the text
    does not end in an index marker, and pauses are ints. *)
Theorem C20_markers_partial :
  forall l, mtoks_ok [] l -> short_pauses l -> ~ index_at_end (write_mtoks l) ->
  length (shown_all l) < 4 * length (write_mtoks l) ->
  exists w, special_markers (write_mtoks l) = Some (Marked w) /\ w_oob w = false /\ w_out w = shown_all l.
Proof. exact markers_exact. Qed.
Print Assumptions C20_markers_partial.

(** Every text is such a sequence. *)
Theorem C20_every_text : forall s, exists l, mtoks_ok [] l /\ write_mtoks l = s.
Proof. exact mtoks_of. Qed.
Print Assumptions C20_every_text.

(** The first condition holds in texts without page breaks that are not empty and
    do not end in a caret line without a newline. *)
Theorem C20_without_page_breaks_partial :
  forall l, mtoks_ok [] l -> short_pauses l -> ~ index_at_end (write_mtoks l) ->
  l <> [] -> no_page_break l -> (forall l' b, l <> l' ++ [BlockEnd b false]) ->
  exists w, special_markers (write_mtoks l) = Some (Marked w) /\ w_oob w = false /\ w_out w = shown_all l.
Proof. exact markers_no_break. Qed.
Print Assumptions C20_without_page_breaks_partial.

(** A text without any marker is left alone. *)
Theorem C20_unchanged_partial :
  forall s, s <> [] -> ~ index_at_end s -> (forall a t r, marker a t r -> s <> a ++ write_mtok t ++ r) ->
  exists w, special_markers s = Some (Marked w) /\ w_oob w = false /\ w_out w = s.
Proof. exact markers_none. Qed.
Print Assumptions C20_unchanged_partial.

Example C20_case :
  exists w, special_markers (B "* a" ++ [NL] ++ B " ^ " ++ [NL] ++ B "* b ^ <!--PAUSE:07--> end of this list") = Some (Marked w) /\
  w_out w = B "* a" ++ [NL] ++ B " " ++ shown (BlockEnd [] true) ++ B "* b ^ " ++ shown (Pause (B "7")) ++ B " end of this list".
Proof. eexists. split; vm_compute; reflexivity. Qed.
