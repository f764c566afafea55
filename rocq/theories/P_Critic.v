(** Property theorems C04 - C07 (src/extensions/critic.c). *)
From Verif Require Import Base M_Critic S_Critic L_Critic.

(** Every text has exactly one reading as plain bytes and marks, and a reading
    has at most one accepted and at most one rejected form, so C04 and C05 below
    determine the output completely. *)
Theorem C04_reading_exists : forall text, exists segs, reads text segs.
Proof. exact reads_total. Qed.
Theorem C04_reading_unique : forall text s1 s2, reads text s1 -> reads text s2 -> s1 = s2.
Proof. exact reads_fun. Qed.
Theorem C04_result_unique : forall segs a b,
  (result_of accepted segs a -> result_of accepted segs b -> a = b) /\
  (result_of rejected segs a -> result_of rejected segs b -> a = b).
Proof. exact critic_unique. Qed.
Print Assumptions C04_reading_exists.
Print Assumptions C04_reading_unique.
Print Assumptions C04_result_unique.

(** C04: accepting. *)
Theorem C04_critic_accept :
  forall text, text <> [] ->
  exists w segs, process_critic MAccept text = Some w /\
    reads text segs /\ result_of accepted segs (w_out w).
Proof. exact accept_ok. Qed.
Print Assumptions C04_critic_accept.

Example C04_case :
  option_map w_out (process_critic MAccept (B "a{++b++}{--c--}{~~d~>e~~}{==f==}{>>g<<}{++h"))
  = Some (B "abef{++h").
Proof. vm_compute. reflexivity. Qed.

(** C05: rejecting. *)
Theorem C05_critic_reject :
  forall text, text <> [] ->
  exists w segs, process_critic MReject text = Some w /\
    reads text segs /\ result_of rejected segs (w_out w).
Proof. exact reject_ok. Qed.
Print Assumptions C05_critic_reject.

Example C05_case :
  option_map w_out (process_critic MReject (B "a{++b++}{--c--}{~~d~>e~~}{==f==}{>>g<<}{++h"))
  = Some (B "acdf{++h").
Proof. vm_compute. reflexivity. Qed.

(** C06: accept and reject stay inside the buffer, terminator included, for
    every non-empty text (no reads beyond the terminator occur in any case: the
    model's reads are all at offsets up to the terminator). *)
Theorem C06_critic_memory_partial :
  forall mode text, mode = MAccept \/ mode = MReject -> text <> [] ->
  exists w, process_critic mode text = Some w /\ w_oob w = false.
Proof. exact critic_safe. Qed.
Print Assumptions C06_critic_memory_partial.

(** C06 fails for the empty text: a zero-byte block receives the terminator. *)
Theorem C06_critic_memory_refuted :
  exists w, process_critic MAccept [] = Some w /\ w_oob w = true.
Proof. exact critic_safe_refuted. Qed.
Print Assumptions C06_critic_memory_refuted.

(** C07: text of an edit can vanish in markup mode ... *)
Theorem C07_critic_markup_refuted :
  exists text w, process_critic MMarkup text = Some w /\
    In "x"%char text /\ ~ In "x"%char (w_out w).
Proof. exact critic_markup_refuted. Qed.
Print Assumptions C07_critic_markup_refuted.

(** ... but not when the marked-up document is shorter than twice the source. *)
Theorem C07_critic_markup_partial :
  forall text,
  exists segs out, reads text segs /\ result_of shown segs out /\
  (length out < 2 * length text ->
   exists w, process_critic MMarkup text = Some w /\ w_out w = out /\ w_oob w = false).
Proof. exact critic_markup_ok. Qed.
Print Assumptions C07_critic_markup_partial.

Example C07_case :
  option_map w_out (process_critic MMarkup (B "a longer text with one {++b++} edit"))
  = Some (B "a longer text with one <ins class=""critic"">b</ins> edit").
Proof. vm_compute. reflexivity. Qed.
