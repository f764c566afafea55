(** C21: ids of headings. *)
From Verif Require Import Base BaseL M_Ids S_Ids L_Trans L_Ids.

Definition check : list ascii := ["226"; "156"; "133"]%char.
Definition table (u : list ascii) : option (list ascii) :=
  if seq_ u check then Some (B "white_check_mark") else None.
Lemma table_good : good_names table.
Proof.
  intros u n. unfold table. destruct (seq_ u check); [|discriminate]. intros E. apply Some_inj in E. subst n.
  split; [discriminate|]. split; intros r E; [discriminate|].
  apply (f_equal (@rev _)) in E. rewrite rev_app_distr in E. discriminate.
Qed.

(** GitHub style: for every heading text the id consists of its words (letters and
    digits in lower case, emoji as their names, accents dropped, everything else
    left out) with a single dash between any two.  Whatever the table of emoji
    names.  Nothing is stored outside the block as long as the pieces take at most
    three bytes per byte of text. *)
Theorem C21_gfm_partial names l :
  good_names names -> pieces_ok names l ->
  exists b, header_id names Gfm (write_pieces l) = Some (gfm_id l, b) /\
            (sizes l <= 3 * length (write_pieces l) -> b = false).
Proof. exact (gfm_ok names l). Qed.
Print Assumptions C21_gfm_partial.

(** Every text is such a list of pieces. *)
Theorem C21_every_text names s : exists l, pieces_ok names l /\ write_pieces l = s.
Proof. exact (every_heading names (length s) s (le_n _)). Qed.
Print Assumptions C21_every_text.

(** "Don't -- É ✅ 7!" *)
Example C21_gfm_case :
  let l := [Letter "D"; Letter "o"; Letter "n"; Dropped ["226"; "128"; "153"]; Letter "t"; Gap SP; Gap "-"; Gap "-"; Gap SP; Accent "137" "e";
            Gap SP; Emoji check (B "white_check_mark"); Gap SP; Letter "7"; Dropped ["!"]]%char in
  pieces_ok table l /\ sizes l <= 3 * length (write_pieces l) /\
  gfm_id l = B "dont-e-white_check_mark-7" /\
  header_id table Gfm (write_pieces l) = Some (B "dont-e-white_check_mark-7", false).
Proof.
  cbv zeta. split; [|split; [vm_compute; lia|split; vm_compute; reflexivity]].
  cbn [pieces_ok piece_ok].
  repeat match goal with |- _ /\ _ => split end; try reflexivity; try (left; reflexivity); try (right; reflexivity); try exact I.
  - right. left. split; [apply mark_seq|left]; unfold mark; cbn; auto.
  - cbn. auto 20.
  - exists "226"%char, ["156"; "133"]%char. split; [reflexivity|]. split; [right; left; cbn; lia|].
    repeat (constructor; [vm_compute; split; discriminate|]). constructor.
  - unfold mark. cbn. intuition discriminate.
  - left. exists "!"%char. repeat split; try reflexivity; discriminate.
Qed.

(** The id is never empty and neither starts nor ends with a dash. *)
Theorem C21_gfm_shape names text id b :
  good_names names -> header_id names Gfm text = Some (id, b) ->
  id <> [] /\ (forall r, id <> "-"%char :: r) /\ (forall r, id <> r ++ ["-"%char]).
Proof.
  intros G H. destruct (every_heading names (length text) text (le_n _)) as (l & OK & W).
  destruct (gfm_ok names l G OK) as (b' & E & _). rewrite W, H in E. apply Some_inj in E.
  assert (id = gfm_id l) as -> by congruence. unfold gfm_id.
  pose proof (words_solid names l G OK) as A. destruct (words l) as [|w ws] eqn:K.
  - split; [discriminate|]. split; intros r Q; [discriminate|].
    apply (f_equal (@rev _)) in Q. rewrite rev_app_distr in Q. discriminate.
  - apply (hyph_solid (w :: ws)); [discriminate|exact A].
Qed.
Print Assumptions C21_gfm_shape.

(** It consists of lower-case letters, digits, dashes and underscores if the emoji
    names do. *)
Theorem C21_gfm_bytes names text id b :
  good_names names -> plain_names names -> header_id names Gfm text = Some (id, b) -> Forall id_byte id.
Proof.
  intros G P H. destruct (every_heading names (length text) text (le_n _)) as (l & OK & W).
  destruct (gfm_ok names l G OK) as (b' & E & _). rewrite W, H in E. apply Some_inj in E.
  assert (id = gfm_id l) as -> by congruence. exact (gfm_bytes names l P OK).
Qed.
Print Assumptions C21_gfm_bytes.

(** A heading of 6 bytes, U+2705 and " ab": the id and its terminator take 20 bytes
    of a block of 19. *)
Theorem C21_memory_refuted :
  ~ (forall text id b, header_id table Gfm text = Some (id, b) -> b = false).
Proof.
  intros H. specialize (H (check ++ B " ab") (B "white_check_mark-ab") true). discriminate H. vm_compute. reflexivity.
Qed.
Print Assumptions C21_memory_refuted.

(** MultiMarkdown and Kramdown: a text that ends in the middle of a sequence makes
    the loop continue behind its terminator. *)
Theorem C21_cut_off_refuted names f l c t k :
  f <> Gfm -> Forall uchar_ok l -> follow c k -> length t < k ->
  header_id names f (write_uchars l ++ c :: t) = None.
Proof. exact (cut_off_ok names f l c t k). Qed.
Print Assumptions C21_cut_off_refuted.
Example C21_cut_off_case : header_id table Mmd ["a"; "195"]%char = None /\ header_id table Kramdown ["a"; "240"; "159"; "152"]%char = None.
Proof. split; reflexivity. Qed.

(** MultiMarkdown: letters, digits, dashes and everything outside ASCII but single
    quotes, in lower case; within the block. *)
Theorem C21_mmd_partial names l : Forall uchar_ok l ->
  header_id names Mmd (write_uchars l) = Some (or_header (concat (map mmd_text l)), false).
Proof. exact (mmd_ok names l). Qed.
Print Assumptions C21_mmd_partial.

(** Kramdown: see [kramdown_char]; dashes in front are removed. *)
Theorem C21_kramdown_partial names l : Forall uchar_ok l ->
  header_id names Kramdown (write_uchars l) = Some (or_header (no_dashes_first (kramdown_text [] l)), false).
Proof. exact (kram_ok names l). Qed.
Print Assumptions C21_kramdown_partial.

Example C21_formats_case :
  let l := [Asc "-"; Asc "A"; Asc ","; Asc SP; Uni ["195"; "169"]; Asc SP; Asc "b"; Asc "!"; Asc SP]%char in
  Forall uchar_ok l /\
  header_id table Mmd (write_uchars l) = Some (B "-a" ++ ["195"; "169"; "b"]%char, false) /\
  header_id table Kramdown (write_uchars l) = Some (B "a--b-", false).
Proof.
  cbv zeta. split; [|split; vm_compute; reflexivity].
  repeat (constructor; [first [split; [reflexivity|discriminate] | eexists _, _; split; [reflexivity|]; split; [left; cbn; lia|repeat constructor; cbn; lia]]|]).
  constructor.
Qed.
