(** Styles of classes in a terminal theme (src/ast_terminal.c 479-494, 1092-1176). *)
From Verif Require Import Base BaseL S_Pass L_Pass M_Style M_Theme S_Style S_Theme L_Style L_Theme P_Style.

(** C337. The style of a list of classes is that of the first one that has an entry, and the first entry it has; every text is a list of classes in just one way. *)
Theorem C337_first th s ws st : Words s ws -> (class_style th s = Some st <-> first_of th ws st).
Proof. intro W. unfold class_style. rewrite (Words_words s ws W). apply first_known_spec. Qed.
Theorem C337_every s : exists ws, Words s ws /\ forall ws', Words s ws' -> ws' = ws.
Proof. destruct (Words_exist s) as (ws & W). exists ws. split; [exact W|]. intros ws' W'. apply Words_words in W, W'. congruence. Qed.
Example C337_case : class_style [(B "x", B "red"); (B "y", B "b"); (B "x", B "blue")] (B " z  x y") = Some (B "red") /\ Words (B " z") [B "z"].
Proof.
  split; [reflexivity|]. change (B " z") with ([SP] ++ B "z" ++ []). constructor; [repeat constructor|split; [discriminate|repeat constructor]|now left|constructor; constructor].
Qed.
Print Assumptions C337_first.
Print Assumptions C337_every.

(** C338. The style of an element is that of the classes of its class attribute. False: data-class is taken for it, whatever the two say; and a class that lies across the 255th byte of a long list is taken for the part of it before. *)
Theorem C338_refuted :
  (forall th v w r, length v <= 255 -> ~ In DQ v -> node_style th (B "data-class=" ++ DQ :: v ++ DQ :: B " class=" ++ DQ :: w ++ DQ :: r) = class_style th v) /\
  (let v := repeat SP 250 ++ B "redundant" in Words v [B "redundant"] /\ node_style [(B "redun", B "red")] (B "class=" ++ DQ :: v ++ [DQ]) = Some (B "red")).
Proof.
  split.
  - intros th v w r L N. pose proof (node_quoted th (B "data-") DQ v (B " class=" ++ DQ :: w ++ DQ :: r) (or_introl eq_refl)) as H. rewrite firstn_all2 in H by exact L. apply H; [|exact N]. intros (a & b & E). apply (f_equal (@length ascii)) in E. rewrite !app_length in E. cbn in E. lia.
  - cbv zeta. split; [|vm_compute; reflexivity]. rewrite <- (app_nil_r (B "redundant")). constructor; [unfold blank; rewrite Forall_forall; intros c I; apply repeat_spec in I; now subst|split; [discriminate|repeat constructor]|now left|constructor; constructor].
Qed.
(** What holds: so it is if no class= comes before and the list has at most 255 bytes. *)
Theorem C338_attribute_partial th a q v r ws st : (q = DQ \/ q = SQ) -> (forall x y, a <> x ++ B "class=" ++ y) -> ~ In q v -> length v <= 255 -> Words v ws ->
  (node_style th (a ++ B "class=" ++ q :: v ++ q :: r) = Some st <-> first_of th ws st).
Proof.
  intros Q N V L W. rewrite node_quoted; [|exact Q|intros (x & y & E); exact (N x y E)|exact V]. rewrite firstn_all2 by exact L. now apply C337_first.
Qed.
Theorem C338_none th s : (forall x y, s <> x ++ B "class=" ++ y) -> node_style th s = None.
Proof. intro N. unfold node_style. rewrite strstr_absent; [reflexivity|discriminate|]. intros (x & y & E). exact (N x y E). Qed.
Example C338_case : node_style [(B "note", B "b red")] (B "id=" ++ DQ :: B "x" ++ DQ :: B " class=" ++ DQ :: B "big note" ++ [DQ]) = Some (B "b red").
Proof. vm_compute. reflexivity. Qed.
Print Assumptions C338_refuted.
Print Assumptions C338_attribute_partial.
Print Assumptions C338_none.

(** C339. Made bold, a style is bold and then what it was. *)
Theorem C339_bold wide s : style wide (bold s) = esc :: B "[1m" ++ style wide (match s with Some s => s | None => [] end).
Proof.
  unfold bold. destruct s as [[|c r]|]; [destruct wide; reflexivity| |destruct wide; reflexivity]. change (B "b " ++ c :: r) with (B "b" ++ SP :: c :: r). rewrite (C333_words wide (B "b") SP (c :: r) eq_refl). destruct wide; reflexivity.
Qed.
Example C339_case : style true (bold (Some (B "red"))) = esc :: B "[1m" ++ esc :: B "[31m" /\ style true (bold None) = esc :: B "[1m".
Proof. vm_compute. split; reflexivity. Qed.
Print Assumptions C339_bold.
