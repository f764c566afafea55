(** Writing into a block with enough room. *)
From Verif Require Import Base BaseL.

Definition put_out (o : str) (w : wr) : wr := Wr (w_cap w) (w_out w ++ o) (w_rem w - length o) (w_oob w).
Lemma ok_store s w : w_ok w -> length s <= w_rem w -> w_set_rem (w_rem w - length s) (w_store s w) = put_out s w.
Proof.
  intros [R O] L. unfold w_set_rem, w_store, put_out. cbn [w_cap w_out w_rem w_oob]. f_equal. rewrite O. destruct s; [reflexivity|].
  cbn [orb]. apply Nat.ltb_ge. lia.
Qed.
Lemma put_out_ok o w : w_ok w -> length o <= w_rem w -> w_ok (put_out o w).
Proof. intros [R O] L. split; [|exact O]. cbn [put_out w_cap w_out w_rem]. rewrite app_length. lia. Qed.
Lemma puts_lt_room s w : w_ok w -> length s < w_rem w -> w_puts_lt s w = put_out s w.
Proof. intros R L. unfold w_puts_lt. rewrite (proj2 (Nat.ltb_lt _ _) L). apply ok_store; [exact R|lia]. Qed.
Lemma puts_le_room s w : w_ok w -> length s <= w_rem w -> w_puts_le s w = put_out s w.
Proof. intros R L. unfold w_puts_le. rewrite (proj2 (Nat.leb_le _ _) L). now apply ok_store. Qed.
Lemma put_room c w : w_ok w -> 1 <= w_rem w -> w_put c w = put_out [c] w.
Proof. intros R L. unfold w_put. rewrite (proj2 (Nat.ltb_lt _ _) L). now apply ok_store. Qed.
Lemma put_out_app a b w : put_out b (put_out a w) = put_out (a ++ b) w.
Proof. unfold put_out. cbn [w_cap w_out w_rem w_oob]. rewrite app_length, <- app_assoc. f_equal. lia. Qed.
Lemma put_out_rem a w : w_rem (put_out a w) = w_rem w - length a.
Proof. reflexivity. Qed.
Lemma put_out_nil w : put_out [] w = w.
Proof. unfold put_out. rewrite app_nil_r, Nat.sub_0_r. now destruct w. Qed.
