(** Model of the footnote ids with a prefix: src/apex.c 3204-3415.  unsigned long has 64 bits. *)
From Verif Require Import Base M_Pass.
From Coq Require Import NArith.

(** * The prefix: apex.c 3204-3222 *)
Definition wide : N := 18446744073709551616%N.
Definition djb2 (s : str) : N := fold_left (fun h c => ((h * 33 + code c) mod wide)%N) s 5381%N.
Definition hex_digit (n : N) : ascii := nth (N.to_nat n) (B "0123456789abcdef") NUL.
(** the last [k] digits *)
Fixpoint hex (k : nat) (n : N) : str :=
  match k with O => [] | S k => hex k (n / 16)%N ++ [hex_digit (n mod 16)%N] end.
(** %08lx: leading zeros go, but eight digits stay *)
Fixpoint strip (k : nat) (s : str) : str :=
  match k, s with S k, c :: r => if ceq c "0"%char then strip k r else s | _, _ => s end.
Definition prefix (text : str) : str := firstn 8 (strip 8 (hex 16 (djb2 text))).

(** * The ids: apex.c 3224-3415 *)
(** memcpy of the key, of the prefix, and the hyphen without a check *)
Definition keyed (p k : str) (w : wr) : wr :=
  let w := emit k (if left_ w <=? length k then grow (length k + length p + 100) w else w) in
  let w := emit p (if left_ w <=? length p then grow (length p + 100) w else w) in
  emit (B "-") w.
Fixpoint ids (fuel : nat) (p s : str) (w : wr) : wr :=
  match fuel with
  | O => w
  | S fuel =>
      match s with
      | [] => w
      | c :: r =>
          let with_key k := ids fuel p (skipn (length k) s) (keyed p k w) in
          if starts (B "id=""fn-") s then with_key (B "id=""fn-")
          else if starts (B "id=""fnref-") s then with_key (B "id=""fnref-")
          else if starts (B "href=""#fn-") s then with_key (B "href=""#fn-")
          else if starts (B "href=""#fnref-") s then with_key (B "href=""#fnref-")
          else ids fuel p r (byte c w)
      end
  end.
Definition add_prefix (p html : str) : answer := finish (ids (S (length html)) p html (start (length html + (length p + 1) * 100 + 1))).
