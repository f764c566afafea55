(** Model of apex.c 4727-4913: proofreader mode.  Allocation never fails. *)
From Verif Require Import Base.

(** 4740-4742 *)
Record rs := Rs { r_block : bool; r_inline : bool; r_count : nat }.

(** 4746-4763: a byte [c], followed by [next] (NUL at the end). *)
Definition track (c next : ascii) (st : rs) : rs :=
  if ceq c "`" then
    let n := S (r_count st) in
    if Nat.leb 3 n then Rs (negb (r_block st)) (r_inline st) 0
    else if negb (r_block st) then
      if negb (ceq next "`") then Rs (r_block st) (negb (r_inline st)) 0
      else Rs (r_block st) (r_inline st) n
    else Rs (r_block st) (r_inline st) n
  else Rs (r_block st) (r_inline st) 0.

(** 4769-4778 and 4797-4806: a larger block; what was written is kept. *)
Definition grow (need : nat) (w : wr) : wr :=
  let cap := (length (w_out w) + need + 100) * 2 in
  Wr cap (w_out w) (cap - length (w_out w)) (w_oob w).
(** 4767-4779 and three more *)
Definition make_room (w : wr) : wr := if Nat.ltb (w_rem w) 10 then grow 0 w else w.
(** Store without a check and count down.  If [w_rem] would become negative, the C
    counter wraps around. *)
Definition emit (s : str) (w : wr) : wr := w_set_rem (w_rem w - length s) (w_store s w).

(** 4784-4834 and 4835-4885, behind the two bytes [d d]; [o] is the byte written.
    The text that is left, and the buffer. *)
Definition wrap_mark (d o : ascii) (s : str) (w : wr) : str * wr :=
  match strstr [d; d] s with
  | Some n =>
      let need := 2 + n + 2 in
      let w := if Nat.leb (w_rem w) need then grow need w else w in
      (skipn (n + 2) s,
       emit [o; o; "}"%char] (emit (firstn n s) (emit ["{"%char; o; o] w)))
  | None => (s, emit [d; d] (make_room w))
  end.

(** 4744-4905 *)
Fixpoint reader_loop (fuel : nat) (st : rs) (s : str) (w : wr) : option wr :=
  match fuel with
  | 0 => None
  | S fuel =>
      match s with
      | [] => Some (w_term w)
      | c :: s' =>
          let st := track c (at_ s' 0) st in
          if (r_block st || r_inline st)%bool then reader_loop fuel st s' (emit [c] (make_room w))
          else if (ceq c "=" && ceq (at_ s' 0) "=")%bool then
            let (s2, w2) := wrap_mark "=" "=" (skipn 1 s') w in reader_loop fuel st s2 w2
          else if (ceq c "~" && ceq (at_ s' 0) "~")%bool then
            let (s2, w2) := wrap_mark "~" "-" (skipn 1 s') w in reader_loop fuel st s2 w2
          else reader_loop fuel st s' (emit [c] (make_room w))
      end
  end.
Definition proofread (text : str) : option wr :=
  let cap := length text * 2 + 1 in
  reader_loop (S (length text)) (Rs false false 0) text (w_new cap cap).
