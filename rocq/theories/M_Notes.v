(** Model of src/extensions/inline_footnotes.c.  Allocation never fails (for an empty
    text: malloc(0) gives a block of no bytes). *)
From Verif Require Import Base Dec.

(** 17-22 *)
Definition has_space (s : str) : bool := existsb isspace s.
(** 90-101: from behind the opening bracket; the content and the text behind the
    closing bracket. *)
Fixpoint to_bracket (depth : nat) (s : str) : option (str * str) :=
  match s with
  | [] => None
  | c :: s' =>
      let d := if ceq c "[" then S depth else if ceq c "]" then depth - 1 else depth in
      match d with
      | 0 => Some ([], s')
      | _ => match to_bracket d s' with
             | Some (a, r) => Some (c :: a, r)
             | None => None
             end
      end
  end.
(** 135-139 *)
Definition to_close (s : str) : option (str * str) :=
  let (a, r) := span (fun c => negb (ceq c "]") && negb (ceq c NL)) s in
  match r with
  | c :: r' => if ceq c "]" then Some (a, r') else None
  | [] => None
  end.
(** 88-129 and 131-167: the content of a note that starts here, and what follows it. *)
Definition note_at (s : str) : option (str * str) :=
  match (if ceq (at_ s 0) "^" && ceq (at_ s 1) "[" then to_bracket 1 (skipn 2 s) else None) with
  | Some r => Some r
  | None =>
      if ceq (at_ s 0) "[" && ceq (at_ s 1) "^" then
        match to_close (skipn 2 s) with
        | Some (a, r) => if has_space a then Some (a, r) else None
        | None => None
        end
      else None
  end.

(** 119-120 and 177-178: the arrays of 32 and 64 bytes are long enough for any number. *)
Definition label (n : nat) : str := B "[^fn" ++ dec n ++ B "]".
Definition fence (s : str) : bool := starts (B "```") s || starts (B "~~~") s.
Record fs := Fs { f_block : bool; f_span : bool; f_notes : list str; f_w : wr }.
Definition f_put (c : ascii) (f : fs) : fs := Fs (f_block f) (f_span f) (f_notes f) (w_put c (f_w f)).

(** 68-171 *)
Fixpoint notes_loop (fuel : nat) (s : str) (f : fs) : option fs :=
  match fuel with
  | 0 => None
  | S fuel =>
      match s with
      | [] => Some f
      | c :: s' =>
          if fence s then notes_loop fuel s' (f_put c (Fs (negb (f_block f)) (f_span f) (f_notes f) (f_w f)))
          else if (ceq c "`" && negb (f_block f))%bool
          then notes_loop fuel s' (f_put c (Fs (f_block f) (negb (f_span f)) (f_notes f) (f_w f)))
          else if (f_block f || f_span f)%bool then notes_loop fuel s' (f_put c f)
          else
            match note_at s with
            | Some (a, r) =>
                notes_loop fuel r
                  (Fs (f_block f) (f_span f) (f_notes f ++ [a])
                      (w_puts_lt (label (S (length (f_notes f)))) (f_w f)))
            | None => notes_loop fuel s' (f_put c f)
            end
      end
  end.
(** 176-182 *)
Fixpoint put_defs (n : nat) (l : list str) (w : wr) : wr :=
  match l with
  | [] => w
  | a :: l => put_defs (S n) l (w_put NL (w_puts_lt a (w_puts_lt (label n ++ B ": ") w)))
  end.
(** 27-205 *)
Definition inline_notes (text : str) : option wr :=
  match notes_loop (S (length text)) text (Fs false false [] (w_new (length text * 3) (length text * 3))) with
  | None => None
  | Some f =>
      let w := match f_notes f with
               | [] => f_w f
               | l => put_defs 1 l (w_puts_lt [NL; NL] (f_w f))
               end in
      Some (w_term w)
  end.
