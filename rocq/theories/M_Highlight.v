(** Model of src/extensions/highlight.c. *)
From Verif Require Import Base.

(** 13-21, [looks_like_list_marker] *)
Definition blank (c : ascii) : bool := ceq c SP || ceq c TAB.
Definition looks_like_list_marker (p : str) : bool :=
  let c := at_ p 0 in
  if ceq c "-" || ceq c "*" || ceq c "+" then blank (at_ p 1)
  else if isdigit c then
    let q := snd (span isdigit p) in
    ceq (at_ q 0) "." && blank (at_ q 1)
  else false.

(** 25-35, [line_is_indented_code_block] *)
Definition line_is_indented_code_block (read : str) : bool :=
  if ceq (at_ read 0) TAB then negb (looks_like_list_marker (skipn 1 read))
  else if starts (B "    ") read then
    negb (looks_like_list_marker (snd (span (fun c => ceq c SP) (skipn 4 read))))
  else false.

(** 59 / 74 / 83-84: what precedes the read pointer; [None] at the start. *)
Definition at_line_start (prev : option ascii) : bool :=
  match prev with None => true | Some c => ceq c NL end.
Definition prev_is (prev : option ascii) (c : ascii) : bool :=
  match prev with None => false | Some d => ceq d c end.

(** [read[2]], read unconditionally at line 85: past the terminator when only
    one byte is left, in which case the value comes from the memory behind. *)
Definition read2 (beyond p : str) : ascii := nth 2 (p ++ NUL :: beyond) NUL.
Definition read2_oob (p : str) : bool := length p <? 2.

(** 86-90 *)
Definition hl_start (prev : option ascii) (p : str) (r2 : ascii) : bool :=
  starts (B "==") p &&
  negb (ceq r2 "=") && negb (ceq r2 "}") && negb (ceq r2 NUL) &&
  negb (ceq r2 NL) && negb (ceq r2 CR) && negb (ceq r2 SP) && negb (ceq r2 TAB) &&
  negb (prev_is prev "=") && negb (prev_is prev "+") && negb (ceq r2 "+").

(** 95-116: offset of the closing [==] from [read + 2]; [before] is the byte
    before the candidate, [None] at [read + 2] itself. *)
Fixpoint hl_close (before : option ascii) (q : str) : option nat :=
  match q with
  | [] => None
  | c :: q1 =>
      if ceq c NL || ceq c CR then None
      else if starts (B "==") q &&
              negb (ceq (at_ q 2) "=") &&
              negb (prev_is before SP || prev_is before TAB) &&
              negb (prev_is before "+") &&
              negb (ceq (at_ q 2) "+")
      then Some 0
      else option_map S (hl_close (Some c) q1)
  end.

(** State of the loop: fenced, inline and indented code flags. *)
Record hl_state := Hl { hs_block : bool; hs_inline : bool; hs_indent : bool }.

(** 58-70 *)
Definition hl_track (prev : option ascii) (p : str) (s : hl_state) : hl_state :=
  let ind := if at_line_start prev then line_is_indented_code_block p
             else hs_indent s in
  if ceq (at_ p 0) BT then
    if ceq (at_ p 1) BT && ceq (at_ p 2) BT then Hl (negb (hs_block s)) (hs_inline s) ind
    else if negb (hs_block s) then Hl (hs_block s) (negb (hs_inline s)) ind
    else Hl (hs_block s) (hs_inline s) ind
  else Hl (hs_block s) (hs_inline s) ind.

(** 92-121: the highlight starting here, as the length of its content. *)
Definition hl_here (beyond : str) (prev : option ascii) (s : hl_state) (p : str) : option nat :=
  if negb (hs_block s) && negb (hs_inline s) && negb (hs_indent s) &&
     negb (prev_is prev "{") && hl_start prev p (read2 beyond p)
  then match hl_close None (skipn 2 p) with
       | Some k => if 0 <? k then Some k else None
       | None => None
       end
  else None.

(** 57-161, the loop.  The second component of the result is the sticky
    over-read flag; [None] only if the fuel runs out. *)
Fixpoint hl_loop (fuel : nat) (beyond : str) (prev : option ascii) (s : hl_state)
    (w : wr) (oobr : bool) (p : str) : option (wr * bool) :=
  match fuel with
  | O => None
  | S fuel =>
    match p with
    | [] => Some (w, oobr)
    | c :: p1 =>
        let s' := hl_track prev p s in
        let oobr' := oobr || read2_oob p in
        match hl_here beyond prev s' p with
        | Some k =>
            let content := firstn k (skipn 2 p) in
            let w' := w_puts_lt (B "</mark>")
                        (w_puts_lt content (w_puts_lt (B "<mark>") w)) in
            hl_loop fuel beyond (Some "="%char) s' w' oobr' (skipn (k + 4) p)
        | None => hl_loop fuel beyond (Some c) s' (w_put c w) oobr' p1
        end
    end
  end.

(** 41-165, [apex_process_highlights]. *)
Definition process_highlights (beyond text : str) : option (wr * bool) :=
  let cap := length text * 2 in
  option_map (fun r => (w_term (fst r), snd r))
    (hl_loop (S (length text)) beyond None (Hl false false false)
             (w_new cap cap) false text).
