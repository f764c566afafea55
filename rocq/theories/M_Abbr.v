(** Model of src/extensions/abbreviations.c.  Allocation never fails. *)
From Verif Require Import Base.

(** 29-34.  The test [end > str] protects the first byte, which is no white space
    when there is one. *)
Definition trim (s : str) : str :=
  rev (snd (span isspace (rev (snd (span isspace s))))).
(** What [trim] leaves in the array it was given, read as a string from its start:
    bytes cut off at the end are overwritten with NUL, those in front stay.  If
    there is only white space, nothing is overwritten. *)
Definition trim_left_over (s : str) : str :=
  match snd (span isspace s) with
  | [] => s
  | _ => rev (snd (span isspace (rev s)))
  end.

Notation item := (list ascii * list ascii)%type (only parsing).

(** ** 40-98, process_inline_abbreviations *)

(** 53-67: abbreviation, expansion and what follows. *)
Definition inline_at (s : str) : option (str * str * str) :=
  if starts (B "[>(") s then
    let a := skipn 3 s in
    match strchr ")" a with
    | Some i =>
        let e := snd (span (ceq SP) (skipn (S i) a)) in
        match strchr "]" e with
        | Some j =>
            if (Nat.ltb 0 i && Nat.ltb i 256 && Nat.ltb 0 j && Nat.ltb j 1024)%bool
            then Some (firstn i a, firstn j e, skipn (S j) e) else None
        | None => None
        end
    | None => None
    end
  else None.

(** 83-85: [strcpy(write, abbr_text); write += abbr_len;] after [trim(abbr_text)].
    Bytes between the NUL that strcpy stored and the new write pointer are not
    written at all; they are behind a NUL and so never read, and stand here as
    NULs. *)
Definition put_abbr (a : str) (w : wr) : wr :=
  let t := trim_left_over a in
  let w1 := w_store (t ++ [NUL]) w in
  Wr (w_cap w) (w_out w ++ t ++ repeat NUL (length a - length t)) (w_rem w) (w_oob w1).

(** 50-94; items are put in front of the list. *)
Fixpoint inline_loop (fuel : nat) (s : str) (items : list item) (w : wr) : option (list item * wr) :=
  match fuel with
  | 0 => None
  | S fuel =>
      match s with
      | [] => Some (items, w_term w)
      | c :: s' =>
          match inline_at s with
          | Some (a, e, r) => inline_loop fuel r ((trim a, trim e) :: items) (put_abbr a w)
          | None => inline_loop fuel s' items (w_store [c] w)
          end
      end
  end.
(** A C string in an array. *)
Definition c_string (s : str) : str := fst (span (fun c => negb (ceq c NUL)) s).
Definition inline_abbreviations (text : str) : option (list item * wr) :=
  inline_loop (S (length text)) text [] (w_new (length text * 2) 0).

(** ** 104-210, apex_extract_abbreviations *)

(** 139-161 and 164-186, on the copy of the line: the definition, if both parts are
    there. *)
Definition definition_after (l : str) : option (option item) :=
  match strchr "]" l with
  | Some i =>
      if ceq (at_ l (S i)) ":" then
        let a := trim (firstn i l) in
        let e := trim (skipn (i + 2) l) in
        Some (match a, e with
              | [], _ | _, [] => None
              | _, _ => Some (a, e)
              end)
      else None
  | None => None
  end.
Definition definition_line (l : str) : option (option item) :=
  let first := if (ceq (at_ l 0) "*" && ceq (at_ l 1) "[")%bool
               then definition_after (skipn 2 l) else None in
  match first with
  | Some d => Some d
  | None => if (ceq (at_ l 0) "[" && ceq (at_ l 1) ">")%bool
            then definition_after (skipn 2 l) else None
  end.

(** 129-200.  The line is cut at 1023 bytes (133-136) and the cut line is what is
    copied (191). *)
Fixpoint lines_loop (fuel : nat) (s : str) (items : list item) (w : wr) : option (list item * wr) :=
  match fuel with
  | 0 => None
  | S fuel =>
      match strchr NL s, s with
      | None, [] => Some (items, w_term w)
      | found, _ =>
          let e := match found with Some i => i | None => length s end in
          let line := firstn (Nat.min e 1023) s in
          let rest := match found with Some i => skipn (S i) s | None => [] end in
          match definition_line line with
          | Some d =>
              lines_loop fuel rest (items ++ match d with Some x => [x] | None => [] end) w
          | None =>
              let w1 := w_store line w in
              match found with
              | Some _ => lines_loop fuel rest items (w_store [NL] w1)
              | None => Some (items, w_term w1)
              end
          end
      end
  end.

(** The list and the text that replaces the old one in place; the flag: a byte was
    stored outside one of the two buffers.  The copies back into the text (116-118,
    205) are never longer than what was there. *)
Record extracted := Extracted { e_items : list item; e_text : str; e_oob : bool }.
Definition extract_abbreviations (text : str) : option extracted :=
  match inline_abbreviations text with
  | Some (items, w) =>
      let t := c_string (w_out w) in
      let over := w_oob w || Nat.ltb (length text) (length t) in
      match lines_loop (S (length t)) t items (w_new (S (length t)) 0) with
      | Some (items', w') =>
          Some (Extracted items' (c_string (w_out w')) (over || w_oob w' || Nat.ltb (length t) (length (w_out w'))))
      | None => None
      end
  | None => None
  end.

(** ** 215-364, apex_replace_abbreviations *)

(** 267-270: a buffer of 2048 bytes. *)
Definition abbr_tag (a e : str) : str :=
  firstn 2047 (B "<abbr title=" ++ [DQ] ++ e ++ [DQ] ++ B ">" ++ a ++ B "</abbr>").

(** 243-320, behind [[&gt;].  [Explicit]: with an expansion; [Known]: an item of the
    list.  Both with the text behind the bracket. *)
Inductive bracketed := Explicit (a e r : str) | Known (a e r : str) | Nothing.
Definition bracket_end (c : ascii) : bool := ceq c "]" || ceq c NL || ceq c "<".
Definition bracket_at (items : list item) (s : str) : bracketed :=
  if starts (B "[&gt;") s then
    let start := skipn 5 s in
    let (body, tail) := span (fun c => negb (bracket_end c)) start in
    match tail with
    | c :: r =>
        if ceq c "]" then
          if ceq (at_ start 0) "(" then
            match strchr ")" (skipn 1 start) with
            | Some i =>
                (* abbr_end = start + 1 + i, end = start + length body *)
                if Nat.ltb (S i) (length body) then
                  let a := firstn i (skipn 1 start) in
                  let e := skipn (i + 2) body in
                  match a, e with
                  | [], _ | _, [] => Nothing
                  | _, _ => Explicit a e r
                  end
                else Nothing
            | None => Nothing
            end
          else if (Nat.ltb 0 (length body) && Nat.ltb (length body) 256)%bool then
            match find (fun it => seq_ (fst it) (trim body)) items with
            | Some (a, e) => Known a e r
            | None => Nothing
            end
          else Nothing
        else Nothing
    | [] => Nothing
    end
  else Nothing.

Definition word_byte (p : option ascii) : bool := match p with Some c => isalnum c | None => false end.
(** 325-334 *)
Definition matches (prev : option ascii) (s : str) (it : item) : bool :=
  starts (fst it) s && negb (word_byte prev) && negb (isalnum (at_ s (length (fst it)))).
Definition last_byte (prev : option ascii) (s : str) : option ascii :=
  match rev s with [] => prev | c :: _ => Some c end.

(** [Smashed]: one of the arrays of 256 and 1024 bytes on the stack was overrun
    (256-260). *)
Inductive replaced := Out (w : wr) | Smashed.
(** 233-359.  [prev] is the byte before the read pointer. *)
Fixpoint replace_loop (fuel : nat) (items : list item) (prev : option ascii) (s : str) (w : wr)
  : option replaced :=
  match fuel with
  | 0 => None
  | S fuel =>
      match s with
      | [] => Some (Out (w_term w))
      | c :: s' =>
          match bracket_at items s with
          | Explicit a e r =>
              if (Nat.leb 256 (length a) || Nat.leb 1024 (length e))%bool then Some Smashed
              else replace_loop fuel items (Some "]"%char) r (w_puts_lt (abbr_tag (trim a) (trim e)) w)
          | Known a e r =>
              replace_loop fuel items (Some "]"%char) r (w_puts_lt (abbr_tag a e) w)
          | Nothing =>
              match find (matches prev s) items with
              | Some (a, e) =>
                  replace_loop fuel items (last_byte prev a) (skipn (length a) s)
                    (w_puts_lt (abbr_tag a e) w)
              | None => replace_loop fuel items (Some c) s' (w_put c w)
              end
          end
      end
  end.
Definition replace_abbreviations (fuel : nat) (html : str) (items : list item) : option replaced :=
  match items with
  | [] => Some (Out (Wr (S (length html)) html 0 false))
  | _ => replace_loop fuel items None html (w_new (length html * 5) (length html * 5))
  end.
