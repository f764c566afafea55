(** Model of src/extensions/sup_sub.c.  Allocation never fails. *)
From Verif Require Import Base.

Definition is (c : ascii) (s : str) : bool := ceq (at_ s 0) c.
Definition blank (c : ascii) : bool := ceq c SP || ceq c TAB.
(** 13-22 *)
Definition list_marker (s : str) : bool :=
  if is "-" s || is "*" s || is "+" s then blank (at_ s 1)
  else if isdigit (at_ s 0) then
    let r := snd (span isdigit s) in is "." r && blank (at_ r 1)
  else false.
(** 26-36 *)
Definition indented (s : str) : bool :=
  if is TAB s then negb (list_marker (skipn 1 s))
  else if starts (B "    ") s then negb (list_marker (snd (span (ceq SP) (skipn 4 s))))
  else false.
(** 189-190, 284, 362-363 *)
Definition sentence (c : ascii) : bool := existsb (ceq c) (B ".,;:!?").
(** 187-194, 360-367: the word up to white space, the mark [m] or a sentence terminator *)
Definition word (m : ascii) (s : str) : str * str :=
  span (fun c => negb (ceq c SP || ceq c TAB || ceq c NL || ceq c m || sentence c)) s.
(** ispunct in the "C" locale *)
Definition ispunct (c : ascii) : bool := between 33 126 c && negb (isalnum c).
(** 293-348: the closing tilde, where [acc] (reversed) lies between; the second
    component tells whether it is an underline. *)
Fixpoint closing (before : option ascii) (acc s : str) : option (str * str * bool) :=
  match s with
  | [] => None
  | c :: s' =>
      if ceq c NL then None
      else if ceq c "~" then
        match s' with
        | d :: s'' =>
            if ceq d "~" then closing before (d :: c :: acc) s''
            else if match acc with p :: _ => isspace p | [] => false end then closing before (c :: acc) s'
            else
              let sub := (match before with Some b => isalnum b | None => false end && forallb isalnum acc
                          && (isalnum d || isspace d || ispunct d))%bool in
              Some (rev acc, s', negb sub)
        | [] =>
            if match acc with p :: _ => isspace p | [] => false end then closing before (c :: acc) s'
            else
              let sub := (match before with Some b => isalnum b | None => false end && forallb isalnum acc)%bool in
              Some (rev acc, s', negb sub)
        end
      else closing before (c :: acc) s'
  end.

Record ss := Ss { s_code : bool; s_inline : bool; s_indent : bool; s_math : bool; s_display : bool; s_liquid : bool;
                  s_prev : option ascii; s_w : wr }.
(** One byte copied, or skipped when nothing remains. *)
Definition copy1 (c : ascii) (t : ss) : ss :=
  Ss (s_code t) (s_inline t) (s_indent t) (s_math t) (s_display t) (s_liquid t) (Some c) (w_put c (s_w t)).
(** 76-84: two bytes copied, or skipped when there is no room for both. *)
Definition copy2 (c d : ascii) (t : ss) : ss :=
  Ss (s_code t) (s_inline t) (s_indent t) (s_math t) (s_display t) (s_liquid t) (Some d) (w_puts_le [c; d] (s_w t)).
Definition set_liquid (b : bool) (t : ss) : ss :=
  Ss (s_code t) (s_inline t) (s_indent t) (s_math t) (s_display t) b (s_prev t) (s_w t).
Definition set_math (b : bool) (t : ss) : ss :=
  Ss (s_code t) (s_inline t) (s_indent t) b (s_display t) (s_liquid t) (s_prev t) (s_w t).
Definition flip_display (t : ss) : ss :=
  Ss (s_code t) (s_inline t) (s_indent t) (s_math t) (negb (s_display t)) (s_liquid t) (s_prev t) (s_w t).
(** A tagged word written; [p] is the last byte read. *)
Definition tagged (x : str) (p : ascii) (t : ss) : ss :=
  Ss (s_code t) (s_inline t) (s_indent t) (s_math t) (s_display t) (s_liquid t) (Some p) (w_puts_le x (s_w t)).
(** 69-71 *)
Definition at_line (s : str) (t : ss) : ss :=
  match s_prev t with
  | Some c => if ceq c NL then Ss (s_code t) (s_inline t) (indented s) (s_math t) (s_display t) (s_liquid t) (s_prev t) (s_w t) else t
  | None => Ss (s_code t) (s_inline t) (indented s) (s_math t) (s_display t) (s_liquid t) (s_prev t) (s_w t)
  end.
(** 106-112 *)
Definition at_tick (s : str) (t : ss) : ss :=
  if is "`" s then
    if ceq (at_ s 1) "`" && ceq (at_ s 2) "`"
    then Ss (negb (s_code t)) (s_inline t) (s_indent t) (s_math t) (s_display t) (s_liquid t) (s_prev t) (s_w t)
    else if s_code t then t
    else Ss (s_code t) (negb (s_inline t)) (s_indent t) (s_math t) (s_display t) (s_liquid t) (s_prev t) (s_w t)
  else t.
(** 117-154: [Some] when a delimiter of math was copied. *)
Definition at_math (s : str) (t : ss) : option (str * ss) :=
  if s_code t || s_inline t || s_indent t then None
  else if is "$" s && ceq (at_ s 1) "$" then Some (skipn 2 s, copy2 "$" "$" (flip_display t))
  else if is "$" s && negb (s_display t) then
    if s_math t then Some (skipn 1 s, copy1 "$" (set_math false t))
    else if negb (ceq (at_ s 1) NUL) && negb (blank (at_ s 1)) && negb (ceq (at_ s 1) NL)
    then Some (skipn 1 s, copy1 "$" (set_math true t))
    else None
  else None.
(** 166-232: what a caret does; [None]: nothing. *)
Definition opens (m : ascii) (s : str) : bool :=
  is m s && negb (ceq (at_ s 1) NUL) && negb (blank (at_ s 1)) && negb (ceq (at_ s 1) NL) && negb (ceq (at_ s 1) m).
(** 218-228, 390-400: the text behind the word, and the last byte read. *)
Definition behind (m : ascii) (x r : str) : ascii * str :=
  if is m r then (m, skipn 1 r) else (last x NUL, r).
Definition at_caret (s : str) (t : ss) : option (str * ss) :=
  if opens "^" s then
    if match s_prev t with Some c => ceq c "[" | None => false end then Some (skipn 1 s, copy1 "^" t)
    else
      let (x, r) := word "^" (skipn 1 s) in
      match x with
      | [] => None
      | _ =>
          let o := B "<sup>" ++ x ++ B "</sup>" in
          if Nat.leb (length o) (w_rem (s_w t))
          then let (p, r') := behind "^" x r in Some (r', tagged o p t)
          else None
      end
  else None.
(** 236-277 *)
Definition at_tilde (s : str) (t : ss) : option (str * ss) :=
  if is "~" s then
    if match s_prev t with Some c => ceq c "~" | None => false end || ceq (at_ s 1) "~" then Some (skipn 1 s, copy1 "~" t)
    else if ceq (at_ s 1) ">" then Some (skipn 1 s, copy1 "~" t)
    else None
  else None.
(** 280-405 *)
Definition at_word (s : str) (t : ss) : option (str * ss) :=
  if opens "~" s then
    let s1 := skipn 1 s in
    let (x, r) := word "~" s1 in
    let found := if sentence (at_ r 0) then None else closing (s_prev t) [] s1 in
    let '(y, r', u) := match found with Some (y, r', u) => (y, Some r', u) | None => (x, None, false) end in
    match y with
    | [] => None
    | _ =>
        let o := if u then B "<u>" ++ y ++ B "</u>" else B "<sub>" ++ y ++ B "</sub>" in
        if Nat.leb (length o) (w_rem (s_w t)) then
          match r' with
          | Some r' => Some (r', tagged o "~" t)
          | None => let (p, r') := behind "~" x r in Some (r', tagged o p t)
          end
        else None
    end
  else None.
(** 67-432 *)
Fixpoint ss_loop (fuel : nat) (s : str) (t : ss) : option ss :=
  match fuel with
  | 0 => None
  | S fuel =>
      match s with
      | [] => Some t
      | c :: s' =>
          let t := at_line s t in
          if negb (s_liquid t) && ceq c "{" && is "%" s' then ss_loop fuel (skipn 1 s') (copy2 "{" "%" (set_liquid true t))
          else if s_liquid t then
            if ceq c "%" && is "}" s' then ss_loop fuel (skipn 1 s') (copy2 "%" "}" (set_liquid false t))
            else ss_loop fuel s' (copy1 c t)
          else
            let t := at_tick s t in
            match at_math s t with
            | Some (r, t) => ss_loop fuel r t
            | None =>
                if s_code t || s_inline t || s_indent t || s_math t || s_display t then ss_loop fuel s' (copy1 c t)
                else
                  match at_caret s t with
                  | Some (r, t) => ss_loop fuel r t
                  | None =>
                      match at_tilde s t with
                      | Some (r, t) => ss_loop fuel r t
                      | None =>
                          match at_word s t with
                          | Some (r, t) => ss_loop fuel r t
                          | None => ss_loop fuel s' (copy1 c t)
                          end
                      end
                  end
            end
      end
  end.
(** 42-436 *)
Definition sup_sub (s : str) : option wr :=
  let cap := Nat.max (length s * 5) 64 in
  match ss_loop (S (length s)) s (Ss false false false false false false None (w_new cap cap)) with
  | Some t => Some (w_term (s_w t))
  | None => None
  end.
