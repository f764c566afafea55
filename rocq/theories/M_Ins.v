(** Model of src/extensions/insert.c.  Allocation never fails (for an empty text: malloc(0)
    gives a block of no bytes).  [ial]: the attributes that parse_ial_content and
    attributes_to_html (ial.c) make of the text between the braces, [None] for a null pointer. *)
From Verif Require Import Base.

(** 19-42 *)
Definition find_ial (s : str) : option (str * str * str) :=
  let (b, r) := span (fun c => ceq c SP || ceq c TAB) s in
  match r with
  | c :: r' =>
      if ceq c "{" then
        match strchr "}" r' with
        | Some k => Some (b, firstn k r', skipn (S k) r')
        | None => None
        end
      else None
  | [] => None
  end.
(** 100-121: the content and the text behind the closing signs; [prev]: the byte before, if it
    belongs to the content. *)
Fixpoint find_plus (prev : option ascii) (s : str) : option (str * str) :=
  match s with
  | [] => None
  | c :: s' =>
      if ceq c NL || ceq c CR then None
      else if ceq c "+" && ceq (at_ s' 0) "+" && negb (ceq (at_ s' 1) "+")
              && negb (match prev with Some p => ceq p SP || ceq p TAB || ceq p "+" | None => false end)
      then Some ([], skipn 1 s')
      else match find_plus (Some c) s' with
           | Some (x, r) => Some (c :: x, r)
           | None => None
           end
  end.
(** 72-96 *)
Definition opens_insert (prev : option ascii) (s : str) : bool :=
  let d := at_ s 2 in
  ceq (at_ s 0) "+" && ceq (at_ s 1) "+" && negb (ceq d "+") && negb (ceq d "}") && negb (ceq d NUL) && negb (ceq d NL)
  && negb (ceq d CR) && negb (ceq d SP) && negb (ceq d TAB)
  && negb (match prev with Some p => ceq p "+" || ceq p "{" | None => false end).
(** 144-161: a larger block, when less than [n] bytes remain *)
Definition w_grow (n : nat) (w : wr) : wr :=
  if Nat.ltb (w_rem w) n then
    let cap := (length (w_out w) + n + 1) * 2 in Wr cap (w_out w) (cap - length (w_out w)) (w_oob w)
  else w.

Section Inserts.
Variable ial : str -> option str.
(** 137-205: 179-195 are not reached, there is room. *)
Definition put_with (x a : str) (w : wr) : wr :=
  let w := w_grow (30 + length a + length x + 20) w in
  w_puts_lt (B "</ins>") (w_puts_lt x (w_puts_lt (B "<ins markdown=" ++ [DQ] ++ B "span" ++ [DQ] ++ a ++ B ">") w)).
(** 209-232 *)
Definition put_plain (x : str) (w : wr) : wr :=
  w_puts_lt (B "</ins>") (w_puts_lt x (w_puts_lt (B "<ins>") w)).
(** 61-243 *)
Fixpoint ins_loop (fuel : nat) (s : str) (prev : option ascii) (block inl : bool) (w : wr) : option wr :=
  match fuel with
  | 0 => None
  | S fuel =>
      match s with
      | [] => Some w
      | c :: s' =>
          let tick := ceq c "`" in
          let three := (ceq (at_ s' 0) "`" && ceq (at_ s' 1) "`")%bool in
          let inl := if (tick && negb three && negb block)%bool then negb inl else inl in
          let block := if (tick && three)%bool then negb block else block in
          let copy := ins_loop fuel s' (Some c) block inl (w_put c w) in
          if (negb block && negb inl && opens_insert prev s)%bool then
            match find_plus None (skipn 2 s) with
            | None => copy
            | Some (x, r) =>
                match find_ial r with
                | Some (b, a, r') =>
                    match ial a with
                    | Some h => ins_loop fuel r' (Some "}"%char) block inl (put_with x h w)
                    | None => ins_loop fuel r (Some "+"%char) block inl (put_plain x w)
                    end
                | None => ins_loop fuel r (Some "+"%char) block inl (put_plain x w)
                end
            end
          else copy
      end
  end.
(** 48-248 *)
Definition inserts (s : str) : option wr :=
  match ins_loop (S (length s)) s None false false (w_new (length s * 2) (length s * 2)) with
  | Some w => Some (w_term w)
  | None => None
  end.
End Inserts.
