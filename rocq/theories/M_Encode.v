(** Model of the three encoders at the top of src/apex.c. *)
From Verif Require Import Base.

(** ** src/apex.c 82-123, [apex_base64_encode]

    Bytes are the elements of [data]; a group of up to three is consumed per
    iteration, [i] is the value of the C variable [i] after the group's bytes
    have been consumed (97-99).  The result is the text before the NUL; [None]
    is the NULL result for an empty input (83).  Simplification: the [malloc]
    of line 90 succeeds; its size is [b64_capacity]. *)
Definition base64_chars : str :=
  B "ABCDEFGHIJKLMNOPQRSTUVWXYZabcdefghijklmnopqrstuvwxyz0123456789+/".

(** 89-90: bytes allocated for an input of [len] bytes. *)
Definition b64_capacity (len : nat) : nat := (len + 2) / 3 * 4 + 1.

Definition b64_char (v : N) : ascii := nth (N.to_nat v) base64_chars NUL.

(** 101-118, one output group. *)
Definition b64_group (i : nat) (byte1 byte2 byte3 : N) : str :=
  let combined :=
    N.lor (N.lor (N.shiftl byte1 16) (N.shiftl byte2 8)) byte3 in
  [ b64_char (N.land (N.shiftr combined 18) 63);
    b64_char (N.land (N.shiftr combined 12) 63);
    if 2 <=? i then b64_char (N.land (N.shiftr combined 6) 63) else "="%char;
    if 3 <=? i then b64_char (N.land combined 63) else "="%char ].

(** 96-119, the loop; [i] counts the bytes consumed so far. *)
Fixpoint b64_loop (i : nat) (data : str) : str :=
  match data with
  | [] => []
  | [b1] => b64_group (i + 1) (code b1) 0 0
  | [b1; b2] => b64_group (i + 2) (code b1) (code b2) 0
  | b1 :: b2 :: b3 :: data' =>
      b64_group (i + 3) (code b1) (code b2) (code b3) ++ b64_loop (i + 3) data'
  end.

Definition base64_encode (data : str) : option str :=
  match data with [] => None | _ => Some (b64_loop 0 data) end.

(** ** src/apex.c 58-76, [apex_encode_hex_entities]

    [snprintf (w, .., "&#x%02X;", c)] writes six bytes; 68-71 give up with NULL
    when the six bytes and the NUL do not fit in what is left of [cap]. *)
Definition hex_upper (v : N) : ascii :=
  nth (N.to_nat v) (B "0123456789ABCDEF") NUL.

Definition hex2 (c : ascii) : str :=
  [hex_upper (code c / 16); hex_upper (code c mod 16)].

Definition hex_entity (c : ascii) : str := B "&#x" ++ hex2 c ++ [";"%char].

(** [used] is [w - out]. *)
Fixpoint hex_loop (cap : nat) (out : str) (text : str) : option str :=
  match text with
  | [] => Some out
  | c :: text' =>
      let e := hex_entity c in
      if length e <? cap - length out
      then hex_loop cap (out ++ e) text'
      else None
  end.

Definition encode_hex_entities (text : str) : option str :=
  match text with
  | [] => None
  | _ => hex_loop (length text * 6 + 1) [] text
  end.

(** ** src/apex.c 129-212, [apex_obfuscate_email_links]

    [p] is the suffix still to be read, [out] what was written.  The buffer of
    132 and its growth (152-164, 182-194) are tracked by [cap]; plain stores
    (146, 177, 207) are unchecked, so they raise [oob] when they fall outside.
    Line 207 can copy the terminator and step over it when line 179 stopped at
    the end of the text and there was no link text: that outcome is [OverRun].
    [strchr] at 144 searches from [p + 6], so it cannot meet the opening quote
    of the attribute. *)
Inductive obf_result :=
| ObfOk (out : str) (oob : bool)
| ObfOverRun (out : str)
| ObfNoFuel.

Definition store1 (cap : nat) (out : str) (oob : bool) (s : str) : str * bool :=
  (out ++ s, oob || (cap <? length out + length s)).

Definition not_lt (c : ascii) : bool := negb (ceq c "<"%char).

Fixpoint obf_loop (fuel : nat) (in_mailto : bool) (cap : nat) (out : str)
    (oob : bool) (p : str) : obf_result :=
  match fuel with
  | O => ObfNoFuel
  | S fuel =>
    match p with
    | [] => ObfOk out (oob || (cap <=? length out))        (* 140, 210 *)
    | c :: p1 =>
      let plain :=                                          (* 202-207 *)
        let in_mailto' := in_mailto && negb (starts (B "</a") p) in
        let (out', oob') := store1 cap out oob [c] in
        obf_loop fuel in_mailto' cap out' oob' p1 in
      let text_part :=                                      (* 175-200 *)
        if in_mailto && ceq c ">"%char then
          let (out1, oob1) := store1 cap out oob [c] in
          let (link_text, p2) := span not_lt p1 in
          match encode_hex_entities link_text with
          | Some e =>
              let needed := length e in
              let cap' := if cap <=? length out1 + needed
                          then (length out1 + needed + 1) * 2 else cap in
              let (out2, oob2) := store1 cap' out1 oob1 e in
              obf_loop fuel in_mailto cap' out2 oob2 p2
          | None =>                                         (* falls to 203 *)
              match p2 with
              | [] => ObfOverRun out1
              | d :: p3 =>
                  let in_mailto' := in_mailto && negb (starts (B "</a") p2) in
                  let (out2, oob2) := store1 cap out1 oob1 [d] in
                  obf_loop fuel in_mailto' cap out2 oob2 p3
              end
          end
        else plain in
      if negb in_mailto && starts (B "href=""mailto:") p then (* 142 *)
        let addr_start := skipn 6 p in
        match strchr DQ addr_start with
        | None =>                                             (* 145-148 *)
            let (out', oob') := store1 cap out oob [c] in
            obf_loop fuel in_mailto cap out' oob' p1
        | Some k =>
            match encode_hex_entities (firstn k addr_start) with
            | Some e =>
                let needed := 6 + length e + 1 in
                let cap' := if cap <=? length out + needed
                            then (length out + needed + 1) * 2 else cap in
                let (out', oob') :=
                  store1 cap' out oob (B "href=""" ++ e ++ [DQ]) in
                obf_loop fuel true cap' out' oob' (skipn (k + 1) addr_start)
            | None => text_part
            end
        end
      else text_part
    end
  end.

Definition obfuscate_email_links (html : str) : obf_result :=
  obf_loop (S (length html)) false (length html * 6 + 1) [] false html.
