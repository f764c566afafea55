(** Independent specifications for the encoders: an RFC 4648 decoder and an
    HTML numeric-character-reference decoder, both written from their
    standards and not from the C code. *)
From Verif Require Import Base.

(** RFC 4648 table 1, by character ranges. *)
Definition b64_value (c : ascii) : option N :=
  let n := code c in
  if between 65 90 c then Some (n - 65)%N
  else if between 97 122 c then Some (n - 97 + 26)%N
  else if between 48 57 c then Some (n - 48 + 52)%N
  else if ceq c "+" then Some 62%N
  else if ceq c "/" then Some 63%N
  else None.

(** RFC 4648 section 4: four characters give three bytes; a final group may end
    in [=] (two bytes) or [==] (one byte).  Anything else is an error. *)
Fixpoint b64_decode (s : str) : option str :=
  match s with
  | [] => Some []
  | a :: b :: c :: d :: rest =>
      match b64_value a, b64_value b with
      | Some va, Some vb =>
          let x := ascii_of_N (va * 4 + vb / 16) in
          if ceq c "=" then
            if ceq d "=" then match rest with [] => Some [x] | _ => None end
            else None
          else
            match b64_value c with
            | None => None
            | Some vc =>
                let y := ascii_of_N (vb mod 16 * 16 + vc / 4) in
                if ceq d "=" then match rest with [] => Some [x; y] | _ => None end
                else
                  match b64_value d, b64_decode rest with
                  | Some vd, Some r =>
                      Some (x :: y :: ascii_of_N (vc mod 4 * 64 + vd) :: r)
                  | _, _ => None
                  end
            end
      | _, _ => None
      end
  | _ => None
  end.

(** Hexadecimal digit of an HTML numeric character reference. *)
Definition hex_value (c : ascii) : option N :=
  let n := code c in
  if between 48 57 c then Some (n - 48)%N
  else if between 65 70 c then Some (n - 55)%N
  else if between 97 102 c then Some (n - 87)%N
  else None.

(** Resolve a string made of two-digit hexadecimal references [&#xHH;] only.
    Anything that is not such a reference is an error, so a successful decode
    also says that no byte of the source is readable in the encoded form.
    (A reference to a byte is resolved to that byte.) *)
Fixpoint resolve_refs (s : str) : option str :=
  match s with
  | [] => Some []
  | "&"%char :: "#"%char :: "x"%char :: a :: b :: ";"%char :: rest =>
      match hex_value a, hex_value b, resolve_refs rest with
      | Some x, Some y, Some r => Some (ascii_of_N (x * 16 + y) :: r)
      | _, _, _ => None
      end
  | _ => None
  end.

(** What a reader (browser) sees: every two-digit hexadecimal reference is
    replaced by the byte it denotes, everything else is read literally. *)
Fixpoint resolve_mixed (s : str) : str :=
  match s with
  | [] => []
  | c :: s1 =>
      match s with
      | "&"%char :: "#"%char :: "x"%char :: a :: b :: ";"%char :: rest =>
          match hex_value a, hex_value b with
          | Some x, Some y => ascii_of_N (x * 16 + y) :: resolve_mixed rest
          | _, _ => c :: resolve_mixed s1
          end
      | _ => c :: resolve_mixed s1
      end
  end.

(** The numeric reference of one byte, written out from the HTML syntax. *)
Definition upper_hex_digit (v : N) : ascii :=
  if (v <? 10)%N then ascii_of_N (48 + v) else ascii_of_N (55 + v).
Definition reference (c : ascii) : str :=
  B "&#x" ++ [upper_hex_digit (code c / 16); upper_hex_digit (code c mod 16)] ++ B ";".
