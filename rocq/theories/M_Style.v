(** Styles on the terminal: append_ansi_seq (src/ast_terminal.c 167-171), ansi_color_code_from_name (174-214), hex_nibble and parse_hex_rgb (217-255), rgb_to_256 (258-275), apply_style_token (278-362), apply_style_string (365-383). The growing of terminal_buffer is not modelled: what is appended is a string. *)
From Verif Require Import Base Dec.
Local Open Scope N_scope.

Definition ESC : ascii := ascii_of_N 27.
(** src/ast_terminal.c 167-171 *)
Definition seq (s : str) : str := ESC :: B "[" ++ s ++ B "m".

(** src/ast_terminal.c 217-222 *)
Definition nibble (c : ascii) : option N :=
  if between 48 57 c then Some (code c - 48)
  else if between 97 102 c then Some (code c - 87)
  else if between 65 70 c then Some (code c - 55)
  else None.
(** src/ast_terminal.c 225-255 *)
Definition rgb (hex : str) : option (N * N * N) :=
  let p := match hex with c :: r => if ceq c "#" then r else hex | [] => hex end in
  match p with
  | [x; y; z] => match nibble x, nibble y, nibble z with Some x, Some y, Some z => Some (x * 16 + x, y * 16 + y, z * 16 + z) | _, _, _ => None end
  | [x; x'; y; y'; z; z'] =>
      match nibble x, nibble x', nibble y, nibble y', nibble z, nibble z' with
      | Some x, Some x', Some y, Some y', Some z, Some z' => Some (x * 16 + x', y * 16 + y', z * 16 + z')
      | _, _, _, _, _, _ => None
      end
  | _ => None
  end.

(** src/ast_terminal.c 258-275. [(int)(r / 255.0 * 5.0 + 0.5)] is the quotient below: the exact value is never nearer than 1/510 to an integer boundary, so that the rounding of doubles does not matter; likewise for the greys (1/494). The bounds 0..5 never apply. *)
Definition cube (v : N) : N := (10 * v + 255) / 510.
Definition grey (v : N) : N := (48 * (v - 8) + 247) / 494.
Definition index (r g b : N) : N :=
  if (r =? g) && (g =? b) then
    if r <? 8 then 16 else if 248 <? r then 231 else 232 + N.min 23 (grey r)
  else 16 + 36 * cube r + 6 * cube g + cube b.

(** src/ast_terminal.c 174-214; the code; its second result is not used by the callers *)
Definition names : list string := ["black"; "red"; "green"; "yellow"; "blue"; "magenta"; "cyan"; "white"]%string.
Fixpoint place (s : str) (l : list string) (k : N) : option N := match l with [] => None | x :: l => if seq_ s (B x) then Some k else place s l (k + 1) end.
Definition color (name : str) : option N :=
  let (bg, n) :=
    if starts (B "on_") name then (true, skipn 3 name)
    else if starts (B "bg") name && between 65 90 (at_ name 2) then (true, skipn 2 name) else (false, name) in
  let (hi, n) := if starts (B "intense_") n then (true, skipn 8 n) else if starts (B "bright_") n then (true, skipn 7 n) else (false, n) in
  match place n names 0 with
  | Some k => Some ((match bg, hi with true, true => 100 | true, false => 40 | false, true => 90 | false, false => 30 end) + k)
  | None => None
  end.
Definition number (n : N) : str := dec (N.to_nat n).

(** src/ast_terminal.c 337-340 *)
Definition nearest8 (r g b : N) : str :=
  if (g <? r) && (b <? r) then B "red" else if (r <? g) && (b <? g) then B "green" else if (r <? b) && (g <? b) then B "blue" else B "white".
Definition is_ (t : str) (l : list string) : bool := existsb (fun x => seq_ t (B x)) l.
Definition named (t : str) : str := match color t with Some c => seq (number c) | None => [] end.
(** src/ast_terminal.c 278-362 *)
Definition token (wide : bool) (t : str) : str :=
  if is_ t ["b"; "bold"]%string then seq (B "1")
  else if is_ t ["d"; "dark"]%string then seq (B "2")
  else if is_ t ["i"; "italic"]%string then seq (B "3")
  else if is_ t ["u"; "underline"; "underscore"]%string then seq (B "4")
  else if is_ t ["r"; "reverse"; "negative"]%string then seq (B "7")
  else if starts (B "38;5;") t || starts (B "48;5;") t then seq t
  else if ceq (at_ t 0) "#" || starts (B "bg") t || starts (B "on_") t then
    let (bg, h) := if starts (B "bg") t then (true, skipn 2 t) else if starts (B "on_") t then (true, skipn 3 t) else (false, t) in
    match rgb h with
    | Some (r, g, b) => if wide then seq ((if bg then B "48;5;" else B "38;5;") ++ number (index r g b)) else named (nearest8 r g b)
    | None => named t
    end
  else named t.
(** src/ast_terminal.c 365-383: words of at most 63 bytes *)
Fixpoint words (acc s : str) : list str :=
  match s with
  | [] => match acc with [] => [] | _ => [acc] end
  | c :: r => if isspace c then match acc with [] => words [] r | _ => acc :: words [] r end else words (acc ++ [c]) r
  end.
Definition style (wide : bool) (s : str) : str := flat_map (fun t => token wide (firstn 63 t)) (words [] s).
