(** The metadata at the head of a document: src/extensions/metadata.c 251-736, and the front matter that cli/main.c 3128-3215 writes from the merged metadata.
    Simplifications: allocation never fails; isspace is that of the "C" locale; the library libyaml is a function from the text it is given to what it finds (see [yaml_lib]); the loop over lines runs over the list of lines, and the position in the text is the list of the lines that are left. *)
From Verif Require Import Base M_Meta.

(** The lines of a text that end in a newline, and what follows the last newline: the loops "while ((line_end = strchr(line_start, '\n')) != NULL)" of 348, 406 and 667. *)
Fixpoint lines_of (s : str) : list str * str :=
  match s with
  | [] => ([], [])
  | c :: r =>
      let (ls, t) := lines_of r in
      if ceq c NL then ([] :: ls, t)
      else match ls with
           | [] => ([], c :: t)
           | l :: ls' => ((c :: l) :: ls', t)
           end
  end.

Definition joined (ls : list str) (t : str) : str := concat (map (fun l => l ++ [NL]) ls) ++ t.

(** 349-354: the copy of a line in the buffer of 1024 bytes *)
Definition clip (l : str) : str := firstn 1023 l.

(** 66-80, trim_whitespace, the text from the pointer it returns *)
Definition trimmed (s : str) : str := snd (span isspace (trim_in_place s)).

(** What becomes of the text: *consumed stays 0; the lines before these are consumed; all of it is consumed. *)
Inductive left_over := Keep | Rest (ls : list str) | Whole.

(** 369-385 *)
Definition unquote (v : str) : str :=
  let n := length v in
  if (2 <=? n) && ((ceq (at_ v 0) DQ && ceq (at_ v (n - 1)) DQ) || (ceq (at_ v 0) SQ && ceq (at_ v (n - 1)) SQ))
  then trim_in_place (firstn (n - 2) (skipn 1 v))
  else v.

(** 348-394 *)
Fixpoint yaml_lines (ls : list str) (items : list (str * str)) : list (str * str) * left_over :=
  match ls with
  | [] => (items, Keep)
  | l :: ls' =>
      let line := trim_in_place (clip l) in
      if seq_ (trimmed (clip l)) (B "---") || seq_ (trimmed (clip l)) (B "...") then (items, Rest ls')
      else
        match cut ":" line with
        | None => yaml_lines ls' items
        | Some (k, v) =>
            match trimmed k with
            | [] => yaml_lines ls' items
            | key => yaml_lines ls' (add_item items key (unquote (trimmed v)))
            end
        end
  end.

(** The outcome of libyaml for the text it is given, 294-306: [None] when it fails or the root is no mapping, and otherwise the flat items of yaml_node_to_flat_items. *)
Definition yaml_lib := str -> option (list (str * str)).

(** 286 and 319: a build without libyaml, in which only the parser of 329-397 runs *)
Definition no_lib : yaml_lib := fun _ => None.

(** 257-264 *)
Definition yaml_start (text : str) : str :=
  match strchr NL (skipn 3 text) with
  | Some k => skipn (S k) (skipn 3 text)
  | None => skipn 3 text
  end.

(** 267-282; the loop of 271-281 finds nothing that the first strstr would not have found *)
Definition end_marker (s : str) : option nat :=
  match strstr (NL :: B "---") s with
  | Some k => Some k
  | None => strstr (NL :: B "...") s
  end.

(** 284-318 for a text that starts with "---": the items, if any, and the number of bytes consumed, which is also set when there are no items *)
Definition with_lib (lib : yaml_lib) (text : str) : list (str * str) * nat :=
  let s := yaml_start text in
  let content := match end_marker s with Some (S k) => firstn (S k) s | _ => s end in
  match lib content with
  | None => ([], 0)
  | Some items => (items, match end_marker s with Some k => length text - length s + k + 4 | None => length text end)
  end.

(** 329-397; [consumed] is the value left by libyaml *)
Definition simple_yaml (text : str) (consumed : nat) : list (str * str) * nat :=
  match cut NL (skipn 3 text) with
  | None => ([], consumed)
  | Some (_, r) =>
      let (ls, t) := lines_of r in
      match yaml_lines ls [] with
      | (items, Rest ls') => (items, length text - length (joined ls' t))
      | (items, _) => (items, consumed)
      end
  end.

Definition parse_yaml (lib : yaml_lib) (text : str) : list (str * str) * nat :=
  match with_lib lib text with
  | (it :: items, n) => (it :: items, n)
  | ([], n) => simple_yaml text n
  end.

(** 427-493 and 505-515: lines passed over while no metadata has been found *)
Definition passed (t : str) : bool :=
  starts (B "*[") t || starts (B "[>") t || starts (B "<!--") t || starts (B "{::") t || starts (B "#") t || starts (B "{:") t.

Definition holds_ (x s : str) : bool := match strstr x s with Some _ => true | None => false end.
Definition has_byte (c : ascii) (s : str) : bool := match strchr c s with Some _ => true | None => false end.

(** 517-557: list items *)
Definition list_item (t : str) : bool :=
  ((ceq (at_ t 0) "-" || ceq (at_ t 0) "+" || ceq (at_ t 0) "*") && (ceq (at_ t 1) SP || ceq (at_ t 1) TAB)) ||
  (isdigit (at_ t 0) &&
   let r := snd (span isdigit t) in
   (ceq (at_ r 0) "." || ceq (at_ r 0) ")") && (ceq (at_ r 1) SP || ceq (at_ r 1) TAB)).

(** 560-614: a line with a colon that is no metadata after all; [k] and [v] are the text before and after the colon *)
Definition no_pair (line k v : str) : bool :=
  (holds_ (B "[!") line || (has_byte "[" line && has_byte "]" line && holds_ (B "](") line)) ||
  ((7 <=? length k) && (starts (B "http://") line || ((8 <=? length k) && starts (B "https://") line) || starts (B "mailto:") line || holds_ (B "://") line)) ||
  has_byte "<" k ||
  negb (ceq (at_ v 0) SP || ceq (at_ v 0) TAB) ||
  match trimmed k, trimmed v with [], _ => true | _, [] => true | _, _ => false end.

(** 400-655. [found]: found_metadata *)
Fixpoint mmd_lines (found : bool) (ls : list str) (items : list (str * str)) : list (str * str) * left_over :=
  match ls with
  | [] => (items, if found then Whole else Keep)
  | l :: ls' =>
      let t := trimmed (clip l) in
      let line := trim_in_place (clip l) in
      let stop := if found then (items, Rest (l :: ls')) else ([], Keep) in
      let pass := if found then (items, Rest (l :: ls')) else mmd_lines false ls' items in
      match t with
      | [] => if found then (items, Rest ls') else mmd_lines false ls' items
      | _ =>
          if passed t then pass
          else if holds_ (B "{i:") t then stop
          else if starts (B "{{TOC") t then pass
          else if list_item t then stop
          else
            match cut ":" line with
            | None => stop
            | Some (k, v) => if no_pair line k v then stop else mmd_lines true ls' (add_item items (trimmed k) (trimmed v))
            end
      end
  end.

Definition parse_mmd (text : str) : list (str * str) * nat :=
  let (ls, t) := lines_of text in
  match mmd_lines false ls [] with
  | (items, Keep) => (items, 0)
  | (items, Rest ls') => (items, length text - length (joined ls' t))
  | (items, Whole) => (items, length text)
  end.

(** 661-697 *)
Fixpoint pandoc_lines (keys : list str) (ls : list str) (items : list (str * str)) : list (str * str) * list str :=
  match keys, ls with
  | [], _ => (items, ls)
  | _, [] => (items, [])
  | key :: keys', l :: ls' =>
      let t := trimmed (clip l) in
      if ceq (at_ t 0) "%" then
        match trimmed (skipn 1 t) with
        | [] => pandoc_lines keys' ls' items
        | v => pandoc_lines keys' ls' (add_item items key v)
        end
      else (items, ls)
  end.

Definition parse_pandoc (text : str) : list (str * str) * nat :=
  let (ls, t) := lines_of text in
  let (items, ls') := pandoc_lines [B "title"; B "author"; B "date"] ls [] in
  (items, length text - length (joined ls' t)).

(** 704-736: the items and the text that is left *)
Definition extract (lib : yaml_lib) (text : str) : list (str * str) * str :=
  let (items, n) :=
    match text with
    | [] => ([], 0)
    | _ =>
        if starts (B "---") text then parse_yaml lib text
        else if ceq (at_ text 0) "%" then parse_pandoc text
        else parse_mmd text
    end in
  match items with
  | [] => ([], text)
  | _ => (items, skipn n text)
  end.

(** cli/main.c 3148-3170: one line of the front matter. [None]: snprintf had no room, which the code does not notice. *)
Definition quoted (v : str) : bool := has_byte ":" v || has_byte NL v || has_byte DQ v || has_byte BS v.

Definition yaml_line (k v : str) : str :=
  if quoted v then k ++ B ": """ ++ v ++ B """" ++ [NL] else k ++ B ": " ++ v ++ [NL].

(** 3128-3182: the buffer, its size, and whether a write went beyond it *)
Record yb := { y_out : str; y_size : nat; y_bad : bool }.

Definition yaml_add (b : yb) (it : str * str) : yb :=
  let (k, v) := it in
  let needed := length k + length v + (if quoted v then 4 else 0) + 10 in
  let size := if y_size b <=? length (y_out b) + needed then (length (y_out b) + needed) * 2 else y_size b in
  let x := yaml_line k v in
  {| y_out := y_out b ++ x; y_size := size; y_bad := y_bad b || (size <=? length (y_out b) + length x) |}.

(** [None]: a write beyond the buffer *)
Definition yaml_front (m : list (str * str)) : option str :=
  let b := fold_left yaml_add m {| y_out := B "---" ++ [NL]; y_size := 512; y_bad := false |} in
  if y_bad b || (y_size b <=? length (y_out b) + 4) then None else Some (y_out b ++ B "---" ++ [NL]).

(** 3184-3210: [n] bytes of the document were its own metadata *)
Definition enhanced (m : list (str * str)) (n : nat) (text : str) : option str :=
  match m with
  | [] => Some text
  | _ => match yaml_front m with Some f => Some (f ++ skipn n text) | None => None end
  end.
