(** Model of src/buffer.c, src/utf8.c, src/renderer.c and src/parser.c.
    Allocation never fails and sizes do not wrap around. *)
From Verif Require Import Base.

(** ** src/buffer.c *)
(** A block of memory; bytes that were never written are [None].  [b_data = None]
    is the NULL pointer. *)
Record buf := Buf { b_data : option (list (option ascii)); b_size : nat; b_cap : nat }.
Definition block (n : nat) : list (option ascii) := repeat None n.
(** [m[i] = c]; [None]: outside the block. *)
Fixpoint store (m : list (option ascii)) (i : nat) (c : ascii) : option (list (option ascii)) :=
  match m, i with
  | [], _ => None
  | _ :: m', 0 => Some (Some c :: m')
  | x :: m', S i' => match store m' i' c with Some r => Some (x :: r) | None => None end
  end.
(** memcpy *)
Fixpoint stores (m : list (option ascii)) (i : nat) (s : str) : option (list (option ascii)) :=
  match s with
  | [] => Some m
  | c :: s' => match store m i c with Some m' => stores m' (S i) s' | None => None end
  end.
(** What an operation does: go on, store outside the block or through NULL, or
    never return. *)
Inductive outcome := Go (b : buf) | Fault | Hang.

(** 13-25 *)
Definition buffer_init (n : nat) : outcome :=
  let n := if Nat.eqb n 0 then 256 else n in
  match store (block n) 0 NUL with Some m => Go (Buf (Some m) 0 n) | None => Fault end.
(** 27-34 *)
Definition buffer_free (b : buf) : outcome :=
  match b_data b with Some _ => Go (Buf None 0 0) | None => Go b end.
(** 36-41 *)
Definition buffer_clear (b : buf) : outcome :=
  match b_data b with
  | Some m => match store m 0 NUL with Some m' => Go (Buf (Some m') 0 (b_cap b)) | None => Fault end
  | None => Go (Buf None 0 (b_cap b))
  end.
(** 43-55: doubling until [needed]; [None]: not there after [fuel] rounds. *)
Fixpoint grow_to (fuel cap needed : nat) : option nat :=
  if Nat.ltb cap needed then match fuel with 0 => None | S f => grow_to f (2 * cap) needed end else Some cap.
(** realloc keeps the old bytes. *)
Definition realloc_to (n : nat) (m : option (list (option ascii))) : list (option ascii) :=
  let old := match m with Some l => l | None => [] end in
  firstn n old ++ block (n - length old).
(** 57-70; a capacity above 0 reaches [needed] within [needed] doublings. *)
Definition buffer_append (s : str) (b : buf) : outcome :=
  match s with
  | [] => Go b
  | _ =>
      let needed := b_size b + length s + 1 in
      match (if Nat.ltb (b_cap b) needed
             then match grow_to needed (b_cap b) needed with
                  | Some n => Some (Buf (Some (realloc_to n (b_data b))) (b_size b) n)
                  | None => None
                  end
             else Some b) with
      | None => Hang
      | Some b1 =>
          match b_data b1 with
          | None => Fault
          | Some m =>
              match stores m (b_size b1) s with
              | None => Fault
              | Some m1 =>
                  match store m1 (b_size b1 + length s) NUL with
                  | None => Fault
                  | Some m2 => Go (Buf (Some m2) (b_size b1 + length s) (b_cap b1))
                  end
              end
          end
      end
  end.
(** 86-92 *)
Definition buffer_detach (b : buf) : outcome := Go (Buf None 0 0).

Inductive bop := Init (n : nat) | Clear | Append (s : str) | Free | Detach.
Definition buffer_op (o : bop) (b : buf) : outcome :=
  match o with
  | Init n => buffer_init n
  | Clear => buffer_clear b
  | Append s => buffer_append s b
  | Free => buffer_free b
  | Detach => buffer_detach b
  end.
Fixpoint buffer_run (os : list bop) (b : buf) : outcome :=
  match os with
  | [] => Go b
  | o :: os' => match buffer_op o b with Go b' => buffer_run os' b' | r => r end
  end.

(** ** src/utf8.c *)
(** 10-26 *)
Definition valid_start (c : ascii) : bool :=
  between 0 127 c || between 192 223 c || between 224 239 c || between 240 247 c.
Definition char_length (c : ascii) : nat :=
  if between 0 127 c then 1 else if between 192 223 c then 2 else if between 224 239 c then 3 else if between 240 247 c then 4 else 0.
(** 31-55: at the byte [c] the lengths are checked and the bytes that follow
    (indices 1 .. char_len-1), which are passed over afterwards ([skip]). *)
Definition trail (c : ascii) : bool := between 128 191 c.
Fixpoint utf8_loop (s : str) (skip : nat) : bool :=
  match s with
  | [] => true
  | c :: s' =>
      match skip with
      | S k => utf8_loop s' k
      | 0 =>
          let n := char_length c in
          if Nat.eqb n 0 || Nat.ltb (length s) n then false
          else if forallb trail (firstn (n - 1) s') then utf8_loop s' (n - 1) else false
      end
  end.
Definition utf8_validate (s : str) : bool := utf8_loop s 0.

(** ** src/renderer.c *)
(** 11-31; the buffer is the list of appended bytes (see C22). *)
Definition escape_char (c : ascii) : str :=
  if ceq c "<" then B "&lt;" else if ceq c ">" then B "&gt;" else if ceq c "&" then B "&amp;"
  else if ceq c DQ then B "&quot;" else [c].
Definition escape_html (s : str) : str := flat_map escape_char s.

(** include/apex/parser.h 19-111: the node kinds the renderer knows; the rest is
    [Other]. *)
Inductive kind :=
| Document | Heading (level : nat) | Paragraph | CodeBlock (info : option str) | Rule | Quote | Listing | Item
| Text | Emph | Strong | Code | Link (url title : option str) | Image (url title : option str) | LineBreak | SoftBreak | Other.
Inductive node := Node (k : kind) (lit : option str) (children : list node).
(** 208-214 *)
Record breaks := Breaks { hard : bool; none : bool }.

Fixpoint drop_end (f : ascii -> bool) (s : str) : str :=
  match s with
  | [] => []
  | c :: s' => match drop_end f s' with [] => if f c then [] else [c] | r => c :: r end
  end.
Definition opt_escape (l : option str) : str := match l with Some s => escape_html s | None => [] end.
Definition attr (name : str) (v : option str) : str :=
  match v with Some s => B " " ++ name ++ B "=""" ++ escape_html s ++ B """" | None => [] end.
Definition digit (n : nat) : ascii := ascii_of_nat (48 + n).
(** 33-219 *)
Fixpoint render (o : breaks) (n : node) : str :=
  match n with
  | Node k lit cs =>
      let inner := flat_map (render o) cs in
      match k with
      | Document => inner
      | Heading l =>
          B "<h" ++ [digit l] ++ B ">" ++
          opt_escape (match lit with Some s => Some (drop_end (fun c => ceq c SP || ceq c NL || ceq c CR) s) | None => None end) ++
          B "</h" ++ [digit l] ++ B ">" ++ [NL]
      | Paragraph =>
          B "<p>" ++ opt_escape (match lit with Some s => Some (drop_end (fun c => ceq c NL || ceq c CR) s) | None => None end) ++
          B "</p>" ++ [NL]
      | CodeBlock info =>
          B "<pre><code" ++
          match info with
          | Some i => B " class=""language-" ++ escape_html (fst (span (fun c => negb (ceq c SP)) i)) ++ B """"
          | None => []
          end ++ B ">" ++ opt_escape lit ++ B "</code></pre>" ++ [NL]
      | Rule => B "<hr />" ++ [NL]
      | Quote => B "<blockquote>" ++ [NL] ++ inner ++ B "</blockquote>" ++ [NL]
      | Listing => B "<ul>" ++ [NL] ++ inner ++ B "</ul>" ++ [NL]
      | Item => B "<li>" ++ inner ++ B "</li>" ++ [NL]
      | Text => opt_escape lit
      | Emph => B "<em>" ++ inner ++ B "</em>"
      | Strong => B "<strong>" ++ inner ++ B "</strong>"
      | Code => B "<code>" ++ opt_escape lit ++ B "</code>"
      | Link url title =>
          B "<a href=""" ++ opt_escape url ++ B """" ++ attr (B "title") title ++ B ">" ++ inner ++ B "</a>"
      | Image url title =>
          B "<img src=""" ++ opt_escape url ++ B """ alt=""" ++ opt_escape lit ++ B """" ++ attr (B "title") title ++ B " />"
      | LineBreak => B "<br />" ++ [NL]
      | SoftBreak => if hard o then B "<br />" ++ [NL] else if none o then [SP] else [NL]
      | Other => []
      end
  end.

(** ** src/parser.c *)
(** 107-211, parse_simple; the read position is the rest of the input. *)
Definition newline (c : ascii) : bool := ceq c NL || ceq c CR.
Definition not_nl (c : ascii) : bool := negb (ceq c NL).
(** 126-129: at most [k] hashes. *)
Fixpoint hashes (k : nat) (s : str) : nat * str :=
  match k, s with
  | S k', c :: s' => if ceq c "#" then let (n, r) := hashes k' s' in (S n, r) else (0, s)
  | _, _ => (0, s)
  end.
Definition fence (s : str) : bool := starts [BT; BT; BT] s.
(** 168-182: the text in front of the closing fence and what follows it; if there
    is none the last two bytes are left. *)
Fixpoint find_close (s : str) : (str * str) + str :=
  match s with
  | c :: s' =>
      if Nat.leb 3 (length s) then
        if fence s then inl ([], skipn 3 s)
        else match find_close s' with inl (a, r) => inl (c :: a, r) | inr r => inr r end
      else inr s
  | [] => inr []
  end.
(** 190-198 *)
Fixpoint para (s : str) : str * str :=
  match s with
  | [] => ([], [])
  | c :: s' => if ceq c NL && ceq (at_ s' 0) NL then ([], s) else let (a, r) := para s' in (c :: a, r)
  end.
Fixpoint parse_loop (fuel : nat) (s : str) : option (list node) :=
  match fuel with
  | 0 => None
  | S f =>
      match snd (span newline s) with
      | [] => Some []
      | (c :: _) as s1 =>
          let add n r := match parse_loop f r with Some l => Some (n :: l) | None => None end in
          let rest :=
            if fence s1 then
              let (info, r) := span not_nl (skipn 3 s1) in
              match find_close (skipn 1 r) with
              | inl (code, r2) => add (Node (CodeBlock (match info with [] => None | _ => Some info end)) (Some code) []) (snd (span not_nl r2))
              | inr r2 => parse_loop f r2
              end
            else let (p, r) := para s1 in
                 match p with [] => parse_loop f r | _ => add (Node Paragraph (Some p) []) r end in
          if ceq c "#" then
            let (level, r) := hashes 6 s1 in
            match r with
            | d :: r1 => if ceq d SP then let (t, r2) := span not_nl r1 in add (Node (Heading level) (Some t) []) r2 else rest
            | [] => rest
            end
          else rest
      end
  end.
(** Every round takes at least a byte (C66). *)
Definition parse (s : str) : option node :=
  match parse_loop (S (length s)) s with Some l => Some (Node Document None l) | None => None end.
