(** Highlighting of code blocks by external programs: src/extensions/syntax_highlight.c.
    Simplifications: allocation never fails; the shell is a function from the command and the input to the output, [None] when the exit status is not 0, and its output is cut at the first NUL (strlen, line 420); the availability test of 39-46 is left out (the program is there). *)
From Verif Require Import Base.

(** * unescape_html, 51-85. The comparisons with strncmp may look beyond the code; what stands there begins with '<', so no reference goes across the end. *)
Fixpoint unescape (n : nat) (s : str) : str :=
  match n, s with
  | 0, _ => []
  | _, [] => []
  | S n, c :: r =>
      if ceq c "&" then
        if starts (B "&lt;") s then "<"%char :: unescape n (skipn 4 s)
        else if starts (B "&gt;") s then ">"%char :: unescape n (skipn 4 s)
        else if starts (B "&amp;") s then "&"%char :: unescape n (skipn 5 s)
        else if starts (B "&quot;") s then DQ :: unescape n (skipn 6 s)
        else if starts (B "&#39;") s then SQ :: unescape n (skipn 5 s)
        else if starts (B "&apos;") s then SQ :: unescape n (skipn 6 s)
        else c :: unescape n r
      else c :: unescape n r
  end.

Definition unescape_html (s : str) : str := unescape (length s) s.

(** * The output of the program, 135-172: [chunks] is what the calls of read give. [None]: a byte written beyond the buffer. *)
Definition grown (cap size : nat) : nat := if cap <? size + 4096 then cap * 2 else cap.

Fixpoint slurp (cap : nat) (out : str) (chunks : list str) : option str :=
  let cap := grown cap (length out) in
  match chunks with
  | [] => if length out <? cap then Some out else None
  | x :: chunks' => if length out + length x <=? cap then slurp cap (out ++ x) chunks' else None
  end.

Definition slurped (chunks : list str) : option str := slurp (8 * 1024) [] chunks.

(** * highlight_code_block, 195-249: the command *)
Inductive highlighter := Pygments | Skylighting | Shiki.

Definition command (t : highlighter) (lang : str) (line_numbers ansi : bool) : str :=
  let nonempty := match lang with [] => false | _ => true end in
  firstn 511
    match t with
    | Pygments =>
        if nonempty then
          if line_numbers then B "pygmentize" ++ B " -l " ++ lang ++ B " -f html -O linenos=1" else B "pygmentize" ++ B " -l " ++ lang ++ B " -f html"
        else if line_numbers then B "pygmentize" ++ B " -g -f html -O linenos=1" else B "pygmentize" ++ B " -g -f html"
    | Skylighting =>
        if nonempty then
          if line_numbers then B "skylighting" ++ B " --syntax " ++ lang ++ B " -f html -r -n" else B "skylighting" ++ B " --syntax " ++ lang ++ B " -f html -r"
        else if line_numbers then B "skylighting" ++ B " -f html -r -n" else B "skylighting" ++ B " -f html -r"
    | Shiki =>
        let fmt := if ansi then B "ansi" else B "html" in
        if nonempty then B "shiki" ++ B " --lang " ++ lang ++ B " --format " ++ fmt else B "shiki" ++ B " --format " ++ fmt
    end.

(** * The pipes of run_command, 90-133: the parent writes all of its input before it reads anything. Bytes are counted. [p_left]: not yet written; [p_in], [p_out]: in the pipes, each of which holds [K] bytes; [p_held]: read by the program and not yet answered; [p_got]: read by the parent. *)
Record pipes := { p_left : nat; p_in : nat; p_held : nat; p_out : nat; p_got : nat }.

Inductive move (K : nat) (eager : bool) : pipes -> pipes -> Prop :=
| m_write w i h o g : i < K -> move K eager {| p_left := S w; p_in := i; p_held := h; p_out := o; p_got := g |} {| p_left := w; p_in := S i; p_held := h; p_out := o; p_got := g |}
| m_take w i h o g : (eager = true -> h = 0) -> move K eager {| p_left := w; p_in := S i; p_held := h; p_out := o; p_got := g |} {| p_left := w; p_in := i; p_held := S h; p_out := o; p_got := g |}
| m_give w i h o g : (eager = false -> w = 0 /\ i = 0) -> o < K -> move K eager {| p_left := w; p_in := i; p_held := S h; p_out := o; p_got := g |} {| p_left := w; p_in := i; p_held := h; p_out := S o; p_got := g |}
| m_read i h o g : move K eager {| p_left := 0; p_in := i; p_held := h; p_out := S o; p_got := g |} {| p_left := 0; p_in := i; p_held := h; p_out := o; p_got := S g |}.

Inductive moves (K : nat) (eager : bool) : pipes -> pipes -> Prop :=
| ms_none s : moves K eager s s
| ms_more s s' s'' : moves K eager s s' -> move K eager s' s'' -> moves K eager s s''.

Definition before (n : nat) : pipes := {| p_left := n; p_in := 0; p_held := 0; p_out := 0; p_got := 0 |}.

(** * apex_apply_syntax_highlighting, 254-481 *)
Record hb := { h_cap : nat; h_out : str; h_bad : bool }.
Inductive answer := Out (s : str) | Bad | Fuel.

Definition remaining (w : hb) : nat := h_cap w - length (h_out w).

(** 287-292 and the like: no room, no byte *)
Definition copy1 (c : ascii) (w : hb) : hb :=
  if 0 <? remaining w then {| h_cap := h_cap w; h_out := h_out w ++ [c]; h_bad := h_bad w |} else w.

(** 456-475 *)
Definition plain (c : ascii) (w : hb) : hb :=
  if 1 <? remaining w then {| h_cap := h_cap w; h_out := h_out w ++ [c]; h_bad := h_bad w |}
  else {| h_cap := h_cap w * 2; h_out := h_out w ++ [c]; h_bad := h_bad w || (h_cap w * 2 <=? length (h_out w)) |}.

(** 364-369, 396-401 and 443-448: a block that does not fit is left out *)
Definition paste (x : str) (w : hb) : hb :=
  if length x <=? remaining w then {| h_cap := h_cap w; h_out := h_out w ++ x; h_bad := h_bad w |} else w.

(** 418-440 *)
Definition put (x : str) (w : hb) : hb :=
  {| h_cap := if remaining w <=? length x then (length (h_out w) + length x + 1) * 2 else h_cap w; h_out := h_out w ++ x; h_bad := h_bad w |}.

(** 478 *)
Definition finish (w : hb) : answer := if h_bad w || (h_cap w <=? length (h_out w)) then Bad else Out (h_out w).

Definition gap (c : ascii) : bool := ceq c SP || ceq c TAB || ceq c NL || ceq c CR.

(** 327-356: [p] is the end of the tag pre in [s], [q] that of the tag code in [after] *)
Definition lang_attr (s : str) (p : nat) : str :=
  match strstr (B "lang=" ++ [DQ]) s with
  | Some a =>
      if a <? p then
        match strchr DQ (skipn (a + 6) s) with
        | Some n => if (a + 6 + n <? p) && (n <? 64) then firstn n (skipn (a + 6) s) else []
        | None => []
        end
      else []
  | None => []
  end.

Definition lang_class (after : str) (q : nat) : str :=
  match strstr (B "class=" ++ [DQ]) after with
  | Some a =>
      if a <? q then
        match strstr (B "language-") (skipn (a + 7) after) with
        | Some b =>
            if a + 7 + b <? q then
              let l := fst (span (fun c => negb (ceq c DQ) && negb (ceq c SP)) (firstn (q - (a + 7 + b + 9)) (skipn (a + 7 + b + 9) after))) in
              if length l <? 64 then l else []
            else []
        | None => []
        end
      else []
  | None => []
  end.

Definition language (s : str) (p : nat) (after : str) (q : nat) : str :=
  match lang_attr s p with [] => lang_class after q | l => l end.

Section Run.
Variables (sh : str -> str -> option str) (t : highlighter) (line_numbers language_only ansi : bool).

Fixpoint go (fuel : nat) (s : str) (w : hb) : answer :=
  match fuel with
  | 0 => Fuel
  | S fuel =>
      match s with
      | [] => finish w
      | c :: r =>
          if starts (B "<pre") s && (ceq (at_ s 4) ">" || ceq (at_ s 4) SP) then
            match strchr ">" s with
            | None => go fuel r (copy1 c w)
            | Some p =>
                let after := snd (span gap (skipn (S p) s)) in
                if negb (starts (B "<code") after) then go fuel r (copy1 c w)
                else
                  match strchr ">" after with
                  | None => go fuel r (copy1 c w)
                  | Some q =>
                      let lang := language s p after q in
                      let content := skipn (S q) after in
                      match strstr (B "</code></pre>") content with
                      | None => go fuel r (copy1 c w)
                      | Some e =>
                          let rest := skipn (e + 13) content in
                          let block := firstn (length s - length rest) s in
                          if language_only && (match lang with [] => true | _ => false end) then go fuel rest (paste block w)
                          else
                            match sh (command t lang line_numbers ansi) (unescape_html (firstn e content)) with
                            | Some (h :: hs) => go fuel rest (put (h :: hs) w)
                            | _ => go fuel rest (paste block w)
                            end
                      end
                  end
            end
          else go fuel r (plain c w)
      end
  end.

(** 267-276 *)
Definition highlighted (html : str) : answer :=
  go (S (length html)) html {| h_cap := length html * 3 + 1024; h_out := []; h_bad := false |}.
End Run.
