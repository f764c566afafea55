(** Model of passes over the finished HTML in src/apex.c.  Texts are without NUL; allocation never fails.
    A buffer is its capacity and what is in it; a store behind it is kept in [w_bad]. *)
From Verif Require Import Base.

Inductive answer := Out (s : str) | Bad.
Record wr := Wr { w_cap : nat; w_out : str; w_bad : bool }.
Definition start (cap : nat) : wr := Wr cap [] false.
Definition left_ (w : wr) : nat := w_cap w - length (w_out w).
Definition grow (n : nat) (w : wr) : wr := Wr ((length (w_out w) + n) * 2) (w_out w) (w_bad w).
Definition emit (x : str) (w : wr) : wr := Wr (w_cap w) (w_out w ++ x) (w_bad w || (w_cap w <? length (w_out w) + length x)).
(** if (k >= remaining) realloc((written + k + extra) * 2), then memcpy *)
Definition block (extra : nat) (x : str) (w : wr) : wr :=
  emit x (if left_ w <=? length x then grow (length x + extra) w else w).
(** if (remaining < 10) realloc((written + 100) * 2), then one byte *)
Definition byte (c : ascii) (w : wr) : wr := emit [c] (if left_ w <? 10 then grow 100 w else w).
(** the NUL *)
Definition finish (w : wr) : answer := if w_bad w || (w_cap w <=? length (w_out w)) then Bad else Out (w_out w).

(** * Rules: apex.c 3423-3531 *)
Definition rule_div : str :=
  B "<div class=""mkpagebreak manualbreak"" title=""Page break created from HR"" data-description=""PAGE (HR)"" style=""page-break-after:always""><span style=""display:none"">&nbsp;</span></div>".
Fixpoint rules (fuel : nat) (s : str) (w : wr) : wr :=
  match fuel with
  | O => w
  | S fuel =>
      match s with
      | [] => w
      | _ =>
          match strstr (B "<hr") s with
          | None => block 1 s w
          | Some k =>
              let w := block (length rule_div + 1) (firstn k s) w in
              let h := skipn k s in
              match strchr ">"%char h with
              | None => block 1 h w
              | Some e => rules fuel (skipn (e + 1) h) (block 1 rule_div w)
              end
          end
      end
  end.
Definition replace_rules (html : str) : answer := finish (rules (S (length html)) html (start (length html * 4 + 1))).

(** * Code without a language: apex.c 2969-3138 *)
Definition poetry_class : str := B " class=""poetry""".
(** 3010-3018: [s] starts behind <pre><cod; the search goes on to the end of the text *)
Definition language (s : str) : bool :=
  match strstr (B "class=") s with
  | Some k => match strstr (B "language-") (skipn k s) with Some _ => true | None => false end
  | None => false
  end.
Fixpoint poems (fuel : nat) (s : str) (w : wr) : wr :=
  match fuel with
  | O => w
  | S fuel =>
      match s with
      | [] => w
      | _ =>
          match strstr (B "<pre><code") s with
          | None => block 1 s w
          | Some k =>
              let w := block 100 (firstn k s) w in
              let p := skipn k s in
              match strchr ">"%char (skipn 9 p) with
              | None => block 1 p w
              | Some e =>
                  let rest := skipn (9 + e + 1) p in
                  if language (skipn 9 p) then poems fuel rest (block 1 (firstn (9 + e + 1) p) w)
                  else poems fuel rest (byte ">"%char (block 100 poetry_class (block 20 (firstn (9 + e) p) w)))
              end
          end
      end
  end.
Definition add_poetry (html : str) : answer := finish (poems (S (length html)) html (start (length html * 2 + 1))).

(** * Empty paragraphs: apex.c 2342-2405 *)
Definition zero_width : str := [ascii_of_nat 226; ascii_of_nat 128; ascii_of_nat 139].
Fixpoint empties (fuel : nat) (s : str) : bool :=
  match fuel with
  | O => false
  | S fuel =>
      match s with
      | [] => true
      | c :: r =>
          if starts (B "&#8203;") s then empties fuel (skipn 7 s)
          else if negb (ceq c SP) && negb (ceq c TAB) && negb (ceq c NL) && negb (ceq c CR) then
            if starts zero_width s then empties fuel (skipn 3 s) else false
          else empties fuel r
      end
  end.
(** the output is never longer than the text, so the check of the room (2393) never fails *)
Fixpoint paragraphs (fuel : nat) (s : str) : str :=
  match fuel with
  | O => []
  | S fuel =>
      match s with
      | [] => []
      | c :: r =>
          let copied := c :: paragraphs fuel r in
          if starts (B "<p>") s then
            match strstr (B "</p>") s with
            | Some k =>
                let content := firstn (k - 3) (skipn 3 s) in
                if empties (S (length content)) content && (0 <? length content) then paragraphs fuel (skipn (k + 4) s) else copied
            | None => copied
            end
          else copied
      end
  end.
Definition drop_empty (html : str) : str := paragraphs (S (length html)) html.

(** * The first heading: apex.c 3146-3198 *)
Fixpoint visible (in_tag : bool) (s : str) : str :=
  match s with
  | [] => []
  | c :: r =>
      if ceq c "<"%char then visible true r
      else if ceq c ">"%char then visible false r
      else if in_tag then visible true r else c :: visible false r
  end.
Definition blank (c : ascii) : bool := ceq c SP || ceq c TAB || ceq c NL || ceq c CR.
Definition trim (s : str) : str := snd (span blank (rev (snd (span blank (rev s))))).
Definition first_h1 (html : str) : option str :=
  match strstr (B "<h1") html with
  | None => None
  | Some k =>
      let h := skipn k html in
      match strchr ">"%char h with
      | None => None
      | Some e =>
          let body := skipn (e + 1) h in
          match strstr (B "</h1>") body with
          | None => None
          | Some n => match trim (visible false (firstn n body)) with [] => None | t => Some t end
          end
      end
  end.

(** * Page break before the footnotes: apex.c 5271-5300 *)
Definition notes_div : str :=
  B "<div class=""mkpagebreak manualbreak"" title=""Page break created before footnotes"" data-description=""PAGE (Footnotes)"" style=""page-break-after:always""><span style=""display:none"">&nbsp;</span></div>".
Definition break_notes (html : str) : str :=
  match strstr (B "<section class=""footnotes""") html with
  | Some k => firstn k html ++ notes_div ++ skipn k html
  | None => html
  end.
