(** Properties C179-C187: fenced divs (src/extensions/fenced_divs.c). *)
From Verif Require Import Base BaseL M_Divs S_Divs L_Divs L_Divs2.

Ltac opens a := apply opens_read; vm_compute; reflexivity.
Ltac plain := let a := fresh in let H := fresh in intros a H; apply opens_read in H; vm_compute in H; discriminate H.
Ltac no_close := intros _; let H := fresh in intros H; apply closes_read in H; vm_compute in H; discriminate H.
Ltac bytes := repeat (constructor; [cbn; intuition discriminate|]); constructor.

(** * C179: a fenced div becomes an element around its content *)
(** A div around [x], and the line z. *)
Definition div_text (x : str) : str := B "::: a" ++ [NL] ++ x ++ [NL] ++ B ":::" ++ [NL] ++ B "z" ++ [NL].
Definition div_lines (x : str) : list (str * str) := [(B "::: a", [NL]); (x, [NL]); (B ":::", [NL]); (B "z", [NL])].
Definition div_html (x : str) : str := open_html (B "div") (attribute (B "class") (B "a")) ++ [NL] ++ (x ++ [NL] ++ []) ++ close_html (B "div") ++ B "z" ++ [NL] ++ [].
Lemma start_a : Start (B "::: a") (B "div") (attribute (B "class") (B "a")).
Proof.
  exists (B "a"), (B "a"). split; [opens (B "a")|]. split; [apply E_div; [intros [Q _]; discriminate Q|intros c r E; injection E as <- _; reflexivity]|].
  change (B "a") with (B "a" ++ []) at 1. apply A_word; [discriminate|bytes|discriminate|left; reflexivity|]. intros c r E. injection E as <- _. reflexivity.
Qed.
Lemma div_shape x : no_eol x -> (forall a, ~ Opens x a) -> ~ Closes x -> Lines (div_text x) (div_lines x) /\ Doc false (div_lines x) (div_html x).
Proof.
  intros N O C. split.
  - unfold div_text, div_lines. apply L_line; [split; cbn; intuition discriminate|auto|]. apply L_line; [exact N|auto|]. apply L_line; [split; cbn; intuition discriminate|auto|].
    rewrite <- (app_nil_r [NL]) at 1. apply L_line; [split; cbn; intuition discriminate|auto|constructor].
  - apply D_done. unfold div_lines, div_html. apply (B_div false (B "::: a") [NL] (B "div") _ [(x, [NL])] _ (B ":::") [NL] [(B "z", [NL])]); [exact start_a| | |].
    + apply B_text; [exact O|intros _; exact C|constructor].
    + apply closes_read. reflexivity.
    + apply (B_text false (B "z") [NL] [] []); [plain|discriminate|constructor].
Qed.
Theorem C179_refuted : exists text ls h t, Lines text ls /\ Doc false ls h /\ ~ In NUL h /\ process text = Out t /\ t <> h /\ length t < length h.
Proof.
  exists (div_text (repeat "x"%char 10)), (div_lines (repeat "x"%char 10)), (div_html (repeat "x"%char 10)).
  eexists. destruct (div_shape (repeat "x"%char 10)) as [L D]; [split; cbn; intuition discriminate|plain|intros H; apply closes_read in H; discriminate H|].
  split; [exact L|]. split; [exact D|]. split; [vm_compute; intuition discriminate|]. split; [vm_compute; reflexivity|].
  split; [intros E; apply (f_equal (@length ascii)) in E; vm_compute in E; discriminate E|]. apply Nat.ltb_lt. vm_compute. reflexivity.
Qed.
Print Assumptions C179_refuted.
Theorem C179_partial text ls h : Lines text ls -> Doc false ls h -> ~ In NUL h -> length h < 2 * length text -> process text = Out h.
Proof. exact (process_doc text ls h). Qed.
Print Assumptions C179_partial.
Example C179_case : let x := repeat "x"%char 40 in Lines (div_text x) (div_lines x) /\ Doc false (div_lines x) (div_html x) /\
  ~ In NUL (div_html x) /\ length (div_html x) < 2 * length (div_text x) /\
  process (div_text x) = Out (B "<div class=" ++ [DQ] ++ B "a" ++ [DQ] ++ B " markdown=" ++ [DQ] ++ B "1" ++ [DQ] ++ B ">" ++ [NL] ++ x ++ [NL] ++ B "</div>z" ++ [NL]).
Proof.
  cbv zeta. destruct (div_shape (repeat "x"%char 40)) as [L D]; [split; cbn; intuition discriminate|plain|intros H; apply closes_read in H; discriminate H|].
  split; [exact L|]. split; [exact D|]. split; [vm_compute; intuition discriminate|]. split; [apply Nat.ltb_lt; vm_compute; reflexivity|vm_compute; reflexivity].
Qed.

(** * C180: memory of fenced divs *)
Theorem C180_refuted : process [] = Bad /\ process (B "::: a" ++ [NL] ++ repeat "x"%char 16 ++ [NL] ++ B ":::") = Bad /\ process (B "::: {foo") = Bad.
Proof. vm_compute. auto. Qed.
Print Assumptions C180_refuted.
Theorem C180_partial text ls h : Lines text ls -> Doc false ls h -> ~ In NUL h -> length h < 2 * length text -> process text <> Bad.
Proof. intros L D N K E. rewrite (process_doc text ls h L D N K) in E. discriminate. Qed.
Print Assumptions C180_partial.
Example C180_case : let x := repeat "x"%char 17 in Lines (div_text x) (div_lines x) /\ Doc false (div_lines x) (div_html x) /\
  ~ In NUL (div_html x) /\ length (div_html x) < 2 * length (div_text x).
Proof.
  cbv zeta. destruct (div_shape (repeat "x"%char 17)) as [L D]; [split; cbn; intuition discriminate|plain|intros H; apply closes_read in H; discriminate H|].
  split; [exact L|]. split; [exact D|]. split; [vm_compute; intuition discriminate|]. apply Nat.ltb_lt. vm_compute. reflexivity.
Qed.

(** * C181: attributes of fenced divs *)
Theorem C181_refuted : (exists l s, Written l s /\ attributes (B "{" ++ s ++ B "}") <> Some (shown l)) /\ attributes (B "{foo") = None.
Proof.
  split; [|reflexivity]. exists [Id (repeat "i"%char 250)], (item_text (Id (repeat "i"%char 250))). split.
  - rewrite <- (app_nil_r (item_text _)). apply (W_item [] (Id (repeat "i"%char 250)) [] []); [constructor| |left; reflexivity|constructor; constructor].
    split; [discriminate|]. apply Forall_forall. intros c I. apply repeat_spec in I as ->. split; [reflexivity|cbn; intuition discriminate].
  - intros E. apply (f_equal (option_map (@length ascii))) in E. vm_compute in E. discriminate E.
Qed.
Print Assumptions C181_refuted.
Theorem C181_partial : (forall x h, Attributes x h -> attributes x = Some h) /\
  (forall x, tight x -> tight (rev x) -> at_ x 0 = "{"%char -> at_ (rev x) 0 = "}"%char -> exists h, attributes x = Some h).
Proof. split; [exact attributes_read|exact closed_attributes]. Qed.
Print Assumptions C181_partial.
Example C181_case : let l := [Id (B "i"); Class (B "a"); Quoted DQ (B "k") (B "v w"); Class (B "b"); Pair (B "n") (B "1"); Word (B "q")] in
  let s := B "#i .a k=" ++ [DQ] ++ B "v w" ++ [DQ] ++ B " .b n=1 q " in
  Written l s /\ Attributes (B "{" ++ s ++ B "}") (shown l) /\
  shown l = B " id=" ++ [DQ] ++ B "i" ++ [DQ] ++ B " class=" ++ [DQ] ++ B "a b" ++ [DQ] ++ B " k=" ++ [DQ] ++ B "v w" ++ [DQ] ++ B " n=" ++ [DQ] ++ B "1" ++ [DQ].
Proof.
  cbv zeta. match goal with |- Written ?l ?s /\ _ => cut (Written l s) end.
  - intros W. split; [exact W|]. split; [|reflexivity]. apply A_braces; [exact W|]. intros i E. injection E as <-. discriminate.
  - apply (W_item [] (Id (B "i")) _ (B " .a k=" ++ [DQ] ++ B "v w" ++ [DQ] ++ B " .b n=1 q ")); [constructor|split; [discriminate|bytes]|right; do 2 eexists; split; reflexivity|].
    apply (W_item [SP] (Class (B "a")) _ (B " k=" ++ [DQ] ++ B "v w" ++ [DQ] ++ B " .b n=1 q ")); [bytes|split; [discriminate|bytes]|right; do 2 eexists; split; reflexivity|].
    apply (W_item [SP] (Quoted DQ (B "k") (B "v w")) _ (B " .b n=1 q ")); [bytes| |right; do 2 eexists; split; reflexivity|].
    { split; [split; [discriminate|split; [bytes|split; discriminate]]|]. split; [auto|]. split; cbn; intuition discriminate. }
    apply (W_item [SP] (Class (B "b")) _ (B " n=1 q ")); [bytes|split; [discriminate|bytes]|right; do 2 eexists; split; reflexivity|].
    apply (W_item [SP] (Pair (B "n") (B "1")) _ (B " q ")); [bytes| |right; do 2 eexists; split; reflexivity|].
    { split; [split; [discriminate|split; [bytes|split; discriminate]]|]. split; [bytes|split; discriminate]. }
    apply (W_item [SP] (Word (B "q")) _ (B " ")); [bytes| |right; do 2 eexists; split; reflexivity|constructor; bytes].
    split; [discriminate|split; [bytes|split; discriminate]].
Qed.

(** * C182: text without opening fences stays *)
Theorem C182_plain text : text <> [] -> ~ In NUL text -> (forall ls, Lines text ls -> Forall (fun l => forall a, ~ Opens (fst l) a) ls) -> process text = Out text.
Proof.
  intros Z N H. destruct (lines_exist text) as [ls L]. apply (process_doc text ls text L); [apply D_done, (plain_doc text ls L (H ls L))|exact N|].
  destruct text; [congruence|cbn [length]; lia].
Qed.
Print Assumptions C182_plain.
Example C182_case : let text := B "a ::: b" ++ [NL] ++ B ":::" ++ [CR; NL] ++ B ":: c" in
  Lines text [(B "a ::: b", [NL]); (B ":::", [CR; NL]); (B ":: c", [])] /\ Forall (fun l : str * str => forall a, ~ Opens (fst l) a) [(B "a ::: b", [NL]); (B ":::", [CR; NL]); (B ":: c", [])] /\
  process text = Out text /\ (exists a, Opens (B "  ::::: b :::") a).
Proof.
  cbv zeta. split.
  - apply L_line; [split; cbn; intuition discriminate|auto|]. apply L_line; [split; cbn; intuition discriminate|auto|].
    rewrite <- (app_nil_r (B ":: c")). apply (L_line (B ":: c") [] []); [split; cbn; intuition discriminate| |constructor]. right. right. right. split; [reflexivity|]. split; [reflexivity|discriminate].
  - split; [repeat (constructor; [plain|]); constructor|]. split; [vm_compute; reflexivity|]. exists (B "b"). opens (B "b").
Qed.

(** * C183: code blocks *)
Theorem C183_refuted : exists code, let ticks := repeat BT 3 in let text := ticks ++ [NL] ++ code ++ [NL] ++ ticks ++ [NL] in
  exists t, process text = Out t /\ t <> text /\ strstr (B "<div class=") t <> None.
Proof.
  exists (B "::: note" ++ [NL] ++ repeat "x"%char 40 ++ [NL] ++ B ":::"). cbv zeta. eexists. split; [vm_compute; reflexivity|]. split; vm_compute; discriminate.
Qed.
Print Assumptions C183_refuted.

(** * C184: HTML without custom elements stays *)
Theorem C184_plain html : ~ has marker html -> postprocess html = Out html.
Proof. intros H. apply postprocess_named. constructor. exact H. Qed.
Print Assumptions C184_plain.
Example C184_case : ~ has marker (B "<div data-apex-fenced=" ++ [DQ] ++ B "x" ++ [DQ] ++ B "></div>").
Proof. apply strstr_has. reflexivity. Qed.

(** * C185: custom elements get their names *)
Definition custom (t b : str) : str := marker ++ t ++ [DQ] ++ B ">" ++ b ++ B "</div>".
Theorem C185_refuted : postprocess (custom (B "aside-x") (custom (B "inner-y") (B "t"))) = Out (B "<aside-x>" ++ custom (B "inner-y") (B "t") ++ B "</aside-x>").
Proof. vm_compute. reflexivity. Qed.
Print Assumptions C185_refuted.
Theorem C185_partial html o : Named html o -> postprocess html = Out o.
Proof. exact (postprocess_named html o). Qed.
Print Assumptions C185_partial.
Ltac bal := apply Bal_byte; [intros (? & ? & E & _); discriminate E|intros (? & E); discriminate E|].
Example C185_case : Named (B "p" ++ marker ++ B "my-el" ++ [DQ] ++ B " " ++ B "id=q" ++ B ">" ++ (B "<div" ++ [] ++ B ">" ++ B "u" ++ B "</div>" ++ []) ++ B "</div>" ++ B "r")
  (B "p" ++ B "<" ++ B "my-el" ++ (B " " ++ B "id=q") ++ B ">" ++ (B "<div" ++ [] ++ B ">" ++ B "u" ++ B "</div>" ++ []) ++ B "</" ++ B "my-el" ++ B ">" ++ B "r").
Proof.
  apply (N_element (B "p") (B "my-el") (B " ") (B "id=q") (B "<div" ++ [] ++ B ">" ++ B "u" ++ B "</div>" ++ []) (B "r") (B "r")).
  - apply strstr_has. reflexivity.
  - cbn. lia.
  - cbn. intuition discriminate.
  - bytes.
  - intros c r E. injection E as <- _. reflexivity.
  - cbn. intuition discriminate.
  - apply Bal_div; [intros []|left; reflexivity| |constructor]. bal. constructor.
  - apply strstr_has. reflexivity.
  - constructor. apply strstr_has. reflexivity.
Qed.

(** * C186: text is written once *)
Theorem C186_refuted : let html := B "abc" ++ custom (repeat "n"%char 128) (B "t") in postprocess html = Out (B "abc" ++ html).
Proof. vm_compute. reflexivity. Qed.
Print Assumptions C186_refuted.
Theorem C186_partial a t b s : ~ has marker a -> 0 < length t <= 33 -> ~ In DQ t -> Balanced b -> ~ has marker b -> ~ has marker s ->
  postprocess (a ++ custom t b ++ s) = Out (a ++ (B "<" ++ t ++ B ">") ++ b ++ (B "</" ++ t ++ B ">") ++ s).
Proof.
  intros Ha T N Bb Hb Hs. apply postprocess_named. unfold custom. rewrite <- !app_assoc.
  apply (N_element a t [] [] b s s Ha T N); [constructor|intros c r E; discriminate|intros []|exact Bb|exact Hb|constructor; exact Hs].
Qed.
Print Assumptions C186_partial.
Example C186_case : Balanced (B "<p>t</p>") /\ ~ has marker (B "<p>t</p>") /\ ~ has marker (B "abc") /\ 0 < length (B "my-el") <= 33 /\ ~ In DQ (B "my-el").
Proof.
  split; [repeat bal; constructor|]. split; [apply strstr_has; reflexivity|]. split; [apply strstr_has; reflexivity|]. split; [cbn; lia|cbn; intuition discriminate].
Qed.

(** * C187: memory of custom elements *)
Theorem C187_refuted : postprocess (flat_map (fun _ => custom (repeat "n"%char 127) []) (repeat tt 13)) = Bad.
Proof. vm_compute. reflexivity. Qed.
Print Assumptions C187_refuted.
Theorem C187_partial html : names_up_to 33 html -> exists t, postprocess html = Out t.
Proof. exact (postprocess_total html). Qed.
Print Assumptions C187_partial.
Example C187_case : names_up_to 33 (custom (repeat "n"%char 33) (B "<div>")) /\ postprocess (custom (repeat "n"%char 33) (B "<div>")) = Out (B "<" ++ repeat "n"%char 33 ++ B "><div></div>").
Proof.
  split; [|vm_compute; reflexivity]. intros a t b E N. unfold custom in E.
  assert (Z : a = []).
  { destruct a as [|c a]; [reflexivity|]. exfalso. change (marker ++ repeat "n"%char 33 ++ [DQ] ++ B ">" ++ B "<div>" ++ B "</div>") with ("<"%char :: (B "div data-apex-fenced-element=" ++ [DQ] ++ repeat "n"%char 33 ++ [DQ] ++ B "><div></div>")) in E.
    cbn [app] in E. injection E as _ E. assert (H : has marker (B "div data-apex-fenced-element=" ++ [DQ] ++ repeat "n"%char 33 ++ [DQ] ++ B "><div></div>")) by (exists a, (t ++ [DQ] ++ b); exact E).
    revert H. apply strstr_has. vm_compute. reflexivity. }
  subst a. cbn [app] in E. apply app_inv_head in E.
  assert (S1 : strchr DQ (t ++ [DQ] ++ b) = Some (length t)) by (apply strchr_some; exists t, b; auto).
  change (t ++ [DQ] ++ b) with (t ++ DQ :: b) in S1. rewrite <- E in S1.
  assert (S2 : strchr DQ (repeat "n"%char 33 ++ [DQ] ++ B ">" ++ B "<div>" ++ B "</div>") = Some 33) by (vm_compute; reflexivity).
  assert (S3 : Some 33 = Some (length t)) by (rewrite <- S2; exact S1). injection S3 as S3. lia.
Qed.
