(** Specification vocabulary for the JSON properties: the grammar of RFC 8259
    on byte strings, and the meaning of string literals. *)
From Verif Require Import Base M_Json.

Definition json_ws (c : ascii) : bool := ceq c SP || ceq c TAB || ceq c NL || ceq c CR.
Definition all_ws (s : str) : Prop := forallb json_ws s = true.
Definition hexdigit (c : ascii) : bool := isdigit c || between 65 70 c || between 97 102 c.

(** The inside of a string literal (RFC 8259, section 7; bytes above 7F are
    parts of UTF-8 sequences and are allowed as they are). *)
Inductive json_body : str -> Prop :=
| jb_nil : json_body []
| jb_plain c b : (32 <= code c)%N -> c <> DQ -> c <> BS -> json_body b -> json_body (c :: b)
| jb_esc e b : In e [DQ; BS; "/"; "b"; "f"; "n"; "r"; "t"]%char ->
    json_body b -> json_body (BS :: e :: b)
| jb_u h1 h2 h3 h4 b : forallb hexdigit [h1; h2; h3; h4] = true ->
    json_body b -> json_body (BS :: "u"%char :: h1 :: h2 :: h3 :: h4 :: b).

Definition hexval (c : ascii) : N :=
  if isdigit c then code c - 48 else if between 65 70 c then code c - 55 else code c - 87.

(** The text a string literal stands for, as far as [\u] escapes below 80 are
    concerned (larger ones never occur in what is proved). *)
Inductive body_text : str -> str -> Prop :=
| bt_nil : body_text [] []
| bt_plain c b t : (32 <= code c)%N -> c <> DQ -> c <> BS ->
    body_text b t -> body_text (c :: b) (c :: t)
| bt_esc e d b t :
    In (e, d) [(DQ, DQ); (BS, BS); ("/", "/"); ("b", "008"); ("f", "012");
               ("n", NL); ("r", CR); ("t", TAB)]%char ->
    body_text b t -> body_text (BS :: e :: b) (d :: t)
| bt_u h1 h2 h3 h4 d b t : forallb hexdigit [h1; h2; h3; h4] = true ->
    (code d = hexval h1 * 4096 + hexval h2 * 256 + hexval h3 * 16 + hexval h4)%N ->
    (code d < 128)%N ->
    body_text b t -> body_text (BS :: "u"%char :: h1 :: h2 :: h3 :: h4 :: b) (d :: t).

(** Numbers (section 6): [-] int [. digits] [e [+-] digits]. *)
Definition digits1 (s : str) : Prop := s <> [] /\ forallb isdigit s = true.
Definition json_int (s : str) : Prop :=
  digits1 s /\ (forall r, s = "0"%char :: r -> r = []).
Definition json_number (s : str) : Prop :=
  exists sign int frac exp, s = sign ++ int ++ frac ++ exp /\
    (sign = [] \/ sign = B "-") /\ json_int int /\
    (frac = [] \/ exists ds, frac = "."%char :: ds /\ digits1 ds) /\
    (exp = [] \/ exists e sg ds, exp = e :: sg ++ ds /\ In e (B "eE") /\
                  In sg [[]; B "+"; B "-"] /\ digits1 ds).

(** JSON texts. *)
Inductive json : str -> Prop :=
| j_string b : json_body b -> json (DQ :: b ++ [DQ])
| j_number s : json_number s -> json s
| j_literal s : In s [B "true"; B "false"; B "null"] -> json s
| j_array0 w : all_ws w -> json (B "[" ++ w ++ B "]")
| j_array es : elements es -> json (B "[" ++ es ++ B "]")
| j_object0 w : all_ws w -> json (B "{" ++ w ++ B "}")
| j_object ms : members ms -> json (B "{" ++ ms ++ B "}")
with elements : str -> Prop :=
| e_one w1 v w2 : all_ws w1 -> json v -> all_ws w2 -> elements (w1 ++ v ++ w2)
| e_more w1 v w2 es : all_ws w1 -> json v -> all_ws w2 -> elements es ->
    elements (w1 ++ v ++ w2 ++ B "," ++ es)
with members : str -> Prop :=
| m_one w1 k w2 w3 v w4 : all_ws w1 -> json_body k -> all_ws w2 -> all_ws w3 -> json v -> all_ws w4 ->
    members (w1 ++ (DQ :: k ++ [DQ]) ++ w2 ++ B ":" ++ w3 ++ v ++ w4)
| m_more w1 k w2 w3 v w4 ms :
    all_ws w1 -> json_body k -> all_ws w2 -> all_ws w3 -> json v -> all_ws w4 -> members ms ->
    members (w1 ++ (DQ :: k ++ [DQ]) ++ w2 ++ B ":" ++ w3 ++ v ++ w4 ++ B "," ++ ms).

(** A JSON document may be surrounded by white space. *)
Definition json_document (s : str) : Prop :=
  exists w1 v w2, s = w1 ++ v ++ w2 /\ all_ws w1 /\ json v /\ all_ws w2.

(** What may follow a value inside a larger JSON text. *)
Definition value_end (rest : str) : Prop :=
  forall c r, rest = c :: r -> json_ws c = true \/ In c (B ",]}").

(** Bytes the program's own reader cannot read back. *)
Definition lost_byte (c : ascii) : bool :=
  (code c <? 32)%N && negb (ceq c NL || ceq c CR || ceq c TAB).

(** ** Documents *)

(** Texts without such bytes. *)
Definition clean (t : str) : Prop := forallb (fun c => negb (lost_byte c)) t = true.

(** ** What comes back when the program reads its own JSON

    Control bytes other than newline, carriage return and tab come back as
    question marks; links and images do not come back; of the inline elements
    that come back in a paragraph, heading or emphasis only the first does. *)
Definition back_text (t : str) : str := map (fun c => if lost_byte c then "?"%char else c) t.
Fixpoint back_inline (n : inl) : list inl :=
  match n with
  | IText t | IOther t => [IText (back_text t)]
  | ISoft => [ISoft] | ILine => [ILine]
  | ICode t => [ICode (back_text t)]
  | IHtml t => [IHtml (back_text t)]
  | IEmph l => [IEmph (firstn 1 (flat_map back_inline l))]
  | IStrong l => [IStrong (firstn 1 (flat_map back_inline l))]
  | ILink _ _ _ | IImage _ _ _ => []
  end.
Definition back_inlines (l : list inl) : list inl := firstn 1 (flat_map back_inline l).

(** A block comes back as a block, is lost, or ends the document. *)
Inductive fate := Back (b : blk) | Lost | Ends.
Definition block_fate (b : blk) : fate :=
  match b with
  | BPara l => Back (BPara (back_inlines l))
  | BHead level l =>
      Back (BHead (if level =? 0 then 1 else if level <=? 6 then level else 1) (back_inlines l))
  | BRule => Back BRule
  | BHtml t => Back (BHtml (back_text t))
  | BOther t => Back (BPara [IText (back_text t)])
  | BQuote [] => Back (BQuote [])
  | BQuote _ => Lost
  | BList false _ [[]] => Back (BList false 0 [])
  | BList _ _ _ => Lost
  | BCode lang lit =>
      if seq_ lang (B "inc") then Back (BCode lang (back_text (chop_nl lit))) else Ends
  end.
(** [None]: the whole document is refused. *)
Fixpoint back_doc (doc : list blk) : option (list blk) :=
  match doc with
  | [] => Some []
  | b :: doc' =>
      match block_fate b with
      | Back b' => match back_doc doc' with Some r => Some (b' :: r) | None => None end
      | Lost => match doc' with [] => Some [] | _ => None end
      | Ends => Some []
      end
  end.

(** Documents that survive the trip: paragraphs, headings, rules and raw HTML,
    each container holding at most one inline element. *)
Fixpoint simple_inline (n : inl) : Prop :=
  match n with
  | IText t | ICode t | IHtml t => clean t
  | ISoft | ILine => True
  | IEmph l | IStrong l => match l with [] => True | [x] => simple_inline x | _ => False end
  | _ => False
  end.
Definition simple_inlines (l : list inl) : Prop :=
  match l with [] => True | [x] => simple_inline x | _ => False end.
Definition simple_block (b : blk) : Prop :=
  match b with
  | BPara l => simple_inlines l
  | BHead level l => 1 <= level <= 6 /\ simple_inlines l
  | BRule => True
  | BHtml t => clean t
  | BCode lang t => lang = B "inc" /\ clean t /\ chop_nl t = t
  | BQuote l => l = []
  | _ => False
  end.

(** No ordered list anywhere, and no code block but those of language "inc". *)
Fixpoint plain_blocks (b : blk) : Prop :=
  match b with
  | BCode lang _ => lang = B "inc"
  | BList ordered _ items => ordered = false /\
      (fix all (l : list (list blk)) : Prop :=
         match l with
         | [] => True
         | it :: l' => (fix all2 (k : list blk) : Prop :=
                          match k with [] => True | b :: k' => plain_blocks b /\ all2 k' end) it
                       /\ all l'
         end) items
  | BQuote l => (fix all2 (k : list blk) : Prop :=
                   match k with [] => True | b :: k' => plain_blocks b /\ all2 k' end) l
  | _ => True
  end.

(** Documents whose code blocks and ordered lists, if any, are not nested. *)
Definition shallow (b : blk) : Prop :=
  match b with
  | BCode _ _ => True
  | BList _ _ items => Forall (Forall plain_blocks) items
  | _ => plain_blocks b
  end.
