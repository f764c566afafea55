(** Documents with includes as lists of segments, written out and expanded.  Of the model only the
    record of outside functions, the path functions, file types, [part] (C148-C154) and the tables of
    C138-C142 are used. *)
From Verif Require Import Base M_Csv M_Lines M_Incl.

Inductive include :=
| Mmd (f : str) (a : option str)     (* {{f}}, {{f}}[a] *)
| Marked (f : str) (a : option str)  (* <<[f], <<[f][a] *)
| Code (f : str) (a : option str)    (* <<(f), <<(f)[a] *)
| Ia (f : str).                      (* /f *)
Inductive segment := Plain (u : str) | Span (u : str) | Inc (i : include).
Definition bracketed (a : option str) : str := match a with Some a => B "[" ++ a ++ B "]" | None => [] end.
Definition written (i : include) : str :=
  match i with
  | Mmd f a => B "{{" ++ f ++ B "}}" ++ bracketed a
  | Marked f a => B "<<[" ++ f ++ B "]" ++ bracketed a
  | Code f a => B "<<(" ++ f ++ B ")" ++ bracketed a
  | Ia f => B "/" ++ f
  end.
Definition source1 (x : segment) : str :=
  match x with Plain u => u | Span u => [BT] ++ u ++ [BT] | Inc i => written i end.
Definition source (l : list segment) : str := concat (map source1 l).

(** Text in which nothing looks like an include or code; [start]: it is at the start of a line. *)
Fixpoint inert (start : bool) (u : str) : Prop :=
  match u with
  | [] => True
  | c :: r => c <> BT /\ (c = "{"%char -> exists d r', r = d :: r' /\ d <> "{"%char) /\
              (start = true -> c <> "/"%char /\ (c = "<"%char -> exists d r', r = d :: r' /\ d <> "<"%char)) /\
              inert (ceq c NL) r
  end.
(** At the start of a line, after [u]? *)
Definition after_ (start : bool) (u : str) : bool := match rev u with [] => start | c :: _ => ceq c NL end.
Definition short (f : str) : Prop := f <> [] /\ length f < 1024.
Definition fine_address (a : option str) : Prop := match a with Some a => short a /\ ~ In "]"%char a | None => True end.
Definition no_bracket (s : str) : Prop := match s with "["%char :: _ => False | _ => True end.
Definition no_bracket_ws (s : str) : Prop := no_bracket (snd (span isspace s)).
(** The include can be written here, before [rest]. *)
Definition fine_include (start : bool) (i : include) (rest : str) : Prop :=
  match i with
  | Mmd f a => short f /\ ~ In "}"%char f /\ Forall (fun c => is_glob c = false) f /\ fine_address a /\ (a = None -> no_bracket rest)
  | Marked f a => start = true /\ short f /\ ~ In "]"%char f /\ fine_address a /\ (a = None -> no_bracket_ws rest)
  | Code f a => start = true /\ short f /\ ~ In ")"%char f /\ fine_address a /\ (a = None -> no_bracket_ws rest) /\ length (lang_of f) <= 122
  | Ia f => start = true /\ short f /\ Forall (fun c => word_char c = true) f /\
            match rest with [] => True | c :: _ => word_char c = false end
  end.
Fixpoint fine (start : bool) (l : list segment) : Prop :=
  match l with
  | [] => True
  | Plain u :: r => inert start u /\ fine (after_ start u) r
  | Span u :: r => ~ In BT u /\ fine false r
  | Inc i :: r => fine_include start i (source r) /\ fine false r
  end.
(** No line begins with an even number, four or more, of backticks. *)
Definition no_even_fence (s : str) : Prop := forall a n b,
  s = a ++ repeat BT n ++ b -> after_ true a = true -> at_ b 0 <> BT -> n < 4 \/ Nat.even n = false.
Definition fence_of (lang x : str) : str := [NL] ++ repeat BT 3 ++ lang ++ [NL] ++ x ++ [NL] ++ repeat BT 3 ++ [NL].

(** The folder in which the includes of a file are looked up.  A relative transclude base is not
    covered. *)
Inductive Home (E : env) (path content : str) : str -> Prop :=
| H_none : tbase E content = None -> Home E path content (get_directory path)
| H_abs t : tbase E content = Some ("/"%char :: t) -> Home E path content ("/"%char :: t)
| H_dot t : tbase E content = Some ("."%char :: t) -> t = [] \/ (exists u, t = "/"%char :: u) -> Home E path content (get_directory path).
(** Separated data become a table. *)
Inductive Tabled (p x : str) : str -> Prop :=
| T_csv t : detect p = CsvFile -> csv_to_table x false = Table t -> Tabled p x t
| T_tsv t : detect p = TsvFile -> csv_to_table x true = Table t -> Tabled p x t
| T_no : detect p <> CsvFile -> detect p <> TsvFile -> Tabled p x x.
(** The part of the file that is included. *)
Definition Part (E : env) (a : option str) (content x : str) : Prop :=
  match a with Some a => part (rc E) a content = Text x | None => x = content end.
Section Expands.
Variable E : env.
(** [R text base t]: the text [t] is [text] with its own includes expanded. *)
Variable R : str -> option str -> str -> Prop.
Variable base : option str.
Inductive Means : include -> str -> Prop :=
| M_mmd f a content x y home t : file E (resolve_path f base) = Some content -> Part E a content x ->
    Tabled (resolve_path f base) x y -> Home E (resolve_path f base) content home -> R y (Some home) t -> Means (Mmd f a) t
| M_marked f a content x y home t : file E (resolve_path f base) = Some content -> Part E a content x ->
    Tabled (resolve_path f base) x y -> Home E (resolve_path f base) content home -> R y (Some home) t -> Means (Marked f a) t
| M_code f a content x : file E (resolve_path f base) = Some content -> Part E a content x ->
    Means (Code f a) (fence_of (lang_of f) x)
| M_image f content : exists_ E (resolve_path f base) = true -> file E (resolve_path f base) = Some content ->
    detect (resolve_path f base) = Image -> Means (Ia f) (B "![](" ++ f ++ B ")" ++ [NL])
| M_source f content : exists_ E (resolve_path f base) = true -> file E (resolve_path f base) = Some content ->
    detect (resolve_path f base) = CodeFile -> Means (Ia f) (fence_of (ext_of f) content)
| M_table f content t : exists_ E (resolve_path f base) = true -> file E (resolve_path f base) = Some content ->
    detect (resolve_path f base) = CsvFile \/ detect (resolve_path f base) = TsvFile ->
    Tabled (resolve_path f base) content t -> Means (Ia f) t
| M_text f content home t : exists_ E (resolve_path f base) = true -> file E (resolve_path f base) = Some content ->
    In (detect (resolve_path f base)) [HtmlFile; Markdown; TextFile] ->
    Home E (resolve_path f base) content home -> R content (Some home) t -> Means (Ia f) t.
Inductive Result : list segment -> str -> Prop :=
| R_end : Result [] []
| R_plain u l t : Result l t -> Result (Plain u :: l) (u ++ t)
| R_span u l t : Result l t -> Result (Span u :: l) ([BT] ++ u ++ [BT] ++ t)
| R_inc i l x t : Means i x -> Result l t -> Result (Inc i :: l) (x ++ t).
End Expands.
(** After ten levels text is left as it is. *)
Fixpoint Expands (E : env) (levels : nat) (text : str) (base : option str) (t : str) : Prop :=
  match levels with
  | O => t = text
  | S levels => exists l, text = source l /\ fine true l /\ no_even_fence text /\
      Result E (fun x b => Expands E levels x b) base l t /\ length t < Nat.max (length text * 10) (2 ^ 20)
  end.

(** Text in which nothing looks like an include, code or not. *)
Fixpoint quiet (start : bool) (u : str) : Prop :=
  match u with
  | [] => True
  | c :: r => ~ (c = "{"%char /\ at_ r 0 = "{"%char) /\ (start = true -> c <> "/"%char /\ ~ (c = "<"%char /\ at_ r 0 = "<"%char)) /\
              quiet (ceq c NL) r
  end.
(** ** Reading a fenced code block *)
(** A line that closes a block opened with [k] backticks. *)
Definition closes (k : nat) (l : str) : Prop := exists i n w, l = repeat SP i ++ repeat BT n ++ w /\ i <= 3 /\ k <= n /\
  Forall (fun c => c = SP \/ c = TAB) w.
(** [Body k ls b]: of the lines [ls] after the opening fence of [k] backticks, [b] are those of the block. *)
Inductive Body (k : nat) : list str -> list str -> Prop :=
| B_close l ls : closes k l -> Body k (l :: ls) []
| B_line l ls b : ~ closes k l -> Body k ls b -> Body k (l :: ls) (l :: b).
Definition block_text (b : list str) : str := concat (map (fun l => l ++ [NL]) b).
(** A code block with its fences. *)
Definition code_block (n : nat) (info body : str) : str := repeat BT n ++ info ++ [NL] ++ body ++ [NL] ++ repeat BT n ++ [NL].
(** A character of the name of a file. *)
Definition name_char (c : ascii) : Prop := c <> BT /\ c <> NL /\ c <> "{"%char.
(** ** Names of files *)
(** Where a name written in a document is looked for. *)
Inductive Path : str -> option str -> str -> Prop :=
| P_abs f base : Path ("/"%char :: f) base ("/"%char :: f)
| P_here f base : at_ f 0 <> "/"%char -> base = None \/ base = Some [] -> Path f base f
| P_in f d : at_ f 0 <> "/"%char -> d <> [] -> Path f (Some d) (d ++ B "/" ++ f).
(** The folder of a file. *)
Inductive Folder : str -> str -> Prop :=
| F_none name : ~ In "/"%char name -> Folder name (B ".")
| F_in a c n name : c <> "/"%char -> name <> [] -> ~ In "/"%char name -> Folder (a ++ [c] ++ repeat "/"%char (S n) ++ name) (a ++ [c])
| F_root n name : name <> [] -> ~ In "/"%char name -> Folder (repeat "/"%char (S n) ++ name) (B "/").
Definition Suffix (p e : str) : Prop := exists a, p = a ++ B "." ++ e /\ ~ In "."%char e.
Definition kinds : list (ftype * list string) :=
  [(Image, ["jpg"; "jpeg"; "png"; "gif"; "webp"; "svg"]); (CsvFile, ["csv"]); (TsvFile, ["tsv"]); (HtmlFile, ["html"; "htm"]);
   (Markdown, ["md"; "markdown"; "mmd"]); (CodeFile, ["c"; "h"; "cpp"; "py"; "js"; "java"; "swift"; "go"; "rs"; "sh"])]%string.
Inductive Kind (p : str) : ftype -> Prop :=
| K_known e k l x : Suffix p e -> In (k, l) kinds -> In x l -> map tolower e = B x -> Kind p k
| K_other e : Suffix p e -> (forall k l x, In (k, l) kinds -> In x l -> map tolower e <> B x) -> Kind p TextFile
| K_none : ~ In "."%char p -> Kind p TextFile.
Definition languages : list (string * string) :=
  [("c", "c"); ("h", "c"); ("cpp", "cpp"); ("cc", "cpp"); ("py", "python"); ("js", "javascript"); ("rb", "ruby"); ("sh", "bash")]%string.
Inductive Language (f : str) : str -> Prop :=
| L_known e x l : Suffix f e -> In (x, l) languages -> e = B x -> Language f (B l)
| L_other e : Suffix f e -> (forall x l, In (x, l) languages -> e <> B x) -> Language f e
| L_none : ~ In "."%char f -> Language f [].
