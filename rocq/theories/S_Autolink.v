(** What is said about addresses that become links, without the model. *)
From Verif Require Import Base.

Definition within (m s : str) : Prop := exists a b, s = a ++ m ++ b.
Definition white (c : ascii) : Prop := (9 <= code c <= 13)%N \/ c = SP.
(** Bytes an address consists of *)
Definition solid (c : ascii) : Prop := ~ white c /\ c <> "<"%char /\ c <> ">"%char.
Definition alnum (c : ascii) : Prop := (48 <= code c <= 57)%N \/ (65 <= code c <= 90)%N \/ (97 <= code c <= 122)%N.
Definition stop (c : ascii) : Prop := In c (B ".,;:").

Definition schemes : list str := [B "http://"; B "https://"; B "mailto:"].
Definition link (u h : str) : str := B "[" ++ u ++ B "](" ++ h ++ B ")".

(** The result differs from the text only in that some addresses are links. *)
Inductive Linked : str -> str -> Prop :=
| linked_end : Linked [] []
| linked_byte c s o : Linked s o -> Linked (c :: s) (c :: o)
| linked_bare m v s o : In m [B "http://"; B "https://"; B "mailto"] -> Forall solid (m ++ v) -> Linked s o -> Linked ((m ++ v) ++ s) (link (m ++ v) (m ++ v) ++ o)
| linked_angle m v s o : In m schemes -> ~ In ">"%char (m ++ v) -> Linked s o -> Linked (B "<" ++ (m ++ v) ++ B ">" ++ s) (link (m ++ v) (m ++ v) ++ o)
| linked_mail x d y s o : alnum d -> Forall solid (x ++ d :: "@"%char :: y) -> y <> [] -> Linked s o -> Linked ((x ++ d :: "@"%char :: y) ++ s) (link (x ++ d :: "@"%char :: y) (B "mailto:" ++ x ++ d :: "@"%char :: y) ++ o).

(** Text in which nothing is special: no backtick, bracket, brace, <, @, tab, no four spaces in a row and no scheme *)
Definition quiet (a : str) : Prop :=
  Forall (fun c => ~ In c (B "`[]{<@" ++ [TAB])) a /\ ~ within (B "    ") a /\ forall m, In m schemes -> ~ within m a.
(** A place where a word begins *)
Definition open_end (a : str) : Prop := a = [] \/ exists q w, a = q ++ [w] /\ white w.
(** What ends a word *)
Definition closes (b : str) : Prop := match b with [] => True | c :: _ => ~ solid c end.

(** An address that ends with no full stop, comma, semicolon or colon *)
Definition url (u : str) : Prop := exists m v c, In m schemes /\ u = m ++ v ++ [c] /\ Forall solid u /\ ~ stop c.
Definition mail (u : str) : Prop := exists x d h e y c, u = x ++ d :: "@"%char :: h ++ "."%char :: e :: y /\ Forall solid u /\ alnum d /\ ~ In "@"%char x
  /\ (exists f z, x ++ [d] = f :: z /\ alnum f) /\ Forall (fun c => alnum c \/ c = "-"%char \/ c = "_"%char) h /\ alnum e /\ (exists q, u = q ++ [c]) /\ ~ stop c /\ forall m r, In m schemes -> u <> m ++ r.

(** The words and the target of a link, the name of a tag or an attribute and the value of an attribute *)
Definition calls (x : str) : Prop := Forall (fun c => ~ In c (B "`[]{<@" ++ [NL])) x /\ forall m, In m schemes -> ~ within m x.
Definition dest (v : str) : Prop := Forall (fun c => ~ In c (B "`[](){@" ++ [NL])) v.
Definition ident (n : str) : Prop := n <> [] /\ Forall alnum n.
Definition value (v : str) : Prop := Forall (fun c => ~ In c (B "`[]{<>=@" ++ [DQ; NL])) v.
Definition tag (n k v : str) : str := B "<" ++ n ++ B " " ++ k ++ B "=" ++ [DQ] ++ v ++ [DQ] ++ B ">".
