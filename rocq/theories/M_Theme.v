(** Styles of classes in a terminal theme: ensure_bold_prefix (src/ast_terminal.c 479-494), theme_style_for_span_classes (1092-1125), theme_style_for_node_attrs (1131-1176). Entries without a name or a style are not modelled: they are skipped by the code. *)
From Verif Require Import Base M_Style.

Definition theme := list (str * str).
(** src/ast_terminal.c 479-494; [None] is NULL *)
Definition bold (s : option str) : str := match s with Some (c :: r) => B "b " ++ c :: r | _ => B "b" end.
(** src/ast_terminal.c 1114-1121: the entries for one class *)
Fixpoint find (th : theme) (w : str) : option str :=
  match th with [] => None | (n, s) :: th => if seq_ n w then Some s else find th w end.
Fixpoint first_known (th : theme) (ws : list str) : option str :=
  match ws with [] => None | w :: ws => match find th w with Some s => Some s | None => first_known th ws end end.
(** src/ast_terminal.c 1092-1125; the words are cut as in apply_style_string *)
Definition class_style (th : theme) (classes : str) : option str := first_known th (words [] classes).
(** src/ast_terminal.c 1131-1176 *)
Fixpoint upto (stop : ascii -> bool) (s : str) : str := match s with [] => [] | c :: r => if stop c then [] else c :: upto stop r end.
Definition node_style (th : theme) (attrs : str) : option str :=
  match strstr (B "class=") attrs with
  | None => None
  | Some k =>
      let p := skipn (k + 6) attrs in
      let v := match p with
               | c :: r => if ceq c DQ || ceq c SQ then upto (ceq c) r else upto (fun d => isspace d || ceq d ">" || ceq d "/") p
               | [] => []
               end in
      match v with [] => None | _ => class_style th (firstn 255 v) end
  end.
