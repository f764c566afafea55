(** Model of src/plugins.c: registration of the plugins found on disk, the run of
    one phase, and the declarative regular-expression replacement.

    What a manifest contains is the record [found]; reading directories and YAML
    is not modelled.  Allocation never fails. *)
From Verif Require Import Base M_Trans.

(** strcmp, as the sign of the result. *)
Fixpoint strcmp (a b : str) : comparison :=
  match a, b with
  | [], [] => Eq
  | [], _ => Lt
  | _, [] => Gt
  | x :: a', y :: b' =>
      match N.compare (code x) (code y) with Eq => strcmp a' b' | c => c end
  end.

(** The groups of a match: offsets into the text matched against. *)
Definition groups := nat -> option (nat * nat).

Inductive action :=
| Command (cmd : str) (dir : str) (support : option str)
| Regex (exec : str -> option groups) (template : str)
| Nothing.

Record plugin := mkp { p_id : str; p_prio : Z; p_act : action }.

Inductive phase := PreParse | Block | Inline | PostRender.

(** 152-159, plugin_phase_mask_from_string. *)
Definition phase_of (s : str) : option phase :=
  if seq_ s (B "pre_parse") then Some PreParse
  else if seq_ s (B "block") then Some Block
  else if seq_ s (B "inline") then Some Inline
  else if seq_ s (B "post_render") then Some PostRender
  else None.

(** 186-204, append_plugin_sorted: the loop behind the head, then the function. *)
Fixpoint insert_behind (p : plugin) (l : list plugin) : list plugin :=
  match l with
  | [] => [p]
  | q :: l' =>
      if ((p_prio q <? p_prio p)%Z ||
          (p_prio q =? p_prio p)%Z && match strcmp (p_id q) (p_id p) with Gt => false | _ => true end)
      then q :: insert_behind p l'
      else p :: l
  end.
Definition append_sorted (l : list plugin) (p : plugin) : list plugin :=
  match l with
  | [] => [p]
  | h :: l' =>
      if ((p_prio p <? p_prio h)%Z ||
          (p_prio h =? p_prio p)%Z && match strcmp (p_id h) (p_id p) with Gt => true | _ => false end)
      then p :: l
      else h :: insert_behind p l'
  end.

(** 206-212, plugin_id_exists. *)
Fixpoint id_exists (l : list plugin) (id : str) : bool :=
  match l with
  | [] => false
  | p :: l' => seq_ (p_id p) id || id_exists l' id
  end.

(** One manifest: its phase text, the plugin, and whether its pattern compiles. *)
Record found := mkf { f_phase : option str; f_plugin : plugin; f_compiles : bool }.

Record manager := mkm { m_pre : list plugin; m_post : list plugin }.

(** 465-541 (and 341-418 for the entries of a bundle). *)
Definition register (m : manager) (f : found) : manager :=
  match f_phase f with
  | None => m
  | Some s =>
      match phase_of s with
      | Some PreParse =>
          if negb (f_compiles f) then m
          else if id_exists (m_pre m) (p_id (f_plugin f)) then m
          else mkm (append_sorted (m_pre m) (f_plugin f)) (m_post m)
      | Some PostRender =>
          if negb (f_compiles f) then m
          else if id_exists (m_post m) (p_id (f_plugin f)) then m
          else mkm (m_pre m) (append_sorted (m_post m) (f_plugin f))
      | _ => m
      end
  end.

(** 566-638, apex_plugins_load: the manifests of all directories in the order in
    which they are read; [None] is the NULL manager. *)
Definition load (fs : list found) : option manager :=
  let m := fold_left register fs (mkm [] []) in
  match m_pre m, m_post m with
  | [], [] => None
  | _, _ => Some m
  end.

(** ** 640-744, apply_regex_replacement *)

(** 676-712: the template, with $0 to $9. *)
Fixpoint fill (g : groups) (cursor : str) (tpl : str) (w : wr) : wr :=
  match tpl with
  | [] => w
  | c :: tpl' =>
      match tpl' with
      | d :: tpl'' =>
          if ceq c "$" && isdigit d then
            match g (N.to_nat (code d - 48)) with
            | Some (s, e) => if s <=? e then fill g cursor tpl'' (append (firstn (e - s) (skipn s cursor)) w)
                             else fill g cursor tpl'' w
            | None => fill g cursor tpl'' w
            end
          else fill g cursor tpl' (append [c] w)
      | [] => append [c] w
      end
  end.

(** 656-729, the loop; [None] without fuel.  The boolean is [any_match]. *)
Fixpoint regex_loop (fuel : nat) (exec : str -> option groups) (tpl : str)
    (any : bool) (w : wr) (cursor : str) : option (bool * wr * str) :=
  match fuel with
  | 0 => None
  | S fuel =>
      match exec cursor with
      | None => Some (any, w, cursor)
      | Some g =>
          match g 0 with
          | None => Some (any, w, cursor)
          | Some (so, eo) =>
              let w1 := fill g cursor tpl (append (firstn so cursor) w) in
              match eo with
              | 0 =>
                  match cursor with
                  | [] => Some (true, w1, cursor)
                  | c :: cursor' => regex_loop fuel exec tpl true (append [c] w1) cursor'
                  end
              | _ => regex_loop fuel exec tpl true w1 (skipn eo cursor)
              end
          end
      end
  end.

(** 731-744. *)
Definition regex_finish (tail : str) (w : wr) : wr :=
  let n := length (w_out w) + length tail + 1 in
  let w1 := if w_cap w <? n then Wr n (w_out w) (w_rem w) (w_oob w) else w in
  w_term (w_store tail w1).

(** The result: [None] without fuel, [Some None] for NULL. *)
Definition regex_replace (exec : str -> option groups) (tpl input : str) : option (option wr) :=
  match regex_loop (S (length input)) exec tpl false (w_new (length input + 1) 0) input with
  | None => None
  | Some (false, _, _) => Some None
  | Some (true, w, cursor) => Some (Some (regex_finish cursor w))
  end.

(** ** 746-885, apex_plugins_run_text_phase *)
Definition env := str -> option str.
Definition setenv (k v : str) (e : env) : env := fun k' => if seq_ k k' then Some v else e k'.
Definition unsetenv (k : str) (e : env) : env := fun k' => if seq_ k k' then None else e k'.

(** 799-805, 835-844 and the like: set, and put back what was there. *)
Definition restore (k : str) (old : option str) (e : env) : env :=
  match old with Some v => setenv k v e | None => unsetenv k e end.

Definition PLUGIN_DIR := B "APEX_PLUGIN_DIR".
Definition SUPPORT_DIR := B "APEX_SUPPORT_DIR".
Definition FILE_PATH := B "APEX_FILE_PATH".

(** An external command: environment, command, phase name, plugin id, text. *)
Definition external := env -> str -> str -> str -> str -> option str.

(** One plugin: its output and the environment afterwards; the outer [None] is
    undefined behaviour in the replacement. *)
Definition run_plugin (X : external) (phase_name file : str) (p : plugin) (e : env) (cur : str)
  : option (option str * env) :=
  match p_act p with
  | Command cmd dir support =>
      let old_dir := e PLUGIN_DIR in
      let e1 := setenv PLUGIN_DIR dir e in
      let old_support := e1 SUPPORT_DIR in
      let e2 := match support with Some s => setenv SUPPORT_DIR s e1 | None => e1 end in
      let old_file := e2 FILE_PATH in
      let e3 := setenv FILE_PATH file e2 in
      let next := X e3 cmd phase_name (p_id p) cur in
      let e4 := restore PLUGIN_DIR old_dir e3 in
      let e5 := match support with Some _ => restore SUPPORT_DIR old_support e4 | None => e4 end in
      let e6 := restore FILE_PATH old_file e5 in
      Some (next, e6)
  | Regex exec tpl =>
      match regex_replace exec tpl cur with
      | None => None
      | Some None => Some (None, e)
      | Some (Some w) => if w_oob w then None else Some (Some (w_out w), e)
      end
  | Nothing => Some (None, e)
  end.

Fixpoint run_list (X : external) (phase_name file : str) (l : list plugin) (e : env) (cur : str)
  : option (str * env) :=
  match l with
  | [] => Some (cur, e)
  | p :: l' =>
      match run_plugin X phase_name file p e cur with
      | None => None
      | Some (next, e') =>
          run_list X phase_name file l' e' (match next with Some t => t | None => cur end)
      end
  end.

(** The text of the phase, [None] for NULL (unchanged), and the environment. *)
Definition run_phase (X : external) (file : str) (m : manager) (ph : phase) (e : env) (text : str)
  : option (option str * env) :=
  let (l, name) := match ph with
                   | PreParse => (m_pre m, B "pre_parse")
                   | PostRender => (m_post m, B "post_render")
                   | _ => ([], B "unknown")
                   end in
  match run_list X name file l e text with
  | None => None
  | Some (cur, e') => Some (if seq_ cur text then None else Some cur, e')
  end.
