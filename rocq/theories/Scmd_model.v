(** Model of the suite commands.
    Source: src/cli/commands/suites.rs (SS); suites and their files are those of Suite_model, crates/rez-next-suites/src/suite.rs (SU).
    Simplifications: those of Suite_model; what is printed is left out except for the rows of the tools command, without the padding. *)
From Verif Require Import Base Maps Sorting Suite_model.
Open Scope char_scope.

(** SS:85-105 [AddContextArgs] *)
Record add_args := mkAdd { a_suite : text; a_name : text; a_requests : list text; a_prefix : option text; a_priority : Z }.
(** SS:25-53 [SuitesCommand], the commands that write; SS:56-68, 108-116, 119-135, 138-150: their arguments *)
Inductive command :=
| Create (p : text) (description : option text) (conflict_mode : text)
| AddContext (a : add_args)
| RemoveContext (p n : text)
| AliasTool (p n alias tool : text)
| HideTool (p n tool : text).

Section Commands.
(** the YAML library, SU:247, 278 *)
Variable write : suite_file -> text.
Variable read : text -> option suite_file.

(** SS:195-212 [cmd_create]: whether it went well, and the disk *)
Definition cmd_create (p : text) (description : option text) (conflict_mode : text) (d : disk) : bool * disk :=
  match parse_mode conflict_mode with
  | Some m => (true, save write p (mkSuite (su_contexts new_suite) description m) d)
  | None => (false, d)
  end.
(** SS:252-253, 265-267, and likewise 278-287, 294-303, 313-322: a suite is loaded, changed and saved where it was; the path is always
    there, SU:291 *)
Definition change (p : text) (f : suite -> option suite) (d : disk) : bool * disk :=
  match load read p d with
  | Some s => match f s with Some s' => (true, save write p s' d) | None => (false, d) end
  | None => (false, d)
  end.
(** SS:262 *)
Definition ctx_prefix (x : text) (c : sctx) : sctx :=
  mkSctx (sc_name c) (sc_requests c) (sc_aliases c) (sc_hidden c) (Some x) (sc_priority c) (sc_disabled c).
(** SS:255-263: the priority is not read *)
Definition add_with_prefix (a : add_args) (s : suite) : option suite :=
  match add_context (a_name a) (a_requests a) s with
  | None => None
  | Some s' =>
      match a_prefix a with
      | Some x => match modify_context (a_name a) (ctx_prefix x) s' with Some s'' => Some s'' | None => Some s' end
      | None => Some s'
      end
  end.
(** SS:251-275 [cmd_add_context] *)
Definition cmd_add_context (a : add_args) (d : disk) : bool * disk := change (a_suite a) (add_with_prefix a) d.
(** SS:277-291 [cmd_remove_context] *)
Definition cmd_remove_context (p n : text) (d : disk) : bool * disk := change p (remove_context n) d.
(** SS:293-310 [cmd_alias_tool] *)
Definition cmd_alias_tool (p n a t : text) (d : disk) : bool * disk := change p (alias_tool n a t) d.
(** SS:312-329 [cmd_hide_tool] *)
Definition cmd_hide_tool (p n t : text) (d : disk) : bool * disk := change p (hide_tool n t) d.
(** SS:164-181 [execute] *)
Definition execute (c : command) (d : disk) : bool * disk :=
  match c with
  | Create p x m => cmd_create p x m d
  | AddContext a => cmd_add_context a d
  | RemoveContext p n => cmd_remove_context p n d
  | AliasTool p n a t => cmd_alias_tool p n a t d
  | HideTool p n t => cmd_hide_tool p n t d
  end.
(** SS:164-181: the disk after several commands, one after another, whether they go well or not *)
Fixpoint session (l : list command) (d : disk) : list bool * disk :=
  match l with
  | [] => ([], d)
  | c :: l' => let '(ok, d') := execute c d in let '(oks, d'') := session l' d' in (ok :: oks, d'')
  end.
(** SS:331-362 [cmd_tools]: the rows with name, context and package; [ord] are the orders of the alias maps and [mo] that of the tools *)
Definition cmd_tools (ord : nat -> list (text * text) -> list (text * text)) (mo : list stool -> list stool) (p : text) (d : disk) : option (list (text * text * text)) :=
  match load read p d with
  | Some s =>
      match get_tools ord s with
      | Tools m => Some (map (fun t => (st_name t, st_context t, st_package t)) (sort_by (fun x y => text_cmp (st_name x) (st_name y)) (mo (map snd m))))
      | Conflict _ _ => None
      end
  | None => None
  end.
End Commands.
