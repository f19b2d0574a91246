(** Model of suites.
    Sources: crates/rez-next-suites/src/suite.rs (SU), suite_context.rs (SC), suite_tool.rs (ST), suite_manager.rs (SM).
    Simplifications: texts are ASCII; paths are texts joined with a slash; the YAML library is a pair of parameters; of the file system
    only the files written and read here exist; I/O errors are not modelled; the path and the status of a suite are left out. *)
From Verif Require Import Base Maps.
Open Scope char_scope.

(** SC:8-29 [SuiteContext]; aliases map the exposed name to the tool *)
Record sctx := mkSctx {
  sc_name : text; sc_requests : list text; sc_aliases : list (text * text); sc_hidden : list text;
  sc_prefix : option text; sc_priority : Z; sc_disabled : bool }.
(** ST:7-18 [ToolConflictMode] *)
Inductive mode := MError | MFirst | MLast | MPrefix.
(** SU:37-48 [Suite] *)
Record suite := mkSuite { su_contexts : list sctx; su_desc : option text; su_mode : mode }.
(** ST:36-49 [SuiteTool] *)
Record stool := mkStool { st_name : text; st_original : text; st_context : text; st_package : text; st_alias : bool; st_hidden : bool }.

(** SC:33-43 [SuiteContext::new] *)
Definition new_ctx (n : text) (rs : list text) : sctx := mkSctx n rs [] [] None 0 false.
(** SU:58-66 [Suite::new] *)
Definition new_suite : suite := mkSuite [] None MError.
(** SU:353-358 [is_valid_context_name] *)
Definition valid_name (n : text) : bool :=
  negb (is_nil n) && forallb (fun c => is_alnum c || Ascii.eqb c "-" || Ascii.eqb c "_") n.
(** the assignments to the field of SU:39, as in 105 and 116 *)
Definition set_contexts (s : suite) (cs : list sctx) : suite := mkSuite cs (su_desc s) (su_mode s).
(** SU:85-107 [add_context]; [None] is an error *)
Definition add_context (n : text) (rs : list text) (s : suite) : option suite :=
  if negb (valid_name n) then None
  else if existsb (fun c => text_eqb (sc_name c) n) (su_contexts s) then None
  else Some (set_contexts s (su_contexts s ++ [new_ctx n rs])).
(** SU:110-118 [remove_context]: the first one of that name *)
Fixpoint remove_first (n : text) (cs : list sctx) : option (list sctx) :=
  match cs with
  | [] => None
  | c :: cs' => if text_eqb (sc_name c) n then Some cs' else match remove_first n cs' with Some r => Some (c :: r) | None => None end
  end.
(** SU:110-118, with the above *)
Definition remove_context (n : text) (s : suite) : option suite :=
  match remove_first n (su_contexts s) with Some cs => Some (set_contexts s cs) | None => None end.
(** SU:121-123 [get_context] *)
Definition get_context (n : text) (s : suite) : option sctx := find (fun c => text_eqb (sc_name c) n) (su_contexts s).
(** SU:126-128 [get_context_mut], with the change made through the reference *)
Fixpoint modify_first (n : text) (f : sctx -> sctx) (cs : list sctx) : option (list sctx) :=
  match cs with
  | [] => None
  | c :: cs' => if text_eqb (sc_name c) n then Some (f c :: cs') else match modify_first n f cs' with Some r => Some (c :: r) | None => None end
  end.
(** SU:126-128, with the above *)
Definition modify_context (n : text) (f : sctx -> sctx) (s : suite) : option suite :=
  match modify_first n f (su_contexts s) with Some cs => Some (set_contexts s cs) | None => None end.
(** SC:46-48 [alias_tool] *)
Definition ctx_alias (a t : text) (c : sctx) : sctx :=
  mkSctx (sc_name c) (sc_requests c) (aput a t (sc_aliases c)) (sc_hidden c) (sc_prefix c) (sc_priority c) (sc_disabled c).
(** SC:51-56 [hide_tool] *)
Definition ctx_hide (t : text) (c : sctx) : sctx :=
  mkSctx (sc_name c) (sc_requests c) (sc_aliases c) (if mem_text t (sc_hidden c) then sc_hidden c else sc_hidden c ++ [t])
    (sc_prefix c) (sc_priority c) (sc_disabled c).
(** SU:141-152 [alias_tool], 155-161 [hide_tool] *)
Definition alias_tool (n a t : text) (s : suite) : option suite := modify_context n (ctx_alias a t) s.
(** SU:141-152, with the above *)
Definition hide_tool (n t : text) (s : suite) : option suite := modify_context n (ctx_hide t) s.

(** ST:52-70 [SuiteTool::new] *)
Definition new_tool (n o c p : text) : stool := mkStool n o c p (negb (text_eqb n o)) false.
(** SC:70-72 [is_tool_visible] *)
Definition visible (c : sctx) (t : text) : bool := negb (mem_text t (sc_hidden c)).
(** SU:187, 220: the package of a context is its first request *)
Definition first_request (c : sctx) : text := match sc_requests c with r :: _ => r | [] => [] end.
(** SU:166, 201-206: the result of the table: the tools, or the error with the tool and the text listing the contexts *)
Inductive table := Tools (m : list (text * stool)) | Conflict (tool contexts : text).
(** SU:183-227: one alias; the list of conflicts is only read when it has just been created *)
Definition add_tool (md : mode) (c : sctx) (m : list (text * stool)) (a o : text) : table :=
  let tool := new_tool a o (sc_name c) (first_request c) in
  match aget a m with
  | Some existing =>
      match md with
      | MError => Conflict a (st_context existing ++ T ", " ++ sc_name c)
      | MFirst => Tools m
      | MLast => Tools (aput a tool m)
      | MPrefix => let p := sc_name c ++ T "_" ++ a in Tools (aput p (new_tool p o (sc_name c) (first_request c)) m)
      end
  | None => Tools (aput a tool m)
  end.
(** SU:178-228: the aliases of one context *)
Fixpoint add_aliases (md : mode) (c : sctx) (l : list (text * text)) (m : list (text * stool)) : table :=
  match l with
  | [] => Tools m
  | (a, o) :: l' =>
      if visible c o then match add_tool md c m a o with Tools m' => add_aliases md c l' m' | e => e end
      else add_aliases md c l' m
  end.
(** SU:170-229: the contexts; [ord i] is the order of the alias map of the context in position [i] *)
Fixpoint add_contexts (md : mode) (ord : nat -> list (text * text) -> list (text * text)) (i : nat) (cs : list sctx) (m : list (text * stool)) : table :=
  match cs with
  | [] => Tools m
  | c :: cs' =>
      if sc_disabled c then add_contexts md ord (S i) cs' m
      else match add_aliases md c (ord i (sc_aliases c)) m with Tools m' => add_contexts md ord (S i) cs' m' | e => e end
  end.
(** SU:166-232 [get_tools] *)
Definition get_tools (ord : nat -> list (text * text) -> list (text * text)) (s : suite) : table := add_contexts (su_mode s) ord 0 (su_contexts s) [].

(** ** Files *)
(** SU:25-31 [SuiteFile] *)
Record suite_file := mkSfile { sf_contexts : list sctx; sf_desc : option text; sf_mode : option text }.
(** SU:244: the debug text of the mode in lower case *)
Definition mode_text (m : mode) : text := match m with MError => T "error" | MFirst => T "first" | MLast => T "last" | MPrefix => T "prefix" end.
(** ST:22-31 [from_str] *)
Definition parse_mode (s : text) : option mode :=
  let s := map to_lower s in
  if text_eqb s (T "error") then Some MError else if text_eqb s (T "first") then Some MFirst
  else if text_eqb s (T "last") then Some MLast else if text_eqb s (T "prefix") then Some MPrefix else None.
(** the files by path, as the calls of SU:251, 259, 276 see them *)
Definition disk := list (text * text).
(** SU:250, 268 *)
Definition yaml_path (p : text) : text := p ++ T "/suite.yaml".
(** SU:258 *)
Definition marker_path (p : text) : text := p ++ T "/.rez_suite".
(** SU:241-245 *)
Definition to_file (s : suite) : suite_file := mkSfile (su_contexts s) (su_desc s) (Some (mode_text (su_mode s))).
(** SU:237-263 [save], as the states of the disk after each step: the file is emptied, written, the marker is written *)
Definition save_steps (write : suite_file -> text) (p : text) (s : suite) (d : disk) : list disk :=
  let d1 := aput (yaml_path p) [] d in
  let d2 := aput (yaml_path p) (write (to_file s)) d1 in
  [d; d1; d2; aput (marker_path p) [] d2].
(** SU:237-263, with the above *)
Definition save (write : suite_file -> text) (p : text) (s : suite) (d : disk) : disk := last (save_steps write p s d) d.
(** SU:280-285 *)
Definition file_mode (f : suite_file) : mode :=
  match parse_mode (match sf_mode f with Some t => t | None => T "error" end) with Some m => m | None => MError end.
(** SU:266-294 [load] *)
Definition load (read : text -> option suite_file) (p : text) (d : disk) : option suite :=
  match aget (yaml_path p) d with
  | None => None
  | Some t => match read t with Some f => Some (mkSuite (sf_contexts f) (sf_desc f) (file_mode f)) | None => None end
  end.
(** SU:297-300 [is_suite] *)
Definition is_suite (p : text) (d : disk) : bool := ahas (yaml_path p) d || ahas (marker_path p) d.
(** SM:54-62 [load_suite] *)
Fixpoint load_suite (read : text -> option suite_file) (paths : list text) (n : text) (d : disk) : option suite :=
  match paths with
  | [] => None
  | b :: bs => let p := b ++ T "/" ++ n in if is_suite p d then load read p d else load_suite read bs n d
  end.
