(** Model of environment generation and of resolved contexts.
    Sources: crates/rez-next-context/src/environment.rs (CE), context.rs (CC), serialization.rs (CS),
    crates/rez-next-package/src/package/methods.rs (PM).
    Simplifications: texts are ASCII; the root of a package is the result of [Package::root]; joining paths and testing for files are
    parameters; the error of a failed generation is not told apart; the priority counter (i32) does not overflow (it counts four times the
    packages); the process environment is an argument. *)
From Verif Require Import Base Maps Sorting Rex_model Version_model Package_model Requirement_model.
Open Scope char_scope.

(** what the platform, the file system and the iteration order of the maps contribute *)
Record world := mkWorld {
  w_win : bool;                                             (* cfg!(windows) *)
  w_join : text -> text -> text;                            (* Path::join *)
  w_file : text -> bool;                                    (* Path::is_file *)
  w_expand : list (text * text) -> list (text * text);      (* order of the context variables in the Rex executor *)
  w_extra : list (text * text) -> list (text * text);       (* order of additional_env_vars *)
  w_keys : list (text * text) -> list (text * text)         (* order of the generated variables *)
}.

(** CE:27-38 [EnvOperation] *)
Inductive env_op := OSet (v : text) | OPrepend (v sep : text) | OAppend (v sep : text) | OUnset | OSetIfEmpty (v : text).
(** CE:42-51 [EnvVarDefinition] *)
Record env_def := mkDef { d_name : text; d_op : env_op; d_source : option text; d_priority : nat }.
(** the fields of [Package] that environment generation reads *)
Record epackage := mkEpkg {
  ep_name : text; ep_version : option text; ep_root : option text; ep_tools : list text;
  ep_pre : option text; ep_commands : option text; ep_post : option text }.
(** CC:84-93 [PathStrategy] *)
Inductive strategy := Prepend | Append | Replace | NoModify.
(** CC:67-80 [ContextConfig] *)
Record config := mkConfig {
  c_inherit : bool; c_extra : list (text * text); c_unset : list text; c_strategy : strategy }.

(** [str::to_ascii_uppercase] *)
Definition upper (s : text) : text := map to_upper s.
(** CE:546-552 [environment_key] *)
Definition environment_key (win : bool) (n : text) : text := if win then upper n else n.
(** CE:538-544 [get_path_separator] is [path_sep] of the Rex model; as a character *)
Definition sep_char (win : bool) : ascii := if win then ";" else ":".

(** CE:77-85: the comparison of two base variables on Windows *)
Definition base_cmp (a b : text * text) : comparison :=
  match text_cmp (upper (fst a)) (upper (fst b)) with
  | Eq => match text_eqb (fst a) (upper (fst a)), text_eqb (fst b) (upper (fst b)) with
          | false, true => Lt | true, false => Gt | _, _ => Eq end
  | c => c
  end.
(** CE:71-92 [with_base_environment]; [ord] is the order of the given map *)
Definition base_environment (win : bool) (ord : list (text * text) -> list (text * text)) (m : list (text * text)) : list (text * text) :=
  let entries := if win then sort_by base_cmp (ord m) else ord m in
  fold_left (fun acc (kv : text * text) => aput (environment_key win (fst kv)) (snd kv) acc) entries [].

(** CE:274-278 [package_root] *)
Definition package_root (p : epackage) : text :=
  match ep_root p with Some r => r | None => T "/packages/" ++ ep_name p end.
(** CE:172-199 [package_metadata_definitions] *)
Definition metadata (p : epackage) (prio : nat) : list env_def :=
  mkDef (upper (ep_name p) ++ T "_ROOT") (OSet (package_root p)) (Some (ep_name p)) prio ::
  match ep_version p with
  | Some v => [mkDef (upper (ep_name p) ++ T "_VERSION") (OSet v) (Some (ep_name p)) prio]
  | None => []
  end.
(** CE:113-116 *)
Fixpoint all_metadata (ps : list epackage) (prio : nat) : list env_def :=
  match ps with [] => [] | p :: ps' => metadata p prio ++ all_metadata ps' (S prio) end.

(** CE:227-258: the definition an action turns into *)
Definition action_def (win : bool) (a : action) : option (text * env_op) :=
  match a with
  | Setenv n v => Some (n, OSet v)
  | Unsetenv n => Some (n, OUnset)
  | PrependPath n v s => Some (n, OPrepend v (sep_of win s))
  | AppendPath n v s => Some (n, OAppend v (sep_of win s))
  | SetenvIfEmpty n v => Some (n, OSetIfEmpty v)
  | _ => None
  end.
(** CE:226-269: the loop over the actions *)
Fixpoint split_actions (win : bool) (name : text) (prio : nat) (l : list action) : list env_def * list action :=
  match l with
  | [] => ([], [])
  | a :: l' =>
      let '(ds, sh) := split_actions win name prio l' in
      match action_def win a with
      | Some (n, op) => (mkDef n op (Some name) prio :: ds, sh)
      | None => (ds, a :: sh)
      end
  end.
(** CE:202-272 [rex_effects] *)
Definition rex_effects (w : world) (p : epackage) (commands : text) (prio : nat) : option (list env_def * list action) :=
  let root := package_root p in
  let x := set_context_var new_exec (T "root") root in
  let x := match ep_version p with Some v => set_context_var x (T "version") v | None => x end in
  let x := set_context_var x (T "name") (ep_name p) in
  match execute (w_win w) (w_expand w) x commands (ep_name p) (Some root) (ep_version p) with
  | None => None
  | Some (x', _) => Some (split_actions (w_win w) (ep_name p) prio (map a_type (x_actions x')))
  end.
(** CE:128-135: one command phase over all packages *)
Fixpoint run_phase (w : world) (sel : epackage -> option text) (ps : list epackage) (prio : nat) : option (list env_def * list action) :=
  match ps with
  | [] => Some ([], [])
  | p :: ps' =>
      match match sel p with Some c => rex_effects w p c prio | None => Some ([], []) end with
      | None => None
      | Some (d, a) =>
          match run_phase w sel ps' (S prio) with
          | None => None
          | Some (d', a') => Some (d ++ d', a ++ a')
          end
      end
  end.
(** CE:122-136: the three phases *)
Fixpoint run_phases (w : world) (sels : list (epackage -> option text)) (ps : list epackage) (prio : nat) : option (list env_def * list action) :=
  match sels with
  | [] => Some ([], [])
  | sel :: sels' =>
      match run_phase w sel ps prio with
      | None => None
      | Some (d, a) =>
          match run_phases w sels' ps (prio + length ps) with
          | None => None
          | Some (d', a') => Some (d ++ d', a ++ a')
          end
      end
  end.
(** CE:300-337 [apply_env_definition] *)
Definition apply_def (win : bool) (m : list (text * text)) (d : env_def) : list (text * text) :=
  let name := environment_key win (d_name d) in
  match d_op d with
  | OSet v => aput name v m
  | OPrepend v sep => let cur := or_empty (aget name m) in aput name (if is_nil cur then v else v ++ sep ++ cur) m
  | OAppend v sep => let cur := or_empty (aget name m) in aput name (if is_nil cur then v else cur ++ sep ++ v) m
  | OUnset => adel name m
  | OSetIfEmpty v => if ahas name m then m else aput name v m
  end.

(** CE:284-297 [package_tool_path] *)
Definition tool_extensions : list text := [T ""; T ".exe"; T ".bat"; T ".cmd"; T ".com"].
(** CE:284-297, with the above *)
Definition tool_path (w : world) (p : epackage) : text :=
  let root := package_root p in
  if existsb (fun tool => existsb (fun ext => w_file w (w_join w root (tool ++ ext))) tool_extensions) (ep_tools p)
  then root else w_join w root (T "bin").
(** CE:349-359: the tool paths, each once *)
Definition tool_paths (w : world) (ps : list epackage) : list text :=
  fold_left (fun acc p => fold_left (fun acc _ => if mem_text (tool_path w p) acc then acc else acc ++ [tool_path w p]) (ep_tools p) acc) ps [].
(** CE:340-391 [apply_path_modifications] *)
Definition path_modifications (w : world) (c : config) (ps : list epackage) (m : list (text * text)) : list (text * text) :=
  match c_strategy c with
  | NoModify => m
  | st =>
      let paths := tool_paths w ps in
      if is_nil paths then m
      else
        let sep := path_sep (w_win w) in
        let seg := join sep paths in
        let key := environment_key (w_win w) (T "PATH") in
        let cur := or_empty (aget key m) in
        let new := match st with
                   | Prepend => if is_nil cur then seg else seg ++ sep ++ cur
                   | Append => if is_nil cur then seg else cur ++ sep ++ seg
                   | Replace => seg
                   | NoModify => cur
                   end in
        aput key new m
  end.

(** [eq_ignore_ascii_case] *)
Definition same_nocase (a b : text) : bool := text_eqb (map to_lower a) (map to_lower b).
(** CE:559-563: the key that holds the path *)
Definition path_key (w : world) (m : list (text * text)) : text :=
  match find (fun kv => same_nocase (fst kv) (T "PATH")) (w_keys w m) with
  | Some kv => fst kv
  | None => environment_key (w_win w) (T "PATH")
  end.
(** CE:572-576: what identifies an entry *)
Definition identity (win : bool) (e : text) : text :=
  if win then map to_lower (replace_char "/" (T "\") e) else e.
(** CE:568-579: the entries whose identity has not been seen *)
Fixpoint unseen (win : bool) (seen : list text) (l : list text) : list text :=
  match l with
  | [] => []
  | e :: l' => if mem_text (identity win e) seen then unseen win seen l' else e :: unseen win (identity win e :: seen) l'
  end.
(** CE:567-580: the normalised value *)
Definition normal_path (win : bool) (v : text) : text := join (path_sep win) (unseen win [] (split_on (sep_char win) v)).
(** CE:558-581 [normalize_environment_paths] *)
Definition normalize (w : world) (m : list (text * text)) : list (text * text) :=
  let key := path_key w m in
  match aget key m with
  | None => m
  | Some v => aput key (normal_path (w_win w) v) m
  end.

(** CE:138-146: the definitions of the configuration *)
Definition extra_defs (w : world) (c : config) (prio : nat) : list env_def :=
  map (fun kv => mkDef (fst kv) (OSet (snd kv)) None prio) (w_extra w (c_extra c)).
(** CE:149: stable sort by priority *)
Definition by_priority (l : list env_def) : list env_def := sort_by (fun a b => Nat.compare (d_priority a) (d_priority b)) l.
(** CE:113-146: all definitions and the remaining actions *)
Definition definitions (w : world) (c : config) (ps : list epackage) : option (list env_def * list action) :=
  let n := length ps in
  match run_phases w [ep_pre; ep_commands; ep_post] ps n with
  | None => None
  | Some (ds, sh) => Some (all_metadata ps 0 ++ ds ++ extra_defs w c (n + 3 * n), sh)
  end.
(** CE:103-170 [generate_rex_environment]; [base] is [base_env] *)
Definition generate (w : world) (c : config) (base : list (text * text)) (ps : list epackage) : option renv :=
  match definitions w c ps with
  | None => None
  | Some (ds, sh) =>
      let m := fold_left (apply_def (w_win w)) (by_priority ds) base in
      let m := path_modifications w c ps m in
      let m := fold_left (fun m n => adel (environment_key (w_win w) n) m) (c_unset c) m in
      let m := normalize w m in
      Some (apply (w_win w) (set_vars no_renv m) sh)
  end.

(** CE:516-523 [EnvDiff] *)
Record env_diff := mkDiff { f_added : list (text * text); f_modified : list (text * (text * text)); f_removed : list text }.
(** CE:480-511 [get_env_diff]; the keys of [env] are distinct, so every insertion is new *)
Definition get_env_diff (base env : list (text * text)) : env_diff :=
  mkDiff
    (flat_map (fun kv : text * text => match aget (fst kv) base with Some _ => [] | None => [kv] end) env)
    (flat_map (fun kv : text * text => match aget (fst kv) base with
                                       | Some b => if text_eqb b (snd kv) then [] else [(fst kv, (b, snd kv))]
                                       | None => [] end) env)
    (filter (fun k => negb (ahas k env)) (akeys base)).
(** CE:527-529 [is_empty], 532-534 [change_count] *)
Definition diff_is_empty (d : env_diff) : bool := is_nil (f_added d) && is_nil (f_modified d) && is_nil (f_removed d).
(** CE:527-529, with the above *)
Definition change_count (d : env_diff) : nat := length (f_added d) + length (f_modified d) + length (f_removed d).

(** ** Contexts *)
(** the fields of [ResolvedContext] (CC:14-50) and of its packages that validation and the queries read *)
Record cpackage := mkCpkg { cp_package : package; cp_build : list text; cp_private : list text }.
(** CC:14-50, with the above *)
Record context := mkContext {
  x_id : text; x_name : option text; x_requirements : list package_req; x_packages : list cpackage;
  x_platform : option text; x_arch : option text; x_config : config }.
(** CC:14-50, with the above *)
Definition cp_name (p : cpackage) : text := p_name (cp_package p).
(** PM:137-198 [Package::validate] *)
Definition package_valid (p : cpackage) : bool :=
  negb (is_nil (cp_name p)) &&
  forallb (fun c => is_alnum c || Ascii.eqb c "_" || Ascii.eqb c "-") (cp_name p) &&
  match p_version (cp_package p) with Some v => negb (is_nil (v_str v)) | None => true end &&
  forallb (fun r => negb (is_nil r)) (p_requires (cp_package p)) &&
  forallb (fun r => negb (is_nil r)) (cp_build p) &&
  forallb (fun r => negb (is_nil r)) (cp_private p) &&
  forallb (forallb (fun r => negb (is_nil r))) (p_variants (cp_package p)).
(** CC:131-133 [get_package] *)
Definition get_package (x : context) (n : text) : option cpackage := find (fun p => text_eqb (cp_name p) n) (x_packages x).
(** CC:221-233 [satisfies_requirement] *)
Definition satisfies (x : context) (r : package_req) : bool :=
  match find (fun p => text_eqb (cp_name p) (pr_name r)) (x_packages x) with
  | Some p => match p_version (cp_package p) with Some v => pkg_satisfied r v | None => true end
  | None => false
  end.
(** CC:262-281 [validate]; the message is not modelled *)
Definition validate (x : context) : bool := forallb (satisfies x) (x_requirements x) && forallb package_valid (x_packages x).
(** [Vec::dedup]: runs of equal elements become one *)
Fixpoint dedup (l : list text) : list text :=
  match l with
  | a :: ((b :: _) as l') => if text_eqb a b then dedup l' else a :: dedup l'
  | _ => l
  end.
(** CC:203-211 [get_all_tools] *)
Definition get_all_tools (x : context) : list text :=
  dedup (sort_by text_cmp (flat_map (fun p => p_tools (cp_package p)) (x_packages x))).
(** what is fed to the hasher, item by item; the standard library writes a terminator after each text and a tag before each option *)
Inductive hashed := HText (s : text) | HOption (o : option text) | HBool (b : bool).
(** CC:292-310 [get_fingerprint]: the items hashed; the hash itself is not modelled *)
Definition fingerprint (x : context) : list hashed :=
  map (fun r => HText (show_package_req r)) (x_requirements x) ++
  [HOption (x_platform x); HOption (x_arch x); HBool (c_inherit (x_config x))].

(** [Path::file_name] and [Path::extension] on a path with forward slashes whose last component is not special: the part after the last
    slash, and of it the part after the last dot unless the only dot comes first *)
Definition last_part (c : ascii) (s : text) : text := last (split_on c s) [].
(** crates/rez-next-context/src/serialization.rs:28 [Path::extension] *)
Definition extension (path : text) : option text :=
  let f := last_part "/" path in
  match split_on "." f with
  | [] | [_] => None
  | [[]; _] => None
  | l => Some (last l [])
  end.
(** CS:27-33 [from_extension], 339-341 [is_context_file] *)
Definition is_context_file (path : text) : bool :=
  match extension path with
  | Some e => text_eqb e (T "rxt") || text_eqb e (T "rxtb")
  | None => false
  end.
(** CS:331-336 [get_default_filename]; [None] is the panic of the slice *)
Definition default_filename (x : context) : option text :=
  match x_name x with
  | Some n => Some (map to_lower (replace_char " " (T "_") n) ++ T ".rxt")
  | None => if (length (x_id x) <? 8)%nat then None else Some (T "context_" ++ firstn 8 (x_id x) ++ T ".rxt")
  end.
(** CS:197-211 [export_to_env_file] *)
Definition env_file (ord : list (text * text) -> list (text * text)) (x : context) (vars : list (text * text)) : text :=
  T "# Generated by rez-core" ++ [NL] ++ T "# Context: " ++ x_id x ++ [NL] ++
  match x_name x with Some n => T "# Name: " ++ n ++ [NL] | None => [] end ++ [NL] ++
  flat_map (fun kv : text * text => fst kv ++ T "=" ++ snd kv ++ [NL]) (ord vars).
