(** Model of running the tests of a package, of running commands in a context, and of completing command lines.
    Sources: src/cli/commands/test.rs (CT), crates/rez-next-package/src/package/test_runner.rs (TR), crates/rez-next-context/src/shell.rs (SH) and
    execution.rs (EX), src/cli/commands/complete.rs (CO), crates/rez-next-util/src/which.rs (WH).
    Simplifications: texts are ASCII, but for the cursor in a line, where bytes of more than 127 are told apart; a regular expression made of letters, dots and
    stars is modelled, any other is a parameter; what a command does is a function of the command and the world; printing, times and the verbose levels are left
    out; paths are those of Unix; on disk, links are not followed; loading a package file, resolving and generating an environment are parameters;
    the name asked for is one part of a path. *)
From Verif Require Import Base Maps Sorting Files_model Query_model.
Open Scope string_scope. Open Scope list_scope.

(** [str::contains] with a character *)
Definition has_char (c : ascii) (s : text) : bool := existsb (Ascii.eqb c) s.
(** CT:539, TR:426: a code as text *)
Definition show_code (z : Z) : text := match z with Zneg p => T "-" ++ show_N (Npos p) | _ => show_N (Z.to_N z) end.
(** ** Which tests are run *)
(** CT:368-369, TR:254-255: the pieces of a regular expression *)
Inductive piece := Lit (c : ascii) | AnyOne | AnyRun.
(** CT:368, TR:254: a star becomes a run of any characters, a dot is any character *)
Definition piece_of (c : ascii) : piece := if Ascii.eqb c "*" then AnyRun else if Ascii.eqb c "." then AnyOne else Lit c.
(** CT:369, TR:255: the characters with another meaning in regular expressions *)
Definition is_meta (c : ascii) : bool := existsb (Ascii.eqb c) (T "\+?()|[]{}^$").
(** regex: a dot is anything but the end of a line *)
Definition dotted (c : ascii) : bool := negb (Ascii.eqb c "010").
(** TR:255-260, regex [is_match] between the start and the end of the text *)
Fixpoint whole (ps : list piece) (t : text) {struct ps} : bool :=
  match ps with
  | [] => is_nil t
  | Lit c :: r => match t with d :: u => Ascii.eqb c d && whole r u | [] => false end
  | AnyOne :: r => match t with d :: u => dotted d && whole r u | [] => false end
  | AnyRun :: r => (fix from (t : text) : bool := whole r t || match t with d :: u => dotted d && from u | [] => false end) t
  end.
(** CT:374, regex [is_match] from here on *)
Fixpoint begins (ps : list piece) (t : text) {struct ps} : bool :=
  match ps with
  | [] => true
  | Lit c :: r => match t with d :: u => Ascii.eqb c d && begins r u | [] => false end
  | AnyOne :: r => match t with d :: u => dotted d && begins r u | [] => false end
  | AnyRun :: r => (fix from (t : text) : bool := begins r t || match t with d :: u => dotted d && from u | [] => false end) t
  end.
(** CT:374, regex [is_match] anywhere in the text *)
Fixpoint within (ps : list piece) (t : text) : bool := begins ps t || match t with _ :: u => within ps u | [] => false end.
Section Names.
(** regex [Regex::new] for other patterns: what they match, if they can be read *)
Variable other : text -> option (text -> bool).
(** CT:367-371 (not between the ends), TR:252-257 (between the ends): what a pattern with a star matches *)
Definition matcher (ends : bool) (p : text) : option (text -> bool) :=
  if existsb is_meta p then other p else Some ((if ends then whole else within) (map piece_of p)).
(** CT:346-354 [get_test_names], TR:223-231 *)
Definition test_names (tests : list (text * text)) : list text := sort_by text_cmp (akeys tests).
(** CT:373-380, TR:259-266: a name is added if it is not there yet *)
Definition add_name (acc : list text) (n : text) : list text := if mem_text n acc then acc else acc ++ [n].
(** CT:366-381, TR:251-267: one after another *)
Fixpoint pick_names (ends : bool) (available requested acc : list text) : option (list text) :=
  match requested with
  | [] => Some acc
  | p :: r =>
    if has_char "*" p then
      match matcher ends p with
      | Some f => pick_names ends available r (fold_left add_name (filter f available) acc)
      | None => None
      end
    else pick_names ends available r (if mem_text p available then add_name acc p else acc)
  end.
(** CT:357-384 [find_requested_test_names], TR:242-270 *)
Definition find_names (ends : bool) (tests : list (text * text)) (requested : list text) : option (list text) :=
  match requested with [] => Some (test_names tests) | _ => pick_names ends (test_names tests) requested [] end.
End Names.

(** ** Running them *)
(** CT:73-78 [TestStatus], TR:23-32 *)
Inductive tstatus := TPassed | TFailed | TSkipped | TError.
(** std::process [output]: a command could not be started, or ended with a code, or by a signal *)
Inductive ended := NoStart (e : text) | Code (z : Z) (out err : text) | Signal (out err : text).
(** CT:80-89 [TestResult], TR:65-81 *)
Record tresult := mkTresult { tr_name : text; tr_status : tstatus; tr_out : text; tr_err : option text; tr_code : Z }.
Section Run.
Variable W : Type.
(** CT:506-515, TR:398-403: the command is run *)
Variable run : text -> W -> W * ended.
(** CT:517-553, TR:405-440: what the end of a command means *)
Definition judge (e : ended) : tstatus * text * option text * Z :=
  match e with
  | Code 0 o er => (TPassed, o, if is_nil er then None else Some er, 0%Z)
  | Code z o er => (TFailed, o, Some (if is_nil er then T "Process exited with code " ++ show_code z else er), z)
  | Signal o er => (TFailed, o, Some (if is_nil er then T "Process exited with code " ++ show_code (-1) else er), (-1)%Z)
  | NoStart er => (TError, [], Some (T "Failed to execute test command: " ++ er), (-1)%Z)
  end.
(** CT:387-473 [run_test], TR:281-363 with the reason for skipping, and whether it is a dry run *)
Definition run_test (tests : list (text * text)) (skip : option text) (dry : bool) (n : text) (w : W) : W * tresult :=
  match skip with
  | Some r => (w, mkTresult n TSkipped r None 0)
  | None =>
    if dry then (w, mkTresult n TSkipped (T "Dry run - test not executed") None 0)
    else match aget n tests with
         | Some c => let (w, e) := run c w in let '(s, o, er, z) := judge e in (w, mkTresult n s o er z)
         | None => (w, mkTresult n TError [] (Some (T "Test '" ++ n ++ T "' not found in package definition")) (-1))
         end
  end.
(** CT:706-715: the tests, the results so far and the code so far *)
Fixpoint run_all (tests : list (text * text)) (skip : option text) (dry stop : bool) (ns : list text) (w : W) (rs : list tresult) (code : Z) : W * list tresult * Z :=
  match ns with
  | [] => (w, rs, code)
  | n :: r =>
    let (w, t) := run_test tests skip dry n w in
    let code := if negb (tr_code t =? 0)%Z && (code =? 0)%Z then tr_code t else code in
    if stop && negb (tr_code t =? 0)%Z then (w, rs ++ [t], code) else run_all tests skip dry stop r w (rs ++ [t]) code
  end.
(** CT:722-724 [exit]: the code that the caller sees *)
Definition seen_code (z : Z) : Z := (z mod 256)%Z.
(** CT:587-591, TR:474-479: the last line of the summary, if there is one *)
Definition verdict (rs : list tresult) : option bool :=
  if existsb (fun r => match tr_status r with TFailed | TError => true | _ => false end) rs then Some false else if is_nil rs then None else Some true.
(** CT:557-585, TR:443-472: the numbers of the summary *)
Definition count_status (s : tstatus) (rs : list tresult) : nat :=
  length (filter (fun r => match s, tr_status r with TPassed, TPassed | TFailed, TFailed | TSkipped, TSkipped | TError, TError => true | _, _ => false end) rs).
(** CT:24-69 [TestArgs], the part that matters once the package is found *)
Record targs := mkTargs { ta_names : list text; ta_list : bool; ta_dry : bool; ta_stop : bool }.
(** CT:657-727 [execute] after the package is loaded: the world, the results, and the code or an error *)
Definition run_command (other : text -> option (text -> bool)) (a : targs) (tests : list (text * text)) (skip : option text) (w : W) : W * list tresult * option Z :=
  if is_nil (test_names tests) then (w, [], Some 0%Z)
  else if ta_list a then (w, [], Some 0%Z)
  else match find_names other false tests (ta_names a) with
       | None => (w, [], None)
       | Some [] => (w, [], Some 0%Z)
       | Some ns => let '(w, rs, z) := run_all tests skip (ta_dry a) (ta_stop a) ns w [] 0 in (w, rs, Some (seen_code z))
       end.
End Run.
Arguments run_test {W}. Arguments run_all {W}. Arguments run_command {W}.
(** TR:191-203: how the library reads the command of a test: split into words, or given to the shell *)
Inductive tcommand := Shell (c : text) | Words (ws : list text).
(** str::split_whitespace *)
Fixpoint split_ws_from (cur : text) (s : text) : list text :=
  match s with
  | [] => if is_nil cur then [] else [rev cur]
  | c :: r => if is_ws c then (if is_nil cur then split_ws_from [] r else rev cur :: split_ws_from [] r) else split_ws_from (c :: cur) r
  end.
(** str::split_whitespace *)
Definition split_ws (s : text) : list text := split_ws_from [] s.
(** TR:193-203 *)
Definition lib_command (c : text) : tcommand := if has_char " " c then Words (split_ws c) else Shell c.
(** TR:370-390: the program and its arguments; [None] is the error of an empty command *)
Definition lib_argv (c : text) : option (list text) :=
  match lib_command c with Shell c => Some [T "sh"; T "-c"; c] | Words [] => None | Words ws => Some ws end.
(** CT:233-234, 480-488: the command line tool gives every command to the shell *)
Definition cli_argv (c : text) : list text := [T "sh"; T "-c"; c].

(** ** Which package is tested *)
(** CT:165-177: the paths that are searched; [local] is the path of the local packages *)
Definition test_paths (given config : list path) (local : path) (no_local : bool) : list path :=
  fold_left (fun acc p => if (negb no_local || negb (leads p local && leads local p)) && negb (existsb (fun q => leads p q && leads q p) acc) then acc ++ [p] else acc) config given.
(** CT:198-204: the directories of a family, in the order of their names *)
Definition version_dirs (y : node) : list text :=
  match y with Dir es => sort_by text_cmp (map fst (filter (fun e => match snd e with Dir _ => true | _ => false end) es)) | _ => [] end.
(** CT:193-217: the first path with a package file in its last directory *)
Fixpoint locate_in (spec : text) (paths : list path) (x : node) : option path :=
  match paths with
  | [] => None
  | p :: r =>
    match get (p ++ [spec]) x with
    | Some y =>
      match rev (version_dirs y) with
      | v :: _ => if exists_at (p ++ [spec; v; T "package.py"]) x then Some (p ++ [spec; v]) else locate_in spec r x
      | [] => locate_in spec r x
      end
    | None => locate_in spec r x
    end
  end.
(** CT:159-222 [load_test_definitions]: the directory of the package, and whether it is from a repository *)
Definition locate (wd : path) (spec : text) (paths : list path) (x : node) : option (path * bool) :=
  if exists_at (wd ++ [T "package.py"]) x then Some (wd, false)
  else match locate_in spec paths x with Some d => Some (d, true) | None => None end.
(** CT:283-336, 608-651: the parts of a package that matter for its test environment *)
Record tpkg := mkTpkg { tp_name : text; tp_version : option text; tp_requires : list text; tp_variants : list (list text); tp_pre_test : option text; tp_post : option text }.
(** package [qualified_name] *)
Definition qualified (p : tpkg) : text := match tp_version p with Some v => tp_name p ++ T "-" ++ v | None => tp_name p end.
(** CT:608-641 [test_requirement_sets] *)
Definition requirement_sets (p : tpkg) (extra : list text) (from_repository : bool) : list (list text) :=
  if from_repository then [qualified p :: extra]
  else match tp_variants p with [] => [tp_requires p ++ extra] | vs => map (fun v => (tp_requires p ++ extra) ++ v) vs end.
(** CT:643-651 [apply_pre_test_commands] *)
Definition with_pre_test (p : tpkg) : tpkg :=
  match tp_pre_test p with
  | None => p
  | Some c => mkTpkg (tp_name p) (tp_version p) (tp_requires p) (tp_variants p) None
                     (Some match tp_post p with Some o => o ++ ["010"%char] ++ c | None => c end)
  end.
Section Environment.
(** the solver: the packages of an environment, if there is one *)
Variable resolve : list text -> option (list tpkg).
(** CT:595-606 [parse_test_requirements]: whether a requirement can be read *)
Variable parses : text -> bool.
(** CT:283-320: the first set of requirements with a solution; an empty one needs none, and one that cannot be read ends the search *)
Fixpoint first_solution (sets : list (list text)) : option (list tpkg) :=
  match sets with
  | [] => None
  | [] :: _ => Some []
  | s :: r => if forallb parses s then match resolve s with Some ps => Some ps | None => first_solution r end else None
  end.
(** CT:321-331: the first package of that name gets its commands *)
Fixpoint prepare_first (n : text) (ps : list tpkg) : option (list tpkg) :=
  match ps with
  | [] => None
  | p :: r => if text_eqb (tp_name p) n then Some (with_pre_test p :: r) else match prepare_first n r with Some r => Some (p :: r) | None => None end
  end.
(** CT:272-341: the packages whose environment the tests get *)
Definition test_packages (p : tpkg) (extra : list text) (from_repository : bool) : option (list tpkg) :=
  match first_solution (requirement_sets p extra from_repository) with
  | None => None
  | Some ps => if from_repository then prepare_first (tp_name p) ps else Some (ps ++ [with_pre_test p])
  end.
End Environment.
(** CT:248-270: with [--inplace], whether the tests can run in the current environment, and where *)
Definition inplace_root (root version expected : option text) (is_dir : text -> bool) : option text :=
  match root with
  | Some r =>
    if is_dir r && match expected, version with Some a, Some b => text_eqb a b | _, _ => true end then Some r else None
  | None => None
  end.

(** ** Commands in a context *)
(** SH:12-23 [ShellType] *)
Inductive shell := Bash | Zsh | Fish | Cmd | PowerShell.
(** SH:27-35 [executable] *)
Definition executable (s : shell) : text := match s with Bash => T "bash" | Zsh => T "zsh" | Fish => T "fish" | Cmd => T "cmd" | PowerShell => T "powershell" end.
(** SH:103-119 [detect] on Unix *)
Definition detect_shell (var : option text) : shell :=
  match var with
  | Some s => if contains_text (T "bash") s then Bash else if contains_text (T "zsh") s then Zsh else if contains_text (T "fish") s then Fish else Bash
  | None => Bash
  end.
(** [Path::file_name] of a text without trailing separators *)
Definition file_name_of (p : text) : text := last (split_on "/" p) [].
(** SH:63-79: the first directory of PATH with a file of that name *)
Definition on_path (s : shell) (dirs : list text) (is_file : text -> bool) : text :=
  match filter is_file (map (fun d => path_join d (executable s)) dirs) with f :: _ => f | [] => executable s end.
(** SH:41-80 [executable_path] on Unix, with the values of COMSPEC and SHELL and the directories of PATH *)
Definition executable_path (s : shell) (comspec shellvar : option text) (dirs : list text) (is_file : text -> bool) : text :=
  match (match s, comspec with Cmd, Some c => if is_file c then Some c else None | _, _ => None end) with
  | Some c => c
  | None =>
    match shellvar with
    | Some p => if is_file p && text_eqb (file_name_of p) (executable s) then p else on_path s dirs is_file
    | None => on_path s dirs is_file
    end
  end.
(** EX:13-26 [ExecutionConfig], SH:155-166 [ShellExecutor]: what matters for the environment *)
Record econfig := mkEconfig { ec_shell : shell; ec_dir : option text; ec_inherit : bool; ec_more : list (text * text) }.
(** SH:155-166 *)
Record executor := mkExecutor { ex_shell : shell; ex_dir : option text; ex_inherit : bool; ex_env : list (text * text) }.
(** HashMap::extend, [Command::envs]: later values win *)
Definition extend (m more : list (text * text)) : list (text * text) := fold_left (fun m kv => aput (fst kv) (snd kv) m) more m.
(** EX:60-82 [with_config] *)
Definition with_config (context : list (text * text)) (c : econfig) : executor :=
  mkExecutor (ec_shell c) (ec_dir c) (ec_inherit c) (extend context (ec_more c)).
(** EX:188-205 [set_config]: an executor is made anew *)
Definition set_config (context : list (text * text)) (c : econfig) (old : executor) : executor :=
  let e := mkExecutor (ec_shell c) None (ec_inherit c) (extend context (ec_more c)) in
  match ec_dir c with Some d => mkExecutor (ex_shell e) (Some d) (ex_inherit e) (ex_env e) | None => e end.
(** SH:235-241, 281-287: the environment of a command, with that of the parent *)
Definition command_env (e : executor) (parent : list (text * text)) : list (text * text) := extend (if ex_inherit e then parent else []) (ex_env e).
(** SH:349-352 [execute_script] and 390-393 [start_interactive_shell]: the environment of a script and of a shell *)
Definition script_env (e : executor) (parent : list (text * text)) : list (text * text) := extend parent (ex_env e).
(** EX:127-146 [spawn_process]: the environment of a process *)
Definition process_env (context : list (text * text)) (c : econfig) (parent : list (text * text)) : list (text * text) :=
  extend (extend (if ec_inherit c then parent else []) context) (ec_more c).
Section Batch.
Variable W : Type.
(** SH:210-266 [execute]: a command gives a code, or an error *)
Variable execute : text -> W -> W * (Z + text).
(** SH:297-309 [execute_batch] *)
Fixpoint execute_batch (cs : list text) (w : W) (done : list Z) : W * (list Z + text) :=
  match cs with
  | [] => (w, inl done)
  | c :: r => match execute c w with (w, inl z) => execute_batch r w (done ++ [z]) | (w, inr e) => (w, inr e) end
  end.
End Batch.
Arguments execute_batch {W}.
(** SH:243-256 [execute]: a command that does things at certain times, and ends; the time of the answer, whether it is an error, and what is done in the end; tokio
    does not kill a child whose output is no longer awaited unless [kill_on_drop] is set *)
Definition execute_timed (limit : nat) (doings : list (nat * text)) (finish : nat) : nat * bool * list (nat * text) :=
  if (finish <=? limit)%nat then (finish, true, doings) else (limit, false, doings).

(** ** Completion *)
(** CO:295-326 [get_subcommand_names] *)
Definition subcommands : list text :=
  map T ["env"; "solve"; "build"; "release"; "status"; "search"; "view"; "diff"; "cp"; "mv"; "rm"; "bundle"; "config"; "selftest"; "gui"; "context"; "suites";
         "interpret"; "depends"; "pip"; "forward"; "benchmark"; "complete"; "source"; "bind"; "test"; "pkg-cache"; "plugins"].
(** CO:280 *)
Definition package_subcommands : list text := map T ["env"; "solve"; "search"; "depends"; "build"; "release"].
(** [str::is_char_boundary]: no byte within a character *)
Definition boundary (p : nat) (line : text) : bool := match nth_error line p with Some c => negb ((128 <=? code c)%N && (code c <? 192)%N) | None => true end.
(** CO:252-292 [complete_dynamic] with the names of the packages; [None] is a panic *)
Definition complete_line (names : list text) (line : text) (point : nat) : option (list text) :=
  if (point <? length line)%nat && negb (boundary point line) then None
  else
    let ws := split_ws (if (point <? length line)%nat then firstn point line else line) in
    Some match ws with
         | [] => subcommands
         | [w] => filter (starts_with w) subcommands
         | _ :: sub :: r =>
           if mem_text sub package_subcommands then filter (starts_with (last r [])) names else []
         end.
(** CO:224-246 [complete_package_versions] with the versions found *)
Definition complete_versions (name : text) (versions : list (option text)) (prefix : text) : list text :=
  flat_map (fun v => match v with Some v => let s := name ++ T "-" ++ v in if starts_with prefix s || is_nil prefix then [s] else [] | None => [] end) versions.

(** ** Finding programs *)
(** WH:35-95 [which] on Unix with the value of PATH and the current directory *)
Definition which (path_var cwd : option text) (runs : text -> bool) (c : text) : option text :=
  match path_var, cwd with
  | Some pv, Some cd =>
    if has_char "/" c || has_char "\" c then
      let p := if starts_with (T "/") c then c else path_join cd c in if runs p then Some p else None
    else match filter runs (map (fun d => path_join d c) (filter (fun d => negb (is_nil d)) (split_on ":" pv))) with f :: _ => Some f | [] => None end
  | _, _ => None
  end.
(** WH:109-150 [which_all] on Unix *)
Definition which_all (path_var : option text) (runs : text -> bool) (c : text) : list text :=
  match path_var with
  | Some pv => filter runs (map (fun d => path_join d c) (filter (fun d => negb (is_nil d)) (split_on ":" pv)))
  | None => []
  end.
