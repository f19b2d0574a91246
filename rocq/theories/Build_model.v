(** Model of building a package.
    Sources in crates/rez-next-build/src: process.rs (BP), builder.rs (BB), environment.rs (BE), sources.rs (SO), artifacts.rs (AR), and under systems/
    mod.rs (SY), custom.rs (CU), cmd_builder.rs (CB), python.rs (PY), nodejs.rs (NJ), cargo_build.rs (CG), make.rs (MK), cmake.rs (CM); the command is
    src/cli/commands/build.rs (BD).
    Simplifications: texts of paths are Unix paths; durations and the average of the statistics are left out; commands run by a shell are given by their exit code
    and output; what a step does to the world is a function of the step and the world; the hash of a variant, the number of threads and
    the reading of a requirement are parameters; on disk, links are not followed and copying anything but files and directories fails, as in Bundle_model;
    a directory is listed before anything is written; the progress display, the event times, what the archive and pypi systems install and the fetching of sources are left out. *)
From Verif Require Import Base Maps Sorting Files_model Rex_model Query_model Requirement_model Bundle_model.
Open Scope string_scope. Open Scope list_scope.

(** ** The steps of a build *)
(** BP:38-56 [BuildStep] *)
Inductive step := Preparing | Configuring | Compiling | Testing | Packaging | Installing | PackageTesting | Cleanup.
(** BP:288-297 *)
Definition all_steps : list step := [Preparing; Configuring; Compiling; Testing; Packaging; Installing; PackageTesting; Cleanup].
(** BP:38 [Debug] *)
Definition step_name (s : step) : text :=
  match s with
  | Preparing => T "Preparing" | Configuring => T "Configuring" | Compiling => T "Compiling" | Testing => T "Testing"
  | Packaging => T "Packaging" | Installing => T "Installing" | PackageTesting => T "PackageTesting" | Cleanup => T "Cleanup"
  end.
(** BP:95-107 [BuildStepResult] *)
Record done := mkDone { d_ok : bool; d_out : text; d_err : text }.
(** BP:59-92 [BuildEventKind], [BuildEvent] *)
Inductive event :=
| BuildStarted (m : text) | StepStarted (s : step) | StepOutput (s : step) (m : text) | StepError (s : step) (m : text)
| StepFinished (s : step) (ok : bool) | BuildFinished (m : text) (ok : bool).
(** BP:28-30, 269: the events, the output and the errors so far *)
Record log := mkLog { l_events : list event; l_out : text; l_err : text }.
(** BP:648-666 [emit_step_lines]: the lines of a text that show *)
Definition shown_lines (t : text) : list text := map trim (filter (fun l => negb (is_nil (trim l))) (file_lines t)).
(** common/error.rs:44-45 *)
Definition build_error (m : text) : text := T "Build error: " ++ m.
(** BP:319-359: what a step that was carried out leaves in the log, up to its end *)
Definition log_step (s : step) (d : done) (l : log) : log :=
  mkLog (l_events l ++ map (StepOutput s) (shown_lines (d_out d)) ++ (if is_nil (d_err d) then [] else map (StepError s) (shown_lines (d_err d))) ++ [StepFinished s (d_ok d)])
        (l_out l ++ T "=== " ++ step_name s ++ T " ===" ++ [NL] ++ d_out d ++ [NL])
        (l_err l ++ if is_nil (d_err d) then [] else T "=== " ++ step_name s ++ T " Errors ===" ++ [NL] ++ d_err d ++ [NL]).
(** BP:299-308, 363-371, 379-387 with 668-694 [emit_build_event]: an event is added *)
Definition tell (e : event) (l : log) : log := mkLog (l_events l ++ [e]) (l_out l) (l_err l).

Section World.
Variable W : Type.
(** BP:393-444 [execute_build_step]: a step is carried out, or gives an error *)
Variable exec : step -> W -> W * (done + text).
(** BP:412-418, 425-431: with [skip_tests] neither kind of test is run *)
Definition with_skip (skip : bool) (s : step) (w : W) : W * (done + text) :=
  match s with
  | Testing => if skip then (w, inl (mkDone true (T "Tests skipped") [])) else exec s w
  | PackageTesting => if skip then (w, inl (mkDone true (T "Package tests skipped") [])) else exec s w
  | _ => exec s w
  end.
(** BP:299-376: one turn of the loop; the last part is the error it ends with *)
Definition one_step (s : step) (w : W) (l : log) : W * log * option text :=
  let l := tell (StepStarted s) l in
  match exec s w with
  | (w, inr e) => (w, l, Some e)
  | (w, inl d) =>
    let l := log_step s d l in
    if d_ok d then (w, l, None)
    else (w, tell (BuildFinished (T "Build failed during " ++ step_name s) false) l, Some (build_error (T "Build step " ++ step_name s ++ T " failed: " ++ d_err d)))
  end.
(** BP:299-389: the loop *)
Fixpoint run_steps (ss : list step) (w : W) (l : log) : W * log * option text :=
  match ss with
  | [] => (w, tell (BuildFinished (T "Build finished") true) l, None)
  | s :: r => match one_step s w l with (w, l, None) => run_steps r w l | z => z end
  end.
(** BP:269-286: the start, with the label of the package *)
Definition first_log (label : text) : log := mkLog [BuildStarted (T "Building " ++ label)] [] [].
(** BP:161-166: an error is kept if there is none so far *)
Definition keep_error (e : option text) (l : log) : log :=
  match e with Some e => if is_nil (trim (l_err l)) then mkLog (l_events l) (l_out l) (l_err l ++ e) else l | None => l end.
(** BB:195-252 [BuildResult] *)
Record result := mkResult { r_ok : bool; r_out : text; r_err : text }.
(** BP:131-176 [start] with 179-232 [wait], without interruption *)
Definition build (label : text) (w : W) : W * list event * result :=
  match run_steps all_steps w (first_log label) with
  | (w, l, e) =>
    let l := keep_error e l in
    match e with None => (w, l_events l, mkResult true (l_out l) []) | Some _ => (w, l_events l, mkResult false (l_out l) (l_err l)) end
  end.

(** ** Cancelling *)
(** BB:457-470 [BuildStatus] *)
Inductive status := Queued | Running | Success | Failed | Cancelled.
(** BP:15-36 [BuildProcess] with the task that works on it: what it has to do yet, and whether it is over *)
Record proc := mkProc { p_status : status; p_todo : list step; p_world : W; p_log : log; p_over : bool }.
(** BP:131-147 [start] *)
Definition started (label : text) (w : W) : proc := mkProc Running all_steps w (first_log label) false.
(** BP:149-173: the task does its next step, or writes down how it ended *)
Definition work (p : proc) : proc :=
  if p_over p then p
  else match p_todo p with
       | [] => mkProc Success [] (p_world p) (tell (BuildFinished (T "Build finished") true) (p_log p)) true
       | s :: r =>
         match one_step s (p_world p) (p_log p) with
         | (w, l, None) => mkProc (p_status p) r w l false
         | (w, l, Some e) => mkProc Failed [] w (keep_error (Some e) l) true
         end
       end.
(** BP:235-248 [cancel]; no build system stores a child process (MK:38, 60, CM:63, 96, PY:47, 118, NJ:43, 64, CG:36, 61, CU:76, 100), so none is killed *)
Definition cancel (p : proc) : proc := mkProc Cancelled (p_todo p) (p_world p) (p_log p) (p_over p).
(** BP:149, 235: the turns of the task and the calls of cancel, as they happen to interleave *)
Inductive turn := Work | Cancel.
(** BP:149, 235: one turn *)
Definition take (t : turn) (p : proc) : proc := match t with Work => work p | Cancel => cancel p end.
(** BP:149, 235: all turns *)
Definition schedule (ts : list turn) (p : proc) : proc := fold_left (fun p t => take t p) ts p.
(** BP:187-188: the states in which [wait] returns *)
Definition settled (s : status) : bool := match s with Success | Failed | Cancelled => true | _ => false end.
End World.
Arguments with_skip {W}. Arguments one_step {W}. Arguments run_steps {W}. Arguments build {W}. Arguments work {W}. Arguments cancel {W}. Arguments schedule {W}.
Arguments started {W}. Arguments take {W}. Arguments mkProc {W}. Arguments p_status {W}. Arguments p_todo {W}. Arguments p_world {W}. Arguments p_log {W}. Arguments p_over {W}.

(** ** The manager of builds *)
(** BB:77-92 [BuildStats], without the times *)
Record stats := mkStats { st_started : nat; st_ok : nat; st_failed : nat; st_running : nat }.
(** BB:94-105 *)
Definition no_stats : stats := mkStats 0 0 0 0.
(** BB:14-23 [BuildManager] *)
Record manager := mkManager { m_active : list text; m_max : nat; m_stats : stats }.
(** BB:261-267 [with_config] *)
Definition new_manager (max : nat) : manager := mkManager [] max no_stats.
(** BB:273, 363, 391, 442, 452, the calls: a start with the identifier it draws and whether it gets as far as running, a wait with the result of the build, a cancel, and two of the setters *)
Inductive call := CallStart (id : text) (fine : bool) | CallWait (id : text) (ok : bool) | CallCancel (id : text) | CallReset | CallMax (n : nat).
(** BB:273-454: the manager after a call, whether the call was refused, or a subtraction below zero *)
Inductive answer := Went (m : manager) | Refused (m : manager) | Underflow.
(** BB:368, 394: one running build less *)
Definition less_running (s : stats) : option stats := match st_running s with O => None | S r => Some (mkStats (st_started s) (st_ok s) (st_failed s) r) end.
(** BB:369-373, 395 *)
Definition count_end (ok : bool) (s : stats) : stats := if ok then mkStats (st_started s) (S (st_ok s)) (st_failed s) (st_running s) else mkStats (st_started s) (st_ok s) (S (st_failed s)) (st_running s).
(** BB:363-388 [wait_for_build], 391-403 [cancel_build]: the build is taken out first *)
Definition leave_build (id : text) (ok : bool) (m : manager) : answer :=
  if mem_text id (m_active m) then
    match less_running (m_stats m) with
    | Some s => Went (mkManager (filter (fun j => negb (text_eqb id j)) (m_active m)) (m_max m) (count_end ok s))
    | None => Underflow
    end
  else Refused m.
(** BB:273-346 [start_build], 363-403, 452-454 [reset_stats], 442-444 [set_config] *)
Definition answer_to (c : call) (m : manager) : answer :=
  match c with
  | CallStart id fine =>
    if (m_max m <=? length (m_active m))%nat then Refused m
    else if fine then Went (mkManager (id :: filter (fun j => negb (text_eqb id j)) (m_active m)) (m_max m) (mkStats (S (st_started (m_stats m))) (st_ok (m_stats m)) (st_failed (m_stats m)) (S (st_running (m_stats m)))))
    else Refused m
  | CallWait id ok => leave_build id ok m
  | CallCancel id => leave_build id false m
  | CallReset => Went (mkManager (m_active m) (m_max m) no_stats)
  | CallMax n => Went (mkManager (m_active m) n (m_stats m))
  end.
(** BB:273-454: calls one after another; [None] after a subtraction below zero *)
Fixpoint answers (cs : list call) (m : manager) : option manager :=
  match cs with
  | [] => Some m
  | c :: r => match answer_to c m with Went m' | Refused m' => answers r m' | Underflow => None end
  end.

(** ** The package and the environment of a build *)
(** BE:45-128, 220-321, BP:556-626, SY:156-199: the parts of a package that are read *)
Record pkg := mkPkg {
  k_name : text; k_version : option text; k_description : option text; k_requires : list text; k_build_requires : list text;
  k_private_requires : list text; k_variants : list (list text); k_file : option text; k_command : option text; k_system : option text; k_tests : list (text * text) }.
(** BB:107-124 [BuildRequest] with 180-193 [BuildOptions] *)
Record request := mkRequest {
  q_pkg : pkg; q_context : option (list (text * text)); q_source : text; q_variant : option nat; q_variant_requires : option (list text);
  q_env : list (text * text); q_install : option text; q_skip_tests : bool }.
(** BE:13-32 [BuildEnvironment] *)
Record benv := mkBenv { e_build : text; e_install : text; e_temp : text; e_set : list (text * text) }.
Section Env.
Variable cwd : text.
Variable userprofile home : option text.
Variable threads : text.
Variable req_name : text -> option text.
Variable parent : text -> option text.
Variable hash : list text -> text.
Variable exists_file : text -> bool.
(** BE:448-464 [validate_unc_path] *)
Definition unc_fine (p : text) : bool :=
  match split_on "\"%char (skipn 2 p) with a :: b :: _ => negb (is_nil a) && negb (is_nil b) | _ => false end.
(** BE:405-445 [normalize_build_path], 467-482 [validate_drive_path] *)
Definition normal_build (p : text) : option text :=
  if starts_with (T "~/") p then match (match userprofile with Some h => Some h | None => home end) with Some h => Some (path_join h (skipn 2 p)) | None => None end
  else if starts_with (T "\\") p then if unc_fine p then Some p else None
  else match p with
       | c :: ":"%char :: _ => if is_alpha c then Some p else None
       | _ => if starts_with (T "/") p then Some p else Some (path_join cwd p)
       end.
(** BE:11, 58-62, 87-91 *)
Definition built_version (p : pkg) : text := match k_version p with Some v => v | None => T "0.0.0" end.
(** BE:293-321 [set_build_requirements] *)
Definition set_requirements (p : pkg) (vreq : list text) (m : list (text * text)) : list (text * text) :=
  let rs := k_requires p ++ k_build_requires p ++ k_private_requires p ++ vreq in
  aput (T "REZ_BUILD_REQUIRES_UNVERSIONED") (join (T " ") (map (fun r => match req_name r with Some n => n | None => r end) rs))
    (aput (T "REZ_BUILD_REQUIRES") (join (T " ") rs) m).
(** BE:254-276 [set_package_file_vars] without a source path *)
Definition set_file_vars (p : pkg) (m : list (text * text)) : list (text * text) :=
  match k_file p with
  | Some f => let m := aput (T "REZ_BUILD_PROJECT_FILE") f m in match parent f with Some d => aput (T "REZ_BUILD_SOURCE_PATH") d m | None => m end
  | None => m
  end.
(** BE:131-135, BB:348-360: values are put into the map *)
Definition put_all (vs m : list (text * text)) : list (text * text) := fold_left (fun m kv => aput (fst kv) (snd kv) m) vs m.
(** BE:45-147 [with_install_path] *)
Definition with_install_path (p : pkg) (base : text) (context : option (list (text * text))) (install : option text) : option benv :=
  match normal_build base with
  | None => None
  | Some b =>
    let bd := path_join b (k_name p) in
    let inst := match install with Some i => path_join (path_join i (k_name p)) (built_version p) | None => path_join bd (T "install") end in
    let m := put_all
      [(T "REZ_BUILD_ENV", T "1"); (T "REZ_BUILD_TYPE", T "local"); (T "REZ_BUILD_INSTALL", match install with Some _ => T "1" | None => T "0" end);
       (T "REZ_BUILD_PACKAGE_NAME", k_name p); (T "REZ_BUILD_PROJECT_NAME", k_name p); (T "REZ_BUILD_PACKAGE_VERSION", built_version p);
       (T "REZ_BUILD_PROJECT_VERSION", built_version p); (T "REZ_BUILD_INSTALL_PATH", inst); (T "REZ_BUILD_PATH", bd);
       (T "REZ_BUILD_PROJECT_DESCRIPTION", trim (match k_description p with Some d => d | None => [] end)); (T "REZ_BUILD_THREAD_COUNT", threads);
       (T "REZ_BUILD_VARIANT_INDEX", T "0"); (T "REZ_BUILD_VARIANT_REQUIRES", []); (T "REZ_BUILD_VARIANT_SUBPATH", [])] [] in
    let m := set_file_vars p (set_requirements p [] m) in
    let m := match context with Some vs => put_all vs m | None => m end in
    Some (mkBenv bd inst (path_join bd (T "tmp")) m)
  end.
(** BE:210-238: the variables are changed, the rest stays *)
Definition with_set (f : list (text * text) -> list (text * text)) (e : benv) : benv := mkBenv (e_build e) (e_install e) (e_temp e) (f (e_set e)).
(** BE:220-230 [set_variant_env] *)
Definition set_variant_env (p : pkg) (i : nat) (vreq : list text) (e : benv) : benv :=
  with_set (fun m => set_requirements p vreq (aput (T "REZ_BUILD_VARIANT_REQUIRES") (join (T " ") vreq) (aput (T "REZ_BUILD_VARIANT_INDEX") (show_N (N.of_nat i)) m))) e.
(** BE:278-291 [project_file_for_source] *)
Definition project_file (p : pkg) (src : text) : text :=
  match k_file p with
  | Some f => f
  | None =>
    match filter exists_file (map (path_join src) [T "package.py"; T "package.yaml"; T "package.yml"]) with
    | f :: _ => f
    | [] => path_join src (T "package.py")
    end
  end.
(** BE:241-252 [set_source_path] *)
Definition set_source (p : pkg) (src : text) (e : benv) : benv :=
  with_set (fun m => aput (T "REZ_BUILD_PROJECT_FILE") (project_file p src) (aput (T "REZ_BUILD_SOURCE_PATH") src m)) e.
(** BB:300-330, BE:324-333: the environment of a build; [config] are the variables of the configuration *)
Definition build_environment (base : text) (config : list (text * text)) (q : request) : option benv :=
  let p := q_pkg q in
  let made b := match with_install_path p b (q_context q) (q_install q) with
                | Some e => Some (with_set (fun m => put_all (q_env q) (put_all config m)) (set_source p (q_source q) e))
                | None => None end in
  match made base with
  | None => None
  | Some e =>
    match q_variant q with
    | None => Some e
    | Some i =>
      let vreq := match q_variant_requires q with Some r => r | None => [] end in
      match q_variant_requires q with
      | None => Some (set_variant_env p i vreq e)
      | Some r =>
        match made (path_join (e_install e) (hash r)) with
        | None => None
        | Some e => Some (with_set (aput (T "REZ_BUILD_VARIANT_SUBPATH") (hash r)) (set_variant_env p i vreq e))
        end
      end
    end
  end.
End Env.
(** BB:273-282 [start_build]: a package with variants needs one to be chosen *)
Definition start_allowed (q : request) : bool := is_nil (k_variants (q_pkg q)) || match q_variant q with Some _ => true | None => false end.
(** BE:368-402 [to_shell_script] for bash, with the order in which the variables come *)
Definition build_script (vars : list (text * text)) : text :=
  T "#!/bin/bash" ++ [NL] ++ T "# Build environment setup" ++ [NL; NL] ++
  flat_map (fun kv => T "export " ++ fst kv ++ ["="%char; DQ] ++ snd kv ++ [DQ; NL]) vars.

(** ** Build systems *)
(** SY:95-114 [BuildSystem] *)
Inductive system := CMake | Make | Python | NodeJs | Cargo | BinaryArchive | Pypi | Custom (script : text).
(** SY:118-153 [detect] in a source directory *)
Definition detect (src : path) (x : node) : system :=
  let there f := exists_at (src ++ [f]) x in
  match filter there [T "build.sh"; T "build.bat"; T "build.py"; T "build"] with
  | s :: _ => Custom s
  | [] =>
    if there (T "CMakeLists.txt") then CMake
    else if there (T "Makefile") || there (T "makefile") then Make
    else if there (T "setup.py") || there (T "pyproject.toml") then Python
    else if there (T "package.json") then NodeJs
    else if there (T "Cargo.toml") then Cargo
    else Custom (T "default")
  end.
(** SY:156-199 [detect_with_package] *)
Definition detect_with_package (p : pkg) (src : path) (x : node) : system :=
  match k_command p with
  | Some c => if text_eqb c (T "false") || is_nil c then Custom (T "copy-only") else Custom (T "build_command")
  | None =>
    match k_system p with
    | Some s =>
      if text_eqb s (T "cmake") then CMake else if text_eqb s (T "make") then Make else if text_eqb s (T "python") then Python
      else if text_eqb s (T "nodejs") then NodeJs else if text_eqb s (T "cargo") then Cargo else if text_eqb s (T "binary_archive") then BinaryArchive
      else if mem_text s [T "pypi"; T "pip"; T "rez_pip"] then Pypi else Custom s
    | None => if exists_at (src ++ [T "rezbuild.py"]) x then Custom (T "rezbuild.py") else detect src x
    end
  end.
(** context/shell.rs:210-266 [execute]: a command could not be run, or ended with a code *)
Inductive ended := NoRun (e : text) | Exit (code : Z) (out err : text).
(** context/shell.rs:137-139 [is_success] *)
Definition went_well (r : ended) : bool := match r with Exit 0 _ _ => true | _ => false end.
(** CB:26-64 [run_cmd] *)
Definition run_cmd (optional : bool) (fallback : text) (r : ended) : done + text :=
  match r with
  | Exit c o e => if went_well r then inl (mkDone true o e) else if optional then inl (mkDone true fallback e) else inl (mkDone false o e)
  | NoRun e => if optional then inl (mkDone true fallback []) else inr e
  end.
(** MK:66-75, CM:104-113: a command whose code decides *)
Definition plain_cmd (r : ended) : done + text := match r with Exit _ o e => inl (mkDone (went_well r) o e) | NoRun e => inr e end.
(** MK:56-76, CM:92-114, CG:57-68, PY:114-144, NJ:60-78, CU:96-109, systems/binary_archive.rs:56-63, systems/pypi.rs:54-61 and SY:247-265 [test] *)
Definition test_step (sys : system) (run : text -> ended) : done + text :=
  match sys with
  | CMake => plain_cmd (run (T "ctest --output-on-failure"))
  | Make => plain_cmd (run (T "make test"))
  | Cargo => run_cmd false [] (run (T "cargo test"))
  | NodeJs => run_cmd true (T "No test script") (run (T "npm test"))
  | Python =>
    match run_cmd true [] (run (T "python -m pytest -q --tb=short")) with
    | inl d => if d_ok d && negb (is_nil (d_out d)) then inl d else run_cmd true (T "No tests found") (run (T "python -m unittest discover -q"))
    | z => z
    end
  | BinaryArchive => inl (mkDone true (T "binary_archive tests skipped") [])
  | Pypi => inl (mkDone true (T "pypi plugin tests skipped") [])
  | Custom _ => inl (mkDone true (T "Custom build-system tests completed") [])
  end.
(** NJ:39-58 [compile] of Node.js *)
Definition node_compile (run : text -> ended) : done + text := run_cmd true (T "No build script") (run (T "npm run build")).
(** CU:235-263 [expand_build_command_variables] *)
Definition expand_command (q : request) (e : benv) (c : text) : text :=
  fold_left (fun c kv => replace ("{"%char :: fst kv ++ ["}"%char]) (snd kv) c)
    [(T "root", q_source q); (T "install", T "install"); (T "build_path", e_build e); (T "install_path", e_install e); (T "name", k_name (q_pkg q));
     (T "version", match k_version (q_pkg q) with Some v => v | None => [] end); (T "variant_index", [])] c.
(** BP:604-608: the places in the command of a test *)
Definition expand_test (root c : text) : text :=
  fold_left (fun c k => replace ("{"%char :: k ++ ["}"%char]) root c) [T "this.root"; T "this.base"; T "root"; T "base"] c.
(** BP:602-625: the tests of a package, in the order of their names; what ran, and the error *)
Fixpoint run_tests (run : text -> ended) (root : text) (ts : list (text * text)) (ran : list (text * text)) : list (text * text) * (bool + text) :=
  match ts with
  | [] => (ran, inl true)
  | (n, c) :: r =>
    let c := expand_test root c in
    match run c with
    | NoRun e => (ran ++ [(n, c)], inr e)
    | Exit z o e => if went_well (Exit z o e) then run_tests run root r (ran ++ [(n, c)]) else (ran ++ [(n, c)], inl false)
    end
  end.
(** BP:425-431, 560-562 and 599-600 [execute_package_test_step] with the tests of a map sorted by name *)
Definition package_tests (run : text -> ended) (root : text) (skip : bool) (tests : list (text * text)) : list (text * text) * (bool + text) :=
  if skip then ([], inl true) else run_tests run root (sort_by (fun a b => text_cmp (fst a) (fst b)) tests) [].

(** ** Copying a package as it is *)
(** CU:598-620 [should_skip_file] *)
Definition skip_file (f : text) : bool :=
  mem_text f [T ".git"; T ".gitignore"; T ".gitmodules"; T ".hg"; T ".hgignore"; T ".svn"; T "build"; T "dist"; T "__pycache__"; T ".pytest_cache"; T ".tox";
              T "node_modules"; T ".DS_Store"; T "Thumbs.db"; T ".coverage"; T "coverage.xml"]
  || ends_with (T ".pyc") f || ends_with (T ".pyo") f || ends_with (T ".log") f.
Section Io.
Variable io : nat -> option (option text).
(** CU:547-558, 565-595 [copy_dir_recursive]: an entry of the source is copied, with all below it *)
Definition copy_entry (src install : path) (f : text) (x : node) (n : nat) : ran :=
  match get (src ++ [f]) x with
  | Some (Dir _) => copy_source io (src ++ [f]) (install ++ [f]) x n
  | Some (File c) => write_file io (install ++ [f]) (if leads src install && leads install src then [] else c) x n
  | _ => Ran false x (S n)
  end.
(** CU:535-559: the entries that are not skipped *)
Fixpoint copy_entries (src install : path) (fs : list text) (x : node) (n : nat) : ran :=
  match fs with
  | [] => Ran true x n
  | f :: r => if skip_file f then copy_entries src install r x n else and_then (copy_entry src install f x n) (copy_entries src install r)
  end.
(** CU:524-562 [copy_package_files] *)
Definition copy_package_files (src install : path) (x : node) (n : nat) : ran :=
  match get src x with Some (Dir es) => copy_entries src install (akeys es) x n | _ => Ran false x (S n) end.
(** BP:447-471 [execute_prepare_step] and CU:141-175 [copy_files_install]: a package that is only copied *)
Definition copy_build (src build install : path) (x : node) : ran :=
  and_then (make_dir io build x 0) (fun x n =>
  and_then (make_dir io install x n) (fun x n =>
  and_then (make_dir io install x n) (fun x n => copy_package_files src install x n))).
End Io.

(** ** Where sources come from *)
(** SO:12-24 [SourceType] *)
Inductive source_type := SGit | SHttp | SSsh | SLocal.
(** SO:504-542 [parse_git_url] *)
Definition parse_git_url (u : text) : text * option text :=
  match rfind_char "@" u with
  | Some (before, after) =>
    if contains_text (T ":") before && negb (starts_with (T "http") before) then
      match rfind_char "@" before with Some (g, _) => (g, Some after) | None => (u, None) end
    else if starts_with (T "http") before then (before, Some after) else (u, None)
  | None => (u, None)
  end.
(** SO:460-501 [parse_source] *)
Definition parse_source (s : text) : source_type * text * option text :=
  let u := trim s in
  if starts_with (T "git://") u || starts_with (T "git@") u || ends_with (T ".git") u || contains_text (T "github.com") u || contains_text (T "gitlab.com") u || contains_text (T "bitbucket.org") u
  then let (g, r) := parse_git_url u in (SGit, g, r)
  else if starts_with (T "http://") u || starts_with (T "https://") u then (SHttp, u, None)
  else if starts_with (T "ssh://") u then (SGit, u, None)
  else (SLocal, u, None).

(** ** The command *)
(** BD:185-220: the variants that are built; [None] if all of the given ones are out of range *)
Definition pick_variants (given : option (list nat)) (count : nat) : option (list (option nat)) :=
  match given with
  | Some is =>
    let valid := filter (fun i => (i <? count)%nat) is in
    if is_nil valid && negb (is_nil is) then None else if is_nil valid then Some [None] else Some (map Some valid)
  | None => if (count =? 0)%nat then Some [None] else Some (map Some (seq 0 count))
  end.
(** BD:226-255: one after another, up to the first that fails *)
Fixpoint build_variants {W} (one : option nat -> W -> W * bool) (vs : list (option nat)) (w : W) : W * bool :=
  match vs with
  | [] => (w, true)
  | v :: r => match one v w with (w, true) => build_variants one r w | z => z end
  end.
(** BD:472-474: a requirement that is not there yet is added *)
Definition add_new (l : list text) (r : text) : list text := if mem_text r l then l else l ++ [r].
(** BD:460-477 [collect_build_context_requirements] *)
Definition build_requirements (p : pkg) (vreq : option (list text)) : list text :=
  fold_left add_new (k_requires p ++ k_build_requires p ++ k_private_requires p ++ match vreq with Some r => r | None => [] end) [].
(** BD:667-687 [validate_build_results]: the number of builds, or an error *)
Definition validate_results (rs : list result) : option nat :=
  if is_nil rs then None else if forallb r_ok rs then Some (length rs) else None.

(** ** Artifacts *)
(** AR:31-44 [ArtifactFile]: path, size and checksum *)
Record artifact := mkArtifact { a_path : path; a_size : nat; a_sum : text }.
Section Artifacts.
Variable sha : text -> text.
(** AR:90-133 [scan_directory] *)
Fixpoint scan (rel : path) (y : node) : list artifact :=
  match y with
  | Dir es => (fix each (l : list (text * node)) : list artifact := match l with [] => [] | (c, z) :: r => scan (rel ++ [c]) z ++ each r end) es
  | File c => [mkArtifact rel (length c) (sha c)]
  | _ => []
  end.
(** AR:77-87 [scan_install_dir] *)
Definition scan_install (dir : path) (x : node) : list artifact := match get dir x with Some (Dir es) => scan [] (Dir es) | _ => [] end.
(** AR:287-291: the size of what is there; that of a directory is [dlen] *)
Definition size_of (dlen : nat) (y : node) : nat := match y with File c => length c | Dir _ => dlen | _ => 0 end.
(** AR:273-301 [validate]: errors, warnings, files checked *)
Fixpoint validate (dlen : nat) (dir : path) (fs : list artifact) (x : node) : list path * list path * nat :=
  match fs with
  | [] => ([], [], 0)
  | f :: r =>
    match validate dlen dir r x with
    | (errors, warnings, checked) =>
      match get (dir ++ a_path f) x with
      | None => (a_path f :: errors, warnings, checked)
      | Some y => (errors, if (size_of dlen y =? a_size f)%nat then warnings else a_path f :: warnings, S checked)
      end
    end
  end.
(** AR:303 *)
Definition is_valid (v : list path * list path * nat) : bool := is_nil (fst (fst v)).
End Artifacts.
