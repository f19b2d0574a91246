(** Model of making packages of programs that are on the system.
    Sources: src/cli/commands/bind/mod.rs (BM), utils.rs (BU), detect.rs (BX), package_gen.rs (BG), crates/rez-next-bind/src/binder.rs (LB), detect.rs (LD),
    builtin_binders.rs (LT).
    Simplifications: texts are ASCII; the system is Linux; what a program prints is a function of the program and its arguments; the disk is a finite tree,
    and names and versions are one part of a path; links are not followed; calls of the operating system fail only if a parent is not a directory; the paths
    that are printed by which have no doubled or trailing separators; printing is left out; the time stamp is not written; a carriage return
    at the end of a last line without a line feed is dropped. *)
From Verif Require Import Base Maps Sorting Version_model Rex_model Requirement_model Files_model.
From Verif Require Bundle_model Pkgfile_model Try_model.
Open Scope string_scope. Open Scope list_scope.

(** BX:48, LD:37: what a program prints, and whether it ends well *)
Record printed := mkPrinted { pr_ok : bool; pr_out : text; pr_err : text }.

(** ** Versions in the output of programs *)
(** BU:124: the text from the first digit on *)
Fixpoint from_digit (s : text) : text := match s with [] => [] | c :: r => if is_digit c then s else from_digit r end.
(** BU:128-131: the characters of a version *)
Definition version_char (c : ascii) : bool := is_digit c || Ascii.eqb c "." || Ascii.eqb c "-" || Ascii.eqb c "_".
(** BU:126-134, LD:59 regex: the longest start made of such characters *)
Fixpoint take_while (f : ascii -> bool) (s : text) : text := match s with c :: r => if f c then c :: take_while f r else [] | [] => [] end.
(** [str::trim_start_matches] and LD:68: the rest behind such characters *)
Fixpoint drop_while (f : ascii -> bool) (s : text) : text := match s with c :: r => if f c then drop_while f r else s | [] => [] end.
(** [str::trim_end_matches] *)
Definition drop_end (f : ascii -> bool) (s : text) : text := rev (drop_while f (rev s)).
(** BU:120-147 [parse_version_from_string] *)
Definition number_in (s : text) : option text :=
  match from_digit (trim s) with
  | [] => None
  | t => let v := drop_end (fun c => Ascii.eqb c "." || Ascii.eqb c "-" || Ascii.eqb c "_") (take_while version_char t) in if is_nil v then None else Some v
  end.
(** BU:106-113: the first line with the prefix and a version behind it *)
Fixpoint number_after_in (prefix : text) (ls : list text) : option text :=
  match ls with
  | [] => None
  | l :: r =>
    match Pkgfile_model.find_text (map to_lower prefix) (map to_lower l) with
    | Some p => match number_in (trim_start (skipn (p + length prefix) l)) with Some v => Some v | None => number_after_in prefix r end
    | None => number_after_in prefix r
    end
  end.
(** BU:102-115 [extract_version_from_output] *)
Definition number_after (output prefix : text) : option text := number_after_in prefix (Bundle_model.file_lines output).
(** LD:59 regex: the characters of words *)
Definition word_char (c : ascii) : bool := is_alnum c || Ascii.eqb c "_".
(** LD:59 regex: whether a word ends before this text *)
Definition word_over (s : text) : bool := match s with c :: _ => negb (word_char c) | [] => true end.
(** LD:59 regex: further dots and digits, as many as possible, so that a word ends behind them *)
Fixpoint more_numbers (fuel : nat) (s : text) : option text :=
  match fuel, s with
  | S n, c :: r =>
    if Ascii.eqb c "." then
      let d := take_while is_digit r in
      if is_nil d then Some []
      else match more_numbers n (drop_while is_digit r) with Some t => Some ("."%char :: d ++ t) | None => Some [] end
    else if word_over s then Some [] else None
  | _, _ => if word_over s then Some [] else None
  end.
(** LD:59 regex: a match that starts here *)
Definition number_here (s : text) : option text :=
  let d := take_while is_digit s in
  if is_nil d then None
  else match drop_while is_digit s with
       | c :: r =>
         if Ascii.eqb c "." then
           let e := take_while is_digit r in
           if is_nil e then None
           else match more_numbers (length r) (drop_while is_digit r) with Some t => Some (d ++ ["."%char] ++ e ++ t) | None => None end
         else None
       | [] => None
       end.
(** LD:59-62 regex: the first match, with whether a character of a word comes before *)
Fixpoint find_number (word_before : bool) (s : text) : option text :=
  match s with
  | [] => None
  | c :: r => match (if word_before then None else number_here s) with Some v => Some v | None => find_number (word_char c) r end
  end.
(** LD:63-72: the first word with a digit *)
Definition digit_word (s : text) : option text :=
  match filter (existsb is_digit) (Try_model.split_ws s) with
  | w :: _ => let f := fun c => negb (is_alnum c) && negb (Ascii.eqb c ".") in Some (drop_end f (drop_while f w))
  | [] => None
  end.
(** LD:57-74 [extract_version_from_output] *)
Definition extract_version (s : text) : option text := match find_number false s with Some v => Some v | None => digit_word s end.

(** ** The system *)
(** BX:41-210, LD:12-46: what programs print, the release file, the architecture, the version and the path of rez itself *)
Record system := mkSystem {
  s_run : text -> list text -> option printed; s_release : option text; s_arch : text; s_rez : text; s_self : option text }.
(** BU:89-95, LD:16-26: the first line, trimmed, if it is not empty *)
Definition first_line (s : text) : text := match Bundle_model.file_lines s with l :: _ => l | [] => [] end.
(** BU:85-97 [which_executable] and LD:9-27 [find_tool_executable], which agree on Unix *)
Definition which (w : system) (c : text) : option text :=
  match s_run w (T "which") [c] with
  | Some p => if pr_ok p then let l := trim (first_line (pr_out p)) in if is_nil l then None else Some l else None
  | None => None
  end.
(** BX:14-21 *)
Record detected := mkDetected { d_version : text; d_path : option text; d_metadata : list (text * text) }.
(** BX:48-60, 73-84, 90-101, 106-117, 122-134, 139-150: a program that ends well and whose output has a version *)
Definition try_program (w : system) (c : text) (args : list text) (version_of : printed -> option text) : option detected :=
  match s_run w c args with
  | Some p => if pr_ok p then match version_of p with Some v => Some (mkDetected v (which w c) []) | None => None end else None
  | None => None
  end.
(** BX:47, 72: the first that is detected *)
Fixpoint first_of {A B} (f : A -> option B) (l : list A) : option B :=
  match l with a :: r => match f a with Some b => Some b | None => first_of f r end | [] => None end.
(** BX:40-63 *)
Definition detect_python (w : system) : option detected :=
  first_of (fun c => try_program w c [T "--version"] (fun p => number_after (pr_out p ++ pr_err p) (T "Python"))) [T "python3"; T "python"].
(** BX:65-87 *)
Definition detect_pip (w : system) : option detected :=
  first_of (fun c => try_program w c [T "--version"] (fun p => number_after (pr_out p) (T "pip"))) [T "pip3"; T "pip"].
(** BX:89-119, 138-152 *)
Definition detect_prefixed (w : system) (c : text) : option detected :=
  try_program w c [T "--version"] (fun p => number_after (pr_out p) (c ++ T " version")).
(** BX:121-136 *)
Definition detect_gcc (w : system) : option detected := try_program w (T "gcc") [T "--version"] (fun p => number_in (first_line (pr_out p))).
(** BX:154-170 *)
Definition detect_setuptools (w : system) : option detected :=
  try_program w (T "python3") [T "-c"; T "import setuptools; print(setuptools.__version__)"] (fun p => let v := trim (pr_out p) in if is_nil v then None else Some v).
(** [str::trim_start_matches] with a text *)
Fixpoint drop_prefixes (fuel : nat) (x s : text) : text :=
  match fuel with S n => if starts_with x s then drop_prefixes n x (skipn (length x) s) else s | O => s end.
(** BX:232-234 [trim_matches] with a character *)
Definition drop_both (c : ascii) (s : text) : text := drop_end (Ascii.eqb c) (drop_while (Ascii.eqb c) s).
(** BX:214-241 [get_os_version] on Linux; character 34 is the double quote *)
Definition os_version (release : option text) : text :=
  match release with
  | Some content =>
    match filter (starts_with (T "VERSION_ID=")) (Bundle_model.file_lines content) with
    | l :: _ => drop_both "034" (drop_prefixes (length l) (T "VERSION_ID=") l)
    | [] => T "unknown"
    end
  | None => T "unknown"
  end.
(** BX:24-36 [detect_system_tool] and 172-211 [detect_platform_package] on Linux *)
Definition detect (w : system) (name : text) : option detected :=
  if text_eqb name (T "python") then detect_python w else
  if text_eqb name (T "pip") then detect_pip w else
  if mem_text name [T "cmake"; T "git"; T "clang"] then detect_prefixed w name else
  if text_eqb name (T "gcc") then detect_gcc w else
  if text_eqb name (T "setuptools") then detect_setuptools w else
  if text_eqb name (T "platform") then Some (mkDetected (T "1.0.0") None [(T "platform", T "linux")]) else
  if text_eqb name (T "arch") then Some (mkDetected (T "1.0.0") None [(T "arch", s_arch w)]) else
  if text_eqb name (T "os") then Some (mkDetected (os_version (s_release w)) None []) else
  if text_eqb name (T "rez") then Some (mkDetected (s_rez w) (s_self w) []) else None.

(** ** The command *)
(** one line *)
Definition ln (s : text) : text := s ++ [NL].
(** BG:24, 32: a text between single quotes *)
Definition sq (s : text) : text := "'"%char :: s ++ ["'"%char].
(** BG:21-35: a list of texts, left out if it is empty *)
Definition listed (x : text) (l : list text) : text :=
  if is_nil l then [] else ln (x ++ T " = [") ++ flat_map (fun r => ln (T "    " ++ sq r ++ T ",")) l ++ ln (T "]") ++ [NL].
(** BG:8-42 [generate_package_py] *)
Definition generate (name version description : text) (requires tools : list text) (commands : option text) : text :=
  ln (T "name = " ++ sq name) ++ ln (T "version = " ++ sq version) ++ [NL] ++ ln (T "description = " ++ sq description) ++ [NL] ++
  listed (T "requires") requires ++ listed (T "tools") tools ++
  match commands with Some c => ln (T "def commands():") ++ c ++ [NL] | None => [] end.
(** [Path::parent] of a path without doubled or trailing separators, as a text *)
Definition parent_dir (p : text) : text :=
  match rfind_char "/" p with Some ([], b) => if is_nil b then [] else ["/"%char] | Some (a, _) => a | None => [] end.
(** BG:58, 74, LB:167 *)
Definition slashes (s : text) : text := map (fun c => if Ascii.eqb c "\" then "/"%char else c) s.
(** BG:56-59, 71-74 *)
Definition prepend_lines (dir : text) : text := ln (T "    import os") ++ ln (T "    env.PATH.prepend(" ++ sq (slashes dir) ++ T ")").
(** BG:47-81 [get_package_commands] *)
Definition package_commands (name : text) (exe : option text) : option text :=
  if mem_text name [T "python"; T "pip"; T "cmake"; T "git"; T "gcc"; T "clang"] then
    match (match exe with Some p => if is_nil (parent_dir p) then None else Some (prepend_lines (parent_dir p)) | None => None end) with
    | Some c => Some c
    | None => if text_eqb name (T "python") then Some (ln (T "    env.PATH.prepend('{root}/bin')")) else None
    end
  else None.
(** BG:85-96: the descriptions *)
Definition descriptions : list (text * text) :=
  [(T "platform", T "System platform package"); (T "arch", T "System architecture package"); (T "os", T "Operating system package");
   (T "python", T "Python interpreter"); (T "rez", T "Rez package manager (rez-next)"); (T "pip", T "Python package installer");
   (T "setuptools", T "Python build and packaging utilities"); (T "cmake", T "CMake build system"); (T "git", T "Git version control system");
   (T "gcc", T "GNU Compiler Collection"); (T "clang", T "Clang/LLVM compiler")].
(** BG:84-100 *)
Definition package_description (name : text) : text := match aget name descriptions with Some d => d | None => T "System package: " ++ name end.
(** BG:103-111 *)
Definition default_requirements (name : text) : list text :=
  match aget name [(T "os", [T "platform"; T "arch"]); (T "python", [T "os"]); (T "pip", [T "python"]); (T "setuptools", [T "python"])] with Some l => l | None => [] end.
(** BG:114-128 *)
Definition default_tools (name : text) : list text :=
  match aget name [(T "python", [T "python"; T "python3"]); (T "pip", [T "pip"; T "pip3"]); (T "cmake", [T "cmake"; T "ctest"; T "cpack"]); (T "git", [T "git"]);
                   (T "gcc", [T "gcc"; T "g++"; T "cpp"]); (T "clang", [T "clang"; T "clang++"])] with Some l => l | None => [] end.
(** BM:282-293 [parse_package_spec] *)
Definition parse_spec (s : text) : text * option text :=
  match rfind_char "-" s with
  | Some (n, c :: v) => if is_digit c then (n, Some (c :: v)) else (s, None)
  | _ => (s, None)
  end.
(** BM:381 [join]: an empty part changes nothing that a path means *)
Definition add_part (p : path) (c : text) : path := if is_nil c then p else p ++ [c].
(** BM:157, 245, 382, LB:133 [create_dir_all] *)
Definition make_dirs (p : path) (x : node) : option node :=
  match get p x with Some (Dir _) => Some x | Some _ => None | None => put p (Dir []) x end.
(** BM:394, LB:135 [std::fs::write] *)
Definition write_file (p : path) (c : text) (x : node) : option node := if is_dir p x then None else put p (File c) x.
(** BM:383-394, LB:132-135: the directory and the file; the disk afterwards, and whether it worked *)
Definition write_package (dir : path) (c : text) (x : node) : bool * node :=
  match make_dirs dir x with
  | None => (false, x)
  | Some x1 => match write_file (dir ++ [T "package.py"]) c x1 with Some x2 => (true, x2) | None => (false, x1) end
  end.
(** BM:314-317: the version *)
Definition version_for (w : system) (name : text) : text := match detect w name with Some d => d_version d | None => T "1.0.0" end.
(** BM:319 *)
Definition path_for (w : system) (name : text) : option text := match detect w name with Some d => d_path d | None => None end.
(** BM:381 *)
Definition package_dir (root : path) (name version : text) : path := add_part (add_part root name) version.
(** BM:384-392: what is written *)
Definition package_text (w : system) (no_deps : bool) (name : text) : text :=
  generate name (version_for w name) (package_description name) (if no_deps then [] else default_requirements name) (default_tools name)
    (package_commands name (path_for w name)).
(** BM:306-406 [bind_single_package]: the directory if it worked *)
Definition bind_one (w : system) (root : path) (no_deps : bool) (name : text) (x : node) : option path * node :=
  match parse_version (version_for w name) with
  | None => (None, x)
  | Some _ =>
    let dir := package_dir root name (version_for w name) in
    let '(ok, x') := write_package dir (package_text w no_deps name) x in (if ok then Some dir else None, x')
  end.
(** BM:238-279 [bind_package] *)
Definition bind_command (w : system) (root : path) (no_deps : bool) (spec : text) (x : node) : option path * node :=
  match make_dirs root x with None => (None, x) | Some x1 => bind_one w root no_deps (fst (parse_spec spec)) x1 end.
(** BM:146-154 *)
Definition quick_names : list text := [T "platform"; T "arch"; T "os"; T "python"; T "rez"; T "setuptools"; T "pip"].
(** BM:161-187: each in turn; failures are only printed *)
Fixpoint bind_each (w : system) (root : path) (names : list text) (x : node) : list (text * path) * node :=
  match names with
  | [] => ([], x)
  | n :: r =>
    let '(o, x1) := bind_one w root true n x in
    let '(l, x2) := bind_each w root r x1 in (match o with Some p => (n, p) :: l | None => l end, x2)
  end.
(** BM:141-203 [execute_quickstart]: [None] is an error *)
Definition quickstart (w : system) (root : path) (x : node) : option (list (text * path)) * node :=
  match make_dirs root x with None => (None, x) | Some x1 => let '(l, x2) := bind_each w root quick_names x1 in (Some l, x2) end.
(** BU:31-43: the names of the modules *)
Definition module_names : list text :=
  [T "platform"; T "arch"; T "os"; T "python"; T "rez"; T "setuptools"; T "pip"; T "cmake"; T "git"; T "gcc"; T "clang"].
(** BM:205-236 [search_bind_module] with BU:70-82 [find_close_matches]: the module, or the matches that are printed *)
Definition search (name : text) (order : list text) : text + list text :=
  if mem_text name order then inl name else inr (sort_by text_cmp (filter (fun k => contains_text name k || contains_text k name) order)).

(** ** The library *)
(** LB:29-44 *)
Record options := mkOptions { o_version : option text; o_force : bool; o_extra : list (text * text); o_search : bool }.
(** LB:10-25 *)
Inductive bind_error := ToolNotFound (n : text) | VersionNotFound (n : text) | AlreadyExists (p : path) | WriteError.
(** LB:60-72 *)
Record bound := mkBound { b_name : text; b_version : text; b_dir : path; b_path : option text }.
(** LD:34: the arguments that are tried *)
Definition version_flags : list text := [T "--version"; T "-version"; T "-V"; T "version"].
(** LD:33-51 [detect_tool_version] *)
Definition tool_output (w : system) (exe : text) : text :=
  match first_of (fun f => match s_run w exe [f] with Some p => let t := trim (pr_out p ++ pr_err p) in if is_nil t then None else Some t | None => None end) version_flags with
  | Some t => t
  | None => []
  end.
(** LB:146-197 [generate_package_py] *)
Definition lib_text (name version : text) (exe : option text) (extra : list (text * text)) : text :=
  let dir := match exe with Some p => slashes (parent_dir p) | None => [] end in
  ln (T "# Auto-generated by rez-next bind") ++
  ln (match exe with Some p => T "# Bound executable: " ++ p | None => T "# Executable path not detected" end) ++
  ln (T "name = " ++ sq name) ++ ln (T "version = " ++ sq version) ++
  ln (T "description = " ++ sq (T "System-installed " ++ name ++ T " bound by rez-next bind")) ++ ln (T "tools = [" ++ sq name ++ T "]") ++
  flat_map (fun b => ln (fst b ++ T " = " ++ sq (snd b))) extra ++
  (if is_nil dir then [] else [NL] ++ ln (T "def commands():") ++ ln (T "    env.prepend_path('PATH', r" ++ sq dir ++ T ")")) ++ [NL].
(** LB:98-143 [PackageBinder::bind] *)
Definition bind_tool (w : system) (root : path) (name : text) (o : options) (x : node) : (bound + bind_error) * node :=
  let exe := if o_search o then which w name else None in
  match (match o_version o with Some v => Some v | None => extract_version (tool_output w (match exe with Some p => p | None => name end)) end) with
  | None => (inr (VersionNotFound name), x)
  | Some v =>
    let dir := package_dir root name v in
    if exists_at dir x && negb (o_force o) then (inr (AlreadyExists dir), x)
    else let '(ok, x') := write_package dir (lib_text name v exe (o_extra o)) x in (if ok then inl (mkBound name v dir exe) else inr WriteError, x')
  end.
(** LT:55-128: the names and the programs of the built-in binders *)
Definition builtins : list (text * list text) :=
  [(T "python", [T "python3"; T "python"]); (T "cmake", [T "cmake"]); (T "git", [T "git"]); (T "pip", [T "pip3"; T "pip"]); (T "gcc", [T "gcc"]);
   (T "clang", [T "clang"]); (T "node", [T "node"; T "nodejs"]); (T "rust", [T "rustc"]); (T "go", [T "go"]); (T "java", [T "java"]);
   (T "ffmpeg", [T "ffmpeg"]); (T "imagemagick", [T "convert"; T "magick"])].
(** LT:30-48: each program in turn *)
Fixpoint bind_programs (w : system) (root : path) (name : text) (exes : list text) (o : options) (x : node) : (bound + bind_error) * node :=
  match exes with
  | [] => (inr (ToolNotFound name), x)
  | e :: r =>
    let o' := match o_version o with None => mkOptions None (o_force o) (o_extra o) true | Some _ => o end in
    match bind_tool w root e o' x with
    | (inr (ToolNotFound _), x') | (inr (VersionNotFound _), x') => bind_programs w root name r o x'
    | q => q
    end
  end.
(** LT:26-51, 131-133: a built-in binder is found by its name; [None] if there is none *)
Definition bind_builtin (w : system) (root : path) (name : text) (o : options) (x : node) : option ((bound + bind_error) * node) :=
  match aget name builtins with Some exes => Some (bind_programs w root name exes o x) | None => None end.
(** LB:232-239: the versions of a family *)
Definition bound_versions (es : list (text * node)) : list text :=
  map fst (filter (fun e => match snd e with Dir _ => exists_at [T "package.py"] (snd e) | _ => false end) es).
(** LB:224-245: a family with its versions, sorted *)
Definition family_of (e : text * node) : option (text * list text) :=
  match snd e with
  | Dir es => let vs := bound_versions es in if is_nil vs then None else Some (fst e, sort_by text_cmp vs)
  | _ => None
  end.
(** LB:216-250 [list_bound_packages_in] *)
Definition list_bound (root : path) (x : node) : list (text * list text) :=
  match get root x with
  | Some (Dir es) => sort_by (fun a b => text_cmp (fst a) (fst b)) (flat_map (fun e => match family_of e with Some f => [f] | None => [] end) es)
  | _ => []
  end.
