(** Model of the conversion of pip packages: crates/rez-next-python/src/pip_bindings.rs (PB) and src/cli/commands/pip.rs (CP).
    Simplifications: texts are ASCII; a directory with installed files is the list of its files by relative path, so that empty
    directories are not kept; the programs pip and python, the order in which a directory is listed and what the system refuses are
    parameters; messages are left out; a repository is what it lists: its families with the requirements of their packages. *)
From Verif Require Import Base Maps Range_model Query_model Rex_model Pyfile_model Pkgfile_model Release_model.
Open Scope string_scope.
Open Scope list_scope.

(** ** texts *)
(** str::to_lowercase *)
Definition lower (s : text) : text := map to_lower s.
(** str::replace of a character by a character *)
Definition swap (a b : ascii) (s : text) : text := map (fun c => if Ascii.eqb c a then b else c) s.
(** str::split of a set of characters, the first part; PB:164-170, 192-197 and str::find of a set of characters *)
Fixpoint before_any (stop : ascii -> bool) (s : text) : text :=
  match s with [] => [] | c :: r => if stop c then [] else c :: before_any stop r end.
(** PB:164-170, 192-197, with the above *)
Fixpoint from_any (stop : ascii -> bool) (s : text) : option text :=
  match s with [] => None | c :: r => if stop c then Some s else from_any stop r end.
(** a character of a list *)
Definition one_of (l : text) (c : ascii) : bool := existsb (Ascii.eqb c) l.
(** str::trim_start_matches; the pattern is not empty *)
Fixpoint trim_start_text (fuel : nat) (p s : text) : text :=
  match fuel with
  | 0 => s
  | S n => match strip_prefix p s with Some r => trim_start_text n p r | None => s end
  end.
(** str::trim_end_matches; the pattern is not empty *)
Definition trim_end_text (p s : text) : text := rev (trim_start_text (length s) (rev p) (rev s)).
(** str::find and the text before it *)
Definition cut_at (p s : text) : text := match find_text p s with Some n => firstn n s | None => s end.
(** str::rfind of a character: the text before and behind it *)
Fixpoint last_split (c : ascii) (s : text) : option (text * text) :=
  match s with
  | [] => None
  | x :: r => match last_split c r with
              | Some (a, b) => Some (x :: a, b)
              | None => if Ascii.eqb x c then Some ([], r) else None
              end
  end.
(** str::split_whitespace, the first part *)
Fixpoint drop_ws (s : text) : text := match s with c :: r => if is_ws c then drop_ws r else s | [] => [] end.
(** CP:298 *)
Definition first_word (s : text) : text := let w := before_any is_ws (drop_ws s) in if is_nil w then s else w.

(** ** The Python API *)
(** PB:80-86 [normalize_package_name] *)
Definition normalize_package_name (n : text) : text := swap "_" "-" (lower n).
(** PB:98-122 a single specifier *)
Definition single_specifier (s : text) : text :=
  match strip_prefix (T "==") s with Some v => v | None =>
  match strip_prefix (T ">=") s with Some v => v ++ T "+" | None =>
  match strip_prefix (T ">") s with Some v => v ++ T "+" | None =>
  match strip_prefix (T "<=") s with Some v => T "<=" ++ v | None =>
  match strip_prefix (T "<") s with Some v => T "<" ++ v | None =>
  match strip_prefix (T "!=") s with Some v => T "!=" ++ v | None => s
  end end end end end end.
(** PB:130 the version behind the lower bound *)
Definition lower_version (s : text) : text := let r := trim_start_text (length s) (T ">=") s in trim_start_text (length r) (T ">") r.
(** PB:93-137 [pip_version_to_rez] *)
Definition pip_version_to_rez (s : text) : text :=
  let parts := map trim (split_on "," s) in
  match parts with
  | [p] => single_specifier p
  | [_; _] => match find (fun p => starts_with (T ">=") p || starts_with (T ">") p) parts, find (starts_with (T "<")) parts with
              | Some lo, Some hi => lower_version lo ++ T "+" ++ hi
              | _, _ => join (T ",") parts
              end
  | _ => join (T ",") parts
  end.
(** PB:152-174 the names of the specifications, [pip_install] *)
Definition pip_install (l : list text) : list text := map (fun s => normalize_package_name (trim (before_any (one_of (T "=><!~")) s))) l.
(** PB:191-204 a requirement *)
Definition convert_requirement (r : text) : text :=
  let base := trim (before_any (one_of (T "[")) r) in
  match from_any (one_of (T "><=!")) base with
  | Some spec => normalize_package_name (before_any (one_of (T "><=!")) base) ++ T "-" ++ pip_version_to_rez spec
  | None => normalize_package_name base
  end.
(** PB:14-24 [PyPipPackage] *)
Record pip_package := mkPip { i_name : text; i_version : text; i_requires : list text; i_description : text }.
(** PB:177-213 [convert_pip_to_rez] *)
Definition convert_pip_to_rez (name version : text) (requires : option (list text)) (description : option text) : pip_package :=
  mkPip (normalize_package_name name) version (map convert_requirement (match requires with Some l => l | None => [] end)) (match description with Some d => d | None => [] end).
(** PB:49-60 the requirements *)
Definition api_requires (l : list text) : text :=
  if is_nil l then [] else NL :: T "requires = [" ++ [NL] ++ join [NL] (map (fun r => T "    " ++ quoted r ++ T ",") l) ++ [NL] ++ T "]" ++ [NL].
(** PB:62-76 the function *)
Definition api_commands : text :=
  ln (T "def commands():") ++ ln (T "    import os") ++
  ln (T "    env.PYTHONPATH.prepend(" ++ quoted (T "{root}/lib/python{python.major}.{python.minor}/site-packages") ++ T ")").
(** PB:48-77 [to_package_py] *)
Definition api_package_py (p : pip_package) : text :=
  ln (T "name = " ++ quoted (i_name p)) ++ ln (T "version = " ++ quoted (i_version p)) ++ ln (T "description = " ++ quoted (i_description p)) ++
  ln (T "authors = [" ++ quoted (T "pip") ++ T "]") ++ ln (api_requires (i_requires p)) ++ api_commands.
(** PB:280-287 the name in a requirement *)
Definition required_name (r : text) : text := before_any (one_of (T "-<>=!~")) (trim r).
(** PB:247-299 [get_pip_dependencies]: the families, each with the requirements of its packages *)
Definition get_pip_dependencies (name : text) (families : list (text * list (list text))) : list text :=
  flat_map (fun f => flat_map (fun reqs =>
    if existsb (fun r => text_eqb (normalize_package_name (required_name r)) (normalize_package_name name)) reqs then [fst f] else []) (snd f)) families.
(** PB:301-331 [write_pip_package]: the directory and the disk *)
Inductive write_result := Written (dir : text) (d : disk) | AlreadyThere | WriteFailed (d : disk).
(** PB:301-331, with the above *)
Definition write_pip_package (f : refusals) (d : disk) (p : pip_package) (install : text) (overwrite : bool) : write_result :=
  let dir := path_join (path_join install (i_name p)) (i_version p) in
  if negb overwrite && exists_at d dir then AlreadyThere
  else match make_dir f d dir with
       | None => WriteFailed d
       | Some d1 => match write_in f d1 dir (T "package.py") (api_package_py p) with Some d2 => Written dir d2 | None => WriteFailed d1 end
       end.

(** ** The command *)
(** CP:13-51 the arguments *)
Record pip_args := mkPipArgs { g_packages : list text; g_release : bool; g_prefix : option text; g_python : option text; g_requirement : option text;
                               g_no_deps : bool; g_force : bool; g_dry_run : bool; g_verbose : N }.
(** files by relative path *)
Definition files := list (text * text).
(** the surroundings: whether a program answers its version, a file that is read, pip install with its arguments on the files of the
    target directory, pip show, the order of a directory, what the system refuses *)
Record outside := mkOutside { u_runs : text -> bool; u_read : text -> option text; u_install : text -> list text -> files -> option files;
                              u_show : text -> text -> files -> option text; u_list : files -> list text; u_refuse : refusals }.
(** CP:53-60 [PipPackageInfo] *)
Record pip_info := mkInfo { n_name : text; n_version : text; n_requires : list text; n_summary : text }.
(** CP:124, 274, 282, 335, 352, 409: the rez form of a name *)
Definition cli_name (n : text) : text := swap "-" "_" (lower n).
(** CP:399-410 [parse_pkg_name_from_spec] *)
Definition operators : list text := map T ["=="; ">="; "<="; "!="; "~="; ">"; "<"; "@"].
(** CP:399-410, with the above *)
Definition parse_pkg_name_from_spec (s : text) : text := cli_name (trim (fold_left (fun n p => cut_at p n) operators s)).
(** CP:235-268 [parse_pip_show_output]: one line *)
Definition show_line (i : pip_info) (l : text) : pip_info :=
  match strip_prefix (T "Name: ") l with Some v => mkInfo (trim v) (n_version i) (n_requires i) (n_summary i) | None =>
  match strip_prefix (T "Version: ") l with Some v => mkInfo (n_name i) (trim v) (n_requires i) (n_summary i) | None =>
  match strip_prefix (T "Requires: ") l with Some v => mkInfo (n_name i) (n_version i) (filter (fun s => negb (is_nil s)) (map trim (split_on "," v))) (n_summary i) | None =>
  match strip_prefix (T "Summary: ") l with Some v => mkInfo (n_name i) (n_version i) (n_requires i) (trim v) | None => i
  end end end end.
(** CP:235-268, with the above *)
Definition parse_pip_show_output (out : text) : option pip_info :=
  let i := fold_left show_line (lines_of out) (mkInfo [] [] [] []) in
  if is_nil (n_name i) || is_nil (n_version i) then None else Some i.
(** CP:293-301 one line of METADATA *)
Definition metadata_line (p : list text * text) (l : text) : list text * text :=
  match strip_prefix (T "Summary: ") l with Some v => (fst p, v) | None =>
  match strip_prefix (T "Requires-Dist: ") l with Some v => (fst p ++ [first_word v], snd p) | None => p
  end end.
(** CP:279-283 the name and the version in the name of a directory *)
Definition dist_info (e : text) : option (text * text) :=
  if ends_with (T ".dist-info") e then last_split "-" (trim_end_text (T ".dist-info") e) else None.
(** CP:270-315 [scan_target_for_package] *)
Fixpoint scan_entries (wanted : text) (t : files) (es : list text) : option pip_info :=
  match es with
  | [] => None
  | e :: es' => match dist_info e with
                | Some (n, v) =>
                    if text_eqb (cli_name n) wanted
                    then let '(reqs, sum) := match aget (e ++ T "/METADATA") t with Some c => fold_left metadata_line (lines_of c) ([], []) | None => ([], []) end in
                         Some (mkInfo n v reqs sum)
                    else scan_entries wanted t es'
                | None => scan_entries wanted t es'
                end
  end.
(** CP:338-350 the requirements *)
Definition cli_requires (l : list text) : text :=
  if is_nil l then T "[]" else T "[" ++ [NL] ++ T "    " ++ join (T "," ++ [NL] ++ T "    ") (map quoted l) ++ [NL] ++ T "]".
(** CP:361-364 the function *)
Definition cli_commands : text :=
  ln (T "def commands():") ++ ln (T "    import os") ++ ln (T "    env.PYTHONPATH.prepend(" ++ quoted (T "{root}/python") ++ T ")").
(** CP:330-370 the text of package.py *)
Definition cli_package_py (i : pip_info) : text :=
  ln (T "name = " ++ quoted (cli_name (n_name i))) ++ ln (T "version = " ++ quoted (n_version i)) ++
  ln (T "description = " ++ quoted (swap DQ SQ (n_summary i))) ++ ln (T "authors = [" ++ quoted (T "pip-rez-next") ++ T "]") ++ [NL] ++
  ln (T "requires = " ++ cli_requires (map cli_name (filter (fun r => negb (is_nil r)) (n_requires i)))) ++ [NL] ++ cli_commands.
(** CP:377-397 [copy_dir_recursive]: the files that were copied until the system refuses one *)
Fixpoint copy_files (f : refusals) (d : disk) (dest : text) (t : files) : disk * bool :=
  match t with
  | [] => (d, true)
  | (r, c) :: t' => if no_write f (path_join dest r) then (d, false)
                    else copy_files f (mkDisk (aput (path_join dest r) c (d_files d)) (d_dirs d)) dest t'
  end.
(** CP:317-375 [create_rez_package] *)
Definition create_rez_package (f : refusals) (d : disk) (i : pip_info) (t : files) (dest : text) : disk * bool :=
  match make_dir f d dest with
  | None => (d, false)
  | Some d1 =>
      match make_dir f d1 (path_join dest (T "python")) with
      | None => (d1, false)
      | Some d2 => let '(d3, ok) := copy_files f d2 (path_join dest (T "python")) t in
                   if ok then match write_in f d3 dest (T "package.py") (cli_package_py i) with Some d4 => (d4, true) | None => (d3, false) end
                   else (d3, false)
      end
  end.
Section Command.
Context (u : outside) (target : text).
(** CP:144-162 [find_python] *)
Definition find_python (a : pip_args) : option text :=
  match g_python a with
  | Some p => Some p
  | None => find (u_runs u) (map T ["python3"; "python"; "python3.11"; "python3.10"; "python3.9"])
  end.
(** CP:175-193 the arguments of pip *)
Definition install_args (a : pip_args) (spec : text) : list text :=
  map T ["-m"; "pip"; "install"; "--target"] ++ [target; spec] ++ (if g_no_deps a then [T "--no-deps"] else []) ++ (if g_force a then [T "--force-reinstall"] else []) ++
  (if (1 <? g_verbose a)%N then [T "-v"] else if (g_verbose a =? 0)%N then [T "-q"] else []).
(** CP:209-233 [discover_installed_package] *)
Definition discover (python spec : text) (t : files) : option pip_info :=
  let n := parse_pkg_name_from_spec spec in
  match u_show u python n t with
  | Some out => parse_pip_show_output out
  | None => scan_entries (cli_name n) t (u_list u t)
  end.
(** CP:112-135 one specification: the disk, the files in the target directory, whether it went well *)
Definition package_dir (install : text) (i : pip_info) : text := path_join (path_join install (cli_name (n_name i))) (n_version i).
(** CP:112-135, with the above *)
Definition pip_one (a : pip_args) (python install : text) (d : disk) (t : files) (spec : text) : disk * files * bool :=
  if g_dry_run a then (d, t, true)
  else match u_install u python (install_args a spec) t with
       | None => (d, t, false)
       | Some t' => match discover python spec t' with
                    | None => (d, t', true)
                    | Some i => let '(d', ok) := create_rez_package (u_refuse u) d i t' (package_dir install i) in (d', t', ok)
                    end
       end.
(** CP:112-135, with the above *)
Fixpoint pip_all (a : pip_args) (python install : text) (d : disk) (t : files) (specs : list text) : disk * bool :=
  match specs with
  | [] => (d, true)
  | s :: r => let '(d', t', ok) := pip_one a python install d t s in if ok then pip_all a python install d' t' r else (d', false)
  end.
(** CP:85-104 the specifications *)
Definition collect_specs (a : pip_args) : option (list text) :=
  match g_requirement a with
  | None => Some (g_packages a)
  | Some f => match u_read u f with
              | Some c => Some (g_packages a ++ filter (fun l => negb (is_nil l) && negb (starts_with (T "#") l)) (map trim (lines_of c)))
              | None => None
              end
  end.
(** CP:62-142 [execute]; the temporary directory is empty at first *)
Definition execute (a : pip_args) (local release : text) (d : disk) : disk * bool :=
  let install := match g_prefix a with Some p => p | None => if g_release a then release else local end in
  match find_python a with
  | None => (d, false)
  | Some python => match collect_specs a with
                   | None | Some [] => (d, false)
                   | Some specs => pip_all a python install d [] specs
                   end
  end.
End Command.
