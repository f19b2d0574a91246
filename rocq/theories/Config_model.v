(** Model of the two readers of settings: [Config] of crates/rez-next-config/src/lib.rs (CF), which the Python
    interface uses, and [RezCoreConfig] of crates/rez-next-common/src/config.rs (CC), which the commands use.
    Files are named by their path texts and two names are two files.  TOML, YAML and JSON are libraries: a file
    that can be read is a tree of [json].  Letters are ASCII.  Environment variables hold texts (no other bytes). *)
From Verif Require Import Base Base_lemmas Maps Json.
Open Scope string_scope. Open Scope list_scope.

(** what is at a path: nothing, a directory or other thing that cannot be read as text, or a file of text.
    [Path::exists] CF:294 CC:198 CC:209 and [read_to_string] CF:185 CC:210 *)
Inductive node := Unreadable | File (s : text).
(** the files of the machine, as CF:185 and CC:209-210 see them *)
Definition files := text -> option node.
(** [Path::exists] CF:294, CF:301, CC:198 *)
Definition exists_at (fs : files) (p : text) : bool := match fs p with Some _ => true | None => false end.
(** [fs::read_to_string] CF:185, CC:210 *)
Definition read_at (fs : files) (p : text) : option text := match fs p with Some (File s) => Some s | _ => None end.
(** [Path::join] of a relative name CF:300, CC:148 *)
Definition path_join (d x : text) : text := if is_nil d || ends_with (T "/") d then d ++ x else d ++ T "/" ++ x.

(** ** CF *)
(** the loops CF:133-136 and CC:248-250: [Value::get] part by part *)
Fixpoint walk (parts : list text) (j : json) : option json :=
  match parts with
  | [] => Some j
  | k :: r => match jget k j with Some v => walk r v | None => None end
  end.
(** [Config::get] CF:129-139 *)
Definition cfg_get (key : text) (j : json) : option json := walk (split_on "." key) j.
(** [get_string] CF:142-144 *)
Definition cfg_string (key : text) (j : json) : option text := match cfg_get key j with Some v => as_str v | None => None end.
(** [get_bool] CF:147-149 *)
Definition cfg_bool (key : text) (j : json) : option bool := match cfg_get key j with Some v => as_bool v | None => None end.
(** [get_i64] CF:152-154 *)
Definition cfg_i64 (key : text) (j : json) : option Z := match cfg_get key j with Some v => as_i64 v | None => None end.
(** [contains_key] CF:172-174 *)
Definition cfg_contains (key : text) (j : json) : bool := match cfg_get key j with Some _ => true | None => false end.
(** [Value::is_object] CF:244 *)
Definition is_object (j : json) : bool := match j with JObj _ => true | _ => false end.
(** [Value::is_null] CF:235 *)
Definition is_null (j : json) : bool := match j with JNull => true | _ => false end.
(** [Config::merge_value] CF:234-260; the first argument is the value merged in, the second the data *)
Fixpoint merge (new old : json) : json :=
  if is_null old then new
  else match old, new with
  | JObj o, JObj n =>
      JObj (fold_left (fun m b =>
        match b with (k, v) =>
          match aget k m with
          | Some e => if is_object e && is_object v then aput k (merge v e) m else aput k v m
          | None => aput k v m
          end
        end) n o)
  | _, _ => new
  end.
(** [set_nested_value] CF:352-361 with [get_or_create_nested] CF:364-377: on the way things that are no tables
    become tables and missing tables are made; the last table is not made if something else is there *)
Fixpoint set_nested (segs : list text) (v : json) (j : json) : json :=
  match segs with
  | [] => j (* split gives at least one segment *)
  | [k] => match j with JObj m => JObj (aput k v m) | _ => j end
  | k :: r =>
      let m := match j with JObj m => m | _ => [] end in
      JObj (aput k (set_nested r v (match aget k m with Some e => e | None => JObj [] end)) m)
  end.
(** the dotted key of a variable CF:270-271; [replace] of one character by one character *)
Definition env_key (name : text) : option text :=
  if starts_with (T "REZ_") name then Some (map (fun c => if Ascii.eqb c "_" then "."%char else c) (map to_lower (skipn 4 name))) else None.
(** the value of a variable CF:272-273; [parse] is serde_json *)
Definition env_value (parse : text -> option json) (v : text) : json := match parse v with Some j => j | None => JStr v end.
(** one turn of the loop CF:269-278 *)
Definition env_step (parse : text -> option json) (j : json) (b : text * text) : json :=
  match env_key (fst b) with Some d => set_nested (split_on "." d) (env_value parse (snd b)) j | None => j end.
(** [apply_env_overrides] CF:267-283; [vars] in the order of [env::vars] *)
Definition env_overrides (parse : text -> option json) (vars : list (text * text)) (j : json) : json := fold_left (env_step parse) vars j.
(** [locations.into_iter().find(|loc| loc.exists())] CF:294 *)
Definition first_existing (fs : files) (l : list text) : option text := find (exists_at fs) l.
(** [find_system_config] CF:286-295 *)
Definition system_places : list text := [T "/etc/rez/rezconfig.toml"; T "/etc/rezconfig.toml"; T "C:\ProgramData\rez\rezconfig.toml"].
(** [find_user_config] CF:298-315; the two directories are those of the dirs library *)
Definition user_places (confdir home : option text) : list text :=
  match confdir with Some d => [path_join (path_join d (T "rez")) (T "rezconfig.toml")] | None => [] end ++
  match home with Some d => [path_join (path_join d (T ".rez")) (T "rezconfig.toml")] | None => [] end.
(** [find_project_config] CF:318-328 *)
Definition project_places (cwd : option text) : list text := match cwd with Some d => [path_join (path_join d (T ".rez")) (T "rezconfig.toml")] | None => [] end.
(** [merge_file] CF:177-231 for names that end with .toml, as all the places do; [toml] is the two conversions CF:202-215 *)
Definition merge_file (toml : text -> option json) (fs : files) (p : text) (j : json) : option json :=
  match read_at fs p with
  | Some s => match toml s with Some v => Some (merge v j) | None => None end
  | None => None
  end.
(** the file of one layer, if there is one, CF:99-111 *)
Definition layer (toml : text -> option json) (fs : files) (places : list text) (j : json) : option json :=
  match first_existing fs places with Some p => merge_file toml fs p j | None => Some j end.
(** [Config::load] CF:95-119; [locked] is false there *)
Definition load (toml parse : text -> option json) (fs : files) (confdir home cwd : option text) (vars : list (text * text)) : option json :=
  match layer toml fs system_places (JObj []) with
  | None => None
  | Some a =>
    match layer toml fs (user_places confdir home) a with
    | None => None
    | Some b =>
      match layer toml fs (project_places cwd) b with
      | None => None
      | Some c => Some (env_overrides parse vars c)
      end
    end
  end.

(** ** CC *)
(** [CacheConfig] CC:71-83 *)
Record cache_cfg := mkCache { c_memory : bool; c_disk : bool; c_size : Z; c_ttl : Z }.
(** [RezCoreConfig] CC:10-67 *)
Record core := mkCore {
  k_version_rs : bool; k_solver_rs : bool; k_repo_rs : bool; k_fallback : bool; k_threads : option Z; k_cache : cache_cfg;
  k_packages : list text; k_local : text; k_release : text; k_shell : text; k_version : text; k_plugins : list text; k_pkgcache : list text;
  k_tmp : text; k_editor : text; k_viewer : text; k_browser : text; k_diff : text; k_term : text }.
(** the names of the fields CC:10-67, in order *)
Definition core_fields : list text :=
  [T "use_rust_version"; T "use_rust_solver"; T "use_rust_repository"; T "rust_fallback"; T "thread_count"; T "cache"; T "packages_path";
   T "local_packages_path"; T "release_packages_path"; T "default_shell"; T "version"; T "plugin_path"; T "package_cache_path"; T "tmpdir"; T "editor";
   T "image_viewer"; T "browser"; T "difftool"; T "terminal_emulator_command"].
(** the names of the fields CC:71-83 *)
Definition cache_fields : list text := [T "enable_memory_cache"; T "enable_disk_cache"; T "memory_cache_size"; T "cache_ttl_seconds"].
(** a derived [Deserialize] CC:8, CC:70: a map in which no known field is repeated, unknown ones are passed over, or an
    array with exactly the fields in order *)
Definition repeated (names : list text) (m : list (text * json)) : bool :=
  existsb (fun k => Nat.leb 2 (List.length (filter (fun b => text_eqb k (fst b)) m))) names.
(** the map or the array of a derived [Deserialize] CC:8, CC:70 *)
Definition struct_map (names : list text) (j : json) : option (list (text * json)) :=
  match j with
  | JObj m => if repeated names m then None else Some m
  | JArr l => if Nat.eqb (List.length l) (List.length names) then Some (combine names l) else None
  | _ => None
  end.
(** a field that has to be there CC:12-82; [f] reads its type *)
Definition field {A} (f : json -> option A) (k : text) (m : list (text * json)) : option A := match aget k m with Some v => f v | None => None end.
(** [usize] and [u64]: whole numbers of 64 bits CC:24, CC:79, CC:82 *)
Definition de_u64 (j : json) : option Z := match j with JNum n => if ((0 <=? n) && (n <=? Z.of_N U64_MAX))%Z then Some n else None | _ => None end.
(** the elements of a [Vec<String>] CC:30, CC:45, CC:48 *)
Fixpoint de_texts (l : list json) : option (list text) :=
  match l with
  | [] => Some []
  | x :: r => match as_str x with Some s => match de_texts r with Some t => Some (s :: t) | None => None end | None => None end
  end.
(** [Vec<String>] CC:30, CC:45, CC:48 *)
Definition de_list (j : json) : option (list text) := match j with JArr l => de_texts l | _ => None end.
(** [Option<usize>] CC:24: it may be missing or null *)
Definition de_threads (m : list (text * json)) : option (option Z) :=
  match aget (T "thread_count") m with
  | None | Some JNull => Some None
  | Some v => match de_u64 v with Some n => Some (Some n) | None => None end
  end.
(** the [?] of a derived [Deserialize] CC:8 *)
Definition obind {A B} (x : option A) (f : A -> option B) : option B := match x with Some a => f a | None => None end.
(** [CacheConfig::deserialize] CC:70-83 *)
Definition de_cache (j : json) : option cache_cfg :=
  obind (struct_map cache_fields j) (fun m =>
  obind (field as_bool (T "enable_memory_cache") m) (fun a => obind (field as_bool (T "enable_disk_cache") m) (fun b =>
  obind (field de_u64 (T "memory_cache_size") m) (fun c => obind (field de_u64 (T "cache_ttl_seconds") m) (fun d => Some (mkCache a b c d)))))).
(** [RezCoreConfig::deserialize] CC:8-67 *)
Definition de_core (j : json) : option core :=
  obind (struct_map core_fields j) (fun m =>
  obind (field as_bool (T "use_rust_version") m) (fun a1 => obind (field as_bool (T "use_rust_solver") m) (fun a2 =>
  obind (field as_bool (T "use_rust_repository") m) (fun a3 => obind (field as_bool (T "rust_fallback") m) (fun a4 =>
  obind (de_threads m) (fun a5 => obind (field de_cache (T "cache") m) (fun a6 => obind (field de_list (T "packages_path") m) (fun a7 =>
  obind (field as_str (T "local_packages_path") m) (fun a8 => obind (field as_str (T "release_packages_path") m) (fun a9 =>
  obind (field as_str (T "default_shell") m) (fun a10 => obind (field as_str (T "version") m) (fun a11 =>
  obind (field de_list (T "plugin_path") m) (fun a12 => obind (field de_list (T "package_cache_path") m) (fun a13 =>
  obind (field as_str (T "tmpdir") m) (fun a14 => obind (field as_str (T "editor") m) (fun a15 => obind (field as_str (T "image_viewer") m) (fun a16 =>
  obind (field as_str (T "browser") m) (fun a17 => obind (field as_str (T "difftool") m) (fun a18 =>
  obind (field as_str (T "terminal_emulator_command") m) (fun a19 =>
  Some (mkCore a1 a2 a3 a4 a5 a6 a7 a8 a9 a10 a11 a12 a13 a14 a15 a16 a17 a18 a19))))))))))))))))))))).
(** the derived [Serialize] CC:8, CC:70 of a [Vec<String>] *)
Definition ser_list (l : list text) : json := JArr (map JStr l).
(** [CacheConfig::serialize] CC:70-83 *)
Definition ser_cache (c : cache_cfg) : json := JObj (combine cache_fields [JBool (c_memory c); JBool (c_disk c); JNum (c_size c); JNum (c_ttl c)]).
(** [RezCoreConfig::serialize] CC:8-67 *)
Definition ser_core (c : core) : json :=
  JObj (combine core_fields
    [JBool (k_version_rs c); JBool (k_solver_rs c); JBool (k_repo_rs c); JBool (k_fallback c);
     match k_threads c with Some n => JNum n | None => JNull end; ser_cache (k_cache c); ser_list (k_packages c);
     JStr (k_local c); JStr (k_release c); JStr (k_shell c); JStr (k_version c); ser_list (k_plugins c); ser_list (k_pkgcache c);
     JStr (k_tmp c); JStr (k_editor c); JStr (k_viewer c); JStr (k_browser c); JStr (k_diff c); JStr (k_term c)]).
(** [RezCoreConfig::default] CC:92-136 on Unix; [version] is CARGO_PKG_VERSION and [tmp] is [temp_dir] *)
Definition default_core (version tmp : text) : core :=
  mkCore true true true true None (mkCache true true 1000 3600)
    [T "~/packages"; T "~/.rez/packages/int"; T "~/.rez/packages/ext"] (T "~/packages") (T "~/.rez/packages/int") (T "bash") version [] [T "~/.rez/cache"]
    tmp (T "vi") (T "xdg-open") (T "xdg-open") (T "diff") (T "xterm").
(** the machine, as far as CC:141-237 looks at it; the environment has every name once *)
Record machine := mkMachine { m_files : files; m_exe : option text; m_env : list (text * text); m_version : text; m_tmp : text }.
(** [env::var] CC:153, CC:170, CC:175, CC:226-232 *)
Definition var (m : machine) (x : text) : option text := aget x (m_env m).
(** [get_search_paths] CC:141-191 on Unix *)
Definition search_paths (m : machine) : list text :=
  match m_exe m with Some d => [path_join d (T "rezconfig.yaml"); path_join d (T "rezconfig.json")] | None => [] end ++
  match var m (T "REZ_CONFIG_FILE") with Some s => split_on "/" s | None => [] end ++
  [T "/etc/rez/config.yaml"; T "/usr/local/etc/rez/config.yaml"] ++
  (if text_eqb (map to_lower (match var m (T "REZ_DISABLE_HOME_CONFIG") with Some s => s | None => [] end)) (T "1") then []
   else match var m (T "HOME") with
        | Some h => [path_join h (T ".rezconfig"); path_join h (T ".rezconfig.yaml"); path_join (path_join h (T ".rez")) (T "config.yaml")]
        | None => []
        end).
(** [get_sourced_paths] CC:195-200 *)
Definition sourced_paths (m : machine) : list text := filter (exists_at (m_files m)) (search_paths m).
(** the text of a file as settings CC:213-221: as YAML, else as JSON.  Simplification: a plain YAML scalar is a number or
    a truth value in the tree even where serde_yaml would give its letters to a field of text *)
Definition read_core (yaml parse : text -> option json) (s : text) : option core :=
  match obind (yaml s) de_core with Some c => Some c | None => obind (parse s) de_core end.
(** the loop CC:208-223 *)
Fixpoint first_loaded (yaml parse : text -> option json) (fs : files) (l : list text) : option core :=
  match l with
  | [] => None
  | p :: r => match obind (read_at fs p) (read_core yaml parse) with Some c => Some c | None => first_loaded yaml parse fs r end
  end.
(** [split_env_paths] CC:256-264 on Unix *)
Definition split_env_paths (s : text) : list text := filter (fun p => negb (is_nil p)) (map trim (split_on ":" s)).
(** the overrides CC:226-234 *)
Definition with_env (m : machine) (c : core) : core :=
  mkCore (k_version_rs c) (k_solver_rs c) (k_repo_rs c) (k_fallback c) (k_threads c) (k_cache c)
    (match var m (T "REZ_PACKAGES_PATH") with Some s => split_env_paths s | None => k_packages c end)
    (match var m (T "REZ_LOCAL_PACKAGES_PATH") with Some s => s | None => k_local c end)
    (match var m (T "REZ_RELEASE_PACKAGES_PATH") with Some s => s | None => k_release c end)
    (k_shell c) (k_version c) (k_plugins c) (k_pkgcache c) (k_tmp c) (k_editor c) (k_viewer c) (k_browser c) (k_diff c) (k_term c).
(** [RezCoreConfig::load] CC:204-237 *)
Definition core_load (yaml parse : text -> option json) (m : machine) : core :=
  with_env m (match first_loaded yaml parse (m_files m) (search_paths m) with Some c => c | None => default_core (m_version m) (m_tmp m) end).
(** [get_field] CC:241-253 *)
Definition get_field (c : core) (path : text) : option json := walk (split_on "." path) (ser_core c).
