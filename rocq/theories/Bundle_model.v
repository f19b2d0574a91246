(** Model of bundles: the Python functions and the bundle command.
    Sources: crates/rez-next-python/src/bundle_functions.rs (BF) and src/cli/commands/bundle.rs (BC).
    Simplifications: the disk is a tree as in Files_model.v; a text leads to a path as a parameter says; what the resolver finds, the texts of bundle.json and context.rxt and the time are parameters;
    packages hold files and directories only, and copying anything else fails; links are not followed; a source is read before anything is written;
    a directory copied into itself goes on without end, although the code stops when its path is too long; a call that writes fails where [io] says so, and a failed write leaves the given text or changes nothing;
    the scripts for PowerShell and cmd are modelled as texts only; Unix. *)
From Verif Require Import Base Maps Sorting Range_model Files_model Query_model Env_model Rex_model.
Open Scope string_scope. Open Scope list_scope.

(** ** The Python functions *)
(** BF:26-33: the manifest *)
Definition manifest (packages : list text) (skip_solve : bool) : text :=
  T "# rez bundle manifest" ++ [NL] ++ T "packages:" ++ [NL] ++ join [NL] (map (fun p => T "  - " ++ p) packages) ++ [NL] ++ T "skip_solve: " ++ (if skip_solve then T "true" else T "false") ++ [NL].
(** BF:69 [BufRead::lines] *)
Definition chomp (l : text) : text := match rev l with c :: r => if Ascii.eqb c CR then rev r else l | [] => l end.
(** BF:69, with the above *)
Definition file_lines (s : text) : list text := map chomp (let ls := split_on NL s in if is_nil (last ls []) then removelast ls else ls).
(** BF:66-84: the packages of a manifest *)
Fixpoint read_manifest (in_packages : bool) (ls : list text) : list text :=
  match ls with
  | [] => []
  | l :: r =>
    let t := trim l in
    if text_eqb t (T "packages:") then read_manifest true r
    else if in_packages then
      match strip_prefix (T "- ") t with
      | Some p => p :: read_manifest true r
      | None => if negb (is_nil t) && negb (starts_with (T " ") t) && negb (starts_with (T "-") t) then read_manifest false r else read_manifest true r
      end
    else read_manifest false r
  end.
(** BF:12-39 [bundle_context] without failing calls: the disk afterwards; [None] if the directory cannot be made *)
Definition bundle_context (packages : list text) (dest : path) (skip_solve : bool) (x : node) : option node :=
  match get dest x with
  | Some (Dir _) => match get (dest ++ [T "bundle.yaml"]) x with Some (Dir _) => None | _ => put (dest ++ [T "bundle.yaml"]) (File (manifest packages skip_solve)) x end
  | Some _ => None
  | None => put (dest ++ [T "bundle.yaml"]) (File (manifest packages skip_solve)) x
  end.
(** BF:44-88 [unbundle_context]: [None] without a manifest *)
Definition unbundle_context (dir : path) (x : node) : option (list text) :=
  match get (dir ++ [T "bundle.yaml"]) x with
  | Some (File c) => Some (read_manifest false (file_lines c))
  | _ => None
  end.
(** BF:93-121 [list_bundles] *)
Definition list_bundles (base : path) (x : node) : list text :=
  match get base x with
  | Some (Dir es) => sort_by text_cmp (map fst (filter (fun e => match snd e with Dir fs => ahas (T "bundle.yaml") fs | _ => false end) es))
  | _ => []
  end.

(** ** The command *)
(** BC:79-93 [looks_like_path] *)
Definition has_char (c : ascii) (s : text) : bool := existsb (Ascii.eqb c) s.
(** BC:79-93, with the above *)
Definition looks_like_path (s : text) : bool :=
  (match s with _ :: c :: _ :: _ => Ascii.eqb c ":" | _ => false end)
  || (starts_with (T "/") s || starts_with [BS] s)
  || (has_char "/" s || has_char BS s).
(** BC:22-47: the options *)
Record bundle_args := mkBundle { b_packages : list text; b_output : option text; b_name : option text; b_skip_copy : bool }.
(** BC:97-118: the requests and the directory; [None] without requests *)
Definition bundle_request (a : bundle_args) : option (list text * option text) :=
  match rev (b_packages a) with
  | [] => None
  | l :: r =>
    match b_output a with
    | Some o => Some (b_packages a, Some o)
    | None => if looks_like_path l then match r with [] => None | _ => Some (rev r, Some l) end else Some (b_packages a, None)
    end
  end.
(** BC:120-127: the name *)
Definition bundle_name (a : bundle_args) (packages : list text) : text :=
  match b_name a with
  | Some n => n
  | None => join (T "_") (map (map (fun c => if Ascii.eqb c "-" || Ascii.eqb c "." then "_"%char else c)) packages)
  end.
(** BC:129-135: the directory *)
Definition bundle_output (name : text) (output : option text) : text := match output with Some o => o | None => path_join (T ".") name end.
(** BC:187-191: the version as text *)
Definition version_text (v : option text) : text := match v with Some v => v | None => T "unknown" end.
(** BC:352-360 [find_package_dir] *)
Fixpoint find_source (name version : text) (bases : list path) (x : node) : option path :=
  match bases with
  | [] => None
  | b :: bs => if exists_at (b ++ [name; version]) x then Some (b ++ [name; version]) else find_source name version bs x
  end.
(** BC:238-255: bundle.yaml *)
Definition bundle_yaml (name now : text) (requests : list text) (packages : list (text * option text)) : text :=
  join [NL] ([T "name: " ++ name; T "version: " ++ T "1"; T "created_at: " ++ now; T "requests:"] ++ map (fun r => T "  - " ++ r) requests ++ [T "packages:"] ++
             flat_map (fun p => [T "  - name: " ++ fst p; T "    version: " ++ version_text (snd p)]) packages) ++ [NL].
(** BC:384-417: the variables of the scripts *)
Definition package_root (out name version : text) : text := path_join (path_join (path_join out (T "packages")) name) version.
(** BC:384-417, with the above *)
Definition script_vars_with (has_bin : text * option text -> bool) (out : text) (vars : list (text * text)) (p : text * option text) : list (text * text) :=
  let root := package_root out (fst p) (version_text (snd p)) in
  let vars' := aput (upper (fst p) ++ T "_ROOT") root vars in
  if has_bin p then
    let old := or_empty (aget (T "PATH") vars') in
    aput (T "PATH") (if is_nil old then path_join root (T "bin") else path_join root (T "bin") ++ T ":" ++ old) vars'
  else vars'.
(** BC:379-417 *)
Definition script_env (has_bin : text * option text -> bool) (out : text) (packages : list (text * option text)) : renv :=
  mkRenv (fold_left (script_vars_with has_bin out) packages []) [] [] [] [] false None.

(** BC:174-263: the outcome of calls: whether they went well, the disk, and the number of calls; or no end *)
Inductive ran := Ran (ok : bool) (x : node) (n : nat) | Endless.
Section Io.
Variable io : nat -> option (option text).
(** BC:174, 177, 364 [create_dir_all] *)
Definition make_dir (p : path) (x : node) (n : nat) : ran :=
  match io n with
  | Some _ => Ran false x (S n)
  | None =>
    match get p x with
    | Some (Dir _) => Ran true x (S n)
    | Some _ => Ran false x (S n)
    | None => match put p (Dir []) x with Some x' => Ran true x' (S n) | None => Ran false x (S n) end
    end
  end.
(** BC:236, 255, 260, 422, 427, 432 [fs::write], 372 [fs::copy] *)
Definition write_file (p : path) (c : text) (x : node) (n : nat) : ran :=
  match get p x with
  | Some (Dir _) => Ran false x (S n)
  | _ =>
    match io n with
    | Some None => Ran false x (S n)
    | Some (Some j) => Ran false (match put p (File j) x with Some x' => x' | None => x end) (S n)
    | None => match put p (File c) x with Some x' => Ran true x' (S n) | None => Ran false x (S n) end
    end
  end.
(** the question mark of Rust *)
Definition and_then (r : ran) (f : node -> nat -> ran) : ran := match r with Ran true x n => f x n | _ => r end.
(** BC:363-376 [copy_dir_recursive], on the entries found in the source *)
Fixpoint copy_over (p : path) (y x : node) (n : nat) : ran :=
  match y with
  | File c => write_file p c x n
  | Dir es =>
    and_then (make_dir p x n)
      ((fix loop (l : list (text * node)) (x : node) (n : nat) : ran :=
         match l with
         | [] => Ran true x n
         | (c, z) :: r => and_then (copy_over (p ++ [c]) z x n) (loop r)
         end) es)
  | _ => Ran false x (S n)
  end.
(** BC:372: a file copied onto itself is opened for writing first and so is empty *)
Fixpoint emptied (y : node) : node :=
  match y with
  | File _ => File []
  | Dir es => Dir ((fix each (l : list (text * node)) := match l with [] => [] | (c, z) :: r => (c, emptied z) :: each r end) es)
  | _ => y
  end.
(** BC:363-376 from its arguments: the destination is made first; a source that is a file cannot be listed; a destination inside the source is filled without end *)
Definition copy_source (src dest : path) (x : node) (n : nat) : ran :=
  match get src x with
  | Some (Dir es) =>
    if leads src dest then
      if leads dest src then copy_over dest (emptied (Dir es)) x n
      else match make_dir dest x n with Ran true _ _ => Endless | r => r end
    else copy_over dest (Dir es) x n
  | _ => match make_dir dest x n with Ran _ x' n' => Ran false x' n' | Endless => Endless end
  end.
(** BC:184-223: all packages; a copy that fails is passed over *)
Fixpoint copy_packages (skip : bool) (bases : list path) (out : path) (ps : list (text * option text)) (x : node) (n : nat) : ran :=
  match ps with
  | [] => Ran true x n
  | (name, v) :: r =>
    match (if skip then None else find_source name (version_text v) bases x) with
    | Some src => match copy_source src (out ++ [T "packages"; name; version_text v]) x n with Ran _ x' n' => copy_packages skip bases out r x' n' | Endless => Endless end
    | None => copy_packages skip bases out r x n
    end
  end.
(** BC:225-263, 379-435: the files of the bundle *)
Fixpoint write_files (out : path) (fs : list (text * text)) (x : node) (n : nat) : ran :=
  match fs with [] => Ran true x n | (f, c) :: r => and_then (write_file (out ++ [f]) c x n) (write_files out r) end.
Section Command.
(** what is around: which requests can be read, what the resolver finds, where a text leads, the texts of the other files, the order of a map *)
Variable parses : text -> bool.
Variable resolve : list text -> option (list (text * option text)).
Variable place : text -> path.
Variable now : text.
Variable json rxt : list text -> list (text * option text) -> text.
Variable ord : list (text * text) -> list (text * text).
(** BC:154-165: a failed resolution is an empty one *)
Definition resolved (requests : list text) : list (text * option text) := match resolve requests with Some ps => ps | None => [] end.
(** BC:404-405: which packages have a bin directory in the bundle *)
Definition bin_at (out : path) (x : node) (p : text * option text) : bool := exists_at (out ++ [T "packages"; fst p; version_text (snd p); T "bin"]) x.
(** BC:173-280 after the resolution *)
Definition make_bundle (a : bundle_args) (bases : list path) (requests : list text) (out_text : text) (x : node) (n : nat) : ran :=
  let out := place out_text in
  let ps := resolved requests in
  and_then (make_dir out x n) (fun x n =>
  and_then (make_dir (out ++ [T "packages"]) x n) (fun x n =>
  and_then (copy_packages (b_skip_copy a) bases out ps x n) (fun x n =>
  and_then (write_files out [(T "bundle.json", json requests ps); (T "bundle.yaml", bundle_yaml (bundle_name a requests) now requests ps); (T "context.rxt", rxt requests ps)] x n) (fun x n =>
  let env := script_env (bin_at out x) out_text ps in
  write_files out [(T "activate.sh", bash_script ord env); (T "activate.ps1", ps_script ord env); (T "activate.bat", cmd_script ord env)] x n)))).
(** BC:96-280 [execute] *)
Definition bundle (a : bundle_args) (bases : list path) (x : node) : ran :=
  match bundle_request a with
  | None => Ran false x 0
  | Some (requests, output) =>
    if forallb parses requests then make_bundle a bases requests (bundle_output (bundle_name a requests) output) x 0
    else Ran false x 0
  end.
End Command.
End Io.
