(** What a build should do. Of the models only the types, [get] and the texts of Base are used. *)
From Verif Require Import Base Maps Files_model Files_spec Rex_spec Bundle_spec Build_model.
Open Scope string_scope. Open Scope list_scope.

(** ** Steps *)
(** the steps in their order *)
Definition course : list step := [Preparing; Configuring; Compiling; Testing; Packaging; Installing; PackageTesting; Cleanup].
(** steps that pass one after the other, with what they gave *)
Inductive passes {W} (exec : step -> W -> W * (done + text)) : list step -> W -> list (step * done) -> W -> Prop :=
| passes_nil w : passes exec [] w [] w
| passes_cons s ss w w1 w2 d ds : exec s w = (w1, inl d) -> d_ok d = true -> passes exec ss w1 ds w2 -> passes exec (s :: ss) w ((s, d) :: ds) w2.
(** a step was carried out and failed, or could not be carried out *)
Definition fails {W} (exec : step -> W -> W * (done + text)) (s : step) (w : W) (d : done) (w' : W) : Prop := exec s w = (w', inl d) /\ d_ok d = false.
Definition errs {W} (exec : step -> W -> W * (done + text)) (s : step) (w : W) (e : text) (w' : W) : Prop := exec s w = (w', inr e).
Definition no_errors {W} (exec : step -> W -> W * (done + text)) : Prop := forall s w, exists w' d, exec s w = (w', inl d).
Definition newline : ascii := ascii_of_nat 10.
Definition called (s : step) : text :=
  match s with
  | Preparing => T "Preparing" | Configuring => T "Configuring" | Compiling => T "Compiling" | Testing => T "Testing"
  | Packaging => T "Packaging" | Installing => T "Installing" | PackageTesting => T "PackageTesting" | Cleanup => T "Cleanup"
  end.
(** the output of steps under their headings, and their errors if they have any *)
Fixpoint outputs (ds : list (step * done)) : text := match ds with [] => [] | (s, d) :: r => T "=== " ++ called s ++ T " ===" ++ [newline] ++ d_out d ++ [newline] ++ outputs r end.
Fixpoint warnings (ds : list (step * done)) : text :=
  match ds with [] => [] | (s, d) :: r => (match d_err d with [] => [] | e => T "=== " ++ called s ++ T " Errors ===" ++ [newline] ++ e ++ [newline] end) ++ warnings r end.

(** ** Events *)
(** a line without the white space around it, and the lines of a text that are not blank *)
Definition bare (l m : text) : Prop := exists a b, l = a ++ m ++ b /\ blanks a /\ blanks b /\ m <> [] /\ visible m /\ ends_visibly m.
Inductive bare_lines : list text -> list text -> Prop :=
| bare_nil : bare_lines [] []
| bare_blank l ls ms : blanks l -> bare_lines ls ms -> bare_lines (l :: ls) ms
| bare_line l m ls ms : bare l m -> bare_lines ls ms -> bare_lines (l :: ls) (m :: ms).
Definition lines_shown (t : text) (ms : list text) : Prop := exists ls, ls <> [] /\ Forall (fun l => ~ In newline l) ls /\ t = join [newline] ls /\ bare_lines ls ms.
(** the events of one step *)
Definition chapter (s : step) (d : done) (es : list event) : Prop :=
  exists os er, lines_shown (d_out d) os /\ lines_shown (d_err d) er /\ es = StepStarted s :: map (StepOutput s) os ++ map (StepError s) er ++ [StepFinished s (d_ok d)].
Inductive chapters : list (step * done) -> list event -> Prop :=
| chapters_nil : chapters [] []
| chapters_cons s d ds es rest : chapter s d es -> chapters ds rest -> chapters ((s, d) :: ds) (es ++ rest).

(** ** The manager *)
Definition sound (m : manager) : Prop :=
  st_running (m_stats m) = length (m_active m) /\ st_started (m_stats m) = st_running (m_stats m) + st_ok (m_stats m) + st_failed (m_stats m) /\ NoDup (m_active m).
Definition starts (cs : list call) : list text := flat_map (fun c => match c with CallStart id _ => [id] | _ => [] end) cs.
Definition no_reset (cs : list call) : Prop := ~ In CallReset cs.
Definition no_limit (cs : list call) : Prop := forall n, ~ In (CallMax n) cs.

(** ** The environment *)
(** the variables that belong to a variant, and those that say where the source is *)
Definition variant_names : list text := [T "REZ_BUILD_VARIANT_INDEX"; T "REZ_BUILD_VARIANT_REQUIRES"; T "REZ_BUILD_REQUIRES"; T "REZ_BUILD_REQUIRES_UNVERSIONED"; T "REZ_BUILD_VARIANT_SUBPATH"].
Definition source_names : list text := [T "REZ_BUILD_SOURCE_PATH"; T "REZ_BUILD_PROJECT_FILE"].
Definition mentions (k : text) (vs : list (text * text)) : Prop := In k (map fst vs).
Definition unmentioned (k : text) (vs : list (text * text)) : Prop := ~ In k (map fst vs).
Definition settings_of (q : request) : list (text * text) := match q_context q with Some vs => vs | None => [] end.
(** a directory written as an absolute path, and one part of a path *)
Definition abs_dir (s : text) : Prop := (exists c r, s = "/"%char :: c :: r /\ c <> ":"%char) /\ dir_text s.
Definition part (s : text) : Prop := s <> [] /\ ~ In "/"%char s.
(** a value that double quotes keep as it is *)
Definition quotable (v : text) : Prop := no_expansion v /\ ~ In """"%char v /\ ~ In "\"%char v.

(** ** Build systems *)
(** what the names in a source directory stand for, the first that is there counts *)
Definition marks : list (text * system) :=
  [(T "rezbuild.py", Custom (T "rezbuild.py")); (T "build.sh", Custom (T "build.sh")); (T "build.bat", Custom (T "build.bat")); (T "build.py", Custom (T "build.py")); (T "build", Custom (T "build"));
   (T "CMakeLists.txt", CMake); (T "Makefile", Make); (T "makefile", Make); (T "setup.py", Python); (T "pyproject.toml", Python); (T "package.json", NodeJs); (T "Cargo.toml", Cargo)].
Definition marked (src : path) (x : node) (s : system) : Prop :=
  (exists l f r, marks = l ++ (f, s) :: r /\ (forall g u, In (g, u) l -> absent (src ++ [g]) x) /\ ~ absent (src ++ [f]) x) \/
  ((forall g u, In (g, u) marks -> absent (src ++ [g]) x) /\ s = Custom (T "default")).
Definition spelled_system (n : text) (s : system) : Prop :=
  In (n, s) [(T "cmake", CMake); (T "make", Make); (T "python", Python); (T "nodejs", NodeJs); (T "cargo", Cargo); (T "binary_archive", BinaryArchive); (T "pypi", Pypi); (T "pip", Pypi); (T "rez_pip", Pypi)].
(** a command ended with zero *)
Definition zero (r : ended) : Prop := exists o e, r = Exit 0 o e.

(** ** Copying *)
(** what is left out at the top of a package *)
Definition left_out (f : text) : Prop :=
  In f [T ".git"; T ".gitignore"; T ".gitmodules"; T ".hg"; T ".hgignore"; T ".svn"; T "build"; T "dist"; T "__pycache__"; T ".pytest_cache"; T ".tox";
        T "node_modules"; T ".DS_Store"; T "Thumbs.db"; T ".coverage"; T "coverage.xml"] \/
  exists r, f = r ++ T ".pyc" \/ f = r ++ T ".pyo" \/ f = r ++ T ".log".

(** ** Sources *)
Definition at_free (s : text) : Prop := ~ In "@"%char s.
Definition within (u s : text) : Prop := exists a b, s = a ++ u ++ b.

(** ** Tests *)
(** tests run one after the other up to the first that does not end with zero *)
Inductive tested (run : text -> ended) (say : text -> text) : list (text * text) -> list (text * text) -> bool + text -> Prop :=
| tested_nil : tested run say [] [] (inl true)
| tested_pass n c ts ran r : zero (run (say c)) -> tested run say ts ran r -> tested run say ((n, c) :: ts) ((n, say c) :: ran) r
| tested_fail n c ts z o e : run (say c) = Exit z o e -> z <> 0%Z -> tested run say ((n, c) :: ts) [(n, say c)] (inl false)
| tested_error n c ts e : run (say c) = NoRun e -> tested run say ((n, c) :: ts) [(n, say c)] (inr e).
Definition by_name (a b : text * text) : comparison := text_cmp (fst a) (fst b).

(** ** The command *)
Definition first_seen (l r : list text) : Prop := NoDup r /\ (forall a, In a r <-> In a l) /\
  forall a b r1 r2 r3, r = r1 ++ a :: r2 ++ b :: r3 -> exists l1 l2, l = l1 ++ a :: l2 /\ ~ In b l1.
(** builds of variants one after the other up to the first that fails *)
Inductive in_turn {W} (one : option nat -> W -> W * bool) : list (option nat) -> W -> list (option nat) -> W -> bool -> Prop :=
| turn_nil w : in_turn one [] w [] w true
| turn_ok v vs w w1 built w2 ok : one v w = (w1, true) -> in_turn one vs w1 built w2 ok -> in_turn one (v :: vs) w (v :: built) w2 ok
| turn_stop v vs w w1 : one v w = (w1, false) -> in_turn one (v :: vs) w [v] w1 false.
(** ** Placeholders *)
Definition command_places (q : request) (e : benv) : list (text * text) :=
  [(T "root", q_source q); (T "install", T "install"); (T "build_path", e_build e); (T "install_path", e_install e); (T "name", k_name (q_pkg q));
   (T "version", match k_version (q_pkg q) with Some v => v | None => [] end); (T "variant_index", [])].
Definition test_places (root : text) : list (text * text) := [(T "this.root", root); (T "this.base", root); (T "root", root); (T "base", root)].
(** the variables a build sets itself *)
Definition build_vars (q : request) (e : benv) : list (text * text) :=
  let v := match k_version (q_pkg q) with Some v => v | None => T "0.0.0" end in
  [(T "REZ_BUILD_ENV", T "1"); (T "REZ_BUILD_TYPE", T "local"); (T "REZ_BUILD_INSTALL", match q_install q with Some _ => T "1" | None => T "0" end);
   (T "REZ_BUILD_PACKAGE_NAME", k_name (q_pkg q)); (T "REZ_BUILD_PROJECT_NAME", k_name (q_pkg q)); (T "REZ_BUILD_PACKAGE_VERSION", v); (T "REZ_BUILD_PROJECT_VERSION", v);
   (T "REZ_BUILD_INSTALL_PATH", e_install e); (T "REZ_BUILD_PATH", e_build e)].
(** ** Artifacts *)
(** the files below a node with their contents *)
Definition file_at (y : node) (r : path) (c : text) : Prop := get r y = Some (File c).
