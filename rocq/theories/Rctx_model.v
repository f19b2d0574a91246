(** Model of resolved contexts.
    Source: crates/rez-next-context/src/resolved_context.rs (RX).
    Simplifications: texts and paths are ASCII; [lines] is a split at line feeds, which gives the same trimmed lines up to empty ones;
    the system environment is an argument with distinct names; the JSON library of [save] and [load] is left out. *)
From Verif Require Import Base Maps Rex_model.
Open Scope char_scope.

(** RX:55-74 [ResolvedPackage], with the fields of the package that are read here; versions by their text *)
Record rpack := mkRpack {
  rp_name : text; rp_version : option text; rp_variants : list (list text); rp_tools : list text; rp_commands : option text;
  rp_index : option nat; rp_root : text }.

(** RX:105-109 [get_package] *)
Definition get_package (n : text) (ps : list rpack) : option rpack := find (fun p => text_eqb (rp_name p) n) ps.
(** RX:112-119 [get_variant] *)
Definition get_variant (n : text) (ps : list rpack) : option (list text) :=
  match get_package n ps with
  | Some p => match rp_index p with Some i => nth_error (rp_variants p) i | None => None end
  | None => None
  end.
(** RX:122-126 [has_package] *)
Definition has_package (n : text) (ps : list rpack) : bool := existsb (fun p => text_eqb (rp_name p) n) ps.
(** RX:129-132 [get_package_version] *)
Definition get_package_version (n : text) (ps : list rpack) : option text :=
  match get_package n ps with Some p => rp_version p | None => None end.
(** RX:141: the path of a tool *)
Definition bin_path (root t : text) : text := root ++ T "/bin/" ++ t.
(** RX:135-147 [get_tools] *)
Definition get_tools (ps : list rpack) : list (text * text) :=
  fold_left (fun m p => fold_left (fun m t => aput t (bin_path (rp_root p) t) m) (rp_tools p) m) ps [].

(** RX:233, 237, 242, 247: a name in braces, with a dollar sign in front *)
Definition braced (k : text) : text := "{" :: k ++ ["}"].
(** RX:233, 237, 242, 247, with the above *)
Definition dollar (x : text) : text := "$" :: braced x.
(** RX:232-243: the fields of the package *)
Definition expand_fields (p : rpack) (s : text) : text :=
  let s := replace (T "{root}") (rp_root p) s in
  let s := match rp_version p with Some v => replace (T "{version}") v s | None => s end in
  match rp_index p with Some i => replace (T "{variant_index}") (show_N (N.of_nat i)) s | None => s end.
(** RX:224-252 [expand_variables]; the bindings are in the order of the map *)
Definition expand_variables (p : rpack) (binds : list (text * text)) (s : text) : text :=
  fold_left (fun s b => replace (dollar (fst b)) (snd b) s) binds (expand_fields p s).
(** [str::split_once] for a character, used in RX:194 *)
Fixpoint split_once (c : ascii) (s : text) : option (text * text) :=
  match s with
  | [] => None
  | d :: r => if Ascii.eqb d c then Some ([], r) else match split_once c r with Some (a, b) => Some (d :: a, b) | None => None end
  end.
(** RX:199-218: the new value of a variable *)
Definition export_value (ord : list (text * text) -> list (text * text)) (p : rpack) (x value : text) (e : list (text * text)) : text :=
  let expanded := expand_variables p (ord e) value in
  let existing := match aget x e with Some v => v | None => [] end in
  if contains_text (dollar x ++ [":"]) value then replace (dollar x ++ [":"]) (existing ++ [":"]) expanded
  else if contains_text (":" :: dollar x) value then replace (":" :: dollar x) (":" :: existing) expanded
  else expanded.
(** RX:186-221 [apply_export_command] *)
Definition apply_export (ord : list (text * text) -> list (text * text)) (p : rpack) (command : text) (e : list (text * text)) : list (text * text) :=
  match split_once "=" (skipn 7 command) with
  | Some (n, value) => let x := trim n in aput x (export_value ord p x (trim_dq value) e) e
  | None => e
  end.
(** RX:176-181: one line *)
Definition apply_line (ord : list (text * text) -> list (text * text)) (p : rpack) (line : text) (e : list (text * text)) : list (text * text) :=
  let l := trim line in if starts_with (T "export ") l then apply_export ord p l e else e.
(** RX:169-183 [apply_package_commands] *)
Definition apply_commands (ord : list (text * text) -> list (text * text)) (p : rpack) (commands : text) (e : list (text * text)) : list (text * text) :=
  fold_left (fun e l => apply_line ord p l e) (split_on NL commands) e.
(** RX:150-166 [get_environ]; [ord] is the order of the map at each time it is iterated *)
Definition get_environ (ord : list (text * text) -> list (text * text)) (ps : list rpack) (system : list (text * text)) : list (text * text) :=
  fold_left (fun e p => match rp_commands p with Some c => apply_commands ord p c e | None => e end) ps system.
