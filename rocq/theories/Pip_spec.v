(** What is said about the conversion of pip packages. *)
From Verif Require Import Base Maps Version_model Requirement_model Pyfile_model Pkgfile_model Pkgfile_spec Rex_model Query_model Release_model Pip_model.
Open Scope string_scope.
Open Scope list_scope.

(** names that pip takes for the same, as far as case, dashes and underscores go *)
Definition dashy (c : ascii) : Prop := c = "-"%char \/ c = "_"%char.
Definition same_char (c d : ascii) : Prop := (dashy c /\ dashy d) \/ (~ dashy c /\ ~ dashy d /\ to_lower c = to_lower d).
Definition same_name : text -> text -> Prop := Forall2 same_char.
Definition undashed (s : text) : Prop := forall c, In c s -> ~ dashy c.
(** ... and, as pip has it, dots *)
Definition same_for_pip (a b : text) : Prop := Forall2 (fun c d => (In c (T "-_.") /\ In d (T "-_.")) \/ to_lower c = to_lower d) a b.

(** the order of releases: missing numbers count as zero *)
Fixpoint all_zero (l : list N) : bool := match l with [] => true | n :: r => (n =? 0)%N && all_zero r end.
Fixpoint release_cmp (a b : list N) : comparison :=
  match a, b with
  | [], _ => if all_zero b then Eq else Lt
  | _, [] => if all_zero a then Eq else Gt
  | x :: a', y :: b' => match N.compare x y with Eq => release_cmp a' b' | o => o end
  end.
Definition numbers (l : list N) : text := join (T ".") (map show_N l).
(** the releases: one to five numbers of 64 bits *)
Definition release (l : list N) : Prop := l <> [] /\ length l <= 5 /\ forall n, In n l -> (n <= U64_MAX)%N.

(** a requirement is read as one of this package, with this constraint and nothing else *)
Definition reads_as (s name : text) (c : option vconstraint) : Prop := parse_requirement s = Some (mkReq name c false false [] [] None).

(** a requirement starts with this name *)
Definition special_char (c : ascii) : Prop := In c (T "-<>=!~").
Definition leads (n r : text) : Prop := (forall c, In c n -> ~ special_char c) /\ (r = n \/ exists c s, r = n ++ c :: s /\ special_char c).

(** signs of pip specifications *)
Definition sign (s : text) : Prop := In s (map T ["=="; ">="; "<="; "!="; "~="; ">"; "<"; "@"]).
Definition no_sign (s : text) : Prop := forall c, In c s -> ~ In c (T "=><!~@").

(** the function both writers add to package.py, and what a reader of Python makes of it *)
Definition commands_text (x : text) : text :=
  T "def commands():" ++ [NL] ++ T "    import os" ++ [NL] ++ T "    env.PYTHONPATH.prepend(" ++ [DQ] ++ x ++ [DQ] ++ T ")" ++ [NL].
Definition commands_stmt (x : text) : stmt :=
  SDef (T "commands") [SImport; SExpr (ECall (EAttr (EAttr (EName (T "env")) (T "PYTHONPATH")) (T "prepend")) [EConst (KStr x)] [])].
Definition reads_functions (L : library) : Prop :=
  forall s f x, plain x -> (s = [] \/ exists r, s = r ++ [NL]) -> python_reads s = Some f -> l_python L (s ++ commands_text x) = Some (f ++ [commands_stmt x]).

(** files: every one of these is there, below a directory *)
Definition holds (d : disk) (dir : text) (t : files) : Prop := forall r c, aget r t = Some c -> content d (path_join dir r) = Some c.
(** relative paths *)
Definition relative (t : files) : Prop := forall r, In r (akeys t) -> starts_with (T "/") r = false.
(** what pip has installed it does not take away *)
Definition keeps_files (t t' : files) : Prop := forall r c, aget r t = Some c -> aget r t' = Some c.
(** a requirement as it is written is read as one of this package that accepts, of the releases with at least so many numbers, these *)
Definition read_to_accept (s name : text) (depth : nat) (P : list N -> Prop) : Prop :=
  exists r, parse_requirement s = Some r /\ rq_name r = name /\ rq_weak r = false /\ rq_conflict r = false /\ rq_platform r = [] /\ rq_env r = [] /\
    forall a v, release a -> depth <= length a -> parse_version (numbers a) = Some v -> (r_satisfied r v = true <-> P a).
(** the package such a file stands for: these fields and no others *)
Definition pip_pkg (name : text) (v : version) (description author : text) (requires : list text) (command : text) : pkg :=
  mkPkg name (Some v) (Some description) [author] requires [] [] [] [] (Some command) None None None None None None [] None None None None None None None None None None None None None None None [] None None None (Some command) [] None None.
Definition command_line (x : text) : text := T "env.prepend_path('PYTHONPATH', '" ++ x ++ T "')".
Definition good_name (n : text) : Prop := n <> [] /\ forall c, In c n -> is_alnum c = true \/ c = "_"%char \/ c = "-"%char.
(** the files in the temporary directory after pip has installed these *)
Fixpoint fetched (u : outside) (target : text) (a : pip_args) (python : text) (t : files) (specs : list text) : option files :=
  match specs with
  | [] => Some t
  | s :: r => match u_install u python (install_args target a s) t with Some t' => fetched u target a python t' r | None => None end
  end.
(** every file has one relative path, and pip leaves the directory so *)
Definition tidy_files (t : files) : Prop := relative t /\ NoDup (akeys t).
Definition tidy (u : outside) : Prop := forall python l t t', tidy_files t -> u_install u python l t = Some t' -> tidy_files t'.
(** names and versions that pip reports do not start with a slash *)
Definition modest (i : pip_info) : Prop := starts_with (T "/") (n_name i) = false /\ starts_with (T "/") (n_version i) = false.
(** the value of the last line with this label *)
Definition last_value (label : text) (ls : list text) (v : text) : Prop :=
  exists a b, ls = a ++ (label ++ v) :: b /\ forall l, In l b -> starts_with label l = false.
Definition unlabelled (label : text) (ls : list text) : Prop := forall l, In l ls -> starts_with label l = false.
