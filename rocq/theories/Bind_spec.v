(** What is expected of packages made of programs on the system, apart from how the model finds it. *)
From Verif Require Import Base Maps Version_model Rex_model Files_model Pyfile_model Pkgfile_model.
From Verif Require Files_spec.
Open Scope string_scope. Open Scope list_scope.

(** numbers with dots between *)
Definition digits (d : text) : Prop := d <> [] /\ forall c, In c d -> is_digit c = true.
Inductive numbers : text -> Prop :=
| numbers_one d : digits d -> numbers d
| numbers_more d r : digits d -> numbers r -> numbers (d ++ "."%char :: r).
(** two of them or more *)
Definition dotted (s : text) : Prop := exists d r, digits d /\ numbers r /\ s = d ++ "."%char :: r.
Definition no_digit (s : text) : Prop := forall c, In c s -> is_digit c = false.
(** a number is over here: neither a digit nor a point, dash or underscore follows *)
Definition over (r : text) : Prop := match r with [] => True | c :: _ => is_digit c = false /\ ~ In c (T ".-_") end.
(** letters, digits and the underscore are the characters of words *)
Definition of_word (c : ascii) : Prop := is_alnum c = true \/ c = "_"%char.
(** no word ends at the end of this text *)
Definition fresh (a : text) : Prop := a = [] \/ exists b c, a = b ++ [c] /\ ~ of_word c.
(** a dotted number is over here: no word goes on, and no point with a digit follows *)
Definition closed (r : text) : Prop :=
  match r with [] => True | c :: t => ~ of_word c /\ (c = "."%char -> match t with [] => True | d :: _ => is_digit d = false end) end.
(** a place in the text where a dotted number stands on its own *)
Definition stands (a v r s : text) : Prop := s = a ++ v ++ r /\ dotted v /\ fresh a /\ match r with [] => True | c :: _ => ~ of_word c end.

(** texts that are the same but for the case of letters *)
Definition same_letters (x y : text) : Prop := map to_lower x = map to_lower y.
(** a line that has this text nowhere, in any case *)
Definition without (x l : text) : Prop := forall a b c, l = a ++ b ++ c -> ~ same_letters b x.
(** a line that starts with some text, and then for the first time has this one *)
Definition first_at (x l a b : text) : Prop :=
  exists y, l = a ++ y ++ b /\ same_letters y x /\ forall a' y' b', l = a' ++ y' ++ b' -> same_letters y' x -> length a <= length a'.
(** a text made of these lines *)
Definition lines (ls : list text) : text := flat_map (fun l => l ++ [NL]) ls.
Definition a_line (l : text) : Prop := ~ In NL l /\ match rev l with c :: _ => c <> "013"%char | [] => True end.

(** texts that stand between single quotes as they are *)
Definition plain1 (s : text) : Prop := forall c, In c s -> ~ In c ["'"%char; "\"%char; NL; "013"%char; "000"%char].
Definition quoted1 (s : text) : text := T "'" ++ s ++ T "'".
(** names of variables that are used *)
Definition variable (x : text) : Prop := x <> [] /\ forall c, In c x -> is_lower c = true \/ c = "_"%char.
(** the statements of the body of a function, each on a line, indented *)
Inductive py_body : text -> list stmt -> Prop :=
| body_nil : py_body [] []
| body_import s l : py_body s l -> py_body (T "    import os" ++ [NL] ++ s) (SImport :: l)
| body_prepend v s l : plain1 v -> py_body s l ->
    py_body (T "    env.PATH.prepend(" ++ quoted1 v ++ T ")" ++ [NL] ++ s)
      (SExpr (ECall (EAttr (EAttr (EName (T "env")) (T "PATH")) (T "prepend")) [EConst (KStr v)] []) :: l)
| body_prepend_path v s l : plain1 v -> py_body s l ->
    py_body (T "    env.prepend_path('PATH', r" ++ quoted1 v ++ T ")" ++ [NL] ++ s)
      (SExpr (ECall (EAttr (EName (T "env")) (T "prepend_path")) [EConst (KStr (T "PATH")); EConst (KStr v)] []) :: l).
(** what Python reads in a file: texts and lists of texts for variables, comments, and a function *)
Inductive py : text -> list stmt -> Prop :=
| py_end : py [] []
| py_blank s l : py s l -> py ([NL] ++ s) l
| py_comment c s l : ~ In NL c -> py s l -> py (T "#" ++ c ++ [NL] ++ s) l
| py_text x v s l : variable x -> plain1 v -> py s l -> py (x ++ T " = " ++ quoted1 v ++ [NL] ++ s) (SAssign [EName x] (EConst (KStr v)) :: l)
| py_one x v s l : variable x -> plain1 v -> py s l -> py (x ++ T " = [" ++ quoted1 v ++ T "]" ++ [NL] ++ s) (SAssign [EName x] (EList [EConst (KStr v)]) :: l)
| py_list x vs s l : variable x -> (forall v, In v vs -> plain1 v) -> py s l ->
    py (x ++ T " = [" ++ [NL] ++ flat_map (fun v => T "    " ++ quoted1 v ++ T "," ++ [NL]) vs ++ T "]" ++ [NL] ++ s)
       (SAssign [EName x] (EList (map (fun v => EConst (KStr v)) vs)) :: l)
| py_function b ss s l : py_body b ss -> ss <> [] -> py s l -> py (T "def commands():" ++ [NL] ++ b ++ s) (SDef (T "commands") ss :: l).
(** the package: these fields and no others *)
Definition a_package (name : text) (v : version) (description : text) (requires tools : list text) (command : option text) : pkg :=
  mkPkg name (Some v) (Some description) [] requires [] [] [] tools command None None None None None None [] None None None None None None None None None None None None None None None [] None None None command [] None None.
(** a file is read and loaded as this package *)
Definition loads_as (s : text) (p : pkg) : Prop := exists l, py s l /\ forall W, exists q, load W l = Ok q /\ of_python q = p.
Definition good_name (n : text) : Prop := n <> [] /\ forall c, In c n -> is_alnum c = true \/ c = "_"%char \/ c = "-"%char.
Definition prepends (d : text) : text := T "env.prepend_path('PATH', '" ++ d ++ T "')".

(** a version as one of several parts of a path *)
Definition at_version (root : path) (name v : text) : path := root ++ [name; v].
Definition a_dir (p : path) (x : node) : Prop := exists es, get p x = Some (Dir es).
(** the disk is the same but for what is at, below or above a path; above it, directories stay *)
Definition only_at (p : path) (x x' : node) : Prop := forall q, Files_spec.apart p q -> get q x' = get q x.
(** a path that can be made: what is there of it are directories *)
Definition way (p : path) (x : node) : Prop := forall q r, p = q ++ r -> get q x = None \/ a_dir q x.
(** a package can be written there: its place can be made, and its file is no directory *)
Definition free (p : path) (x : node) : Prop := way p x /\ ~ a_dir (p ++ [T "package.py"]) x.
Definition pkg_file (p : path) : path := p ++ [T "package.py"].
(** a text that neither starts nor ends with a double quote *)
Definition bare (v : text) : Prop := match v with [] => False | c :: _ => c <> "034"%char end /\ match rev v with c :: _ => c <> "034"%char | [] => False end /\ starts_with (T "VERSION_ID=") v = false.
