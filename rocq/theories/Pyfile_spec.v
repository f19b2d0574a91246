(** Specification vocabulary for package.py files: what Python computes for the same syntax trees, what a field must hold, what the commands
    of a package are.  Nothing here uses the helpers of the model except the syntax trees, the values and the type of Rex actions. *)
From Verif Require Import Base Maps Version_model Rex_model Pyfile_model.
Open Scope char_scope.

(** ** Python values and operations *)
(** integers have no bounds, tuples are no lists, functions are values *)
Inductive pyval :=
| PyStr (s : text) | PyInt (z : Z) | PyBool (b : bool) | PyNone | PyList (l : list pyval) | PyTuple (l : list pyval)
| PyDict (d : list (text * pyval)) | PyFunc (body : list stmt).
Definition truthy (v : pyval) : bool :=
  match v with
  | PyStr s => negb (is_nil s) | PyInt z => negb (z =? 0)%Z | PyBool b => b | PyNone => false
  | PyList l | PyTuple l => negb (is_nil l) | PyDict d => negb (is_nil d) | PyFunc _ => true
  end.
(** a boolean counts as a number *)
Definition number (v : pyval) : option Z :=
  match v with PyInt z => Some z | PyBool b => Some (if b then 1 else 0)%Z | _ => None end.
Definition py_int (z : Z) : text := if (z <? 0)%Z then "-" :: show_N (Z.to_N (- z)) else show_N (Z.to_N z).
(** [str(v)], for values that are no containers *)
Definition py_str (v : pyval) : option text :=
  match v with
  | PyStr s => Some s | PyInt z => Some (py_int z) | PyBool true => Some (T "True") | PyBool false => Some (T "False")
  | PyNone => Some (T "None") | _ => None
  end.
(** [None] where Python raises, or where nothing is said here *)
Definition py_bin (op : binop) (a b : pyval) : option pyval :=
  match op, a, b with
  | Add, PyStr x, PyStr y => Some (PyStr (x ++ y))
  | Add, PyList x, PyList y => Some (PyList (x ++ y))
  | Add, PyTuple x, PyTuple y => Some (PyTuple (x ++ y))
  | Mult, PyStr x, y => match number y with Some n => Some (PyStr (concat (repeat x (Z.to_nat n)))) | None => None end
  | op, x, y =>
      match number x, number y with
      | Some m, Some n =>
          match op with Add => Some (PyInt (m + n)) | Sub => Some (PyInt (m - n)) | Mult => Some (PyInt (m * n)) | BinOther => None end
      | _, _ => None
      end
  end.
Definition py_un (op : unop) (a : pyval) : option pyval :=
  match op with
  | Not => Some (PyBool (negb (truthy a)))
  | UAdd => match number a with Some n => Some (PyInt n) | None => None end
  | USub => match number a with Some n => Some (PyInt (- n)) | None => None end
  | Invert => None
  end.
Definition py_equal (a b : pyval) : option bool :=
  match a, b with
  | PyStr x, PyStr y => Some (text_eqb x y)
  | PyNone, PyNone => Some true
  | (PyList _ | PyTuple _ | PyDict _ | PyFunc _), _ | _, (PyList _ | PyTuple _ | PyDict _ | PyFunc _) => None
  | x, y => match number x, number y with Some m, Some n => Some (m =? n)%Z | _, _ => Some false end
  end.
Definition py_less (a b : pyval) : option bool :=
  match a, b with
  | PyStr x, PyStr y => Some (is_lt (text_cmp x y))
  | x, y => match number x, number y with Some m, Some n => Some (m <? n)%Z | _, _ => None end
  end.
Definition py_cmp (op : cmpop) (a b : pyval) : option bool :=
  match op with
  | CEq => py_equal a b
  | CNe => match py_equal a b with Some r => Some (negb r) | None => None end
  | CLt => py_less a b
  | CGt => py_less b a
  | CmpOther => None
  end.
(** [str.format] with positional fields: {} and {n}, doubled braces; a field of another form raises or is not described.
    [m] is the numbering: none yet, the next automatic number, or explicit numbers *)
Inductive numbering := Unset | Auto (k : nat) | Manual.
Definition pick (args : list text) (m : numbering) (ds : text) : option (text * numbering) :=
  match ds, m with
  | [], Unset => match nth_error args 0 with Some t => Some (t, Auto 1) | None => None end
  | [], Auto k => match nth_error args k with Some t => Some (t, Auto (S k)) | None => None end
  | [], Manual => None
  | _, Auto _ => None
  | _, _ => if forallb is_digit ds then match nth_error args (N.to_nat (digits_val ds)) with Some t => Some (t, Manual) | None => None end else None
  end.
(** [fld]: the part of a field that was read *)
Fixpoint py_format (args : list text) (m : numbering) (fld : option text) (s : text) : option text :=
  match fld, s with
  | None, [] => Some []
  | Some _, [] => None
  | Some ds, c :: r =>
      if Ascii.eqb c "}" then
        match pick args m ds with
        | Some (t, m') => match py_format args m' None r with Some o => Some (t ++ o) | None => None end
        | None => None
        end
      else py_format args m (Some (ds ++ [c])) r
  | None, c :: r =>
      if Ascii.eqb c "{" then
        match r with
        | d :: r' => if Ascii.eqb d "{" then match py_format args m None r' with Some o => Some ("{" :: o) | None => None end
                     else py_format args m (Some []) r
        | [] => None
        end
      else if Ascii.eqb c "}" then
        match r with
        | d :: r' => if Ascii.eqb d "}" then match py_format args m None r' with Some o => Some ("}" :: o) | None => None end else None
        | [] => None
        end
      else match py_format args m None r with Some o => Some (c :: o) | None => None end
  end.

Definition obind {A B} (o : option A) (k : A -> option B) : option B := match o with Some a => k a | None => None end.
(** all or none *)
Fixpoint all_some {A} (l : list (option A)) : option (list A) :=
  match l with [] => Some [] | o :: l' => obind o (fun a => obind (all_some l') (fun r => Some (a :: r))) end.
Fixpoint strings (l : list pyval) : option (list text) :=
  match l with [] => Some [] | v :: l' => obind (py_str v) (fun t => obind (strings l') (fun r => Some (t :: r))) end.

(** ** Expressions: the value Python computes in the variables [env]; the modules [os] and [system] are at hand when their names are not
    rebound.  [None] when Python raises, or when nothing is said here *)
Definition free (x : text) (env : list (text * pyval)) : bool := negb (ahas x env).
Section Loops.
Context (ev : pexpr -> option pyval).
(** [a < b < c] compares neighbours *)
Fixpoint py_chain (l : pyval) (rest : list (cmpop * pexpr)) : option pyval :=
  match rest with
  | [] => Some (PyBool true)
  | (op, b) :: rest' => obind (ev b) (fun r => obind (py_cmp op l r) (fun t => if t then py_chain r rest' else Some (PyBool false)))
  end.
(** [and] and [or] give the operand that decides *)
Fixpoint py_bools (isand : bool) (es : list pexpr) : option pyval :=
  match es with
  | [] => None
  | x :: es' => obind (ev x) (fun v => match es' with [] => Some v | _ => if Bool.eqb (truthy v) isand then py_bools isand es' else Some v end)
  end.
Fixpoint py_dict (d : list (text * pyval)) (kvs : list (option pexpr * pexpr)) : option pyval :=
  match kvs with
  | [] => Some (PyDict d)
  | (None, x) :: kvs' =>
      obind (ev x) (fun v => match v with PyDict d' => py_dict (fold_left (fun m b => aput (fst b) (snd b) m) d' d) kvs' | _ => None end)
  | (Some k, x) :: kvs' =>
      obind (ev k) (fun kv => obind (ev x) (fun v => match kv with PyStr s => py_dict (aput s v d) kvs' | _ => None end))
  end.
End Loops.
Definition py_method (v : pyval) (a : text) (l : list pyval) : option pyval :=
  match v with
  | PyStr s =>
      if text_eqb a (T "lower") && is_nil l then Some (PyStr (map to_lower s)) else
      if text_eqb a (T "format") then obind (strings l) (fun ts => obind (py_format ts Unset None s) (fun t => Some (PyStr t))) else None
  | _ => None
  end.
Definition py_getenv (w : world) (l : list pyval) : option pyval :=
  match l with
  | [PyStr n] => Some (match w_env w n with Some v => PyStr v | None => PyNone end)
  | [PyStr n; d] => Some (match w_env w n with Some v => PyStr v | None => d end)
  | _ => None
  end.
Definition is_os (o : pexpr) (env : list (text * pyval)) : bool :=
  match o with EName m => text_eqb m (T "os") && free m env | _ => false end.
Fixpoint py (w : world) (env : list (text * pyval)) (e : pexpr) {struct e} : option pyval :=
  match e with
  | EConst (KStr s) => Some (PyStr s)
  | EConst (KInt z) => Some (PyInt z)
  | EConst (KBool b) => Some (PyBool b)
  | EConst KNone => Some PyNone
  | EConst KOther => None
  | EName x => aget x env
  | EBin op a b => obind (py w env a) (fun x => obind (py w env b) (fun y => py_bin op x y))
  | EUn op a => obind (py w env a) (py_un op)
  | ECmp a rest => obind (py w env a) (fun l => py_chain (py w env) l rest)
  | EBool isand es => py_bools (py w env) isand es
  | EList es => obind (all_some (map (py w env) es)) (fun l => Some (PyList l))
  | ETuple es => obind (all_some (map (py w env) es)) (fun l => Some (PyTuple l))
  | EDict kvs => py_dict (py w env) [] kvs
  | ECall (EAttr o a) args [] =>
      if is_os o env && text_eqb a (T "getenv") then obind (all_some (map (py w env) args)) (py_getenv w)
      else obind (py w env o) (fun v => obind (all_some (map (py w env) args)) (py_method v a))
  | ECall _ _ _ => None
  | EAttr (EName m) a =>
      if text_eqb m (T "os") && free m env && text_eqb a (T "name") then Some (PyStr (w_osname w)) else
      if text_eqb m (T "system") && free m env && text_eqb a (T "platform") then Some (PyStr (w_platform w)) else None
  | EAttr _ _ => None
  | ESub o i =>
      obind (py w env o) (fun v => obind (py w env i) (fun k =>
        match v, k with
        | PyDict d, PyStr s => aget s d
        | (PyList l | PyTuple l), PyInt z => if (z <? 0)%Z then None else nth_error l (Z.to_nat z)
        | _, _ => None
        end))
  | EIf t b o => obind (py w env t) (fun v => if truthy v then py w env b else py w env o)
  | EOther => None
  end.

(** the loader's value for a Python value: tuples become lists *)
Inductive same : value -> pyval -> Prop :=
| same_str s : same (VStr s) (PyStr s)
| same_int z : same (VInt z) (PyInt z)
| same_bool b : same (VBool b) (PyBool b)
| same_none : same VNone PyNone
| same_list l p : Forall2 same l p -> same (VList l) (PyList p)
| same_tuple l p : Forall2 same l p -> same (VList l) (PyTuple p)
| same_dict d p : Forall2 (fun a b => fst a = fst b /\ same (snd a) (snd b)) d p -> same (VDict d) (PyDict p).

(** ** The part of the language on which the loader computes what Python computes *)
Definition fits (z : Z) : Prop := (- 9223372036854775808 <= z <= 9223372036854775807)%Z.
Definition small (op : binop) (a b : pyval) : Prop :=
  match op, a, b with
  | Add, PyInt x, PyInt y => fits (x + y) | Sub, PyInt x, PyInt y => fits (x - y) | Mult, PyInt x, PyInt y => fits (x * y)
  | Add, PyList _, PyTuple _ | Add, PyTuple _, PyList _ => False
  | _, _, _ => True
  end.
(** templates: characters, doubled braces, numbered fields; no field is followed by a doubled closing brace *)
Inductive piece := PChar (c : ascii) | POpen | PClose | PField (i : nat).
Definition piece_text (p : piece) : text :=
  match p with PChar c => [c] | POpen => T "{{" | PClose => T "}}" | PField i => "{" :: show_N (N.of_nat i) ++ ["}"] end.
Definition plain_char (c : ascii) : Prop := c <> "{" /\ c <> "}" /\ (code c < 128)%N.
Definition plain (s : text) : Prop := forall c, In c s -> plain_char c.
Fixpoint pieces_ok (n : nat) (ps : list piece) : Prop :=
  match ps with
  | [] => True
  | p :: ps' =>
      match p with PChar c => plain_char c | PField i => i < n /\ hd_error ps' <> Some PClose | _ => True end /\ pieces_ok n ps'
  end.
Definition template (n : nat) (s : text) : Prop := exists ps, s = concat (map piece_text ps) /\ pieces_ok n ps.
(** an argument of a template: a text without braces, or an integer *)
Definition plain_arg (v : pyval) : Prop := match v with PyStr s => plain s | PyBool _ => False | _ => True end.
Definition all_of {A} (P : A -> Prop) (l : list A) : Prop := fold_right (fun a Q => P a /\ Q) True l.

(** no chained comparison, no [and]/[or] of values that are no booleans, no overflow, no spread, no keyword argument, templates of the form
    above, nothing about [this], the names [os] and [system] not rebound *)
Fixpoint tame (w : world) (env : list (text * pyval)) (e : pexpr) {struct e} : Prop :=
  match e with
  | EBin op a b => tame w env a /\ tame w env b /\ forall x y, py w env a = Some x -> py w env b = Some y -> small op x y
  | EUn op a => tame w env a /\ forall z, op = USub -> py w env a = Some (PyInt z) -> fits (- z)
  | ECmp a rest => tame w env a /\ length rest <= 1 /\ all_of (fun r => tame w env (snd r)) rest
  | EBool _ es => es <> [] /\ all_of (fun x => tame w env x /\ forall v, py w env x = Some v -> exists b, v = PyBool b) es
  | EList es | ETuple es => all_of (tame w env) es
  | EDict kvs => all_of (fun b => match fst b with Some k => tame w env k | None => False end /\ tame w env (snd b)) kvs
  | ECall (EAttr o a) args kws =>
      kws = [] /\ tame w env o /\ all_of (tame w env) args /\ free (T "os") env = true /\
      (a = T "lower" -> args = []) /\
      (a = T "getenv" -> length args <= 2 /\ forall n d, args = [n; d] -> py w env d <> None) /\
      (a = T "format" -> (forall s, py w env o = Some (PyStr s) -> template (length args) s) /\
                         all_of (fun x => forall v, py w env x = Some v -> plain_arg v) args)
  | EAttr o _ => match o with EName m => m <> T "this" /\ free m env = true | EAttr (EName m) _ => m <> T "this" | _ => True end
  | EIf t b o => tame w env t /\ tame w env b /\ tame w env o
  | _ => True
  end.
(** the loader's variables are Python's *)
Definition vars_agree (vars : list (text * value)) (env : list (text * pyval)) : Prop :=
  forall x, match aget x vars with
            | Some v => exists p, aget x env = Some p /\ same v p
            | None => aget x env = None \/ exists b, aget x env = Some (PyFunc b)
            end.

(** ** Files *)
Fixpoint assign_all (xs : list pexpr) (vs : list pyval) (env : list (text * pyval)) : option (list (text * pyval)) :=
  match xs, vs with
  | [], [] => Some env
  | EName x :: xs', v :: vs' => assign_all xs' vs' (aput x v env)
  | _, _ => None
  end.
(** one target of an assignment: a name, or a list of names *)
Definition assign_target (env : list (text * pyval)) (t : pexpr) (v : pyval) : option (list (text * pyval)) :=
  match t, v with
  | EName x, _ => Some (aput x v env)
  | (ETuple xs | EList xs), (PyTuple vs | PyList vs) => assign_all xs vs env
  | _, _ => None
  end.
Section Execute.
Context (f : list (text * pyval) -> stmt -> option (list (text * pyval))).
Fixpoint exec_loop (env : list (text * pyval)) (l : list stmt) : option (list (text * pyval)) :=
  match l with [] => Some env | s :: l' => obind (f env s) (fun env' => exec_loop env' l') end.
End Execute.
(** the module's variables after a statement; a function is stored with its body *)
Fixpoint exec (w : world) (env : list (text * pyval)) (s : stmt) {struct s} : option (list (text * pyval)) :=
  match s with
  | SAssign ts e => obind (py w env e) (fun v => fold_left (fun o t => obind o (fun env => assign_target env t v)) ts (Some env))
  | SDef f body => Some (aput f (PyFunc body) env)
  | SImport | SPass => Some env
  | SIf t body orelse =>
      obind (py w env t) (fun v => if truthy v then exec_loop (exec w) env body else exec_loop (exec w) env orelse)
  | SExpr e => obind (py w env e) (fun _ => Some env)
  | SOther => None
  end.
Definition exec_all (w : world) := exec_loop (exec w).

(** what a field holds for the final value of its variable; nothing is said of values of another type *)
Definition py_texts (v : pyval) (l : list text) : Prop :=
  v = PyList (map PyStr l) \/ v = PyTuple (map PyStr l).
Definition holds (x : text) (v : pyval) (d : list (text * field)) : Prop :=
  (forall s, v = PyStr s -> mem_text x text_fields = true \/ x = T "commands" -> text_field x d = Some s) /\
  (forall l, py_texts v l -> mem_text x list_fields = true -> texts_field x d = l) /\
  (forall b, v = PyBool b -> mem_text x bool_fields = true -> bool_field x d = Some b) /\
  (v = PyNone -> mem_text x bool_fields = true -> bool_field x d = None) /\
  (forall z, v = PyInt z -> (- 2147483648 <= z <= 2147483647)%Z -> x = T "format_version" -> int_field x d = Some z) /\
  (forall l ls, v = PyList l -> Forall2 py_texts l ls -> x = T "variants" -> variants_field d = ls) /\
  (forall l, v = PyDict (map (fun b => (fst b, PyStr (snd b))) l) -> x = T "tests" -> tests_field d = l).
(** the name and the version of the package come from the fields *)
Definition head_ok (p : pypackage) : Prop :=
  text_field (T "name") (y_data p) = Some (y_name p) /\
  match text_field (T "version") (y_data p) with Some s => parse_version s = y_version p /\ y_version p <> None | None => y_version p = None end.

(** the expression does not read the variable *)
Fixpoint unread (x : text) (e : pexpr) {struct e} : Prop :=
  match e with
  | EName y => y <> x
  | EBin _ a b => unread x a /\ unread x b
  | EUn _ a => unread x a
  | ECmp a rest => unread x a /\ all_of (fun r => unread x (snd r)) rest
  | EBool _ es | EList es | ETuple es => all_of (unread x) es
  | EDict kvs => all_of (fun b => match fst b with Some k => unread x k | None => True end /\ unread x (snd b)) kvs
  | ECall f args kws => unread x f /\ all_of (unread x) args /\ all_of (fun b => unread x (snd b)) kws
  | EAttr o _ => unread x o
  | ESub o i => unread x o /\ unread x i
  | EIf t b o => unread x t /\ unread x b /\ unread x o
  | _ => True
  end.
Section Tidy.
Context (ok : list (text * pyval) -> stmt -> Prop) (f : list (text * pyval) -> stmt -> option (list (text * pyval))).
(** every statement in the variables before it *)
Fixpoint tidy_loop (env : list (text * pyval)) (l : list stmt) : Prop :=
  match l with [] => True | s :: l' => ok env s /\ forall env', f env s = Some env' -> tidy_loop env' l' end.
End Tidy.
(** assignments have one name as target and do not read the variable they set; functions do not replace variables; expressions are of the
    part above *)
Fixpoint tidy (w : world) (env : list (text * pyval)) (s : stmt) {struct s} : Prop :=
  match s with
  | SAssign ts e => (exists x, ts = [EName x] /\ unread x e) /\ tame w env e
  | SDef f _ => forall v, aget f env = Some v -> exists b, v = PyFunc b
  | SIf t body orelse =>
      tame w env t /\ (forall v, py w env t = Some v -> exists b, v = PyBool b) /\
      (py w env t = Some (PyBool true) -> tidy_loop (tidy w) (exec w) env body) /\
      (py w env t = Some (PyBool false) -> tidy_loop (tidy w) (exec w) env orelse)
  | SExpr e => tame w env e
  | _ => True
  end.
Definition tidy_all (w : world) := tidy_loop (tidy w) (exec w).

(** ** Commands *)
(** the actions of a call: the receiver ([env], one variable of [env], or none), the function, the texts of the arguments *)
Inductive receiver := OnEnv | OnVar (x : text) | Bare.
Definition call_action (r : receiver) (m : text) (args : list text) : option action :=
  match r, args with
  | OnEnv, [k; v] =>
      if text_eqb m (T "setenv") then Some (Setenv k v) else
      if text_eqb m (T "prepend_path") then Some (PrependPath k v None) else
      if text_eqb m (T "append_path") then Some (AppendPath k v None) else
      if text_eqb m (T "setenv_if_empty") then Some (SetenvIfEmpty k v) else None
  | OnEnv, [k] => if text_eqb m (T "unsetenv") then Some (Unsetenv k) else None
  | OnVar x, [v] =>
      if text_eqb m (T "prepend") then Some (PrependPath x v None) else
      if text_eqb m (T "append") then Some (AppendPath x v None) else
      if text_eqb m (T "set") then Some (Setenv x v) else None
  | OnVar x, [] => if text_eqb m (T "unset") then Some (Unsetenv x) else None
  | Bare, [k; v] =>
      if text_eqb m (T "alias") then Some (Alias k v) else
      if text_eqb m (T "setenv") then Some (Setenv k v) else
      if text_eqb m (T "prependenv") then Some (PrependPath k v None) else
      if text_eqb m (T "appendenv") then Some (AppendPath k v None) else None
  | Bare, [k] =>
      if text_eqb m (T "command") then Some (Command k) else
      if text_eqb m (T "source") then Some (Source k) else
      if text_eqb m (T "info") then Some (Info k) else
      if text_eqb m (T "error") then Some (Error k) else
      if text_eqb m (T "resetenv") then Some (Resetenv k) else
      if text_eqb m (T "unsetenv") then Some (Unsetenv k) else
      if text_eqb m (T "stop") then Some (Stop (Some k)) else None
  | Bare, [] => if text_eqb m (T "stop") then Some (Stop None) else None
  | _, _ => None
  end.
Definition called (f : pexpr) : option (receiver * text) :=
  match f with
  | EAttr (EName o) m => if text_eqb o (T "env") then Some (OnEnv, m) else None
  | EAttr (EAttr (EName o) x) m => if text_eqb o (T "env") then Some (OnVar x, m) else None
  | EName m => Some (Bare, m)
  | _ => None
  end.
(** one target of an assignment in a command function: a local name, a variable of [env] as attribute or by subscript *)
Definition command_target (w : world) (env : list (text * pyval)) (t : pexpr) (v : pyval) : option (list action * list (text * pyval)) :=
  match t with
  | EName x => Some ([], aput x v env)
  | EAttr (EName o) x => if text_eqb o (T "env") then obind (py_str v) (fun s => Some ([Setenv x s], env)) else None
  | ESub (EName o) k =>
      if text_eqb o (T "env") then obind (py w env k) (fun kv => obind (py_str kv) (fun x => obind (py_str v) (fun s => Some ([Setenv x s], env)))) else None
  | _ => None
  end.
Section Run.
Context (f : list (text * pyval) -> stmt -> option (list action * list (text * pyval))).
Fixpoint run_loop (env : list (text * pyval)) (l : list stmt) : option (list action * list (text * pyval)) :=
  match l with
  | [] => Some ([], env)
  | s :: l' => obind (f env s) (fun p => obind (run_loop (snd p) l') (fun q => Some (fst p ++ fst q, snd q)))
  end.
End Run.
(** what running the body of a command function does, in order *)
Fixpoint run_command (w : world) (env : list (text * pyval)) (s : stmt) {struct s} : option (list action * list (text * pyval)) :=
  match s with
  | SAssign ts e =>
      obind (py w env e) (fun v =>
        fold_left (fun o t => obind o (fun p => obind (command_target w (snd p) t v) (fun q => Some (fst p ++ fst q, snd q)))) ts (Some ([], env)))
  | SExpr (ECall f args []) =>
      obind (called f) (fun c => obind (all_some (map (py w env) args)) (fun l => obind (strings l) (fun ts =>
        obind (call_action (fst c) (snd c) ts) (fun a => Some ([a], env)))))
  | SExpr e => obind (py w env e) (fun _ => Some ([], env))
  | SImport | SPass => Some ([], env)
  | SIf t body orelse =>
      obind (py w env t) (fun v => if truthy v then run_loop (run_command w) env body else run_loop (run_command w) env orelse)
  | SDef _ _ | SOther => None
  end.
Definition run_commands (w : world) := run_loop (run_command w).
(** the actions of a package: its function runs when the whole file was read *)
Definition file_commands (w : world) (f : text) (file : list stmt) : option (list action) :=
  obind (exec_all w [] file) (fun env =>
    match aget f env with Some (PyFunc body) => obind (run_commands w env body) (fun p => Some (fst p)) | _ => None end).

(** texts that can stand between single quotes on a line *)
Definition line_safe (s : text) : Prop := forall c, In c s -> c <> "'" /\ c <> """" /\ c <> "010".
(** expressions the loader surely evaluates: texts, names of texts, sums *)
Inductive simple_text (env : list (text * pyval)) : pexpr -> text -> Prop :=
| simple_const s : simple_text env (EConst (KStr s)) s
| simple_name x s : aget x env = Some (PyStr s) -> simple_text env (EName x) s
| simple_add a b s t : simple_text env a s -> simple_text env b t -> simple_text env (EBin Add a b) (s ++ t).
(** [as_text v]: the text of a string or an integer *)
Definition as_text (v : pyval) : option text := match v with PyStr s => Some s | PyInt z => Some (py_int z) | _ => None end.
Definition safe_arg (w : world) (env : list (text * pyval)) (e : pexpr) : Prop :=
  tame w env e /\ forall v, py w env e = Some v -> exists s, as_text v = Some s /\ line_safe s.
Definition key_arg (w : world) (env : list (text * pyval)) (e : pexpr) : Prop :=
  forall v, py w env e = Some v -> as_text v <> Some [].
(** the first argument of these calls is a name and must not be empty *)
Definition keyed (r : receiver) (m : text) : Prop :=
  match r with OnEnv => True | OnVar _ => False | Bare => In m [T "alias"; T "setenv"; T "prependenv"; T "appendenv"; T "resetenv"; T "unsetenv"] end.
Section Plain.
Context (ok : list (text * pyval) -> stmt -> Prop) (f : list (text * pyval) -> stmt -> option (list action * list (text * pyval))).
Fixpoint plain_loop (env : list (text * pyval)) (l : list stmt) : Prop :=
  match l with [] => True | s :: l' => ok env s /\ forall p, f env s = Some p -> plain_loop (snd p) l' end.
End Plain.
(** calls with the right number of arguments, assignments to one local name or to one attribute of [env], conditions, imports, texts that
    stand alone; all values fit between single quotes *)
Fixpoint plain_command (w : world) (env : list (text * pyval)) (s : stmt) {struct s} : Prop :=
  match s with
  | SAssign ts e =>
      (exists x, ts = [EName x] /\ tame w env e) \/
      (exists x t, ts = [EAttr (EName (T "env")) x] /\ x <> [] /\ line_safe x /\ simple_text env e t /\ line_safe t)
  | SExpr (ECall f args kws) =>
      kws = [] /\ exists c, called f = Some c /\ (match fst c with OnVar x => x <> [] /\ line_safe x /\ args <> [] | _ => True end) /\
      all_of (safe_arg w env) args /\ (keyed (fst c) (snd c) -> match args with k :: _ => key_arg w env k | [] => True end) /\
      forall ts, length ts = length args -> call_action (fst c) (snd c) ts <> None
  | SExpr e => tame w env e /\ exists s, e = EConst (KStr s)
  | SIf t body orelse =>
      tame w env t /\ (forall v, py w env t = Some v -> exists b, v = PyBool b) /\
      (py w env t = Some (PyBool true) -> plain_loop (plain_command w) (run_command w) env body) /\
      (py w env t = Some (PyBool false) -> plain_loop (plain_command w) (run_command w) env orelse)
  | SImport | SPass => True
  | SDef _ _ | SOther => False
  end.
Definition plain_commands (w : world) := plain_loop (plain_command w) (run_command w).
(** a statement after the function [f] that sets no variable and does not define [f] again *)
Definition leaves (f : text) (s : stmt) : Prop :=
  match s with SDef g _ => g <> f | SImport | SPass | SExpr _ => True | _ => False end.

(** ** Validity, and freedom from repetition *)
Definition valid_package (p : pypackage) : Prop :=
  y_name p <> [] /\ (forall c, In c (y_name p) -> is_alnum c = true \/ c = "_" \/ c = "-") /\
  (forall v, y_version p = Some v -> v_str v <> []) /\
  (forall x, In x [T "requires"; T "build_requires"; T "private_build_requires"] -> ~ In [] (texts_field x (y_data p))) /\
  forall l, In l (variants_field (y_data p)) -> ~ In [] l.
(** the expression does not multiply *)
Fixpoint unmultiplied (e : pexpr) : Prop :=
  match e with
  | EBin op a b => op <> Mult /\ unmultiplied a /\ unmultiplied b
  | EUn _ a => unmultiplied a
  | ECmp a rest => unmultiplied a /\ all_of (fun r => unmultiplied (snd r)) rest
  | EBool _ es | EList es | ETuple es => all_of unmultiplied es
  | EDict kvs => all_of (fun b => match fst b with Some k => unmultiplied k | None => True end /\ unmultiplied (snd b)) kvs
  | ECall f args _ => unmultiplied f /\ all_of unmultiplied args
  | EAttr o _ => unmultiplied o
  | EIf t b o => unmultiplied t /\ unmultiplied b /\ unmultiplied o
  | _ => True
  end.
Fixpoint unmultiplied_stmt (s : stmt) : Prop :=
  match s with
  | SAssign _ e | SExpr e => unmultiplied e
  | SDef _ body => all_of unmultiplied_stmt body
  | SIf t a b => unmultiplied t /\ all_of unmultiplied_stmt a /\ all_of unmultiplied_stmt b
  | _ => True
  end.
