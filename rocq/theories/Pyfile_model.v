(** Model of the package.py loader: evaluation of expressions, extraction of fields, statements, command functions, validation.
    Sources: crates/rez-next-package/src/python_ast_parser/{mod,eval,extract,commands,types}.rs (abbreviated PM, PE, PX, PC, PT),
    crates/rez-next-package/src/package/methods.rs (abbreviated MT).
    Simplifications: the parser of Python text is a library (rustpython), so a file is its syntax tree; only what the loader reads of a tree
    is kept, every other expression, constant or statement is [EOther], [KOther], [SOther] (floating point numbers are such constants, so they
    are left out).  Texts are ASCII and the two private characters of [format_string] are two characters above 127.  Arithmetic on [i64] wraps
    as in a release build.  A panic is a value.  Error messages, the imports and the fields no rule knows are left out: nothing reads them. *)
From Verif Require Import Base Maps Version_model Rex_model Filter_model.
Open Scope char_scope.

(** ** Syntax trees, as far as the loader tells them apart (rustpython_ast) *)
Inductive pconst := KStr (s : text) | KInt (z : Z) | KBool (b : bool) | KNone | KOther.
(** PE:80-103: the operators that are told apart *)
Inductive binop := Add | Sub | Mult | BinOther.
(** PE:118-123 *)
Inductive unop := Not | UAdd | USub | Invert.
(** PE:147-154 *)
Inductive cmpop := CEq | CNe | CLt | CGt | CmpOther.
(** a call carries its positional and its keyword arguments; a key of a dictionary is absent for a spread [**] *)
Inductive pexpr :=
| EConst (k : pconst)
| EName (x : text)
| EBin (op : binop) (a b : pexpr)
| EUn (op : unop) (a : pexpr)
| ECmp (a : pexpr) (rest : list (cmpop * pexpr))
| EBool (isand : bool) (es : list pexpr)
| EList (es : list pexpr)
| ETuple (es : list pexpr)
| EDict (kvs : list (option pexpr * pexpr))
| ECall (f : pexpr) (args : list pexpr) (kws : list (text * pexpr))
| EAttr (o : pexpr) (a : text)
| ESub (o i : pexpr)
| EIf (t b o : pexpr)
| EOther.
(** PM:63-95: the statements *)
Inductive stmt :=
| SAssign (targets : list pexpr) (e : pexpr)
| SDef (name : text) (body : list stmt)
| SImport
| SIf (t : pexpr) (body orelse : list stmt)
| SExpr (e : pexpr)
| SPass
| SOther.

(** ** Values *)
(** PT:14-24 [PythonValue] *)
Inductive value :=
| VStr (s : text) | VInt (z : Z) | VBool (b : bool) | VList (l : list value) | VDict (d : list (text * value)) | VNone.
(** a Rust result, or a panic *)
Inductive res (A : Type) := Ok (a : A) | Err | Panic.
Arguments Ok {A} a. Arguments Err {A}. Arguments Panic {A}.
(** the operator [?], as in PE:34 *)
Definition bind {A B} (r : res A) (k : A -> res B) : res B := match r with Ok a => k a | Err => Err | Panic => Panic end.
(** what the machine gives: environment variables, PE:310-324 the platform and the name of the operating system *)
Record world := mkWorld { w_env : text -> option text; w_platform : text; w_osname : text }.

(** [i64] *)
Definition in_i64 (z : Z) : bool := ((- 9223372036854775808 <=? z) && (z <=? 9223372036854775807))%Z.
(** PE:83-99, 120: arithmetic in a release build *)
Definition wrap64 (z : Z) : Z := ((z + 9223372036854775808) mod 18446744073709551616 - 9223372036854775808)%Z.
(** [as i32] *)
Definition wrap32 (z : Z) : Z := ((z + 2147483648) mod 4294967296 - 2147483648)%Z.
(** [bool::to_string] *)
Definition show_bool (b : bool) : text := if b then T "true" else T "false".

(** ** Expressions *)
(** PE:48-69 [evaluate_constant] *)
Definition eval_const (k : pconst) : res value :=
  match k with
  | KStr s => Ok (VStr s)
  | KInt z => if in_i64 z then Ok (VInt z) else Err
  | KBool b => Ok (VBool b)
  | KNone => Ok VNone
  | KOther => Err
  end.
(** PE:79-107: [repeat] of a text that is not empty panics when the count, read as [usize], is too large; a negative count is *)
Definition eval_bin (op : binop) (l r : value) : res value :=
  match l, op, r with
  | VStr a, Add, VStr b => Ok (VStr (a ++ b))
  | VInt a, Add, VInt b => Ok (VInt (wrap64 (a + b)))
  | VList a, Add, VList b => Ok (VList (a ++ b))
  | VInt a, Sub, VInt b => Ok (VInt (wrap64 (a - b)))
  | VInt a, Mult, VInt b => Ok (VInt (wrap64 (a * b)))
  | VStr a, Mult, VInt n =>
      if (n <? 0)%Z then if is_nil a then Ok (VStr []) else Panic else Ok (VStr (concat (repeat a (Z.to_nat n))))
  | _, _, _ => Err
  end.
(** PE:117-127 *)
Definition eval_un (op : unop) (v : value) : res value :=
  match op, v with
  | Not, VBool b => Ok (VBool (negb b))
  | UAdd, VInt z => Ok (VInt z)
  | USub, VInt z => Ok (VInt (wrap64 (- z)))
  | _, _ => Err
  end.
(** PE:146-158; [None] is the error *)
Definition eval_cmp (op : cmpop) (l r : value) : option bool :=
  match l, op, r with
  | VInt a, CEq, VInt b => Some (a =? b)%Z
  | VStr a, CEq, VStr b => Some (text_eqb a b)
  | VStr a, CNe, VStr b => Some (negb (text_eqb a b))
  | VBool a, CEq, VBool b => Some (Bool.eqb a b)
  | VInt a, CLt, VInt b => Some (a <? b)%Z
  | VInt a, CGt, VInt b => Some (b <? a)%Z
  | _, _, _ => None
  end.
(** PE:281-282: the characters that stand for escaped braces *)
Definition OPEN : ascii := ascii_of_N 224.
(** PE:281-282, with the above *)
Definition CLOSE : ascii := ascii_of_N 225.
(** PE:285-295: the text of an argument *)
Definition format_arg (v : value) : option text :=
  match v with
  | VStr s => Some s
  | VInt z => Some (show_Z z)
  | VBool b => Some (show_bool b)
  | _ => None
  end.
(** PE:283, 298-300: before and after the arguments *)
Definition hide_braces (s : text) : text := replace (T "}}") [CLOSE] (replace (T "{{") [OPEN] s).
(** PE:283, 298-300, with the above *)
Definition show_braces (s : text) : text := replace [CLOSE] (T "}") (replace [OPEN] (T "{") s).
(** PE:296: the reference to an argument *)
Definition field_ref (i : nat) : text := "{" :: show_N (N.of_nat i) ++ ["}"].
(** PE:304-359 [evaluate_attribute] *)
Definition eval_attr (w : world) (vars : list (text * value)) (o : pexpr) (a : text) : res value :=
  match o with
  | EName owner =>
      if text_eqb owner (T "system") && text_eqb a (T "platform") then Ok (VStr (w_platform w)) else
      if text_eqb owner (T "os") && text_eqb a (T "name") then Ok (VStr (w_osname w)) else
      if text_eqb owner (T "this") && (text_eqb a (T "version") || text_eqb a (T "name")) then
        match aget a vars with Some v => Ok v | None => Err end
      else Err
  | EAttr (EName owner) b =>
      if text_eqb owner (T "this") && text_eqb b (T "version") then
        match aget (T "version") vars with
        | Some (VStr s) =>
            let part := fun n => match nth_error (split_on "." s) n with Some t => Ok (VStr t) | None => Err end in
            if text_eqb a (T "major") then part 0 else if text_eqb a (T "minor") then part 1 else if text_eqb a (T "patch") then part 2 else Err
        | _ => Err
        end
      else Err
  | _ => Err
  end.
(** the loops over parts of an expression; [ev] evaluates a part *)
Section Loops.
Context (ev : pexpr -> res value).
(** PE:197-201, 208-212 *)
Fixpoint eval_list (es : list pexpr) : res (list value) :=
  match es with [] => Ok [] | x :: es' => bind (ev x) (fun v => bind (eval_list es') (fun r => Ok (v :: r))) end.
(** PE:143-165: every operand is compared with the first *)
Fixpoint cmp_loop (l : value) (rest : list (cmpop * pexpr)) : res value :=
  match rest with
  | [] => Ok (VBool true)
  | (op, b) :: rest' =>
      bind (ev b) (fun r => match eval_cmp op l r with Some true => cmp_loop l rest' | Some false => Ok (VBool false) | None => Err end)
  end.
(** PE:174-191: only the booleans matter *)
Fixpoint bool_loop (isand : bool) (es : list pexpr) : res value :=
  match es with
  | [] => Ok (VBool isand)
  | x :: es' =>
      bind (ev x) (fun v => match v with VBool b => if Bool.eqb b isand then bool_loop isand es' else Ok (VBool b) | _ => bool_loop isand es' end)
  end.
(** PE:218-233: a spread is passed over *)
Fixpoint dict_loop (d : list (text * value)) (kvs : list (option pexpr * pexpr)) : res value :=
  match kvs with
  | [] => Ok (VDict d)
  | (None, _) :: kvs' => dict_loop d kvs'
  | (Some k, x) :: kvs' =>
      bind (ev k) (fun kv => bind (ev x) (fun xv => match kv with VStr s => dict_loop (aput s xv d) kvs' | _ => Err end))
  end.
(** PE:284-300 *)
Fixpoint format_loop (i : nat) (t : text) (args : list pexpr) : res value :=
  match args with
  | [] => Ok (VStr (show_braces t))
  | x :: args' =>
      bind (ev x) (fun xv => match format_arg xv with Some y => format_loop (S i) (replace (field_ref i) y t) args' | None => Err end)
  end.
End Loops.
(** PE:11-45 [evaluate_expression] with PE:131-166 [evaluate_comparison], PE:169-193 [evaluate_boolean_operation], PE:196-234 lists, tuples
    and dictionaries, PE:237-301 [evaluate_function_call] and [format_string]; PE:362-369 subscripts are errors *)
Fixpoint eval (w : world) (vars : list (text * value)) (e : pexpr) {struct e} : res value :=
  match e with
  | EConst k => eval_const k
  | EName x => match aget x vars with Some v => Ok v | None => Err end
  | EBin op a b => bind (eval w vars a) (fun l => bind (eval w vars b) (fun r => eval_bin op l r))
  | EUn op a => bind (eval w vars a) (eval_un op)
  | ECmp a rest => bind (eval w vars a) (fun l => cmp_loop (eval w vars) l rest)
  | EBool isand es => bool_loop (eval w vars) isand es
  | EList es | ETuple es => bind (eval_list (eval w vars) es) (fun l => Ok (VList l))
  | EDict kvs => dict_loop (eval w vars) [] kvs
  | ECall (EAttr o a) args _ =>
      let rest_of_call :=
        if text_eqb a (T "lower") then
          bind (eval w vars o) (fun v => match v with VStr s => Ok (VStr (map to_lower s)) | _ => Err end)
        else if text_eqb a (T "format") then
          bind (eval w vars o) (fun v => match v with VStr s => format_loop (eval w vars) 0 (hide_braces s) args | _ => Err end)
        else Err in
      match o, args with
      | EName owner, n :: more =>
          if text_eqb owner (T "os") && text_eqb a (T "getenv") then
            bind (eval w vars n) (fun nv =>
              match nv with
              | VStr s => match w_env w s with
                          | Some v => Ok (VStr v)
                          | None => match more with d :: _ => eval w vars d | [] => Ok VNone end
                          end
              | _ => rest_of_call
              end)
          else rest_of_call
      | _, _ => rest_of_call
      end
  | ECall _ _ _ => Err
  | EAttr o a => eval_attr w vars o a
  | ESub _ _ => Err
  | EIf t b o =>
      bind (eval w vars t) (fun v => match v with VBool true => eval w vars b | VBool false => eval w vars o | _ => Err end)
  | EOther => Err
  end.

(** ** Extraction *)
(** PX:14-16, 86-89: the text of a value *)
Definition text_of (v : value) : option text := format_arg v.
(** PX:11-33 [extract_string_value] *)
Definition xstr (w : world) vars (e : pexpr) : res text :=
  match eval w vars e with
  | Panic => Panic
  | r =>
      match match r with Ok v => text_of v | _ => None end with
      | Some t => Ok t
      | None => match e with EConst (KStr s) => Ok s | EConst (KInt z) => Ok (show_Z z) | _ => Err end
      end
  end.
(** PX:36-55 [extract_bool_value] *)
Definition xbool (w : world) vars (e : pexpr) : res (option bool) :=
  match eval w vars e with
  | Panic => Panic
  | Ok (VBool b) => Ok (Some b)
  | Ok VNone => Ok None
  | _ => Err
  end.
(** PX:58-77 [extract_int_value]; the fallback cannot succeed: a constant that is no [i64] is no [i32] *)
Definition xint (w : world) vars (e : pexpr) : res Z :=
  match eval w vars e with Panic => Panic | Ok (VInt z) => Ok (wrap32 z) | _ => Err end.
(** PX:83-97, 100-113: all or nothing *)
Fixpoint each {A B} (f : A -> res B) (l : list A) : res (list B) :=
  match l with [] => Ok [] | x :: l' => bind (f x) (fun y => bind (each f l') (fun r => Ok (y :: r))) end.
(** PX:83-97, 100-113, with the above *)
Definition item_text (v : value) : res text := match text_of v with Some t => Ok t | None => Err end.
(** PX:80-120 [extract_string_list] *)
Definition xlist (w : world) vars (e : pexpr) : res (list text) :=
  match eval w vars e with
  | Panic => Panic
  | Ok (VList l) => each item_text l
  | _ => match e with EList es | ETuple es => each (xstr w vars) es | _ => Err end
  end.
(** PX:123-137 [extract_variants] *)
Definition xvariants (w : world) vars (e : pexpr) : res (list (list text)) :=
  match e with EList es => each (xlist w vars) es | _ => Err end.
(** PX:162-170 *)
Fixpoint tests_loop (w : world) vars (d : list (text * text)) (kvs : list (option pexpr * pexpr)) : res (list (text * text)) :=
  match kvs with
  | [] => Ok d
  | (None, _) :: kvs' => tests_loop w vars d kvs'
  | (Some k, x) :: kvs' => bind (xstr w vars k) (fun kt => bind (xstr w vars x) (fun xt => tests_loop w vars (aput kt xt d) kvs'))
  end.
(** PX:139-178 [extract_tests] *)
Definition xtests (w : world) vars (e : pexpr) : res (list (text * text)) :=
  match eval w vars e with
  | Panic => Panic
  | Ok (VDict d) => each (fun b => match snd b with VStr s => Ok (fst b, s) | _ => Err end) d
  | _ =>
      match e with EDict kvs => tests_loop w vars [] kvs | _ => Err end
  end.

(** ** Command functions *)
(** PC:130-177, 223-303: the calls and how many of their arguments are read *)
Definition env_calls2 : list text := [T "setenv"; T "prepend_path"; T "append_path"; T "setenv_if_empty"].
(** PC:130-177, 223-303, with the above *)
Definition plain_calls1 : list text := [T "command"; T "source"; T "info"; T "error"; T "resetenv"; T "unsetenv"].
(** PC:130-177, 223-303, with the above *)
Definition plain_calls2 : list text := [T "alias"; T "setenv"; T "prependenv"; T "appendenv"].
(** the written forms: name('a'), name('a', 'b') *)
Definition write1 (f a : text) : text := f ++ T "('" ++ a ++ T "')".
(** PC:115, 135, 151, 162, 173 *)
Definition write2 (f a b : text) : text := f ++ T "('" ++ a ++ T "', '" ++ b ++ T "')".
(** [if let Ok(..)]: an error is passed over, and the statement ends in [k] *)
Definition if_ok {A} (r : res text) (f : text -> res A) (k : res A) : res A :=
  match r with Ok t => f t | Err => k | Panic => Panic end.
(** PC:122-311: a call that stands alone *)
Definition call_command (w : world) vars (f : pexpr) (args : list pexpr) : res text :=
  match f with
  | EAttr (EName obj) m =>
      if negb (text_eqb obj (T "env")) then Err else
      if mem_text m env_calls2 then
        match args with
        | a :: b :: _ => if_ok (xstr w vars a) (fun k => if_ok (xstr w vars b) (fun v => Ok (write2 (T "env." ++ m) k v)) Err)
                               (match xstr w vars b with Panic => Panic | _ => Err end)
        | _ => Err
        end
      else if text_eqb m (T "unsetenv") then
        match args with a :: _ => if_ok (xstr w vars a) (fun k => Ok (write1 (T "env.unsetenv") k)) Err | [] => Err end
      else Err
  | EAttr (EAttr (EName obj) var) m =>
      if negb (text_eqb obj (T "env")) then Err else
      match args with
      | a :: _ =>
          if_ok (xstr w vars a) (fun v =>
            if text_eqb m (T "prepend") then Ok (write2 (T "env.prepend_path") var v) else
            if text_eqb m (T "append") then Ok (write2 (T "env.append_path") var v) else
            if text_eqb m (T "set") then Ok (write2 (T "env.setenv") var v) else
            if text_eqb m (T "unset") then Ok (write1 (T "env.unsetenv") var) else Err) Err
      | [] => Err
      end
  | EName fn =>
      if mem_text fn plain_calls2 then
        match args with
        | a :: b :: _ => if_ok (xstr w vars a) (fun k => if_ok (xstr w vars b) (fun v => Ok (write2 fn k v)) Err)
                               (match xstr w vars b with Panic => Panic | _ => Err end)
        | _ => Err
        end
      else if mem_text fn plain_calls1 then
        match args with a :: _ => if_ok (xstr w vars a) (fun k => Ok (write1 fn k)) Err | [] => Err end
      else if text_eqb fn (T "stop") then
        match args with a :: _ => if_ok (xstr w vars a) (fun k => Ok (write1 fn k)) Err | [] => Ok (T "stop()") end
      else Err
  | _ => Err
  end.
(** PC:62, 97-99: the lines together, none when there are none *)
Definition lines_text (l : list text) : option text := match l with [] => None | _ => Some (join [NL] l) end.
(** PC:62, 97-99, with the above *)
Definition opt_cons {A} (o : option A) (l : list A) : list A := match o with Some x => x :: l | None => l end.
(** the loops PC:57-61, 92-96; [f] takes one statement *)
Section Blocks.
Context (f : list (text * value) -> stmt -> res (option text * list (text * value))).
(** PC:57-61, 92-96, with the above *)
Fixpoint commands_loop (vars : list (text * value)) (l : list stmt) : res (list text * list (text * value)) :=
  match l with
  | [] => Ok ([], vars)
  | s :: l' => bind (f vars s) (fun p => bind (commands_loop (snd p) l') (fun q => Ok (opt_cons (fst p) (fst q), snd q)))
  end.
End Blocks.
(** PC:76-322 [extract_command_from_statement]: the command and the variables after it *)
Fixpoint command_of (w : world) (vars : list (text * value)) (s : stmt) {struct s} : res (option text * list (text * value)) :=
  match s with
  | SIf t body orelse =>
      bind (eval w vars t) (fun v =>
        match v with
        | VBool b => bind (if b then commands_loop (command_of w) vars body else commands_loop (command_of w) vars orelse) (fun p => Ok (lines_text (fst p), snd p))
        | _ => Err
        end)
  | SAssign (EName x :: _) e => bind (eval w vars e) (fun v => Ok (None, aput x v vars))
  | SAssign (EAttr (EName obj) var :: _) e =>
      if text_eqb obj (T "env") then
        if_ok (xstr w vars e) (fun v => Ok (Some (write2 (T "env.setenv") var v), vars)) (Ok (None, vars))
      else Ok (None, vars)
  | SAssign _ _ => Ok (None, vars)
  | SExpr (ECall f args _) => bind (call_command w vars f args) (fun c => Ok (Some c, vars))
  | SExpr _ => Ok (None, vars)
  | SImport | SPass => Ok (None, vars)
  | SDef _ _ | SOther => Err
  end.
(** PC:50-66 [process_command_function_body]: the commands, and the variables the loader goes on with *)
Definition command_body (w : world) (vars : list (text * value)) (body : list stmt) : res (option text) * list (text * value) :=
  let outer := vars in
  (bind (commands_loop (command_of w) vars body) (fun p => Ok (lines_text (fst p))), outer).

(** ** Statements *)
(** PT:28-59 [PackageData]: the fields that were set, by the name of the attribute; [commands_function] is [commands] *)
Inductive field :=
| FText (o : option text) | FTexts (l : list text) | FVariants (l : list (list text)) | FTests (d : list (text * text))
| FBool (o : option bool) | FInt (z : Z).
(** PT:28-59, with the above *)
Inductive fkind := KdText | KdTexts | KdVariants | KdTests | KdBool | KdInt | KdCommands.
(** PT:28-59, with the above *)
Definition text_fields : list text :=
  [T "name"; T "version"; T "description"; T "build_command"; T "build_system"; T "uuid"; T "pre_commands"; T "post_commands";
   T "pre_test_commands"; T "pre_build_commands"; T "requires_rez_version"; T "help"; T "base"; T "preprocess"].
(** PT:28-59, with the above *)
Definition list_fields : list text :=
  [T "authors"; T "requires"; T "build_requires"; T "private_build_requires"; T "tools"; T "plugin_for"].
(** PT:28-59, with the above *)
Definition bool_fields : list text := [T "relocatable"; T "cachable"; T "hashed_variants"; T "has_plugins"].
(** PM:209-301: the field of a variable *)
Definition kind_of (x : text) : option fkind :=
  if mem_text x text_fields then Some KdText else
  if mem_text x list_fields then Some KdTexts else
  if mem_text x bool_fields then Some KdBool else
  if text_eqb x (T "variants") then Some KdVariants else
  if text_eqb x (T "tests") then Some KdTests else
  if text_eqb x (T "commands") then Some KdCommands else
  if text_eqb x (T "format_version") then Some KdInt else None.
(** PM:209-301, with the above *)
Record pstate := mkState { s_vars : list (text * value); s_data : list (text * field) }.
(** PM:209-301: the extraction of a field; [None] leaves the field *)
Definition field_of (w : world) vars (x : text) (e : pexpr) : res (option field) :=
  match kind_of x with
  | Some KdText => bind (xstr w vars e) (fun t => Ok (Some (FText (Some t))))
  | Some KdTexts => bind (xlist w vars e) (fun l => Ok (Some (FTexts l)))
  | Some KdVariants => bind (xvariants w vars e) (fun l => Ok (Some (FVariants l)))
  | Some KdTests => bind (xtests w vars e) (fun d => Ok (Some (FTests d)))
  | Some KdBool => bind (xbool w vars e) (fun o => Ok (Some (FBool o)))
  | Some KdInt => bind (xint w vars e) (fun z => Ok (Some (FInt z)))
  | Some KdCommands => if_ok (xstr w vars e) (fun t => Ok (Some (FText (Some t)))) (Ok None)
  | None => Ok None
  end.
(** PM:209-301, with the above *)
Definition set_field (x : text) (o : option field) (d : list (text * field)) : list (text * field) :=
  match o with Some f => aput x f d | None => d end.
(** PM:198-303 [process_assignment]: the variable is stored before the field is extracted, which evaluates the expression again *)
Definition assign (w : world) (st : pstate) (x : text) (e : pexpr) : res pstate :=
  bind (eval w (s_vars st) e) (fun v =>
    let vars := aput x v (s_vars st) in
    bind (field_of w vars x e) (fun o => Ok (mkState vars (set_field x o (s_data st))))).
(** PM:148-167 the functions that are known *)
Definition function_fields : list text := [T "commands"; T "pre_commands"; T "post_commands"; T "pre_test_commands"].
(** PM:49-51, 179-186; [f] takes one statement *)
Section Process.
Context (f : pstate -> stmt -> res pstate).
(** PM:49-51, 179-186, with the above *)
Fixpoint process_loop (st : pstate) (l : list stmt) : res pstate :=
  match l with [] => Ok st | s :: l' => bind (f st s) (fun st' => process_loop st' l') end.
End Process.
(** PM:57-103 [process_statement] with PM:143-195 functions and conditions, PM:305-361 loops (rejected) and expressions *)
Fixpoint process (w : world) (st : pstate) (s : stmt) {struct s} : res pstate :=
  match s with
  | SAssign (EName x :: _) e => assign w st x e
  | SAssign _ _ => Ok st
  | SDef f body =>
      if mem_text f function_fields then
        let '(r, vars) := command_body w (s_vars st) body in
        bind r (fun c => Ok (mkState vars (aput f (FText c) (s_data st))))
      else Err
  | SImport | SPass => Ok st
  | SIf t body orelse =>
      bind (eval w (s_vars st) t) (fun v =>
        match v with VBool b => if b then process_loop (process w) st body else process_loop (process w) st orelse | _ => Err end)
  | SExpr e => bind (eval w (s_vars st) e) (fun _ => Ok st)
  | SOther => Err
  end.
(** ** The package *)
(** the result: name, version and the other fields by name; a field that was never set has its default, PM:364-408, MT:10-52 *)
Record pypackage := mkPy { y_name : text; y_version : option version; y_data : list (text * field) }.
(** PM:364-408, with the above *)
Definition text_field (x : text) (d : list (text * field)) : option text :=
  match aget x d with Some (FText o) => o | _ => None end.
(** PM:364-408, with the above *)
Definition texts_field (x : text) (d : list (text * field)) : list text :=
  match aget x d with Some (FTexts l) => l | _ => [] end.
(** PM:364-408, with the above *)
Definition variants_field (d : list (text * field)) : list (list text) :=
  match aget (T "variants") d with Some (FVariants l) => l | _ => [] end.
(** PM:364-408, with the above *)
Definition tests_field (d : list (text * field)) : list (text * text) :=
  match aget (T "tests") d with Some (FTests l) => l | _ => [] end.
(** PM:364-408, with the above *)
Definition bool_field (x : text) (d : list (text * field)) : option bool :=
  match aget x d with Some (FBool o) => o | _ => None end.
(** PM:364-408, with the above *)
Definition int_field (x : text) (d : list (text * field)) : option Z :=
  match aget x d with Some (FInt z) => Some z | _ => None end.
(** MT:137-197 [validate] *)
Definition name_char (c : ascii) : bool := is_alnum c || Ascii.eqb c "_" || Ascii.eqb c "-".
(** MT:137-197, with the above *)
Definition validate (p : pypackage) : bool :=
  negb (is_nil (y_name p)) && forallb name_char (y_name p)
  && match y_version p with Some v => negb (is_nil (v_str v)) | None => true end
  && forallb (fun r => negb (is_nil r)) (texts_field (T "requires") (y_data p))
  && forallb (fun r => negb (is_nil r)) (texts_field (T "build_requires") (y_data p))
  && forallb (fun r => negb (is_nil r)) (texts_field (T "private_build_requires") (y_data p))
  && forallb (forallb (fun r => negb (is_nil r))) (variants_field (y_data p)).
(** PM:364-408 [build_package] *)
Definition build_package (d : list (text * field)) : res pypackage :=
  match text_field (T "name") d with
  | None => Err
  | Some n =>
      match match text_field (T "version") d with
            | None => Some None
            | Some s => match parse_version s with Some v => Some (Some v) | None => None end
            end with
      | None => Err
      | Some v => let p := mkPy n v d in if validate p then Ok p else Err
      end
  end.
(** PM:37-54 [parse_package_py], after the parser of Python text *)
Definition load (w : world) (file : list stmt) : res pypackage :=
  bind (process_loop (process w) (mkState [] []) file) (fun st => build_package (s_data st)).
