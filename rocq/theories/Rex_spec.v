(** Specification vocabulary for Rex: what actions mean variable by variable, what references in a text stand for, how the shells read
    quoted text.  Nothing here uses the helpers of the model except the type of actions. *)
From Verif Require Import Base Rex_model.
Open Scope char_scope.

(** ** Actions *)
(** the variable an action writes *)
Definition writes (a : action) : option text :=
  match a with
  | Setenv n _ | Unsetenv n | PrependPath n _ _ | AppendPath n _ _ | SetenvIfEmpty n _ | Resetenv n => Some n
  | _ => None
  end.
(** the value of the written variable afterwards *)
Definition written (sep : text) (old : option text) (a : action) : option text :=
  match a, old with
  | Setenv _ v, _ => Some v
  | Unsetenv _, _ | Resetenv _, _ => None
  | PrependPath _ v o, Some (c :: r) => Some (v ++ match o with Some s => s | None => sep end ++ c :: r)
  | AppendPath _ v o, Some (c :: r) => Some ((c :: r) ++ match o with Some s => s | None => sep end ++ v)
  | PrependPath _ v _, _ | AppendPath _ v _, _ => Some v
  | SetenvIfEmpty _ _, Some w => Some w
  | SetenvIfEmpty _ v, None => Some v
  | _, o => o
  end.
(** the actions up to and including the first stop *)
Inductive live : list action -> list action -> Prop :=
| live_nil : live [] []
| live_stop m l : live (Stop m :: l) [Stop m]
| live_go a l p : (forall m, a <> Stop m) -> live l p -> live (a :: l) (a :: p).
(** the actions of a list that write [x], in order *)
Inductive on_var (x : text) : list action -> list action -> Prop :=
| on_nil : on_var x [] []
| on_hit a l p : writes a = Some x -> on_var x l p -> on_var x (a :: l) (a :: p)
| on_miss a l p : writes a <> Some x -> on_var x l p -> on_var x (a :: l) p.

(** path variables: prepended entries end up in front, the last first; appended ones behind, in order *)
Fixpoint fronts (l : list action) : list text :=
  match l with [] => [] | PrependPath _ v None :: l' => fronts l' ++ [v] | _ :: l' => fronts l' end.
Fixpoint backs (l : list action) : list text :=
  match l with [] => [] | AppendPath _ v None :: l' => v :: backs l' | _ :: l' => backs l' end.
Definition path_action (a : action) : Prop :=
  match a with PrependPath _ (_ :: _) None | AppendPath _ (_ :: _) None => True | _ => False end.

(** ** Expansion *)
(** [Expands ctx s t]: [t] is [s] with each [{k}] of the context replaced by its value, all at once *)
Inductive Expands (ctx : list (text * text)) : text -> text -> Prop :=
| Exp_nil : Expands ctx [] []
| Exp_ref k v r t : In (k, v) ctx -> Expands ctx r t -> Expands ctx ("{" :: k ++ "}" :: r) (v ++ t)
| Exp_lit c r t : (forall k v q, In (k, v) ctx -> c :: r <> "{" :: k ++ "}" :: q) -> Expands ctx r t -> Expands ctx (c :: r) (c :: t).
(** a text without braces *)
Definition braceless (s : text) : Prop := ~ In "{" s /\ ~ In "}" s.
(** braces are not nested *)
Inductive flat : text -> Prop :=
| flat_nil : flat []
| flat_lit c r : c <> "{" -> flat r -> flat (c :: r)
| flat_tok b r : braceless b -> flat r -> flat ("{" :: b ++ "}" :: r)
| flat_open r : ~ In "{" r -> flat ("{" :: r).
(** no dollar sign is followed by an opening brace or by the first letter of a key in upper case *)
Definition calm (ctx : list (text * text)) (s : text) : Prop :=
  forall a d b, s = a ++ "$" :: d :: b -> d <> "{" /\ forall k v c r, In (k, v) ctx -> k = c :: r -> to_upper c <> d.
(** keys are not empty and have no braces, values have neither braces nor dollar signs *)
Definition tame (ctx : list (text * text)) : Prop :=
  forall k v, In (k, v) ctx -> k <> [] /\ braceless k /\ braceless v /\ ~ In "$" v.

(** neither braces nor dollar signs *)
Definition harmless (s : text) : Prop := braceless s /\ ~ In "$" s.

(** ** Statements *)
Definition blanks (s : text) : Prop := forall c, In c s -> is_ws c = true.
(** the text has neither of the two quote characters *)
Definition quoteless (s : text) : Prop := forall c, In c s -> c <> "'" /\ c <> """".
Definition quote (c : ascii) : Prop := c = "'" \/ c = """".
(** an argument between two quote characters *)
Inductive argument : text -> text -> Prop :=
| Argument q1 q2 a : quote q1 -> quote q2 -> quoteless a -> argument (q1 :: a ++ [q2]) a.
(** [kw ( arguments )] with any white space *)
Inductive called0 (kw : text) : text -> Prop :=
| Called0 w1 w2 : blanks w1 -> blanks w2 -> called0 kw (kw ++ w1 ++ "(" :: w2 ++ [")"]).
Inductive called1 (kw : text) : text -> text -> Prop :=
| Called1 w1 w2 w3 t a : blanks w1 -> blanks w2 -> blanks w3 -> argument t a ->
    called1 kw (kw ++ w1 ++ "(" :: w2 ++ t ++ w3 ++ [")"]) a.
Inductive called2 (kw : text) : text -> text -> text -> Prop :=
| Called2 w1 w2 w3 w4 w5 t u a b : blanks w1 -> blanks w2 -> blanks w3 -> blanks w4 -> blanks w5 -> argument t a -> argument u b ->
    called2 kw (kw ++ w1 ++ "(" :: w2 ++ t ++ w3 ++ "," :: w4 ++ u ++ w5 ++ [")"]) a b.
Definition with_env (kw : text) (k : text) : Prop := k = kw \/ k = T "env." ++ kw.
(** the function calls of the language and the actions they stand for *)
Inductive says : text -> action -> Prop :=
| says_setenv k s n v : with_env (T "setenv") k -> n <> [] -> called2 k s n v -> says s (Setenv n v)
| says_unsetenv k s n : with_env (T "unsetenv") k -> n <> [] -> called1 k s n -> says s (Unsetenv n)
| says_prepend k s n v : k = T "env.prepend_path" \/ k = T "prependenv" -> n <> [] -> called2 k s n v -> says s (PrependPath n v None)
| says_append k s n v : k = T "env.append_path" \/ k = T "appendenv" -> n <> [] -> called2 k s n v -> says s (AppendPath n v None)
| says_if_empty s n v : n <> [] -> called2 (T "env.setenv_if_empty") s n v -> says s (SetenvIfEmpty n v)
| says_alias k s n v : with_env (T "alias") k -> n <> [] -> called2 k s n v -> says s (Alias n v)
| says_command s c : called1 (T "command") s c -> says s (Command c)
| says_source s p : called1 (T "source") s p -> says s (Source p)
| says_resetenv k s n : with_env (T "resetenv") k -> n <> [] -> called1 k s n -> says s (Resetenv n)
| says_info s m : called1 (T "info") s m -> says s (Info m)
| says_error s m : called1 (T "error") s m -> says s (Error m)
| says_stop s : called0 (T "stop") s -> says s (Stop None)
| says_stop_msg s m : called1 (T "stop") s m -> says s (Stop (Some m))
| says_comment s m : called1 (T "comment") s m -> says s (Comment m).

(** the shell forms: an identifier and a value, both as they stand; [export] takes the value between optional double quotes *)
Definition identifier (n : text) : Prop :=
  exists c r, n = c :: r /\ (is_alpha c = true \/ c = "_") /\ forall d, In d r -> is_alnum d = true \/ d = "_".
Definition spaced (w : text) : Prop := w <> [] /\ blanks w.
(** the text starts with no white space *)
Definition visible (s : text) : Prop := forall c r, s = c :: r -> is_ws c = false.
Inductive exports : text -> text -> text -> Prop :=
| Exports w1 n w2 w3 q1 v q2 : spaced w1 -> identifier n -> blanks w2 -> blanks w3 ->
    (q1 = [""""] \/ q1 = [] /\ visible v) -> (q2 = [""""] \/ q2 = []) -> ~ In """" v -> ~ In "010" v ->
    exports (T "export" ++ w1 ++ n ++ w2 ++ "=" :: w3 ++ q1 ++ v ++ q2) n v.
(** [v] without the double quotes at its two ends is [u] *)
Definition unwrapped (v u : text) : Prop :=
  exists l r, v = l ++ u ++ r /\ (forall c, In c (l ++ r) -> c = """") /\ (forall x, u <> """" :: x) /\ (forall x, u <> x ++ [""""]).
Inductive sets_csh : text -> text -> text -> Prop :=
| SetsCsh w1 n w2 v u : spaced w1 -> identifier n -> spaced w2 -> v <> [] -> visible v -> unwrapped v u ->
    sets_csh (T "setenv" ++ w1 ++ n ++ w2 ++ v) n u.
(** a comment line *)
Definition comment_line (s : text) : Prop := exists r, s = "#" :: r \/ s = "/" :: "/" :: r.

(** every statement and its action *)
Inductive statement (s : text) : action -> Prop :=
| st_call a : says s a -> statement s a
| st_comment : comment_line s -> statement s (Comment s)
| st_export n v : exports s n v -> statement s (Setenv n v)
| st_csh n v : sets_csh s n v -> statement s (Setenv n v).
(** the lines of a text: blank, or a statement between white space *)
Inductive command_lines : list text -> list action -> Prop :=
| cl_nil : command_lines [] []
| cl_blank l ls acts : blanks l -> command_lines ls acts -> command_lines (l :: ls) acts
| cl_stmt u s v ls a acts : blanks u -> blanks v -> s <> [] -> trim s = s -> statement s a -> command_lines ls acts ->
    command_lines ((u ++ s ++ v) :: ls) (a :: acts).

(** the texts of an action in which variables are expanded *)
Definition expandable (a : action) : list text :=
  match a with
  | Setenv _ v | PrependPath _ v _ | AppendPath _ v _ | SetenvIfEmpty _ v | Alias _ v => [v]
  | Command c => [c] | Source p => [p] | Info m => [m] | Error m => [m] | Stop (Some m) => [m]
  | _ => []
  end.
(** the same action with these texts taken out *)
Definition frame (a : action) : action :=
  match a with
  | Setenv n _ => Setenv n [] | PrependPath n _ s => PrependPath n [] s | AppendPath n _ s => AppendPath n [] s
  | SetenvIfEmpty n _ => SetenvIfEmpty n [] | Alias n _ => Alias n []
  | Command _ => Command [] | Source _ => Source [] | Info _ => Info [] | Error _ => Error [] | Stop (Some _) => Stop (Some [])
  | Unsetenv n => Unsetenv n | Comment t => Comment t | Resetenv n => Resetenv n | Stop None => Stop None
  end.

(** ** Shells *)
(** bash: what may follow a dollar sign to make it an expansion inside double quotes *)
Definition starts_expansion (d : ascii) : bool :=
  is_alnum d || existsb (Ascii.eqb d) ["_"; "{"; "("; "["; "@"; "*"; "#"; "?"; "-"; "$"; "!"].
(** bash: the text up to the closing double quote, and the rest; [None] if something is expanded or the quote is not closed *)
Fixpoint bash_dq (s : text) : option (text * text) :=
  let keep c r := match bash_dq r with Some (t, x) => Some (c :: t, x) | None => None end in
  match s with
  | [] => None
  | c :: r =>
      if Ascii.eqb c """" then Some ([], r)
      else if Ascii.eqb c "`" then None
      else if Ascii.eqb c "$" then match r with d :: _ => if starts_expansion d then None else keep "$" r | [] => None end
      else if Ascii.eqb c "\" then
        match r with
        | d :: r' => if Ascii.eqb d "010" then bash_dq r'
                     else if existsb (Ascii.eqb d) ["$"; "`"; """"; "\"] then keep d r'
                     else keep "\" r
        | [] => None
        end
      else keep c r
  end.
(** bash: a word made of single-quoted parts and characters behind a backslash, up to a line feed or the end *)
Fixpoint bash_word (inside : bool) (s : text) : option (text * text) :=
  let keep c r i := match bash_word i r with Some (t, x) => Some (c :: t, x) | None => None end in
  match s with
  | [] => if inside then None else Some ([], [])
  | c :: r =>
      if inside then (if Ascii.eqb c "'" then bash_word false r else keep c r true)
      else if Ascii.eqb c "'" then bash_word true r
      else if Ascii.eqb c "010" then Some ([], s)
      else if Ascii.eqb c "\" then match r with d :: r' => keep d r' false | [] => None end
      else None
  end.
(** PowerShell: the text up to the closing single quote *)
Fixpoint ps_sq (s : text) : option (text * text) :=
  match s with
  | [] => None
  | c :: r =>
      if Ascii.eqb c "'" then
        match r with
        | d :: r' => if Ascii.eqb d "'" then match ps_sq r' with Some (t, x) => Some (c :: t, x) | None => None end else Some ([], r)
        | [] => Some ([], [])
        end
      else match ps_sq r with Some (t, x) => Some (c :: t, x) | None => None end
  end.
(** PowerShell: the character a backtick and a character stand for inside double quotes *)
Definition ps_escaped (d : ascii) : option ascii :=
  if Ascii.eqb d "u" then None
  else match find (fun p => Ascii.eqb d (fst p))
         [("0", "000"); ("a", "007"); ("b", "008"); ("e", "027"); ("f", "012"); ("n", "010"); ("r", "013"); ("t", "009"); ("v", "011")]%char with
       | Some (_, x) => Some x
       | None => Some d
       end.
(** PowerShell: the text up to the closing double quote *)
Fixpoint ps_dq (s : text) : option (text * text) :=
  let keep c r := match ps_dq r with Some (t, x) => Some (c :: t, x) | None => None end in
  match s with
  | [] => None
  | c :: r =>
      if Ascii.eqb c """" then
        match r with d :: r' => if Ascii.eqb d """" then keep c r' else Some ([], r) | [] => Some ([], []) end
      else if Ascii.eqb c "`" then
        match r with d :: r' => match ps_escaped d with Some x => keep x r' | None => None end | [] => None end
      else if Ascii.eqb c "$" then
        match r with
        | d :: _ => if is_alnum d || existsb (Ascii.eqb d) ["_"; "{"; "("; ":"; "$"; "?"; "^"] then None else keep c r
        | [] => None
        end
      else keep c r
  end.
(** fish: the text up to the closing double quote *)
Fixpoint fish_dq (s : text) : option (text * text) :=
  let keep c r := match fish_dq r with Some (t, x) => Some (c :: t, x) | None => None end in
  match s with
  | [] => None
  | c :: r =>
      if Ascii.eqb c """" then Some ([], r)
      else if Ascii.eqb c "$" then None
      else if Ascii.eqb c "\" then
        match r with
        | d :: r' => if Ascii.eqb d "010" then fish_dq r'
                     else if existsb (Ascii.eqb d) ["$"; """"; "\"] then keep d r'
                     else keep "\" r
        | [] => None
        end
      else keep c r
  end.
(** the statements of a script that the scripts of the model are made of *)
Inductive stmt := Export (name value : text) | Aliased (name value : text) | Sourced (path : text).
(** bash reads a script: comments, blank lines and the three statements; [None] for everything else *)
Fixpoint name_until (stop : ascii) (s : text) : option (text * text) :=
  match s with
  | c :: r => if Ascii.eqb c stop then Some ([], r)
              else if is_alnum c || Ascii.eqb c "_" then match name_until stop r with Some (n, x) => Some (c :: n, x) | None => None end
              else None
  | [] => None
  end.
Fixpoint skip_line (s : text) : text := match s with [] => [] | c :: r => if Ascii.eqb c "010" then r else skip_line r end.
Fixpoint after (p s : text) : option text :=
  match p, s with
  | [], _ => Some s
  | c :: p', d :: s' => if Ascii.eqb c d then after p' s' else None
  | _ :: _, [] => None
  end.
Definition end_of_line (s : text) : option text :=
  match s with [] => Some [] | c :: r => if Ascii.eqb c "010" then Some r else None end.
(** a digit is the first character *)
Definition digit_first (s : text) : bool := match s with c :: _ => is_digit c | [] => false end.
Fixpoint bash_reads (fuel : nat) (s : text) : option (list stmt) :=
  match fuel with
  | O => None
  | S f =>
      match s with
      | [] => Some []
      | c :: r =>
          if Ascii.eqb c "010" then bash_reads f r
          else if Ascii.eqb c "#" then bash_reads f (skip_line r)
          else
            let then_go (st : stmt) (rest : text) :=
              match end_of_line rest with
              | Some x => match bash_reads f x with Some l => Some (st :: l) | None => None end
              | None => None
              end in
            match after (T "export ") s with
            | Some x => match name_until "=" x with
                        | Some (n, """" :: y) => if digit_first n then None else match bash_dq y with Some (v, z) => then_go (Export n v) z | None => None end
                        | _ => None
                        end
            | None =>
            match after (T "alias ") s with
            | Some x => match name_until "=" x with
                        | Some (n, y) => match bash_word false y with Some (v, z) => then_go (Aliased n v) z | None => None end
                        | None => None
                        end
            | None =>
            match after (T "source """) s with
            | Some y => match bash_dq y with Some (v, z) => then_go (Sourced v) z | None => None end
            | None => None
            end end end
      end
  end.
(** a name the shell accepts for an alias *)
Definition shell_word (s : text) : Prop := s <> [] /\ forallb (fun c => is_alnum c || Ascii.eqb c "_") s = true.
(** a name the shell accepts for a variable: no digit is first *)
Definition shell_name (s : text) : Prop := shell_word s /\ digit_first s = false.
(** no backtick, and no dollar sign that starts an expansion *)
Definition no_expansion (v : text) : Prop :=
  ~ In "`" v /\ forall a d b, v = a ++ "$" :: d :: b -> starts_expansion d = false.
(** no backslash at the end or before one of the characters it protects *)
Definition no_escape (protects : ascii -> bool) (v : text) : Prop :=
  (forall a, v <> a ++ ["\"]) /\ forall a d b, v = a ++ "\" :: d :: b -> protects d = false.
Definition bash_protects (d : ascii) : bool := existsb (Ascii.eqb d) ["$"; "`"; """"; "\"; "010"].
Definition fish_protects (d : ascii) : bool := existsb (Ascii.eqb d) ["$"; """"; "\"; "010"].
(** bash reads the text as these statements *)
Definition Reads (s : text) (l : list stmt) : Prop := exists n, forall f, n <= f -> bash_reads f s = Some l.
(** the values the exports leave behind *)
Definition exported (l : list stmt) (x : text) : option text :=
  fold_left (fun o s => match s with Export n v => if text_eqb x n then Some v else o | _ => o end) l None.
