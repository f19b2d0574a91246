(** Model of the Rex command language: actions, parser, variable expansion and generated shell scripts.
    Sources: crates/rez-next-rex/src/{lib,actions,parser,executor,shell}.rs (abbreviated RL, RA, RP, RX, RS),
    crates/rez-next-context/src/environment.rs (abbreviated CE).
    Simplifications: texts are ASCII ([\s] and [trim] know the ASCII white space, [to_uppercase] the ASCII letters); each regular
    expression is transcribed as a deterministic scanner (all of them have at most one way to match a trimmed line); [lines] is a
    split at line feeds, which gives the same trimmed non-empty lines.  [win] stands for [cfg!(windows)]. *)
From Verif Require Import Base Maps Sorting Range_model.
Open Scope char_scope.

(** RS:60, 117: the double quote *)
Definition DQ : ascii := """".
(** RS:72, 100: the single quote *)
Definition SQ : ascii := "'".
(** RS:60, 117: the backslash *)
Definition BS : ascii := "\".
(** CE:462-467: the backtick *)
Definition BT : ascii := "`".
(** RP:112: the end of a line *)
Definition NL : ascii := "010".
(** RP:112-113: the carriage return, which [lines] and [trim] take off *)
Definition CR : ascii := "013".

(** [str::replace] for a non-empty pattern: leftmost matches, not overlapping; [skip] characters of the last match remain *)
Fixpoint repl (p v : text) (skip : nat) (s : text) : text :=
  match s with
  | [] => []
  | c :: r =>
      match skip with
      | S k => repl p v k r
      | O => if starts_with p s then v ++ repl p v (length p - 1) r else c :: repl p v 0 r
      end
  end.
(** RX:94, 96 *)
Definition replace (p v s : text) : text := repl p v 0 s.
(** [str::replace] for a character pattern *)
Definition replace_char (x : ascii) (v s : text) : text := flat_map (fun c => if Ascii.eqb c x then v else [c]) s.

(** ** Actions *)
(** RA:16-51 [RexActionType] *)
Inductive action :=
| Setenv (name value : text)
| Unsetenv (name : text)
| PrependPath (name value : text) (sep : option text)
| AppendPath (name value : text) (sep : option text)
| SetenvIfEmpty (name value : text)
| Alias (name value : text)
| Command (cmd : text)
| Source (path : text)
| Comment (txt : text)
| Resetenv (name : text)
| Info (msg : text)
| Error (msg : text)
| Stop (msg : option text).
(** RA:7-13 [RexAction] *)
Record raction := mkRaction { a_type : action; a_source : option text }.
(** RL:34-49 [RexEnvironment] *)
Record renv := mkRenv {
  e_vars : list (text * text); e_aliases : list (text * text); e_startup : list text; e_sourced : list text;
  e_infos : list text; e_stopped : bool; e_stop_msg : option text }.
(** RL:52-54 [new] *)
Definition no_renv : renv := mkRenv [] [] [] [] [] false None.
(** RL:52-54, with the above *)
Definition set_vars (e : renv) (m : list (text * text)) : renv :=
  mkRenv m (e_aliases e) (e_startup e) (e_sourced e) (e_infos e) (e_stopped e) (e_stop_msg e).

(** RL:149-151 [get_path_sep] *)
Definition path_sep (win : bool) : text := if win then T ";" else T ":".
(** RL:149-151, with the above *)
Definition sep_of (win : bool) (o : option text) : text := match o with Some s => s | None => path_sep win end.
(** RL:149-151, with the above *)
Definition or_empty (o : option text) : text := match o with Some s => s | None => [] end.

(** RL:70-137 [apply_action] *)
Definition apply_action (win : bool) (e : renv) (a : action) : renv :=
  match a with
  | Setenv n v => set_vars e (aput n v (e_vars e))
  | Unsetenv n => set_vars e (adel n (e_vars e))
  | PrependPath n v s =>
      let cur := or_empty (aget n (e_vars e)) in
      set_vars e (aput n (if is_nil cur then v else v ++ sep_of win s ++ cur) (e_vars e))
  | AppendPath n v s =>
      let cur := or_empty (aget n (e_vars e)) in
      set_vars e (aput n (if is_nil cur then v else cur ++ sep_of win s ++ v) (e_vars e))
  | SetenvIfEmpty n v => if ahas n (e_vars e) then e else set_vars e (aput n v (e_vars e))
  | Alias n v => mkRenv (e_vars e) (aput n v (e_aliases e)) (e_startup e) (e_sourced e) (e_infos e) (e_stopped e) (e_stop_msg e)
  | Command c => mkRenv (e_vars e) (e_aliases e) (e_startup e ++ [c]) (e_sourced e) (e_infos e) (e_stopped e) (e_stop_msg e)
  | Source p => mkRenv (e_vars e) (e_aliases e) (e_startup e) (e_sourced e ++ [p]) (e_infos e) (e_stopped e) (e_stop_msg e)
  | Comment _ => e
  | Resetenv n => set_vars e (adel n (e_vars e))
  | Info m => mkRenv (e_vars e) (e_aliases e) (e_startup e) (e_sourced e) (e_infos e ++ [m]) (e_stopped e) (e_stop_msg e)
  | Error m => mkRenv (e_vars e) (e_aliases e) (e_startup e) (e_sourced e) (e_infos e ++ [T "[error] " ++ m]) (e_stopped e) (e_stop_msg e)
  | Stop m => mkRenv (e_vars e) (e_aliases e) (e_startup e) (e_sourced e) (e_infos e) true m
  end.
(** RL:61 *)
Definition is_stop (a : action) : bool := match a with Stop _ => true | _ => false end.
(** RL:60-68 [apply] *)
Fixpoint apply (win : bool) (e : renv) (l : list action) : renv :=
  match l with
  | [] => e
  | a :: l' => let e' := apply_action win e a in if is_stop a then e' else apply win e' l'
  end.
(** RL:140-146 [merge_with_base]; the base map is iterated in some order *)
Definition merge_with_base (ord : list (text * text) -> list (text * text)) (e : renv) (base : list (text * text)) : renv :=
  set_vars e (fold_left (fun m kv => if ahas (fst kv) m then m else aput (fst kv) (snd kv) m) (ord base) (e_vars e)).

(** ** Parser *)
(** RP:44-106: the class of the two quote characters *)
Definition is_quote (c : ascii) : bool := Ascii.eqb c SQ || Ascii.eqb c DQ.
(** RP:44-106: the longest text without quotes, and the rest *)
Fixpoint unquoted (s : text) : text * text :=
  match s with
  | [] => ([], [])
  | c :: r => if is_quote c then ([], s) else let '(a, b) := unquoted r in (c :: a, b)
  end.
(** RP:44-106: a quoted argument; the two quotes need not be the same character *)
Definition quoted (s : text) : option (text * text) :=
  match s with
  | c :: r => if is_quote c then match unquoted r with (a, _ :: b) => Some (a, b) | (_, []) => None end else None
  | [] => None
  end.
(** RP:44-106: a literal character *)
Definition expect (c : ascii) (s : text) : option text :=
  match s with d :: r => if Ascii.eqb d c then Some r else None | [] => None end.
(** RP:44-106: the keyword, then an opening parenthesis between white space *)
Definition opening (kw s : text) : option text :=
  match strip_prefix kw s with
  | Some r => match expect "(" (trim_start r) with Some r' => Some (trim_start r') | None => None end
  | None => None
  end.
(** RP:44-106: white space, a closing parenthesis, the end *)
Definition closing (s : text) : bool := match expect ")" (trim_start s) with Some [] => true | _ => false end.
(** RP:46-48, 50-52, 66-68, 86-88: the optional prefix env. *)
Definition maybe_env (s : text) : text := match strip_prefix (T "env.") s with Some r => r | None => s end.
(** RP:78-80, 82-84, 90-92, 94-96, 102-104: one quoted argument, possibly empty *)
Definition call1 (kw s : text) : option text :=
  match opening kw s with
  | Some r => match quoted r with Some (a, b) => if closing b then Some a else None | None => None end
  | None => None
  end.
(** RP:50-52, 86-88: one quoted argument, not empty *)
Definition call1p (kw s : text) : option text := match call1 kw s with Some [] => None | o => o end.
(** RP:46-48, 54-68: two quoted arguments, the first not empty *)
Definition call2 (kw s : text) : option (text * text) :=
  match opening kw s with
  | Some r =>
      match quoted r with
      | Some (a, b) =>
          if is_nil a then None else
          match expect "," (trim_start b) with
          | Some c => match quoted (trim_start c) with Some (x, d) => if closing d then Some (a, x) else None | None => None end
          | None => None
          end
      | None => None
      end
  | None => None
  end.
(** RP:98-100: no argument, or one *)
Definition call_stop (s : text) : option (option text) :=
  match opening (T "stop") s with
  | Some r =>
      match quoted r with
      | Some (a, b) => if closing b then Some (Some a) else None
      | None => if closing r then Some None else None
      end
  | None => None
  end.
(** RP:70-76: the characters of an identifier *)
Definition id_start (c : ascii) : bool := is_alpha c || Ascii.eqb c "_".
(** RP:70-76, with the above *)
Definition id_char (c : ascii) : bool := is_alnum c || Ascii.eqb c "_".
(** RP:70-76, with the above *)
Fixpoint span (f : ascii -> bool) (s : text) : text * text :=
  match s with
  | c :: r => if f c then let '(a, b) := span f r in (c :: a, b) else ([], s)
  | [] => ([], [])
  end.
(** RP:70-76, with the above *)
Definition ident (s : text) : option (text * text) :=
  match s with c :: _ => if id_start c then Some (span id_char s) else None | [] => None end.
(** RP:70-76: at least one white space *)
Definition space1 (s : text) : option text := match s with c :: _ => if is_ws c then Some (trim_start s) else None | [] => None end.
(** RP:231, 239: [trim_matches] for the double quote *)
Fixpoint trim_dq_start (s : text) : text := match s with c :: r => if Ascii.eqb c DQ then trim_dq_start r else s | [] => [] end.
(** RP:231, 239, with the above *)
Definition trim_dq (s : text) : text := rev (trim_dq_start (rev (trim_dq_start s))).
(** RP:71: the longest text without double quote and line feed, and the rest *)
Definition no_dq (s : text) : text * text := span (fun c => negb (Ascii.eqb c DQ || Ascii.eqb c NL)) s.
(** RP:70-72, 227-234 *)
Definition export_line (s : text) : option (text * text) :=
  match strip_prefix (T "export") s with
  | None => None
  | Some r =>
      match space1 r with
      | None => None
      | Some r =>
          match ident r with
          | None => None
          | Some (n, r) =>
              match expect "=" (trim_start r) with
              | None => None
              | Some r =>
                  let r := trim_start r in
                  let r := match expect DQ r with Some x => x | None => r end in
                  let '(v, r) := no_dq r in
                  let r := match expect DQ r with Some x => x | None => r end in
                  if is_nil r then Some (n, trim_dq v) else None
              end
          end
      end
  end.
(** RP:74-76, 235-242 *)
Definition setenv_sh_line (s : text) : option (text * text) :=
  match strip_prefix (T "setenv") s with
  | None => None
  | Some r =>
      match space1 r with
      | None => None
      | Some r =>
          match ident r with
          | None => None
          | Some (n, r) => match space1 r with Some (c :: v) => Some (n, trim_dq (trim (c :: v))) | _ => None end
          end
      end
  end.
(** RP:74-76, 235-242, with the above *)
Definition orelse {A} (o : option A) (k : option A) : option A := match o with Some _ => o | None => k end.
(** RP:74-76, 235-242, with the above *)
Definition opt {A B} (f : A -> B) (o : option A) : option B := match o with Some x => Some (f x) | None => None end.
(** RP:74-76, 235-242, with the above *)
Definition two (f : text -> text -> action) (o : option (text * text)) : option action := opt (fun p => f (fst p) (snd p)) o.
(** RP:117, 129-247: one trimmed line that is not empty *)
Definition parse_line (s : text) : option action :=
  if starts_with (T "#") s || starts_with (T "//") s then Some (Comment s) else
  orelse (two Setenv (call2 (T "setenv") (maybe_env s)))
  (orelse (opt Unsetenv (call1p (T "unsetenv") (maybe_env s)))
  (orelse (two (fun n v => PrependPath n v None) (orelse (call2 (T "env.prepend_path") s) (call2 (T "prependenv") s)))
  (orelse (two (fun n v => AppendPath n v None) (orelse (call2 (T "env.append_path") s) (call2 (T "appendenv") s)))
  (orelse (two SetenvIfEmpty (call2 (T "env.setenv_if_empty") s))
  (orelse (two Alias (call2 (T "alias") (maybe_env s)))
  (orelse (opt Command (call1 (T "command") s))
  (orelse (opt Source (call1 (T "source") s))
  (orelse (opt Resetenv (call1p (T "resetenv") (maybe_env s)))
  (orelse (opt Info (call1 (T "info") s))
  (orelse (opt Error (call1 (T "error") s))
  (orelse (opt Stop (call_stop s))
  (orelse (opt Comment (call1 (T "comment") s))
  (orelse (two Setenv (export_line s))
          (two Setenv (setenv_sh_line s))))))))))))))).
(** RP:109-251 [parse]; [None] is the error of the first line that is no statement *)
Fixpoint parse_lines (ls : list text) : option (list action) :=
  match ls with
  | [] => Some []
  | l :: ls' =>
      let l := trim l in
      if is_nil l then parse_lines ls' else
      match parse_line l with
      | Some a => match parse_lines ls' with Some r => Some (a :: r) | None => None end
      | None => None
      end
  end.
(** RP:109-251, with the above *)
Definition parse_commands (s : text) : option (list action) := parse_lines (split_on NL s).

(** ** Executor *)
(** RX:91-100: the closure [expand]; [ord] is the iteration order of the map *)
Definition expand_one (s : text) (kv : text * text) : text :=
  replace ("$" :: map to_upper (fst kv)) (snd kv) (replace ("{" :: fst kv ++ ["}"]) (snd kv) s).
(** RX:91-100, with the above *)
Definition expand (ord : list (text * text) -> list (text * text)) (ctx : list (text * text)) (s : text) : text :=
  fold_left expand_one (ord ctx) s.
(** RX:102-146 [expand_action_vars]; [f] is [expand] *)
Definition expand_action (f : text -> text) (a : action) : action :=
  match a with
  | Setenv n v => Setenv n (f v)
  | PrependPath n v s => PrependPath n (f v) s
  | AppendPath n v s => AppendPath n (f v) s
  | SetenvIfEmpty n v => SetenvIfEmpty n (f v)
  | Alias n v => Alias n (f v)
  | Command c => Command (f c)
  | Source p => Source (f p)
  | Info m => Info (f m)
  | Error m => Error (f m)
  | Stop m => Stop (opt f m)
  | other => other
  end.
(** RX:10-15 [RexExecutor] *)
Record executor := mkExec { x_ctx : list (text * text); x_actions : list raction }.
(** RX:18-23 [new], 26-28 [set_context_var], 85-87 [clear] *)
Definition new_exec : executor := mkExec [] [].
(** RX:18-23, with the above *)
Definition set_context_var (x : executor) (n v : text) : executor := mkExec (aput n v (x_ctx x)) (x_actions x).
(** RX:18-23, with the above *)
Definition clear (x : executor) : executor := mkExec (x_ctx x) [].
(** RX:49-55: the first three components of the version *)
Fixpoint put_components (names : list text) (cs : list text) (m : list (text * text)) : list (text * text) :=
  match names, cs with
  | n :: ns, c :: cs' => put_components ns cs' (aput (T "this.version." ++ n) c m)
  | _, _ => m
  end.
(** RX:38-60: the context of one package *)
Definition package_ctx (ctx : list (text * text)) (name : text) (root version : option text) : list (text * text) :=
  let ctx := match root with Some r => aput (T "this.root") r (aput (T "root") r ctx) | None => ctx end in
  let ctx := match version with
             | Some v => put_components [T "major"; T "minor"; T "patch"] (split_on "." v) (aput (T "this.version") v (aput (T "version") v ctx))
             | None => ctx end in
  aput (T "this.name") name (aput (T "name") name ctx).
(** RX:31-77 [execute_commands] *)
Definition execute (win : bool) ord (x : executor) (commands name : text) (root version : option text) : option (executor * renv) :=
  let ctx := package_ctx (x_ctx x) name root version in
  match parse_commands commands with
  | None => None
  | Some l =>
      let acts := x_actions x ++ map (fun a => mkRaction (expand_action (expand ord ctx) a) (Some name)) l in
      Some (mkExec ctx acts, apply win no_renv (map a_type acts))
  end.

(** ** Generated scripts *)
(** RS:56-57 and alike: the bindings of a map in the order of their keys *)
Definition by_key (ord : list (text * text) -> list (text * text)) (m : list (text * text)) : list (text * text) :=
  sort_by (fun a b => text_cmp (fst a) (fst b)) (ord m).
(** RS:60, 117 *)
Definition esc_dq (v : text) : text := replace_char DQ [BS; DQ] (replace_char BS [BS; BS] v).
(** RS:72, 100 *)
Definition esc_sq (v : text) : text := replace_char SQ [SQ; BS; SQ; SQ] v.
(** RS:90, 142 *)
Definition esc_dq_only (v : text) : text := replace_char DQ [BS; DQ] v.
(** RS:200, 234 *)
Definition esc_ps (v : text) : text := replace_char SQ [SQ; SQ] v.
(** RS:200, 234, with the above *)
Definition blank_if (b : bool) : list text := if b then [[]] else [].
(** RS:50-106 [generate_bash_script] *)
Definition bash_script ord (e : renv) : text :=
  join [NL]
    ([T "# Generated by rez-next rex"; []]
     ++ map (fun kv => T "export " ++ fst kv ++ ["="; DQ] ++ esc_dq (snd kv) ++ [DQ]) (by_key ord (e_vars e))
     ++ blank_if (negb (is_nil (e_vars e)) && negb (is_nil (e_aliases e)))
     ++ map (fun kv => T "alias " ++ fst kv ++ ["="; SQ] ++ esc_sq (snd kv) ++ [SQ]) (by_key ord (e_aliases e))
     ++ (if is_nil (e_startup e) then [] else [[]; T "# Startup commands"] ++ e_startup e)
     ++ (if is_nil (e_sourced e) then [] else [[]; T "# Sourced scripts"] ++ map (fun p => T "source " ++ [DQ] ++ esc_dq_only p ++ [DQ]) (e_sourced e))
     ++ (if is_nil (e_infos e) then [] else [[]; T "# Info messages"] ++ map (fun m => T "# [info] " ++ esc_sq m) (e_infos e))).
(** RS:109-148 [generate_fish_script] *)
Definition fish_script ord (e : renv) : text :=
  join [NL]
    ([T "# Generated by rez-next rex"; []]
     ++ map (fun kv => T "set -gx " ++ fst kv ++ [" "; DQ] ++ esc_dq (snd kv) ++ [DQ]) (by_key ord (e_vars e))
     ++ blank_if (negb (is_nil (e_vars e)) && negb (is_nil (e_aliases e)))
     ++ map (fun kv => T "alias " ++ fst kv ++ [" "; DQ] ++ snd kv ++ [DQ]) (by_key ord (e_aliases e))
     ++ (if is_nil (e_startup e) then [] else [[]] ++ e_startup e)
     ++ (if is_nil (e_sourced e) then [] else [[]] ++ map (fun p => T "source " ++ [DQ] ++ esc_dq_only p ++ [DQ]) (e_sourced e))).
(** RS:151-189 [generate_cmd_script] *)
Definition cmd_script ord (e : renv) : text :=
  join [CR; NL]
    ([T "@echo off"; T "REM Generated by rez-next rex"; []]
     ++ map (fun kv => T "SET " ++ [DQ] ++ fst kv ++ ["="] ++ snd kv ++ [DQ]) (by_key ord (e_vars e))
     ++ (if is_nil (e_aliases e) then [] else [[]; T "REM Aliases (doskey macros)"]
          ++ map (fun kv => T "DOSKEY " ++ fst kv ++ ["="] ++ snd kv) (by_key ord (e_aliases e)))
     ++ (if is_nil (e_startup e) then [] else [[]] ++ e_startup e)
     ++ (if is_nil (e_sourced e) then [] else [[]; T "REM Sourced scripts"] ++ map (fun p => T "CALL " ++ [DQ] ++ p ++ [DQ]) (e_sourced e))).
(** RS:201-208 *)
Definition ps_variable (key : text) : text :=
  if forallb id_char key then T "$env:" ++ key else T "${env:" ++ key ++ ["}"].
(** RS:192-240 [generate_powershell_script] *)
Definition ps_script ord (e : renv) : text :=
  join [NL]
    ([T "# Generated by rez-next rex"; []]
     ++ map (fun kv => ps_variable (fst kv) ++ T " = " ++ [SQ] ++ esc_ps (snd kv) ++ [SQ]) (by_key ord (e_vars e))
     ++ blank_if (negb (is_nil (e_vars e)) && negb (is_nil (e_aliases e)))
     ++ map (fun kv => T "Set-Alias -Name " ++ fst kv ++ T " -Value " ++ [DQ] ++ snd kv ++ [DQ]) (by_key ord (e_aliases e))
     ++ (if is_nil (e_startup e) then [] else [[]; T "# Startup commands"] ++ e_startup e)
     ++ (if is_nil (e_sourced e) then [] else [[]; T "# Sourced scripts"] ++ map (fun p => T ". " ++ [SQ] ++ esc_ps p ++ [SQ]) (e_sourced e))).

(** ** The other script generator *)
(** CE:462-467 [escape_bash_value] *)
Definition ce_bash (v : text) : text := replace_char BT [BS; BT] (replace_char "$" [BS; "$"] (replace_char DQ [BS; DQ] v)).
(** CE:470-472 [escape_powershell_value] *)
Definition ce_ps (v : text) : text := replace_char "$" [BT; "$"] (replace_char DQ [BT; DQ] v).
(** CE:475-477 [escape_fish_value] *)
Definition ce_fish (v : text) : text := replace_char "$" [BS; "$"] (replace_char DQ [BS; DQ] v).
(** CE:394-459 [generate_shell_script], for bash: in the iteration order of the map *)
Definition ce_bash_script (ord : list (text * text) -> list (text * text)) (m : list (text * text)) : text :=
  T "#!/bin/bash" ++ [NL] ++ T "# Generated by rez-core" ++ [NL; NL]
  ++ flat_map (fun kv => T "export " ++ fst kv ++ ["="; DQ] ++ ce_bash (snd kv) ++ [DQ; NL]) (ord m).
