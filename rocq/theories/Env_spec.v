(** Specification vocabulary for generated environments and contexts. *)
From Verif Require Import Base Maps Order_spec Version_model Package_model Requirement_model Rex_model Rex_spec Env_model.
Open Scope char_scope.

Definition same_map {A} (m m' : list (text * A)) : Prop := forall x, aget x m = aget x m'.

(** ** Differences *)
(** the value of [x] after applying a difference to its base value *)
Definition patched (d : env_diff) (old : option text) (x : text) (new : option text) : Prop :=
  (In x (f_removed d) -> new = None) /\
  (forall o v, In (x, (o, v)) (f_modified d) -> old = Some o /\ new = Some v) /\
  (forall v, In (x, v) (f_added d) -> old = None /\ new = Some v) /\
  (~ In x (f_removed d) -> ~ In x (map fst (f_modified d)) -> ~ In x (map fst (f_added d)) -> new = old).

(** ** Path lists *)
(** [k] holds the first entry of each identity in [l], in the order of [l] *)
Inductive firsts (ident : text -> text) : list text -> list text -> Prop :=
| firsts_nil : firsts ident [] []
| firsts_cons e l k : firsts ident (filter (fun x => negb (text_eqb (ident x) (ident e))) l) k -> firsts ident (e :: l) (e :: k).
(** the same path entry: on Windows, case and the direction of slashes do not matter *)
Definition fold_entry (win : bool) (e : text) : text :=
  if win then map (fun c => to_lower (if Ascii.eqb c "/" then "\" else c)) e else e.
(** names that are read as the search path *)
Definition pathlike (x : text) : Prop := map to_lower x = T "path".

(** ** What the packages ask for *)
(** the variables a package can refer to *)
Definition known (p : epackage) : list (text * text) :=
  let root := match ep_root p with Some r => r | None => T "/packages/" ++ ep_name p end in
  package_ctx (aput (T "name") (ep_name p) (match ep_version p with Some v => aput (T "version") v [(T "root", root)] | None => [(T "root", root)] end))
    (ep_name p) (Some root) (ep_version p).
(** the actions of some command text of a package: its statements with the variables expanded *)
Definition asked (w : world) (p : epackage) (commands : option text) (acts : list action) : Prop :=
  match commands with
  | None => acts = []
  | Some c => exists l, command_lines (split_on NL c) l /\ acts = map (expand_action (expand (w_expand w) (known p))) l
  end.
(** the actions of one phase, package by package *)
Inductive phase (w : world) (sel : epackage -> option text) : list epackage -> list action -> Prop :=
| phase_nil : phase w sel [] []
| phase_cons p ps a b : asked w p (sel p) a -> phase w sel ps b -> phase w sel (p :: ps) (a ++ b).
(** name and version of the packages *)
Definition package_vars (p : epackage) : list action :=
  Setenv (map to_upper (ep_name p) ++ T "_ROOT") (match ep_root p with Some r => r | None => T "/packages/" ++ ep_name p end) ::
  match ep_version p with Some v => [Setenv (map to_upper (ep_name p) ++ T "_VERSION") v] | None => [] end.
(** everything that happens before the search path is extended, in order *)
Definition script (w : world) (c : config) (ps : list epackage) (vars cmds extra : list action) : Prop :=
  vars = flat_map package_vars ps /\
  (exists a1 a2 a3, phase w ep_pre ps a1 /\ phase w ep_commands ps a2 /\ phase w ep_post ps a3 /\ cmds = a1 ++ a2 ++ a3) /\
  extra = map (fun kv => Setenv (fst kv) (snd kv)) (w_extra w (c_extra c)).
(** an action that assigns a variable at once *)
Definition assigns (a : action) : bool :=
  match a with Setenv _ _ | Unsetenv _ | PrependPath _ _ _ | AppendPath _ _ _ | SetenvIfEmpty _ _ => true | _ => false end.
(** the actions that are carried out only after everything has been assigned *)
Definition others (l : list action) : list action := filter (fun a => negb (assigns a)) l.

(** the name under which an assignment is stored: upper case on Windows *)
Definition keyed (win : bool) (a : action) : action :=
  let k n := if win then map to_upper n else n in
  match a with
  | Setenv n v => Setenv (k n) v
  | Unsetenv n => Unsetenv (k n)
  | PrependPath n v s => PrependPath (k n) v s
  | AppendPath n v s => AppendPath (k n) v s
  | SetenvIfEmpty n v => SetenvIfEmpty (k n) v
  | _ => a
  end.
(** every name a generated environment can contain *)
Definition mentioned (win : bool) (base : list (text * text)) (acts : list action) (x : text) : Prop :=
  In x (akeys base) \/ (exists a, In a acts /\ assigns a = true /\ writes (keyed win a) = Some x) \/ x = (if win then map to_upper (T "PATH") else T "PATH").
(** only one of them is read as the search path *)
Definition one_path (win : bool) (base : list (text * text)) (acts : list action) : Prop :=
  forall x, mentioned win base acts x -> pathlike x -> x = T "PATH".

(** ** Search path *)
(** the directory of the tools of a package *)
Definition tools_in (w : world) (p : epackage) (d : text) : Prop :=
  let root := match ep_root p with Some r => r | None => T "/packages/" ++ ep_name p end in
  ep_tools p <> [] /\
  ((exists t e, In t (ep_tools p) /\ In e [T ""; T ".exe"; T ".bat"; T ".cmd"; T ".com"] /\ w_file w (w_join w root (t ++ e)) = true) /\ d = root \/
   (forall t e, In t (ep_tools p) -> In e [T ""; T ".exe"; T ".bat"; T ".cmd"; T ".com"] -> w_file w (w_join w root (t ++ e)) = false) /\
   d = w_join w root (T "bin")).
(** the tool directories of the packages in order *)
Inductive tool_dirs (w : world) : list epackage -> list text -> Prop :=
| dirs_nil : tool_dirs w [] []
| dirs_none p ps ds : ep_tools p = [] -> tool_dirs w ps ds -> tool_dirs w (p :: ps) ds
| dirs_some p ps d ds : tools_in w p d -> tool_dirs w ps ds -> tool_dirs w (p :: ps) (d :: ds).
(** the entries of the search path before duplicates go; [cur] are the entries so far *)
Definition with_dirs (st : strategy) (dirs cur : list text) : list text :=
  match dirs, st with
  | [], _ | _, NoModify => cur
  | _, Prepend => dirs ++ cur
  | _, Append => cur ++ dirs
  | _, Replace => dirs
  end.
(** the entries of a variable; an empty or missing one has none *)
Definition entries (sep : ascii) (o : option text) : list text :=
  match o with None | Some [] => [] | Some v => split_on sep v end.

(** ** Independence of orders *)
(** the same platform and file system *)
Definition same_platform (w w' : world) : Prop := w_win w = w_win w' /\ w_join w = w_join w' /\ w_file w = w_file w'.
Definition all_orders (w : world) : Prop := any_order (w_expand w) /\ any_order (w_extra w) /\ any_order (w_keys w).
(** the commands of the package can be expanded in one way only *)
Definition steady (p : epackage) : Prop :=
  harmless (ep_name p) /\ (forall r, ep_root p = Some r -> harmless r) /\ (forall v, ep_version p = Some v -> harmless v) /\
  forall c l a s, In (Some c) [ep_pre p; ep_commands p; ep_post p] -> command_lines (split_on NL c) l -> In a l -> In s (expandable a) ->
    flat s /\ calm (known p) s.
(** agreement of environments *)
Definition agree (o o' : option renv) : Prop :=
  match o, o' with
  | Some e, Some e' =>
      same_map (e_vars e) (e_vars e') /\ e_aliases e = e_aliases e' /\ e_startup e = e_startup e' /\ e_sourced e = e_sourced e' /\
      e_infos e = e_infos e' /\ e_stopped e = e_stopped e' /\ e_stop_msg e = e_stop_msg e'
  | None, None => True
  | _, _ => False
  end.

(** ** Contexts *)
(** the meaning of a request: positive requests need the package in a suitable version, weak ones only if it is there, conflicts forbid it *)
Definition meets (x : context) (r : package_req) : Prop :=
  let inside v := pkg_satisfied r v = true in
  if pr_conflict r then forall p v, In p (x_packages x) -> cp_name p = pr_name r -> p_version (cp_package p) = Some v -> ~ inside v
  else (pr_weak r = false -> exists p, In p (x_packages x) /\ cp_name p = pr_name r) /\
       forall p v, In p (x_packages x) -> cp_name p = pr_name r -> p_version (cp_package p) = Some v -> inside v.
Definition positive (r : package_req) : Prop := pr_conflict r = false /\ pr_weak r = false.
(** a context has one package per name *)
Definition one_each (x : context) : Prop := NoDup (map cp_name (x_packages x)).
(** a well-formed package *)
Definition well_formed (p : cpackage) : Prop :=
  cp_name p <> [] /\ (forall c, In c (cp_name p) -> is_alnum c = true \/ c = "_" \/ c = "-") /\
  (forall v, p_version (cp_package p) = Some v -> v_str v <> []) /\
  ~ In [] (p_requires (cp_package p)) /\ ~ In [] (cp_build p) /\ ~ In [] (cp_private p) /\ (forall v, In v (p_variants (cp_package p)) -> ~ In [] v).
(** reading an environment file: comment lines and empty lines are skipped, the rest is split at the first equals sign *)
Inductive env_lines : list text -> list (text * text) -> Prop :=
| el_nil : env_lines [] []
| el_skip l ls m : l = [] \/ (exists r, l = "#" :: r) -> env_lines ls m -> env_lines (l :: ls) m
| el_var k v ls m : k <> [] -> (forall r, k <> "#" :: r) -> ~ In "=" k -> env_lines ls m -> env_lines ((k ++ "=" :: v) :: ls) ((k, v) :: m).
