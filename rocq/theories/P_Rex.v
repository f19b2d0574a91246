(** Properties C28-C30 and C78-C80: the Rex command language. *)
From Verif Require Import Base Base_lemmas Maps Sorting Order_spec Rex_model Rex_spec Rex_proofs Rex_shell Rex_parse.
Open Scope string_scope. Open Scope list_scope.

(** ** Concrete data *)
Definition sample_text : text :=
  T "env.setenv('ROOT_DIR', '{root}')
     # the tools
     prependenv(""PATH"", ""{root}/bin"")
     env.append_path('PATH','/opt/{name}-{version}')
     alias('say', 'echo it')
     export LANG=""C.UTF-8""
     setenv EDITOR vi
     stop('enough')
     unsetenv('PATH')".
Definition sample_actions : list action :=
  Eval vm_compute in match parse_commands sample_text with Some l => l | None => [] end.
Definition sample_env : renv :=
  mkRenv [(T "PATH", T "/bin")] [] [] [] [] false None.
Definition id_order (l : list (text * text)) : list (text * text) := l.
Lemma id_any : any_order id_order. Proof. intros l. apply Permutation_refl. Qed.
Lemma rev_any : any_order (fun l : list (text * text) => rev l). Proof. intros l. apply Permutation_sym, Permutation_rev. Qed.

(** ** C28 *)
(** For every variable: the value after applying a list of actions is the fold of the actions that write it, in order, among those up to
    the first stop. *)
Theorem C28_vars : forall win e l p x q, live l p -> on_var x p q ->
  aget x (e_vars (apply win e l)) = fold_left (written (path_sep win)) q (aget x (e_vars e)).
Proof. exact vars_after. Qed.
Print Assumptions C28_vars.
(** Every list has exactly one such part, and every variable its actions. *)
Theorem C28_vars_defined : forall l, (exists p, live l p /\ forall x, exists q, on_var x p q) /\ forall p p', live l p -> live l p' -> p = p'.
Proof.
  intros l. split; [|intros p p'; apply live_unique]. destruct (live_exists l) as [p H]. exists p. split; [exact H|]. intros x. apply on_var_exists.
Qed.
Print Assumptions C28_vars_defined.
(** Commands, scripts and messages are collected in order; stopping is recorded with its message. *)
Theorem C28_collected : forall win l p, live l p -> forall e,
  let e' := apply win e l in
  e_startup e' = e_startup e ++ flat_map (fun a => match a with Command c => [c] | _ => [] end) p /\
  e_sourced e' = e_sourced e ++ flat_map (fun a => match a with Source c => [c] | _ => [] end) p /\
  e_infos e' = e_infos e ++ flat_map (fun a => match a with Info m => [m] | Error m => [T "[error] " ++ m] | _ => [] end) p /\
  (e_stopped e' = true <-> e_stopped e = true \/ exists m, In (Stop m) l) /\
  (forall m, In (Stop m) p -> e_stop_msg e' = m).
Proof. exact others_after. Qed.
Print Assumptions C28_collected.
(** The last alias wins. *)
Theorem C28_aliases : forall win e l p x, live l p ->
  aget x (e_aliases (apply win e l)) =
  fold_left (fun o a => match a with Alias n v => if text_eqb x n then Some v else o | _ => o end) p (aget x (e_aliases e)).
Proof. exact alias_after. Qed.
Print Assumptions C28_aliases.
(** A path variable: what was prepended last comes first, what was appended comes behind, in order. *)
Theorem C28_paths : forall sep l c r, Forall path_action l ->
  fold_left (written sep) l (Some (c :: r)) = Some (join sep (fronts l ++ (c :: r) :: backs l)).
Proof. exact path_fold. Qed.
Print Assumptions C28_paths.
(** Merging with a base environment keeps every own value and adds the missing ones, in whatever order the base is visited. *)
Theorem C28_merge : forall ord e base x, any_order ord -> NoDup (map fst base) ->
  aget x (e_vars (merge_with_base ord e base)) = match aget x (e_vars e) with Some v => Some v | None => aget x base end.
Proof. exact merge_base. Qed.
Print Assumptions C28_merge.
Example C28_example :
  live sample_actions (firstn 8 sample_actions) /\ length sample_actions = 9 /\
  aget (T "PATH") (e_vars (apply false sample_env sample_actions)) = Some (T "{root}/bin:/bin:/opt/{name}-{version}") /\
  aget (T "LANG") (e_vars (apply false sample_env sample_actions)) = Some (T "C.UTF-8") /\
  e_stop_msg (apply false sample_env sample_actions) = Some (T "enough").
Proof.
  split; [|vm_compute; auto]. unfold sample_actions. cbn [firstn].
  repeat (apply live_go; [discriminate|]). apply live_stop.
Qed.
Example C28_paths_example :
  written (T ":") (written (T ":") (Some (T "/bin")) (PrependPath (T "PATH") (T "/a") None)) (PrependPath (T "PATH") (T "/b") None) = Some (T "/b:/a:/bin").
Proof. reflexivity. Qed.

(** ** C29 *)
(** The standard variables of a package are enough: the result of expanding [$THIS.VERSION.MAJOR] depends on the order of the map. *)
Definition ctx1 : list (text * text) := Eval vm_compute in package_ctx [] (T "maya") (Some (T "/packages/maya")) (Some (T "2024.1")).
Theorem C29_refuted : exists ord1 ord2 s, any_order ord1 /\ any_order ord2 /\
  expand ord1 ctx1 s = T "2024.1.MAJOR" /\ expand ord2 ctx1 s = T "2024".
Proof. exists id_order, (fun l => rev l), (T "$THIS.VERSION.MAJOR"). repeat split; [apply id_any|apply rev_any|vm_compute; reflexivity..]. Qed.
Print Assumptions C29_refuted.
(** It is enough that values refer to other variables, or that braces are nested. *)
Theorem C29_values_refuted : exists ctx ord1 ord2 s, any_order ord1 /\ any_order ord2 /\ NoDup (map fst ctx) /\
  ~ In "$"%char s /\ flat s /\ expand ord1 ctx s <> expand ord2 ctx s.
Proof.
  exists [(T "root", T "/p/{name}"); (T "name", T "maya")], id_order, (fun l => rev l), (T "{root}/bin").
  split; [apply id_any|]. split; [apply rev_any|]. split; [repeat constructor; simpl; intuition discriminate|].
  split; [vm_compute; intuition discriminate|]. split; [|vm_compute; discriminate].
  apply (flat_tok (T "root") (T "/bin")); [split; vm_compute; intuition discriminate|]. apply noopen_flat. vm_compute. intuition discriminate.
Qed.
Print Assumptions C29_values_refuted.
Theorem C29_nested_refuted : exists ctx ord1 ord2 s, any_order ord1 /\ any_order ord2 /\ NoDup (map fst ctx) /\ tame ctx /\
  ~ In "$"%char s /\ expand ord1 ctx s <> expand ord2 ctx s.
Proof.
  exists [(T "root", T "name"); (T "name", T "maya")], id_order, (fun l => rev l), (T "{{root}}").
  split; [apply id_any|]. split; [apply rev_any|]. split; [repeat constructor; simpl; intuition discriminate|].
  split; [|split; [vm_compute; intuition discriminate|vm_compute; discriminate]].
  intros k v [[= <- <-]|[[= <- <-]|[]]]; (split; [discriminate|]); repeat split; vm_compute; intuition discriminate.
Qed.
Print Assumptions C29_nested_refuted.
(** Otherwise the order is irrelevant: values without braces and dollar signs, no nested braces, no dollar sign before a brace or before the
    first letter of a variable. *)
Theorem C29_partial : forall ord1 ord2 ctx s, any_order ord1 -> any_order ord2 -> tame ctx -> NoDup (map fst ctx) -> flat s -> calm ctx s ->
  expand ord1 ctx s = expand ord2 ctx s.
Proof. exact expand_order. Qed.
Print Assumptions C29_partial.
(** Whole packages: if root, version and name have neither braces nor dollar signs. *)
Theorem C29_package_partial : forall win ord1 ord2 x commands name root version,
  any_order ord1 -> any_order ord2 -> NoDup (map fst (x_ctx x)) -> tame (x_ctx x) -> harmless name ->
  (forall r, root = Some r -> harmless r) -> (forall v, version = Some v -> harmless v) ->
  (forall l a s, parse_commands commands = Some l -> In a l -> In s (expandable a) ->
     flat s /\ calm (package_ctx (x_ctx x) name root version) s) ->
  execute win ord1 x commands name root version = execute win ord2 x commands name root version.
Proof. exact execute_order. Qed.
Print Assumptions C29_package_partial.
Example C29_example :
  tame ctx1 /\ NoDup (map fst ctx1) /\ flat (T "{root}/bin:$PATH") /\ calm ctx1 (T "{root}/bin:$PATH") /\
  expand id_order ctx1 (T "{root}/bin:$PATH") = T "/packages/maya/bin:$PATH".
Proof.
  split; [|split; [|split; [|split]]].
  - intros k v H. repeat (destruct H as [[= <- <-]|H]; [repeat split; vm_compute; intuition discriminate|]). destruct H.
  - repeat constructor; simpl; intuition discriminate.
  - apply (flat_tok (T "root") (T "/bin:$PATH")); [split; vm_compute; intuition discriminate|]. apply noopen_flat. vm_compute. intuition discriminate.
  - intros a d b E.
    assert (D : d = "P"%char).
    { do 12 (destruct a as [|? a]; [try discriminate E; injection E; congruence|]). do 10 (destruct a as [|? a]; [discriminate E|]). discriminate E. }
    subst d. split; [discriminate|]. intros k v c r H Ek. repeat (destruct H as [[= <- <-]|H]; [injection Ek as <- _; vm_compute; discriminate|]). destruct H.
  - reflexivity.
Qed.

(** ** C30 *)
(** Bash script of the Rex crate: a value is read back exactly if the shell finds nothing to expand in it. *)
Theorem C30_bash_exact : forall v rest, bash_dq (esc_dq v ++ DQ :: rest) = Some (v, rest) <-> no_expansion v.
Proof. exact rex_bash_value. Qed.
Print Assumptions C30_bash_exact.
Theorem C30_bash_refuted : exists v, forall rest, bash_dq (esc_dq v ++ DQ :: rest) <> Some (v, rest).
Proof. exists (T "$HOME/bin"). intros rest H. discriminate H. Qed.
Print Assumptions C30_bash_refuted.
(** fish: exactly if there is no dollar sign. *)
Theorem C30_fish_exact : forall v rest, fish_dq (esc_dq v ++ DQ :: rest) = Some (v, rest) <-> ~ In "$"%char v.
Proof. exact rex_fish_value. Qed.
Print Assumptions C30_fish_exact.
(** PowerShell: always; aliases in bash: always. *)
Theorem C30_powershell : forall v rest, (forall r, rest <> SQ :: r) -> ps_sq (esc_ps v ++ SQ :: rest) = Some (v, rest).
Proof. exact powershell_value. Qed.
Print Assumptions C30_powershell.
Theorem C30_bash_alias : forall v rest, (rest = [] \/ exists r, rest = NL :: r) -> bash_word false (SQ :: esc_sq v ++ SQ :: rest) = Some (v, rest).
Proof. exact alias_value. Qed.
Print Assumptions C30_bash_alias.
(** Aliases in fish and PowerShell are not escaped at all. *)
Theorem C30_fish_alias_refuted : exists e, e_aliases e = [(T "say", T "echo ""hi""")] /\
  fish_script id_order e = T "# Generated by rez-next rex" ++ [NL; NL] ++ T "alias say ""echo ""hi""""" /\
  fish_dq (T "echo ""hi""""") = Some (T "echo ", T "hi""""").
Proof. exists (mkRenv [] [(T "say", T "echo ""hi""")] [] [] [] false None). vm_compute. auto. Qed.
Print Assumptions C30_fish_alias_refuted.
(** The whole bash script: what bash reads are the exports in the order of their names, the aliases and the scripts, and nothing else. *)
Theorem C30_bash_script_partial : forall ord e,
  any_order ord -> e_startup e = [] ->
  (forall k v, In (k, v) (e_vars e) -> shell_name k /\ no_expansion v) ->
  (forall k v, In (k, v) (e_aliases e) -> shell_word k) ->
  (forall p, In p (e_sourced e) -> no_escape bash_protects p /\ no_expansion p) ->
  (forall m, In m (e_infos e) -> ~ In NL m) ->
  exists vs als, Permutation vs (e_vars e) /\ Permutation als (e_aliases e) /\
    Reads (bash_script ord e)
      (map (fun kv => Export (fst kv) (snd kv)) vs ++ map (fun kv => Aliased (fst kv) (snd kv)) als ++ map Sourced (e_sourced e)).
Proof.
  intros ord e Ho H1 H2 H3 H4 H5. exists (by_key ord (e_vars e)), (by_key ord (e_aliases e)).
  split; [apply by_key_perm, Ho|]. split; [apply by_key_perm, Ho|]. apply bash_script_reads; assumption.
Qed.
Print Assumptions C30_bash_script_partial.
(** so every variable gets its value. *)
Theorem C30_bash_values : forall vs als ss x, NoDup (map fst vs) ->
  exported (map (fun kv => Export (fst kv) (snd kv)) vs ++ map (fun kv => Aliased (fst kv) (snd kv)) als ++ map Sourced ss) x = aget x vs.
Proof. exact exported_vars. Qed.
Print Assumptions C30_bash_values.
(** An information message with a line feed leaves the comment it is written in. *)
Theorem C30_info_refuted : exists e, e_vars e = [] /\ Reads (bash_script id_order e) [Export (T "A") (T "1")].
Proof.
  exists (mkRenv [] [] [] [] [T "hello" ++ NL :: T "export A=""1"""] false None). split; [reflexivity|].
  exists 20. intros f Hf. replace f with (20 + (f - 20)) by lia. generalize (f - 20). intros n. reflexivity.
Qed.
Print Assumptions C30_info_refuted.
(** The other script generator (context crate) escapes dollar signs but not its own escape character. *)
Theorem C30_context_bash_partial : forall v rest, no_escape bash_protects v -> bash_dq (ce_bash v ++ DQ :: rest) = Some (v, rest).
Proof. exact context_bash_value. Qed.
Print Assumptions C30_context_bash_partial.
Theorem C30_context_bash_refuted : exists v, bash_dq (ce_bash v ++ DQ :: T "") <> Some (v, []).
Proof. exists (T "C:\\share"). vm_compute. discriminate. Qed.
Print Assumptions C30_context_bash_refuted.
Theorem C30_context_fish_partial : forall v rest, no_escape fish_protects v -> fish_dq (ce_fish v ++ DQ :: rest) = Some (v, rest).
Proof. exact context_fish_value. Qed.
Print Assumptions C30_context_fish_partial.
Theorem C30_context_fish_refuted : exists v, fish_dq (ce_fish v ++ DQ :: T "") <> Some (v, []).
Proof. exists (T "C:\"). vm_compute. discriminate. Qed.
Print Assumptions C30_context_fish_refuted.
Theorem C30_context_powershell_partial : forall v rest, ~ In "`"%char v -> (forall r, rest <> DQ :: r) -> ps_dq (ce_ps v ++ DQ :: rest) = Some (v, rest).
Proof. exact context_ps_value. Qed.
Print Assumptions C30_context_powershell_partial.
Theorem C30_context_powershell_refuted : exists v, ps_dq (ce_ps v ++ DQ :: T "") <> Some (v, []).
Proof. exists (T "a`b"). vm_compute. discriminate. Qed.
Print Assumptions C30_context_powershell_refuted.
Definition quoting_env : renv := mkRenv [(T "B", T "C:\x ""y"" 5$"); (T "A", T "two" ++ NL :: T "lines")] [(T "say", T "echo 'hi'")] [] [T "/a b/s.sh"] [T "it's"] false None.
Example C30_example :
  Reads (bash_script id_order quoting_env)
    [Export (T "A") (T "two" ++ NL :: T "lines"); Export (T "B") (T "C:\x ""y"" 5$"); Aliased (T "say") (T "echo 'hi'"); Sourced (T "/a b/s.sh")].
Proof. exists 20. intros f Hf. replace f with (20 + (f - 20)) by lia. generalize (f - 20). intros n. reflexivity. Qed.
Example C30_context_example : no_escape bash_protects (T "C:\x $HOME") /\ bash_dq (ce_bash (T "C:\x $HOME") ++ [DQ]) = Some (T "C:\x $HOME", []).
Proof.
  split; [|reflexivity]. split.
  - intros a E. assert (H : last (T "C:\x $HOME") " "%char = last (a ++ ["\"%char]) " "%char) by (rewrite E; reflexivity). rewrite last_last in H. discriminate H.
  - intros a d b E. assert (D : d = "x"%char); [|subst; reflexivity].
    do 12 (destruct a as [|? a]; [try discriminate E; injection E; congruence|]). discriminate E.
Qed.

(** ** C78 *)
(** A dollar sign followed by a longer name is taken for the shorter variable. *)
Theorem C78_refuted : exists ctx s, In (T "root", T "/p") ctx /\ s = T "$ROOTLESS" /\ expand id_order ctx s = T "/pLESS".
Proof. exists [(T "root", T "/p")], (T "$ROOTLESS"). split; [left; reflexivity|]. vm_compute. auto. Qed.
Print Assumptions C78_refuted.
(** Under the conditions of [C29_partial] expansion replaces the braced references to known variables, all at once, and nothing else. *)
Theorem C78_partial : forall ord ctx s, any_order ord -> tame ctx -> NoDup (map fst ctx) -> flat s -> calm ctx s ->
  Expands ctx s (expand ord ctx s).
Proof. exact expand_spec. Qed.
Print Assumptions C78_partial.
(** That determines the result. *)
Theorem C78_unique : forall ctx s t u, (forall k v, In (k, v) ctx -> ~ In "}"%char k) -> NoDup (map fst ctx) ->
  Expands ctx s t -> Expands ctx s u -> t = u.
Proof. exact Expands_unique. Qed.
Print Assumptions C78_unique.
(** Names of variables, path separators and comments are never expanded. *)
Theorem C78_names : forall f a, writes (expand_action f a) = writes a.
Proof. intros f a. destruct a; reflexivity. Qed.
Print Assumptions C78_names.
(** Every other text of an action is expanded, and nothing else changes. *)
Theorem C78_texts : forall f a, expandable (expand_action f a) = map f (expandable a) /\ frame (expand_action f a) = frame a.
Proof. intros f a. destruct a; try (split; reflexivity). destruct msg; split; reflexivity. Qed.
Print Assumptions C78_texts.
Example C78_example : expand id_order ctx1 (T "{root}/{nothing}/{this.version.major}{name}") = T "/packages/maya/{nothing}/2024maya".
Proof. reflexivity. Qed.

(** ** C79 *)
(** An argument with the other kind of quote is not a statement, and the whole text is rejected. *)
Theorem C79_refuted : parse_commands (T "setenv(""A"", ""it's"")") = None /\ parse_commands (T "setenv(""A"", ""it is"")") <> None.
Proof. split; vm_compute; [reflexivity|discriminate]. Qed.
Print Assumptions C79_refuted.
(** Quotes of different kinds close each other. *)
Theorem C79_mixed_quotes_refuted : parse_commands (T "setenv('A"", ""b')") = Some [Setenv (T "A") (T "b")].
Proof. reflexivity. Qed.
Print Assumptions C79_mixed_quotes_refuted.
(** A text is accepted exactly if each line is blank or a statement of the language with arguments free of quotes, and gives the actions of
    its lines in order. *)
Theorem C79_exact_partial : forall s acts, parse_commands s = Some acts <-> command_lines (split_on NL s) acts.
Proof. intros s acts. apply parse_lines_iff. Qed.
Print Assumptions C79_exact_partial.
Theorem C79_line_partial : forall s a, trim s = s -> (parse_line s = Some a <-> statement s a).
Proof. exact parse_line_iff. Qed.
Print Assumptions C79_line_partial.
Example C79_example : says (T "env.setenv( 'A' ,""b"")") (Setenv (T "A") (T "b")).
Proof.
  apply (says_setenv (T "env.setenv")); [right; reflexivity|discriminate|].
  apply (Called2 (T "env.setenv") [] (T " ") (T " ") [] [] (T "'A'") (T """b""") (T "A") (T "b")); try (intros c H; vm_compute in H; intuition (subst; reflexivity)).
  - apply (Argument "'" "'" (T "A")); [left; reflexivity|left; reflexivity|]. intros c [<-|[]]. split; discriminate.
  - apply (Argument """" """" (T "b")); [right; reflexivity|right; reflexivity|]. intros c [<-|[]]. split; discriminate.
Qed.

(** ** C80 *)
(** The scripts of the Rex crate do not depend on the iteration order of the maps. *)
Theorem C80_partial : forall ord1 ord2 e, any_order ord1 -> any_order ord2 -> NoDup (map fst (e_vars e)) -> NoDup (map fst (e_aliases e)) ->
  bash_script ord1 e = bash_script ord2 e /\ fish_script ord1 e = fish_script ord2 e /\
  cmd_script ord1 e = cmd_script ord2 e /\ ps_script ord1 e = ps_script ord2 e.
Proof. exact scripts_order. Qed.
Print Assumptions C80_partial.
(** The script of the context crate does. *)
Theorem C80_refuted : exists ord1 ord2 m, any_order ord1 /\ any_order ord2 /\ NoDup (map fst m) /\ ce_bash_script ord1 m <> ce_bash_script ord2 m.
Proof.
  exists id_order, (fun l => rev l), [(T "A", T "1"); (T "B", T "2")]. split; [apply id_any|]. split; [apply rev_any|].
  split; [repeat constructor; simpl; intuition discriminate|vm_compute; discriminate].
Qed.
Print Assumptions C80_refuted.
Example C80_example : NoDup (map fst (e_vars quoting_env)) /\ NoDup (map fst (e_aliases quoting_env)) /\
  bash_script id_order quoting_env = bash_script (fun l => rev l) quoting_env.
Proof. split; [repeat constructor; simpl; intuition discriminate|]. split; [repeat constructor; simpl; intuition discriminate|reflexivity]. Qed.
