(** Properties C31-C33 and C81-C89: generated environments and contexts. *)
From Coq Require Import Sorted.
From Verif Require Import Base Base_lemmas Text_lemmas Maps Sorting Order_spec Version_model Package_model Requirement_model.
From Verif Require Import Rex_model Rex_spec Rex_proofs Rex_shell Rex_parse Env_model Env_spec Env_proofs Env_gen Env_path Env_misc Env_context.
Open Scope string_scope. Open Scope list_scope.

(** ** Concrete data *)
Definition slash (a b : text) : text := a ++ T "/" ++ b.
Definition plain_order (l : list (text * text)) : list (text * text) := l.
Definition back_order (l : list (text * text)) : list (text * text) := rev l.
Lemma plain_any : any_order plain_order. Proof. intros l. apply Permutation_refl. Qed.
Lemma back_any : any_order back_order. Proof. intros l. apply Permutation_sym, Permutation_rev. Qed.
Definition files : list text := [T "/p/zip/zip.exe"].
Definition unix : world := mkWorld false slash (fun f => mem_text f files) plain_order plain_order plain_order.
Definition unix_back : world := mkWorld false slash (fun f => mem_text f files) back_order back_order back_order.
Definition windows : world := mkWorld true slash (fun f => mem_text f files) plain_order plain_order plain_order.
Definition windows_back : world := mkWorld true slash (fun f => mem_text f files) back_order back_order back_order.
Definition lines (l : list text) : option text := Some (join [NL] l).
Definition maya : epackage := mkEpkg (T "maya") (Some (T "2024.1")) (Some (T "/p/maya")) [T "maya"; T "render"]
  (lines [T "setenv('MODE', 'pre')"]) (lines [T "setenv('MAYA_HOME', '{root}')"; T "prependenv('PATH', '{root}/lib')"; T "alias('m', 'maya')"]) None.
Definition zip : epackage := mkEpkg (T "zip") None (Some (T "/p/zip")) [T "zip"] None (lines [T "setenv('MODE', 'zip')"; T "appendenv('PATH', '/bin')"]) (lines [T "info('done')"]).
Definition cfg : config := mkConfig true [(T "LANG", T "C"); (T "EDITOR", T "vi")] [T "SECRET"] Prepend.
Definition base : list (text * text) := [(T "PATH", T "/usr/bin:/bin:/usr/bin"); (T "SECRET", T "x"); (T "HOME", T "/root")].
Definition generated : renv := Eval vm_compute in match generate unix cfg base [maya; zip] with Some e => e | None => no_renv end.
Lemma generated_eq : generate unix cfg base [maya; zip] = Some generated. Proof. vm_compute. reflexivity. Qed.
Lemma generated_script : exists vars cmds extra, script unix cfg [maya; zip] vars cmds extra.
Proof. apply (generate_some unix cfg base). rewrite generated_eq. discriminate. Qed.

(** ** C31 *)
(** The difference lists exactly the added, changed and removed variables, each once, and counts the variables that differ. *)
Theorem C31_exact : forall base env, NoDup (akeys base) -> NoDup (akeys env) ->
  let d := get_env_diff base env in
  (forall x v, In (x, v) (f_added d) <-> aget x base = None /\ aget x env = Some v) /\
  (forall x o v, In (x, (o, v)) (f_modified d) <-> aget x base = Some o /\ aget x env = Some v /\ o <> v) /\
  (forall x, In x (f_removed d) <-> aget x base <> None /\ aget x env = None) /\
  NoDup (map fst (f_added d) ++ map fst (f_modified d) ++ f_removed d).
Proof.
  intros b e Hb He d. split; [|split; [|split]].
  - intros x v. apply diff_added, He.
  - intros x o v. apply diff_modified, He.
  - intros x. apply diff_removed.
  - apply diff_nodup; assumption.
Qed.
Print Assumptions C31_exact.
(** Applying the difference to the base gives the environment, and nothing else. *)
Theorem C31_patch : forall base env x, NoDup (akeys env) ->
  patched (get_env_diff base env) (aget x base) x (aget x env) /\
  forall new, patched (get_env_diff base env) (aget x base) x new -> new = aget x env.
Proof. intros b e x H. split; [apply diff_patched, H|apply patched_unique, H]. Qed.
Print Assumptions C31_patch.
(** The number of changes is the number of variables that differ; there are none exactly for equal environments. *)
Theorem C31_count : forall base env, NoDup (akeys base) -> NoDup (akeys env) ->
  (exists l, NoDup l /\ (forall x, In x l <-> aget x base <> aget x env) /\ change_count (get_env_diff base env) = length l) /\
  (diff_is_empty (get_env_diff base env) = true <-> same_map base env).
Proof. intros b e Hb He. split; [apply diff_count|apply diff_empty]; assumption. Qed.
Print Assumptions C31_count.
Example C31_example :
  get_env_diff [(T "A", T "1"); (T "B", T "2"); (T "C", T "3")] [(T "B", T "2"); (T "C", T "4"); (T "D", T "5")] =
  mkDiff [(T "D", T "5")] [(T "C", (T "3", T "4"))] [T "A"].
Proof. vm_compute. reflexivity. Qed.

(** ** C32 *)
(** Elsewhere than on Windows a base with both [PATH] and [Path] is allowed; which of them is normalised depends on the order of the map. *)
Theorem C32_normal_refuted : exists w w' m, any_order (w_keys w) /\ any_order (w_keys w') /\ same_platform w w' /\ NoDup (akeys m) /\
  aget (T "PATH") (normalize w m) <> aget (T "PATH") (normalize w' m) /\
  aget (T "PATH") (normalize w' m) = Some (T "/a:/a").
Proof.
  exists unix, unix_back, [(T "PATH", T "/a:/a"); (T "Path", T "/b")].
  split; [apply plain_any|]. split; [apply back_any|]. split; [repeat split; reflexivity|]. split; [repeat constructor; cbn; intuition discriminate|].
  split; vm_compute; [discriminate|reflexivity].
Qed.
Print Assumptions C32_normal_refuted.
(** With one path variable: its entries are the first entries of each identity, in order; all other variables stay. *)
Theorem C32_normal_partial : forall w m, any_order (w_keys w) -> (forall x, aget x m <> None -> pathlike x -> x = T "PATH") ->
  (forall x, ~ pathlike x -> aget x (normalize w m) = aget x m) /\
  (aget (T "PATH") m = None -> aget (T "PATH") (normalize w m) = None) /\
  forall v, aget (T "PATH") m = Some v -> exists v',
    aget (T "PATH") (normalize w m) = Some v' /\
    firsts (fold_entry (w_win w)) (split_on (sep_char (w_win w)) v) (split_on (sep_char (w_win w)) v') /\
    v' = join [sep_char (w_win w)] (split_on (sep_char (w_win w)) v').
Proof.
  intros w m Ho Hp. assert (N := normalize_path w m Ho Hp). split; [intros x; apply aget_normalize, Ho|]. split.
  - intros E. rewrite E in N. exact N.
  - intros v E. rewrite E in N. exists (normal_path (w_win w) v). split; [exact N|]. rewrite normal_split. split; [apply unseen_spec|].
    rewrite <- path_sep_char. reflexivity.
Qed.
Print Assumptions C32_normal_partial.
(** What the first entries are: no identity twice, nothing new, nothing missing, and every lookup that respects identities finds the same
    entry; taking them again changes nothing. *)
Theorem C32_firsts : forall ident l k, firsts ident l k ->
  NoDup (map ident k) /\ (forall e, In e k -> In e l) /\ (forall e, In e l -> In (ident e) (map ident k)) /\
  (forall P, (forall a b, ident a = ident b -> P a = P b) -> find P k = find P l) /\ firsts ident k k.
Proof.
  intros ident l k H. split; [exact (firsts_nodup _ _ _ H)|]. split; [exact (firsts_in _ _ _ H)|]. split; [exact (firsts_all _ _ _ H)|].
  split; [intros P HP; exact (firsts_find ident l k P HP H)|]. apply firsts_fix, (firsts_nodup _ _ _ H).
Qed.
Print Assumptions C32_firsts.
Theorem C32_idempotent : forall win v, normal_path win (normal_path win v) = normal_path win v.
Proof. exact normal_idem. Qed.
Print Assumptions C32_idempotent.
Example C32_example : normal_path false (T "/b:/a:/b::/a:/c:") = T "/b:/a::/c" /\ normal_path true (T "C:\Bin;c:/bin;D:\x") = T "C:\Bin;D:\x".
Proof. vm_compute. auto. Qed.

(** ** C33 *)
Definition ver (s : text) : option version := parse_version s.
Definition cpkg (n v : text) (tools : list text) : cpackage := mkCpkg (mkPackage n (ver v) [] [] None tools 0) [] [].
Definition ctx (rs : list package_req) (ps : list cpackage) : context := mkContext (T "0123456789") None rs ps (Some (T "linux")) None cfg.
Definition python_ge : package_req := mkPkgReq (T "python") (Some (T ">=3.7")) false false.
(** A conflict request forbids the package; validation demands it.  A weak request allows the package to be absent; validation does not. *)
Theorem C33_validate_refuted :
  (exists x, one_each x /\ validate x = true /\ exists r, In r (x_requirements x) /\ ~ meets x r) /\
  (exists x, one_each x /\ validate x = false /\ (forall r, In r (x_requirements x) -> meets x r) /\ forall p, In p (x_packages x) -> well_formed p).
Proof.
  split.
  - exists (ctx [mkPkgReq (T "python") (Some (T ">=3.7")) false true] [cpkg (T "python") (T "3.9") []]).
    split; [repeat constructor; cbn; tauto|]. split; [vm_compute; reflexivity|]. eexists. split; [left; reflexivity|].
    unfold meets. cbn [pr_conflict]. intros H.
    destruct (ver (T "3.9")) as [v|] eqn:Ev; [|vm_compute in Ev; discriminate Ev].
    apply (H _ v (or_introl eq_refl) eq_refl); [cbn; exact Ev|]. revert v Ev H. intros v Ev _. vm_compute in Ev. injection Ev as <-. vm_compute. reflexivity.
  - exists (ctx [mkPkgReq (T "ruby") None true false] [cpkg (T "python") (T "3.9") []]).
    split; [repeat constructor; cbn; tauto|]. split; [vm_compute; reflexivity|]. split.
    + intros r [<-|[]]. split; [discriminate|]. intros p v [<-|[]] E. discriminate E.
    + intros p [<-|[]]. apply package_valid_spec. vm_compute. reflexivity.
Qed.
Print Assumptions C33_validate_refuted.
(** With positive requests only and one package per name, validation is exact. *)
Theorem C33_validate_partial : forall x, one_each x -> (forall r, In r (x_requirements x) -> positive r) ->
  (validate x = true <-> (forall r, In r (x_requirements x) -> meets x r) /\ (forall p, In p (x_packages x) -> well_formed p)).
Proof. exact validate_positive. Qed.
Print Assumptions C33_validate_partial.
Example C33_example :
  let x := ctx [python_ge] [cpkg (T "maya") (T "2024") []; cpkg (T "python") (T "3.9") []] in
  let y := ctx [python_ge] [cpkg (T "maya") (T "2024") []; cpkg (T "python") (T "3.6") []] in
  one_each x /\ (forall r, In r (x_requirements x) -> positive r) /\ validate x = true /\ validate y = false.
Proof.
  split; [repeat constructor; cbn; intuition discriminate|]. split; [intros r [<-|[]]; split; reflexivity|]. split; vm_compute; reflexivity.
Qed.

(** ** C81 *)
(** Variables set after a stop are still set. *)
Theorem C81_stop_refuted : exists w c base p e, any_order (w_expand w) /\ any_order (w_extra w) /\ any_order (w_keys w) /\
  ep_commands p = lines [T "stop('enough')"; T "setenv('A', '1')"] /\ generate w c base [p] = Some e /\
  e_stopped e = true /\ aget (T "A") base = None /\ aget (T "A") (e_vars e) = Some (T "1").
Proof.
  pose (p := mkEpkg (T "foo") None None [] None (lines [T "stop('enough')"; T "setenv('A', '1')"]) None).
  destruct (generate unix cfg base [p]) as [e|] eqn:E; [|vm_compute in E; discriminate E].
  exists unix, cfg, base, p, e. split; [apply plain_any|]. split; [apply plain_any|]. split; [apply plain_any|]. split; [reflexivity|]. split; [exact E|].
  vm_compute in E. injection E as <-. vm_compute. auto.
Qed.
Print Assumptions C81_stop_refuted.
(** Everything that is not an assignment ends at the first stop: aliases, commands, scripts, messages. *)
Theorem C81_stop_partial : forall w c base ps vars cmds extra e r, script w c ps vars cmds extra -> generate w c base ps = Some e ->
  live (others cmds) r ->
  e_startup e = flat_map (fun a => match a with Command c => [c] | _ => [] end) r /\
  e_sourced e = flat_map (fun a => match a with Source c => [c] | _ => [] end) r /\
  e_infos e = flat_map (fun a => match a with Info m => [m] | Error m => [T "[error] " ++ m] | _ => [] end) r /\
  (e_stopped e = true <-> exists m, In (Stop m) (others cmds)) /\ (forall m, In (Stop m) r -> e_stop_msg e = m) /\
  (forall x, aget x (e_aliases e) = fold_left (fun o a => match a with Alias n v => if text_eqb x n then Some v else o | _ => o end) r None).
Proof.
  intros w c b ps vars cmds extra e r Hs Hg Hr. rewrite (generate_script w c b ps vars cmds extra Hs) in Hg. injection Hg as <-.
  match goal with |- context [apply ?w ?e0 ?l] => destruct (others_after w l r Hr e0) as (H1 & H2 & H3 & H4 & H5) end. cbn in H1, H2, H3, H4.
  split; [exact H1|]. split; [exact H2|]. split; [exact H3|]. split; [|split; [exact H5|]].
  - rewrite H4. split; [intros [K|K]; [discriminate K|exact K]|auto].
  - intros x. match goal with |- context [apply ?w ?e0 ?l] => exact (alias_after w e0 l r x Hr) end.
Qed.
Print Assumptions C81_stop_partial.
Example C81_example : e_infos generated = [T "done"] /\ aget (T "m") (e_aliases generated) = Some (T "maya") /\ e_stopped generated = false.
Proof. vm_compute. auto. Qed.

(** ** C82 *)
(** A variable that is reset and then set is missing afterwards. *)
Theorem C82_order_refuted : exists w c base p e, any_order (w_expand w) /\ any_order (w_extra w) /\ any_order (w_keys w) /\
  ep_commands p = lines [T "resetenv('A')"; T "setenv('A', '1')"] /\ generate w c base [p] = Some e /\ aget (T "A") (e_vars e) = None.
Proof.
  pose (p := mkEpkg (T "foo") None None [] None (lines [T "resetenv('A')"; T "setenv('A', '1')"]) None).
  destruct (generate unix cfg base [p]) as [e|] eqn:E; [|vm_compute in E; discriminate E].
  exists unix, cfg, base, p, e. split; [apply plain_any|]. split; [apply plain_any|]. split; [apply plain_any|]. split; [reflexivity|]. split; [exact E|].
  vm_compute in E. injection E as <-. vm_compute. reflexivity.
Qed.
Print Assumptions C82_order_refuted.
(** The exact value of every variable other than the search path: the package variables, then the commands phase by phase and package by
    package, then the additional variables are assigned in this order; whatever is unset by the configuration or reset by a live command
    is missing. *)
Theorem C82_value : forall w c base ps vars cmds extra e x q r,
  any_order (w_keys w) -> script w c ps vars cmds extra -> generate w c base ps = Some e ->
  on_var x (map (keyed (w_win w)) (filter assigns (vars ++ cmds ++ extra))) q -> live (others cmds) r -> ~ pathlike x ->
  (In (Resetenv x) r \/ In x (map (environment_key (w_win w)) (c_unset c)) -> aget x (e_vars e) = None) /\
  (~ In (Resetenv x) r -> ~ In x (map (environment_key (w_win w)) (c_unset c)) ->
   aget x (e_vars e) = fold_left (written (path_sep (w_win w))) q (aget x base)).
Proof. exact env_var. Qed.
Print Assumptions C82_value.
(** Without resets the variables have the values of running everything in order. *)
Theorem C82_order_partial : forall w c base ps vars cmds extra e x q,
  any_order (w_keys w) -> script w c ps vars cmds extra -> generate w c base ps = Some e ->
  on_var x (map (keyed (w_win w)) (vars ++ cmds ++ extra)) q -> ~ pathlike x ->
  (forall n, ~ In (Resetenv n) cmds) -> ~ In x (map (environment_key (w_win w)) (c_unset c)) ->
  aget x (e_vars e) = fold_left (written (path_sep (w_win w))) q (aget x base).
Proof. exact env_var_plain. Qed.
Print Assumptions C82_order_partial.
(** Generation succeeds exactly if every command text can be read; what the texts ask for is determined. *)
Theorem C82_succeeds : forall w c base ps,
  (generate w c base ps <> None <-> exists vars cmds extra, script w c ps vars cmds extra) /\
  (forall v k e v' k' e', script w c ps v k e -> script w c ps v' k' e' -> v = v' /\ k = k' /\ e = e').
Proof. intros w c b ps. split; [apply generate_some|]. intros v k e v' k' e'. apply script_unique. Qed.
Print Assumptions C82_succeeds.
Example C82_example :
  (exists vars cmds extra, script unix cfg [maya; zip] vars cmds extra) /\
  aget (T "MODE") (e_vars generated) = Some (T "zip") /\ aget (T "MAYA_HOME") (e_vars generated) = Some (T "/p/maya") /\
  aget (T "LANG") (e_vars generated) = Some (T "C") /\ aget (T "SECRET") (e_vars generated) = None /\ aget (T "HOME") (e_vars generated) = Some (T "/root").
Proof. split; [exact generated_script|]. vm_compute. auto 6. Qed.

(** ** C83 *)
(** The search path: the tool directories of the packages in order are put in front, behind or in place of what the commands left, and of
    entries with one identity the first stays. *)
Theorem C83_path : forall w c base ps vars cmds extra e q r ds,
  any_order (w_keys w) -> script w c ps vars cmds extra -> generate w c base ps = Some e ->
  one_path (w_win w) base (vars ++ cmds ++ extra) -> tool_dirs w ps ds ->
  on_var (T "PATH") (map (keyed (w_win w)) (filter assigns (vars ++ cmds ++ extra))) q -> live (others cmds) r ->
  ~ In (Resetenv (T "PATH")) r -> ~ In (T "PATH") (map (environment_key (w_win w)) (c_unset c)) ->
  let before := fold_left (written (path_sep (w_win w))) q (aget (T "PATH") base) in
  let sp := sep_char (w_win w) in
  (before = None -> ds = [] \/ c_strategy c = NoModify -> aget (T "PATH") (e_vars e) = None) /\
  (before <> None \/ ds <> [] /\ c_strategy c <> NoModify -> exists k,
     firsts (fold_entry (w_win w)) (with_dirs (c_strategy c) (flat_map (split_on sp) ds) (entries sp before)) k /\
     aget (T "PATH") (e_vars e) = Some (join [sp] k)).
Proof. exact env_path. Qed.
Print Assumptions C83_path.
(** So a lookup along the path finds the first suitable directory of that list, whatever else the path had. *)
Theorem C83_lookup : forall w c base ps vars cmds extra e q r ds P,
  any_order (w_keys w) -> script w c ps vars cmds extra -> generate w c base ps = Some e ->
  one_path (w_win w) base (vars ++ cmds ++ extra) -> tool_dirs w ps ds ->
  on_var (T "PATH") (map (keyed (w_win w)) (filter assigns (vars ++ cmds ++ extra))) q -> live (others cmds) r ->
  ~ In (Resetenv (T "PATH")) r -> ~ In (T "PATH") (map (environment_key (w_win w)) (c_unset c)) ->
  (forall a b, fold_entry (w_win w) a = fold_entry (w_win w) b -> P a = P b) ->
  c_strategy c = Prepend -> ds <> [] -> (forall d, In d ds -> ~ In (sep_char (w_win w)) d) ->
  exists v, aget (T "PATH") (e_vars e) = Some v /\
    find P (split_on (sep_char (w_win w)) v) =
    find P (ds ++ entries (sep_char (w_win w)) (fold_left (written (path_sep (w_win w))) q (aget (T "PATH") base))).
Proof. exact env_lookup. Qed.
Print Assumptions C83_lookup.
(** Every list of packages has its tool directories. *)
Theorem C83_defined : forall w ps, exists ds, tool_dirs w ps ds.
Proof. exact tool_dirs_exists. Qed.
Print Assumptions C83_defined.
Example C83_example :
  aget (T "PATH") (e_vars generated) = Some (T "/p/maya/bin:/p/zip:/p/maya/lib:/usr/bin:/bin") /\
  tool_dirs unix [maya; zip] [T "/p/maya/bin"; T "/p/zip"].
Proof.
  split; [vm_compute; reflexivity|]. apply dirs_some.
  - split; [discriminate|]. right. split; [|reflexivity]. intros t e Ht He. cbn in Ht, He. intuition (subst; vm_compute; reflexivity).
  - apply dirs_some; [|constructor]. split; [discriminate|]. left. split; [|reflexivity]. exists (T "zip"), (T ".exe").
    split; [left; reflexivity|]. split; [right; left; reflexivity|]. vm_compute. reflexivity.
Qed.

(** ** C84 *)
(** On Windows two additional variables whose names differ in case are assigned in the order of the map; so are base variables when
    neither name is in upper case. *)
Theorem C84_order_refuted :
  (exists w w' c base ps, same_platform w w' /\ all_orders w /\ all_orders w' /\ NoDup (map fst (c_extra c)) /\
     ~ agree (generate w c base ps) (generate w' c base ps)) /\
  (exists ord ord' m, any_order ord /\ any_order ord' /\ NoDup (akeys m) /\ ~ same_map (base_environment true ord m) (base_environment true ord' m)).
Proof.
  split.
  - exists windows, windows_back, (mkConfig true [(T "Lang", T "C"); (T "LANG", T "D")] [] Prepend), [], [].
    split; [repeat split; reflexivity|]. split; [repeat split; apply plain_any|]. split; [repeat split; apply back_any|].
    split; [repeat constructor; cbn; intuition discriminate|].
    match goal with |- ~ agree ?a ?b => let a' := eval vm_compute in a in change a with a'; let b' := eval vm_compute in b in change b with b' end.
    intros [H _]. specialize (H (T "LANG")). vm_compute in H. discriminate H.
  - exists plain_order, back_order, [(T "Path", T "a"); (T "pAth", T "b")].
    split; [apply plain_any|]. split; [apply back_any|]. split; [repeat constructor; cbn; intuition discriminate|].
    intros H. specialize (H (T "PATH")). vm_compute in H. discriminate H.
Qed.
Print Assumptions C84_order_refuted.
(** With additional variables that stay distinct, one path variable and packages whose commands expand in one way only, the generated
    environment does not depend on any map order. *)
Theorem C84_order_partial : forall w w' c base ps, same_platform w w' -> all_orders w -> all_orders w' -> (forall p, In p ps -> steady p) ->
  NoDup (map (fun kv => environment_key (w_win w) (fst kv)) (c_extra c)) ->
  (forall vars cmds extra, script w c ps vars cmds extra -> one_path (w_win w) base (vars ++ cmds ++ extra)) ->
  agree (generate w c base ps) (generate w' c base ps).
Proof. exact generate_order. Qed.
Print Assumptions C84_order_partial.
(** The base environment is taken over as it is; on Windows names become upper case, every variable keeps a value of one of its
    spellings, and the spelling in upper case wins. *)
Theorem C84_base_unix : forall ord m, any_order ord -> NoDup (akeys m) -> same_map (base_environment false ord m) m.
Proof. exact base_unix. Qed.
Print Assumptions C84_base_unix.
Theorem C84_base_windows : forall ord m, any_order ord -> NoDup (akeys m) ->
  (forall x v, aget x (base_environment true ord m) = Some v ->
     exists k, In (k, v) m /\ upper k = x /\ (forall u, In (x, u) m -> upper x = x -> u = v)) /\
  (forall k v, In (k, v) m -> exists u, aget (upper k) (base_environment true ord m) = Some u).
Proof. intros ord m Ho N. split; [intros x v; apply base_windows; assumption|intros k v; apply base_windows_some, Ho]. Qed.
Print Assumptions C84_base_windows.
Definition calm_package : epackage := mkEpkg (T "foo") (Some (T "1.0")) None [T "foo"] None (lines [T "setenv('A', '1')"]) None.
Example C84_example :
  (forall p, In p [calm_package] -> steady p) /\ all_orders unix /\ all_orders unix_back /\
  (forall vars cmds extra, script unix cfg [calm_package] vars cmds extra -> one_path false base (vars ++ cmds ++ extra)) /\
  generate unix cfg base [calm_package] <> None.
Proof.
  assert (S1 : parse_commands (join [NL] [T "setenv('A', '1')"]) = Some [Setenv (T "A") (T "1")]) by (vm_compute; reflexivity).
  split.
  { intros p [<-|[]]. assert (Hl : forall s, harmless s <-> ((~ In "{"%char s /\ ~ In "}"%char s) /\ ~ In "$"%char s)) by (intros s; reflexivity).
    split; [apply Hl; cbn; intuition discriminate|]. split; [discriminate|]. split; [intros v [= <-]; apply Hl; cbn; intuition discriminate|].
    intros c l a s Hc Hcl Ha Hs. cbn [ep_pre ep_commands ep_post calm_package In] in Hc. destruct Hc as [Hc|[Hc|[Hc|[]]]]; try discriminate Hc. injection Hc as <-.
    apply parse_commands_lines in Hcl. change (parse_commands (join [NL] [T "setenv('A', '1')"]) = Some l) in Hcl. rewrite S1 in Hcl. injection Hcl as <-.
    destruct Ha as [<-|[]]. cbn in Hs. destruct Hs as [<-|[]]. split; [apply flat_lit; [discriminate|constructor]|]. intros a d b E. destruct a as [|? [|? ?]]; discriminate E. }
  split; [repeat split; apply plain_any|]. split; [repeat split; apply back_any|]. split.
  - intros vars cmds extra Hs.
    assert (Hs' : script unix cfg [calm_package] (flat_map package_vars [calm_package]) [Setenv (T "A") (T "1")] (map (fun kv => Setenv (fst kv) (snd kv)) (c_extra cfg))).
    { split; [reflexivity|]. split; [|reflexivity]. exists [], [Setenv (T "A") (T "1")], []. split; [|split; [|split; [|reflexivity]]].
      - apply (phase_cons _ _ _ _ [] []); [reflexivity|constructor].
      - apply (phase_cons _ _ _ _ [Setenv (T "A") (T "1")] []); [|constructor]. exists [Setenv (T "A") (T "1")]. split; [apply parse_commands_lines; exact S1|].
        vm_compute. reflexivity.
      - apply (phase_cons _ _ _ _ [] []); [reflexivity|constructor]. }
    destruct (script_unique _ _ _ _ _ _ _ _ _ Hs Hs') as (-> & -> & ->). intros x Hx Hp. destruct Hx as [Hx|[(a & Ha & _ & Hw)|Hx]]; [| |exact Hx].
    + cbn in Hx. destruct Hx as [<-|[<-|[<-|[]]]]; [reflexivity|discriminate Hp|discriminate Hp].
    + exfalso. cbn in Ha. destruct Ha as [<-|[<-|[<-|[<-|[<-|[]]]]]]; injection Hw as <-; discriminate Hp.
  - vm_compute. discriminate.
Qed.

(** ** C85 *)
Theorem C85_tools : forall x,
  (forall t, In t (get_all_tools x) <-> exists p, In p (x_packages x) /\ In t (p_tools (cp_package p))) /\
  StronglySorted (fun a b => text_cmp a b = Lt) (get_all_tools x).
Proof. exact all_tools. Qed.
Print Assumptions C85_tools.
Example C85_example : get_all_tools (ctx [] [cpkg (T "a") (T "1") [T "z"; T "b"]; cpkg (T "c") (T "2") [T "b"; T "a"]]) = [T "a"; T "b"; T "z"].
Proof. vm_compute. reflexivity. Qed.

(** ** C86 *)
(** The fingerprint does not see the variables to unset, the additional variables and the strategy: contexts that generate different
    environments share it. *)
Theorem C86_fingerprint_refuted : exists x y, fingerprint x = fingerprint y /\ x_requirements x = x_requirements y /\ x_packages x = x_packages y /\
  ~ agree (generate unix (x_config x) base [maya]) (generate unix (x_config y) base [maya]).
Proof.
  exists (mkContext (T "a") None [] [] None None (mkConfig true [(T "MODE", T "1")] [] Prepend)),
         (mkContext (T "b") None [] [] None None (mkConfig true [(T "MODE", T "2")] [] Replace)).
  split; [reflexivity|]. split; [reflexivity|]. split; [reflexivity|].
  match goal with |- ~ agree ?a ?b => let a' := eval vm_compute in a in change a with a'; let b' := eval vm_compute in b in change b with b' end.
  intros [H _]. specialize (H (T "MODE")). vm_compute in H. discriminate H.
Qed.
Print Assumptions C86_fingerprint_refuted.
(** It identifies the request texts in order, the platform, the architecture and whether the environment is inherited. *)
Theorem C86_fingerprint_partial : forall x y, fingerprint x = fingerprint y <->
  map show_package_req (x_requirements x) = map show_package_req (x_requirements y) /\
  x_platform x = x_platform y /\ x_arch x = x_arch y /\ c_inherit (x_config x) = c_inherit (x_config y).
Proof. exact fingerprint_iff. Qed.
Print Assumptions C86_fingerprint_partial.
Example C86_example : fingerprint (ctx [python_ge] []) <> fingerprint (ctx [] []).
Proof. vm_compute. discriminate. Qed.

(** ** C87 *)
Definition named (n : text) : context := mkContext (T "0123456789") (Some n) [] [] None None cfg.
(** The file of a context with an empty name, or one that ends in a slash, is not taken for a context; a short id panics. *)
Theorem C87_file_refuted :
  (exists x f, default_filename x = Some f /\ is_context_file f = false) /\ (exists x, default_filename x = None).
Proof.
  split.
  - exists (named (T "team/")), (T "team/.rxt"). vm_compute. auto.
  - exists (mkContext (T "short") None [] [] None None cfg). reflexivity.
Qed.
Print Assumptions C87_file_refuted.
(** Exactly when the default file name is recognised. *)
Theorem C87_file_partial : forall x,
  (forall n f, x_name x = Some n -> default_filename x = Some f -> (is_context_file f = true <-> exists a c, n = a ++ [c] /\ c <> "/"%char)) /\
  (forall f, x_name x = None -> default_filename x = Some f -> (is_context_file f = true <-> forall a, firstn 8 (x_id x) <> a ++ ["/"%char])) /\
  (default_filename x = None <-> x_name x = None /\ length (x_id x) < 8).
Proof.
  intros x. split; [intros n f; apply default_recognised|]. split; [intros f; apply default_unnamed|].
  unfold default_filename. destruct (x_name x) as [n|]; [split; [discriminate|intros [H _]; discriminate H]|].
  destruct (Nat.ltb_spec (length (x_id x)) 8); split; (discriminate || (intros [_ K]; lia) || auto).
Qed.
Print Assumptions C87_file_partial.
Example C87_example : default_filename (named (T "My Shot")) = Some (T "my_shot.rxt") /\ is_context_file (T "my_shot.rxt") = true.
Proof. vm_compute. auto. Qed.

(** ** C88 *)
(** A value with a line feed smuggles in a variable. *)
Theorem C88_file_refuted : exists x vars m, NoDup (akeys vars) /\ ~ In (T "EVIL") (akeys vars) /\
  env_lines (split_on NL (env_file plain_order x vars)) m /\ In (T "EVIL", T "1") m.
Proof.
  exists (named (T "n")), [(T "A", T "x" ++ [NL] ++ T "EVIL=1")], [(T "A", T "x"); (T "EVIL", T "1")].
  split; [repeat constructor; cbn; tauto|]. split; [cbn; intuition discriminate|]. split; [|right; left; reflexivity].
  assert (E : split_on NL (env_file plain_order (named (T "n")) [(T "A", T "x" ++ [NL] ++ T "EVIL=1")]) =
    [T "# Generated by rez-core"; T "# Context: 0123456789"; T "# Name: n"; T ""; T "A=x"; T "EVIL=1"; T ""]) by (vm_compute; reflexivity).
  rewrite E. repeat (apply el_skip; [first [left; reflexivity|right; eexists; reflexivity]|]).
  apply (el_var (T "A") (T "x")); [discriminate|intros r H; discriminate H|cbn; intuition discriminate|].
  apply (el_var (T "EVIL") (T "1")); [discriminate|intros r H; discriminate H|cbn; intuition discriminate|].
  apply el_skip; [left; reflexivity|constructor].
Qed.
Print Assumptions C88_file_refuted.
(** Without line feeds in names and values, and with names a reader can tell, the file reads back as the variables. *)
Theorem C88_file_partial : forall ord x vars, any_order ord -> ~ In NL (x_id x) -> (forall n, x_name x = Some n -> ~ In NL n) ->
  (forall k v, In (k, v) vars -> k <> [] /\ (forall r, k <> "#"%char :: r) /\ ~ In "="%char k /\ ~ In NL k /\ ~ In NL v) ->
  env_lines (split_on NL (env_file ord x vars)) (ord vars) /\
  forall m, env_lines (split_on NL (env_file ord x vars)) m -> m = ord vars.
Proof.
  intros ord x vars Ho Hi Hn Hv. assert (H := env_file_read ord x vars Ho Hi Hn Hv). split; [exact H|]. intros m Hm. exact (env_lines_unique _ _ _ Hm H).
Qed.
Print Assumptions C88_file_partial.
Example C88_example : env_file plain_order (named (T "n")) [(T "A", T "x=y"); (T "B", T "")] =
  join [NL] [T "# Generated by rez-core"; T "# Context: 0123456789"; T "# Name: n"; T ""; T "A=x=y"; T "B="; T ""].
Proof. vm_compute. reflexivity. Qed.

(** ** C89 *)
(** Packages whose names differ in case only share the variables. *)
Theorem C89_vars_refuted : exists p q e, ep_name p <> ep_name q /\ generate unix cfg base [p; q] = Some e /\
  aget (upper (ep_name p) ++ T "_ROOT") (e_vars e) <> Some (package_root p).
Proof.
  pose (p := mkEpkg (T "foo") None None [] None None None). pose (q := mkEpkg (T "Foo") None None [] None None None).
  destruct (generate unix cfg base [p; q]) as [e|] eqn:E; [|vm_compute in E; discriminate E]. exists p, q, e. split; [discriminate|]. split; [exact E|].
  vm_compute in E. injection E as <-. vm_compute. discriminate.
Qed.
Print Assumptions C89_vars_refuted.
(** With distinct names the root and version of a package are found under its name, unless a command or the configuration overrides them. *)
Theorem C89_vars_partial : forall w c base ps vars cmds extra e p x (v : option text),
  any_order (w_keys w) -> script w c ps vars cmds extra -> generate w c base ps = Some e -> In p ps ->
  NoDup (map (fun p => upper (ep_name p)) ps) ->
  x = upper (ep_name p) ++ T "_ROOT" /\ v = Some (package_root p) \/ x = upper (ep_name p) ++ T "_VERSION" /\ v = ep_version p /\ v <> None ->
  (forall a, In a (cmds ++ extra) -> assigns a = true -> writes (keyed (w_win w) a) <> Some x) ->
  ~ In (Resetenv x) cmds -> ~ In x (map (environment_key (w_win w)) (c_unset c)) ->
  aget x (e_vars e) = v.
Proof. exact package_var. Qed.
Print Assumptions C89_vars_partial.
Example C89_example : aget (T "MAYA_ROOT") (e_vars generated) = Some (T "/p/maya") /\ aget (T "MAYA_VERSION") (e_vars generated) = Some (T "2024.1") /\
  aget (T "ZIP_VERSION") (e_vars generated) = None /\ NoDup (map (fun p => upper (ep_name p)) [maya; zip]).
Proof. split; [vm_compute; reflexivity|]. split; [vm_compute; reflexivity|]. split; [vm_compute; reflexivity|]. repeat constructor; cbn; intuition discriminate. Qed.
