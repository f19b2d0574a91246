(** Properties C107 to C111: searching, plugins and reverse dependencies. *)
From Verif Require Import Base Base_lemmas Maps Sorting Version_model Range_model Package_model Order_spec P_Order Repo_model Repo_spec Repo_proofs P_Repo Env_model
  Search_model Search_spec Search_tree Search_queue Search_proofs.
From Coq Require Import Sorted.
Open Scope string_scope. Open Scope list_scope.

(** ** Concrete data *)
Definition no_re (_ : text) : option (text -> bool) := None.
Definition as_is (_ : nat) (l : list (text * list text)) : list (text * list text) := l.
Definition reversed (_ : nat) (l : list (text * list text)) : list (text * list text) := rev l.
Definition any_name : soptions := mkSoptions [] FContains None 0 false.
Definition may : soptions := mkSoptions (T "MAY") FPrefix (Some (T ">=2")) 0 true.
Definition first_only : soptions := mkSoptions [] FContains None 1 false.
Definition python9 : package := pk "python" "3.9" 0. Definition python11 : package := pk "python" "3.11" 0.
Definition shelves : list (text * list package) := [(T "/site", [maya1; python9; python11; maya2]); (T "/studio", [nuke1; maya2; maya2])].
Lemma as_is_any i : any_order (as_is i). Proof. intros l. reflexivity. Qed.
Lemma reversed_any i : any_order (reversed i). Proof. intros l. symmetry. apply Permutation_rev. Qed.

(** ** C107 *)
(** A search over repositories finds nothing, whatever is in them: it looks for packages whose name is empty. *)
Theorem C107_nothing : forall re ord o rs, (forall i, any_order (ord i)) -> (forall r p, In r rs -> In p (packages_of (snd r)) -> p_name p <> []) -> search re ord o rs = [].
Proof. exact search_nothing. Qed.
Print Assumptions C107_nothing.
Theorem C107_refuted : exists rs repo root p, In (repo, root) rs /\ sound root (p_name p) /\ In p (held root (p_name p)) /\ wanted no_re any_name p /\
  forall ord, (forall i, any_order (ord i)) -> search no_re ord any_name rs = [].
Proof.
  exists [(T "/studio", studio)], (T "/studio"), studio, maya2. split; [now left|]. split; [is_sound|]. split; [vm_compute; auto|]. split; [split; [left; reflexivity|intros t r v E; discriminate E]|].
  intros ord H. apply search_nothing; [exact H|]. intros r p [<-|[]] P. vm_compute in P. repeat (destruct P as [<-|P]; [discriminate|]). destruct P.
Qed.
Print Assumptions C107_refuted.
(** Given the packages, and without a limit, the results are sorted by name, and those of a name are one for each repository that has wanted
    packages of it, in the order of the repositories, with the versions once each in the order of their texts. *)
Theorem C107_given_partial : forall re ord o rs, (forall i, any_order (ord i)) -> so_limit o = 0 ->
  StronglySorted (fun a b => text_cmp (sr_name a) (sr_name b) <> Gt) (search_in re ord o rs) /\
  forall n, results_for re o n rs (filter (fun r => text_eqb n (sr_name r)) (search_in re ord o rs)).
Proof. exact search_complete. Qed.
Print Assumptions C107_given_partial.
(** They do not depend on the order of the maps. *)
Theorem C107_order_partial : forall re ord ord' o rs, (forall i, any_order (ord i)) -> (forall i, any_order (ord' i)) -> so_limit o = 0 -> search_in re ord o rs = search_in re ord' o rs.
Proof. exact search_order. Qed.
Print Assumptions C107_order_partial.
(** A limit takes that many of them, or all if there are fewer. *)
Theorem C107_limit_partial : forall re ord o rs, so_limit o <> 0 -> forall all, all = search_in re ord (mkSoptions (so_pattern o) (so_mode o) (so_range o) 0 (so_latest o)) rs ->
  length (search_in re ord o rs) = Nat.min (so_limit o) (length all) /\ incl (search_in re ord o rs) all /\ (length all < so_limit o -> search_in re ord o rs = all).
Proof. intros re ord o rs N all ->. exact (search_limit re ord o rs N). Qed.
Print Assumptions C107_limit_partial.
(** Which of them it takes depends on the order of the maps. *)
Theorem C107_limit_refuted : exists ord ord' o rs, (forall i, any_order (ord i)) /\ (forall i, any_order (ord' i)) /\
  map sr_name (search_in no_re ord o rs) = [T "maya"] /\ map sr_name (search_in no_re ord' o rs) = [T "python"].
Proof. exists as_is, reversed, first_only, shelves. split; [exact as_is_any|]. split; [exact reversed_any|]. split; vm_compute; reflexivity. Qed.
Print Assumptions C107_limit_refuted.
(** A range that does not parse is ignored. *)
Theorem C107_bad_range : forall re ord o rs t, so_range o = Some t -> parse_range t = None ->
  search_in re ord o rs = search_in re ord (mkSoptions (so_pattern o) (so_mode o) None (so_limit o) (so_latest o)) rs.
Proof. exact search_bad_range. Qed.
Print Assumptions C107_bad_range.
Example C107_example : map sr_name (search_in no_re as_is any_name shelves) = [T "maya"; T "maya"; T "nuke"; T "python"] /\
  search_in no_re as_is may shelves = [mkSresult (T "maya") [T "2"] (T "/site") (Some (T "2")); mkSresult (T "maya") [T "2"] (T "/studio") (Some (T "2"))] /\
  map sr_repo (search_in no_re reversed any_name shelves) = [T "/site"; T "/studio"; T "/studio"; T "/site"] /\ so_limit first_only <> 0 /\ parse_range (T "@") = None.
Proof. split; [vm_compute; reflexivity|]. split; [vm_compute; reflexivity|]. split; [vm_compute; reflexivity|]. split; [discriminate|vm_compute; reflexivity]. Qed.

(** ** C108 *)
(** The latest version of a result is not the highest: 3.9 goes before 3.11. *)
Theorem C108_refuted : exists ord o rs r p q, (forall i, any_order (ord i)) /\ In r (search_in no_re ord o rs) /\ sr_latest r = Some (T "3.9") /\ shown p (T "3.9") /\
  In (sr_repo r, [p; q]) rs /\ p_name q = sr_name r /\ wanted no_re o q /\ ~ not_lower p q.
Proof.
  exists as_is, any_name, [(T "/site", [python9; python11])], (mkSresult (T "python") [T "3.11"; T "3.9"] (T "/site") (Some (T "3.9"))), python9, python11.
  split; [exact as_is_any|]. split; [vm_compute; left; reflexivity|]. split; [reflexivity|]. split; [vm_compute; reflexivity|]. split; [now left|]. split; [reflexivity|].
  split; [split; [left; reflexivity|intros t r v E; discriminate E]|]. unfold not_lower, goes_before. intros H. apply H. vm_compute. reflexivity.
Qed.
Print Assumptions C108_refuted.
(** It is the highest if the order of the texts agrees with the order of the versions. *)
Theorem C108_agree_partial : forall re o repo ps n r, describes re o repo ps n r ->
  (forall p, In p ps -> p_name p = n -> wanted re o p -> p_version p <> None) ->
  (forall p q v w, In p ps -> In q ps -> p_name p = n -> p_name q = n -> wanted re o p -> wanted re o q -> p_version p = Some v -> p_version q = Some w -> text_cmp (v_str v) (v_str w) <> Gt -> vcmp v w <> Gt) ->
  exists p v, In p ps /\ p_name p = n /\ wanted re o p /\ p_version p = Some v /\ sr_latest r = Some (v_str v) /\
  forall q w, In q ps -> p_name q = n -> wanted re o q -> p_version q = Some w -> vcmp w v <> Gt.
Proof.
  intros re o repo ps n r (vs & [_ V] & _ & _ & _ & t & [G1 G2] & L & _) NV A. apply V in G1. destruct G1 as (p & P1 & P2 & P3 & P4). destruct (p_version p) as [v|] eqn:E; [|destruct (NV p P1 P2 P3 E)].
  unfold shown in P4. rewrite E in P4. exists p, v. repeat split; auto; try apply P3; [congruence|]. intros q w Q1 Q2 Q3 Q4. eapply (A q p); eauto. rewrite <- P4. apply G2. apply V. exists q. repeat split; auto; try apply Q3. unfold shown. rewrite Q4. reflexivity.
Qed.
Print Assumptions C108_agree_partial.
Example C108_example : describes no_re any_name (T "/site") [maya1; python9; python11; maya2] (T "maya") (mkSresult (T "maya") [T "1"; T "2"] (T "/site") (Some (T "2"))) /\
  (forall p, In p [maya1; python9; python11; maya2] -> p_version p <> None) /\
  (forall p q v w, In p [maya1; python9; python11; maya2] -> In q [maya1; python9; python11; maya2] -> p_name p = T "maya" -> p_name q = T "maya" ->
    p_version p = Some v -> p_version q = Some w -> text_cmp (v_str v) (v_str w) <> Gt -> vcmp v w <> Gt).
Proof.
  split; [|split].
  - change (mkSresult (T "maya") [T "1"; T "2"] (T "/site") (Some (T "2"))) with (family_entry any_name (T "/site") (T "maya", found no_re any_name (T "maya") [maya1; python9; python11; maya2])). apply entry_describes. discriminate.
  - intros p [<-|[<-|[<-|[<-|[]]]]]; discriminate.
  - intros p q v w P Q N M V W C. destruct P as [<-|[<-|[<-|[<-|[]]]]]; try discriminate N; destruct Q as [<-|[<-|[<-|[<-|[]]]]]; try discriminate M; injection V as <-; injection W as <-; vm_compute in C |- *; try discriminate; exact C.
Qed.

(** ** C109 *)
(** A package as the walk sees it *)
Definition sp (reqs build plugs : list string) : option spack := Some (mkSpack (map T reqs) (map T build) (map T plugs)).
Definition disk : list families := [[(T "python", [sp [] [] []]); (T "maya", [sp ["python-3.9"] [] []; sp [] [] []]); (T "rig", [sp ["maya"] ["cmake"] ["maya"]])];
  [(T "anim", [sp ["rig-1"; "maya"] [] []]); (T "shot", [sp ["anim"] [] ["maya"]; sp [] [] []]); (T "maya", [sp ["shot"] [] []])]].
Definition target : text := T "python".
(** The layers are the packages by their distance along listed dependencies, up to the depth, without empty layers or repetitions, and the graph has the
    edges by which each package but the first was reached, one for each. *)
Theorem C109_layers_partial : forall target depth paths build, exists layers graph, reverse_tree target depth paths build = Some (layers, graph) /\
  let deps := find_dependents build paths in
  (forall k x, In x (nth k layers []) <-> match depth with Some d => k <= d | None => True end /\ distance deps target k x) /\
  NoDup (concat layers) /\ (forall l, In l layers -> l <> []) /\
  Permutation (concat layers) (target :: flat_map snd graph) /\
  (forall x y, edge graph x y -> In y (deps x) /\ exists k, distance deps target k x /\ distance deps target (S k) y).
Proof.
  intros target depth paths build. assert (U : forall x, incl (find_dependents build paths x) (map fst (concat paths))).
  { intros x n I. apply find_dependents_in in I. destruct I as (fs & p & vs & A & B & _). apply in_map_iff. exists (n, Some p :: vs). split; [reflexivity|]. apply in_concat. exists fs. auto. }
  destruct (rounds_spec (find_dependents build paths) target (map fst (concat paths)) depth (S (length (concat paths))) U 0 [target] [target] [] [[target]]) as (ls & g & E & O).
  - apply inv_start. - destruct depth; cbn; auto with arith. - intros x [<-|[]]. now left. - rewrite map_length. cbn. rewrite PeanoNat.Nat.add_comm. cbn. rewrite PeanoNat.Nat.add_comm. auto.
  - exists ls, g. split; [exact E|]. destruct O as [O1 O2 O3 O4 O5 O6]. split; [exact O1|]. split; [exact O2|]. split; [intros l L; rewrite Forall_forall in O3; apply O3, L|]. split; [exact O5|exact O6].
Qed.
Print Assumptions C109_layers_partial.
(** The dependents of a package: the names of the families of any path whose first listed version mentions it in a requirement, sorted, once each. *)
Theorem C109_direct_partial : forall build paths target, StronglySorted (fun a b => text_cmp a b = Lt) (find_dependents build paths target) /\
  forall n, In n (find_dependents build paths target) <-> first_has (mentions target build) paths n.
Proof. intros build paths target. split; [apply names_sorted, pick_nodup|]. intros n. apply find_dependents_in. Qed.
Print Assumptions C109_direct_partial.
(** Other versions do not count, so the answer depends on the order of the listing. *)
Theorem C109_first_refuted : exists n vs vs' target, Permutation vs vs' /\ find_dependents false [[(n, vs)]] target = [n] /\ find_dependents false [[(n, vs')]] target = [] /\ some_has (mentions target false) [[(n, vs')]] n.
Proof.
  exists (T "maya"), [sp ["python-3.9"] [] []; sp [] [] []], [sp [] [] []; sp ["python-3.9"] [] []], (T "python"). split; [apply perm_swap|]. split; [vm_compute; reflexivity|]. split; [vm_compute; reflexivity|].
  eexists _, _, _. split; [now left|]. split; [now left|]. split; [right; left; reflexivity|]. exists (T "python-3.9"), [], (T "-3.9"). split; [left; now left|reflexivity].
Qed.
Print Assumptions C109_first_refuted.
(** A package counts that requires another whose name has the text of the target in it. *)
Theorem C109_substring_refuted : find_dependents false [[(T "tool", [sp ["pythonic"; "ipython-2"] [] []])]] (T "python") = [T "tool"].
Proof. vm_compute. reflexivity. Qed.
Print Assumptions C109_substring_refuted.
Example C109_example : reverse_tree (T "python") None disk false = Some ([[T "python"]; [T "maya"]; [T "anim"; T "rig"]; [T "shot"]],
    [(T "python", [T "maya"]); (T "maya", [T "anim"; T "rig"]); (T "anim", [T "shot"])]) /\
  reverse_tree (T "python") (Some 1) disk false = Some ([[T "python"]; [T "maya"]], [(T "python", [T "maya"])]) /\
  reverse_tree (T "cmake") None disk true = Some ([[T "cmake"]; [T "rig"]; [T "anim"]; [T "shot"]; [T "maya"]], [(T "cmake", [T "rig"]); (T "rig", [T "anim"]); (T "anim", [T "shot"]); (T "shot", [T "maya"])]).
Proof. split; [vm_compute; reflexivity|]. split; vm_compute; reflexivity. Qed.

(** ** C110 *)
(** The depends command finds no dependents in any repositories: its levels are empty, or a repository fails. *)
Theorem C110_nothing : forall fuel target max roots, (forall root p, In root roots -> In p (packages_of root) -> p_name p <> []) ->
  exists m, depends (S fuel) target max roots = Some (Ok [], m) \/ depends (S fuel) target max roots = Some (Err, m).
Proof. exact depends_nothing. Qed.
Print Assumptions C110_nothing.
Definition needs (n : string) (reqs : list string) : package := mkPackage (T n) (p_version maya1) (map T reqs) [] None [] 0%N.
Definition farm : rdir := root [fam "maya" [ver (needs "maya" ["python"])]; fam "python" [ver python9]].
Theorem C110_refuted : exists p m, sound farm (T "maya") /\ In p (held farm (T "maya")) /\ In (T "python") (p_requires p) /\ depends 9 (T "python") None [farm] = Some (Ok [], m).
Proof. exists (needs "maya" ["python"]). eexists. split; [is_sound|]. split; [vm_compute; auto|]. split; [vm_compute; auto|]. vm_compute. reflexivity. Qed.
Print Assumptions C110_refuted.
(** Among given packages the dependents are those that have the bare name among their requirements. *)
Theorem C110_whole_partial : forall target ps n, In n (dependents_among target ps) <-> exists p, In p ps /\ p_name p = n /\ In target (p_requires p).
Proof.
  intros target ps n. unfold dependents_among. rewrite in_map_iff. split.
  - intros (p & E & F). apply filter_In in F. destruct F as [F G]. apply Env_proofs.mem_text_in in G. exists p. auto.
  - intros (p & F & E & G). exists p. split; [exact E|]. apply filter_In. split; [exact F|]. apply Env_proofs.mem_text_in, G.
Qed.
Print Assumptions C110_whole_partial.
(** So a requirement with a version does not count. *)
Theorem C110_version_refuted : dependents_among (T "python") [needs "maya" ["python-3.9"]; needs "rig" ["python"]] = [T "rig"].
Proof. vm_compute. reflexivity. Qed.
Print Assumptions C110_version_refuted.

(** Given the dependents, the walk of the command sorts the packages by distance, up to the depth, each once and without the target itself. *)
Theorem C110_levels_partial : forall deps target max U m, (forall x, incl (deps x) U) -> exists levels, dequeue (fun x m => (Ok (deps x), m)) (S (length U)) max [(target, 0)] [target] [] m = Some (Ok levels, m) /\
  forall k, NoDup (nth k levels []) /\ forall x, In x (nth k levels []) <-> k <> 0 /\ match max with Some d => k <= d | None => True end /\ distance deps target k x.
Proof.
  intros deps target max U m HU. apply (dequeue_ok deps target max U m HU (S (length U)) [(target, 0)] [target] []); [apply qinv_start|cbn [length]; lia|]. intros x [<-|[]]. now left.
Qed.
Print Assumptions C110_levels_partial.
Definition needed_by (x : text) : list text := if text_eqb x (T "python") then [T "maya"; T "nuke"; T "maya"] else if text_eqb x (T "maya") then [T "rig"; T "python"] else if text_eqb x (T "nuke") then [T "rig"; T "comp"; T "maya"] else if text_eqb x (T "rig") then [T "comp"; T "shot"] else [].
Example C110_example : dequeue (fun x m => (Ok (needed_by x), m)) 9 None [(T "python", 0)] [T "python"] [] [] = Some (Ok [[]; [T "maya"; T "nuke"]; [T "rig"; T "comp"]; [T "shot"]], []) /\
  dequeue (fun x m => (Ok (needed_by x), m)) 9 (Some 1) [(T "python", 0)] [T "python"] [] [] = Some (Ok [[]; [T "maya"; T "nuke"]], []).
Proof. split; vm_compute; reflexivity. Qed.

(** ** C111 *)
(** The plugins of a package: the families of any path whose first listed version declares it, sorted, once each. *)
Theorem C111_plugins_partial : forall target paths, StronglySorted (fun a b => text_cmp a b = Lt) (get_plugins target paths) /\
  forall n, In n (get_plugins target paths) <-> first_has (fun p => In target (sk_plugin_for p)) paths n.
Proof. intros target paths. split; [apply names_sorted, pick_nodup|]. intros n. apply get_plugins_in. Qed.
Print Assumptions C111_plugins_partial.
(** Families that declare it in another version are missed. *)
Theorem C111_refuted : exists target paths n, some_has (fun p => In target (sk_plugin_for p)) paths n /\ ~ In n (get_plugins target paths).
Proof.
  exists (T "maya"), [[(T "rig", [sp [] [] []; sp [] [] ["maya"]])]], (T "rig"). split; [|intros H; vm_compute in H; exact H].
  eexists _, _, _. split; [now left|]. split; [now left|]. split; [right; left; reflexivity|]. vm_compute. auto.
Qed.
Print Assumptions C111_refuted.
Example C111_example : get_plugins (T "maya") disk = [T "rig"; T "shot"].
Proof. vm_compute. reflexivity. Qed.
