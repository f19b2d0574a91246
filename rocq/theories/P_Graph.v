(** Properties C25-C27, C62-C66: the dependency graph. *)
From Verif Require Import Base Base_lemmas Version_model Version_order P_Version Range_model Range_spec P_Range Requirement_model P_Requirement
  Maps Sorting Package_model Dfs Order_spec Graph_model Graph_spec Graph_proofs Graph_topo Graph_cycle Graph_misc P_Solver.
Open Scope string_scope. Open Scope list_scope.

(** ** Concrete graphs *)
Definition straight : gorder := mkGOrder (fun l => l) (fun _ l => l).
Definition reversed : gorder := mkGOrder (fun l => l) (fun _ l => rev l).
Lemma straight_any : any_gorder straight.
Proof. split; intros; intros l; apply Permutation_refl. Qed.
Lemma reversed_any : any_gorder reversed.
Proof. split; [intros l; apply Permutation_refl|]. intros k l. apply Permutation_sym, Permutation_rev. Qed.
Definition bare (n : string) : op := AddPackage (mkPackage (T n) None [] [] None [] 0).
Definition joins (es : list (string * string)) : list op := map (fun e => AddEdge (T (fst e)) (T (snd e))) es.
Definition drawn (ns : list string) (es : list (string * string)) : graph := apply_ops (map bare ns ++ joins es) g_empty.
Fixpoint carefulb (xs : list op) (g : graph) : bool :=
  match xs with
  | [] => true
  | x :: xs' =>
      match x with
      | AddPackage p => negb (mem_text (pkg_key p) (akeys (g_nodes g)))
      | AddEdge a b => negb (mem_text a (akeys (g_nodes g))) || mem_text b (akeys (g_nodes g))
      | _ => true
      end && carefulb xs' (apply_op x g)
  end.
Lemma carefulb_sound xs : forall g, carefulb xs g = true -> all_careful xs g.
Proof.
  induction xs as [|x xs IH]; intros g H; [exact I|]. cbn [carefulb] in H. apply andb_true_iff in H as [H1 H2]. split; [|apply IH, H2].
  destruct x as [p|a b|k|n|r]; cbn [careful]; try exact I.
  - intros K. apply mem_text_In in K. rewrite K in H1. discriminate.
  - intros K. apply mem_text_In in K. rewrite K in H1. apply mem_text_In. exact H1.
Qed.
Lemma drawn_consistent ns es : carefulb (map bare ns ++ joins es) g_empty = true -> consistent (drawn ns es).
Proof. intros H. apply ops_consistent; [apply empty_consistent|apply carefulb_sound, H]. Qed.
Definition diamond := drawn ["a"; "b"; "c"; "d"] [("a", "b"); ("b", "c"); ("c", "d"); ("a", "c")].
Definition ring := drawn ["a"; "b"; "c"; "d"] [("a", "b"); ("b", "c"); ("c", "b"); ("c", "d")].

(** ** C25 *)
(** On a graph whose edges are recorded at both ends: an order lists every package once, each package before everything
    it depends on; it is given exactly when there is no cycle, and nothing else can happen (no overflow, no missed
    termination), whatever the map order.
    Missing: graphs left inconsistent by re-adding a package or by a failed edge, for which it is false (below). *)
Theorem C25_order_partial : forall o g, any_gorder o -> consistent g ->
  (forall l, topo_sort o g = Sorted l -> Permutation l (akeys (g_nodes g)) /\ forall a b, edge g a b -> before l a b) /\
  ((exists l, topo_sort o g = Sorted l) <-> loop_free g) /\
  ((exists l, topo_sort o g = Sorted l) \/ topo_sort o g = Cyclic).
Proof.
  intros o g Ho Hg. split; [|split].
  - intros l H. destruct (topo_sorted o g Ho Hg l H) as (H1 & H2 & _). split; assumption.
  - apply topo_exact; assumption.
  - apply topo_outcome; assumption.
Qed.
Print Assumptions C25_order_partial.
Theorem C25_packages_partial : forall o g ps, any_gorder o -> consistent g -> resolved_packages o g = Some ps ->
  Permutation ps (map (fun kn => n_package (snd kn)) (g_nodes g)).
Proof.
  intros o g ps Ho Hg. unfold resolved_packages. destruct (topo_sort o g) as [l| | |] eqn:E; try discriminate. intros [= <-].
  destruct (topo_sorted o g Ho Hg l E) as (P & _). apply packages_of_keys; [exact P|apply (wf_keys _ (co_wf _ Hg))].
Qed.
Print Assumptions C25_packages_partial.
(** Adding a package again (say, after it was re-read) forgets its own edges but not those recorded at the other end.
    A loop-free graph is then reported as circular, or the in-degree count goes below zero. *)
Theorem C25_order_refuted :
  (exists o xs, any_gorder o /\ loop_free (apply_ops xs g_empty) /\ topo_sort o (apply_ops xs g_empty) = Cyclic) /\
  (exists o xs, any_gorder o /\ loop_free (apply_ops xs g_empty) /\ topo_sort o (apply_ops xs g_empty) = Underflow).
Proof.
  split.
  - exists straight, (map bare ["a"; "b"] ++ joins [("a", "b")] ++ [bare "a"]). split; [apply straight_any|]. split; [|vm_compute; reflexivity].
    apply (find_cycle_none straight _ straight_any [(T "a", Black); (T "b", Black)] []). vm_compute. reflexivity.
  - exists straight, (map bare ["a"; "b"] ++ joins [("a", "b")] ++ [bare "b"]). split; [apply straight_any|]. split; [|vm_compute; reflexivity].
    apply (find_cycle_none straight _ straight_any [(T "a", Black); (T "b", Black)] [(T "b", T "a")]). vm_compute. reflexivity.
Qed.
Print Assumptions C25_order_refuted.
Example C25_example :
  any_gorder reversed /\ consistent diamond /\ consistent ring /\
  topo_sort reversed diamond = Sorted [T "a"; T "b"; T "c"; T "d"] /\ topo_sort straight ring = Cyclic /\
  option_map (map p_name) (resolved_packages straight diamond) = Some [T "a"; T "b"; T "c"; T "d"].
Proof.
  split; [apply reversed_any|]. split; [apply drawn_consistent; vm_compute; reflexivity|]. split; [apply drawn_consistent; vm_compute; reflexivity|].
  split; [|split]; vm_compute; reflexivity.
Qed.

(** ** C26 *)
(** For every graph (consistent or not) and map order: a reported cycle is a closed walk along recorded edges; one is
    reported exactly when some package leads back to itself; following the parents never fails. *)
Theorem C26_cycle_search : forall o g, any_gorder o ->
  (forall l, find_cycle o g = CFound l -> closed_walk g l) /\
  ((exists l, find_cycle o g = CFound l) <-> exists k, leads g k k) /\
  ((exists l, find_cycle o g = CFound l) \/ exists c p, find_cycle o g = CNone c p).
Proof.
  intros o g Ho. split; [|split].
  - intros l. apply find_cycle_found, Ho.
  - apply find_cycle_exact, Ho.
  - apply find_cycle_outcome, Ho.
Qed.
Print Assumptions C26_cycle_search.
Example C26_example : any_gorder straight /\ find_cycle straight ring = CFound [T "b"; T "c"] /\ leads ring (T "b") (T "b") /\
  (exists c p, find_cycle straight diamond = CNone c p).
Proof.
  split; [apply straight_any|]. split; [vm_compute; reflexivity|]. split.
  - apply (leads_step _ _ (T "c")); [apply leads_edge|]; eexists; (split; [vm_compute; reflexivity|]); cbn; auto.
  - do 2 eexists. vm_compute. reflexivity.
Qed.

(** ** C27 *)
(** Any sequence of edits in which packages are added once and edges join packages of the graph keeps every edge between
    packages of the graph and recorded at both ends; nodes stay filed under the key of their package; removing a package
    removes it and exactly its edges.
    Missing: packages added twice and edges to absent packages, for which it is false (below). *)
Theorem C27_edits_partial : forall xs, all_careful xs g_empty -> consistent (apply_ops xs g_empty).
Proof. intros xs. apply ops_consistent, empty_consistent. Qed.
Print Assumptions C27_edits_partial.
Theorem C27_removal_partial : forall k g, consistent g ->
  (forall x, is_node (remove_package k g) x <-> is_node g x /\ x <> k) /\
  (forall a b, edge (remove_package k g) a b <-> edge g a b /\ a <> k /\ b <> k) /\
  (forall a b, back_edge (remove_package k g) b a <-> back_edge g b a /\ a <> k /\ b <> k).
Proof.
  intros k g C. split; [|split].
  - intros x. apply remove_nodes, C.
  - intros a b. apply remove_edge, C.
  - intros a b. apply remove_back_edge, C.
Qed.
Print Assumptions C27_removal_partial.
(** Any sequence at all keeps nodes and requirements filed under their own key or name. *)
Theorem C27_filing : forall xs, filed (apply_ops xs g_empty) /\
  forall n l r, In (n, l) (g_reqs (apply_ops xs g_empty)) -> In r l -> pr_name r = n.
Proof. intros xs. split; [apply filed_ops, filed_empty|]. apply reqs_filed_ops, reqs_filed_empty. Qed.
Print Assumptions C27_filing.
(** Adding a package again leaves an edge recorded at one end only; an edge to an absent package fails but leaves half an
    edge behind, which then cannot be removed with the package it points to. *)
Theorem C27_edits_refuted :
  (exists xs a b, edge (apply_ops xs g_empty) a b /\ ~ back_edge (apply_ops xs g_empty) b a) /\
  (exists xs a b, fst (add_edge a b (apply_ops xs g_empty)) = false /\ edge (snd (add_edge a b (apply_ops xs g_empty))) a b /\
     ~ is_node (snd (add_edge a b (apply_ops xs g_empty))) b /\
     edge (remove_package b (snd (add_edge a b (apply_ops xs g_empty)))) a b).
Proof.
  split.
  - exists (map bare ["a"; "b"] ++ joins [("a", "b")] ++ [bare "b"]), (T "a"), (T "b"). split.
    + eexists. split; [vm_compute; reflexivity|]. left. reflexivity.
    + intros (n & E & H). vm_compute in E. injection E as <-. exact H.
  - exists [bare "a"], (T "a"), (T "b"). split; [vm_compute; reflexivity|]. split; [|split].
    + eexists. split; [vm_compute; reflexivity|]. left. reflexivity.
    + intros H. vm_compute in H. destruct H as [H|[]]. discriminate.
    + eexists. split; [vm_compute; reflexivity|]. left. reflexivity.
Qed.
Print Assumptions C27_edits_refuted.
Example C27_example : all_careful (map bare ["a"; "b"; "c"] ++ joins [("a", "b"); ("b", "c"); ("a", "c")] ++ [Remove (T "b")]) g_empty /\
  consistent diamond /\ edge (remove_package (T "b") diamond) (T "a") (T "c") /\ is_node diamond (T "b").
Proof.
  split; [apply carefulb_sound; vm_compute; reflexivity|]. split; [apply drawn_consistent; vm_compute; reflexivity|]. split.
  - eexists. split; [vm_compute; reflexivity|]. left. reflexivity.
  - vm_compute. auto.
Qed.

(** ** C62 *)
(** The accessibility table has a row for every package, listing it and everything it leads to, sorted, each once. *)
Theorem C62_accessibility : forall o g, any_gorder o ->
  (forall k, In k (map fst (accessibility o g)) <-> is_node g k) /\
  (forall k row, In (k, row) (accessibility o g) ->
     (forall x, In x row <-> x = k \/ leads g k x) /\ NoDup row /\ sorted_by text_cmp row).
Proof.
  intros o g Ho. split.
  - intros k. unfold accessibility. rewrite map_map, map_id. destruct Ho as [Hk _]. unfold is_node. split; apply Permutation_in; [|apply Permutation_sym]; apply Hk.
  - intros k row H. unfold accessibility in H. apply in_map_iff in H as (k' & E & _). injection E as -> <-. split; [|split].
    + intros x. apply accessible_exact, Ho.
    + apply accessible_nodup, Ho.
    + apply (sort_sorted text_cmp (fun _ => True) TPO_text). apply Forall_forall. intros; exact I.
Qed.
Print Assumptions C62_accessibility.
Example C62_example : any_gorder straight /\ accessible straight ring (T "c") = [T "b"; T "c"; T "d"] /\ leads ring (T "c") (T "d").
Proof.
  split; [apply straight_any|]. split; [vm_compute; reflexivity|]. apply leads_edge. eexists. split; [vm_compute; reflexivity|]. cbn. auto.
Qed.

(** ** C63 *)
(** The reported depth is the length of a chain of packages that exists.
    Missing: that no longer chain exists, and that it does not depend on the map order; both are false (below). *)
Theorem C63_depth_partial : forall o xs, any_gorder o -> all_careful xs g_empty -> g_nodes (apply_ops xs g_empty) <> [] ->
  exists k, chain_of (apply_ops xs g_empty) k (max_depth o (apply_ops xs g_empty)).
Proof.
  intros o xs Ho Hc. apply max_depth_chain; [exact Ho|apply filed_ops, filed_empty|].
  apply (wf_keys _ (co_wf _ (ops_consistent xs _ empty_consistent Hc))).
Qed.
Print Assumptions C63_depth_partial.
(** In a graph without cycles the depth depends on the order in which dependencies are visited, and misses the longest chain. *)
Theorem C63_depth_refuted : exists o o' g k n, any_gorder o /\ any_gorder o' /\ consistent g /\ loop_free g /\
  max_depth o g <> max_depth o' g /\ chain_of g k n /\ max_depth o' g < n.
Proof.
  exists straight, reversed, diamond, (T "a"), 4. split; [apply straight_any|]. split; [apply reversed_any|].
  assert (consistent diamond) as C by (apply drawn_consistent; vm_compute; reflexivity). split; [exact C|].
  split; [apply (topo_exact straight diamond straight_any C); eexists; vm_compute; reflexivity|].
  assert (forall k d n, edge diamond k d -> chain_of diamond d n -> chain_of diamond k (S n)) as K.
  { intros k d n E H. apply (chain_more _ k d); [exact E|eapply edge_from, E|exact H]. }
  split; [vm_compute; discriminate|]. split; [|vm_compute; lia].
  apply (K _ (T "b")); [eexists; split; [vm_compute; reflexivity|cbn; auto]|].
  apply (K _ (T "c")); [eexists; split; [vm_compute; reflexivity|cbn; auto]|].
  apply (K _ (T "d")); [eexists; split; [vm_compute; reflexivity|cbn; auto]|].
  apply chain_one. vm_compute. auto.
Qed.
Print Assumptions C63_depth_refuted.
Example C63_example : any_gorder straight /\ carefulb (map bare ["a"; "b"; "c"] ++ joins [("a", "b"); ("b", "c")]) g_empty = true /\
  max_depth straight (drawn ["a"; "b"; "c"] [("a", "b"); ("b", "c")]) = 3.
Proof. split; [apply straight_any|]. split; vm_compute; reflexivity. Qed.

(** ** C64 *)
(** A reported conflict names two recorded requirements that no version satisfies together, among versions compared transitively.
    Missing: versions not compared transitively, and requirements that conflict only jointly; both are false (below). *)
Theorem C64_conflicts_partial : forall (U : version -> Prop) g n l, transitive_on U -> In (n, l) (detect_conflicts g) ->
  (forall r, In r l -> spec_in U r) ->
  exists a b, In a l /\ In b l /\ forall v, U v -> ~ (spec_allows a v /\ spec_allows b v).
Proof. exact conflicts_real. Qed.
Print Assumptions C64_conflicts_partial.
(** ">=1" and "<=1.0.1" are reported as conflicting though 1.0.0 satisfies both; "==1|==2", "==2|==3" and "==1|==3" are
    not reported though no version satisfies all three. *)
Definition g_list (g : graph) : list package_req := match g_reqs g with (_, l) :: _ => l | [] => [] end.
Definition asks (rs : list string) : graph := apply_ops (map (fun s => Require (mkPkgReq (T "p") (Some (T s)) false false)) rs) g_empty.
Lemma apart a b v : vcmp b a = Gt -> orderly a -> orderly b -> orderly v -> vcmp v a = Eq -> vcmp v b = Eq -> False.
Proof.
  intros H Oa Ob Ov H1 H2. apply (orderly_transitive b v a); auto; [|congruence]. rewrite vcmp_anti, H2. discriminate.
Qed.
Definition either (a b : string) : string := ("==" ++ a ++ "|==" ++ b)%string.
Lemma parsed_flag s r : parse_range s = Some r -> r_parsed r = true.
Proof. unfold parse_range. destruct (parse_range_str (trim s)); [|discriminate]. intros [= <-]. reflexivity. Qed.
Lemma two_points a b v : r_sets (R (either a b)) = [[BEq (V a)]; [BEq (V b)]] -> parse_range (T (either a b)) = Some (R (either a b)) ->
  T (either a b) <> [] -> r_subs (R (either a b)) = [] ->
  spec_allows (mkPkgReq (T "p") (Some (T (either a b))) false false) v -> vcmp v (V a) = Eq \/ vcmp v (V b) = Eq.
Proof.
  intros Hs Hp Hne Hu [H|(y & H & Hc)]; [contradiction|]. rewrite Hp in H. injection H as <-. destruct (R (either a b)) as [str sets p subs].
  cbn [r_sets r_subs] in Hs, Hu. subst. pose proof (parsed_flag _ _ Hp) as Hf. cbn [r_parsed] in Hf. subst p. cbn in Hc.
  unfold veq in Hc. destruct (vcmp v (V a)); destruct (vcmp v (V b)); cbn in Hc; auto; discriminate.
Qed.
Theorem C64_conflicts_refuted :
  (exists g n a b v, In (n, [a; b]) (detect_conflicts g) /\ spec_allows a v /\ spec_allows b v) /\
  (exists g n l, detect_conflicts g = [] /\ In (n, l) (g_reqs g) /\ forall v, orderly v -> ~ forall r, In r l -> spec_allows r v).
Proof.
  split.
  - exists (asks [">=1"; "<=1.0.1"]), (T "p"), (mkPkgReq (T "p") (Some (T ">=1")) false false), (mkPkgReq (T "p") (Some (T "<=1.0.1")) false false), (V "1.0.0").
    split; [vm_compute; left; reflexivity|].
    split; right; [exists (R ">=1")|exists (R "<=1.0.1")]; split; vm_compute; reflexivity.
  - exists (asks [either "1" "2"; either "2" "3"; either "1" "3"]), (T "p"),
      (map (fun s => mkPkgReq (T "p") (Some (T s)) false false) [either "1" "2"; either "2" "3"; either "1" "3"]).
    split; [vm_compute; reflexivity|]. split; [vm_compute; left; reflexivity|]. intros v Ov H. cbn [map In] in H.
    pose proof (two_points "1" "2" v) as K1. pose proof (two_points "2" "3" v) as K2. pose proof (two_points "1" "3" v) as K3.
    do 4 (specialize (K1 ltac:(vm_compute; first [reflexivity|discriminate]))).
    do 4 (specialize (K2 ltac:(vm_compute; first [reflexivity|discriminate]))).
    do 4 (specialize (K3 ltac:(vm_compute; first [reflexivity|discriminate]))).
    specialize (K1 (H _ (or_introl eq_refl))). specialize (K2 (H _ (or_intror (or_introl eq_refl)))).
    specialize (K3 (H _ (or_intror (or_intror (or_introl eq_refl))))).
    assert (orderly (V "1")) as O1 by is_orderly. assert (orderly (V "2")) as O2 by is_orderly. assert (orderly (V "3")) as O3 by is_orderly.
    assert (forall x y, vcmp (V y) (V x) = Gt -> orderly (V x) -> orderly (V y) -> vcmp v (V x) = Eq -> vcmp v (V y) = Eq -> False) as A.
    { intros x y Hgt Hx Hy. apply apart; assumption. }
    pose proof (A "1" "2" ltac:(vm_compute; reflexivity) O1 O2) as A12. pose proof (A "1" "3" ltac:(vm_compute; reflexivity) O1 O3) as A13.
    pose proof (A "2" "3" ltac:(vm_compute; reflexivity) O2 O3) as A23. tauto.
Qed.
Print Assumptions C64_conflicts_refuted.
Example C64_example : transitive_on orderly /\ In (T "p", g_list (asks ["<2"; ">=3"])) (detect_conflicts (asks ["<2"; ">=3"])) /\
  (forall r, In r (g_list (asks ["<2"; ">=3"])) -> spec_in orderly r).
Proof.
  split; [exact orderly_transitive|]. split; [vm_compute; auto|]. intros r Hr s x Hs Hx.
  vm_compute in Hr. destruct Hr as [<-|[<-|[]]]; injection Hs as <-; vm_compute in Hx; injection Hx as <-;
    intros v (bs & b & Hbs & Hb & Hm); vm_compute in Hbs; destruct Hbs as [<-|[]]; destruct Hb as [<-|[]]; cbn in Hm; subst v; is_orderly.
Qed.

(** ** C65 *)
(** Packages whose names contain no dash get different keys unless name and version text agree.
    Missing: names with dashes, for which it is false (below). *)
Theorem C65_keys_partial : forall p q, ~ In "-"%char (p_name p) -> ~ In "-"%char (p_name q) -> pkg_key p = pkg_key q ->
  p_name p = p_name q /\ option_map v_str (p_version p) = option_map v_str (p_version q).
Proof. exact key_determines. Qed.
Print Assumptions C65_keys_partial.
(** The package "foo-1" without version replaces version 1 of "foo" in the graph. *)
Theorem C65_keys_refuted : exists p q g, p_name p <> p_name q /\ pkg_key p = pkg_key q /\
  g_nodes (snd (add_package q (snd (add_package p g)))) = [(pkg_key q, mkNode q [] [])].
Proof.
  exists (pkg "foo" "1" []), (mkPackage (T "foo-1") None [] [] None [] 0), g_empty.
  split; [discriminate|]. split; vm_compute; reflexivity.
Qed.
Print Assumptions C65_keys_refuted.
Example C65_example : ~ In "-"%char (p_name (pkg "foo" "1-2" [])) /\ pkg_key (pkg "foo" "1-2" []) = T "foo-1-2".
Proof. split; [|vm_compute; reflexivity]. vm_compute. intuition discriminate. Qed.

(** ** C66 *)
(** Applying a resolution that selects a version clears the conflict of that package, keeps every other one as it was,
    and removes exactly the packages it lists. *)
Theorem C66_resolution : forall name v ks xs n l,
  let g := apply_ops xs g_empty in
  In (n, l) (detect_conflicts (apply_resolution name (Some v) ks g)) <-> n <> name /\ In (n, l) (detect_conflicts g).
Proof. intros name v ks xs n l. apply resolution_conflicts. apply reqs_filed_ops, reqs_filed_empty. Qed.
Print Assumptions C66_resolution.
Theorem C66_removed : forall name v ks g x, consistent g -> is_node (apply_resolution name v ks g) x <-> is_node g x /\ ~ In x ks.
Proof. intros name v ks g x. apply resolution_nodes. Qed.
Print Assumptions C66_removed.
Example C66_example : detect_conflicts (asks ["<2"; ">=3"]) <> [] /\ detect_conflicts (apply_resolution (T "p") (Some (V "3")) [] (asks ["<2"; ">=3"])) = [] /\
  consistent diamond /\ is_node (apply_resolution (T "p") (Some (V "3")) [T "b"] diamond) (T "c").
Proof.
  split; [vm_compute; discriminate|]. split; [vm_compute; reflexivity|]. split; [apply drawn_consistent; vm_compute; reflexivity|]. vm_compute. auto.
Qed.
