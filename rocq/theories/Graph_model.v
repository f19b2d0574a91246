(** Model of the dependency graph.
    Source: crates/rez-next-solver/src/graph.rs (abbreviated GR).
    Hash sets are lists without duplicates; the order in which a hash map or set is visited is an explicit argument.
    Not modelled: node and graph metadata, the constraint list (written and counted, never read), error texts. *)
From Verif Require Import Base Version_model Range_model Requirement_model Maps Sorting Package_model Dfs.

(** GR:11-20 [GraphNode] *)
Record node := mkNode { n_package : package; n_deps : list text; n_dependents : list text }.
(** GR:103-116 [DependencyGraph] *)
Record graph := mkGraph { g_nodes : list (text * node); g_reqs : list (text * list package_req); g_excluded : list text }.
(** GR:119-127 [new] *)
Definition g_empty : graph := mkGraph [] [] [].
(** GR:34-39 [key], GR:154-157 *)
Definition pkg_key (p : package) : text :=
  match p_version p with Some v => p_name p ++ T "-" ++ v_str v | None => p_name p end.
(** GR:34-39, with the above *)
Definition set_nodes (ns : list (text * node)) (g : graph) : graph := mkGraph ns (g_reqs g) (g_excluded g).

(** [HashSet::insert], [HashSet::remove] *)
Definition set_add (x : text) (l : list text) : list text := if mem_text x l then l else l ++ [x].
(** GR:42-59: [HashSet::remove] as used there *)
Definition set_del (x : text) (l : list text) : list text := filter (fun y => negb (text_eqb x y)) l.
(** GR:42-59: the four edge edits of a node *)
Definition add_dep (k : text) (n : node) := mkNode (n_package n) (set_add k (n_deps n)) (n_dependents n).
(** GR:42-59, with the above *)
Definition add_dependent (k : text) (n : node) := mkNode (n_package n) (n_deps n) (set_add k (n_dependents n)).
(** GR:42-59, with the above *)
Definition del_dep (k : text) (n : node) := mkNode (n_package n) (set_del k (n_deps n)) (n_dependents n).
(** GR:42-59, with the above *)
Definition del_dependent (k : text) (n : node) := mkNode (n_package n) (n_deps n) (set_del k (n_dependents n)).
(** [if let Some(n) = self.nodes.get_mut(k) { f(n) }] *)
Definition update (k : text) (f : node -> node) (ns : list (text * node)) : list (text * node) :=
  match aget k ns with Some n => aput k (f n) ns | None => ns end.

(** GR:153-171 [add_package]; the flag tells whether the call succeeds *)
Definition add_package (p : package) (g : graph) : bool * graph :=
  if mem_text (p_name p) (g_excluded g) then (false, g)
  else (true, set_nodes (aput (pkg_key p) (mkNode p [] []) (g_nodes g)) g).
(** GR:174-181 [add_requirement] *)
Definition add_requirement (r : package_req) (g : graph) : graph :=
  mkGraph (g_nodes g) (aput (pr_name r) (match aget (pr_name r) (g_reqs g) with Some l => l | None => [] end ++ [r]) (g_reqs g)) (g_excluded g).
(** GR:190-193 [add_exclusion] *)
Definition add_exclusion (n : text) (g : graph) : graph := mkGraph (g_nodes g) (g_reqs g) (set_add n (g_excluded g)).
(** GR:196-222 [add_dependency_edge] *)
Definition add_edge (from to : text) (g : graph) : bool * graph :=
  match aget from (g_nodes g) with
  | None => (false, g)
  | Some n =>
      let ns := aput from (add_dep to n) (g_nodes g) in
      match aget to ns with
      | None => (false, set_nodes ns g)
      | Some m => (true, set_nodes (aput to (add_dependent from m) ns) g)
      end
  end.
(** GR:225-242 [remove_package] *)
Definition remove_package (k : text) (g : graph) : graph :=
  match aget k (g_nodes g) with
  | None => g
  | Some n =>
      let ns := adel k (g_nodes g) in
      let ns := fold_left (fun ns d => update d (del_dependent k) ns) (n_deps n) ns in
      let ns := fold_left (fun ns d => update d (del_dep k) ns) (n_dependents n) ns in
      set_nodes ns g
  end.

(** ** Conflicts *)
Definition spec_of (r : package_req) : text := match pr_spec r with Some s => s | None => [] end.
(** GR:597-614 [requirements_compatible] *)
Definition reqs_compatible (a b : package_req) : bool :=
  if is_nil (spec_of a) || is_nil (spec_of b) then true
  else match parse_range (spec_of a), parse_range (spec_of b) with
       | Some x, Some y => match intersect x y with Some _ => true | None => false end
       | _, _ => true
       end.
(** GR:254-260: some pair is incompatible *)
Fixpoint some_incompatible (l : list package_req) : bool :=
  match l with
  | [] => false
  | a :: l' => existsb (fun b => negb (reqs_compatible a b)) l' || some_incompatible l'
  end.
(** GR:245-277 [detect_conflicts]: the names and requirements reported ([length > 1] is implied by an incompatible pair) *)
Definition detect_conflicts (g : graph) : list (text * list package_req) :=
  filter (fun nr => some_incompatible (snd nr)) (g_reqs g).
(** GR:327-350 [apply_conflict_resolution], with [PackageRequirement::with_version] (package/requirement.rs:51-58) *)
Definition apply_resolution (name : text) (selected : option version) (modified : list text) (g : graph) : graph :=
  let g := fold_left (fun g k => remove_package k g) modified g in
  match aget name (g_reqs g), selected with
  | Some _, Some v => mkGraph (g_nodes g) (aput name [mkPkgReq name (Some (v_str v)) false false] (g_reqs g)) (g_excluded g)
  | _, _ => g
  end.

(** ** Iteration orders: the keys of the node map, and the dependency set of each node *)
Record gorder := mkGOrder { go_keys : list text -> list text; go_deps : text -> list text -> list text }.
(** GR:506-543: the dependencies of a node in the order of its set *)
Definition deps_of (o : gorder) (g : graph) (k : text) : list text :=
  match aget k (g_nodes g) with Some n => go_deps o k (n_deps n) | None => [] end.

(** ** Topological sort, GR:367-409 *)
Inductive topo_result := Sorted (l : list text) | Cyclic | Underflow | Starved.
(** GR:391-398: lowering the in-degrees; [None]: [*degree -= 1] on zero (panics in a debug build) *)
Fixpoint relax (ds : list text) (deg : list (text * nat)) (queue : list text) : option (list (text * nat) * list text) :=
  match ds with
  | [] => Some (deg, queue)
  | d :: ds' =>
      match aget d deg with
      | None => relax ds' deg queue
      | Some O => None
      | Some (S k) => relax ds' (aput d k deg) (if Nat.eqb k 0 then queue ++ [d] else queue)
      end
  end.
(** GR:391-398, with the above *)
Fixpoint topo_loop (o : gorder) (g : graph) (fuel : nat) (queue : list text) (deg : list (text * nat)) (done : list text) : topo_result :=
  match queue with
  | [] => if Nat.eqb (length done) (length (g_nodes g)) then Sorted done else Cyclic
  | k :: q =>
      match fuel with
      | O => Starved
      | S f => match relax (deps_of o g k) deg q with
               | None => Underflow
               | Some (deg', q') => topo_loop o g f q' deg' (done ++ [k])
               end
      end
  end.
(** GR:391-398, with the above *)
Definition topo_sort (o : gorder) (g : graph) : topo_result :=
  let deg := map (fun kn => (fst kn, length (n_dependents (snd kn)))) (g_nodes g) in
  topo_loop o g (length (g_nodes g)) (filter (fun k => match aget k deg with Some O => true | _ => false end) (go_keys o (akeys deg))) deg [].
(** GR:353-364 [get_resolved_packages] *)
Definition resolved_packages (o : gorder) (g : graph) : option (list package) :=
  match topo_sort o g with
  | Sorted l => Some (concat (map (fun k => match aget k (g_nodes g) with Some n => [n_package n] | None => [] end) l))
  | _ => None
  end.

(** ** Cycle search, GR:488-543: colours and parents *)
Inductive color := Gray | Black.
(** GR:488-543, with the above *)
Definition color_of (k : text) (c : list (text * color)) : option color := aget k c.
(** GR:488-543, with the above *)
Inductive cyc_result := CFound (c : list text) | CNone (c : list (text * color)) (p : list (text * text)) | CPanic | COut.
(** GR:520-529: following the parents; [None] when a parent is missing ([unwrap]) or the fuel is used up *)
Fixpoint rebuild (fuel : nat) (parent : list (text * text)) (current target : text) (acc : list text) : option (list text) :=
  match fuel with
  | O => None
  | S f =>
      let acc := current :: acc in
      if text_eqb current target then Some acc
      else match aget current parent with None => None | Some p => rebuild f parent p target acc end
  end.
(** GR:520-529, with the above *)
Fixpoint dfs_cycle (g : text -> list text) (fuel : nat) (k : text) (c : list (text * color)) (p : list (text * text)) : cyc_result :=
  match fuel with
  | O => COut
  | S f =>
      (fix go (ds : list text) (c : list (text * color)) (p : list (text * text)) : cyc_result :=
         match ds with
         | [] => CNone (aput k Black c) p
         | d :: ds' =>
             match color_of d c with
             | Some Gray => match rebuild (length c) p k d [] with Some l => CFound l | None => CPanic end
             | None => match dfs_cycle g f d c (aput d k p) with
                       | CNone c' p' => go ds' c' p'
                       | r => r
                       end
             | Some Black => go ds' c p
             end
         end) (g k) (aput k Gray c) p
  end.
(** GR:520-529, with the above *)
Fixpoint find_from (g : text -> list text) (fuel : nat) (ks : list text) (c : list (text * color)) (p : list (text * text)) : cyc_result :=
  match ks with
  | [] => CNone c p
  | k :: ks' =>
      match color_of k c with
      | None => match dfs_cycle g fuel k c p with
                | CNone c' p' => find_from g fuel ks' c' p'
                | r => r
                end
      | Some _ => find_from g fuel ks' c p
      end
  end.
(** all names that occur: a bound on the recursion depth *)
Definition all_names (g : graph) : list text := akeys (g_nodes g) ++ concat (map (fun kn => n_deps (snd kn)) (g_nodes g)).
(** GR:488-503 [find_cycle] *)
Definition find_cycle (o : gorder) (g : graph) : cyc_result :=
  find_from (deps_of o g) (length (all_names g)) (go_keys o (akeys (g_nodes g))) [] [].

(** ** Reachability, GR:452-478 *)
Fixpoint dfs_reach (g : text -> list text) (fuel : nat) (k : text) (visited : list text) : list text :=
  match fuel with
  | O => visited
  | S f => fold_left (fun vis d => if mem_text d vis then vis else dfs_reach g f d (d :: vis)) (g k) visited
  end.
(** GR:452-478, with the above *)
Definition accessible (o : gorder) (g : graph) (k : text) : list text :=
  sort_by text_cmp (set_add k (dfs_reach (deps_of o g) (S (length (all_names g))) k [])).
(** GR:452-478, with the above *)
Definition accessibility (o : gorder) (g : graph) : list (text * list text) :=
  map (fun k => (k, accessible o g k)) (go_keys o (akeys (g_nodes g))).

(** ** Depth, GR:546-569 *)
Fixpoint depth_from (o : gorder) (g : graph) (fuel : nat) (k : text) (visited : list text) : nat * list text :=
  match fuel with
  | O => (0, visited)
  | S f =>
      if mem_text k visited then (0, visited)
      else match aget k (g_nodes g) with
           | None => (0, k :: visited)
           | Some n =>
               let '(m, vis) := fold_left (fun mv d => let '(d', vis') := depth_from o g f d (snd mv) in (Nat.max (fst mv) d', vis'))
                                  (go_deps o k (n_deps n)) (0, k :: visited) in
               (S m, vis)
           end
  end.
(** GR:412-422: [max_depth] of [get_stats]; the node is looked up by its package key *)
Definition max_depth (o : gorder) (g : graph) : nat :=
  fold_left (fun m kn => Nat.max m (fst (depth_from o g (S (length (all_names g))) (pkg_key (n_package (snd kn))) []))) (g_nodes g) 0.
