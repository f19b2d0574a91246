(** Model of the package search, of plugins and reverse dependencies found by walking directories, and of the depends command.
    Sources: crates/rez-next-search/src/searcher.rs (SE), filter.rs (SF), result.rs (ST);
    crates/rez-next-repository/src/package_search.rs (PS); src/cli/commands/depends.rs (DE).
    Simplifications: texts are ASCII; the regular expression library is a parameter; directories do not change during a call; entries that
    are not directories are left out of the listings; the counters of a result set are left out. *)
From Verif Require Import Base Maps Sorting Version_model Range_model Package_model Repo_model Env_model.

(** ** The searcher *)
(** SF:5-15 [FilterMode] *)
Inductive fmode := FExact | FPrefix | FContains | FRegex.
(** SF:18-30 [SearchFilter], SE:11-32: the options that are read; the scope only matters when it is the latest version *)
Record soptions := mkSoptions { so_pattern : text; so_mode : fmode; so_range : option text; so_limit : nat; so_latest : bool }.
(** ST:7-16 [SearchResult] *)
Record sresult := mkSresult { sr_name : text; sr_versions : list text; sr_repo : text; sr_latest : option text }.
(** ST:20: the last of the versions *)
Definition last_of (l : list text) : option text := match rev l with v :: _ => Some v | [] => None end.
(** ST:19-27 [SearchResult::new] *)
Definition new_result (n : text) (vs : list text) (repo : text) : sresult := mkSresult n vs repo (last_of vs).

Section Search.
(** SF:69: a regular expression, if it compiles, and the texts it matches *)
Variable re : text -> option (text -> bool).
(** SF:59-73 [matches_name] *)
Definition matches_name (o : soptions) (n : text) : bool :=
  if is_nil (so_pattern o) then true
  else
    let p := map to_lower (so_pattern o) in
    let t := map to_lower n in
    match so_mode o with
    | FExact => text_eqb t p
    | FPrefix => starts_with p t
    | FContains => contains_text p t
    | FRegex => match re (so_pattern o) with Some f => f n | None => false end
    end.
(** SE:114-121: a package is passed over if its version is outside the range; a range that does not parse is ignored *)
Definition outside (o : soptions) (p : package) : bool :=
  match so_range o, p_version p with
  | Some t, Some v => match parse_range t with Some r => negb (contains r v) | None => false end
  | _, _ => false
  end.
(** SE:123-128 *)
Definition version_text (p : package) : text := match p_version p with Some v => v_str v | None => T "unknown" end.
(** SE:105-133: one package *)
Definition add_package (o : soptions) (m : list (text * list text)) (p : package) : list (text * list text) :=
  if negb (matches_name o (p_name p)) then m
  else if outside o p then m
  else aput (p_name p) (match aget (p_name p) m with Some l => l | None => [] end ++ [version_text p]) m.
(** SE:138-147: the result for a family *)
Definition family_entry (o : soptions) (repo : text) (e : text * list text) : sresult :=
  let vs := dedup (sort_by text_cmp (snd e)) in
  if so_latest o then new_result (fst e) (match last_of vs with Some v => [v] | None => [] end) repo else new_result (fst e) vs repo.
(** SE:137-155: the families of a repository are added until the limit is reached; the flag tells that it was *)
Fixpoint add_families (o : soptions) (repo : text) (l : list (text * list text)) (acc : list sresult) : bool * list sresult :=
  match l with
  | [] => (false, acc)
  | e :: l' =>
    let acc := acc ++ [family_entry o repo e] in
    if negb (Nat.eqb (so_limit o) 0) && Nat.leb (so_limit o) (length acc) then (true, acc) else add_families o repo l' acc
  end.
(** SE:85-156: the repositories, each with its packages; [ord] is the order of the map of the repository in that place *)
Fixpoint add_repos (ord : nat -> list (text * list text) -> list (text * list text)) (o : soptions) (i : nat) (rs : list (text * list package)) (acc : list sresult) : bool * list sresult :=
  match rs with
  | [] => (false, acc)
  | (repo, ps) :: rs' =>
    match add_families o repo (ord i (fold_left (add_package o) ps [])) acc with
    | (true, acc') => (true, acc')
    | (false, acc') => add_repos ord o (S i) rs' acc'
    end
  end.
(** SE:158-160: the results are sorted unless the limit ended the search *)
Definition search_in (ord : nat -> list (text * list text) -> list (text * list text)) (o : soptions) (rs : list (text * list package)) : list sresult :=
  match add_repos ord o 0 rs [] with
  | (true, acc) => acc
  | (false, acc) => sort_by (fun a b => text_cmp (sr_name a) (sr_name b)) acc
  end.
(** SE:86-100: what the searcher sees of a repository: the answer to a question for the empty name; a repository that fails is passed over.
    The list has the repositories that exist. *)
Definition all_packages (root : rdir) : list package :=
  match find_all [] (fresh [root]) with (Ok l, _) => l | (Err, _) => [] end.
(** SE:72-161 [search] *)
Definition search (ord : nat -> list (text * list text) -> list (text * list text)) (o : soptions) (rs : list (text * rdir)) : list sresult :=
  search_in ord o (map (fun r => (fst r, all_packages (snd r))) rs).
End Search.

(** ** Plugins and reverse dependencies *)
(** PS:118-143, 277-292: the fields read of a package *)
Record spack := mkSpack { sk_requires : list text; sk_build : list text; sk_plugin_for : list text }.
(** PS:77-100, 110-130: a search path: its families, each with its version directories in the order of the listing; a version is [None]
    if there is no descriptor or it does not load *)
Definition families : Type := list (text * list (option spack)).
(** PS:109-133, 269-298: only the first directory is looked at *)
Definition first_version (vs : list (option spack)) (f : spack -> bool) : bool :=
  match vs with Some p :: _ => f p | _ => false end.
(** PS:108-133 [is_plugin_for] *)
Definition is_plugin_for (target : text) (vs : list (option spack)) : bool := first_version vs (fun p => mem_text target (sk_plugin_for p)).
(** PS:263-301 [package_depends_on] *)
Definition package_depends_on (target : text) (build : bool) (vs : list (option spack)) : bool :=
  first_version vs (fun p => existsb (contains_text target) (sk_requires p) || (build && existsb (contains_text target) (sk_build p))).
(** PS:68-101, 223-256: the families of all paths that pass a test, each once *)
Definition pick (f : list (option spack) -> bool) (paths : list families) : list text :=
  fold_left (fun acc e => if mem_text (fst e) acc then acc else if f (snd e) then acc ++ [fst e] else acc) (concat paths) [].
(** PS:65-105 [get_plugins] *)
Definition get_plugins (target : text) (paths : list families) : list text := sort_by text_cmp (pick (is_plugin_for target) paths).
(** PS:218-260 [find_dependents] *)
Definition find_dependents (build : bool) (paths : list families) (target : text) : list text := sort_by text_cmp (pick (package_depends_on target build) paths).

(** PS:192-205: the state of the walk: the next layer, the packages seen, the graph *)
Definition wstate : Type := list text * list text * list (text * list text).
(** PS:196-204: one dependent of [x] *)
Definition visit (x : text) (s : wstate) (d : text) : wstate :=
  let '(next, seen, graph) := s in
  if mem_text d seen then s else (next ++ [d], d :: seen, aput x (match aget x graph with Some l => l | None => [] end ++ [d]) graph).
(** PS:192-205: the packages of one layer *)
Definition expand (deps : text -> list text) (layer : list text) (s : wstate) : wstate :=
  fold_left (fun s x => fold_left (visit x) (deps x) s) layer s.
(** PS:189-212: the layers; the fuel bounds the rounds and [None] says that it ran out *)
Fixpoint rounds (fuel : nat) (deps : text -> list text) (depth : option nat) (i : nat) (current seen : list text) (graph : list (text * list text)) (layers : list (list text))
  : option (list (list text) * list (text * list text)) :=
  if is_nil current || match depth with Some d => Nat.leb d i | None => false end then Some (layers, graph)
  else
    match fuel with
    | 0 => None
    | S f =>
      let '(next, seen', graph') := expand deps current ([], seen, graph) in
      rounds f deps depth (S i) next seen' graph' (if is_nil next then layers else layers ++ [next])
    end.
(** PS:168-215 [get_reverse_dependency_tree]; there are no more rounds than families, plus one *)
Definition reverse_tree (target : text) (depth : option nat) (paths : list families) (build : bool) : option (list (list text) * list (text * list text)) :=
  rounds (S (length (concat paths))) (find_dependents build paths) depth 0 [target] [target] [] [[target]].

(** ** The depends command *)
(** DE:266-300: the packages that name the target as a whole requirement; the two switches and the build requirements work alike and are
    left out *)
Definition dependents_among (target : text) (ps : list package) : list text := map p_name (filter (fun p => mem_text target (p_requires p)) ps).
(** DE:255-264 [find_package_dependents]: the packages are the answer to a question for the empty name *)
Definition find_package_dependents (target : text) (m : manager) : answer (list text) * manager :=
  match find_all [] m with (Ok l, m') => (Ok (dependents_among target l), m') | (Err, m') => (Err, m') end.
(** DE:88-95: a package is noted at a depth, once *)
Fixpoint note_at (depth : nat) (d : text) (levels : list (list text)) : list (list text) :=
  match depth, levels with
  | 0, [] => [[d]]
  | 0, l :: ls => (if mem_text d l then l else l ++ [d]) :: ls
  | S k, [] => [] :: note_at k d []
  | S k, l :: ls => l :: note_at k d ls
  end.
(** DE:242-248: the dependents of a package; those seen are passed over *)
Definition enqueue (depth : nat) (s : list (text * nat) * list text * list (list text)) (d : text) : list (text * nat) * list text * list (list text) :=
  let '(queue, seen, levels) := s in
  if mem_text d seen then s else (queue ++ [(d, S depth)], d :: seen, note_at (S depth) d levels).
(** DE:221-249: the queue, with the search for dependents as an argument; the fuel bounds the packages taken from it and [None] says that it ran out *)
Fixpoint dequeue (find : text -> manager -> answer (list text) * manager) (fuel : nat) (max : option nat) (queue : list (text * nat)) (seen : list text) (levels : list (list text)) (m : manager)
  : option (answer (list (list text)) * manager) :=
  match queue with
  | [] => Some (Ok levels, m)
  | (x, depth) :: rest =>
    match fuel with
    | 0 => None
    | S f =>
      if match max with Some d => Nat.leb d depth | None => false end then dequeue find f max rest seen levels m
      else
        match find x m with
        | (Err, m') => Some (Err, m')
        | (Ok ds, m') => let '(q, s, l) := fold_left (enqueue depth) ds (rest, seen, levels) in dequeue find f max q s l m'
        end
    end
  end.
(** DE:201-252 [build_reverse_dependency_tree]: the levels that are printed by 335-357 *)
Definition depends (fuel : nat) (target : text) (max : option nat) (roots : list rdir) : option (answer (list (list text)) * manager) :=
  dequeue find_package_dependents fuel max [(target, 0)] [target] [] (fresh roots).
