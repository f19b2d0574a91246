(** Model of the dependency resolver.
    Source: crates/rez-next-solver/src/{dependency_resolver,resolution_state,solver}.rs (abbreviated DR, RS, SO).
    Not modelled: the statistics counters, [satisfied_requirements] (written, never read), the error texts, and the
    package cache of DR:22, which returns what the repositories returned before (the repositories are fixed here). *)
From Verif Require Import Base Version_model Range_model Requirement_model Maps Sorting Package_model Dfs.

(** ** Equality of requirements: the derived [PartialEq] of requirement/types.rs:9,38,49,60, with versions compared
    by [Version::eq] (version.rs:476-480) *)
Fixpoint list_eqb {A} (eqb : A -> A -> bool) (a b : list A) : bool :=
  match a, b with
  | [], [] => true
  | x :: a', y :: b' => eqb x y && list_eqb eqb a' b'
  | _, _ => false
  end.
(** requirement/types.rs:9, with the above *)
Definition opt_eqb {A} (eqb : A -> A -> bool) (a b : option A) : bool :=
  match a, b with Some x, Some y => eqb x y | None, None => true | _, _ => false end.
(** requirement/types.rs:9, with the above *)
Fixpoint c_eqb (a b : vconstraint) : bool :=
  match a, b with
  | CExact x, CExact y | CGt x, CGt y | CGe x, CGe y | CLt x, CLt y | CLe x, CLe y
  | CCompatible x, CCompatible y | CPrefix x, CPrefix y => veq x y
  | CRange x1 x2, CRange y1 y2 => veq x1 y1 && veq x2 y2
  | CMultiple xs, CMultiple ys | CAlternative xs, CAlternative ys =>
      (fix go xs ys := match xs, ys with
                       | [], [] => true
                       | x :: xs', y :: ys' => c_eqb x y && go xs' ys'
                       | _, _ => false
                       end) xs ys
  | CExclude xs, CExclude ys => list_eqb veq xs ys
  | CWildcard x, CWildcard y => text_eqb x y
  | CAny, CAny => true
  | _, _ => false
  end.
(** requirement/types.rs:9, with the above *)
Definition platform_eqb (a b : platform_cond) : bool :=
  text_eqb (pc_platform a) (pc_platform b) && opt_eqb text_eqb (pc_arch a) (pc_arch b) && Bool.eqb (pc_negate a) (pc_negate b).
(** requirement/types.rs:9, with the above *)
Definition env_eqb (a b : env_cond) : bool :=
  text_eqb (ec_var a) (ec_var b) && opt_eqb text_eqb (ec_expected a) (ec_expected b) && Bool.eqb (ec_negate a) (ec_negate b).
(** requirement/types.rs:9, with the above *)
Definition req_eqb (a b : requirement) : bool :=
  text_eqb (rq_name a) (rq_name b) && opt_eqb c_eqb (rq_constraint a) (rq_constraint b) &&
  Bool.eqb (rq_weak a) (rq_weak b) && Bool.eqb (rq_conflict a) (rq_conflict b) &&
  list_eqb platform_eqb (rq_platform a) (rq_platform b) && list_eqb env_eqb (rq_env a) (rq_env b) &&
  opt_eqb text_eqb (rq_namespace a) (rq_namespace b).
(** [Vec<Requirement>::contains] *)
Definition has_req (r : requirement) (l : list requirement) : bool := existsb (fun x => req_eqb x r) l.

(** ** State *)
(** SO:13-38 [SolverConfig], the fields the resolver reads *)
Record config := mkConfig { cf_prefer_latest : bool; cf_allow_prerelease : bool; cf_strict : bool }.
(** DR:42-58 [ResolvedPackageInfo] *)
Record resolved := mkResolved {
  rs_package : package;
  rs_variant : option nat;
  rs_requested : bool;
  rs_required_by : list text;
  rs_for : option requirement
}.
(** DR:42-58, with the above *)
Definition rs_name (x : resolved) : text := p_name (rs_package x).
(** RS:13-54 [ResolutionState]; a conflict record is the package name and the requirement in conflict (DR:84-95) *)
Record state := mkState {
  s_orig : list requirement;
  s_queue : list requirement;
  s_resolved : list resolved;
  s_failed : list requirement;
  s_conflicts : list (text * requirement);
  s_barred : list requirement;
  s_active : list (text * list requirement);
  s_reqs : list (text * list requirement);
  s_bars : list (text * list requirement);
  s_rejected : list (text * list version);
  s_deps : list (text * list text)
}.
(** the orders in which the hash maps are visited: [package_requirements] (RS:217), [package_conflict_requirements]
    (RS:224), the keys of [dep_graph] (RS:101) *)
Record order := mkOrder {
  o_reqs : list (text * list requirement) -> list (text * list requirement);
  o_bars : list (text * list requirement) -> list (text * list requirement);
  o_keys : list text -> list text
}.

(** RS:217, with the above *)
Definition set_queue q st := mkState (s_orig st) q (s_resolved st) (s_failed st) (s_conflicts st) (s_barred st)
  (s_active st) (s_reqs st) (s_bars st) (s_rejected st) (s_deps st).
(** RS:217, with the above *)
Definition set_failed f st := mkState (s_orig st) (s_queue st) (s_resolved st) f (s_conflicts st) (s_barred st)
  (s_active st) (s_reqs st) (s_bars st) (s_rejected st) (s_deps st).
(** RS:217, with the above *)
Definition set_conflicts c st := mkState (s_orig st) (s_queue st) (s_resolved st) (s_failed st) c (s_barred st)
  (s_active st) (s_reqs st) (s_bars st) (s_rejected st) (s_deps st).
(** RS:217, with the above *)
Definition set_rejected r st := mkState (s_orig st) (s_queue st) (s_resolved st) (s_failed st) (s_conflicts st) (s_barred st)
  (s_active st) (s_reqs st) (s_bars st) r (s_deps st).

(** RS:231-239 [insert_active_requirement] *)
Definition insert_active (m : list (text * list requirement)) (r : requirement) : list (text * list requirement) :=
  let rs := match aget (rq_name r) m with Some rs => rs | None => [] end in
  aput (rq_name r) (if has_req r rs then rs else rs ++ [r]) m.
(** RS:87-92 [record_dependency] *)
Definition record_dep (from to : text) (m : list (text * list text)) : list (text * list text) :=
  aput from (match aget from m with Some l => l | None => [] end ++ [to]) m.
(** RS:87-92, with the above *)
Definition positive (r : requirement) : bool := negb (rq_conflict r).
(** RS:202-229 [rebuild_constraints]: the three rebuilt fields *)
Definition rebuild_active (orig : list requirement) (pr : list (text * list requirement)) : list (text * list requirement) :=
  fold_left insert_active (filter positive orig ++ concat (map snd pr)) [].
(** RS:202-229, with the above *)
Definition rebuild_deps (pr : list (text * list requirement)) : list (text * list text) :=
  fold_left (fun m sr => fold_left (fun m r => record_dep (fst sr) (rq_name r) m) (snd sr) m) pr [].
(** RS:202-229, with the above *)
Definition rebuild_barred (orig : list requirement) (pc : list (text * list requirement)) : list requirement :=
  fold_left (fun l r => if has_req r l then l else l ++ [r]) (concat (map snd pc)) (filter rq_conflict orig).

(** RS:57-84 [ResolutionState::new] *)
Definition initial (reqs : list requirement) : state :=
  mkState reqs (filter positive reqs) [] [] [] (rebuild_barred reqs []) (rebuild_active reqs []) [] [] [] (rebuild_deps []).

(** RS:179-183 [is_requirement_active] *)
Definition is_active (active : list (text * list requirement)) (r : requirement) : bool :=
  match aget (rq_name r) active with Some rs => has_req r rs | None => false end.
(** RS:143-150 [get_next_requirement]: the requirement and the remaining queue *)
Fixpoint next_active (active : list (text * list requirement)) (q : list requirement) : option (requirement * list requirement) :=
  match q with
  | [] => None
  | r :: q' => if is_active active r then Some (r, q') else next_active active q'
  end.

(** names required non-weakly by a selected package, RS:268-269 *)
Definition hard_names (pr : list (text * list requirement)) (n : text) : list text :=
  match aget n pr with Some rs => map rq_name (filter (fun r => negb (rq_weak r)) rs) | None => [] end.
(** RS:259-265: names requested non-weakly.  The code collects them in a set; duplicates in the worklist change nothing. *)
Definition root_names (orig : list requirement) : list text :=
  map rq_name (filter (fun r => negb (rq_weak r) && positive r) orig).
(** RS:259-275: the names reachable from the requests; each step of the loop pops one name and each name is pushed
    at most once, so the fuel suffices (proved in Solver_proofs.v) *)
Definition needed (orig : list requirement) (pr : list (text * list requirement)) : list text :=
  reach (hard_names pr) (length orig + length (concat (map snd pr))) (root_names orig) (root_names orig).

(** RS:361-371 [add_resolved_package] *)
Fixpoint add_resolved (x : resolved) (l : list resolved) : list resolved :=
  match l with
  | [] => [x]
  | y :: l' => if text_eqb (rs_name y) (rs_name x) then x :: l' else y :: add_resolved x l'
  end.
(** RS:241-256 [requeue_active_requirements] *)
Definition requeue (orig : list requirement) (rs : list resolved) (pr : list (text * list requirement)) : list requirement :=
  filter positive orig ++
  concat (map (fun x => match aget (rs_name x) pr with Some l => l | None => [] end) rs).
(** RS:157-177 [set_package_requirements] with RS:258-283 [prune_orphaned_packages] *)
Definition set_requirements (o : order) (name : text) (reqs bars : list requirement) (st : state) : state :=
  let pr := aput name reqs (s_reqs st) in
  let pc := aput name bars (s_bars st) in
  let keep := fun n => mem_text n (needed (s_orig st) pr) in
  let rs := filter (fun x => keep (rs_name x)) (s_resolved st) in
  let pr := akeep keep pr in
  let pc := akeep keep pc in
  let active := rebuild_active (s_orig st) (o_reqs o pr) in
  mkState (s_orig st) (requeue (s_orig st) rs pr) rs (filter (is_active active) (s_failed st)) (s_conflicts st)
    (rebuild_barred (s_orig st) (o_bars o pc)) active pr pc (s_rejected st) (rebuild_deps (o_reqs o pr)).
(** DR:246-248, 262-264, 378-379: [add_resolved_package] followed by [set_package_requirements] *)
Definition install (o : order) (name : text) (x : resolved) (reqs bars : list requirement) (st : state) : state :=
  set_requirements o name reqs bars
    (mkState (s_orig st) (s_queue st) (add_resolved x (s_resolved st)) (s_failed st) (s_conflicts st) (s_barred st)
       (s_active st) (s_reqs st) (s_bars st) (s_rejected st) (s_deps st)).

(** membership in a [HashSet<Version>]: equal hash (the text, version.rs:496-500) and [Version::eq]; different texts
    are taken to have different hashes *)
Definition in_versions (v : version) (l : list version) : bool :=
  existsb (fun x => text_eqb (v_str x) (v_str v) && veq x v) l.
(** RS:185-192 [reject_package] *)
Definition reject (p : package) (m : list (text * list version)) : list (text * list version) :=
  match p_version p with
  | Some v =>
      let l := match aget (p_name p) m with Some l => l | None => [] end in
      aput (p_name p) (if in_versions v l then l else v :: l) m
  | None => m
  end.
(** RS:194-200 [is_package_rejected] *)
Definition is_rejected (p : package) (m : list (text * list version)) : bool :=
  match p_version p with
  | Some v => match aget (p_name p) m with Some l => in_versions v l | None => false end
  | None => false
  end.

(** name equal and version satisfying; a package without version satisfies everything.  RS:306-313, 347-353 *)
Definition fits_b (r : requirement) (p : package) : bool :=
  text_eqb (p_name p) (rq_name r) && match p_version p with Some v => r_satisfied r v | None => true end.
(** RS:302-314 [find_satisfying_package] *)
Definition find_satisfying (rs : list resolved) (r : requirement) : option resolved :=
  find (fun x => fits_b r (rs_package x)) rs.
(** RS:341-359 [check_explicit_conflicts] *)
Definition explicit_conflict (barred : list requirement) (p : package) : option requirement :=
  find (fun c => fits_b c p) barred.
(** RS:316-339 [check_conflicts] *)
Definition check_conflicts (st : state) (p : package) : option requirement :=
  match explicit_conflict (s_barred st) p with
  | Some c => Some c
  | None =>
      match p_version p, aget (p_name p) (s_active st) with
      | Some v, Some rs => find (fun r => negb (r_satisfied r v)) rs
      | _, _ => None
      end
  end.

(** ** Candidates *)
(** DR:435-440: versions descending, packages without version first *)
Definition latest_first (a b : package) : comparison :=
  match p_version b, p_version a with
  | Some bv, Some av => vcmp bv av
  | Some _, None => Lt
  | None, Some _ => Gt
  | None, None => Eq
  end.
(** DR:443-448: versions ascending, packages without version last *)
Definition oldest_first (a b : package) : comparison :=
  match p_version a, p_version b with
  | Some av, Some bv => vcmp av bv
  | Some _, None => Lt
  | None, Some _ => Gt
  | None, None => Eq
  end.
(** DR:417-429 the filter *)
Definition candidate_ok (cfg : config) (r : requirement) (p : package) : bool :=
  match p_version p with
  | Some v => if negb (cf_allow_prerelease cfg) && is_prerelease v then false else r_satisfied r v
  | None => true
  end.
(** DR:412-452 [filter_and_sort_candidates] *)
Definition candidates (cfg : config) (r : requirement) (ps : list package) : list package :=
  sort_by (if cf_prefer_latest cfg then latest_first else oldest_first) (filter (candidate_ok cfg r) ps).

(** DR:617-624 [parse_variant_requirement]: conflict flag and requirement *)
Definition parse_dep (raw : text) : option (bool * requirement) :=
  let '(conflict, s) := match strip_prefix (T "!") raw with Some s => (true, s) | None => (false, raw) end in
  match parse_requirement s with Some r => Some (conflict, r) | None => None end.
(** DR:626-646 [get_effective_requires] *)
Definition effective_requires (p : package) (variant : option nat) : list text :=
  match variant with
  | Some i =>
      match nth_error (p_variants p) i with
      | Some vs => fold_left (fun l t => if mem_text t l then l else l ++ [t]) vs (p_requires p)
      | None => p_requires p
      end
  | None => p_requires p
  end.
(** DR:483-498 the dependency loop: dependencies and conflicts, or a parse error *)
Fixpoint split_deps (ts : list text) : option (list requirement * list requirement) :=
  match ts with
  | [] => Some ([], [])
  | t :: ts' =>
      match parse_dep t with
      | None => None
      | Some (conflict, r) =>
          match split_deps ts' with
          | None => None
          | Some (ds, cs) => if conflict then Some (ds, r :: cs) else Some (r :: ds, cs)
          end
      end
  end.

(** ** Variants *)
(** DR:572-591 [constraint_version_floor]; [Iterator::max] keeps the last of equal elements *)
Definition max_version (vs : list version) : option version :=
  fold_left (fun acc v => match acc with
                          | None => Some v
                          | Some a => Some (if is_gt (vcmp a v) then a else v)
                          end) vs None.
(** DR:572-591, with the above *)
Fixpoint constraint_floor (c : vconstraint) : option version :=
  match c with
  | CExact v | CGt v | CGe v | CCompatible v | CRange v _ | CPrefix v => Some v
  | CMultiple cs | CAlternative cs =>
      max_version (concat (map (fun c' => match constraint_floor c' with Some v => [v] | None => [] end) cs))
  | _ => None
  end.
(** DR:593-615 [variant_is_compatible] *)
Definition variant_compatible (rs : list resolved) (ts : list text) : bool :=
  forallb (fun t => match parse_dep t with
                    | None => false
                    | Some (conflict, r) =>
                        match conflict, find (fun x => text_eqb (rs_name x) (rq_name r)) rs with
                        | true, Some x => match p_version (rs_package x) with
                                          | Some v => negb (r_satisfied r v)
                                          | None => false
                                          end
                        | _, _ => true
                        end
                    end) ts.
(** DR:515-520 *)
Definition positive_deps (ts : list text) : list requirement :=
  concat (map (fun t => match parse_dep t with Some (false, r) => [r] | _ => [] end) ts).
(** the key of DR:561-567 *)
Record vkey := mkVkey { k_matches : nat; k_shared : nat; k_count : nat; k_floors : list (option version * text); k_index : nat }.
(** DR:561-567, with the above *)
Definition variant_key (st : state) (i : nat) (ts : list text) : vkey :=
  let ps := positive_deps ts in
  mkVkey
    (length (filter (fun r => existsb (fun x => text_eqb (rs_name x) (rq_name r) &&
                                match p_version (rs_package x) with Some v => r_satisfied r v | None => false end) (s_resolved st)) ps))
    (length (filter (fun r => existsb (fun o => text_eqb (rq_name o) (rq_name r)) (s_orig st)) ps))
    (length ps)
    (map (fun r => (match rq_constraint r with Some c => constraint_floor c | None => None end, rq_name r))
         (filter (fun r => existsb (fun x => text_eqb (rs_name x) (rq_name r)) (s_resolved st)) ps))
    i.
(** DR:561-567, with the above *)
Definition opt_version_cmp (a b : option version) : comparison :=
  match a, b with
  | None, None => Eq | None, Some _ => Lt | Some _, None => Gt
  | Some x, Some y => vcmp x y
  end.
(** DR:561-567, with the above *)
Fixpoint floors_cmp (a b : list (option version * text)) : comparison :=
  match a, b with
  | [], [] => Eq
  | [], _ :: _ => Lt
  | _ :: _, [] => Gt
  | (v, n) :: a', (w, m) :: b' =>
      match opt_version_cmp v w with
      | Eq => match text_cmp n m with Eq => floors_cmp a' b' | c => c end
      | c => c
      end
  end.
(** derived [Ord] of the key tuple, with [Reverse] on the count and the index *)
Definition vkey_cmp (a b : vkey) : comparison :=
  match Nat.compare (k_matches a) (k_matches b) with
  | Eq => match Nat.compare (k_shared a) (k_shared b) with
          | Eq => match Nat.compare (k_count b) (k_count a) with
                  | Eq => match floors_cmp (k_floors a) (k_floors b) with
                          | Eq => Nat.compare (k_index b) (k_index a)
                          | c => c
                          end
                  | c => c
                  end
          | c => c
          end
  | c => c
  end.
(** DR:512 *)
Fixpoint enumerate {A} (i : nat) (l : list A) : list (nat * A) :=
  match l with [] => [] | x :: l' => (i, x) :: enumerate (S i) l' end.
(** DR:504-570 [select_variant]; [max_by_key] keeps the last of equal elements *)
Definition select_variant (st : state) (p : package) : option nat :=
  let ok := filter (fun iv => variant_compatible (s_resolved st) (snd iv)) (enumerate 0 (p_variants p)) in
  match fold_left (fun acc iv => let k := variant_key st (fst iv) (snd iv) in
                                 match acc with
                                 | None => Some k
                                 | Some a => Some (if is_gt (vkey_cmp a k) then a else k)
                                 end) ok None with
  | Some k => Some (k_index k)
  | None => None
  end.

(** DR:455-501 [try_resolve_with_candidate], RS:373-377 [is_original_requirement] *)
Definition try_candidate (st : state) (p : package) (r : requirement)
  : option (resolved * list requirement * list requirement) :=
  let variant := select_variant st p in
  if negb (is_nil (p_variants p)) && match variant with None => true | Some _ => false end then None
  else match split_deps (effective_requires p variant) with
       | None => None
       | Some (ds, cs) =>
           Some (mkResolved p variant (existsb (fun o => text_eqb (rq_name o) (rq_name r)) (s_orig st)) [rq_name r] (Some r), ds, cs)
       end.

(** ** The loop *)
(** what the candidate loop of DR:224-252 leaves: conflicts recorded, the best-effort candidate, the selection *)
Record tried := mkTried {
  t_conflicts : list (text * requirement);
  t_best : option package;
  t_selected : option (resolved * list requirement * list requirement)
}.
(** DR:224-252, with the above *)
Fixpoint try_all (st : state) (r : requirement) (cs : list package) (best : option package) (conf : list (text * requirement)) : tried :=
  match cs with
  | [] => mkTried conf best None
  | c :: cs' =>
      if is_rejected c (s_rejected st) then try_all st r cs' best conf
      else
        let best := match best with
                    | Some b => Some b
                    | None => match explicit_conflict (s_barred st) c with None => Some c | Some _ => None end
                    end in
        match check_conflicts st c with
        | Some x => try_all st r cs' best (conf ++ [(p_name c, x)])
        | None =>
            match try_candidate st c r with
            | Some s => mkTried conf best (Some s)
            | None => try_all st r cs' best conf
            end
        end
  end.

(** DR:224-252, with the above *)
Definition present (rs : list resolved) (n : text) : bool := existsb (fun x => text_eqb (rs_name x) n) rs.

(** DR:291-325: the packages that contributed a requirement on the failed name: first those that contributed the
    failed one, then those whose requirement no candidate meets, then the others *)
Definition sources (st : state) (failed : requirement) (targets : list package) : list text :=
  let about x := match aget (rs_name x) (s_reqs st) with
                 | Some l => filter (fun r => text_eqb (rq_name r) (rq_name failed)) l
                 | None => []
                 end in
  let exact x := has_req failed (about x) in
  let hopeless x := existsb (fun r => negb (existsb (fun c => match p_version c with Some v => r_satisfied r v | None => false end) targets)) (about x) in
  let named := filter (fun x => negb (is_nil (about x))) (s_resolved st) in
  map rs_name (filter exact named) ++
  map rs_name (filter (fun x => negb (exact x) && hopeless x) named) ++
  map rs_name (filter (fun x => negb (exact x) && negb (hopeless x)) named).

(** DR:357-383: the replacement loop of [backtrack_package] *)
Fixpoint replace_with (st : state) (current : resolved) (rs : list requirement) (primary : requirement) (cs : list package)
  : option (resolved * list requirement * list requirement) :=
  match cs with
  | [] => None
  | c :: cs' =>
      if is_rejected c (s_rejected st) || opt_eqb veq (p_version c) (p_version (rs_package current)) ||
         match p_version c with Some v => existsb (fun r => negb (r_satisfied r v)) rs | None => false end ||
         match explicit_conflict (s_barred st) c with Some _ => true | None => false end
      then replace_with st current rs primary cs'
      else match try_candidate st c (match rs_for current with Some r => r | None => primary end) with
           | Some s => Some s
           | None => replace_with st current rs primary cs'
           end
  end.

(** a step of the resolver fails with a repository error, or yields a state *)
Inductive step_result := Broken | Next (st : state) | Stop (st : state).

Section Resolver.
(** the repositories: [find_packages] per name, [None] when it fails *)
Context (repo : text -> option (list package)) (cfg : config).

(** DR:389-409 [find_candidate_packages] *)
Definition find_candidates (r : requirement) : option (list package) :=
  match repo (rq_name r) with Some ps => Some (candidates cfg r ps) | None => None end.

(** DR:335-386 [backtrack_package]: [None] on a repository error; otherwise whether a replacement was installed *)
Definition backtrack_package (o : order) (name : text) (st : state) : option (bool * state) :=
  match find (fun x => text_eqb (rs_name x) name) (s_resolved st), aget name (s_active st) with
  | Some current, Some ((primary :: _) as rs) =>
      let st := set_rejected (reject (rs_package current) (s_rejected st)) st in
      match find_candidates primary with
      | None => None
      | Some cs =>
          match replace_with st current rs primary cs with
          | Some (x, ds, bs) => Some (true, install o name x ds bs st)
          | None => Some (false, st)
          end
      end
  | _, _ => Some (false, st)
  end.
(** DR:326-332 *)
Fixpoint backtrack_first (o : order) (names : list text) (st : state) : option (bool * state) :=
  match names with
  | [] => Some (false, st)
  | n :: ns =>
      match backtrack_package o n st with
      | None => None
      | Some (true, st') => Some (true, st')
      | Some (false, st') => backtrack_first o ns st'
      end
  end.

(** DR:191-280: one round of the loop.  [o] gives the hash map orders of the round; a round rebuilds the maps at
    most once. *)
Definition step (o : order) (st : state) : step_result :=
  match next_active (s_active st) (s_queue st) with
  | None => Stop (set_queue [] st)
  | Some (r, q) =>
      let st := set_queue q st in
      match find_satisfying (s_resolved st) r with
      | Some _ => Next st
      | None =>
          if rq_weak r && negb (present (s_resolved st) (rq_name r)) then Next st
          else
            match find_candidates r with
            | None => Broken
            | Some [] => Next (set_failed (s_failed st ++ [r]) st)
            | Some cs =>
                let t := try_all st r cs None [] in
                let st := set_conflicts (s_conflicts st ++ t_conflicts t) st in
                let fallback := if negb (cf_strict cfg) && negb (present (s_resolved st) (rq_name r))
                                then match t_best t with Some c => try_candidate st c r | None => None end
                                else None in
                match t_selected t, fallback with
                | Some (x, ds, bs), _ | None, Some (x, ds, bs) => Next (install o (rs_name x) x ds bs st)
                | None, None =>
                    if cf_strict cfg then
                      match backtrack_first o (sources st r cs) st with
                      | None => Broken
                      | Some (true, st') => Next st'
                      | Some (false, st') => Next (set_failed (s_failed st' ++ [r]) st')
                      end
                    else Next (set_failed (s_failed st ++ [r]) st)
                end
            end
      end
  end.

(** DR:186-283 [resolve_recursive]; [ords] gives the hash map orders of each round; [None]: not finished within [fuel] *)
Inductive loop_result := Unfinished (st : state) | LBroken | LDone (st : state).
(** DR:186-283, with the above *)
Fixpoint loop (ords : nat -> order) (n fuel : nat) (st : state) : loop_result :=
  match fuel with
  | O => Unfinished st
  | S f => match step (ords n) st with
           | Broken => LBroken
           | Stop st' => LDone st'
           | Next st' => loop ords (S n) f st'
           end
  end.

(** RS:96-141 [detect_cycle] *)
Definition dep_edges (deps : list (text * list text)) (n : text) : list text :=
  match aget n deps with Some l => l | None => [] end.
(** RS:96-141, with the above *)
Definition dep_nodes (deps : list (text * list text)) : list text := akeys deps ++ concat (map snd deps).
(** RS:96-141, with the above *)
Definition detect_cycle (o : order) (deps : list (text * list text)) : found :=
  search (dep_edges deps) (length (dep_nodes deps)) (o_keys o (akeys deps)) [].

(** DR:127-183 [resolve] *)
Inductive outcome :=
| Running                                        (* not finished within the fuel *)
| RepoError                                      (* a repository failed *)
| CycleError (c : list text)                     (* DR:140-145 *)
| StrictError (failed : list requirement)        (* DR:169-175 *)
| Resolved (rs : list resolved) (failed : list requirement) (conflicts : list (text * requirement)).
(** DR:127-183, with the above *)
Definition resolve (ords : nat -> order) (o : order) (fuel : nat) (reqs : list requirement) : outcome :=
  match loop ords 0 fuel (initial reqs) with
  | Unfinished _ => Running
  | LBroken => RepoError
  | LDone st =>
      match detect_cycle o (s_deps st) with
      | Cycle c => CycleError c
      | _ =>
          let failed := filter (fun r => is_active (s_active st) r &&
                                         match find_satisfying (s_resolved st) r with None => true | Some _ => false end) (s_failed st) in
          if cf_strict cfg && negb (is_nil failed) then StrictError failed
          else Resolved (s_resolved st) failed (s_conflicts st)
      end
  end.
End Resolver.

(** SO:204-248 [DependencySolver::resolve]: constraints, excludes, platform and arch of the request are not used *)
Record solver_request := mkRequest {
  rqs_requirements : list package_req; rqs_constraints : list package_req; rqs_excludes : list text;
  rqs_platform : option text; rqs_arch : option text }.
(** SO:204-248, with the above *)
Definition solver_resolve (repo : option (text -> option (list package))) (cfg : config) (ords : nat -> order) (o : order) (fuel : nat)
  (q : solver_request) : outcome :=
  match repo with
  | Some repo => resolve repo cfg ords o fuel (map to_solver_requirement (rqs_requirements q))
  | None => Resolved [] [] []
  end.
