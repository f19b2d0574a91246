(** Model of the A* search for a resolution.
    Sources: crates/rez-next-solver/src/astar/astar_search.rs (AS), search_state.rs (SS), heuristics.rs (HE).
    Simplifications: the repositories do not change, so the answer for a name is fixed; costs are whole thousandths and are added without rounding;
    the order in which the heap gives out states follows from costs and heuristic, and is an arbitrary function [pick] of the open states; the hash of a state is
    an arbitrary function [digest] of the sequence of texts it is made from; the clock is an argument. Statistics and parent links are left out. *)
From Verif Require Import Base Maps Sorting Version_model Range_model Requirement_model Package_model.
Open Scope string_scope.
Open Scope list_scope.

(** SS:50-59 [ConflictType]: the two kinds that are made *)
Inductive ckind := CVersion | CCircular.
(** SS:63-90 [SearchState] *)
Record sstate := mkSstate { ss_resolved : list (text * package); ss_pending : list package_req; ss_conflicts : list (text * ckind); ss_cost : nat }.
(** SS:94-110 [new_initial] *)
Definition initial_state (rs : list package_req) : sstate := mkSstate [] rs [] 0.
(** SS:143-145 [is_goal] *)
Definition is_goal (s : sstate) : bool := is_nil (ss_pending s) && is_nil (ss_conflicts s).
(** SS:148-157 [is_valid] *)
Definition is_valid (s : sstate) : bool := forallb (fun c => match snd c with CCircular => false | CVersion => true end) (ss_conflicts s).
(** SS:178-213: the values fed to the hasher *)
Inductive token := TText (t : text) | TKind (k : ckind).
(** SS:178-213 [update_hash] *)
Definition key (s : sstate) : list token :=
  flat_map (fun n => TText n :: match aget n (ss_resolved s) with Some p => match p_version p with Some v => [TText (v_str v)] | None => [] end | None => [] end)
    (sort_by text_cmp (akeys (ss_resolved s))) ++
  map TText (sort_by text_cmp (map show_package_req (ss_pending s))) ++
  flat_map (fun c => [TText (fst c); TKind (snd c)]) (ss_conflicts s).

(** AS:193-199: the version of the package is outside the range of the requirement; a range that does not parse is ignored *)
Definition out_of_range (r : package_req) (p : package) : bool :=
  match pr_spec r, p_version p with
  | Some t, Some v => match parse_range t with Some g => negb (contains g v) | None => false end
  | _, _ => false
  end.
(** AS:191-207: the packages that are tried *)
Definition tried (pre : bool) (r : package_req) (p : package) : bool :=
  negb (out_of_range r p) && (pre || match p_version p with Some v => negb (is_prerelease v) | None => true end).
(** AS:261-266: the first part of a version text that is a number *)
Fixpoint first_number (l : list text) : N := match l with [] => 0%N | t :: r => match parse_u64 t with Some n => n | None => first_number r end end.
(** AS:254-273 [calculate_package_cost], in thousandths *)
Definition package_cost (p : package) : nat :=
  1000 + 100 * length (p_requires p) - match p_version p with Some v => N.to_nat (N.min (first_number (split_on "."%char (v_str v))) 100) | None => 0 end.
(** AS:229-241: the requirements of a package on packages that are not resolved; those that do not parse are left out *)
Definition new_requirements (s : sstate) (p : package) : list package_req :=
  flat_map (fun t => match parse_package_req t with Some r => if ahas (pr_name r) (ss_resolved s) then [] else [r] | None => [] end) (p_requires p).
(** AS:307-311, 316: the part of a requirement before the first dash *)
Definition before_dash (t : text) : text := match split_on "-"%char t with a :: _ => a | [] => t end.
(** AS:279-298: the conflicts of versions *)
Definition version_conflicts (s : sstate) : list (text * ckind) :=
  flat_map (fun r => match aget (pr_name r) (ss_resolved s) with Some p => if out_of_range r p then [(pr_name r, CVersion)] else [] | None => [] end) (ss_pending s).
(** AS:300-328: the circular dependencies *)
Definition circular_conflicts (s : sstate) : list (text * ckind) :=
  flat_map (fun r =>
    match aget (pr_name r) (ss_resolved s) with
    | Some p =>
      flat_map (fun t => match aget (before_dash t) (ss_resolved s) with
                         | Some d => if existsb (fun x => text_eqb (before_dash x) (pr_name r)) (p_requires d) then [(pr_name r, CCircular)] else []
                         | None => [] end) (p_requires p)
    | None => []
    end) (ss_pending s).
(** AS:221-251 [create_successor_state], SS:113-140 [new_from_parent], 171-175 [remove_requirement], AS:276-335 [detect_conflicts] *)
Definition successor (s : sstate) (r : package_req) (p : package) : sstate :=
  let s1 := mkSstate (aput (p_name p) p (ss_resolved s)) (filter (fun q => negb (text_eqb (pr_name q) (pr_name r))) (ss_pending s ++ new_requirements s p)) (ss_conflicts s) (ss_cost s + package_cost p) in
  mkSstate (ss_resolved s1) (ss_pending s1) (ss_conflicts s1 ++ version_conflicts s1 ++ circular_conflicts s1) (ss_cost s1).

(** AS:101-171: how a search ends; [FuelOut] is not an outcome of the code *)
Inductive outcome := Found (s : sstate) | NoSolution | Broken | TimeLimit | StateLimit | FuelOut.
Section Search.
(** AS:185-188: the answers of the repositories, [None] for an error *)
Variable repo : text -> option (list package).
(** AS:202 [allow_prerelease] *)
Variable pre : bool.
(** SS:212 the hasher *)
Variable digest : list token -> N.
(** AS:114: the state given out by the heap, and the others *)
Variable pick : list sstate -> option (sstate * list sstate).
(** AS:115: the time is over when the n-th state is given out *)
Variable late : nat -> bool.
(** AS:38 [max_states] *)
Variable max_states : nat.
(** AS:174-218 [generate_successors] *)
Definition successors (s : sstate) : option (list sstate) :=
  match ss_pending s with
  | [] => Some []
  | r :: _ => match repo (pr_name r) with Some ps => Some (map (successor s r) (filter (tried pre r) ps)) | None => None end
  end.
(** AS:127, 151: the hash of the state is in the closed set *)
Definition in_closed (closed : list N) (s : sstate) : bool := existsb (N.eqb (digest (key s))) closed.
(** AS:114-170: the loop; [i] counts the states given out and [explored] those that were looked at *)
Fixpoint run (fuel i explored : nat) (open : list sstate) (closed : list N) : outcome * (list sstate * list N) :=
  match fuel with
  | 0 => (FuelOut, (open, closed))
  | S f =>
    match pick open with
    | None => (NoSolution, (open, closed))
    | Some (s, rest) =>
      if late i then (TimeLimit, (rest, closed))
      else if Nat.leb max_states explored then (StateLimit, (rest, closed))
      else if in_closed closed s then run f (S i) explored rest closed
      else
        let closed := digest (key s) :: closed in
        if is_goal s then (Found s, (rest, closed))
        else if negb (is_valid s) then run f (S i) (S explored) rest closed
        else
          match successors s with
          | None => (Broken, (rest, closed))
          | Some l => run f (S i) (S explored) (rest ++ filter (fun t => negb (in_closed closed t)) l) closed
          end
    end
  end.
(** AS:101-171 [search] on what earlier searches left; AS:343-347 [clear] empties both *)
Definition search (fuel : nat) (rs : list package_req) (before : list sstate * list N) : outcome * (list sstate * list N) :=
  run fuel 0 0 (fst before ++ [initial_state rs]) (snd before).
End Search.
(** AS:353-358: the comparison, newest version first *)
Definition path_cmp (a b : package) : comparison :=
  match p_version b, p_version a with
  | Some x, Some y => vcmp x y
  | Some _, None => Lt
  | None, Some _ => Gt
  | None, None => text_cmp (p_name a) (p_name b)
  end.
(** AS:350-360 [reconstruct_path]; [ord] is the order of the map *)
Definition reconstruct (ord : list (text * package) -> list (text * package)) (s : sstate) : list package := sort_by path_cmp (map snd (ord (ss_resolved s))).
(** HE:83-86 [RemainingRequirementsHeuristic::calculate] with its default weight, in thousandths *)
Definition remaining (s : sstate) : nat := 1000 * length (ss_pending s).
(** HE:159-179 [estimate_dependency_depth]; the cache is never filled and the default limit of 10 is not reached *)
Definition depth_estimate (r : package_req) : nat :=
  let has w := contains_text (T w) (pr_name r) in
  if has "core" || has "base" then 1 else if has "plugin" || has "extension" then 3 else if has "app" || has "tool" then 5 else 2.
(** HE:183-192 [DependencyDepthHeuristic::calculate] with its default weight *)
Definition depth_cost (s : sstate) : nat := 500 * list_sum (map depth_estimate (ss_pending s)).
(** HE:215-253 [calculate_version_preference_cost] with the default settings, in thousandths and rounded down *)
Definition preference_cost (p : package) : nat :=
  match p_version p with
  | None => 1000
  | Some v =>
    let has w := contains_text (T w) (v_str v) in
    if has "alpha" || has "beta" || has "rc" || has "dev" || has "pre" then 5000
    else N.to_nat (1000 / (match split_on "."%char (v_str v) with t :: _ => match parse_u64 t with Some n => n | None => 0 end | [] => 0 end + 1))
  end.
(** HE:257-265 [VersionPreferenceHeuristic::calculate] with its default weight of a tenth *)
Definition preference (s : sstate) : nat := Nat.div (list_sum (map (fun e => preference_cost (snd e)) (ss_resolved s))) 10.
(** SS:262-291 [OrdByEstimatedCost], AS:114, 155-157: the heap gives out a state with the least sum of cost and estimate; here the first of them *)
Fixpoint least (f : sstate -> nat) (l : list sstate) : option (sstate * list sstate) :=
  match l with
  | [] => None
  | s :: r => match least f r with Some (t, q) => if Nat.leb (f s) (f t) then Some (s, r) else Some (t, s :: q) | None => Some (s, []) end
  end.
