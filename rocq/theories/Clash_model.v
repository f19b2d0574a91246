(** Model of the conflict resolver (crates/rez-next-solver/src/conflict.rs) and the collection of conflicts
    (crates/rez-next-solver/src/dependency_conflicts.rs).
    Simplifications: the cache of the resolver is left out because nothing is ever put into it; severity is left out
    because nothing reads it; the order of a map is a parameter. *)
From Verif Require Import Base Version_model Maps Requirement_model.
Open Scope string_scope.
Open Scope list_scope.

(** graph.rs:64-73 DependencyConflict *)
Record clash := mkClash { k_name : text; k_reqs : list package_req; k_sources : list text }.
(** the field strategy of a resolution: latest_wins, earliest_wins or find_compatible *)
Inductive how := LatestHow | EarliestHow | CompatibleHow.
(** graph.rs:87-97 ConflictResolution *)
Record resolution := mkResolution { r_name : text; r_selected : option version; r_how : how; r_modified : list text }.
(** solver.rs ConflictStrategy *)
Inductive strategy := LatestWins | EarliestWins | FailOnConflict | FindCompatible.

(** conflict.rs:74-77: the version of a requirement *)
Definition spec_version (r : package_req) : option version := match pr_spec r with Some s => parse_version s | None => None end.
(** conflict.rs:74-84 *)
Definition latest_of (rs : list package_req) : option version :=
  fold_left (fun acc r => match spec_version r with
    | Some v => match acc with Some c => match vcmp v c with Gt => Some v | _ => Some c end | None => Some v end
    | None => acc end) rs None.
(** conflict.rs:102-112 *)
Definition earliest_of (rs : list package_req) : option version :=
  fold_left (fun acc r => match spec_version r with
    | Some v => match acc with Some c => match vcmp v c with Lt => Some v | _ => Some c end | None => Some v end
    | None => acc end) rs None.
(** conflict.rs:137-144: the text of the specification is that of all others *)
Definition agrees (rs : list package_req) (s : text) : bool :=
  forallb (fun o => match pr_spec o with Some t => text_eqb t s || is_nil t | None => true end) rs.
(** conflict.rs:131-151 *)
Fixpoint candidate_of (all rs : list package_req) : option version :=
  match rs with
  | [] => None
  | r :: l => match pr_spec r with
              | Some s => match parse_version s with
                          | Some v => if agrees all s then Some v else candidate_of all l
                          | None => candidate_of all l
                          end
              | None => candidate_of all l
              end
  end.
(** conflict.rs:67-92 [resolve_latest_wins] *)
Definition latest_wins (c : clash) : resolution := mkResolution (k_name c) (latest_of (k_reqs c)) LatestHow (k_sources c).
(** conflict.rs:42-64, 67-167 [resolve_single_conflict]; None is the error *)
Definition resolve_one (s : strategy) (c : clash) : option resolution :=
  match s with
  | LatestWins => Some (latest_wins c)
  | EarliestWins => Some (mkResolution (k_name c) (earliest_of (k_reqs c)) EarliestHow (k_sources c))
  | FailOnConflict => None
  | FindCompatible => match candidate_of (k_reqs c) (k_reqs c) with
                      | Some v => Some (mkResolution (k_name c) (Some v) CompatibleHow (k_sources c))
                      | None => Some (latest_wins c)
                      end
  end.
(** conflict.rs:27-39 [resolve_conflicts] *)
Fixpoint resolve_conflicts (s : strategy) (cs : list clash) : option (list resolution) :=
  match cs with
  | [] => Some []
  | c :: l => match resolve_one s c with
              | None => None
              | Some r => match resolve_conflicts s l with Some rs => Some (r :: rs) | None => None end
              end
  end.

(** ** dependency_conflicts.rs *)
(** dependency_conflicts.rs:15-18 *)
Definition collection := list (text * list clash).
(** dependency_conflicts.rs:29-34 [add_conflict] *)
Definition add_conflict (m : collection) (c : clash) : collection :=
  aput (k_name c) (match aget (k_name c) m with Some l => l ++ [c] | None => [c] end) m.
(** dependency_conflicts.rs:37-39 [remove_conflicts] *)
Definition remove_conflicts (m : collection) (n : text) : collection := adel n m.
(** dependency_conflicts.rs:42-47 [get_conflicts] *)
Definition get_conflicts (m : collection) (n : text) : list clash := match aget n m with Some l => l | None => [] end.
(** dependency_conflicts.rs:50-52 [all_conflicts] *)
Definition all_conflicts (ord : list (list clash) -> list (list clash)) (m : collection) : list clash := concat (ord (map snd m)).
(** dependency_conflicts.rs:55-57 [is_empty] *)
Definition no_conflicts (m : collection) : bool := is_nil m.
(** dependency_conflicts.rs:60-62 [len] *)
Definition count_conflicts (m : collection) : nat := length m.
(** calls on a collection *)
Inductive call := Add (c : clash) | Remove (n : text).
(** a collection after some calls *)
Definition step (m : collection) (k : call) : collection := match k with Add c => add_conflict m c | Remove n => remove_conflicts m n end.
(** from the new collection on *)
Definition run (ks : list call) : collection := fold_left step ks [].
