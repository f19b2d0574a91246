(** Model of the two ways of comparing packages: the Python functions diff_contexts and format_diff
    (crates/rez-next-python/src/diff_bindings.rs) and the diff command (src/cli/commands/diff.rs).
    The change type is a text in the code and an enumeration here (the texts are fixed and different).
    The order of a HashMap or HashSet is an explicit parameter: a rearrangement of the list of its members.
    Printing, JSON and the reading of context files are left out. *)
From Verif Require Import Base Version_model Maps Sorting Requirement_model Package_model.
Open Scope string_scope.
Open Scope list_scope.

(** diff_bindings.rs:20-33 the change types of PyPackageDiff *)
Inductive change := Added | Removed | Upgraded | Downgraded | Unchanged.
(** diff_bindings.rs:16-35 PyPackageDiff *)
Record pdiff := mkDiff { d_name : text; d_old : option text; d_new : option text; d_change : change }.

(** diff_bindings.rs:149-156: the version of every package with a version, the last one winning *)
Definition version_map (l : list package) : list (text * version) :=
  fold_left (fun m p => match p_version p with Some v => aput (p_name p) v m | None => m end) l [].

(** diff_bindings.rs:188-194 *)
Definition classify (old new : version) : change :=
  if text_eqb (v_str new) (v_str old) then Unchanged
  else match vcmp new old with Gt => Upgraded | _ => Downgraded end.

(** diff_bindings.rs:206-212 the place of a change type *)
Definition rank (c : change) : nat :=
  match c with Added => 0 | Removed => 1 | Upgraded => 2 | Downgraded => 3 | Unchanged => 4 end.
(** diff_bindings.rs:205-216 the comparison of two entries *)
Definition diff_cmp (a b : pdiff) : comparison :=
  match Nat.compare (rank (d_change a)) (rank (d_change b)) with
  | Eq => text_cmp (d_name a) (d_name b)
  | c => c
  end.

Section Diff.
(** the order in which the two maps are gone through *)
Context (ord_old ord_new : list (text * version) -> list (text * version)).

(** diff_bindings.rs:161-170 *)
Definition removed_diffs (om nm : list (text * version)) : list pdiff :=
  flat_map (fun e => if ahas (fst e) nm then [] else [mkDiff (fst e) (Some (v_str (snd e))) None Removed]) (ord_old om).
(** diff_bindings.rs:173-182 *)
Definition added_diffs (om nm : list (text * version)) : list pdiff :=
  flat_map (fun e => if ahas (fst e) om then [] else [mkDiff (fst e) None (Some (v_str (snd e))) Added]) (ord_new nm).
(** diff_bindings.rs:185-202 *)
Definition both_diffs (om nm : list (text * version)) : list pdiff :=
  flat_map (fun e => match aget (fst e) om with
    | Some o => [mkDiff (fst e) (Some (v_str o)) (Some (v_str (snd e))) (classify o (snd e))]
    | None => []
    end) (ord_new nm).
(** diff_bindings.rs:146-219 [compute_diff] *)
Definition compute_diff (old new : list package) : list pdiff :=
  let om := version_map old in
  let nm := version_map new in
  sort_by diff_cmp (removed_diffs om nm ++ added_diffs om nm ++ both_diffs om nm).
End Diff.

(** diff_bindings.rs:78-95 PyContextDiff *)
Record cdiff := mkCDiff { c_diffs : list pdiff; n_added : nat; n_removed : nat; n_upgraded : nat; n_downgraded : nat; n_unchanged : nat }.
(** the comparison of a change type with a fixed one (diff_bindings.rs:271-281) *)
Definition is_change (c : change) (d : pdiff) : bool := Nat.eqb (rank (d_change d)) (rank c).
(** diff_bindings.rs:271-292 and 324-344 *)
Definition summarise (ds : list pdiff) : cdiff :=
  let count c := length (filter (is_change c) ds) in
  mkCDiff ds (count Added) (count Removed) (count Upgraded) (count Downgraded) (count Unchanged).
(** diff_bindings.rs:99-105 *)
Definition changed_diffs (d : cdiff) : list pdiff := filter (fun x => negb (is_change Unchanged x)) (c_diffs d).
(** diff_bindings.rs:108-113 *)
Definition is_identical (d : cdiff) : bool :=
  Nat.eqb (n_added d) 0 && Nat.eqb (n_removed d) 0 && Nat.eqb (n_upgraded d) 0 && Nat.eqb (n_downgraded d) 0.

(** diff_bindings.rs:247-265: one text of a list of requirements becomes a package with at most a name and a
    version; the flags of the requirement are dropped *)
Definition named_package (s : text) : package :=
  let '(n, spec) := match parse_package_req s with Some r => (pr_name r, pr_spec r) | None => (s, None) end in
  let v := match spec with
           | Some x => if is_nil x then None else parse_version x
           | None => None
           end in
  mkPackage n v [] [] None [] 0%N.
(** diff_bindings.rs:237-293 [diff_contexts] *)
Definition diff_contexts ord_old ord_new (old new : list text) : cdiff :=
  summarise (compute_diff ord_old ord_new (map named_package old) (map named_package new)).

(** a version text or a question mark (diff_bindings.rs:353-366) *)
Definition or_query (o : option text) : text := match o with Some v => v | None => T "?" end.
(** diff_bindings.rs:352-368 one line of the text *)
Definition diff_line (d : pdiff) : option text :=
  match d_change d with
  | Added => Some (T "  + " ++ d_name d ++ T " " ++ or_query (d_new d))
  | Removed => Some (T "  - " ++ d_name d ++ T " " ++ or_query (d_old d))
  | Upgraded => Some (T "  ^ " ++ d_name d ++ T " " ++ or_query (d_old d) ++ T " -> " ++ or_query (d_new d))
  | Downgraded => Some (T "  v " ++ d_name d ++ T " " ++ or_query (d_old d) ++ T " -> " ++ or_query (d_new d))
  | Unchanged => None
  end.
(** diff_bindings.rs:349-377 [format_diff], as the list of its lines *)
Definition format_lines (d : cdiff) : list text :=
  let lines := flat_map (fun x => match diff_line x with Some s => [s] | None => [] end) (c_diffs d) in
  match lines with [] => [T "  (no changes)"] | _ => lines end.

(** ** the command *)

(** diff.rs:209-221 [parse_package_spec] *)
Definition parse_package_spec (s : text) : text * option text :=
  match rfind_char "-"%char s with
  | Some (n, v) => match v with
                   | c :: _ => if is_digit c then (n, Some v) else (s, None)
                   | [] => (s, None)
                   end
  | None => (s, None)
  end.

(** the errors of diff.rs:231-234, 246-249, 270-273, 285-288 *)
Inductive diff_error := NotFound (n : text) | VersionNotFound (n v : text) | NoPrevious (n : text) | NoSuitable (n : text).
(** a package or an error *)
Inductive found := Found (p : package) | Missing (e : diff_error).

(** the version text of a package (diff.rs:239, 279) *)
Definition version_is (v : text) (p : package) : bool :=
  match p_version p with Some x => text_eqb (v_str x) v | None => false end.

Section Command.
(** what RepositoryManager::find_packages answers for a name (see Repo_model.v); a failure of the
    repositories ends the command and is left out *)
Context (packages_of : text -> list package).

(** diff.rs:224-259 [find_package] *)
Definition find_package (n : text) (spec : option text) : found :=
  match packages_of n with
  | [] => Missing (NotFound n)
  | p :: l => match spec with
              | Some v => match find (version_is v) (p :: l) with Some x => Found x | None => Missing (VersionNotFound n v) end
              | None => Found p
              end
  end.
(** diff.rs:279-281: both have versions, with different texts *)
Definition other_version (p q : package) : bool :=
  match p_version q, p_version p with Some x, Some y => negb (text_eqb (v_str x) (v_str y)) | _, _ => false end.
(** diff.rs:262-289 [find_previous_version] *)
Definition find_previous (p : package) : found :=
  let l := packages_of (p_name p) in
  if Nat.ltb (length l) 2 then Missing (NoPrevious (p_name p))
  else match find (other_version p) l with Some x => Found x | None => Missing (NoSuitable (p_name p)) end.
(** diff.rs:186-206 [find_packages_to_diff] *)
Definition to_diff (pkg1 : text) (pkg2 : option text) : found * found :=
  let '(n1, v1) := parse_package_spec pkg1 in
  match find_package n1 v1 with
  | Missing e => (Missing e, Missing e)
  | Found p => (Found p, match pkg2 with
                         | Some s => let '(n2, v2) := parse_package_spec s in find_package n2 v2
                         | None => find_previous p
                         end)
  end.
End Command.

(** equality of lists of texts (derived) *)
Fixpoint texts_eqb (a b : list text) : bool :=
  match a, b with
  | [], [] => true
  | x :: a', y :: b' => text_eqb x y && texts_eqb a' b'
  | _, _ => false
  end.
(** equality of optional texts (derived) *)
Definition otext_eqb (a b : option text) : bool :=
  match a, b with Some x, Some y => text_eqb x y | None, None => true | _, _ => false end.

Section Compare.
(** the description and the authors are two of the fields that the record of a package keeps in p_rest *)
Context (description : N -> option text) (authors : N -> list text).
(** the order of the members of a set *)
Context (ord : list text -> list text) (ordv : list (list text) -> list (list text)).

(** diff.rs:65-90 MetadataChanges, RequirementsChanges, VariantsChanges; the shown text of a variant is left out *)
Record changes := mkChanges {
  m_description : option (option text * option text);
  m_authors : option (list text * list text);
  m_tools : option (list text * list text);
  r_added : list text; r_removed : list text;
  v_count : nat * nat; v_added : list (list text); v_removed : list (list text) }.

(** the members of a set of texts *)
Definition text_set (l : list text) : list text := ord (nodup (list_eq_dec ascii_dec) l).
(** the members of a set of variants *)
Definition variant_set (l : list (list text)) : list (list text) := ordv (nodup (list_eq_dec (list_eq_dec ascii_dec)) l).
(** HashSet::difference for texts *)
Definition text_minus (a b : list text) : list text := filter (fun x => negb (existsb (text_eqb x) b)) (text_set a).
(** HashSet::difference for variants *)
Definition variant_minus (a b : list (list text)) : list (list text) := filter (fun x => negb (existsb (texts_eqb x) b)) (variant_set a).

(** diff.rs:292-377 [compare_packages] *)
Definition compare_packages (p q : package) : changes :=
  mkChanges
    (if otext_eqb (description (p_rest p)) (description (p_rest q)) then None else Some (description (p_rest p), description (p_rest q)))
    (if texts_eqb (authors (p_rest p)) (authors (p_rest q)) then None else Some (authors (p_rest p), authors (p_rest q)))
    (if texts_eqb (p_tools p) (p_tools q) then None else Some (p_tools p, p_tools q))
    (text_minus (p_requires q) (p_requires p)) (text_minus (p_requires p) (p_requires q))
    (length (p_variants p), length (p_variants q))
    (variant_minus (p_variants q) (p_variants p)) (variant_minus (p_variants p) (p_variants q)).
(** diff.rs:454-462: what decides whether any difference is reported *)
Definition has_changes (c : changes) : bool :=
  match m_description c, m_authors c, m_tools c with None, None, None => false | _, _, _ => true end
  || negb (is_nil (r_added c)) || negb (is_nil (r_removed c))
  || negb (Nat.eqb (fst (v_count c)) (snd (v_count c)))
  || negb (is_nil (v_added c)) || negb (is_nil (v_removed c)).
End Compare.
