(** Properties C18, C19, C54, C55: package orderers. *)
From Verif Require Import Base Base_lemmas Version_model Version_spec Version_order P_Version Range_spec P_Range
  Maps Sorting Json Package_model Order_model Order_spec Order_proofs.

(** a package [n] with version [v], published at [t] *)
Definition pk (n v : string) (t : Z) : package := mkPackage (T n) (Some (V v)) [] [] (Some t) [] 0.
(** a package without version *)
Definition pk0 (n : string) : package := mkPackage (T n) None [] [] None [] 0.

(** ** C18 *)
(** Whatever the orderer and the order in which the group map is visited, the result is a permutation of the input. *)
Theorem C18_permutation : forall ord (o : orderer) (ps out : list package),
  any_order ord -> reorder ord o ps = Ret (Some out) -> Permutation out ps.
Proof. exact (fun ord o ps out Ho => reorder_perm ord o Ho ps out). Qed.
Print Assumptions C18_permutation.

(** The sorted orderer puts the packages in version order (versionless last) and keeps equal packages in input order. *)
Theorem C18_sorted_stable : forall ord (d : bool) fams (S : version -> Prop) (ps out : list package),
  transitive_versions S -> versions_in S ps -> reorder ord (OSorted d fams) ps = Ret (Some out) ->
  pairwise (goes_before d) out /\ (forall p, In p ps -> filter (same_version p) out = filter (same_version p) ps).
Proof. exact sorted_spec. Qed.
Print Assumptions C18_sorted_stable.

(** Version split: first everything at or below the split version, then the rest; both parts are in ascending
    version order and keep equal packages in input order. *)
Theorem C18_split : forall ord (v : version) fams (ps out : list package),
  reorder ord (OSplit v fams) ps = Ret (Some out) ->
  exists early late, out = early ++ late /\ Forall (at_most v) early /\ Forall (fun p => ~ at_most v p) late /\
  forall S, transitive_versions S -> versions_in S ps ->
    pairwise (goes_before false) early /\ pairwise (goes_before false) late /\
    forall p, In p ps -> filter (same_version p) early ++ filter (same_version p) late = 
      filter (same_version p) (filter (fun q => is_le (match p_version q with Some x => vcmp x v | None => Gt end)) ps) ++
      filter (same_version p) (filter (fun q => is_gt (match p_version q with Some x => vcmp x v | None => Gt end)) ps).
Proof. exact split_spec. Qed.
Print Assumptions C18_split.

(** Timestamps: first everything published by the pivot time, then the rest, each newest first, ties in input order. *)
Theorem C18_timestamp : forall ord (ts r : Z) fams (ps out : list package),
  reorder ord (OTime ts r fams) ps = Ret (Some out) ->
  exists early late, out = early ++ late /\
    Forall (fun p => (published p <= ts)%Z) early /\ Forall (fun p => (ts < published p)%Z) late /\
    pairwise (fun p q => (published q <= published p)%Z) early /\
    pairwise (fun p q => (published q <= published p)%Z) late /\
    forall t, filter (fun q => (published q =? t)%Z) out = filter (fun q => (published q =? t)%Z) ps.
Proof. exact time_spec. Qed.
Print Assumptions C18_timestamp.

(** Per family: within each family the result is exactly what that family's orderer (the default one if it has none)
    makes of the family, in whatever order the groups are visited. *)
Theorem C18_per_family : forall ord dict def (ps out : list package) (f : text),
  any_order ord -> reorder ord (OFamily dict def) ps = Ret (Some out) -> family f ps <> [] ->
  match responsible dict def f with
  | Some o => applied (reorder ord o (family f ps)) (family f ps) (family f out)
  | None => family f out = family f ps
  end.
Proof.
  intros ord dict def ps out f Ho H Hne. pose proof (family_result ord dict def ps out f Ho H Hne) as K.
  unfold run_family in K. destruct (responsible dict def f).
  - apply run_applied, K.
  - injection K as K. symmetry. exact K.
Qed.
Print Assumptions C18_per_family.

Example C18_example :
  let ps := [pk "a" "1.2" 5; pk "b" "3" 9; pk "a" "2.1" 7; pk0 "b"; pk "a" "1.1" 3] in
  any_order (@rev (text * list package)) /\ transitive_versions orderly /\ versions_in orderly ps /\
  reorder (@rev _) (OSorted true None) ps = Ret (Some [pk "b" "3" 9; pk "a" "2.1" 7; pk "a" "1.2" 5; pk "a" "1.1" 3; pk0 "b"]) /\
  reorder (@rev _) (OTime 6 0 None) ps = Ret (Some [pk "a" "1.2" 5; pk "a" "1.1" 3; pk0 "b"; pk "b" "3" 9; pk "a" "2.1" 7]) /\
  reorder (@rev _) (OFamily [(T "a", OSorted false None)] None) ps
    = Ret (Some [pk "b" "3" 9; pk0 "b"; pk "a" "1.1" 3; pk "a" "1.2" 5; pk "a" "2.1" 7]) /\
  family (T "a") ps <> [] /\ responsible [(T "a", OSorted false None)] None (T "a") = Some (OSorted false None).
Proof.
  cbv zeta. split; [intros l; symmetry; apply Permutation_rev|]. split; [exact orderly_transitive|]. split.
  { intros p v Hp E. repeat (destruct Hp as [<-|Hp]; [cbn in E; try discriminate; injection E as <-; is_orderly|]). destruct Hp. }
  splits; try (vm_compute; reflexivity). vm_compute. discriminate.
Qed.

(** ** C19 *)
(** No orderer crashes on packages that all have a version.
    Missing: packages without version given to a version split orderer, where it is false (below). *)
Theorem C19_no_crash_versioned_partial : forall ord (o : orderer) (ps : list package),
  any_order ord -> versioned ps -> reorder ord o ps <> Panic.
Proof. exact (fun ord o ps Ho => reorder_no_panic ord o Ho ps). Qed.
Print Assumptions C19_no_crash_versioned_partial.

(** The version split orderer crashes exactly when a versionless package meets another package of the second part. *)
Theorem C19_split_crash_iff_partial : forall ord (v : version) fams (ps : list package),
  reorder ord (OSplit v fams) ps = Panic <->
  exists p q, In p ps /\ p_version p = None /\
    exists a b c, filter (fun p => negb (before_split v p)) ps = a ++ b :: c /\ b = p /\ In q (a ++ c).
Proof. exact split_panic_iff. Qed.
Print Assumptions C19_split_crash_iff_partial.

Theorem C19_crash_refuted : exists ord (o : orderer) (ps : list package),
  any_order ord /\ reorder ord o ps = Panic.
Proof.
  exists (fun l => l), (OSplit (V "1.5") None), [pk "a" "2.1" 0; pk0 "a"].
  split; [intros l; reflexivity|vm_compute; reflexivity].
Qed.
Print Assumptions C19_crash_refuted.

(** The comparators handed to the standard sort are total preorders among versions compared transitively, which is
    what the standard library asks for; it may panic otherwise. *)
Theorem C19_comparators_partial : forall (S : version -> Prop) (ts : Z), transitive_versions S ->
  let P := fun p => forall v, p_version p = Some v -> S v in
  TPO P ascending /\ TPO P descending /\ TPO (fun _ => True) (by_time ts).
Proof. exact (fun S ts H => conj (ascending_TPO S H) (conj (descending_TPO S H) (by_time_TPO ts))). Qed.
Print Assumptions C19_comparators_partial.
(** It is not met by all packages: 1 <= 1.0.0 <= 1.0.1 < 1. *)
Theorem C19_comparator_refuted : exists a b c : package,
  ascending a b <> Gt /\ ascending b c <> Gt /\ ascending a c = Gt.
Proof.
  exists (pk "a" "1" 0), (pk "a" "1.0.0" 0), (pk "a" "1.0.1" 0). splits; vm_compute; congruence.
Qed.
Print Assumptions C19_comparator_refuted.

Example C19_example :
  versioned [pk "a" "2.1" 0; pk "a" "1" 0; pk "b" "7" 0] /\
  reorder (fun l => l) (OSplit (V "1.5") None) [pk "a" "2.1" 0; pk "a" "1.1" 0; pk "b" "7" 0]
    = Ret (Some [pk "a" "1.1" 0; pk "a" "2.1" 0; pk "b" "7" 0]) /\
  reorder (fun l => l) (OSplit (V "1.5") None) [pk0 "a"; pk "a" "1.1" 0] = Ret (Some [pk "a" "1.1" 0; pk0 "a"]).
Proof.
  split.
  { intros p Hp. repeat (destruct Hp as [<-|Hp]; [discriminate|]). destruct Hp. }
  splits; vm_compute; reflexivity.
Qed.

(** ** C54: plain data *)
(** Missing: per-family orderers, which are written but not read back (below). *)
Theorem C54_pod_roundtrip_partial : forall o : orderer,
  flat o -> holdable o -> order_from_pod (order_to_pod o) = Some o.
Proof. exact pod_roundtrip. Qed.
Print Assumptions C54_pod_roundtrip_partial.
Theorem C54_pod_list_roundtrip_partial : forall l : list orderer,
  Forall (fun o => flat o /\ holdable o) l -> order_list_from_pod (order_list_to_pod l) = l.
Proof. exact pod_list_roundtrip. Qed.
Print Assumptions C54_pod_list_roundtrip_partial.
(** Every per-family orderer is lost, in a list silently. *)
Theorem C54_per_family_refuted : forall dict def, order_from_pod (order_to_pod (OFamily dict def)) = None /\
  forall l, order_list_from_pod (order_list_to_pod (OFamily dict def :: l)) = order_list_from_pod (order_list_to_pod l).
Proof. intros dict def. split; [reflexivity|]. intros l. reflexivity. Qed.
Print Assumptions C54_per_family_refuted.
Example C54_example :
  let l := [OSorted true (Some [T "maya"; T "nuke"]); OSplit (V "1.2.0") None; OTime (-5) 3 None] in
  Forall (fun o => flat o /\ holdable o) l /\ order_list_from_pod (order_list_to_pod l) = l.
Proof.
  cbv zeta. split; [|vm_compute; reflexivity]. repeat constructor; try (cbn; lia). apply V_parsed. ok.
Qed.

(** ** C55: the orderer chosen for a family *)
(** The first orderer of the list that names the family or names no family at all. *)
Theorem C55_first_applicable : forall (l : list orderer) (name : text) (o : orderer),
  order_list_get l name = Some o <->
  exists a b, l = a ++ o :: b /\ (families_of o = None \/ exists fs, families_of o = Some fs /\ In name fs) /\
    forall x, In x a -> exists fs, families_of x = Some fs /\ ~ In name fs.
Proof.
  intros l name o. unfold order_list_get. rewrite find_first. split.
  - intros (a & b & -> & Ho & Ha). exists a, b. split; [reflexivity|]. split.
    + destruct (families_of o) as [fs|]; [right; exists fs; split; [reflexivity|apply mem_text_In, Ho]|left; reflexivity].
    + intros x Hx. specialize (Ha x Hx). destruct (families_of x) as [fs|]; [|discriminate]. exists fs. split; [reflexivity|].
      rewrite <- mem_text_In. congruence.
  - intros (a & b & -> & Ho & Ha). exists a, b. split; [reflexivity|]. split.
    + destruct Ho as [->|(fs & -> & Hin)]; [reflexivity|apply mem_text_In, Hin].
    + intros x Hx. destruct (Ha x Hx) as (fs & -> & Hn). rewrite <- mem_text_In in Hn. destruct (mem_text name fs); congruence.
Qed.
Print Assumptions C55_first_applicable.
(** A family no orderer applies to keeps its order. *)
Theorem C55_fallback : forall ord (l : list orderer) (name : text) (ps : list package),
  order_list_get l name = None -> reorder ord (get_orderer name (Some l)) ps = Ret None.
Proof. intros ord l name ps H. unfold get_orderer. rewrite H. reflexivity. Qed.
Print Assumptions C55_fallback.
Example C55_example :
  let l := [OSorted true (Some [T "maya"]); OSorted false (Some [T "nuke"]); OTime 5 0 (Some [T "nuke"])] in
  order_list_get l (T "nuke") = Some (OSorted false (Some [T "nuke"])) /\ order_list_get l (T "foo") = None.
Proof. cbv zeta. splits; vm_compute; reflexivity. Qed.
