(** C156-C162: comparing contexts and packages. *)
From Verif Require Import Base Base_lemmas Version_model Maps Sorting Range_model Requirement_model Requirement_spec Package_model Order_spec Diff_model Diff_spec Diff_proofs Diff_command.
Open Scope string_scope.
Open Scope list_scope.

(** packages for the examples *)
Definition pk (n v : string) : package := mkPackage (T n) (parse_version (T v)) [] [] None [] 0%N.
Definition bare_pk (n : string) : package := mkPackage (T n) None [] [] None [] 0%N.
Definition same_order (l : list (text * version)) := l.
Lemma same_order_perm l : Permutation (same_order l) l.
Proof. reflexivity. Qed.

(** ** C156 *)
Theorem C156_entries : forall o1 o2, (forall l, Permutation (o1 l) l) -> (forall l, Permutation (o2 l) l) -> forall (old new : list package),
  (forall d, In d (compute_diff o1 o2 old new) <-> entry old new d) /\
  NoDup (map d_name (compute_diff o1 o2 old new)) /\ pairwise listed_before (compute_diff o1 o2 old new).
Proof. intros o1 o2 P1 P2 old new. split; [intros d; apply compute_entries; assumption|]. split; [apply compute_names; assumption|apply compute_sorted; assumption]. Qed.
Print Assumptions C156_entries.
Theorem C156_fixed : forall o1 o2 u1 u2, (forall l, Permutation (o1 l) l) -> (forall l, Permutation (o2 l) l) -> (forall l, Permutation (u1 l) l) -> (forall l, Permutation (u2 l) l) ->
  forall (old new : list package), compute_diff o1 o2 old new = compute_diff u1 u2 old new.
Proof. intros. apply compute_fixed; assumption. Qed.
Print Assumptions C156_fixed.
Theorem C156_counts : forall (ds : list pdiff), let s := summarise ds in
  counted (fun d => d_change d = Added) ds (n_added s) /\ counted (fun d => d_change d = Removed) ds (n_removed s) /\
  counted (fun d => d_change d = Upgraded) ds (n_upgraded s) /\ counted (fun d => d_change d = Downgraded) ds (n_downgraded s) /\
  counted (fun d => d_change d = Unchanged) ds (n_unchanged s) /\
  n_added s + n_removed s + n_upgraded s + n_downgraded s + n_unchanged s = length ds /\ c_diffs s = ds.
Proof. intros ds s. repeat split; try (apply counted_filter; intros x; apply is_change_iff). apply counts_sum. Qed.
Print Assumptions C156_counts.
Theorem C156_text : forall o1 o2, (forall l, Permutation (o1 l) l) -> (forall l, Permutation (o2 l) l) -> forall (old new : list package),
  let d := summarise (compute_diff o1 o2 old new) in
  (is_identical d = true -> format_lines d = [T "  (no changes)"]) /\ (is_identical d = false -> Forall2 line_says (changed_diffs d) (format_lines d)).
Proof. exact format_entries. Qed.
Print Assumptions C156_text.
Example C156_example :
  let d := summarise (compute_diff same_order same_order [pk "python" "3.9"; pk "maya" "2024"; pk "nuke" "14"; pk "qt" "5"; pk "zlib" "2"] [pk "zlib" "1"; pk "houdini" "20"; pk "python" "3.11"; pk "qt" "5"; pk "nuke" "14.1"; pk "nuke" "15"]) in
  format_lines d = [T "  + houdini 20"; T "  - maya 2024"; T "  ^ nuke 14 -> 15"; T "  ^ python 3.9 -> 3.11"; T "  v zlib 2 -> 1"] /\ n_unchanged d = 1 /\ is_identical d = false.
Proof. vm_compute. repeat split. Qed.

(** ** C157 *)
(** Contexts in which all packages have versions and no name is repeated are identical exactly when they show
    the same names and versions.  Missing: packages without versions, which are not seen at all. *)
Theorem C157_identical_partial : forall o1 o2, (forall l, Permutation (o1 l) l) -> (forall l, Permutation (o2 l) l) -> forall (old new : list package),
  usual_list old -> usual_list new ->
  (is_identical (summarise (compute_diff o1 o2 old new)) = true <-> forall n s, shown_in old n s <-> shown_in new n s).
Proof. exact identical_usual. Qed.
Print Assumptions C157_identical_partial.
Theorem C157_identical_names : forall o1 o2, (forall l, Permutation (o1 l) l) -> (forall l, Permutation (o2 l) l) -> forall (old new : list package),
  is_identical (summarise (compute_diff o1 o2 old new)) = true <->
  forall n, (absent old n /\ absent new n) \/ exists a b, current old n a /\ current new n b /\ v_str a = v_str b.
Proof. exact identical_names. Qed.
Print Assumptions C157_identical_names.
(** packages without versions may come and go *)
Theorem C157_refuted : forall o1 o2, (forall l, Permutation (o1 l) l) -> (forall l, Permutation (o2 l) l) -> forall (old extra : list package),
  (forall p, In p extra -> p_version p = None) -> is_identical (summarise (compute_diff o1 o2 old (old ++ extra))) = true.
Proof.
  intros o1 o2 P1 P2 old extra H. apply identical_names; [assumption..|]. intros n.
  assert (A : absent extra n) by (intros q J _; apply H, J). destruct (present old n) as [X|(v & X)].
  - left. split; [exact X|]. intros q J E. apply in_app_iff in J as [J|J]; [exact (X q J E)|exact (A q J E)].
  - right. exists v, v. split; [exact X|]. split; [|reflexivity]. destruct X as (l1 & p & l2 & -> & N & V & B). exists l1, p, (l2 ++ extra). rewrite <- app_assoc. repeat split; try assumption.
    intros q J E. apply in_app_iff in J as [J|J]; [exact (B q J E)|exact (A q J E)].
Qed.
Print Assumptions C157_refuted.
Example C157_example :
  usual_list [pk "a" "1"; pk "b" "2"] /\ usual_list [pk "b" "2"; pk "a" "1"] /\
  is_identical (summarise (compute_diff same_order same_order [pk "a" "1"; pk "b" "2"] [pk "b" "2"; pk "a" "1"])) = true /\
  is_identical (summarise (compute_diff same_order same_order [pk "a" "1"] [pk "a" "1.0"])) = false /\
  is_identical (summarise (compute_diff same_order same_order [] [bare_pk "a"])) = true.
Proof.
  assert (U : forall a b v w, T a <> T b -> parse_version (T v) <> None -> parse_version (T w) <> None -> usual_list [pk a v; pk b w]).
  { intros a b v w N V W. split.
    - cbn. constructor; [intros [X|[]]; apply N; symmetry; exact X|]. constructor; [intros []|constructor].
    - intros p [<-|[<-|[]]]; assumption. }
  split; [apply U; (discriminate || (vm_compute; discriminate))|]. split; [apply U; (discriminate || (vm_compute; discriminate))|]. vm_compute. repeat split.
Qed.

(** ** C158 *)
(** Comparing the other way round turns every entry round.  Missing: versions written differently that compare
    equal. *)
Theorem C158_turned_partial : forall o1 o2 u1 u2, (forall l, Permutation (o1 l) l) -> (forall l, Permutation (o2 l) l) -> (forall l, Permutation (u1 l) l) -> (forall l, Permutation (u2 l) l) ->
  forall (old new : list package) (d : pdiff), written_alike old new -> (In d (compute_diff o1 o2 old new) <-> In (turned d) (compute_diff u1 u2 new old)).
Proof. intros. apply compute_turned; assumption. Qed.
Print Assumptions C158_turned_partial.
(** such versions are downgrades both ways *)
Theorem C158_refuted : forall o1 o2, (forall l, Permutation (o1 l) l) -> (forall l, Permutation (o2 l) l) -> forall (n : text) (a b : version) (old new : list package),
  current old n a -> current new n b -> vcmp a b = Eq -> v_str a <> v_str b ->
  In (mkDiff n (Some (v_str a)) (Some (v_str b)) Downgraded) (compute_diff o1 o2 old new) /\ In (mkDiff n (Some (v_str b)) (Some (v_str a)) Downgraded) (compute_diff o1 o2 new old).
Proof.
  intros o1 o2 P1 P2 n a b old new A B E D. split; apply compute_entries; try assumption; apply e_down; try assumption; try congruence.
  rewrite (cmp_opp a b), E. discriminate.
Qed.
Print Assumptions C158_refuted.
Example C158_example : exists a b, current [pk "a" "1.0"] (T "a") a /\ current [pk "a" "1-0"] (T "a") b /\ vcmp a b = Eq /\ v_str a <> v_str b /\
  written_alike [pk "a" "1.0"] [pk "a" "2.0"].
Proof.
  assert (C : forall n v w, parse_version (T v) = Some w -> current [pk n v] (T n) w).
  { intros n v w E. exists [], (pk n v), []. repeat split; [exact E|intros q []]. }
  eexists. eexists. split; [apply C; vm_compute; reflexivity|]. split; [apply C; vm_compute; reflexivity|]. split; [vm_compute; reflexivity|]. split; [vm_compute; discriminate|].
  intros p q a b [<-|[]] [<-|[]] _ Va Vb. vm_compute in Va, Vb. injection Va as <-. injection Vb as <-. vm_compute. discriminate.
Qed.

(** ** C159 *)
(** Texts of the form name-version, the name without dashes, are compared as those packages.  Missing: names with
    dashes, ranges and operators; see the refutation. *)
Theorem C159_texts_partial : forall o1 o2, (forall l, Permutation (o1 l) l) -> (forall l, Permutation (o2 l) l) -> forall (old new : list (text * version)),
  Forall (fun e => plain_request (fst e) (snd e)) old -> Forall (fun e => plain_request (fst e) (snd e)) new -> forall (d : pdiff),
  let shown := map (fun e => request_text (fst e) (snd e)) in
  let packs := map (fun e => mkPackage (fst e) (Some (snd e)) [] [] None [] 0%N) in
  In d (c_diffs (diff_contexts o1 o2 (shown old) (shown new))) <-> entry (packs old) (packs new) d.
Proof.
  intros o1 o2 P1 P2 old new A B d shown packs.
  assert (K : forall l, Forall (fun e => plain_request (fst e) (snd e)) l -> map named_package (shown l) = packs l).
  { intros l H. unfold shown, packs. rewrite map_map. apply map_ext_in. intros e J. rewrite Forall_forall in H. apply named_plain, H, J. }
  unfold diff_contexts. cbn [summarise c_diffs]. rewrite !K by assumption. apply compute_entries; assumption.
Qed.
Print Assumptions C159_texts_partial.
(** two packages whose names begin alike are taken for one, and a range is no package at all *)
Theorem C159_refuted :
  c_diffs (diff_contexts same_order same_order [T "my-tool-1.0"; T "my-lib-2.0"] [T "my-lib-2.0"]) = [mkDiff (T "my") (Some (T "lib-2.0")) (Some (T "lib-2.0")) Unchanged] /\
  is_identical (diff_contexts same_order same_order [T "python>=3.9"] [T "maya>=2024"]) = true.
Proof. vm_compute. split; reflexivity. Qed.
Print Assumptions C159_refuted.
Example C159_example : exists v w, plain_request (T "python") v /\ plain_request (T "python") w /\ request_text (T "python") v = T "python-3.9" /\ request_text (T "python") w = T "python-3.11-rc1" /\
  c_diffs (diff_contexts same_order same_order [request_text (T "python") v] [request_text (T "python") w]) = [mkDiff (T "python") (Some (T "3.9")) (Some (T "3.11-rc1")) Upgraded].
Proof.
  assert (P : forall s w, parse_version (T s) = Some w -> is_nil (v_str w) = false -> plain_request (T "python") w).
  { intros s w E N. repeat split; try discriminate; [vm_compute; intros X; repeat (destruct X as [X|X]; [discriminate X|]); exact X|exists (T s); exact E|intros X; rewrite X in N; discriminate N]. }
  destruct (parse_version (T "3.9")) as [v|] eqn:V; [|vm_compute in V; discriminate V]. destruct (parse_version (T "3.11-rc1")) as [w|] eqn:W; [|vm_compute in W; discriminate W].
  exists v, w. split; [apply (P "3.9"); [exact V|vm_compute in V; injection V as <-; reflexivity]|]. split; [apply (P "3.11-rc1"); [exact W|vm_compute in W; injection W as <-; reflexivity]|].
  vm_compute in V, W. injection V as <-. injection W as <-. vm_compute. repeat split.
Qed.

(** ** C160 *)
(** For the newest package the answer is the version just before.  Missing: any other package. *)
Theorem C160_previous_partial : forall (packages_of : text -> list package) (p q : package),
  pairwise (goes_before true) (packages_of (p_name p)) -> newest (packages_of (p_name p)) p ->
  (forall r c a, In r (packages_of (p_name p)) -> p_version r = Some c -> p_version p = Some a -> (vcmp c a = Eq <-> v_str c = v_str a)) ->
  find_previous packages_of p = Found q -> just_before (packages_of (p_name p)) p q.
Proof. exact previous_of_newest. Qed.
Print Assumptions C160_previous_partial.
(** An older package is compared with a newer one: the answer is at least every newer version. *)
Theorem C160_refuted : forall (packages_of : text -> list package) (p q : package),
  pairwise (goes_before true) (packages_of (p_name p)) -> find_previous packages_of p = Found q ->
  forall r c a, In r (packages_of (p_name p)) -> p_version p = Some a -> p_version r = Some c -> vcmp a c = Lt -> v_str c <> v_str a ->
  exists b, p_version q = Some b /\ vcmp c b <> Gt.
Proof. exact previous_of_older. Qed.
Print Assumptions C160_refuted.
(** a package asked for without a version is the newest one *)
Theorem C160_newest : forall (packages_of : text -> list package) (n : text) (p : package),
  pairwise (goes_before true) (packages_of n) -> find_package packages_of n None = Found p ->
  In p (packages_of n) /\ ((exists q v, In q (packages_of n) /\ p_version q = Some v) -> newest (packages_of n) p).
Proof. exact find_package_newest. Qed.
Print Assumptions C160_newest.
(** and one asked for with a version has exactly this version text, or there is none *)
Theorem C160_exact : forall (packages_of : text -> list package) (n v : text),
  (forall p, find_package packages_of n (Some v) = Found p -> In p (packages_of n) /\ exists x, p_version p = Some x /\ v_str x = v) /\
  ((exists e, find_package packages_of n (Some v) = Missing e) <-> forall p x, In p (packages_of n) -> p_version p = Some x -> v_str x <> v).
Proof. intros f n v. split; [intros p; apply find_package_version|apply find_package_missing]. Qed.
Print Assumptions C160_exact.
Definition shelf (n : text) : list package := if text_eqb n (T "lib") then [pk "lib" "3"; pk "lib" "2"; pk "lib" "1"] else [].
Example C160_example :
  find_package shelf (T "lib") None = Found (pk "lib" "3") /\ find_previous shelf (pk "lib" "3") = Found (pk "lib" "2") /\
  find_previous shelf (pk "lib" "2") = Found (pk "lib" "3") /\ find_previous shelf (pk "lib" "1") = Found (pk "lib" "3") /\
  to_diff shelf (T "lib-1") None = (Found (pk "lib" "1"), Found (pk "lib" "3")) /\
  to_diff shelf (T "lib-1") (Some (T "lib-2")) = (Found (pk "lib" "1"), Found (pk "lib" "2")) /\
  newest (shelf (T "lib")) (pk "lib" "3") /\ pairwise (goes_before true) (shelf (T "lib")).
Proof.
  split; [vm_compute; reflexivity|]. split; [vm_compute; reflexivity|]. split; [vm_compute; reflexivity|]. split; [vm_compute; reflexivity|]. split; [vm_compute; reflexivity|]. split; [vm_compute; reflexivity|]. split.
  - eexists. split; [vm_compute; reflexivity|]. split; [left; reflexivity|].
    intros r c [<-|[<-|[<-|[]]]] V; vm_compute in V; injection V as <-; vm_compute; discriminate.
  - intros l1 x l2 y l3 E. change (shelf (T "lib")) with [pk "lib" "3"; pk "lib" "2"; pk "lib" "1"] in E.
    destruct l1 as [|a [|b [|c l1]]]; cbn [app] in E; injection E; intros; subst; try (destruct l2 as [|d [|e l2]]; cbn [app] in *); try discriminate;
      repeat match goal with H : _ :: _ = _ :: _ |- _ => injection H; clear H; intros; subst end; try discriminate; try (destruct l2; discriminate); try (destruct l1; discriminate); vm_compute; try discriminate.
Qed.

(** ** C161 *)
Theorem C161_changes : forall ord ordv, (forall l, Permutation (ord l) l) -> (forall l, Permutation (ordv l) l) -> forall description authors (p q : package),
  let c := compare_packages description authors ord ordv p q in
  (forall x, In x (r_added c) <-> In x (p_requires q) /\ ~ In x (p_requires p)) /\ NoDup (r_added c) /\
  (forall x, In x (r_removed c) <-> In x (p_requires p) /\ ~ In x (p_requires q)) /\ NoDup (r_removed c) /\
  (forall x, In x (v_added c) <-> In x (p_variants q) /\ ~ In x (p_variants p)) /\ NoDup (v_added c) /\
  (forall x, In x (v_removed c) <-> In x (p_variants p) /\ ~ In x (p_variants q)) /\ NoDup (v_removed c).
Proof.
  intros ord ordv Po Pv description authors p q c. repeat split; try (apply text_minus_in; assumption); try (apply variant_minus_in; assumption); try (apply text_minus_nodup; assumption); try (apply variant_minus_nodup; assumption);
    try (apply (text_minus_in ord Po) in H; apply H); try (apply (variant_minus_in ordv Pv) in H; apply H).
Qed.
Print Assumptions C161_changes.
(** No difference is reported exactly when description, authors, tools and the sets of requirements and variants
    agree.  Missing: everything else in a package, and the order of requirements and variants. *)
Theorem C161_silent_partial : forall ord ordv, (forall l, Permutation (ord l) l) -> (forall l, Permutation (ordv l) l) -> forall description authors (p q : package),
  has_changes (compare_packages description authors ord ordv p q) = false <->
  description (p_rest p) = description (p_rest q) /\ authors (p_rest p) = authors (p_rest q) /\ p_tools p = p_tools q /\
  same_members (p_requires p) (p_requires q) /\ same_members (p_variants p) (p_variants q) /\ length (p_variants p) = length (p_variants q).
Proof. exact no_changes. Qed.
Print Assumptions C161_silent_partial.
Theorem C161_refuted : exists (p q : package), p_rest p <> p_rest q /\ p_requires p <> p_requires q /\
  forall ord ordv, (forall l, Permutation (ord l) l) -> (forall l, Permutation (ordv l) l) -> forall description authors,
  description (p_rest p) = description (p_rest q) -> authors (p_rest p) = authors (p_rest q) ->
  has_changes (compare_packages description authors ord ordv p q) = false.
Proof.
  exists (mkPackage (T "a") None [T "x"; T "y"] [] None [] 0%N), (mkPackage (T "a") None [T "y"; T "x"] [] None [] 1%N).
  split; [discriminate|]. split; [discriminate|]. intros ord ordv Po Pv description authors D A. apply no_changes; [assumption..|].
  repeat split; try assumption; cbn; tauto.
Qed.
Print Assumptions C161_refuted.
Example C161_example :
  let p := mkPackage (T "a") None [T "x"; T "y"; T "x"] [[T "l"]] None [T "run"] 0%N in
  let q := mkPackage (T "a") None [T "y"; T "z"] [[T "l"]; [T "w"]] None [T "run"] 0%N in
  let c := compare_packages (fun _ => None) (fun _ => []) (fun l => l) (fun l => l) p q in
  r_added c = [T "z"] /\ r_removed c = [T "x"] /\ v_added c = [[T "w"]] /\ v_removed c = [] /\ v_count c = (1, 2) /\ has_changes c = true.
Proof. vm_compute. repeat split. Qed.

(** ** C162 *)
(** A version text without dashes that begins with a digit is found.  Missing: other version texts. *)
Theorem C162_spec_partial : forall (n v : text),
  (dashless v -> parse_package_spec (n ++ T "-" ++ v) = (n, Some v)) /\ (~ In "-"%char n -> parse_package_spec n = (n, None)).
Proof. intros n v. split; [apply spec_dashless|apply spec_name]. Qed.
Print Assumptions C162_spec_partial.
(** the version 3.9-rc1 becomes part of the name and the package is not found, though the repository has it *)
Theorem C162_refuted : exists (packages_of : text -> list package) (p : package) (v : version),
  In p (packages_of (T "python")) /\ p_version p = Some v /\ v_str v = T "3.9-rc1" /\
  fst (to_diff packages_of (T "python-3.9-rc1") None) = Missing (NotFound (T "python-3.9-rc1")).
Proof.
  exists (fun n => if text_eqb n (T "python") then [pk "python" "3.9-rc1"] else []), (pk "python" "3.9-rc1"). eexists. split; [left; reflexivity|]. split; [vm_compute; reflexivity|]. split; vm_compute; reflexivity.
Qed.
Print Assumptions C162_refuted.
Example C162_example : dashless (T "3.9.1") /\ parse_package_spec (T "my-tool-3.9.1") = (T "my-tool", Some (T "3.9.1")) /\ parse_package_spec (T "maya-beta") = (T "maya-beta", None).
Proof.
  split; [|vm_compute; split; reflexivity]. split; [vm_compute; intros X; repeat (destruct X as [X|X]; [discriminate X|]); exact X|]. exists "3"%char, (T ".9.1"). split; reflexivity.
Qed.
