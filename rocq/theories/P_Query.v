(** C163-C169: the search command, times and lists of paths. *)
From Verif Require Import Base Base_lemmas Version_model Maps Sorting Range_model Package_model Order_spec P_Range Requirement_text Pyfile_model Pyfile_proofs Query_model Query_spec Query_proofs.
Open Scope string_scope.
Open Scope list_scope.

(** packages and questions for the examples *)
Definition qp (n v : string) (t : option Z) (tools : list string) : package := mkPackage (T n) (parse_version (T v)) [] [] t (map T tools) 0%N.
Definition ask (q : string) : qargs := mkArgs (T q) false false false false false false 50 (T "name") None None (T "package") None.
Definition shown_version (o : option version) : text := match o with Some v => v_str v | None => [] end.
Definition no_re (s : text) : option (text -> bool) := None.
Definition no_text (n : N) : option text := None.
Definition as_is (l : list hit) := l.
Definition turned (l : list hit) := rev l.

(** ** C163 *)
Theorem C163_found : forall re description ord (names : list text) (packages_of : text -> list package) (a : qargs) newer older (S : version -> Prop),
  q_type a <> T "family" -> q_latest a = false ->
  transitive_versions S -> versions_in S (flat_map packages_of names) ->
  exists keep all, (forall p, keep p = true <-> in_time newer older p /\ of_kind a p /\ found_by re description a p) /\
    Permutation (map h_package all) (filter keep (flat_map packages_of names)) /\
    pairwise (shown_before a) all /\ first_of (q_limit a) (shown_hits re description ord names packages_of a newer older) all.
Proof.
  intros re description ord names packages_of a newer older S F L TV V.
  exists (kept re description a newer older), (sort_by (hit_cmp (q_sort a)) (all_hits re description names packages_of a newer older)).
  split; [intros p; apply kept_iff|]. split; [|split].
  - rewrite <- hits_packages. apply Permutation_map, sort_perm.
  - apply (sorted_hits a S); [exact TV|apply hits_versions, V].
  - unfold shown_hits. rewrite L. destruct (text_eqb (q_type a) (T "family")) eqn:E; [apply text_eqb_eq in E; contradiction|]. apply firstn_first.
Qed.
Print Assumptions C163_found.
Theorem C163_points : forall re description (names : list text) (packages_of : text -> list package) (a : qargs) newer older h,
  In h (all_hits re description names packages_of a newer older) ->
  points re description a (h_package h) (h_score h) /\ forall f, In f (h_fields h) <-> found_in re description a (h_package h) f.
Proof. intros re description names packages_of a newer older h J. apply all_hits_iff in J as (n & _ & _ & _ & _ & E). split; [apply points_of, E|apply fields_of, E]. Qed.
Print Assumptions C163_points.
(** an order by date is offered, but it is the order by name *)
Theorem C163_date_refuted : forall re description ord (names : list text) (packages_of : text -> list package) (a : qargs) newer older b,
  q_sort a = T "date" -> b = mkArgs (q_query a) (q_description a) (q_tools a) (q_requirements a) (q_case a) (q_regex a) (q_latest a) (q_limit a) (T "name") (q_newer a) (q_older a) (q_type a) (q_variant a) ->
  shown_hits re description ord names packages_of a newer older = shown_hits re description ord names packages_of b newer older.
Proof.
  intros re description ord names packages_of [q d t r c x l k s n o y v] newer older b E ->. cbn in E. subst s. reflexivity.
Qed.
Print Assumptions C163_date_refuted.
Definition repo1 (n : text) : list package :=
  if text_eqb n (T "Maya") then [qp "Maya" "2024" (Some 50%Z) []; qp "Maya" "2025" None []]
  else if text_eqb n (T "amaya") then [qp "amaya" "1" (Some 10%Z) []] else [qp "tool" "1" None ["runMAYA"]; qp "tool" "2" None []].
Example C163_example :
  map (fun h => (shown_version (p_version (h_package h)), p_name (h_package h), h_score h, h_fields h))
    (shown_hits no_re no_text as_is [T "amaya"; T "tool"; T "Maya"] repo1 (ask "maya") None None) =
  [(T "2024", T "Maya", 10, [FName]); (T "2025", T "Maya", 10, [FName]); (T "1", T "amaya", 5, [FName]); (T "1", T "tool", 1, [FTools])].
Proof. vm_compute. reflexivity. Qed.
Example C163_hypotheses : exists S, transitive_versions S /\ versions_in S (flat_map repo1 [T "amaya"; T "tool"; T "Maya"]) /\ q_type (ask "maya") <> T "family" /\ q_latest (ask "maya") = false.
Proof.
  exists orderly. split; [exact orderly_transitive|]. split; [|split; [discriminate|reflexivity]].
  intros p v J E. cbn in J. repeat (destruct J as [<-|J]; [cbn in E; injection E as <-; is_orderly|]). destruct J.
Qed.

(** ** C164 *)
Theorem C164_latest_partial : forall re description ord (names : list text) (packages_of : text -> list package) (a : qargs) newer older (S : version -> Prop),
  (forall l, Permutation (ord l) l) -> q_type a <> T "family" -> q_latest a = true ->
  transitive_versions S -> versions_in S (flat_map packages_of names) ->
  exists keep all, (forall p, keep p = true <-> in_time newer older p /\ of_kind a p /\ found_by re description a p) /\
    first_of (q_limit a) (shown_hits re description ord names packages_of a newer older) all /\
    NoDup (map (fun h => p_name (h_package h)) all) /\
    (forall h, In h all -> In (h_package h) (filter keep (flat_map packages_of names)) /\
       forall p, In p (filter keep (flat_map packages_of names)) -> p_name p = p_name (h_package h) -> not_older (h_package h) p) /\
    (forall p, In p (filter keep (flat_map packages_of names)) -> exists h, In h all /\ p_name (h_package h) = p_name p).
Proof.
  intros re description ord names packages_of a newer older S P F L TV V.
  set (hits := all_hits re description names packages_of a newer older).
  exists (kept re description a newer older), (latest_versions ord (sort_by (hit_cmp (q_sort a)) hits)).
  split; [intros p; apply kept_iff|]. destruct (one_each ord P latest_step (sort_by (hit_cmp (q_sort a)) hits) latest_shape latest_new) as (A & B & C).
  rewrite <- hits_packages. split; [|split; [exact A|split]].
  - unfold shown_hits. rewrite L. destruct (text_eqb (q_type a) (T "family")) eqn:E; [apply text_eqb_eq in E; contradiction|]. apply firstn_first.
  - intros h J. split; [apply in_map, (sort_in (hit_cmp (q_sort a))), B, J|]. intros p K E. apply in_map_iff in K as (r & <- & K).
    refine (latest_best ord P S (sort_by (hit_cmp (q_sort a)) hits) TV _ h r J _ E).
    + intros x v X. apply (hits_versions re description names packages_of S a newer older V). apply sort_in in X. exact X.
    + apply sort_in. exact K.
  - intros p K. apply in_map_iff in K as (r & <- & K). apply C, sort_in, K.
Qed.
Print Assumptions C164_latest_partial.
Theorem C164_family_partial : forall re description ord (names : list text) (packages_of : text -> list package) (a : qargs) newer older (S : version -> Prop),
  (forall l, Permutation (ord l) l) -> q_type a = T "family" -> q_latest a = false ->
  transitive_versions S -> versions_in S (flat_map packages_of names) ->
  let hits := all_hits re description names packages_of a newer older in
  exists all, first_of (q_limit a) (shown_hits re description ord names packages_of a newer older) all /\ pairwise (shown_before a) all /\
    NoDup (map (fun h => p_name (h_package h)) all) /\
    (forall h, In h all -> In h hits /\ forall r, In r hits -> p_name (h_package r) = p_name (h_package h) -> h_score r <= h_score h) /\
    (forall r, In r hits -> exists h, In h all /\ p_name (h_package h) = p_name (h_package r)).
Proof.
  intros re description ord names packages_of a newer older S P F L TV V hits.
  exists (sort_by (hit_cmp (q_sort a)) (families ord hits)). destruct (one_each ord P family_step hits family_shape family_new) as (A & B & C).
  split; [unfold shown_hits; rewrite L, F; apply firstn_first|]. split; [|split; [|split]].
  - apply (sorted_hits a S); [exact TV|]. intros h v J E. apply (hits_versions re description names packages_of S a newer older V h v); [apply B, J|exact E].
  - eapply Permutation_NoDup; [apply Permutation_map, Permutation_sym, sort_perm|exact A].
  - intros h J. apply sort_in in J. split; [apply B, J|]. intros r K E. apply (family_best ord P hits h r J K E).
  - intros r K. destruct (C r K) as (h & J & E). exists h. split; [apply sort_in, J|exact E].
Qed.
Print Assumptions C164_family_partial.
(** the newest of each name are not shown in the asked order, and with a limit chance decides what is shown *)
Definition newest (q : string) (k : nat) : qargs := mkArgs (T q) false false false false false true k (T "name") None None (T "package") None.
Theorem C164_refuted : exists names packages_of ord, (forall l, Permutation (ord l) l) /\
  ~ pairwise (shown_before (newest "maya" 50)) (shown_hits no_re no_text ord names packages_of (newest "maya" 50) None None) /\
  shown_hits no_re no_text ord names packages_of (newest "maya" 1) None None <> shown_hits no_re no_text as_is names packages_of (newest "maya" 1) None None.
Proof.
  exists [T "amaya"; T "Maya"], repo1, turned. split; [intros l; symmetry; apply Permutation_rev|]. split.
  - intros H. match type of H with pairwise _ ?l => eassert (E : l = [_; _]) by (vm_compute; reflexivity) end. rewrite E in H. specialize (H [] _ [] _ [] eq_refl). vm_compute in H. congruence.
  - vm_compute. intros E. discriminate E.
Qed.
Print Assumptions C164_refuted.
Example C164_example :
  map (fun h => (p_name (h_package h), shown_version (p_version (h_package h)))) (shown_hits no_re no_text as_is [T "amaya"; T "Maya"] repo1 (newest "maya" 50) None None) =
  [(T "Maya", T "2025"); (T "amaya", T "1")].
Proof. vm_compute. reflexivity. Qed.

(** ** C165 *)
Theorem C165_times_partial : forall re description iso_datetime iso_date now ord (names : list text) (packages_of : text -> list package) (a : qargs) newer older hits,
  time_arg iso_datetime iso_date now (q_newer a) = Ok newer -> time_arg iso_datetime iso_date now (q_older a) = Ok older -> (forall l, Permutation (ord l) l) ->
  perform_search re description iso_datetime iso_date now ord names packages_of a = Ok hits ->
  forall h, In h hits -> in_time newer older (h_package h) /\ of_kind a (h_package h) /\ found_by re description a (h_package h) /\ In (h_package h) (flat_map packages_of names).
Proof.
  intros re description iso_datetime iso_date now ord names packages_of a newer older hits E1 E2 P E h J. unfold perform_search in E. rewrite E1, E2 in E. cbn [bind] in E. injection E as <-.
  assert (K : In h (all_hits re description names packages_of a newer older)).
  { unfold shown_hits in J.
    assert (I1 : forall k (l : list hit) x, In x (firstn k l) -> In x l) by (intros k l x X; rewrite <- (firstn_skipn k l); apply in_or_app; left; exact X).
    apply I1 in J.
    assert (I2 : In h (sort_by (hit_cmp (q_sort a)) (if text_eqb (q_type a) (T "family") then families ord (all_hits re description names packages_of a newer older) else all_hits re description names packages_of a newer older))).
    { destruct (q_latest a); [|exact J]. exact (proj1 (proj2 (one_each ord P latest_step _ latest_shape latest_new)) h J). }
    apply sort_in in I2. destruct (text_eqb (q_type a) (T "family")); [|exact I2]. exact (proj1 (proj2 (one_each ord P family_step _ family_shape family_new)) h I2). }
  apply all_hits_iff in K as (n & Jn & Jp & Ht & Hk & Ev). split; [exact Ht|]. split; [exact Hk|]. split; [apply evaluate_iff; exists h; exact Ev|apply in_flat_map; exists n; split; assumption].
Qed.
Print Assumptions C165_times_partial.
(** a text that is no time is no filter *)
Theorem C165_refuted : forall re description iso_datetime iso_date now ord (names : list text) (packages_of : text -> list package) (a b : qargs),
  iso_datetime (T "last week") = None -> iso_date (T "last week") = None -> q_newer a = Some (T "last week") ->
  b = mkArgs (q_query a) (q_description a) (q_tools a) (q_requirements a) (q_case a) (q_regex a) (q_latest a) (q_limit a) (q_sort a) None (q_older a) (q_type a) (q_variant a) ->
  perform_search re description iso_datetime iso_date now ord names packages_of a = perform_search re description iso_datetime iso_date now ord names packages_of b.
Proof.
  intros re description iso_datetime iso_date now ord names packages_of a b E1 E2 E3 ->. unfold perform_search. rewrite E3. cbn [time_arg q_newer q_older]. unfold parse_timestamp. rewrite E1, E2. reflexivity.
Qed.
Print Assumptions C165_refuted.
(** a package that does not say when it was made is older than everything *)
Theorem C165_unknown_refuted : forall p t, p_timestamp p = None -> (0 < t)%Z -> in_time None (Some t) p /\ ~ in_time (Some t) None p.
Proof.
  intros p t E H. split.
  - exists 0%Z. split; [right; split; [exact E|reflexivity]|]. split; [intros n X; discriminate X|intros o X; injection X as <-; exact H].
  - intros (u & [X|[_ ->]] & K & _); [congruence|]. specialize (K t eq_refl). lia.
Qed.
Print Assumptions C165_unknown_refuted.
Definition since (q : string) (t : string) : qargs := mkArgs (T q) false false false false false false 50 (T "name") (Some (T t)) None (T "package") None.
Definition no_date (s : text) : option Z := None.
Example C165_example :
  match perform_search no_re no_text no_date no_date 86420%Z as_is [T "amaya"; T "tool"; T "Maya"] repo1 (since "maya" "1d") with
  | Ok l => map (fun h => (p_name (h_package h), shown_version (p_version (h_package h)))) l = [(T "Maya", T "2024")]
  | _ => False
  end.
Proof. vm_compute. reflexivity. Qed.

(** ** C166 *)
Theorem C166_relative_partial : forall now (n : N) c k, (n <= I64_MAX)%N -> unit_of c k -> (0 <= now <= Z.of_N I64_MAX)%Z -> (Z.of_N n * k <= Z.of_N I64_MAX)%Z ->
  parse_relative_time now (show_N n ++ [c]) = Ok (Some (now - Z.of_N n * k)%Z).
Proof. exact relative_time. Qed.
Print Assumptions C166_relative_partial.
Theorem C166_spec : forall iso_datetime iso_date now s t, parse_time_spec iso_datetime iso_date now s = Ok t ->
  (0 <= t)%Z /\ (iso_datetime s = Some t \/ (iso_datetime s = None /\ iso_date s = Some t) \/ (iso_datetime s = None /\ iso_date s = None /\ parse_relative_time now s = Ok (Some t))).
Proof.
  intros iso_datetime iso_date now s t. unfold parse_time_spec, parse_timestamp. destruct (iso_datetime s) as [x|].
  - destruct (Z.leb_spec 0 x); [|discriminate]. intros E. injection E as <-. split; [assumption|left; reflexivity].
  - destruct (iso_date s) as [x|].
    + destruct (Z.leb_spec 0 x); [|discriminate]. intros E. injection E as <-. split; [assumption|right; left; split; reflexivity].
    + destruct (parse_relative_time now s) as [[x|]| |]; try discriminate. destruct (Z.leb_spec 0 x); [|discriminate]. intros E. injection E as <-. split; [assumption|]. right. right. repeat split.
Qed.
Print Assumptions C166_spec.
(** a negative number is a time to come, a great number comes round, a letter outside ASCII ends the program *)
Theorem C166_refuted : parse_relative_time 1700000000 (T "-1d") = Ok (Some 1700086400%Z) /\
  parse_relative_time 1700000000 (T "213503982334602d") = Ok (Some 1699938816%Z) /\
  parse_relative_time 1700000000 (T "1" ++ ["195"%char; "169"%char]) = Panic.
Proof. repeat split; vm_compute; reflexivity. Qed.
Print Assumptions C166_refuted.
Example C166_example : parse_relative_time 1700000000 (T " 2w ") = Ok (Some 1698790400%Z) /\ parse_relative_time 1700000000 (T "3h") = Ok None /\ parse_relative_time 1700000000 [] = Ok None.
Proof. repeat split; vm_compute; reflexivity. Qed.

(** ** C167 *)
Theorem C167_variant_partial : forall re description (names : list text) (packages_of : text -> list package) (a : qargs) newer older h,
  In h (all_hits re description names packages_of a newer older) -> q_type a <> T "family" ->
  (forall r, q_variant a = Some r -> variant_mentions r (h_package h)) /\ (q_type a = T "variant" -> p_variants (h_package h) <> []).
Proof. intros re description names packages_of a newer older h J F. apply all_hits_iff in J as (n & _ & _ & _ & [X|(_ & K & V)] & _); [contradiction|]. split; assumption. Qed.
Print Assumptions C167_variant_partial.
(** families are shown whatever their variants *)
Theorem C167_refuted : forall re description ord (names : list text) (packages_of : text -> list package) (a b : qargs) newer older,
  q_type a = T "family" -> b = mkArgs (q_query a) (q_description a) (q_tools a) (q_requirements a) (q_case a) (q_regex a) (q_latest a) (q_limit a) (q_sort a) (q_newer a) (q_older a) (q_type a) None ->
  shown_hits re description ord names packages_of a newer older = shown_hits re description ord names packages_of b newer older.
Proof.
  intros re description ord names packages_of [q d t r c x l k s n o y v] b newer older E ->. cbn in E. subst y. reflexivity.
Qed.
Print Assumptions C167_refuted.
Definition varied : package := mkPackage (T "maya") (parse_version (T "1")) [] [[T "python-3.9"; T "Linux"]] None [] 0%N.
Example C167_example : of_kind (mkArgs (T "") false false false false false false 50 (T "name") None None (T "variant") (Some (T "linux"))) varied /\
  ~ of_kind (mkArgs (T "") false false false false false false 50 (T "name") None None (T "variant") (Some (T "python-3.10"))) varied.
Proof.
  split; [apply kind_iff; [exact no_re|vm_compute; reflexivity]|]. intros H. apply (kind_iff no_re) in H. vm_compute in H. discriminate H.
Qed.

(** ** C168 *)
Theorem C168_regex_partial : forall re description (a : qargs) (p : package), q_regex a = true -> q_case a = true -> q_description a = true ->
  (found_by re description a p <-> exists m, re (q_query a) = Some m /\
    (m (p_name p) = true \/ (exists d, description (p_rest p) = Some d /\ m d = true) \/
     (q_tools a = true /\ exists t, In t (p_tools p) /\ m t = true) \/ (q_requirements a = true /\ exists t, In t (p_requires p) /\ m t = true))).
Proof.
  intros re description a p R C D. unfold found_by, finds, seen. rewrite R, C, D. split.
  - intros [(m & E & H)|[(_ & d & Ed & m & E & H)|[(Ft & t & J & m & E & H)|[(Fr & t & J & m & E & H)|(X & _)]]]]; [| | | |discriminate X]; exists m; (split; [exact E|]).
    + left. exact H.
    + right. left. exists d. split; assumption.
    + right. right. left. split; [exact Ft|]. exists t. split; assumption.
    + right. right. right. split; [exact Fr|]. exists t. split; assumption.
  - intros (m & E & [H|[(d & Ed & H)|[(Ft & t & J & H)|(Fr & t & J & H)]]]).
    + left. exists m. split; assumption.
    + right. left. split; [reflexivity|]. exists d. split; [exact Ed|]. exists m. split; assumption.
    + right. right. left. split; [exact Ft|]. exists t. split; [exact J|]. exists m. split; assumption.
    + right. right. right. left. split; [exact Fr|]. exists t. split; [exact J|]. exists m. split; assumption.
Qed.
Print Assumptions C168_regex_partial.
Definition pattern (q : string) : qargs := mkArgs (T q) false true false false true false 50 (T "name") None None (T "package") None.
(** without --case-sensitive a class of characters turns into its opposite *)
Theorem C168_refuted : forall re description m p, re (T "^\d+$") = Some m -> m (T "python") = false -> p_name p = T "python" -> p_tools p = [] ->
  ~ found_by re description (pattern "^\D+$") p.
Proof.
  intros re description m p E H N TL [F|[(X & _)|[(_ & t & J & _)|[(X & _)|(_ & X & _)]]]]; try discriminate X.
  - unfold finds in F. rewrite N in F. change (exists m, re (T "^\d+$") = Some m /\ m (T "python") = true) in F. destruct F as (m' & E' & H'). congruence.
  - rewrite TL in J. destruct J.
Qed.
Print Assumptions C168_refuted.
(** a faulty pattern is no error: it matches plain texts only, or nothing *)
Theorem C168_faulty : forall re description (a : qargs) (p : package), q_regex a = true -> re (if q_case a then q_query a else map to_lower (q_query a)) = None ->
  (found_by re description a p <-> no_field a /\ ((exists d, description (p_rest p) = Some d /\ occurs (seen a (q_query a)) (seen a d)) \/ (exists t, In t (p_tools p) /\ occurs (seen a (q_query a)) (seen a t)))).
Proof.
  intros re description a p R E. unfold found_by, no_field. assert (F : forall s, ~ finds re a s) by (intros s X; unfold finds in X; rewrite R in X; destruct X as (m & X & _); unfold seen in X; congruence). split.
  - intros [X|[(_ & d & _ & X)|[(_ & d & _ & X)|[(_ & d & _ & X)|X]]]]; try (destruct (F _ X)). tauto.
  - tauto.
Qed.
Print Assumptions C168_faulty.
Example C168_example : exists p, found_by (fun q => Some (fun s => starts_with (T "py") s)) no_text (pattern "^PY") p /\ p_name p = T "PyQt".
Proof. exists (qp "PyQt" "5" None []). split; [left; eexists; split; reflexivity|reflexivity]. Qed.

(** ** C169 *)
Theorem C169_paths : forall l s, separated ":"%char l s -> split_package_paths false s = filter (fun p => negb (is_nil p)) (map trim l).
Proof. intros l s H. apply (split_paths_iff false l s H). Qed.
Print Assumptions C169_paths.
Theorem C169_windows : forall l s, separated ";"%char l s -> split_package_paths true s = filter (fun p => negb (is_nil p)) (map trim l).
Proof. intros l s H. apply (split_paths_iff true l s H). Qed.
Print Assumptions C169_windows.
Theorem C169_there_and_back : forall l s, separated ":"%char l s -> Forall (tidy_path ":"%char) l -> split_package_paths false s = l.
Proof. intros l s H F. apply (split_tidy false l s H F). Qed.
Print Assumptions C169_there_and_back.
Theorem C169_home_partial : forall userprofile home h r, home = Some h -> userprofile = None -> h <> [] -> (forall x, h <> x ++ T "/") -> (forall x, r <> T "/" ++ x) ->
  expand_home userprofile home (T "~") = h /\ expand_home userprofile home (T "~/" ++ r) = h ++ T "/" ++ r.
Proof.
  intros userprofile home h r -> -> N E R. split; [reflexivity|]. change (expand_home None (Some h) (T "~/" ++ r)) with (path_join h r). unfold path_join.
  destruct (starts_with (T "/") r) eqn:S; [apply starts_with_spec in S as (x & S); destruct (R x S)|]. destruct h as [|c h]; [contradiction|]. cbn [is_nil orb].
  destruct (ends_with (T "/") (c :: h)) eqn:F; [apply ends_with_spec in F as (x & F); destruct (E x F)|reflexivity].
Qed.
Print Assumptions C169_home_partial.
Theorem C169_other : forall userprofile home p, p <> T "~" -> (forall r, p <> T "~/" ++ r) -> (forall r, p <> T "~\" ++ r) -> expand_home userprofile home p = p.
Proof.
  intros userprofile home p N1 N2 N3. unfold expand_home. destruct (text_eqb p (T "~")) eqn:E; [apply text_eqb_eq in E; contradiction|].
  assert (K : forall pre, (forall r, p <> pre ++ r) -> strip_prefix pre p = None).
  { intros pre H. destruct (strip_prefix pre p) as [r|] eqn:X; [|reflexivity]. apply Requirement_text.strip_prefix_spec in X. destruct (H r X). }
  rewrite (K _ N2), (K _ N3). reflexivity.
Qed.
Print Assumptions C169_other.
(** two slashes leave the home directory; another user's variable comes first *)
Theorem C169_refuted : expand_home None (Some (T "/home/ann")) (T "~//etc") = T "/etc" /\
  expand_home (Some (T "/mnt/c/Users/ann")) (Some (T "/home/ann")) (T "~/p") = T "/mnt/c/Users/ann/p" /\
  expand_home None (Some (T "/home/ann")) (T "~bob/p") = T "~bob/p".
Proof. repeat split; vm_compute; reflexivity. Qed.
Print Assumptions C169_refuted.
Example C169_example : split_package_paths false (T "/a: /b :::/c d") = [T "/a"; T "/b"; T "/c d"] /\ Forall (tidy_path ":"%char) [T "/a"; T "/c d"] /\ separated ":"%char [T "/a"; T "/c d"] (T "/a:/c d").
Proof.
  split; [vm_compute; reflexivity|]. split.
  - repeat constructor; try discriminate; intros J; cbn in J; repeat (destruct J as [J|J]; [discriminate J|]); destruct J.
  - apply (sep_more ":"%char (T "/a") [T "/c d"] (T "/c d")); [|constructor]; intros J; cbn in J; repeat (destruct J as [J|J]; [discriminate J|]); destruct J.
Qed.
