(** Properties C34, C35 and C74-C77: package filters. *)
From Verif Require Import Base Base_lemmas Version_model Range_model Requirement_model Requirement_spec Order_spec Filter_model Filter_spec Filter_proofs.
Open Scope string_scope. Open Scope list_scope.

(** ** Concrete data *)
(** a glob library that knows only texts without wildcards *)
Definition small_glob (s : text) : option (text -> bool) := Some (text_eqb s).
Definition pkg_of (name ver : string) (time : Z) : fpkg := mkFpkg (T name) (parse_version (T ver)) (Some (T "a tool")) (Some time).
Definition sample : pfilter :=
  match pfrom_pod small_regex ([T "*.beta"; T "glob(name:maya*)"; T "range(nuke-<2)"; T "before(100)"], [T "maya-2024"]) with Some f => f | None => no_pfilter end.

(** ** C34 *)
(** The filter crate: excluded iff an exclusion matches and no inclusion does; the rule returned is the first exclusion that matches. *)
Theorem C34_filter_crate : forall re f p,
  (exists d, pexcludes re f p = Some d) <-> hides (fun d p => pod_matches re d p = true) (pf_ex f) (pf_in f) p.
Proof. exact pexcludes_iff. Qed.
Print Assumptions C34_filter_crate.
Theorem C34_reported_rule : forall re f p d, pexcludes re f p = Some d ->
  exists before after, pf_ex f = before ++ d :: after /\ pod_matches re d p = true /\ forall x, In x before -> pod_matches re x p = false.
Proof. intros re f p d H. apply pexcludes_loop_some in H as (a & b & E & K & _ & K'). exists a, b. auto. Qed.
Print Assumptions C34_reported_rule.
(** [includes] is the opposite of [excludes]. *)
Theorem C34_includes : forall re f p, pincludes re f p = true <-> ~ exists d, pexcludes re f p = Some d.
Proof. intros re f p. rewrite pexcludes_iff. apply pincludes_iff. Qed.
Print Assumptions C34_includes.
(** The package crate: the rules for all packages and those of the package's own family count. *)
Theorem C34_package_crate : forall gl re f p, proper_map (f_ex f) -> proper_map (f_in f) ->
  (excludes gl re f p = true <->
   (exists r, concerns (f_ex f) (fp_name p) r /\ rmatches gl re r p = true) /\
   forall r, concerns (f_in f) (fp_name p) r -> rmatches gl re r p = false).
Proof. exact excludes_iff. Qed.
Print Assumptions C34_package_crate.
(** Every filter built by adding rules has each family once. *)
Theorem C34_built : forall k r f, proper_map (f_ex f) /\ proper_map (f_in f) ->
  (proper_map (f_ex (add_ex k r f)) /\ proper_map (f_in (add_ex k r f))) /\ (proper_map (f_ex (add_in k r f)) /\ proper_map (f_in (add_in k r f))).
Proof. intros k r f [H1 H2]. cbn [add_ex add_in f_ex f_in]. auto using rpush_proper. Qed.
Print Assumptions C34_built.
(** Filtering keeps the packages that are not excluded, in their order; a filter list excludes iff one of its filters does. *)
Theorem C34_lists : forall gl re fs p ps,
  (list_excludes gl re fs p = true <-> exists f, In f fs /\ excludes gl re f p = true) /\
  (forall ex : fpkg -> bool, (forall q, In q (filter_packages ex ps) <-> In q ps /\ ex q = false) /\
     (forall a b c, ps = a ++ b ++ c -> filter_packages ex ps = filter_packages ex a ++ filter_packages ex b ++ filter_packages ex c)).
Proof.
  intros gl re fs p ps. split; [unfold list_excludes; apply existsb_exists|]. intros ex. split.
  - intros q. unfold filter_packages. rewrite filter_In, negb_true_iff. reflexivity.
  - intros a b c ->. unfold filter_packages. rewrite !filter_app. reflexivity.
Qed.
Print Assumptions C34_lists.
Example C34_example :
  pexcludes small_regex sample (pkg_of "maya" "2023" 500) = Some (mkPod (T "glob") (T "name:maya*")) /\
  pexcludes small_regex sample (pkg_of "maya" "2024" 500) = None /\
  pexcludes small_regex sample (pkg_of "houdini" "1" 50) = Some (mkPod (T "before") (T "100")) /\
  let f := add_in (Some (T "a")) (RTime 10 true false) (add_ex None (RTime 100 false true) no_filter) in
  excludes small_glob small_regex f (pkg_of "a" "1" 50) = false /\ excludes small_glob small_regex f (pkg_of "b" "1" 50) = true.
Proof. vm_compute. repeat split; reflexivity. Qed.

(** ** C35 *)
(** The package crate forgets the family, drops the inclusive flag and cannot read its own exclusive timestamps. *)
Theorem C35_family_refuted : forall gl re, exists r p f',
  let f := add_ex (Some (T "maya")) r no_filter in
  from_pod gl re (to_pod (fun m => m) f) = Some f' /\ excludes gl re f p = false /\ excludes gl re f' p = true.
Proof.
  intros gl re. exists (RTime 10 true true), (pkg_of "nuke" "1" 5). eexists. cbv zeta. split; [reflexivity|]. split; reflexivity.
Qed.
Print Assumptions C35_family_refuted.
Theorem C35_inclusive_refuted : forall gl re, exists r p f',
  let f := add_ex None r no_filter in
  from_pod gl re (to_pod (fun m => m) f) = Some f' /\ excludes gl re f p = true /\ excludes gl re f' p = false.
Proof. intros gl re. exists (RTime 10 true true), (pkg_of "nuke" "1" 10). eexists. cbv zeta. split; [reflexivity|]. split; reflexivity. Qed.
Print Assumptions C35_inclusive_refuted.
Theorem C35_timestamp_refuted : forall gl re, exists r, from_pod gl re (to_pod (fun m => m) (add_ex None r no_filter)) = None.
Proof. intros gl re. exists (RTime 10 false true). reflexivity. Qed.
Print Assumptions C35_timestamp_refuted.
(** In the package crate, filters whose rules are for all packages and are globs, regular expressions or ranges that print faithfully
    survive, whatever the two libraries accept. *)
Theorem C35_package_crate_partial : forall gl re ord f, any_order ord -> global (f_ex f) -> global (f_in f) ->
  proper_map (f_ex f) -> proper_map (f_in f) -> (forall r, In r (rget None (f_ex f) ++ rget None (f_in f)) -> keeps gl re r) ->
  exists f', from_pod gl re (to_pod ord f) = Some f' /\ forall p, excludes gl re f' p = excludes gl re f p.
Proof. exact filter_roundtrip. Qed.
Print Assumptions C35_package_crate_partial.
(** In the filter crate every filter built from texts comes back as it was. *)
Theorem C35_filter_crate : forall re ex inc f, pfrom_pod re (ex, inc) = Some f -> pfrom_pod re (pto_pod f) = Some f.
Proof. exact texts_roundtrip. Qed.
Print Assumptions C35_filter_crate.
Example C35_example :
  pf_ex sample = [mkPod (T "glob") (T "name:*.beta"); mkPod (T "glob") (T "name:maya*"); mkPod (T "range") (T "nuke-<2"); mkPod (T "before") (T "100")] /\
  pfrom_pod small_regex (pto_pod sample) = Some sample /\
  let f := add_in None (RGlob (T "nuke")) (add_ex None (RRegex (T "^n.*$")) no_filter) in
  keeps small_glob small_regex (RGlob (T "nuke")) /\ keeps small_glob small_regex (RRegex (T "^n.*$")) /\
  to_pod (fun m => m) f = ([T "regex(^n.*$)"], [T "glob(nuke)"]).
Proof. split; [vm_compute; reflexivity|]. split; [vm_compute; reflexivity|]. cbv zeta. split; [vm_compute; discriminate|]. split; [vm_compute; discriminate|reflexivity]. Qed.

(** ** C74 *)
(** A backslash of a glob is not itself: it joins the escape of the next character. *)
Theorem C74_refuted : forall re, faithful re -> exists pat s, ~ glob_match pat s /\ matches_glob re pat s = true.
Proof.
  intros re Hre. exists (T "\."), (T "\x"). split.
  - intros H. inversion H as [| | |? ? ? _ _ H']; subst. inversion H'.
  - unfold matches_glob. destruct (Hre (glob_regex (T "\.")) [ALit "\"; AAny] eq_refl) as (m & -> & Hm). apply Hm. repeat constructor. discriminate.
Qed.
Print Assumptions C74_refuted.
(** Patterns without backslash, on texts without line feed, mean what globs mean, if the regex library keeps its promise on the few
    constructs that are used. *)
Theorem C74_globs_partial : forall re pat s, faithful re -> ~ In "\"%char pat -> ~ In line_feed s -> (matches_glob re pat s = true <-> glob_match pat s).
Proof. exact glob_meaning. Qed.
Print Assumptions C74_globs_partial.
Example C74_example : faithful small_regex /\ matches_glob small_regex (T "a.*(?)[b]+$") (T "a.xyz(!)[b]+$") = true /\
  matches_glob small_regex (T "a.*(?)[b]+$") (T "axxyz(!)[b]+$") = false.
Proof. split; [exact small_faithful|]. vm_compute. auto. Qed.

(** ** C75 *)
(** A version-range rule of the package crate, written for one family, matches packages of other families. *)
Theorem C75_refuted : exists s r p, parse_rule small_glob small_regex s = Some (RRange r) /\ rq_name r <> fp_name p /\
  rmatches small_glob small_regex (RRange r) p = true.
Proof.
  exists (T "range(foo<2.0)"), (match parse_requirement (T "foo<2.0") with Some r => r | None => req_new [] end), (pkg_of "bar" "1.0" 0).
  split; [vm_compute; reflexivity|]. split; [vm_compute; discriminate|vm_compute; reflexivity].
Qed.
Print Assumptions C75_refuted.
(** In the package crate the name of the rule is never read. *)
Theorem C75_name_unread : forall gl re r p name, rmatches gl re (RRange r) p =
  rmatches gl re (RRange (mkReq name (rq_constraint r) (rq_weak r) (rq_conflict r) (rq_platform r) (rq_env r) (rq_namespace r))) p.
Proof. reflexivity. Qed.
Print Assumptions C75_name_unread.
(** In the filter crate a range rule with a family matches exactly the versions of that family in the range. *)
Theorem C75_family_partial : forall re r f p, papply re (PRange r (Some f)) p = true <->
  fp_name p = f /\ exists v, fp_version p = Some v /\ contains r v = true.
Proof.
  intros re r f p. cbn [papply]. rewrite andb_true_iff, text_eqb_eq. split; intros [H1 H2]; (split; [exact H1|]).
  - destruct (fp_version p) as [v|]; [eauto|discriminate].
  - destruct H2 as (v & -> & H2). exact H2.
Qed.
Print Assumptions C75_family_partial.
Example C75_example : exists r, parse_prule small_regex (T "nuke-<2") = Some (PRange r (Some (T "nuke"))) /\
  papply small_regex (PRange r (Some (T "nuke"))) (pkg_of "nuke" "1" 0) = true /\ papply small_regex (PRange r (Some (T "nuke"))) (pkg_of "maya" "1" 0) = false.
Proof. exists (match parse_range (T "<2") with Some r => r | None => range_any end). vm_compute. auto. Qed.

(** ** C76 *)
(** Two filters that exclude different packages have the same digested text, hence the same digest. *)
Theorem C76_refuted : exists f g p, pfilter_text f = pfilter_text g /\ pexcludes small_regex f p <> None /\ pexcludes small_regex g p = None.
Proof.
  exists (mkPfilter [mkPod (T "glob") (T "name:a"); mkPod (T "glob") (T "name:b")] []), (mkPfilter [mkPod (T "glob") (T "name:a, glob:name:b")] []), (pkg_of "b" "1" 0).
  split; [reflexivity|]. split; [vm_compute; discriminate|vm_compute; reflexivity].
Qed.
Print Assumptions C76_refuted.
(** Without commas and closing square brackets in the patterns the digested text determines the filter. *)
Theorem C76_digest_partial : forall f g, simple_filter f -> simple_filter g -> pfilter_text f = pfilter_text g -> f = g.
Proof. exact filter_text_inj. Qed.
Print Assumptions C76_digest_partial.
Example C76_example : simple_filter sample /\
  pfilter_text sample = T "PackageFilter(exclusions=[glob:name:*.beta, glob:name:maya*, range:nuke-<2, before:100], inclusions=[range:maya-2024])".
Proof.
  split; [|vm_compute; reflexivity]. intros d Hd. vm_compute in Hd.
  repeat (destruct Hd as [<-|Hd]; [repeat split; cbn; try (intros c Hc; repeat (destruct Hc as [<-|Hc]; [reflexivity|]); destruct Hc); intuition discriminate|]). destruct Hd.
Qed.

(** ** C77 *)
(** A range with a dash, given without family, is turned into a rule for a family when it is added. *)
Theorem C77_refuted : forall re, exists r p, new_range (r_str r) None = Some (PRange r None) /\ papply re (PRange r None) p = true /\
  pexcludes re (padd_ex (PRange r None) no_pfilter) p = None.
Proof.
  intros re. exists (match parse_range (T "1.0-beta") with Some r => r | None => range_any end), (pkg_of "maya" "1.0-beta" 0).
  split; [vm_compute; reflexivity|]. split; vm_compute; reflexivity.
Qed.
Print Assumptions C77_refuted.
(** A family with a dash is cut at the dash. *)
Theorem C77_family_refuted : forall re, exists r f p, new_range (r_str r) (Some f) = Some (PRange r (Some f)) /\ papply re (PRange r (Some f)) p = true /\
  pexcludes re (padd_ex (PRange r (Some f)) no_pfilter) p = None.
Proof.
  intros re. exists (match parse_range (T "2024") with Some r => r | None => range_any end), (T "my-tool"), (pkg_of "my-tool" "2024" 0).
  split; [vm_compute; reflexivity|]. split; vm_compute; reflexivity.
Qed.
Print Assumptions C77_family_refuted.
(** All other rules are applied as given, and the filter comes back from plain data as it was. *)
Theorem C77_as_given_partial : forall re (rs is : list prule), (forall r, In r (rs ++ is) -> kept_rule re r) ->
  let f := fold_left (fun f r => padd_in r f) is (fold_left (fun f r => padd_ex r f) rs no_pfilter) in
  pfrom_pod re (pto_pod f) = Some f /\
  (forall p, (exists d, pexcludes re f p = Some d) <-> hides (fun r p => papply re r p = true) rs is p).
Proof. exact rules_roundtrip. Qed.
Print Assumptions C77_as_given_partial.
(** Every rule read from a text is such a rule. *)
Theorem C77_texts : forall re s r, parse_prule re s = Some r -> kept_rule re r.
Proof. exact parse_kept. Qed.
Print Assumptions C77_texts.
Example C77_example : kept_rule small_regex (PGlob (T "a*") FName) /\ kept_rule small_regex (PTime 5 true) /\
  exists r, new_range (T ">=1,<2") (Some (T "maya")) = Some r /\ kept_rule small_regex r.
Proof.
  split; [discriminate|]. split; [vm_compute; discriminate|].
  exists (PRange (match parse_range (T ">=1,<2") with Some r => r | None => range_any end) (Some (T "maya"))). split; [vm_compute; reflexivity|].
  split; [vm_compute; reflexivity|]. cbn. intuition discriminate.
Qed.
