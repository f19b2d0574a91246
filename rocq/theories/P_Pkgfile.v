(** Properties C136 to C145: package files. *)
From Verif Require Import Base Base_lemmas Maps Json Version_model Rex_model Requirement_model Pyfile_model Pkgfile_model Pkgfile_spec Pkgfile_python Pkgfile_loads Pkgfile_writers Pkgfile_proofs Pkgfile_files Pkgfile_whole.
Open Scope string_scope. Open Scope list_scope.

(** ** Packages for the examples *)
Definition v123 : version := Eval vm_compute in match parse_version (T "1.2.3") with Some v => v | None => mkVersion [] [] [] end.
Definition boost : pkg :=
  set_tools [T "b2"; T "bjam"] (set_variants [[T "python-3.9"; T "gcc-11"]; [T "python-3.10"]] (set_private_build_requires [T "cmake"] (set_build_requires [T "gcc-11+"]
    (set_requires [T "python-3"; T "!numpy-2"] (set_authors [T "Ann Author"; T "Bob"] (set_description (Some (T "C++ libraries")) (set_version (Some v123) (new_pkg (T "boost"))))))))).
Definition with_commands (s : text) (p : pkg) : pkg :=
  mkPkg (k_name p) (k_version p) (k_description p) (k_authors p) (k_requires p) (k_build_requires p) (k_private_build_requires p) (k_variants p) (k_tools p)
    (Some s) (k_build_command p) (k_build_system p) (k_pre_commands p) (k_post_commands p) (k_pre_test_commands p) (k_pre_build_commands p) (k_tests p)
    (k_requires_rez_version p) (k_uuid p) (k_help p) (k_relocatable p) (k_cachable p) (k_timestamp p) (k_revision p) (k_changelog p) (k_release_message p)
    (k_previous_version p) (k_previous_revision p) (k_vcs p) (k_format_version p) (k_base p) (k_has_plugins p) (k_plugin_for p) (k_hashed_variants p) (k_preprocess p)
    (k_is_dev_package p) (k_commands_function p) (k_config p) (k_filepath p) (k_includes p).
Definition world0 : world := mkWorld (fun _ => None) (T "linux") (T "posix").
Lemma not_in_b s l : existsb (text_eqb s) l = false -> ~ In s l.
Proof. intros E I. assert (E' : existsb (text_eqb s) l = true) by (apply existsb_exists; exists s; split; [exact I|apply text_eqb_refl]). congruence. Qed.
Lemma boost_acceptable : acceptable boost.
Proof. apply valid_iff. reflexivity. Qed.
Lemma boost_version : versions_ok boost.
Proof. split; [reflexivity|exact I]. Qed.
Lemma boost_sized : sized boost.
Proof. split; [discriminate|]. split; [discriminate|constructor]. Qed.
Lemma all_plain l : forallb (fun s => forallb (fun c => negb (existsb (Ascii.eqb c) [DQ; BS; NL; CR; "000"%char])) s) l = true -> plain_all l.
Proof. intros H s I. apply plainb. rewrite forallb_forall in H. exact (H s I). Qed.
Lemma boost_plain : plain_eight boost.
Proof.
  split; [apply plainb; reflexivity|]. split; [apply plainb; reflexivity|]. split; [apply plainb; reflexivity|]. split; [apply all_plain; reflexivity|]. split; [apply all_plain; reflexivity|].
  split; [apply all_plain; reflexivity|]. split; [|apply all_plain; reflexivity]. intros v [<-|[<-|[]]]; apply all_plain; reflexivity.
Qed.

(** ** C136: package.py texts of the serializer *)
Theorem C136_python_partial L now w path o p : python_library L -> plain now -> plain_eight p -> acceptable p -> version_ok (k_version p) ->
  load_python L w (save_to_string L now p Python) = Ok (only_eight p) /\
  (from_extension path = Some Python -> load_from_file L w path (save_to_file L now p path Python o) = Ok (only_eight (filter_fields o p))).
Proof.
  intros HL Hn P A V. split; [apply python_text; assumption|]. intros E. apply python_file; assumption.
Qed.
Print Assumptions C136_python_partial.
(** a description decides about other fields: it is not escaped *)
Definition sneaky : pkg := set_description (Some (T "x" ++ DQ :: NL :: T "name = " ++ DQ :: T "evil")) (set_version (Some v123) (new_pkg (T "boost"))).
Theorem C136_refuted L now w : python_library L -> acceptable sneaky /\ versions_ok sneaky /\
  exists q, load_python L w (save_to_string L now sneaky Python) = Ok q /\ k_name q = T "evil" /\ k_name sneaky = T "boost".
Proof.
  intros HL. split; [apply valid_iff; reflexivity|]. split; [split; [reflexivity|exact I]|].
  assert (E : python_reads (save_python now minimal_options sneaky) =
    Some [SAssign [EName (T "name")] (EConst (KStr (T "boost"))); SAssign [EName (T "version")] (EConst (KStr (T "1.2.3"))); SAssign [EName (T "description")] (EConst (KStr (T "x")));
          SAssign [EName (T "name")] (EConst (KStr (T "evil")))]) by (vm_compute; reflexivity).
  unfold save_to_string, load_python. rewrite (HL _ _ E). eexists. split; [vm_compute; reflexivity|]. split; reflexivity.
Qed.
Print Assumptions C136_refuted.
(** the commands of a package are never in its package.py *)
Theorem C136_commands_refuted L now w p q : python_library L -> plain now -> plain_eight p -> acceptable p -> version_ok (k_version p) ->
  load_python L w (save_to_string L now p Python) = Ok q -> k_commands q = None /\ k_private_build_requires q = [] /\ k_tests q = [] /\ k_uuid q = None /\ k_relocatable q = None.
Proof.
  intros HL Hn P A V E. assert (E' : load_python L w (save_to_string L now p Python) = Ok (only_eight p)) by (apply python_text; assumption).
  rewrite E' in E. injection E as <-. repeat split.
Qed.
Print Assumptions C136_commands_refuted.
Example C136_example : load_python sample world0 (save_to_string sample (T "2026-01-01T00:00:00Z") boost Python) = Ok (only_eight boost) /\ k_requires (only_eight boost) = [T "python-3"; T "!numpy-2"].
Proof.
  split; [|reflexivity]. apply (C136_python_partial sample _ world0 (T "x/package.py") default_options boost); [apply sample_ok|apply plainb; reflexivity|exact boost_plain|exact boost_acceptable|apply boost_version].
Qed.

(** ** C137: package.py texts of [Package::to_package_py] *)
Theorem C137_values_partial L w p : python_library L -> plain_ten p -> values_only p -> acceptable p -> version_ok (k_version p) -> load_python L w (to_package_py p) = Ok (only_ten p).
Proof. exact (mt_text L w p). Qed.
Print Assumptions C137_values_partial.
(** with a flag or a test the text is never loaded *)
Theorem C137_flags_refuted L w p : python_library L -> plain_ten p -> k_commands p = None -> k_pre_commands p = None -> k_post_commands p = None ->
  (forall b, In b (k_tests p) -> plain (fst b)) -> k_relocatable p <> None \/ k_cachable p <> None \/ k_tests p <> [] -> load_python L w (to_package_py p) = Err.
Proof. exact (mt_text_fails L w p). Qed.
Print Assumptions C137_flags_refuted.
Lemma boost_ten p : p = boost \/ p = set_relocatable (Some true) boost -> plain_ten p.
Proof.
  intros Hp. assert (H : plain_ten boost).
  { split; [apply plainb; reflexivity|]. split; [apply plainb; reflexivity|]. split; [apply plain_quotable, plainb; reflexivity|].
    split; [intros a I; apply plain_quotable; revert a I; apply all_plain; reflexivity|]. split; [apply all_plain; reflexivity|].
    split; [apply all_plain; reflexivity|]. split; [apply all_plain; reflexivity|]. split; [intros v [<-|[<-|[]]]; apply all_plain; reflexivity|]. split; [apply all_plain; reflexivity|exact I]. }
  destruct Hp as [-> | ->]; exact H.
Qed.
Example C137_example : load_python sample world0 (to_package_py boost) = Ok (only_ten boost) /\ load_python sample world0 (to_package_py (set_relocatable (Some true) boost)) = Err.
Proof.
  split.
  - apply C137_values_partial; [apply sample_ok|apply boost_ten; left; reflexivity|repeat split|exact boost_acceptable|apply boost_version].
  - apply C137_flags_refuted; [apply sample_ok|apply boost_ten; right; reflexivity|reflexivity|reflexivity|reflexivity|intros b []|left; discriminate].
Qed.

(** ** C138: package.py texts of the Python class *)
Lemma own_description q : set_description (k_description q) q = q.
Proof. destruct q. reflexivity. Qed.
Theorem C138_short_partial L w p : python_library L -> plain_eight p -> plain_opt (k_uuid p) -> k_commands p = None -> acceptable p -> version_ok (k_version p) ->
  (forall d, k_description p = Some d -> length d <= 40) -> load_python L w (binding_package_py p) = Ok (only_eleven p).
Proof.
  intros HL P U E A V D. assert (F : framed_description p = k_description p).
  { unfold framed_description. destruct (k_description p) as [d|]; [|reflexivity]. specialize (D d eq_refl). destruct (Nat.ltb_spec 40 (length d)); [lia|reflexivity]. }
  etransitivity; [exact (pb_text L w p HL P U E A V)|]. rewrite F. exact (f_equal Ok (own_description (only_eleven p))).
Qed.
Print Assumptions C138_short_partial.
(** a longer description comes back with a line feed before and after it *)
Theorem C138_long_refuted L w p d : python_library L -> plain_eight p -> plain_opt (k_uuid p) -> k_commands p = None -> acceptable p -> version_ok (k_version p) ->
  k_description p = Some d -> 40 < length d -> exists q, load_python L w (binding_package_py p) = Ok q /\ k_description q = Some (NL :: d ++ [NL]) /\ k_description q <> k_description p.
Proof.
  intros HL P U E A V Ed D. exists (set_description (framed_description p) (only_eleven p)). split; [apply pb_text; assumption|].
  assert (F : framed_description p = Some (NL :: d ++ [NL])) by (unfold framed_description; rewrite Ed; destruct (Nat.ltb_spec 40 (length d)); [reflexivity|lia]).
  change (k_description (set_description (framed_description p) (only_eleven p))) with (framed_description p). rewrite F. split; [reflexivity|]. rewrite Ed. intros H. injection H as H.
  apply (f_equal (@length ascii)) in H. cbn [length] in H. rewrite app_length in H. cbn in H. lia.
Qed.
Print Assumptions C138_long_refuted.
Definition wordy : pkg := set_description (Some (T "Portable libraries for C++ that have been reviewed by peers")) boost.
Lemma wordy_plain : plain_eight wordy.
Proof. destruct boost_plain as (P1 & P2 & _ & P). split; [exact P1|]. split; [exact P2|]. split; [apply plainb; reflexivity|exact P]. Qed.
Example C138_example : load_python sample world0 (binding_package_py (set_cachable (Some false) boost)) = Ok (only_eleven (set_cachable (Some false) boost)) /\
  exists q, load_python sample world0 (binding_package_py wordy) = Ok q /\ k_description q <> k_description wordy.
Proof.
  split.
  - apply C138_short_partial; [apply sample_ok|exact boost_plain|exact I|reflexivity|exact boost_acceptable|apply boost_version|intros d E; injection E as <-; cbn; lia].
  - destruct (C138_long_refuted sample world0 wordy _ (proj2 (proj2 (proj2 (proj2 (proj2 sample_ok))))) wordy_plain I eq_refl boost_acceptable (proj1 boost_version) eq_refl ltac:(cbn; lia)) as (q & E & _ & N).
    exists q. exact (conj E N).
Qed.

(** ** C139: JSON and YAML texts *)
Theorem C139_trees_partial L now w p f : json_library L -> yaml_library L -> sized p -> version_ok (k_version p) -> data_format f ->
  (acceptable p -> load_from_string L w (save_to_string L now p f) f = Ok (only_nine p)) /\ (~ acceptable p -> load_from_string L w (save_to_string L now p f) f = Err).
Proof.
  intros HJ HY S V F. assert (E : load_from_string L w (save_to_string L now p f) f = if valid p then Ok (only_nine p) else Err).
  { destruct F as [-> | [-> | [-> | ->]]]; [apply (yaml_text L w p Yaml)|apply (json_text L w true p Json)|apply (yaml_text L w p YamlGz)|apply (json_text L w true p JsonGz)]; auto. }
  rewrite E. split; intros A.
  - apply valid_iff in A. rewrite A. reflexivity.
  - destruct (valid p) eqn:Vp; [apply valid_iff in Vp; contradiction|reflexivity].
Qed.
Print Assumptions C139_trees_partial.
(** the text holds the commands, the loaded package does not *)
Theorem C139_refuted L now w p q f s : json_library L -> yaml_library L -> sized p -> version_ok (k_version p) -> data_format f -> k_commands p = Some s ->
  load_from_string L w (save_to_string L now p f) f = Ok q -> aget (T "commands") (ser_fields p) = Some (JStr s) /\ k_commands q = None.
Proof.
  intros HJ HY S V F C E. split; [transitivity (Some (jopt JStr (k_commands p))); [reflexivity|rewrite C; reflexivity]|].
  destruct (C139_trees_partial L now w p f HJ HY S V F) as [A B].
  destruct (valid p) eqn:Vp; [apply valid_iff in Vp; rewrite (A Vp) in E; injection E as <-; reflexivity|].
  rewrite B in E; [discriminate|]. intros Ac. apply valid_iff in Ac. congruence.
Qed.
Print Assumptions C139_refuted.
(** a document with a key that is no text is refused *)
Theorem C139_keys m k v : In (k, v) m -> (forall s, k <> YStr s) -> load_yaml_tree (YMap m) = Err.
Proof.
  intros I N. cbn [load_yaml_tree]. assert (E : yaml_keys m = None); [|rewrite E; reflexivity]. induction m as [|[x w] m IH]; [destruct I|]. destruct I as [I|I].
  - injection I as -> ->. destruct k; try reflexivity. destruct (N s eq_refl).
  - cbn [yaml_keys]. rewrite (IH I). destruct x; reflexivity.
Qed.
Print Assumptions C139_keys.
Example C139_example : load_from_string sample world0 (save_to_string sample [] boost Yaml) Yaml = Ok (only_nine boost) /\
  (exists q, load_from_string sample world0 (save_to_string sample [] (with_commands (T "env.X = 1") boost) Json) Json = Ok q /\ k_commands q = None).
Proof.
  destruct sample_ok as (HJ & HY & _). split.
  - apply (C139_trees_partial sample [] world0 boost Yaml HJ HY boost_sized (proj1 boost_version)); [left; reflexivity|exact boost_acceptable].
  - exists (only_nine (with_commands (T "env.X = 1") boost)). split; [|reflexivity].
    apply (C139_trees_partial sample [] world0 (with_commands (T "env.X = 1") boost) Json HJ HY boost_sized (proj1 boost_version)); [right; left; reflexivity|apply valid_iff; reflexivity].
Qed.

(** ** C140: JSON and YAML files *)
(** what is saved with metadata, as by default, is never loaded *)
Theorem C140_refuted L now w p path f o : json_library L -> yaml_library L -> gzip_library L -> sized p -> o_metadata o = true -> data_format f -> from_extension path = Some f ->
  load_from_file L w path (save_to_file L now p path f o) = Err.
Proof. exact (container_file L now w p path f o). Qed.
Print Assumptions C140_refuted.
Theorem C140_plain_partial L now w p path f o : json_library L -> yaml_library L -> gzip_library L -> sized p -> version_ok (k_version p) -> acceptable p -> data_format f -> from_extension path = Some f ->
  o_metadata o = false -> (o_pretty o = true -> f = Json \/ f = JsonGz) ->
  load_from_file L w path (save_to_file L now p path f o) = Ok (only_nine (filter_fields o p)).
Proof.
  intros HJ HY HG S V A F E M Pr. destruct (o_pretty o) eqn:Ep.
  - apply json_file; auto.
  - destruct F as [-> | [-> | [-> | ->]]]; [apply yaml_file|apply json_file|apply yaml_file|apply json_file]; auto.
Qed.
Print Assumptions C140_plain_partial.
Example C140_example : load_from_file sample world0 (T "repo/boost/package.yaml") (save_to_file sample [] boost (T "repo/boost/package.yaml") Yaml default_options) = Err /\
  load_from_file sample world0 (T "repo/boost/package.json.gz") (save_to_file sample [] boost (T "repo/boost/package.json.gz") JsonGz minimal_options) = Ok (only_nine boost).
Proof.
  destruct sample_ok as (HJ & HY & _ & HG & _). split.
  - apply C140_refuted; try assumption; [exact boost_sized|reflexivity|left; reflexivity|reflexivity].
  - apply (C140_plain_partial sample [] world0 boost _ JsonGz minimal_options); try assumption; [exact boost_sized|apply boost_version|exact boost_acceptable|right; right; right; reflexivity|reflexivity|reflexivity|discriminate].
Qed.

(** ** C141: the binary format *)
(** a text that was saved is never loaded: one of the values that are read was not written *)
Theorem C141_text_refuted L now w p : bin_library L -> load_from_string L w (save_to_string L now p Binary) Binary = Err.
Proof. exact (binary_text L w p). Qed.
Print Assumptions C141_text_refuted.
(** a file is loaded with everything that is written, whatever the options leave out *)
Theorem C141_file_partial L now w p path o : json_library L -> sized p -> versions_ok p -> from_extension path = Some Binary ->
  load_from_file L w path (save_to_file L now p path Binary o) = Ok (only_written p).
Proof. exact (binary_file L now w p path o). Qed.
Print Assumptions C141_file_partial.
Example C141_example : load_from_string sample world0 (save_to_string sample [] boost Binary) Binary = Err /\
  load_from_file sample world0 (T "package.bin") (save_to_file sample [] (with_commands (T "env.X = 1") boost) (T "package.bin") Binary compact_options) = Ok (with_commands (T "env.X = 1") boost).
Proof.
  destruct sample_ok as (HJ & _ & _ & _ & HB & _). split; [apply C141_text_refuted, HB|].
  rewrite (C141_file_partial sample [] world0 (with_commands (T "env.X = 1") boost) (T "package.bin") compact_options HJ boost_sized boost_version eq_refl). reflexivity.
Qed.

(** ** C142: TOML *)
Theorem C142_toml L now w p path o : toml_library L -> sized p -> versions_ok p ->
  load_from_string L w (save_to_string L now p Toml) Toml = Ok (only_written p) /\
  (from_extension path = Some Toml -> load_from_file L w path (save_to_file L now p path Toml o) = Ok (only_written (filter_fields o p))).
Proof. intros HL S V. split; [apply toml_text; assumption|]. intros E. apply toml_file; assumption. Qed.
Print Assumptions C142_toml.
Example C142_example : load_from_file sample world0 (T "d/package.toml") (save_to_file sample [] (with_commands (T "env.X = 1") boost) (T "d/package.toml") Toml compact_options) =
  Ok (set_description None (with_commands (T "env.X = 1") boost)).
Proof.
  destruct sample_ok as (_ & _ & HT & _). rewrite (proj2 (C142_toml sample [] world0 (with_commands (T "env.X = 1") boost) (T "d/package.toml") compact_options HT boost_sized boost_version) eq_refl). reflexivity.
Qed.

(** ** C143: XML *)
Theorem C143_tags_partial L now w p path o : version_ok (k_version p) -> tagless_five p ->
  load_from_string L w (save_to_string L now p Xml) Xml = Ok (only_three p) /\
  (from_extension path = Some Xml -> load_from_file L w path (save_to_file L now p path Xml o) = Ok (only_three (filter_fields o p))).
Proof. intros V N. split; [apply load_save_xml; assumption|]. intros E. apply xml_file; assumption. Qed.
Print Assumptions C143_tags_partial.
(** a description decides about the version; a text with its tags the wrong way round is a panic; requirements are written and not read *)
Definition tagged_boost : pkg := set_description (Some (T "was <version>9</version>")) (new_pkg (T "boost")).
Theorem C143_refuted L now w : acceptable tagged_boost /\
  (exists q v, load_from_string L w (save_to_string L now tagged_boost Xml) Xml = Ok q /\ k_version q = Some v /\ v_str v = T "9" /\ k_version tagged_boost = None) /\
  load_from_string L w (T "</name><name>boost") Xml = Panic /\
  (exists q, load_from_string L w (save_to_string L now boost Xml) Xml = Ok q /\ k_requires q = [] /\ k_requires boost <> []).
Proof.
  split; [apply valid_iff; reflexivity|]. split.
  - eexists. eexists. split; [vm_compute; reflexivity|]. split; [reflexivity|]. split; reflexivity.
  - split; [reflexivity|]. eexists. split; [vm_compute; reflexivity|]. split; [reflexivity|discriminate].
Qed.
Print Assumptions C143_refuted.
(** a text that is no version leaves the package without one and changes nothing else *)
Theorem C143_bad_version : load_xml (T "<name>a</name><version>1@0</version>") = Ok (new_pkg (T "a")) /\ parse_version (T "1@0") = None /\
  load_xml (T "<name>a</name><version>1@0</version><description>d</description>") = Ok (set_description (Some (T "d")) (new_pkg (T "a"))).
Proof. repeat split; vm_compute; reflexivity. Qed.
Print Assumptions C143_bad_version.
Example C143_example : load_from_string sample world0 (save_to_string sample [] boost Xml) Xml = Ok (only_three boost) /\ k_description (only_three boost) = Some (T "C++ libraries").
Proof.
  split; [|reflexivity]. assert (B : forall s, existsb (Ascii.eqb "<"%char) s = false -> tagless s).
  { intros s E I. assert (E' : existsb (Ascii.eqb "<"%char) s = true) by (apply existsb_exists; exists "<"%char; split; [exact I|reflexivity]). congruence. }
  assert (F : tagless_five boost).
  { split; [apply B; reflexivity|]. split; [intros v E; injection E as <-; apply B; reflexivity|]. split; [intros d E; injection E as <-; apply B; reflexivity|].
    split; intros a I; cbn in I; repeat (destruct I as [<-|I]; [apply B; reflexivity|]); destruct I. }
  exact (proj1 (C143_tags_partial sample [] world0 boost (T "package.xml") default_options (proj1 boost_version) F)).
Qed.

(** ** C144: fields that are left out or asked for *)
Theorem C144_filter_partial o p :
  k_name (filter_fields o p) = k_name p /\
  k_description (filter_fields o p) = (if kept o (T "description") then k_description p else None) /\
  k_authors (filter_fields o p) = (if kept o (T "authors") then k_authors p else []) /\
  k_tools (filter_fields o p) = (if kept o (T "tools") then k_tools p else []) /\
  (o_exclude o = None ->
     k_version (filter_fields o p) = (if kept o (T "version") then k_version p else None) /\
     k_requires (filter_fields o p) = (if kept o (T "requires") then k_requires p else []) /\
     k_build_requires (filter_fields o p) = (if kept o (T "build_requires") then k_build_requires p else []) /\
     k_variants (filter_fields o p) = (if kept o (T "variants") then k_variants p else [])) /\
  (o_only o = None -> k_help (filter_fields o p) = if kept o (T "help") then k_help p else None).
Proof.
  assert (K : forall x, o_exclude o = None -> kept o x = asked o x) by (intros x E; unfold kept, asked; rewrite E; reflexivity).
  split; [apply filter_name|]. split; [apply filter_description|]. split; [apply filter_authors|]. split; [apply filter_tools|]. split.
  - intros E. rewrite !(K _ E). split; [apply filter_version|]. split; [apply filter_requires|]. split; [apply filter_build_requires|apply filter_variants].
  - intros E. rewrite filter_help, E, kept_split. unfold asked. rewrite E, andb_true_r. destruct (left_out o _); reflexivity.
Qed.
Print Assumptions C144_filter_partial.
(** other fields that are left out stay, other fields that are asked for are lost *)
Theorem C144_refuted o p :
  (k_version (filter_fields o p) = if asked o (T "version") then k_version p else None) /\
  (k_requires (filter_fields o p) = if asked o (T "requires") then k_requires p else []) /\
  (forall l, o_only o = Some l -> k_commands (filter_fields o p) = None /\ k_help (filter_fields o p) = None /\ k_tests (filter_fields o p) = [] /\ k_private_build_requires (filter_fields o p) = []) /\
  (o_only o = None -> k_commands (filter_fields o p) = k_commands p /\ k_tests (filter_fields o p) = k_tests p /\ k_private_build_requires (filter_fields o p) = k_private_build_requires p).
Proof.
  split; [apply filter_version|]. split; [apply filter_requires|]. pose proof (filter_rest o p) as H. split.
  - intros l E. split; [|split; [|split]]; [|rewrite filter_help, E; reflexivity| |]; rewrite E in H.
    + exact (f_equal k_commands H).
    + exact (f_equal k_tests H).
    + exact (f_equal k_private_build_requires H).
  - intros E. rewrite E in H. split; [exact (f_equal k_commands H)|]. split; [exact (f_equal k_tests H)|exact (f_equal k_private_build_requires H)].
Qed.
Print Assumptions C144_refuted.
Example C144_example :
  k_requires (filter_fields (mkOptions true false false 6 None (Some [T "requires"])) boost) = [T "python-3"; T "!numpy-2"] /\
  k_commands (filter_fields (mkOptions true false false 6 (Some [T "commands"]) None) (with_commands (T "env.X = 1") boost)) = None /\
  k_authors (filter_fields (mkOptions true false false 6 (Some [T "authors"; T "tools"]) (Some [T "authors"])) boost) = [] /\
  k_tools (filter_fields (mkOptions true false false 6 (Some [T "authors"; T "tools"]) (Some [T "authors"])) boost) = [T "b2"; T "bjam"].
Proof. repeat split. Qed.

(** ** C145: the name of the file gives the format *)
Theorem C145_names d f : from_extension (d ++ "/"%char :: default_filename f) = Some f /\ from_extension (default_filename f) = Some f.
Proof. split; [apply format_of_default|destruct f; reflexivity]. Qed.
Print Assumptions C145_names.
(** slashes and dots behind a path make no difference to its file name *)
Theorem C145_behind d : file_name (d ++ T "/") = file_name d /\ file_name (d ++ T "/.") = file_name d.
Proof.
  split; unfold file_name, path_parts.
  - change (d ++ T "/") with (d ++ "/"%char :: []). rewrite Text_lemmas.split_on_app_gen, filter_app. cbn [split_on filter is_nil orb negb]. rewrite app_nil_r. reflexivity.
  - change (d ++ T "/.") with (d ++ "/"%char :: T "."). rewrite Text_lemmas.split_on_app_gen, filter_app. change (filter (fun c : text => negb (is_nil c || text_eqb c (T "."))) (split_on "/"%char (T "."))) with (@nil text). rewrite app_nil_r. reflexivity.
Qed.
Print Assumptions C145_behind.
Example C145_example : from_extension (T "/repo/boost.v2/1.2.3/package.yaml.gz") = Some YamlGz /\ from_extension (T "/repo/boost.py/") = Some Python /\ from_extension (T "/repo/.py") = None.
Proof. repeat split. Qed.
