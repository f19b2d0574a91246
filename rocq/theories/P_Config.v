(** Properties C147-C155: settings. *)
From Coq Require Import Permutation.
From Verif Require Import Base Base_lemmas Text_lemmas Maps Json Config_model Config_spec Config_proofs Config_env Config_load Config_core.
Open Scope string_scope. Open Scope list_scope.

(** ** C147: a dotted key reads the nested tables *)
Theorem C147_get key j v : tidy j -> cfg_get key j = Some v <-> exists p, p <> [] /\ Forall plain_name p /\ spelled p = key /\ at_path j p v.
Proof. exact (get_iff key j v). Qed.
Print Assumptions C147_get.
Theorem C147_typed key j : tidy j ->
  (forall s, cfg_string key j = Some s <-> cfg_get key j = Some (JStr s)) /\
  (forall b, cfg_bool key j = Some b <-> cfg_get key j = Some (JBool b)) /\
  (forall n, cfg_i64 key j = Some n <-> cfg_get key j = Some (JNum n) /\ (-9223372036854775808 <= n <= 9223372036854775807)%Z) /\
  (cfg_contains key j = true <-> exists v, cfg_get key j = Some v).
Proof.
  intros _. unfold cfg_string, cfg_bool, cfg_i64, cfg_contains.
  split; [|split; [|split]].
  - intros s. split; [|intros ->; reflexivity]. destruct (cfg_get key j) as [[]|]; try discriminate. intros H. injection H as <-. reflexivity.
  - intros b. split; [|intros ->; reflexivity]. destruct (cfg_get key j) as [[]|]; try discriminate. intros H. injection H as <-. reflexivity.
  - intros n. change (-9223372036854775808)%Z with I64_MIN. change 9223372036854775807%Z with (Z.of_N I64_MAX). split.
    + destruct (cfg_get key j) as [[| |m| | |]|]; try discriminate. cbn [as_i64]. destruct ((I64_MIN <=? m) && (m <=? Z.of_N I64_MAX))%Z eqn:E; [|discriminate].
      intros H. injection H as <-. apply andb_true_iff in E. destruct E as [A B]. apply Z.leb_le in A. apply Z.leb_le in B. split; [reflexivity|split; assumption].
    + intros [-> [A B]]. cbn [as_i64]. apply Z.leb_le in A. apply Z.leb_le in B. rewrite A, B. reflexivity.
  - split; [destruct (cfg_get key j) as [v|]; [intros _; exists v; reflexivity|discriminate]|intros [v ->]; reflexivity].
Qed.
Print Assumptions C147_typed.
Definition site : json := JObj [(T "packages", JObj [(T "path", JStr (T "/site")); (T "cache", JBool true)]); (T "plugins", JArr [JStr (T "a")])].
Definition mine : json := JObj [(T "packages", JObj [(T "path", JStr (T "/mine"))]); (T "plugins", JNum 3)].
Lemma site_tidy : tidy site.
Proof.
  constructor; [repeat constructor; cbn; intuition discriminate|]. intros k x [E|[E|[]]]; injection E as <- <-.
  - constructor; [repeat constructor; cbn; intuition discriminate|]. intros k x [E|[E|[]]]; injection E as <- <-; constructor.
  - constructor. intros x [<-|[]]. constructor.
Qed.
Lemma mine_tidy : tidy mine.
Proof.
  constructor; [repeat constructor; cbn; intuition discriminate|]. intros k x [E|[E|[]]]; injection E as <- <-.
  - constructor; [repeat constructor; cbn; intuition discriminate|]. intros k x [E|[]]; injection E as <- <-; constructor.
  - constructor.
Qed.
Example C147_example : tidy site /\ cfg_string (T "packages.path") site = Some (T "/site") /\ cfg_get (T "packages") site <> None /\ cfg_get (T "packages.") site = None.
Proof. split; [exact site_tidy|]. repeat split. discriminate. Qed.

(** ** C148: a tree merged in wins, setting by setting *)
Theorem C148_merge a b p v : tidy a -> tidy b -> table a -> table b -> ~ table v ->
  at_path (merge b a) p v <-> at_path b p v \/ (at_path a p v /\ ~ settles b p).
Proof. exact (merge_leaf p a b v). Qed.
Print Assumptions C148_merge.
Theorem C148_tidy a b : tidy a -> tidy b -> table a -> table b -> tidy (merge b a) /\ table (merge b a).
Proof. intros TA TB A B. split; [exact (tidy_merge b a TA TB)|exact (merge_table b a B A)]. Qed.
Print Assumptions C148_tidy.
Example C148_example : tidy site /\ tidy mine /\ table site /\ table mine /\
  cfg_string (T "packages.path") (merge mine site) = Some (T "/mine") /\ cfg_bool (T "packages.cache") (merge mine site) = Some true /\ cfg_i64 (T "plugins") (merge mine site) = Some 3%Z.
Proof. split; [exact site_tidy|]. split; [exact mine_tidy|]. repeat split; try (eexists; reflexivity). Qed.

(** ** C149: the project overrides the user, who overrides the system *)
Theorem C149_layers toml parse fs c h w ls lu lp : usual_dir c -> usual_dir h -> usual_dir w -> toml_gives toml -> json_gives parse ->
  provides toml (disk_of fs) documented_system ls -> provides toml (disk_of fs) (documented_user c h) lu -> provides toml (disk_of fs) (documented_project w) lp ->
  exists d, load toml parse fs (Some c) (Some h) (Some w) [] = Some d /\ tidy d /\ forall p v, ~ table v -> at_path d p v <-> layered (ls ++ lu ++ lp) p v.
Proof.
  intros UC UH UW TG JG PS PU PP.
  destruct (load_plain toml parse fs c h w [] ls lu lp UC UH UW TG JG PS PU PP I (fun n s p j (X : In (n, s) []) => match X with end)) as [d [E [TD H]]].
  exists d. split; [exact E|]. split; [exact TD|]. intros p v NT. rewrite (H p v NT). split.
  - intros [[n [s [q [t [[] _]]]]]|[_ L]]. exact L.
  - intros L. right. split; [intros n s q []|exact L].
Qed.
Print Assumptions C149_layers.
(** a file that is there and cannot be read is an error, and nothing else is *)
Theorem C149_broken toml parse fs c h w vars : usual_dir c -> usual_dir h -> usual_dir w ->
  load toml parse fs (Some c) (Some h) (Some w) vars = None <->
  broken toml (disk_of fs) documented_system \/ broken toml (disk_of fs) (documented_user c h) \/ broken toml (disk_of fs) (documented_project w).
Proof. exact (load_broken toml parse fs c h w vars). Qed.
Print Assumptions C149_broken.
Definition a_toml (s : text) : option json := if text_eqb s (T "site") then Some site else if text_eqb s (T "mine") then Some mine else None.
Definition no_json (s : text) : option json := None.
Definition a_disk (p : text) : option node :=
  if text_eqb p (T "/etc/rezconfig.toml") then Some (File (T "site")) else if text_eqb p (T "/home/me/.rez/rezconfig.toml") then Some (File (T "mine")) else None.
Lemma usual s c : c <> "/"%char -> usual_dir (s ++ [c]).
Proof. intros N. split; [destruct s; discriminate|]. intros x E. change (T "/") with ["/"%char] in E. apply app_inj_tail in E. destruct E as [_ E]. exact (N E). Qed.
Lemma a_usual : usual_dir (T "/home/me/.config") /\ usual_dir (T "/home/me") /\ usual_dir (T "/work").
Proof. split; [apply (usual (T "/home/me/.confi") "g")|split; [apply (usual (T "/home/m") "e")|apply (usual (T "/wor") "k")]]; discriminate. Qed.
Lemma a_toml_gives : toml_gives a_toml.
Proof.
  intros s j. unfold a_toml. destruct (text_eqb s (T "site")); [intros H; injection H as <-; split; [exact site_tidy|eexists; reflexivity]|].
  destruct (text_eqb s (T "mine")); [intros H; injection H as <-; split; [exact mine_tidy|eexists; reflexivity]|discriminate].
Qed.
Example C149_example :
  usual_dir (T "/home/me/.config") /\ usual_dir (T "/home/me") /\ usual_dir (T "/work") /\ toml_gives a_toml /\ json_gives no_json /\
  provides a_toml (disk_of a_disk) documented_system [site] /\ provides a_toml (disk_of a_disk) (documented_user (T "/home/me/.config") (T "/home/me")) [mine] /\
  provides a_toml (disk_of a_disk) (documented_project (T "/work")) [] /\
  layered [site; mine] [T "packages"; T "path"] (JStr (T "/mine")) /\
  (exists d, load a_toml no_json a_disk (Some (T "/home/me/.config")) (Some (T "/home/me")) (Some (T "/work")) [] = Some d /\ cfg_string (T "packages.path") d = Some (T "/mine") /\ cfg_bool (T "packages.cache") d = Some true) /\
  load a_toml no_json (fun p => if text_eqb p (T "/work/.rez/rezconfig.toml") then Some Unreadable else a_disk p) (Some (T "/home/me/.config")) (Some (T "/home/me")) (Some (T "/work")) [] = None.
Proof.
  destruct a_usual as [U1 [U2 U3]]. split; [exact U1|]. split; [exact U2|]. split; [exact U3|]. split; [exact a_toml_gives|]. split; [intros s j H; discriminate H|].
  split; [apply (one_file a_toml (disk_of a_disk) [T "/etc/rez/rezconfig.toml"] (T "/etc/rezconfig.toml") [T "C:\ProgramData\rez\rezconfig.toml"] (T "site") site); [intros q [<-|[]]; reflexivity|reflexivity|reflexivity]|].
  split; [apply (one_file a_toml (disk_of a_disk) [T "/home/me/.config/rez/rezconfig.toml"] (T "/home/me/.rez/rezconfig.toml") [] (T "mine") mine); [intros q [<-|[]]; reflexivity|reflexivity|reflexivity]|].
  split; [apply no_file; intros p [<-|[]]; reflexivity|].
  split; [left; right; split; [apply (at_below _ _ (JObj [(T "path", JStr (T "/mine"))])); [left; reflexivity|apply (at_below _ _ (JStr (T "/mine"))); [left; reflexivity|constructor]]|intros x []]|].
  split; [eexists; split; [reflexivity|split; reflexivity]|reflexivity].
Qed.

(** ** C150: variables override the files *)
(** when the variables stand for paths apart from each other and no file has something else than a table on the way,
    a setting is that of its variable, or else that of the files *)
Theorem C150_partial toml parse fs c h w vars ls lu lp : usual_dir c -> usual_dir h -> usual_dir w -> toml_gives toml -> json_gives parse ->
  provides toml (disk_of fs) documented_system ls -> provides toml (disk_of fs) (documented_user c h) lu -> provides toml (disk_of fs) (documented_project w) lp ->
  all_apart vars -> (forall n s p j, In (n, s) vars -> stands_for n p -> In j (ls ++ lu ++ lp) -> open_way j p) ->
  exists d, load toml parse fs (Some c) (Some h) (Some w) vars = Some d /\ tidy d /\ forall r x, ~ table x ->
    at_path d r x <->
    (exists n s p t, In (n, s) vars /\ stands_for n p /\ r = p ++ t /\ at_path (env_value parse s) t x) \/
    ((forall n s p, In (n, s) vars -> stands_for n p -> ~ begins p r) /\ layered (ls ++ lu ++ lp) r x).
Proof. exact (load_plain toml parse fs c h w vars ls lu lp). Qed.
Print Assumptions C150_partial.
(** the variable in capitals stands for the path, and its text is its value unless it is JSON *)
Theorem C150_names_partial p parse s : p <> [] -> (forall k, In k p -> simple_name k) -> stands_for (variable p) p /\ (parse s = None -> env_value parse s = JStr s) /\ (forall v, parse s = Some v -> env_value parse s = v).
Proof. intros N S. split; [exact (variable_stands p N S)|]. unfold env_value. split; [intros ->; reflexivity|intros v ->; reflexivity]. Qed.
Print Assumptions C150_names_partial.
(** a variable below a setting that is no table changes nothing at all *)
Theorem C150_refuted parse n s q k j w : tidy j -> stands_for n (q ++ [k]) -> at_path j q w -> ~ table w -> env_overrides parse [(n, s)] j = j.
Proof.
  intros TJ ST A NT. apply (overrides_blocked parse n s q k j w ST); [apply walk_iff; assumption|]. destruct w; try reflexivity. destruct NT. eexists. reflexivity.
Qed.
Print Assumptions C150_refuted.
(** no variable reaches a setting whose name has an underscore or a capital *)
Theorem C150_underscore_refuted parse vars j k q v c : (forall s x, parse s = Some x -> tidy x) -> tidy j -> In c k -> (c = "_"%char \/ is_upper c = true) ->
  at_path (env_overrides parse vars j) (k :: q) v <-> at_path j (k :: q) v.
Proof.
  intros TP TJ C U. rewrite <- (walk_iff _ _ v (overrides_tidy parse vars TP j TJ)), <- (walk_iff _ _ v TJ), (never_reached parse vars j k q c C U). reflexivity.
Qed.
Print Assumptions C150_underscore_refuted.
(** the order in which the system lists the variables counts *)
Theorem C150_order_refuted : let a := (T "REZ_FOO", T "x") in let b := (T "REZ_FOO_BAR", T "y") in
  env_overrides no_json [a; b] (JObj []) = JObj [(T "foo", JStr (T "x"))] /\ env_overrides no_json [b; a] (JObj []) = JObj [(T "foo", JStr (T "x"))] /\
  let c := (T "REZ_FOO_BAR_BAZ", T "z") in
  env_overrides no_json [a; c] (JObj []) = JObj [(T "foo", JObj [(T "bar", JObj [(T "baz", JStr (T "z"))])])] /\
  env_overrides no_json [c; a] (JObj []) = JObj [(T "foo", JStr (T "x"))].
Proof. repeat split; reflexivity. Qed.
Print Assumptions C150_order_refuted.
Example C150_example :
  simple_name (T "packages") /\ variable [T "packages"; T "path"] = T "REZ_PACKAGES_PATH" /\ stands_for (T "REZ_PACKAGES_PATH") [T "packages"; T "path"] /\
  all_apart [(T "REZ_PACKAGES_PATH", T "/x"); (T "HOME", T "/home/me")] /\ open_way site [T "packages"; T "path"] /\ open_way mine [T "packages"; T "path"] /\
  (exists d, load a_toml no_json a_disk (Some (T "/home/me/.config")) (Some (T "/home/me")) (Some (T "/work")) [(T "REZ_PACKAGES_PATH", T "/x")] = Some d /\ cfg_string (T "packages.path") d = Some (T "/x")) /\
  env_overrides no_json [(T "REZ_PLUGINS_PATH", T "/x")] mine = mine /\
  cfg_string (T "packages_path") (env_overrides no_json [(T "REZ_PACKAGES_PATH", T "/x")] (JObj [(T "packages_path", JStr (T "/site"))])) = Some (T "/site").
Proof.
  assert (ST : stands_for (T "REZ_PACKAGES_PATH") [T "packages"; T "path"]) by (apply env_key_spec; split; [discriminate|]; eexists; split; reflexivity).
  split; [split; [discriminate|intros c I; cbn in I; repeat (destruct I as [<-|I]; [left; reflexivity|]); destruct I]|]. split; [reflexivity|]. split; [exact ST|].
  split; [cbn [all_apart]; split; [|split; [intros n' s' p q []|exact I]]; intros n' s' p q [E|[]] _ SQ; injection E as <- <-; destruct (proj1 (env_key_none (T "HOME")) eq_refl q SQ)|].
  assert (OW : forall j m, j = JObj m -> (forall x, In (T "packages", x) m -> table x) -> open_way j [T "packages"; T "path"]).
  { intros j m -> HT q w B NE A. destruct q as [|a q]; [inversion A; subst; eexists; reflexivity|]. destruct (begins_inv _ _ _ B) as [r [E B']]. injection E as <- <-.
    inversion A as [|? ? x ? ? I P]; subst. destruct q as [|b q]; [inversion P; subst; exact (HT w I)|].
    destruct (begins_inv _ _ _ B') as [r [E B2]]. injection E as <- <-. apply begins_nil_inv in B2. subst q. destruct NE. reflexivity. }
  split; [apply (OW site _ eq_refl); intros x [E|[E|[]]]; [injection E as <-; eexists; reflexivity|discriminate E]|].
  split; [apply (OW mine _ eq_refl); intros x [E|[E|[]]]; [injection E as <-; eexists; reflexivity|discriminate E]|].
  split; [eexists; split; reflexivity|]. split; reflexivity.
Qed.

(** ** C151: REZ_CONFIG_FILE *)
Lemma search_members m exe home f : usual_dir exe -> usual_dir home -> m_exe m = Some exe -> var m (T "HOME") = Some home ->
  In f (search_paths m) -> In f (fixed_places exe home) \/ exists s, var m (T "REZ_CONFIG_FILE") = Some s /\ In f (split_on "/" s).
Proof.
  intros UE UH E H I. unfold search_paths in I. rewrite E, H in I. rewrite (join_usual exe), (join_usual exe), (join_usual home), (join_usual home), (join_usual home) in I by assumption.
  rewrite join_again in I by (discriminate || reflexivity). apply in_app_or in I. destruct I as [I|I]; [left; unfold fixed_places; cbn [In] in *; tauto|].
  apply in_app_or in I. destruct I as [I|I]; [right; destruct (var m (T "REZ_CONFIG_FILE")) as [s|]; [exists s; split; [reflexivity|exact I]|destruct I]|].
  left. apply in_app_or in I. destruct I as [I|I]; [unfold fixed_places; cbn [In] in *; tauto|].
  destruct (text_eqb _ _) in I; [destruct I|]. unfold fixed_places; cbn [In] in *; tauto.
Qed.
(** a file that is named with its directory is not read because of the variable *)
Theorem C151_refuted yaml parse m m' exe home f : usual_dir exe -> usual_dir home -> m_exe m = Some exe -> var m (T "HOME") = Some home ->
  var m (T "REZ_CONFIG_FILE") = Some f -> In "/"%char f -> ~ In f (fixed_places exe home) ->
  m_exe m' = m_exe m -> m_env m' = m_env m -> m_version m' = m_version m -> m_tmp m' = m_tmp m -> (forall p, p <> f -> m_files m' p = m_files m p) ->
  ~ In f (search_paths m) /\ core_load yaml parse m' = core_load yaml parse m.
Proof.
  intros UE UH E H V S NF EE EV EN ET EF.
  assert (NI : ~ In f (search_paths m)).
  { intros I. destruct (search_members m exe home f UE UH E H I) as [F|[s [V' I']]]; [exact (NF F)|]. rewrite V in V'. injection V' as <-.
    pose proof (split_on_pieces "/" f) as P. rewrite Forall_forall in P. exact (P f I' S). }
  split; [exact NI|]. assert (SP : search_paths m' = search_paths m) by (unfold search_paths, var; rewrite EE, EV; reflexivity).
  unfold core_load. rewrite SP, EN, ET. rewrite (first_loaded_ext yaml parse (m_files m') (m_files m)).
  - unfold with_env, var. rewrite EV. reflexivity.
  - intros p I. unfold readable, read_at. rewrite EF; [reflexivity|]. intros ->. exact (NI I).
Qed.
Print Assumptions C151_refuted.
(** a file of the working directory that is named without a slash is read, after those beside the program *)
Theorem C151_partial yaml parse m f c : ~ In "/"%char f -> var m (T "REZ_CONFIG_FILE") = Some f ->
  (forall exe q, m_exe m = Some exe -> In q [path_join exe (T "rezconfig.yaml"); path_join exe (T "rezconfig.json")] -> m_files m q = None) ->
  forall s, m_files m f = Some (File s) -> read_core yaml parse s = Some c ->
  core_load yaml parse m = with_env m c.
Proof.
  intros N V X s F R.
  assert (RF : readable yaml parse (m_files m) f = Some c) by (unfold readable, read_at; rewrite F; exact R).
  assert (SP : exists b, search_paths m = (match m_exe m with Some d => [path_join d (T "rezconfig.yaml"); path_join d (T "rezconfig.json")] | None => [] end) ++ f :: b).
  { unfold search_paths. rewrite V, (split_on_none "/" f N). eexists. reflexivity. }
  destruct SP as [b SP]. unfold core_load. rewrite SP. rewrite (first_loaded_find yaml parse (m_files m) _ f b c); [reflexivity| |exact RF].
  intros q I. destruct (m_exe m) as [exe|] eqn:E; [|destruct I]. unfold readable, read_at. rewrite (X exe q eq_refl I). reflexivity.
Qed.
Print Assumptions C151_partial.
Definition full : core := mkCore true true true true (Some 4%Z) (mkCache true false 10 60) [T "/pkgs"] (T "/l") (T "/r") (T "zsh") (T "1") [] [T "/c"] (T "/tmp") (T "ed") (T "v") (T "b") (T "d") (T "t").
Definition reads_full (s : text) : option json :=
  if text_eqb s (T "full") then Some (ser_core full) else if text_eqb s (T "part") then Some (JObj [(T "packages_path", JArr [JStr (T "/mine")])]) else None.
Definition a_machine (env : list (text * text)) (fs : files) : machine := mkMachine fs (Some (T "/bin")) ((T "HOME", T "/home/me") :: env) (T "0.1") (T "/tmp").
Example C151_example :
  let m := a_machine [(T "REZ_CONFIG_FILE", T "/site/rez.yaml")] (fun p => if text_eqb p (T "/site/rez.yaml") then Some (File (T "full")) else None) in
  usual_dir (T "/bin") /\ In "/"%char (T "/site/rez.yaml") /\ ~ In (T "/site/rez.yaml") (fixed_places (T "/bin") (T "/home/me")) /\
  search_paths m = [T "/bin/rezconfig.yaml"; T "/bin/rezconfig.json"; T ""; T "site"; T "rez.yaml"; T "/etc/rez/config.yaml"; T "/usr/local/etc/rez/config.yaml"; T "/home/me/.rezconfig"; T "/home/me/.rezconfig.yaml"; T "/home/me/.rez/config.yaml"] /\
  core_load reads_full no_json m = default_core (T "0.1") (T "/tmp") /\
  core_load reads_full no_json (a_machine [(T "REZ_CONFIG_FILE", T "rez.yaml")] (fun p => if text_eqb p (T "rez.yaml") then Some (File (T "full")) else None)) = full.
Proof.
  cbv zeta. split; [apply (usual (T "/bi") "n"); discriminate|]. split; [left; reflexivity|]. split; [cbn; intuition discriminate|]. split; [reflexivity|]. split; reflexivity.
Qed.

(** ** C152: a file with some of the settings *)
Lemma lacks_none reads s k : In k required_fields -> lacks reads s k -> obind (reads s) de_core = None.
Proof.
  intros I L. destruct (reads s) as [j|] eqn:E; [|reflexivity]. destruct (L j E) as [m [-> N]]. cbn [obind]. apply (incomplete_map m k I). apply aget_none. exact N.
Qed.
(** a file without one of the fields is as good as no file *)
Theorem C152_refuted yaml parse m m' f s k : In k required_fields -> m_files m f = Some (File s) -> lacks yaml s k -> lacks parse s k ->
  m_exe m' = m_exe m -> m_env m' = m_env m -> m_version m' = m_version m -> m_tmp m' = m_tmp m -> m_files m' f = None -> (forall p, p <> f -> m_files m' p = m_files m p) ->
  core_load yaml parse m' = core_load yaml parse m.
Proof.
  intros I F LY LP EE EV EN ET NF EF. assert (SP : search_paths m' = search_paths m) by (unfold search_paths, var; rewrite EE, EV; reflexivity).
  unfold core_load. rewrite SP, EN, ET. rewrite (first_loaded_ext yaml parse (m_files m') (m_files m)).
  - unfold with_env, var. rewrite EV. reflexivity.
  - intros p _. unfold readable, read_at. destruct (text_eqb p f) eqn:E.
    + apply text_eqb_eq in E. subst p. rewrite F, NF. cbn [obind]. unfold read_core. rewrite (lacks_none yaml s k I LY), (lacks_none parse s k I LP). reflexivity.
    + rewrite EF; [reflexivity|]. intros ->. rewrite text_eqb_refl in E. discriminate E.
Qed.
Print Assumptions C152_refuted.
(** a file with all fields is taken when no file before it can be taken, whatever else it holds and in any order *)
Theorem C152_partial yaml parse m l1 f l2 s t c : fits_core c -> search_paths m = l1 ++ f :: l2 -> (forall q, In q l1 -> readable yaml parse (m_files m) q = None) ->
  m_files m f = Some (File s) -> (yaml s = Some (JObj t) \/ (obind (yaml s) de_core = None /\ parse s = Some (JObj t))) ->
  NoDup (map fst t) -> (forall k v, In k core_fields -> at_path (ser_core c) [k] v -> In (k, v) t) ->
  core_load yaml parse m = with_env m c.
Proof.
  intros FC SP N F R ND A. unfold core_load. rewrite SP, (first_loaded_find yaml parse (m_files m) l1 f l2 c N); [reflexivity|].
  unfold readable, read_at. rewrite F. cbn [obind]. unfold read_core. pose proof (complete_file c t FC ND A) as CF.
  destruct R as [->|[-> ->]]; cbn [obind]; rewrite CF; reflexivity.
Qed.
Print Assumptions C152_partial.
(** without any file that can be taken the settings are the built-in ones *)
Theorem C152_default_partial yaml parse m : (forall q, In q (search_paths m) -> readable yaml parse (m_files m) q = None) -> core_load yaml parse m = with_env m (default_core (m_version m) (m_tmp m)).
Proof. intros N. unfold core_load. rewrite (first_loaded_none yaml parse (m_files m) _ N). reflexivity. Qed.
Print Assumptions C152_default_partial.
(** the number of threads is the one field that may be left out *)
Theorem C152_threads_partial yaml parse m l1 f l2 s t c : fits_core c -> k_threads c = None -> search_paths m = l1 ++ f :: l2 -> (forall q, In q l1 -> readable yaml parse (m_files m) q = None) ->
  m_files m f = Some (File s) -> (yaml s = Some (JObj t) \/ (obind (yaml s) de_core = None /\ parse s = Some (JObj t))) ->
  NoDup (map fst t) -> ~ In (T "thread_count") (map fst t) -> (forall k v, In k core_fields -> k <> T "thread_count" -> at_path (ser_core c) [k] v -> In (k, v) t) ->
  core_load yaml parse m = with_env m c.
Proof.
  intros FC K SP N F R ND NT A. unfold core_load. rewrite SP, (first_loaded_find yaml parse (m_files m) l1 f l2 c N); [reflexivity|].
  assert (E : aget (T "thread_count") t = None) by (destruct (aget (T "thread_count") t) as [v|] eqn:E; [exfalso; apply NT; apply aget_in in E; apply (in_map fst) in E; exact E|reflexivity]).
  unfold readable, read_at. rewrite F. cbn [obind]. unfold read_core. pose proof (without_threads c t FC K ND E A) as CF.
  destruct R as [->|[-> ->]]; cbn [obind]; rewrite CF; reflexivity.
Qed.
Print Assumptions C152_threads_partial.
(** the values without any file and variable *)
Theorem C152_values : forall yaml parse m, (forall q, In q (search_paths m) -> readable yaml parse (m_files m) q = None) -> m_env m = [] ->
  let c := core_load yaml parse m in
  k_packages c = [T "~/packages"; T "~/.rez/packages/int"; T "~/.rez/packages/ext"] /\ k_local c = T "~/packages" /\ k_release c = T "~/.rez/packages/int" /\
  k_version_rs c = true /\ k_solver_rs c = true /\ k_repo_rs c = true /\ k_fallback c = true /\ k_threads c = None /\ k_cache c = mkCache true true 1000 3600 /\
  k_shell c = T "bash" /\ k_version c = m_version m /\ k_plugins c = [] /\ k_pkgcache c = [T "~/.rez/cache"] /\ k_tmp c = m_tmp m /\
  k_editor c = T "vi" /\ k_viewer c = T "xdg-open" /\ k_browser c = T "xdg-open" /\ k_diff c = T "diff" /\ k_term c = T "xterm".
Proof.
  intros yaml parse m N E c. unfold c. rewrite (C152_default_partial yaml parse m N). unfold with_env, var. rewrite E. repeat split.
Qed.
Print Assumptions C152_values.
Example C152_example :
  let m := a_machine [] (fun p => if text_eqb p (T "/home/me/.rezconfig") then Some (File (T "part")) else if text_eqb p (T "/home/me/.rezconfig.yaml") then Some (File (T "full")) else None) in
  In (T "editor") required_fields /\ lacks reads_full (T "part") (T "editor") /\ lacks no_json (T "part") (T "editor") /\ fits_core full /\
  core_load reads_full no_json m = full /\
  k_packages (core_load reads_full no_json (a_machine [] (fun p => if text_eqb p (T "/home/me/.rezconfig") then Some (File (T "part")) else None))) = [T "~/packages"; T "~/.rez/packages/int"; T "~/.rez/packages/ext"].
Proof.
  cbv zeta. split; [cbn; tauto|]. split; [intros j E; injection E as <-; eexists; split; [reflexivity|cbn; intuition discriminate]|]. split; [intros j E; discriminate E|].
  split; [split; [intros n E; injection E as <-; split; discriminate|split; split; discriminate]|]. split; reflexivity.
Qed.

(** ** C153: the variables for package paths *)
Theorem C153_packages yaml parse m l : directories l -> var m (T "REZ_PACKAGES_PATH") = Some (join (T ":") l) -> k_packages (core_load yaml parse m) = l.
Proof. intros [N H] V. unfold core_load, with_env. cbn [k_packages]. rewrite V. exact (split_paths l N H). Qed.
Print Assumptions C153_packages.
(** whatever the variable holds, no empty name, no colon and no blanks around a name come out of it *)
Theorem C153_clean yaml parse m s p : var m (T "REZ_PACKAGES_PATH") = Some s -> In p (k_packages (core_load yaml parse m)) -> p <> [] /\ ~ In ":"%char p /\ trim p = p.
Proof. intros V I. unfold core_load, with_env in I. cbn [k_packages] in I. rewrite V in I. exact (split_paths_clean s p I). Qed.
Print Assumptions C153_clean.
(** the variables for the local and the released packages are taken as they are; without the variables the files count *)
Theorem C153_others yaml parse m : let c := core_load yaml parse m in
  (forall s, var m (T "REZ_LOCAL_PACKAGES_PATH") = Some s -> k_local c = s) /\ (forall s, var m (T "REZ_RELEASE_PACKAGES_PATH") = Some s -> k_release c = s) /\
  (var m (T "REZ_PACKAGES_PATH") = None -> var m (T "REZ_LOCAL_PACKAGES_PATH") = None -> var m (T "REZ_RELEASE_PACKAGES_PATH") = None ->
   c = match first_loaded yaml parse (m_files m) (search_paths m) with Some x => x | None => default_core (m_version m) (m_tmp m) end).
Proof.
  cbv zeta. unfold core_load, with_env. cbn [k_local k_release]. split; [intros s ->; reflexivity|]. split; [intros s ->; reflexivity|].
  intros -> -> ->. destruct (first_loaded yaml parse (m_files m) (search_paths m)) as [x|]; [destruct x; reflexivity|reflexivity].
Qed.
Print Assumptions C153_others.
Example C153_example : directories [T "/a"; T "/b c"] /\
  k_packages (core_load no_json no_json (a_machine [(T "REZ_PACKAGES_PATH", T "/a:/b c")] (fun _ => None))) = [T "/a"; T "/b c"] /\
  k_packages (core_load no_json no_json (a_machine [(T "REZ_PACKAGES_PATH", T " :: /a : ")] (fun _ => None))) = [T "/a"].
Proof. split; [split; [discriminate|intros p [<-|[<-|[]]]; (split; [discriminate|]; split; [cbn; intuition discriminate|reflexivity])]|]. split; reflexivity. Qed.

(** ** C154: the list of sourced files *)
(** the settings come from a file of the list, or there is no file in it that can be taken *)
Theorem C154_partial yaml parse m :
  (exists p c, In p (sourced_paths m) /\ readable yaml parse (m_files m) p = Some c /\ core_load yaml parse m = with_env m c) \/
  ((forall p, In p (sourced_paths m) -> readable yaml parse (m_files m) p = None) /\ core_load yaml parse m = with_env m (default_core (m_version m) (m_tmp m))).
Proof.
  unfold core_load. destruct (first_loaded_cases yaml parse (m_files m) (search_paths m)) as [[E N]|[l1 [p [l2 [c [E [N [R L]]]]]]]].
  - right. rewrite E. split; [|reflexivity]. intros p I. apply filter_In in I. exact (N p (proj1 I)).
  - left. exists p, c. rewrite L. split; [|split; [exact R|reflexivity]]. unfold sourced_paths. apply filter_In. split; [rewrite E; apply in_or_app; right; left; reflexivity|].
    unfold readable, read_at in R. unfold exists_at. destruct (m_files m p); [reflexivity|discriminate R].
Qed.
Print Assumptions C154_partial.
(** the list holds all files that are there *)
Theorem C154_exact_partial m p : In p (sourced_paths m) <-> In p (search_paths m) /\ m_files m p <> None.
Proof.
  unfold sourced_paths. rewrite filter_In. unfold exists_at. destruct (m_files m p); split; intros [A B]; (split; [exact A|]); (reflexivity || discriminate || (destruct B; reflexivity)).
Qed.
Print Assumptions C154_exact_partial.
(** but a file behind one that is taken is not read: its text makes no difference *)
Theorem C154_refuted yaml parse m l1 p l2 f c : search_paths m = l1 ++ p :: l2 -> In f l2 -> ~ In f l1 -> f <> p -> readable yaml parse (m_files m) p = Some c -> m_files m f <> None ->
  In f (sourced_paths m) /\ forall s, core_load yaml parse (mkMachine (fun q => if text_eqb q f then Some (File s) else m_files m q) (m_exe m) (m_env m) (m_version m) (m_tmp m)) = core_load yaml parse m.
Proof.
  intros SP I N1 NE R X. split; [apply C154_exact_partial; split; [rewrite SP; apply in_or_app; right; right; exact I|exact X]|]. intros s. unfold core_load.
  set (m2 := mkMachine _ _ _ _ _). change (search_paths m2) with (search_paths m). change (with_env m2) with (with_env m). change (m_version m2) with (m_version m). change (m_tmp m2) with (m_tmp m).
  rewrite SP. assert (G : forall fs, readable yaml parse fs p = Some c -> first_loaded yaml parse fs (l1 ++ p :: l2) = first_loaded yaml parse fs (l1 ++ [p])).
  { intros fs H. clear -H. induction l1 as [|q l1 IH]; cbn [app first_loaded]; [unfold readable in H; rewrite H; reflexivity|]. rewrite IH. reflexivity. }
  assert (O : forall q, q <> f -> readable yaml parse (m_files m2) q = readable yaml parse (m_files m) q).
  { intros q Q. unfold readable, read_at. cbn [m_files m2]. destruct (text_eqb q f) eqn:E; [apply text_eqb_eq in E; destruct (Q E)|reflexivity]. }
  rewrite (G (m_files m)) by exact R. rewrite (G (m_files m2)) by (rewrite O; [exact R|intros E; apply NE; symmetry; exact E]).
  rewrite (first_loaded_ext yaml parse (m_files m2) (m_files m)); [reflexivity|]. intros q J. apply O. intros ->. apply in_app_or in J. destruct J as [J|[J|[]]]; [exact (N1 J)|exact (NE (eq_sym J))].
Qed.
Print Assumptions C154_refuted.
Example C154_example :
  let m := a_machine [] (fun p => if text_eqb p (T "/etc/rez/config.yaml") then Some (File (T "full")) else if text_eqb p (T "/home/me/.rezconfig") then Some (File (T "part")) else None) in
  sourced_paths m = [T "/etc/rez/config.yaml"; T "/home/me/.rezconfig"] /\ core_load reads_full no_json m = full.
Proof. split; reflexivity. Qed.

(** ** C155: every setting can be asked for, and all together can be written to a file *)
Theorem C155_fields c :
  get_field c (T "use_rust_version") = Some (JBool (k_version_rs c)) /\ get_field c (T "use_rust_solver") = Some (JBool (k_solver_rs c)) /\
  get_field c (T "use_rust_repository") = Some (JBool (k_repo_rs c)) /\ get_field c (T "rust_fallback") = Some (JBool (k_fallback c)) /\
  get_field c (T "thread_count") = Some (match k_threads c with Some n => JNum n | None => JNull end) /\
  get_field c (T "cache.enable_memory_cache") = Some (JBool (c_memory (k_cache c))) /\ get_field c (T "cache.enable_disk_cache") = Some (JBool (c_disk (k_cache c))) /\
  get_field c (T "cache.memory_cache_size") = Some (JNum (c_size (k_cache c))) /\ get_field c (T "cache.cache_ttl_seconds") = Some (JNum (c_ttl (k_cache c))) /\
  get_field c (T "packages_path") = Some (JArr (map JStr (k_packages c))) /\ get_field c (T "local_packages_path") = Some (JStr (k_local c)) /\
  get_field c (T "release_packages_path") = Some (JStr (k_release c)) /\ get_field c (T "default_shell") = Some (JStr (k_shell c)) /\
  get_field c (T "version") = Some (JStr (k_version c)) /\ get_field c (T "plugin_path") = Some (JArr (map JStr (k_plugins c))) /\
  get_field c (T "package_cache_path") = Some (JArr (map JStr (k_pkgcache c))) /\ get_field c (T "tmpdir") = Some (JStr (k_tmp c)) /\
  get_field c (T "editor") = Some (JStr (k_editor c)) /\ get_field c (T "image_viewer") = Some (JStr (k_viewer c)) /\ get_field c (T "browser") = Some (JStr (k_browser c)) /\
  get_field c (T "difftool") = Some (JStr (k_diff c)) /\ get_field c (T "terminal_emulator_command") = Some (JStr (k_term c)).
Proof. repeat split; reflexivity. Qed.
Print Assumptions C155_fields.
(** a name that is none of the fields is unknown *)
Theorem C155_unknown c path : ~ In (hd [] (split_on "." path)) (T "thread_count" :: required_fields) -> get_field c path = None.
Proof.
  intros N. unfold get_field. destruct (split_on "." path) as [|k p] eqn:E; [destruct (split_on_nonnil "." path E)|]. cbn [hd] in N. unfold ser_core. cbn [walk jget].
  match goal with |- match aget k ?x with _ => _ end = None => assert (aget k x = None) as ->; [|reflexivity]; apply aget_none end.
  intros I. apply N. unfold required_fields. cbn in I |- *. tauto.
Qed.
Print Assumptions C155_unknown.
(** the dump of the settings in JSON, put into a file, is read as the same settings *)
Theorem C155_dump yaml parse (dump : json -> text) c : fits_core c -> (forall j, tidy j -> parse (dump j) = Some j) -> (forall j y, yaml (dump j) = Some y -> y = j) ->
  read_core yaml parse (dump (ser_core c)) = Some c.
Proof.
  intros F P Y. unfold read_core. destruct (yaml (dump (ser_core c))) as [y|] eqn:E.
  - rewrite (Y _ _ E). cbn [obind]. rewrite (de_core_ser c F). reflexivity.
  - cbn [obind]. rewrite (P _ (ser_tidy c)). cbn [obind]. exact (de_core_ser c F).
Qed.
Print Assumptions C155_dump.
Example C155_example : fits_core full /\ get_field full (T "cache.memory_cache_size") = Some (JNum 10) /\ get_field full (T "cache.size") = None /\ get_field full (T "Editor") = None.
Proof. split; [split; [intros n E; injection E as <-; split; discriminate|split; split; discriminate]|]. repeat split; reflexivity. Qed.
