(** C307-C312: getting packages by URI, by handle and from a repository. *)
From Verif Require Import Base Base_lemmas Maps Sorting Version_model Package_model Order_model Order_spec Order_proofs Uri_model Uri_spec Uri_proofs.
From Verif Require Scan_model Bind_model Text_lemmas.
Open Scope string_scope. Open Scope list_scope.

Definition pk (n v : string) : package := mkPackage (T n) (parse_version (T v)) [] [] None [] 0%N.
(** a world of some files with packages, some directories with their entries and some packages in the repositories *)
Definition toy (files : list (text * package)) (dirs : list (text * list text)) (repo : list (text * list package)) : world :=
  mkWorld (fun p => if mem_text p (map fst files) then Scan_model.KFile else if mem_text p (map fst dirs) then Scan_model.KDir else Scan_model.KNone)
    (fun p => aget p files) (fun p => aget p dirs) (fun n => Some (match aget n repo with Some l => l | None => [] end)).

(** ** C307: the URI of a package file *)
Theorem C307_file_partial : forall w uri paths p,
  w_load w uri = Some p -> w_kind w uri = Scan_model.KFile \/ (exists s, uri = s ++ T ".py" \/ uri = s ++ T ".yaml" \/ uri = s ++ T ".json") -> from_uri w uri paths = Some p.
Proof.
  intros w uri paths p L K. unfold from_uri. rewrite L.
  replace (Scan_model.is_file (w_kind w uri) || ends_with (T ".py") uri || ends_with (T ".yaml") uri || ends_with (T ".json") uri) with true; [reflexivity|].
  symmetry. rewrite !orb_true_iff. unfold ends_with. destruct K as [->|(s & [-> |[-> | ->]])]; [auto|..]; rewrite rev_app_distr, starts_with_app; auto.
Qed.
(** no package may be had from the file, and yet one is given: the latest of that name that any repository has *)
Theorem C307_missing_refuted : forall w root n f l paths, plain n -> plain f -> n <> [] -> w_load w (root ++ "/"%char :: n ++ "/"%char :: f) = None ->
  (forall m k q, w_find w m = Some k -> In q k -> ~ version_text q n) -> w_find w n = Some l -> l <> [] -> transitive_versions (fun v => exists p, In p l /\ p_version p = Some v) ->
  exists p, from_uri w (root ++ "/"%char :: n ++ "/"%char :: f) paths = Some p /\ In p l /\ forall q, In q l -> descending p q <> Gt.
Proof.
  intros w root n f l paths A B N L V F NE Tr. destruct (latest_first w n l F NE Tr) as (p & E & I & M). exists p. split; [|now split].
  unfold from_uri. rewrite L. destruct (parts2 root n f A B N) as [r ->].
  replace (if _ || _ || _ || _ then None else None) with (@None package) by now destruct (_ || _ || _ || _). cbn [first_some].
  destruct r as [|m r]; [now rewrite E|]. destruct (by_name_version w m n) as [q|] eqn:Q; [|now rewrite E].
  apply by_name_version_some in Q as (Q & k & K & J). elim (V m k q K J Q).
Qed.
Print Assumptions C307_file_partial. Print Assumptions C307_missing_refuted.
Definition two : world := toy [(T "/here/foo/1.0/package.py", pk "foo" "1.0")] [] [(T "foo", [pk "foo" "3.0"; pk "foo" "2.0"])].
Example C307_example : from_uri two (T "/here/foo/1.0/package.py") false = Some (pk "foo" "1.0") /\ from_uri two (T "/there/foo/package.py") false = Some (pk "foo" "3.0").
Proof. split; vm_compute; reflexivity. Qed.

(** ** C308: a name and a version in the URI *)
Theorem C308_version_partial : forall w root n v f paths l a p b, plain n -> plain v -> plain f -> n <> [] -> w_load w (root ++ "/"%char :: n ++ "/"%char :: v ++ "/"%char :: f) = None ->
  w_find w n = Some l -> l = a ++ p :: b -> version_text p v -> (forall q, In q a -> ~ version_text q v) -> from_uri w (root ++ "/"%char :: n ++ "/"%char :: v ++ "/"%char :: f) paths = Some p.
Proof.
  intros w root n v f paths l a p b A B C N L F S V O. unfold from_uri. rewrite L. destruct (parts3 root n v f A B C N) as [r ->].
  replace (if _ || _ || _ || _ then None else None) with (@None package) by now destruct (_ || _ || _ || _). cbn [first_some].
  now rewrite (by_name_version_first w n v l a p b F S V O).
Qed.
(** the version in angle brackets, as in URIs of packages that are all in one file, is not looked at *)
Theorem C308_combined_refuted : forall w root n v v' l paths, plain n -> plain v -> plain v' -> n <> [] ->
  (forall u, w_load w (root ++ "/"%char :: n ++ "/"%char :: T "package.py<" ++ u ++ T ">") = None) -> w_find w n = Some l -> l <> [] ->
  from_uri w (root ++ "/"%char :: n ++ "/"%char :: T "package.py<" ++ v ++ T ">") paths = from_uri w (root ++ "/"%char :: n ++ "/"%char :: T "package.py<" ++ v' ++ T ">") paths.
Proof.
  intros w root n v v' l paths A B B' N L F NE.
  assert (forall u, plain u -> plain (T "package.py<" ++ u ++ T ">")) as P.
  { intros u U H. apply in_app_or in H as [H|H]; [cbn in H; repeat (destruct H as [H|H]; [discriminate|]); exact H|]. apply in_app_or in H as [H|H]; [now apply U|]. cbn in H. destruct H as [H|[]]. discriminate. }
  assert (exists p, latest_of w n = Some p) as [p E].
  { unfold latest_of. rewrite F. destruct (sort_by descending l) as [|p t] eqn:E; [apply (proj1 (sort_nil _ _)) in E; congruence|now exists p]. }
  assert (exists r, forall u, plain u -> rev (uri_parts (root ++ "/"%char :: n ++ "/"%char :: T "package.py<" ++ u ++ T ">")) = (T "package.py<" ++ u ++ T ">") :: n :: r) as [r R].
  { destruct (forallb (Ascii.eqb "/") root) eqn:Z.
    - exists []. intros u U. unfold uri_parts. rewrite drop_app, Z. cbn [Bind_model.drop_while]. rewrite Ascii.eqb_refl, relative_drop.
      + rewrite split_on_app, split_on_none by (exact A || exact (P u U)). reflexivity.
      + intros x H. destruct n as [|c n]; [congruence|]. injection H as -> _. apply A. now left.
    - exists (rev (split_on "/" (Bind_model.drop_while (Ascii.eqb "/") root))). intros u U. unfold uri_parts. rewrite drop_app, Z.
      rewrite Text_lemmas.split_on_app_gen, (split_on_app "/" n _ A), (split_on_none "/" _ (P u U)). rewrite rev_app_distr. reflexivity. }
  assert (forall u, plain u -> from_uri w (root ++ "/"%char :: n ++ "/"%char :: T "package.py<" ++ u ++ T ">") paths = first_some [match r with m :: _ => by_name_version w m n | [] => None end; Some p]) as G.
  { intros u U. unfold from_uri. rewrite L, (R u U), E. replace (if _ || _ || _ || _ then None else None) with (@None package) by now destruct (_ || _ || _ || _). cbn [first_some]. destruct r as [|m r]; [reflexivity|]. now destruct (by_name_version w m n). }
  now rewrite !G.
Qed.
Print Assumptions C308_version_partial. Print Assumptions C308_combined_refuted.
Example C308_example : from_uri two (T "/there/foo/2.0/package.py") false = Some (pk "foo" "2.0") /\ from_uri two (T "/there/foo/package.py<2.0>") false = Some (pk "foo" "3.0").
Proof. split; vm_compute; reflexivity. Qed.

(** ** C309: where the package of a URI may come from *)
Theorem C309_sources_partial : forall w uri paths p, from_uri w uri paths = Some p ->
  w_load w uri = Some p \/ (exists n l, w_find w n = Some l /\ In p l) \/ (paths = false /\ exists q, relative q /\ gives w q p).
Proof.
  intros w uri paths p H. unfold from_uri in H. apply first_some_in in H as [H|[H|[H|H]]].
  - left. destruct (_ || _ || _ || _) in H; [exact H|discriminate].
  - right; left. destruct (rev (uri_parts uri)) as [|f [|v [|n r]]]; try discriminate. apply by_name_version_some in H as (_ & l & L & I). eauto.
  - right; left. destruct (rev (uri_parts uri)) as [|f [|n r]]; try discriminate. apply latest_in in H as (l & L & I). eauto.
  - right; right. destruct paths; [destruct H|]. split; [reflexivity|]. pose proof (parts_plain uri) as P.
    destruct (rev (uri_parts uri)) as [|f [|n r]] eqn:E; [destruct H as [H|[H|[]]]; discriminate|destruct H as [H|[H|[]]]; discriminate|].
    assert (uri_parts uri = rev r ++ [n; f]) as U by (rewrite <- (rev_involutive (uri_parts uri)), E; cbn [rev]; now rewrite <- app_assoc).
    assert (plain n /\ plain f) as [Pn Pf] by (rewrite U in P; apply Forall_app in P as [_ P]; inversion P as [|? ? ? P2]; inversion P2; now split).
    destruct H as [H|[H|[]]].
    + destruct r as [|m r]; [discriminate|]. destruct (existsb (Ascii.eqb "<") uri); [discriminate|]. cbn [rev] in U. rewrite <- app_assoc in U. cbn [app] in U.
      eapply find_in_path_relative; [eapply prefix_relative; exact U| |exact H].
      rewrite U in P. apply Forall_app in P as [_ P]. exact P.
    + eapply find_in_path_relative; [eapply prefix_relative; exact U| |exact H]. repeat constructor; assumption.
Qed.
(** the directory of a package, from the working directory on, is found unless paths are given *)
Theorem C309_directory_partial : forall w ps n f p, Forall (fun x => plain x /\ x <> []) (ps ++ [n; f]) -> w_load w (join (T "/") (ps ++ [n; f])) = None -> (forall m l, w_find w m = Some l -> l = []) ->
  holds w (join (T "/") (ps ++ [n; f])) p -> from_uri w (join (T "/") (ps ++ [n; f])) false = Some p.
Proof.
  intros w ps n f p F L E H. change (T "/") with [ "/"%char ] in *. set (uri := join [ "/"%char ] (ps ++ [n; f])) in *.
  assert (forall m, latest_of w m = None) as La by (intros m; unfold latest_of; destruct (w_find w m) as [l|] eqn:W; [rewrite (E m l W)|]; reflexivity).
  assert (forall m v, by_name_version w m v = None) as Lb by (intros m v; unfold by_name_version; destruct (w_find w m) as [l|] eqn:W; [rewrite (E m l W)|]; reflexivity).
  assert (forall a b, a ++ b = ps ++ [n; f] -> find_in_path w (join [ "/"%char ] a) b = Some p) as G.
  { intros a b Q. rewrite <- Q in F. apply Forall_app in F as [Fa Fb]. unfold find_in_path. rewrite fold_push_join by assumption. rewrite Q. fold uri. apply in_dir_holds in H. now rewrite H. }
  unfold from_uri. rewrite L. replace (if _ || _ || _ || _ then None else None) with (@None package) by now destruct (_ || _ || _ || _).
  assert (rev (uri_parts uri) = f :: n :: rev ps) as -> by (unfold uri; rewrite parts_join by (assumption || now destruct ps); now rewrite rev_app_distr).
  rewrite La. cbn [first_some].
  change (T "/") with [ "/"%char ]. rewrite (G (rev (rev ps)) [n; f]) by now rewrite rev_involutive.
  destruct (rev ps) as [|m r] eqn:R; [reflexivity|]. rewrite Lb. destruct (existsb (Ascii.eqb "<") uri); [reflexivity|].
  rewrite (G (rev r) [m; n; f]); [reflexivity|]. rewrite <- (rev_involutive ps), R. cbn [rev]. now rewrite <- app_assoc.
Qed.
(** the directory of a package from the root on is not *)
Theorem C309_absolute_refuted : forall w uri paths, w_load w uri = None -> (forall m l, w_find w m = Some l -> l = []) -> (forall q p, relative q -> ~ gives w q p) -> from_uri w uri paths = None.
Proof.
  intros w uri paths L E R. destruct (from_uri w uri paths) as [p|] eqn:F; [|reflexivity]. apply C309_sources_partial in F as [F|[(n & l & W & I)|(_ & q & Q & G)]].
  - congruence.
  - rewrite (E n l W) in I. destruct I.
  - elim (R q p Q G).
Qed.
Print Assumptions C309_sources_partial. Print Assumptions C309_directory_partial. Print Assumptions C309_absolute_refuted.
Definition some_dirs : world := toy [(T "data/foo/1.0/package.json", pk "foo" "1.0"); (T "/srv/foo/1.0/package.py", pk "foo" "2.0")] [(T "/srv/foo/1.0", [T "package.py"])] [].
Example C309_example : holds some_dirs (T "/srv/foo/1.0") (pk "foo" "2.0") /\ from_uri some_dirs (T "/srv/foo/1.0") false = None /\
  holds some_dirs (T "data/foo/1.0") (pk "foo" "1.0") /\ from_uri some_dirs (T "data/foo/1.0") false = Some (pk "foo" "1.0") /\ from_uri some_dirs (T "data/foo/1.0") true = None /\
  from_uri some_dirs (T "/data/foo/1.0") false = Some (pk "foo" "1.0").
Proof. repeat split; try (vm_compute; reflexivity); apply in_dir_holds; vm_compute; reflexivity. Qed.

(** ** C310: a handle *)
Theorem C310_file_partial : forall w h paths f p, package_name f -> ends_in h f -> gives w h p -> from_handle w h paths = Some p.
Proof. intros w h paths f p A B G. unfold from_handle. assert (is_package_file h = true) as -> by (apply is_package_file_spec; eauto). apply load_there_gives in G. now rewrite G. Qed.
Theorem C310_directory_partial : forall w h paths p, w_kind w h = Scan_model.KDir -> w_load w h = None -> holds w h p -> from_handle w h paths = Some p.
Proof.
  intros w h paths p K L H. unfold from_handle, load_there. rewrite L, K. cbn [Scan_model.is_dir]. apply in_dir_holds in H. rewrite H.
  replace (if is_package_file h then if there w h then None else None else None) with (@None package) by (destruct (is_package_file h), (there w h); reflexivity). reflexivity.
Qed.
(** a path that has nothing is passed over, and the first that has something gives the package *)
Theorem C310_paths_partial : forall w h a s b f p, relative h -> w_kind w h = Scan_model.KNone -> (forall x q, In x a -> below x h q -> w_kind w q = Scan_model.KNone) -> below s h f ->
  (w_kind w f = Scan_model.KFile /\ w_load w f = Some p \/ w_kind w f = Scan_model.KDir /\ w_load w f = None /\ holds w f p) -> from_handle w h (a ++ s :: b) = Some p.
Proof.
  intros w h a s b f p R K N B C. unfold from_handle. rewrite K. cbn [Scan_model.is_dir]. assert (load_there w h = None) as -> by (unfold load_there, there; now rewrite K).
  replace (if is_package_file h then None else None) with (@None package) by now destruct (is_package_file h). cbn [first_some].
  rewrite flat_map_app, first_some_skip.
  - cbn [flat_map app]. rewrite <- (below_fun _ _ _ _ B (push_below s h R)). unfold load_there, there. destruct C as [[C L]|(C & L & H)]; rewrite C, L; cbn [first_some Scan_model.is_dir]; [reflexivity|].
    apply in_dir_holds in H. now rewrite H.
  - apply Forall_forall. intros o O. apply in_flat_map in O as (x & X & O). pose proof (N x _ X (push_below x h R)) as Z. unfold load_there, there in O. rewrite Z in O. destruct O as [O|[O|[]]]; now rewrite <- O.
Qed.
(** a file of another name is taken below a path and not by itself *)
Theorem C310_any_name_refuted : forall w h p, w_kind w h = Scan_model.KFile -> w_load w h = Some p -> (forall f, package_name f -> ~ ends_in h f) -> relative h ->
  from_handle w h [] = None /\ from_handle w h [ [] ] = Some p.
Proof.
  intros w h p K L N R. assert (is_package_file h = false) as E.
  { destruct (is_package_file h) eqn:E; [|reflexivity]. apply is_package_file_spec in E as (f & A & B). elim (N f A B). }
  unfold from_handle. rewrite E, K. cbn [Scan_model.is_dir flat_map app first_some]. split; [reflexivity|].
  replace (push [] h) with h by (unfold push; now rewrite orb_true_r). unfold load_there, there. now rewrite K, L.
Qed.
Print Assumptions C310_file_partial. Print Assumptions C310_directory_partial. Print Assumptions C310_paths_partial. Print Assumptions C310_any_name_refuted.
Definition three : world := toy [(T "b/foo/package.json", pk "foo" "1.0"); (T "c/foo/package.py", pk "foo" "2.0"); (T "foo.yaml", pk "foo" "3.0")] [(T "b/foo", [T "package.json"]); (T "c/foo", [T "package.py"])] [].
Example C310_example : from_handle three (T "b/foo/package.json") [] = Some (pk "foo" "1.0") /\ from_handle three (T "c/foo") [] = Some (pk "foo" "2.0") /\
  from_handle three (T "foo") [T "a"; T "b"; T "c/"] = Some (pk "foo" "1.0") /\ from_handle three (T "foo") [T "a"; T "c/"; T "b"] = Some (pk "foo" "2.0") /\ from_handle three (T "foo.yaml") [] = None.
Proof. repeat split; vm_compute; reflexivity. Qed.

(** ** C311: a package from a repository *)
Theorem C311_sources_partial : forall w uri repo p, from_repository w uri repo = Some p -> w_kind w repo <> Scan_model.KNone /\
  (holds w repo p \/ exists es e, w_list w repo = Some es /\ In e es /\ w_kind w (push repo e) = Scan_model.KDir /\ (holds w (push repo e) p \/ gives w (push repo e) p)).
Proof.
  intros w uri repo p H. unfold from_repository, there in H. destruct (w_kind w repo) eqn:K; try discriminate; (split; [discriminate|]);
  apply first_some_in in H; (destruct H as [H|H]; [left; now apply in_dir_holds|right]);
  (destruct (w_list w repo) as [es|]; [|destruct H]); apply in_map_iff in H as (e & H & I); exists es, e; (split; [reflexivity|]); (split; [exact I|]);
  destruct (w_kind w (push repo e)) eqn:D; try discriminate; (split; [reflexivity|]); unfold find_in_path in H; cbn [Scan_model.is_dir fold_left] in H;
  apply first_some_in in H as [H|[H|[]]]; [left; now apply in_dir_holds|right|left; now apply in_dir_holds|right|left; now apply in_dir_holds|right];
  (destruct (is_package_file (push repo e)); [now apply load_there_gives|discriminate]).
Qed.
(** a package right in the repository is found, and else that of the first directory that holds one *)
Theorem C311_top_partial : forall w uri repo p, w_kind w repo <> Scan_model.KNone -> holds w repo p -> from_repository w uri repo = Some p.
Proof. intros w uri repo p K H. unfold from_repository, there. apply in_dir_holds in H. rewrite H. destruct (w_kind w repo); try reflexivity. congruence. Qed.
Theorem C311_first_partial : forall w uri repo a e b d p, w_kind w repo <> Scan_model.KNone -> (forall q, ~ holds w repo q) -> w_list w repo = Some (a ++ e :: b) -> relative e -> (forall x, In x a -> relative x) ->
  (forall x q r, In x a -> below repo x q -> ~ holds w q r /\ ~ gives w q r) -> below repo e d -> w_kind w d = Scan_model.KDir -> holds w d p -> from_repository w uri repo = Some p.
Proof.
  intros w uri repo a e b d p K N L R Ra S B D H. unfold from_repository. assert (there w repo = true) as -> by (unfold there; destruct (w_kind w repo); congruence).
  apply in_dir_none in N. rewrite N, L, map_app. cbn [first_some]. rewrite first_some_skip.
  - cbn [map]. rewrite <- (below_fun _ _ _ _ B (push_below repo e R)), D. cbn [Scan_model.is_dir]. unfold find_in_path. cbn [fold_left]. apply in_dir_holds in H. rewrite H. reflexivity.
  - apply Forall_forall. intros o O. apply in_map_iff in O as (x & <- & X). destruct (Scan_model.is_dir _); [|reflexivity]. unfold find_in_path. cbn [fold_left].
    pose proof (fun r => S x (push repo x) r X (push_below repo x (Ra x X))) as Q. assert (in_dir w (push repo x) = None) as -> by (apply in_dir_none; intros r; exact (proj1 (Q r))).
    assert (load_there w (push repo x) = None) as -> by (apply load_there_none; intros r; exact (proj2 (Q r))). cbn [first_some]. now destruct (is_package_file (push repo x)).
Qed.
(** which package is asked for does not matter *)
Theorem C311_uri_refuted : forall w uri uri' repo, from_repository w uri repo = from_repository w uri' repo.
Proof. reflexivity. Qed.
(** packages of the usual repository, two directories down, are never found *)
Theorem C311_depth_refuted : forall w uri repo, (forall p, ~ holds w repo p) -> (forall es e p, w_list w repo = Some es -> In e es -> ~ holds w (push repo e) p /\ ~ gives w (push repo e) p) -> from_repository w uri repo = None.
Proof.
  intros w uri repo A B. destruct (from_repository w uri repo) as [p|] eqn:E; [|reflexivity]. apply C311_sources_partial in E as [_ [E|(es & e & L & I & _ & [E|E])]].
  - elim (A p E). - elim (proj1 (B es e p L I) E). - elim (proj2 (B es e p L I) E).
Qed.
Print Assumptions C311_sources_partial. Print Assumptions C311_top_partial. Print Assumptions C311_first_partial. Print Assumptions C311_uri_refuted. Print Assumptions C311_depth_refuted.
Definition repo_disk : world := toy [(T "/r/foo/1.0/package.py", pk "foo" "1.0"); (T "/s/bar/package.py", pk "bar" "1.0")]
  [(T "/r", [T "foo"]); (T "/r/foo", [T "1.0"; T "docs"; T "notes"]); (T "/r/foo/1.0", [T "package.py"]); (T "/r/foo/docs", []); (T "/s", [T "a"; T "bar"]); (T "/s/a", []); (T "/s/bar", [T "package.py"])] [].
Example C311_example : from_repository repo_disk (T "/r/foo/1.0/package.py") (T "/r") = None /\ from_repository repo_disk (T "/s/baz/package.py") (T "/s") = Some (pk "bar" "1.0") /\
  from_repository repo_disk (T "bar") (T "/s/bar") = Some (pk "bar" "1.0") /\ from_repository repo_disk (T "bar") (T "/t") = None.
Proof. repeat split; vm_compute; reflexivity. Qed.

(** ** C312: a family in a repository *)
Theorem C312_family_partial : forall w n repo d, relative n -> below repo n d ->
  (family_in w n repo = None <-> w_kind w d = Scan_model.KNone) /\
  (forall es, w_kind w d <> Scan_model.KNone -> w_list w d = Some es -> exists vs, family_in w n repo = Some (n, Some vs) /\
     forall e, relative e -> (In e vs <-> In e es /\ exists f, below d e f /\ w_kind w f = Scan_model.KDir)).
Proof.
  intros w n repo d R B. unfold family_in. rewrite <- (below_fun _ _ _ _ B (push_below repo n R)). split.
  - unfold there. destruct (w_kind w d); split; congruence.
  - intros es K L. assert (there w d = true) as -> by (unfold there; destruct (w_kind w d); congruence). rewrite L. eexists. split; [reflexivity|].
    intros e E. rewrite filter_In. split; intros [I J]; (split; [exact I|]).
    + exists (push d e). split; [now apply push_below|]. destruct (w_kind w (push d e)); try discriminate. reflexivity.
    + destruct J as (f & F & J). rewrite <- (below_fun _ _ _ _ F (push_below d e E)), J. reflexivity.
Qed.
(** whether there are packages in the directories does not matter *)
Theorem C312_empty_refuted : forall w load find n repo, family_in (mkWorld (w_kind w) load (w_list w) find) n repo = family_in w n repo.
Proof. reflexivity. Qed.
(** a file is a family *)
Theorem C312_file_refuted : forall w n repo d, relative n -> below repo n d -> w_kind w d = Scan_model.KFile -> w_list w d = None -> family_in w n repo = Some (n, None).
Proof. intros w n repo d R B K L. unfold family_in, there. rewrite <- (below_fun _ _ _ _ B (push_below repo n R)), K, L. reflexivity. Qed.
Print Assumptions C312_family_partial. Print Assumptions C312_empty_refuted. Print Assumptions C312_file_refuted.
Example C312_example : family_in repo_disk (T "foo") (T "/r") = Some (T "foo", Some [T "1.0"; T "docs"]) /\ family_in repo_disk (T "package.py") (T "/r/foo/1.0") = Some (T "package.py", None) /\ family_in repo_disk (T "bar") (T "/r") = None.
Proof. repeat split; vm_compute; reflexivity. Qed.
