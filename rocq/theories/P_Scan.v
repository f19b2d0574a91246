(** Claims about repositories that are scanned. *)
From Verif Require Import Base Base_lemmas Maps Sorting Version_model Package_model Order_model Order_spec Order_proofs.
From Verif Require Import Version_spec Version_order P_Version P_Range Scan_model Scan_spec Scan_proofs Scan_repo Scan_walk.
Open Scope string_scope. Open Scope list_scope.

(** a disk made of directories and files *)
Definition tree (dirs : list (text * list text)) (files : list (text * (N * text))) : disk :=
  mkDisk (fun p => if ahas p files then KFile else if ahas p dirs then KDir else KNone) (fun p => aget p dirs)
         (fun p => match aget p files with Some (time, t) => Some (time, N.of_nat (length t)) | None => None end) (fun p => match aget p files with Some (_, t) => Some t | None => None end).
(** a simple form of package files: name, version and a letter for each variant *)
Definition toy (t : text) : option package :=
  match split_on " "%char t with
  | [n; v; k] => Some (mkPackage n (if text_eqb v (T "-") then None else parse_version v) [] (map (fun _ => []) k) None [] 0%N)
  | _ => None
  end.
Definition toy_file (d : disk) (f : text) : option package := match d_text d f with Some t => toy t | None => None end.
Definition ver (s : string) : version := match parse_version (T s) with Some v => v | None => v_empty end.
Definition pkg (n v : string) (k : nat) : package := mkPackage (T n) (parse_version (T v)) [] (repeat [] k) None [] 0%N.
Definition bare (n : string) : package := mkPackage (T n) None [] [] None [] 0%N.

(** ** C261: the scan finds the packages *)
Theorem C261_scan_partial : forall load_file d root r r', initialize load_file d root r = (true, r') ->
  exists es, d_list d root = Some es /\ forall n v p, get_package n (Some v) r' = Some p <-> last_one (called n (v_str v)) (loaded load_file d (places d root es)) p.
Proof.
  intros load_file d root r r' H. destruct (initialize_ok load_file d root r r' H) as [es [H1 H2]]. exists es. split; [exact H2|]. rewrite (initialize_spec load_file d root r es H1 H2) in H. injection H as <-. intros n v p. apply get_exact.
Qed.
Print Assumptions C261_scan_partial.
(** when no two files have the same name and version, every package is found *)
Theorem C261_unique_partial : forall load_file d root r r' es p v, initialize load_file d root r = (true, r') -> d_list d root = Some es ->
  (forall q1 q2, In q1 (loaded load_file d (places d root es)) -> In q2 (loaded load_file d (places d root es)) -> called (p_name q1) (v_str v) q1 -> called (p_name q1) (v_str v) q2 -> q1 = q2) ->
  In p (loaded load_file d (places d root es)) -> p_version p = Some v -> get_package (p_name p) (Some v) r' = Some p.
Proof.
  intros load_file d root r r' es p v H He Hu Hin Hv. destruct (C261_scan_partial load_file d root r r' H) as [es' [He' Hg]]. rewrite He in He'. injection He' as <-. set (ps := loaded load_file d (places d root es)) in *.
  assert (Hc : called (p_name p) (v_str v) p) by (split; [reflexivity|rewrite Hv; reflexivity]). destruct (proj1 (last_exists _ (called_dec (p_name p) (v_str v)) ps)) as [q Hq]; [eauto|]. apply Hg in Hq as Hq'. destruct Hq as [a [b [E [Hq _]]]].
  rewrite Hq'. f_equal. symmetry. apply Hu; [exact Hin|rewrite E; apply in_elt|exact Hc|exact Hq].
Qed.
Print Assumptions C261_unique_partial.
Theorem C261_names_partial : forall load_file d root r r' es, initialize load_file d root r = (true, r') -> d_list d root = Some es ->
  sorted_by text_cmp (get_names r') /\ NoDup (get_names r') /\ (forall n, In n (get_names r') <-> exists p, In p (loaded load_file d (places d root es)) /\ p_name p = n) /\
  (forall n, package_exists n None r' = true <-> exists p, In p (loaded load_file d (places d root es)) /\ p_name p = n) /\
  (forall n v, package_exists n (Some v) r' = true <-> exists p, In p (loaded load_file d (places d root es)) /\ called n (v_str v) p) /\ f_ready r' = true.
Proof.
  intros load_file d root r r' es H He. destruct (initialize_ok load_file d root r r' H) as [es' [H1 H2]]. rewrite He in H2. injection H2 as <-. rewrite (initialize_spec load_file d root r es H1 He) in H. injection H as <-.
  pose proof (names_exact (loaded load_file d (places d root es)) (variants_all (loaded load_file d (places d root es)) []) (stats_all load_file d (places d root es) (mkStats 0 0 0 0)) true) as [A [B C]].
  repeat split; try assumption; try (apply C); try (apply exists_name); try (apply exists_exact).
Qed.
Print Assumptions C261_names_partial.
(** of two files with the same name and version only the last that is read is kept, and a package file in a family hides the versions below it *)
Definition double : disk := tree [(T "/r", [T "a"]); (T "/r/a", [T "1.0"; T "1.0b"]); (T "/r/a/1.0", [T "package.py"]); (T "/r/a/1.0b", [T "package.py"])]
  [(T "/r/a/1.0/package.py", (1%N, T "a 1.0 ")); (T "/r/a/1.0b/package.py", (1%N, T "a 1.0 x"))].
Definition hidden : disk := tree [(T "/r", [T "a"]); (T "/r/a", [T "package.py"; T "2.0"]); (T "/r/a/2.0", [T "package.py"])]
  [(T "/r/a/package.py", (1%N, T "a 1.0 ")); (T "/r/a/2.0/package.py", (1%N, T "a 2.0 "))].
Theorem C261_refuted : (exists r, initialize (toy_file double) double (T "/r") new_repo = (true, r) /\ get_package (T "a") (Some (ver "1.0")) r = Some (pkg "a" "1.0" 1) /\
    toy_file double (T "/r/a/1.0/package.py") = Some (pkg "a" "1.0" 0)) /\
  (exists r, initialize (toy_file hidden) hidden (T "/r") new_repo = (true, r) /\ get_package (T "a") (Some (ver "2.0")) r = None /\ toy_file hidden (T "/r/a/2.0/package.py") = Some (pkg "a" "2.0" 0)).
Proof. split; eexists; repeat split; vm_compute; reflexivity. Qed.
Print Assumptions C261_refuted.
Definition shop : disk := tree [(T "/r", [T "b"; T "readme"; T "a"; T "empty"]); (T "/r/a", [T "1.0"; T "2.0"; T "notes"]); (T "/r/a/1.0", [T "package.py"]); (T "/r/a/2.0", [T "package.py"]); (T "/r/b", [T "package.py"]); (T "/r/empty", [T "1"]); (T "/r/empty/1", [])]
  [(T "/r/a/1.0/package.py", (1%N, T "a 1.0 xx")); (T "/r/a/2.0/package.py", (2%N, T "a 2.0 ")); (T "/r/b/package.py", (3%N, T "b - ")); (T "/r/readme", (4%N, T "hello")); (T "/r/a/notes", (4%N, T "hello"))].
Definition shop_repo : repo := snd (initialize (toy_file shop) shop (T "/r") new_repo).
Example C261_example : places shop (T "/r") [T "b"; T "readme"; T "a"; T "empty"] = [T "/r/b"; T "/r/a/1.0"; T "/r/a/2.0"; T "/r/empty/1"] /\ get_names shop_repo = [T "a"; T "b"] /\
  get_package (T "a") (Some (ver "1.0")) shop_repo = Some (pkg "a" "1.0" 2) /\ fst (initialize (toy_file shop) shop (T "/r") new_repo) = true.
Proof. repeat split; vm_compute; reflexivity. Qed.

(** ** C262: the latest version *)
Theorem C262_latest_partial : forall S load_file d root r r' es n p, transitive_versions S -> initialize load_file d root r = (true, r') -> d_list d root = Some es ->
  versions_in S (loaded load_file d (places d root es)) -> get_package n None r' = Some p ->
  (exists k, last_one (called n k) (loaded load_file d (places d root es)) p) /\ forall k q, last_one (called n k) (loaded load_file d (places d root es)) q -> goes_before true p q.
Proof.
  intros S load_file d root r r' es n p HS H He Hv. destruct (initialize_ok load_file d root r r' H) as [es' [H1 H2]]. rewrite He in H2. injection H2 as <-. rewrite (initialize_spec load_file d root r es H1 He) in H. injection H as <-. apply (latest_exact _ _ _ _ S n p HS Hv).
Qed.
Print Assumptions C262_latest_partial.
Theorem C262_none_partial : forall load_file d root r r' es n, initialize load_file d root r = (true, r') -> d_list d root = Some es ->
  (get_package n None r' = None <-> forall p, In p (loaded load_file d (places d root es)) -> p_name p <> n).
Proof.
  intros load_file d root r r' es n H He. destruct (initialize_ok load_file d root r r' H) as [es' [H1 H2]]. rewrite He in H2. injection H2 as <-. rewrite (initialize_spec load_file d root r es H1 He) in H. injection H as <-. apply latest_none.
Qed.
Print Assumptions C262_none_partial.
Theorem C262_versions_partial : forall S load_file d root r r' es n, transitive_versions S -> initialize load_file d root r = (true, r') -> d_list d root = Some es ->
  versions_in S (loaded load_file d (places d root es)) ->
  sorted_by (fun a b => vcmp b a) (get_versions n r') /\ NoDup (map v_str (get_versions n r')) /\
  forall v, In v (get_versions n r') <-> exists p, last_one (called n (v_str v)) (loaded load_file d (places d root es)) p /\ p_version p = Some v.
Proof.
  intros S load_file d root r r' es n HS H He Hv. destruct (initialize_ok load_file d root r r' H) as [es' [H1 H2]]. rewrite He in H2. injection H2 as <-. rewrite (initialize_spec load_file d root r es H1 He) in H. injection H as <-.
  split; [exact (versions_sorted _ _ _ _ S n HS Hv)|]. split; [apply versions_nodup|]. intros v. apply versions_exact.
Qed.
Print Assumptions C262_versions_partial.
(** versions are looked up by their text: an equal version that is written otherwise is not found, and one that nobody wrote is *)
Theorem C262_refuted : vcmp (ver "1") (ver "1.0") = Eq /\ get_package (T "a") (Some (ver "1.0")) shop_repo <> None /\ get_package (T "a") (Some (ver "1")) shop_repo = None /\ package_exists (T "a") (Some (ver "1")) shop_repo = false /\
  get_package (T "b") (Some (ver "latest")) shop_repo = Some (bare "b") /\ get_versions (T "b") shop_repo = [].
Proof. split; [vm_compute; reflexivity|]. split; [vm_compute; discriminate|]. repeat split; vm_compute; reflexivity. Qed.
Print Assumptions C262_refuted.
Definition street : disk := tree [(T "/r", [T "b"; T "a"]); (T "/r/a", [T "1.1"; T "2.1"]); (T "/r/a/1.1", [T "package.py"]); (T "/r/a/2.1", [T "package.py"]); (T "/r/b", [T "package.py"])]
  [(T "/r/a/1.1/package.py", (1%N, T "a 1.1 xx")); (T "/r/a/2.1/package.py", (2%N, T "a 2.1 ")); (T "/r/b/package.py", (3%N, T "b - "))].
Definition street_repo : repo := snd (initialize (toy_file street) street (T "/r") new_repo).
Example C262_example : get_package (T "a") None street_repo = Some (pkg "a" "2.1" 0) /\ get_versions (T "a") street_repo = [ver "2.1"; ver "1.1"] /\ get_package (T "b") None street_repo = Some (bare "b") /\ get_package (T "c") None street_repo = None /\
  (exists es, d_list street (T "/r") = Some es /\ versions_in orderly (loaded (toy_file street) street (places street (T "/r") es))).
Proof.
  split; [vm_compute; reflexivity|]. split; [vm_compute; reflexivity|]. split; [vm_compute; reflexivity|]. split; [vm_compute; reflexivity|]. exists [T "b"; T "a"]. split; [reflexivity|].
  assert (E : loaded (toy_file street) street (places street (T "/r") [T "b"; T "a"]) = [bare "b"; pkg "a" "1.1" 2; pkg "a" "2.1" 0]) by (vm_compute; reflexivity). rewrite E. intros p v Hp Hv.
  assert (O1 : orderly (V "1.1")) by is_orderly. assert (O2 : orderly (V "2.1")) by is_orderly.
  destruct Hp as [<-|[<-|[<-|[]]]]; [discriminate| |]; [replace v with (V "1.1"); [exact O1|]|replace v with (V "2.1"); [exact O2|]]; cbn [p_version pkg] in Hv; change (Some v) with (id (Some v)) in Hv; apply (f_equal (fun o => match o with Some w => w | None => v_empty end)) in Hv; cbn [id] in Hv; rewrite <- Hv; vm_compute; reflexivity.
Qed.

(** ** C263: searches *)
(** what is asked for *)
Definition asked (c : criteria) (p : package) : Prop :=
  match c_pattern c with Some x => wildcard (loose x) (p_name p) | None => True end /\
  match p_version p with
  | Some v => match c_version c with Some x => x = [] \/ v_str v = x | None => True end /\ (c_prerelease c = true \/ is_prerelease v = false) /\ forall n f, In (n, f) (c_requires c) -> n = p_name p -> f v = true
  | None => True
  end.
Theorem C263_find_partial : forall load_file d root r r' es c p, initialize load_file d root r = (true, r') -> d_list d root = Some es -> c_limit c = None -> one_line (p_name p) ->
  (In p (find_packages c r') <-> (exists k, last_one (called (p_name p) k) (loaded load_file d (places d root es)) p) /\ asked c p).
Proof.
  intros load_file d root r r' es c p H He Hl Ho. destruct (initialize_ok load_file d root r r' H) as [es' [H1 H2]]. rewrite He in H2. injection H2 as <-. rewrite (initialize_spec load_file d root r es H1 He) in H. injection H as <-. set (ps := loaded load_file d (places d root es)).
  unfold find_packages. rewrite (gather_all c _ Hl). cbn [app]. rewrite filter_In. change (flat_map _ _) with (candidates ps (variants_all ps []) (stats_all load_file d (places d root es) (mkStats 0 0 0 0)) true c). rewrite candidates_in.
  assert (A : match c_pattern c with Some pat => name_matches (p_name p) pat = true | None => True end <-> match c_pattern c with Some x => wildcard (loose x) (p_name p) | None => True end) by (destruct (c_pattern c); [apply name_matches_spec, Ho|tauto]).
  assert (B : negb (passed_over c p) && satisfies c p = true <-> match p_version p with
    | Some v => match c_version c with Some x => x = [] \/ v_str v = x | None => True end /\ (c_prerelease c = true \/ is_prerelease v = false) /\ forall n f, In (n, f) (c_requires c) -> n = p_name p -> f v = true
    | None => True end).
  { rewrite andb_true_iff, negb_true_iff. unfold passed_over, satisfies. rewrite forallb_forall. destruct (p_version p) as [v|].
    - rewrite orb_false_iff. assert (C1 : match c_version c with Some r0 => negb (is_nil r0) && negb (text_eqb (v_str v) r0) | None => false end = false <-> match c_version c with Some x => x = [] \/ v_str v = x | None => True end).
      { destruct (c_version c) as [x|]; [|tauto]. rewrite andb_false_iff, !negb_false_iff, text_eqb_eq. destruct x; cbn [is_nil]; intuition discriminate. }
      assert (C2 : negb (c_prerelease c) && is_prerelease v = false <-> c_prerelease c = true \/ is_prerelease v = false) by (rewrite andb_false_iff, negb_false_iff; tauto).
      rewrite C1, C2. split.
      + intros [[X1 X2] X3]. split; [exact X1|]. split; [exact X2|]. intros n f Hin ->. specialize (X3 _ Hin). cbn [fst snd] in X3. rewrite text_eqb_refl in X3. cbn [andb] in X3. destruct (f v); [reflexivity|discriminate].
      + intros [X1 [X2 X3]]. split; [auto|]. intros [n f] Hin. cbn [fst snd]. destruct (text_eqb_spec n (p_name p)) as [E|E]; [|reflexivity]. rewrite (X3 n f Hin E). reflexivity.
    - split; [auto|]. intros _. split; [reflexivity|]. intros x _. rewrite andb_false_r. reflexivity. }
  unfold asked. rewrite A, B. tauto.
Qed.
Print Assumptions C263_find_partial.
Theorem C263_limit_partial : forall c r n, c_limit c = Some (S n) -> find_packages c r = firstn (S n) (find_packages (mkCriteria (c_pattern c) (c_version c) (c_requires c) None (c_prerelease c)) r).
Proof. intros c r n H. unfold find_packages. rewrite (gather_limit c (S n) _ H) by (cbn; lia). rewrite gather_all by reflexivity. reflexivity. Qed.
Print Assumptions C263_limit_partial.
(** a limit of none can give one, a requirement on the version is its text, points in patterns are any characters, and packages without a version always fit *)
Definition anything : criteria := mkCriteria None None [] None true.
Definition dotted : disk := tree [(T "/r", [T "axb"]); (T "/r/axb", [T "1"]); (T "/r/axb/1", [T "package.py"])] [(T "/r/axb/1/package.py", (1%N, T "axb 1 "))].
Theorem C263_refuted : find_packages (mkCriteria None None [] (Some 0%nat) true) shop_repo <> [] /\ find_packages (mkCriteria (Some (T "a")) (Some (T ">=1")) [] None true) shop_repo = [] /\
  find_packages (mkCriteria (Some (T "b")) (Some (T "7")) [] None true) shop_repo = [bare "b"] /\
  find_packages (mkCriteria (Some (T "a.b")) None [] None true) (snd (initialize (toy_file dotted) dotted (T "/r") new_repo)) = [pkg "axb" "1" 0].
Proof. split; [vm_compute; discriminate|]. repeat split; vm_compute; reflexivity. Qed.
Print Assumptions C263_refuted.
Theorem C263_zero_partial : forall c r, c_limit c = Some 0%nat -> (length (find_packages c r) <= 1)%nat.
Proof. intros c r H. apply gather_zero, H. Qed.
Print Assumptions C263_zero_partial.
Example C263_example : find_packages (mkCriteria (Some (T "?")) (Some (T "2.0")) [] None true) shop_repo = [bare "b"; pkg "a" "2.0" 0] /\ find_packages (mkCriteria (Some (T "a*")) None [(T "a", fun v => match vcmp v (ver "2") with Lt => true | _ => false end)] (Some 3%nat) false) shop_repo = [pkg "a" "1.0" 2].
Proof. split; vm_compute; reflexivity. Qed.

(** ** C264: variants *)
Theorem C264_variants_partial : forall load_file d root r r' es n v, initialize load_file d root r = (true, r') -> d_list d root = Some es ->
  (forall q, In q (loaded load_file d (places d root es)) -> ~ In "-"%char (p_name q)) -> ~ In "-"%char n ->
  (forall p, last_one (fun q => called n (v_str v) q /\ p_variants q <> []) (loaded load_file d (places d root es)) p ->
     get_variants n (Some v) r' = map (fun i => T "variant_" ++ show_N (N.of_nat i)) (seq 0 (length (p_variants p)))) /\
  ((forall p, In p (loaded load_file d (places d root es)) -> called n (v_str v) p -> p_variants p = []) -> get_variants n (Some v) r' = []).
Proof.
  intros load_file d root r r' es n v H He Hd Hn. destruct (initialize_ok load_file d root r r' H) as [es' [H1 H2]]. rewrite He in H2. injection H2 as <-. rewrite (initialize_spec load_file d root r es H1 He) in H. injection H as <-. set (ps := loaded load_file d (places d root es)) in *.
  unfold get_variants. cbn [f_variants]. rewrite variants_get. change (aget (dashed n (v_str v)) []) with (@None (list text)). split.
  - intros p Hp. apply (variants_last ps n (v_str v) p Hd Hn) in Hp. rewrite Hp. reflexivity.
  - intros Ha. destruct (find _ (rev ps)) as [p|] eqn:E; [|reflexivity]. apply (variants_last ps n (v_str v) p Hd Hn) in E. destruct E as [a [b [E [[X Y] _]]]]. exfalso. apply Y, (Ha p); [rewrite E; apply in_elt|exact X].
Qed.
Print Assumptions C264_variants_partial.
Theorem C264_none_partial : forall load_file d root r r' n, initialize load_file d root r = (true, r') -> ~ In "-"%char n -> get_variants n None r' = [].
Proof.
  intros load_file d root r r' n H Hn. destruct (initialize_ok load_file d root r r' H) as [es [H1 H2]]. rewrite (initialize_spec load_file d root r es H1 H2) in H. injection H as <-. unfold get_variants. cbn [f_variants]. rewrite variants_get. destruct (find _ _) as [p|] eqn:E; [|reflexivity].
  apply find_some in E. destruct E as [_ E]. apply andb_true_iff in E. destruct E as [E _]. apply text_eqb_eq in E. exfalso. apply Hn. rewrite E. unfold dashed. apply in_elt.
Qed.
Print Assumptions C264_none_partial.
(** names with dashes get the variants of others; without a version there are none, or those of another package; and variants of a file that was replaced stay *)
Definition dashes : disk := tree [(T "/r", [T "x"; T "y"]); (T "/r/x", [T "1"]); (T "/r/y", [T "1"]); (T "/r/x/1", [T "package.py"]); (T "/r/y/1", [T "package.py"])] [(T "/r/x/1/package.py", (1%N, T "a 1-2 xxx")); (T "/r/y/1/package.py", (1%N, T "a-1 2 "))].
Definition stale : disk := tree [(T "/r", [T "a"]); (T "/r/a", [T "1"; T "2"]); (T "/r/a/1", [T "package.py"]); (T "/r/a/2", [T "package.py"])] [(T "/r/a/1/package.py", (1%N, T "a 1 xx")); (T "/r/a/2/package.py", (1%N, T "a 1 "))].
Theorem C264_refuted : let r := snd (initialize (toy_file dashes) dashes (T "/r") new_repo) in let s := snd (initialize (toy_file stale) stale (T "/r") new_repo) in
  get_package (T "a-1") (Some (ver "2")) r = Some (pkg "a-1" "2" 0) /\ length (get_variants (T "a-1") (Some (ver "2")) r) = 3%nat /\
  get_package (T "a-1-2") None r = None /\ length (get_variants (T "a-1-2") None r) = 3%nat /\
  get_package (T "a") (Some (ver "1")) s = Some (pkg "a" "1" 0) /\ length (get_variants (T "a") (Some (ver "1")) s) = 2%nat.
Proof. cbv zeta. repeat split; vm_compute; reflexivity. Qed.
Print Assumptions C264_refuted.
Example C264_example : get_variants (T "a") (Some (ver "1.0")) shop_repo = [T "variant_0"; T "variant_1"] /\ get_variants (T "a") (Some (ver "2.0")) shop_repo = [] /\ get_variants (T "a") None shop_repo = [].
Proof. repeat split; vm_compute; reflexivity. Qed.

(** ** C265: statistics *)
Theorem C265_counts_partial : forall load_file d root r r' es, initialize load_file d root r = (true, r') -> d_list d root = Some es ->
  t_packages (f_stats r') = length (loaded load_file d (places d root es)) /\ t_versions (f_stats r') = length (loaded load_file d (places d root es)) /\ t_variants (f_stats r') = length (flat_map p_variants (loaded load_file d (places d root es))).
Proof.
  intros load_file d root r r' es H He. destruct (initialize_ok load_file d root r r' H) as [es' [H1 H2]]. rewrite He in H2. injection H2 as <-. rewrite (initialize_spec load_file d root r es H1 He) in H. injection H as <-. apply stats_spec.
Qed.
Print Assumptions C265_counts_partial.
Theorem C265_size_partial : forall load_file d root r r' es, initialize load_file d root r = (true, r') -> d_list d root = Some es ->
  t_size (f_stats r') = total (flat_map (fun dir : text => match d_kind d (dir ++ T "/package.py"), load_file (dir ++ T "/package.py"), d_stat d (dir ++ T "/package.py") with KNone, _, _ => [] | _, Some _, Some (_, n) => [n] | _, _, _ => [] end) (places d root es)).
Proof.
  intros load_file d root r r' es H He. destruct (initialize_ok load_file d root r r' H) as [es' [H1 H2]]. rewrite He in H2. injection H2 as <-. rewrite (initialize_spec load_file d root r es H1 He) in H. injection H as <-. cbn [f_stats].
  match goal with |- context [flat_map ?f _] => set (sizes := f) end. generalize (places d root es). intros dirs. induction dirs as [|x dirs IH] using rev_ind; [reflexivity|]. rewrite flat_map_app, total_app, <- IH. unfold stats_all at 1. rewrite fold_left_app. cbn [fold_left flat_map]. fold (stats_all load_file d dirs (mkStats 0 0 0 0)). unfold sizes. change (x ++ T "/package.py") with (child x (T "package.py")).
  destruct (d_kind d (child x (T "package.py"))); cbn [is_there]; destruct (load_file (child x (T "package.py"))); destruct (d_stat d (child x (T "package.py"))) as [[time size]|]; cbn [t_size app total]; lia.
Qed.
Print Assumptions C265_size_partial.
(** the number of packages is that of the files, not of the names, and files that were replaced are counted *)
Theorem C265_refuted : t_packages (f_stats shop_repo) = 3%nat /\ length (get_names shop_repo) = 2%nat /\
  let r := snd (initialize (toy_file double) double (T "/r") new_repo) in t_versions (f_stats r) = 2%nat /\ length (get_versions (T "a") r) = 1%nat /\ length (find_packages anything r) = 1%nat.
Proof. cbv zeta. repeat split; vm_compute; reflexivity. Qed.
Print Assumptions C265_refuted.
Example C265_example : f_stats shop_repo = mkStats 3 3 2 18.
Proof. vm_compute. reflexivity. Qed.

(** ** C266: refreshing *)
Theorem C266_fresh : forall load_file d root r r', initialize load_file d root r = (true, r') -> initialize load_file d root new_repo = (true, r').
Proof.
  intros load_file d root r r' H. destruct (initialize_ok load_file d root r r' H) as [es [H1 H2]]. rewrite (initialize_spec load_file d root r es H1 H2) in H. rewrite (initialize_spec load_file d root new_repo es H1 H2). exact H.
Qed.
Print Assumptions C266_fresh.
Theorem C266_missing : forall load_file d root r, d_kind d root = KNone -> initialize load_file d root r = (false, r).
Proof. intros load_file d root r H. unfold initialize. rewrite H. reflexivity. Qed.
Print Assumptions C266_missing.
(** a root that is there but cannot be read loses all packages, while the repository is still ready and has its statistics *)
Theorem C266_refuted : forall load_file d root r, d_kind d root <> KNone -> d_list d root = None ->
  initialize load_file d root r = (false, mkRepo [] [] (f_stats r) (f_ready r)).
Proof. intros load_file d root r H1 H2. unfold initialize. destruct (d_kind d root); try congruence; cbn [is_there]; rewrite H2; reflexivity. Qed.
Print Assumptions C266_refuted.
Example C266_example : let d := tree [] [(T "/r", (1%N, []))] in let r := snd (initialize (toy_file d) d (T "/r") shop_repo) in
  fst (initialize (toy_file d) d (T "/r") shop_repo) = false /\ f_ready r = true /\ t_packages (f_stats r) = 3%nat /\ get_names r = [] /\ snd (initialize (toy_file d) d (T "/gone") shop_repo) = shop_repo.
Proof. cbv zeta. repeat split; vm_compute; reflexivity. Qed.

(** ** C267: duplicates *)
(** the same name and the same version, or both without one *)
Definition same_package (p q : package) : Prop := p_name p = p_name q /\ option_map v_str (p_version p) = option_map v_str (p_version q).
Lemma key_same p q : ~ In "-"%char (p_name p) -> ~ In "-"%char (p_name q) -> (unique_key p = unique_key q <-> same_package p q).
Proof.
  intros Hp Hq. unfold unique_key, same_package. destruct (p_version p) as [v|], (p_version q) as [w|]; cbn [option_map]; split.
  - intros E. apply dashed_inj in E; [|assumption|assumption]. destruct E as [-> ->]. auto.
  - intros [-> E]. injection E as ->. reflexivity.
  - intros E. exfalso. apply Hq. rewrite <- E. unfold dashed. apply in_elt.
  - intros [_ E]. discriminate.
  - intros E. exfalso. apply Hp. rewrite E. unfold dashed. apply in_elt.
  - intros [_ E]. discriminate.
  - auto.
  - tauto.
Qed.
Theorem C267_deduplicate_partial : forall S l, transitive_versions S -> versions_in S l -> (forall p, In p l -> ~ In "-"%char (p_name p)) ->
  sorted_by by_name (deduplicate l) /\ (forall p, In p (deduplicate l) -> In p l) /\ (forall p, In p l -> exists q, In q (deduplicate l) /\ same_package q p) /\
  (forall a p b q c, deduplicate l = a ++ p :: b ++ q :: c -> ~ same_package p q).
Proof.
  intros S l HS Hv Hd. unfold deduplicate. destruct (first_each_spec (sort_by by_name l) []) as [H1 [H2 H3]]. split; [|split; [|split]].
  - eapply subseq_sorted; [apply first_each_subseq|]. apply (sort_sorted by_name _ (by_name_TPO S HS)), forall_versions, Hv.
  - intros p Hp. apply H2 in Hp. destruct Hp as [_ Hp]. apply sort_in in Hp. exact Hp.
  - intros p Hp. destruct (H3 p) as [a [q [b [E [Ek [Hin _]]]]]]; [apply sort_in, Hp|intros []|]. exists q. split; [exact Hin|]. apply key_same; [|apply Hd, Hp|exact Ek]. apply Hd, (sort_in by_name). rewrite E. apply in_elt.
  - intros a p b q c E X. rewrite E in H1. assert (Hpq : In p l /\ In q l).
    { split; apply (sort_in by_name); apply H2; rewrite E; [apply in_elt|]. apply in_app_iff. right. right. apply in_elt. }
    apply key_same in X; [|apply Hd, Hpq|apply Hd, Hpq]. rewrite map_app in H1. apply NoDup_remove_2 in H1. apply H1. apply in_app_iff. right. rewrite X. apply in_map, in_elt.
Qed.
Print Assumptions C267_deduplicate_partial.
(** the first of the list is kept *)
Theorem C267_first_partial : forall S l p, transitive_versions S -> versions_in S l -> (forall q, In q l -> ~ In "-"%char (p_name q)) ->
  (forall q v, In q l -> p_version q = Some v -> parse_version (v_str v) = Some v) -> In p (deduplicate l) ->
  exists a b, l = a ++ p :: b /\ forall q, In q a -> ~ same_package q p.
Proof.
  intros S l p HS Hv Hd Hpv Hp. unfold deduplicate in Hp. destruct (first_each_spec (sort_by by_name l) []) as [H1 [H2 H3]]. destruct (H2 p Hp) as [_ Hps]. pose proof (proj1 (sort_in by_name l p) Hps) as Hpl.
  destruct (H3 p Hps) as [a [q [b [E [Ek [Hin Ha]]]]]]; [intros []|]. assert (Eqp : q = p).
  { apply in_split in Hin. destruct Hin as [x [y Ex]]. rewrite Ex in Hp, H1. rewrite map_app in H1. apply NoDup_remove_2 in H1. apply in_app_iff in Hp. destruct Hp as [Hp|[Hp|Hp]]; [|exact Hp|]; exfalso; apply H1; rewrite Ek; apply in_app_iff; [left|right]; apply in_map, Hp. }
  subst q. set (f := fun x => text_eqb (unique_key p) (unique_key x)). assert (F : find f (sort_by by_name l) = Some p).
  { apply find_first. exists a, b. split; [exact E|]. split; [apply text_eqb_refl|]. intros y Hy. unfold f. destruct (text_eqb_spec (unique_key p) (unique_key y)) as [X|X]; [exfalso; apply (Ha y Hy); auto|reflexivity]. }
  assert (Hall : Forall (fun p => forall v, p_version p = Some v -> S v) l) by (apply forall_versions, Hv). assert (HP := by_name_TPO S HS).
  assert (Hsame : forall y, In y l -> f y = true -> is_eq (by_name p y) = true).
  { intros y Hy X. unfold f in X. apply text_eqb_eq in X. apply key_same in X; [|apply Hd, Hpl|apply Hd, Hy]. destruct X as [X1 X2]. assert (Ev : p_version p = p_version y).
    { destruct (p_version p) as [v|] eqn:E1, (p_version y) as [w|] eqn:E2; cbn in X2; try discriminate; [|reflexivity]. injection X2 as X2. rewrite <- (Hpv p v Hpl E1), <- (Hpv y w Hy E2), X2. reflexivity. }
    unfold by_name. rewrite X1, (tpo_refl _ _ TPO_text) by exact I. assert (D : descending p y = descending p p) by (unfold descending, by_version; rewrite Ev; reflexivity). rewrite D, (tpo_refl _ _ (descending_TPO S HS)); [reflexivity|]. rewrite Forall_forall in Hall. apply Hall, Hpl. }
  assert (G : forall k, (forall y, In y k -> In y l) -> find f k = find f (filter (fun y => is_eq (by_name p y)) k)).
  { intros k Hk. induction k as [|x k IH]; [reflexivity|]. cbn [find filter]. destruct (f x) eqn:Ef; [rewrite (Hsame x (Hk x (or_introl eq_refl)) Ef); cbn [find]; rewrite Ef; reflexivity|]. destruct (is_eq (by_name p x)); cbn [find]; [rewrite Ef|]; apply IH; intros y Hy; apply Hk; right; exact Hy. }
  rewrite G in F by (intros y Hy; apply (sort_in by_name), Hy). rewrite (sort_stable by_name _ HP) in F; [|rewrite Forall_forall in Hall; apply Hall, Hpl|exact Hall]. rewrite <- G in F by auto. apply find_first in F. destruct F as [x [y [Ex [_ Hx]]]]. exists x, y. split; [exact Ex|].
  intros q Hq X. assert (Hql : In q l) by (rewrite Ex; apply in_app_iff; left; exact Hq). apply key_same in X; [|apply Hd, Hql|apply Hd, Hpl]. specialize (Hx q Hq). unfold f in Hx. rewrite X, text_eqb_refl in Hx. discriminate.
Qed.
Print Assumptions C267_first_partial.
(** names with dashes: different packages are taken for the same *)
Theorem C267_refuted : deduplicate [pkg "a" "1-2" 0; pkg "a-1" "2" 0] = [pkg "a" "1-2" 0] /\ deduplicate [bare "a-1"; pkg "a" "1" 0] = [pkg "a" "1" 0] /\
  length (deduplicate [pkg "a" "1" 0; pkg "a" "1.0" 0]) = 2%nat /\ vcmp (ver "1") (ver "1.0") = Eq.
Proof. repeat split; vm_compute; reflexivity. Qed.
Print Assumptions C267_refuted.
Example C267_example : deduplicate [pkg "b" "1" 0; pkg "a" "1" 0; bare "a"; pkg "a" "2" 0; pkg "a" "1" 3] = [pkg "a" "2" 0; pkg "a" "1" 0; bare "a"; pkg "b" "1" 0].
Proof. vm_compute. reflexivity. Qed.

(** ** C268: patterns *)
Theorem C268_glob_partial : forall p s, ~ In "."%char p -> one_line s -> (tmatch (glob_tokens p) s = true <-> glob p s).
Proof. intros p s Hp Hs. rewrite (glob_tokens_spec p s Hs), (loose_id p Hp). tauto. Qed.
Print Assumptions C268_glob_partial.
Theorem C268_points_partial : forall p s, one_line s -> (tmatch (glob_tokens p) s = true <-> glob (loose p) s).
Proof. exact glob_tokens_spec. Qed.
Print Assumptions C268_points_partial.
Theorem C268_names_partial : forall n p, one_line n -> (name_matches n p = true <-> wildcard (loose p) n) /\ (~ In "/"%char n -> (file_matches n p = true <-> glob (loose p) n)).
Proof. intros n p H. split; [apply name_matches_spec, H|]. intros Hn. apply file_matches_spec; assumption. Qed.
Print Assumptions C268_names_partial.
(** points are any characters, although they should be escaped *)
Theorem C268_refuted : tmatch (glob_tokens (T ".git/**")) (T "agit/x") = true /\ ~ glob (T ".git/**") (T "agit/x").
Proof. split; [vm_compute; reflexivity|]. intros H. inversion H. Qed.
Print Assumptions C268_refuted.
Example C268_example : tmatch (glob_tokens (T "a/**/b?_*")) (T "a/x/y/bc_d") = true /\ tmatch (glob_tokens (T "a*")) (T "a/b") = false /\ tmatch (glob_tokens (T "a**")) (T "a/b") = true /\ name_matches (T "maya_tools") (T "*_to?ls") = true /\ name_matches (T "maya_tools") (T "maya") = false.
Proof. repeat split; vm_compute; reflexivity. Qed.

(** ** C269: what is excluded *)
Theorem C269_excluded_partial : forall g p, one_line p -> (excluded g p = true <-> exists pat q, In pat (g_exclude g) /\ end_of p q /\ glob (loose pat) q).
Proof. exact excluded_spec. Qed.
Print Assumptions C269_excluded_partial.
(** directories that are excluded by the default settings are scanned themselves, only what is below them is not; files are not excluded; and a repository below a directory of such a name has no packages *)
Definition hide : disk := tree [(T "/w/.git", [T "package.py"; T "sub"]); (T "/w", [T ".git"]); (T "/w/.git/sub", [T "package.py"]); (T "/node_modules/r", [T "package.py"]); (T "/q", [T "x.pyc"])]
  [(T "/w/.git/package.py", (1%N, T "a 1 ")); (T "/w/.git/sub/package.py", (1%N, T "b 1 ")); (T "/node_modules/r/package.py", (1%N, T "c 1 ")); (T "/q/x.pyc", (1%N, T "d 1 "))].
Definition names_of (o : outcome) : list text := match o with Scanned z => akeys (z_packages z) | _ => [] end.
Theorem C269_refuted : names_of (scan_repository toy hide default_settings (fun _ => 0%N) (T "/w") []) = [T "/w/.git/package.py"] /\
  names_of (scan_repository toy hide (mkSettings 1 5 [T "*.pyc"] [T "*.pyc"] 1 true 1 true) (fun _ => 0%N) (T "/q") []) = [T "/q/x.pyc"] /\
  (exists z, scan_repository toy hide default_settings (fun _ => 0%N) (T "/node_modules/r") [] = Scanned z /\ z_packages z = [] /\ z_dirs z = 0%nat /\ z_errors z = []).
Proof. repeat split; try (vm_compute; reflexivity). eexists. repeat split; vm_compute; reflexivity. Qed.
Print Assumptions C269_refuted.
Example C269_example : excluded default_settings (T "/w/.git/objects") = true /\ excluded default_settings (T "/w/.git") = false /\ excluded default_settings (T "/w/a/__pycache__/x") = true /\ excluded default_settings (T "/w/a/1.0") = false.
Proof. repeat split; vm_compute; reflexivity. Qed.

(** ** C270: what the scanner finds *)
(** a directory that is scanned: not too deep, and nothing on the way excluded *)
Definition in_reach (d : disk) (g : settings) (root dir : text) : Prop := exists k, (k <= g_depth g)%nat /\ below d (fun p => excluded g p = false) root k dir.
Definition package_named (g : settings) (e : text) : Prop := In e (filter (fun p => negb (wild p)) (g_include g)) \/ exists p, In p (g_include g) /\ wild p = true /\ file_matches e p = true.
Lemma package_file_iff g e : package_file g e = true <-> package_named g e.
Proof.
  unfold package_file, package_named. rewrite orb_true_iff, mem_text_In, existsb_exists. split; (intros [H|[p H]]; [left; exact H|right; exists p]).
  - rewrite filter_In in H. tauto.
  - rewrite filter_In. tauto.
Qed.
Lemma scan_inv load d g now root c z : scan_repository load d g now root c = Scanned z -> exists dirs, collect d g (S (g_depth g)) root = Some dirs /\ d_kind d root = KDir /\ g_batch g <> 0%nat /\
  z = fold_left (visit load d g now) (flat_map (fun dir => map (pair dir) (files_in d g dir)) dirs) (mkScanned [] [] (length dirs) 0 c).
Proof.
  unfold scan_repository. destruct (is_dir (d_kind d root)) eqn:E; [|discriminate]. apply is_dir_iff in E. destruct (collect d g (S (g_depth g)) root) as [dirs|]; [|discriminate]. destruct (Nat.eqb_spec (g_batch g) 0); [discriminate|]. destruct (Nat.eqb (g_scans g) 0 && _); [discriminate|]. intros H. injection H as <-. eauto 6.
Qed.
Lemma in_files d g dirs dir file : In (dir, file) (flat_map (fun dir => map (pair dir) (files_in d g dir)) dirs) <-> In dir dirs /\ package_in d (package_named g) dir file.
Proof.
  rewrite in_flat_map. split.
  - intros [x [H1 H2]]. apply in_map_iff in H2. destruct H2 as [f [E H2]]. injection E as <- <-. split; [exact H1|]. apply files_in_spec in H2. destruct H2 as [es [e [A [B [C D]]]]]. exists es, e. apply package_file_iff in C. tauto.
  - intros [H1 [es [e [A [B [C D]]]]]]. exists dir. split; [exact H1|]. apply in_map. apply files_in_spec. exists es, e. apply package_file_iff in C. tauto.
Qed.
Lemma in_dirs d g root dirs dir : collect d g (S (g_depth g)) root = Some dirs -> (In dir dirs <-> in_reach d g root dir).
Proof. intros H. pose proof (collect_spec d g (S (g_depth g)) root) as K. rewrite H in K. rewrite K. unfold in_reach. split; intros [k [A B]]; exists k; (split; [lia|exact B]). Qed.
Theorem C270_found_partial : forall load d g now root c z, named d -> faithful load d c -> scan_repository load d g now root c = Scanned z ->
  (forall file r, In (file, r) (z_packages z) <-> exists dir p size, in_reach d g root dir /\ package_in d (package_named g) dir file /\ holds load d file p size /\ r = mkFound p file dir size) /\
  (forall file, In file (z_errors z) <-> exists dir, in_reach d g root dir /\ package_in d (package_named g) dir file /\ forall p size, ~ holds load d file p size) /\ NoDup (akeys (z_packages z)).
Proof.
  intros load d g now root c z Hn Hf H. apply scan_inv in H. destruct H as [dirs [Hc [_ [_ ->]]]]. set (fs := flat_map _ dirs).
  assert (Hin : forall dir file, In (dir, file) fs <-> in_reach d g root dir /\ package_in d (package_named g) dir file) by (intros dir file; unfold fs; rewrite in_files, (in_dirs d g root dirs dir Hc); tauto).
  destruct (visits load d g now fs c (length dirs)) as [H1 [H2 [H3 _]]]; [|exact Hf|].
  { intros dir file X. apply Hin in X. destruct X as [_ [es [e [A [B [_ [-> _]]]]]]]. exists e. split; [reflexivity|exact (Hn dir es e A B)]. }
  split; [|split; [|exact H1]].
  - intros file r. rewrite H2. split.
    + intros [dir [X Y]]. apply Hin in X. apply fresh_holds in Y. destruct Y as [p [size [Y1 Y2]]]. exists dir, p, size. tauto.
    + intros [dir [p [size [X1 [X2 [X3 X4]]]]]]. exists dir. split; [apply Hin; tauto|]. apply fresh_holds. eauto.
  - intros file. rewrite H3. split; intros [dir X]; exists dir.
    + destruct X as [X Y]. apply Hin in X. split; [tauto|]. split; [tauto|]. exact (proj1 (fresh_none load d dir file) Y).
    + destruct X as [X1 [X2 X3]]. split; [apply Hin; tauto|]. apply fresh_none, X3.
Qed.
Print Assumptions C270_found_partial.
(** one directory that cannot be read makes the whole scan fail, and nothing else does, if there is a root, and the settings are not zero *)
Theorem C270_refuted : forall load d g now root c, g_batch g <> 0%nat -> g_scans g <> 0%nat ->
  (scan_repository load d g now root c = ScanError <-> d_kind d root <> KDir \/ exists dir, in_reach d g root dir /\ d_list d dir = None).
Proof.
  intros load d g now root c Hb Hs. unfold scan_repository. destruct (is_dir (d_kind d root)) eqn:E.
  - apply is_dir_iff in E. pose proof (collect_spec d g (S (g_depth g)) root) as K. destruct (collect d g (S (g_depth g)) root) as [dirs|] eqn:Ec.
    + apply Nat.eqb_neq in Hb, Hs. rewrite Hb, Hs. cbn [andb]. split; [discriminate|]. intros [X|[dir [[k [X1 X2]] X3]]]; [congruence|]. exfalso.
      (* every directory that was collected could be read *)
      assert (R : forall n p ds q, collect d g n p = Some ds -> In q ds -> d_list d q <> None).
      { clear. induction n as [|n IH]; intros p ds q H Hq; [injection H as <-; destruct Hq|]. rewrite collect_step in H. destruct (excluded g p); [injection H as <-; destruct Hq|]. destruct (d_list d p) as [es|] eqn:El; [|discriminate]. destruct (collect_list d g n p es) as [l|] eqn:Ecl; [|discriminate]. injection H as <-. destruct Hq as [<-|Hq]; [congruence|].
        clear El. revert l Ecl Hq. induction es as [|e es IHe]; intros l Ecl Hq; cbn [collect_list] in Ecl; fold (collect_list d g n p) in Ecl; [injection Ecl as <-; destruct Hq|]. destruct (is_dir (d_kind d (child p e)) && negb (excluded g (child p e))); [|exact (IHe l Ecl Hq)].
        destruct (collect d g n (child p e)) as [a|] eqn:Ea; [|discriminate]. destruct (collect_list d g n p es) as [b|] eqn:Eb; [|discriminate]. injection Ecl as <-. apply in_app_iff in Hq. destruct Hq as [Hq|Hq]; [exact (IH _ _ _ Ea Hq)|exact (IHe b eq_refl Hq)]. }
      apply (R _ _ _ dir Ec); [|exact X3]. apply K. exists k. split; [lia|exact X2].
    + split; [|reflexivity]. intros _. right. destruct K as [k [q [K1 [K2 K3]]]]. exists q. split; [exists k; split; [lia|exact K2]|exact K3].
  - split; [|reflexivity]. intros _. left. intros X. rewrite X in E. discriminate.
Qed.
Print Assumptions C270_refuted.
Theorem C270_counts_partial : forall load d g now root c z, named d -> faithful load d c -> scan_repository load d g now root c = Scanned z ->
  exists dirs, collect d g (S (g_depth g)) root = Some dirs /\ z_dirs z = length dirs /\ z_files z = length (flat_map (files_in d g) dirs).
Proof.
  intros load d g now root c z Hn Hf H. apply scan_inv in H. destruct H as [dirs [Hc [_ [_ ->]]]]. exists dirs. split; [exact Hc|]. set (fs := flat_map _ dirs).
  destruct (visits load d g now fs c (length dirs)) as [_ [_ [_ [H4 [H5 _]]]]]; [|exact Hf|].
  { intros dir file X. unfold fs in X. apply in_files in X. destruct X as [_ [es [e [A [B [_ [-> _]]]]]]]. exists e. split; [reflexivity|exact (Hn dir es e A B)]. }
  split; [exact H5|]. rewrite H4. unfold fs. clear. induction dirs as [|x dirs IH]; [reflexivity|]. cbn [flat_map]. rewrite !app_length, map_length, IH. reflexivity.
Qed.
Print Assumptions C270_counts_partial.
Definition deep : disk := tree [(T "/r", [T "a"; T "b"]); (T "/r/a", [T "1"; T "package.py"]); (T "/r/a/1", [T "package.py"; T "x"]); (T "/r/a/1/x", [T "package.py"]); (T "/r/b", [T "package.py"; T "package.txt"])]
  [(T "/r/a/package.py", (1%N, T "a 1 ")); (T "/r/a/1/package.py", (1%N, T "b 1 ")); (T "/r/a/1/x/package.py", (1%N, T "c 1 ")); (T "/r/b/package.py", (1%N, T "nonsense")); (T "/r/b/package.txt", (1%N, T "d 1 "))].
Lemma deep_named : named deep.
Proof. intros p es e H Hin. cbn in H. repeat (destruct (text_eqb p _) in H; [injection H as <-; cbn in Hin; repeat (destruct Hin as [<-|Hin]; [vm_compute; intuition discriminate|]); destruct Hin|]). discriminate. Qed.
Example C270_example : let g := mkSettings 4 2 [T "package.py"] [] 50 true 100 true in exists z, scan_repository toy deep g (fun _ => 7%N) (T "/r") [] = Scanned z /\ akeys (z_packages z) = [T "/r/a/package.py"; T "/r/a/1/package.py"] /\ z_errors z = [T "/r/b/package.py"] /\ z_dirs z = 4%nat /\ z_files z = 3%nat /\ named deep /\ faithful toy deep [].
Proof. cbv zeta. eexists. split; [vm_compute; reflexivity|]. repeat split; try (vm_compute; reflexivity); try exact deep_named; destruct H. Qed.

(** ** C271: the cache of the scanner *)
Definition uncached (g : settings) : settings := mkSettings (g_scans g) (g_depth g) (g_include g) (g_exclude g) (g_batch g) false (g_cache_mb g) (g_prefix g).
Theorem C271_transparent_partial : forall load W d g now root c z, named d -> agrees W d -> true_to load W c -> scan_repository load d g now root c = Scanned z ->
  true_to load W (z_cache z) /\ exists z', scan_repository load d (uncached g) now root [] = Scanned z' /\ (forall x, In x (z_packages z) <-> In x (z_packages z')) /\ forall x, In x (z_errors z) <-> In x (z_errors z').
Proof.
  intros load W d g now root c z Hn Ha Ht H. split.
  - apply scan_inv in H. destruct H as [dirs [_ [_ [_ ->]]]]. apply visits_true; [exact Ha| |exact Ht]. intros dir file X. apply in_files in X. destruct X as [_ [es [e [A [B [_ [-> _]]]]]]]. exists e. split; [reflexivity|exact (Hn dir es e A B)].
  - assert (E : exists z', scan_repository load d (uncached g) now root [] = Scanned z').
    { unfold scan_repository in *. destruct (is_dir (d_kind d root)); [|discriminate]. change (collect d (uncached g) (S (g_depth (uncached g))) root) with (collect d g (S (g_depth g)) root). destruct (collect d g (S (g_depth g)) root) as [dirs|]; [|discriminate].
      change (g_batch (uncached g)) with (g_batch g). change (g_scans (uncached g)) with (g_scans g). change (flat_map (fun dir => map (pair dir) (files_in d (uncached g) dir)) dirs) with (flat_map (fun dir => map (pair dir) (files_in d g dir)) dirs).
      destruct (Nat.eqb (g_batch g) 0); [discriminate|]. destruct (Nat.eqb (g_scans g) 0 && _); [discriminate|]. eauto. }
    destruct E as [z' E]. exists z'. split; [exact E|]. destruct (C270_found_partial load d g now root c z Hn (true_faithful load d W c Ha Ht) H) as [A [B _]].
    destruct (C270_found_partial load d (uncached g) now root [] z' Hn) as [A' [B' _]]; [intros f e []|exact E|]. split.
    + intros [file r]. rewrite A, A'. reflexivity.
    + intros file. rewrite B, B'. reflexivity.
Qed.
Print Assumptions C271_transparent_partial.
Theorem C271_bound_partial : forall load d g now root c z, NoDup (akeys c) -> (length c <= g_cache_mb g * 1000)%nat -> scan_repository load d g now root c = Scanned z ->
  NoDup (akeys (z_cache z)) /\ (length (z_cache z) <= g_cache_mb g * 1000)%nat.
Proof. intros load d g now root c z H1 H2 H. apply scan_inv in H. destruct H as [dirs [_ [_ [_ ->]]]]. apply visits_cache; assumption. Qed.
Print Assumptions C271_bound_partial.
(** a file that changed but has the same time and size is not read again *)
Definition early : disk := tree [(T "/r", [T "package.py"])] [(T "/r/package.py", (5%N, T "a 1 "))].
Definition late : disk := tree [(T "/r", [T "package.py"])] [(T "/r/package.py", (5%N, T "b 2 "))].
Theorem C271_refuted : exists z z2, scan_repository toy early default_settings (fun _ => 1%N) (T "/r") [] = Scanned z /\ scan_repository toy late default_settings (fun _ => 2%N) (T "/r") (z_cache z) = Scanned z2 /\
  map (fun x => o_package (snd x)) (z_packages z2) = [pkg "a" "1" 0] /\ toy_file late (T "/r/package.py") = Some (pkg "b" "2" 0).
Proof. eexists. eexists. split; [vm_compute; reflexivity|]. split; [vm_compute; reflexivity|]. split; vm_compute; reflexivity. Qed.
Print Assumptions C271_refuted.
(** an entry that is used is not marked as used, so that those dropped are the ones stored first *)
Theorem C271_used_refuted : forall load d g now dir file c e time size, g_cache g = true -> aget file c = Some e -> d_stat d file = Some (time, size) -> n_time e = time -> n_size e = size ->
  scan_file load d g now dir file c = (Some (n_result e), c).
Proof. intros load d g now dir file c e time size Hg Ha Hs <- <-. unfold scan_file. rewrite Hs, Hg, Ha, !N.eqb_refl. reflexivity. Qed.
Print Assumptions C271_used_refuted.
(** when there are too many, those that were stored first go, until four fifths are left *)
Theorem C271_oldest_partial : forall g c, NoDup (akeys c) -> (g_cache_mb g * 1000 < length c)%nat -> length (evict g c) = (g_cache_mb g * 800)%nat /\
  forall x y, In x (evict g c) -> In y c -> ~ In y (evict g c) -> (n_used (snd y) <= n_used (snd x))%N.
Proof.
  intros g c Hn Hl. set (cmp := fun a b : text * entry => N.compare (n_used (snd a)) (n_used (snd b))). set (k := (length c - g_cache_mb g * 800)%nat).
  assert (Ev : evict g c = akeep (fun x => negb (mem_text x (map fst (firstn k (sort_by cmp c))))) c) by (unfold evict; apply Nat.ltb_lt in Hl; rewrite Hl; reflexivity).
  assert (Hf : map fst (firstn k (sort_by cmp c)) = firstn k (map fst (sort_by cmp c))) by (symmetry; apply firstn_map).
  assert (Hnd : NoDup (map fst (sort_by cmp c))) by (eapply Permutation_NoDup; [apply Permutation_map; symmetry; apply sort_perm|exact Hn]). split.
  - rewrite Ev, length_akeep, length_without; [|exact Hn|rewrite Hf; apply nodup_firstn, Hnd|].
    + rewrite map_length, firstn_length, sort_length. unfold akeys. rewrite map_length. unfold k. lia.
    + intros x Hx. apply in_map_iff in Hx. destruct Hx as [y [<- Hy]]. apply firstn_incl, (proj1 (sort_in cmp c _)) in Hy. apply in_map, Hy.
  - assert (HT : TPO (fun _ => True) cmp).
    { unfold cmp. constructor; intros; [apply N.compare_refl|apply N.compare_antisym|]. rewrite N.compare_le_iff in *. lia. }
    assert (Hs : sorted_by cmp (sort_by cmp c)) by (apply (sort_sorted cmp _ HT), Forall_forall; auto).
    intros x y Hx Hy Hny. rewrite Ev in Hx, Hny. unfold akeep in Hx, Hny. rewrite filter_In in Hx, Hny. destruct Hx as [Hxc Hx].
    assert (Hyf : In y (firstn k (sort_by cmp c))).
    { destruct (mem_text (fst y) (map fst (firstn k (sort_by cmp c)))) eqn:E; [|exfalso; apply Hny; split; [exact Hy|reflexivity]]. apply mem_text_In, in_map_iff in E. destruct E as [w [Ew Hw]]. replace y with w; [exact Hw|]. apply firstn_incl, (proj1 (sort_in cmp c _)) in Hw. destruct w as [a b], y as [a' b']. cbn in Ew. subst a'. f_equal.
      pose proof (aget_nodup a b c Hn Hw) as X1. pose proof (aget_nodup a b' c Hn Hy) as X2. congruence. }
    assert (Hxs : In x (skipn k (sort_by cmp c))).
    { assert (X : In x (sort_by cmp c)) by (apply sort_in, Hxc). rewrite <- (firstn_skipn k (sort_by cmp c)) in X. apply in_app_iff in X. destruct X as [X|X]; [|exact X]. exfalso. apply negb_true_iff in Hx. assert (Y : mem_text (fst x) (map fst (firstn k (sort_by cmp c))) = true) by (apply mem_text_In, in_map, X). congruence. }
    apply in_split in Hyf. destruct Hyf as [a [b E1]]. apply in_split in Hxs. destruct Hxs as [e [f E2]]. apply N.compare_le_iff. apply (Hs a y (b ++ e) x f). rewrite <- (firstn_skipn k (sort_by cmp c)), E1, E2. repeat (rewrite <- app_assoc; cbn [app]). reflexivity.
Qed.
Print Assumptions C271_oldest_partial.
Example C271_example : let W := fun f t s => if N.eqb t 5 then Some (T "a 1 ") else Some (T "b 2 x") in let d2 := tree [(T "/r", [T "package.py"])] [(T "/r/package.py", (6%N, T "b 2 x"))] in
  exists z z2, scan_repository toy early default_settings (fun _ => 1%N) (T "/r") [] = Scanned z /\ scan_repository toy d2 default_settings (fun _ => 2%N) (T "/r") (z_cache z) = Scanned z2 /\ map (fun x => o_package (snd x)) (z_packages z2) = [pkg "b" "2" 1] /\ length (z_cache z2) = 1%nat /\
  agrees W early /\ agrees W d2 /\ true_to toy W [].
Proof.
  cbv zeta. eexists. eexists. split; [vm_compute; reflexivity|]. split; [vm_compute; reflexivity|]. split; [vm_compute; reflexivity|]. split; [vm_compute; reflexivity|]. split; [|split].
  - intros f t s H. cbn in *. destruct (text_eqb f _); [|discriminate]. injection H as <- <-. reflexivity.
  - intros f t s H. cbn in *. destruct (text_eqb f _); [|discriminate]. injection H as <- <-. reflexivity.
  - intros f e [].
Qed.

(** ** C272: looking up a path in the cache *)
Theorem C272_valid_partial : forall d g normal p c r, get_by_prefix d g normal p c = Some r ->
  exists file e, In (file, e) c /\ r = n_result e /\ d_stat d (o_file r) = Some (n_time e, n_size e) /\ (within file (normal p) \/ within (normal p) file).
Proof.
  intros d g normal p c r H. unfold get_by_prefix in H. destruct (g_prefix g); [|discriminate].
  assert (V : forall e, entry_valid d e = true -> d_stat d (o_file (n_result e)) = Some (n_time e, n_size e)).
  { intros e. unfold entry_valid. destruct (d_stat d (o_file (n_result e))) as [[a b]|]; [|discriminate]. rewrite andb_true_iff, !N.eqb_eq. intros [-> ->]. reflexivity. }
  assert (Wi : forall a b, path_starts a b = true -> within a b).
  { intros a b. unfold path_starts, within. rewrite orb_true_iff, text_eqb_eq. intros [X|X]; [auto|]. right. apply starts_with_spec in X. destruct X as [x X]. exists x. rewrite X. rewrite <- app_assoc. reflexivity. }
  destruct (aget (normal p) c) as [e|] eqn:Ea.
  - destruct (entry_valid d e) eqn:Ev.
    + injection H as <-. apply aget_in in Ea. exists (normal p), e. split; [exact Ea|]. split; [reflexivity|]. split; [apply V, Ev|]. left. left. reflexivity.
    + destruct (find _ c) as [[f e2]|] eqn:Ef; [|discriminate]. injection H as <-. apply find_some in Ef. destruct Ef as [F1 F2]. cbn [fst snd] in *. apply andb_true_iff in F2. destruct F2 as [F2 F3]. exists f, e2. split; [exact F1|]. split; [reflexivity|]. split; [apply V, F3|]. apply orb_true_iff in F2. destruct F2; auto.
  - destruct (find _ c) as [[f e2]|] eqn:Ef; [|discriminate]. injection H as <-. apply find_some in Ef. destruct Ef as [F1 F2]. cbn [fst snd] in *. apply andb_true_iff in F2. destruct F2 as [F2 F3]. exists f, e2. split; [exact F1|]. split; [reflexivity|]. split; [apply V, F3|]. apply orb_true_iff in F2. destruct F2; auto.
Qed.
Print Assumptions C272_valid_partial.
Theorem C272_exact_partial : forall d g normal p c e, g_prefix g = true -> aget (normal p) c = Some e -> d_stat d (o_file (n_result e)) = Some (n_time e, n_size e) -> get_by_prefix d g normal p c = Some (n_result e).
Proof. intros d g normal p c e Hg Ha Hs. unfold get_by_prefix. rewrite Hg, Ha. unfold entry_valid. rewrite Hs, !N.eqb_refl. reflexivity. Qed.
Print Assumptions C272_exact_partial.
Theorem C272_complete_partial : forall d g normal p c file e, g_prefix g = true -> In (file, e) c -> within (normal p) file -> d_stat d (o_file (n_result e)) = Some (n_time e, n_size e) -> get_by_prefix d g normal p c <> None.
Proof.
  intros d g normal p c file e Hg Hin Hw Hs H. unfold get_by_prefix in H. rewrite Hg in H. assert (V : entry_valid d e = true) by (unfold entry_valid; rewrite Hs, !N.eqb_refl; reflexivity).
  assert (P : path_starts (normal p) file = true).
  { unfold path_starts. destruct Hw as [->|[x ->]]; [rewrite text_eqb_refl; reflexivity|]. apply orb_true_iff. right. apply starts_with_spec. exists x. rewrite <- app_assoc. reflexivity. }
  assert (F : find (fun e => (path_starts (fst e) (normal p) || path_starts (normal p) (fst e)) && entry_valid d (snd e)) c <> None).
  { intros X. apply (find_none _ _ X) in Hin. cbn [fst snd] in Hin. rewrite P, V, orb_true_r in Hin. discriminate. }
  destruct (match aget (normal p) c with Some e0 => _ | None => None end); [discriminate|]. destruct (find _ c); [discriminate|]. congruence.
Qed.
Print Assumptions C272_complete_partial.
(** for a directory with two packages one of them is given, and for a path below a file the package of the file; what was stored under another spelling of the path is not found *)
Definition two : list (text * entry) := [(T "/r/a/package.py", mkEntry (mkFound (pkg "a" "1" 0) (T "/r/a/package.py") (T "/r/a") 4) 1 4 0); (T "/r/b/package.py", mkEntry (mkFound (pkg "b" "1" 0) (T "/r/b/package.py") (T "/r/b") 4) 1 4 0)].
Definition two_disk : disk := tree [] [(T "/r/a/package.py", (1%N, T "a 1 ")); (T "/r/b/package.py", (1%N, T "b 1 "))].
Theorem C272_refuted : option_map o_package (get_by_prefix two_disk default_settings (fun p => p) (T "/r") two) = Some (pkg "a" "1" 0) /\ option_map o_package (get_by_prefix two_disk default_settings (fun p => p) (T "/r") (rev two)) = Some (pkg "b" "1" 0) /\
  option_map o_package (get_by_prefix two_disk default_settings (fun p => p) (T "/r/b/package.py/none") two) = Some (pkg "b" "1" 0) /\
  (let c := map (fun x => (T "./" ++ fst x, snd x)) two in aget (T "./" ++ T "/r/a/package.py") c <> None /\ get_by_prefix two_disk default_settings (fun p => if starts_with (T "./") p then skipn 2 p else p) (T "./" ++ T "/r/a/package.py") c = None).
Proof. repeat split; try (vm_compute; reflexivity). vm_compute. discriminate. Qed.
Print Assumptions C272_refuted.
Example C272_example : option_map o_package (get_by_prefix two_disk default_settings (fun p => p) (T "/r/b") two) = Some (pkg "b" "1" 0) /\ get_by_prefix two_disk default_settings (fun p => p) (T "/r/bb") two = None /\ get_by_prefix early default_settings (fun p => p) (T "/r/b") two = None.
Proof. repeat split; vm_compute; reflexivity. Qed.

(** ** C273: what the fast scanner finds *)
Theorem C273_found_partial : forall load d fuel batch permits steal cap root rs es c, named d -> fast_scan load d fuel batch permits steal cap root [] = FastDone rs es c ->
  es = [] /\ (forall r, In r rs <-> exists k dir p size, below d (fun _ => True) root (S k) dir /\ package_in d (eq (T "package.py")) dir (o_file r) /\ holds load d (o_file r) p size /\ r = mkFound p (o_file r) dir size) /\
  NoDup (map o_file rs) /\ sorted_by (fun a b => path_cmp (o_file a) (o_file b)) rs.
Proof.
  intros load d fuel batch permits steal cap root rs es c Hn H. unfold fast_scan in H. destruct (discover d fuel [root]) as [dirs|] eqn:Ed; [|discriminate]. destruct (Nat.eqb batch 0); [discriminate|]. destruct (_ && _) in H; [discriminate|].
  set (fs := fast_files d dirs) in *. assert (Hu : forall dir file x, In (dir, file) fs -> In (x, file) fs -> x = dir).
  { intros dir file x X Y. unfold fs in *. apply fast_files_spec in X, Y. destruct X as [_ [es1 [e1 [A1 [B1 [_ [-> _]]]]]]], Y as [_ [es2 [e2 [A2 [B2 [_ [E _]]]]]]]. apply (child_inj dir e1 x e2) in E; [symmetry; tauto|exact (Hn _ _ _ A1 B1)|exact (Hn _ _ _ A2 B2)]. }
  destruct (fast_order_spec load fs Hu) as [O1 [O2 O3]]. pose proof (fast_each_fresh load d cap (fast_order fs) [] (fun dir file r _ X => match X with end) O2) as Ef. destruct (fast_each load d cap (fast_order fs) []) as [rs' c']. cbn [fst] in Ef. injection H as <- <- <-. subst rs'. split; [reflexivity|].
  assert (Hd : forall dir, In dir dirs <-> exists k, below d (fun _ => True) root (S k) dir). { intros dir. rewrite (discover_spec d fuel [root] dirs Ed). split; [intros [s [k [[<-|[]] X]]]; eauto|intros [k X]; exists root, k; cbn; auto]. }
  assert (Hof : forall dir file r, fresh load d dir file = Some r -> o_file r = file). { intros dir file r X. apply fresh_holds in X. destruct X as [p [size [_ ->]]]. reflexivity. }
  split; [|split].
  - intros r. rewrite in_flat_map. split.
    + intros [[dir file] [X1 X2]]. cbn [fst snd] in X2. destruct (fresh load d dir file) as [r'|] eqn:Ef; [|destruct X2]. destruct X2 as [<-|[]]. pose proof (Hof _ _ _ Ef) as E. apply fresh_holds in Ef. destruct Ef as [p [size [Y1 Y2]]]. apply O1 in X1. unfold fs in X1. apply fast_files_spec in X1. destruct X1 as [X1 X3]. apply Hd in X1. destruct X1 as [k X1]. rewrite E. exists k, dir, p, size. auto.
    + intros [k [dir [p [size [X1 [X2 [X3 X4]]]]]]]. exists (dir, o_file r). split; [apply O1; unfold fs; apply fast_files_spec; split; [apply Hd; eauto|exact X2]|]. cbn [fst snd]. assert (E : fresh load d dir (o_file r) = Some r) by (apply fresh_holds; eauto). rewrite E. left. reflexivity.
  - clear -O2 Hof. induction (fast_order fs) as [|[dir file] l IH]; [constructor|]. cbn [flat_map map fst snd] in *. inversion O2 as [|? ? N1 N2]; subst. specialize (IH N2). destruct (fresh load d dir file) as [r|] eqn:E; [|exact IH]. cbn [app map]. constructor; [|exact IH]. rewrite (Hof _ _ _ E). intros X. apply N1. apply in_map_iff in X. destruct X as [r2 [E2 X]]. apply in_flat_map in X. destruct X as [[dir2 file2] [X1 X2]]. cbn [fst snd] in X2. destruct (fresh load d dir2 file2) as [r3|] eqn:E3; [|destruct X2]. destruct X2 as [<-|[]]. rewrite (Hof _ _ _ E3) in E2. subst file2. apply in_map_iff. exists (dir2, file). auto.
  - apply chain_sorted. apply chain_sorted in O3. clear -O3 Hof. induction O3 as [|[dir file] l Hx Hl IH]; [constructor|]. cbn [flat_map fst snd] in *. destruct (fresh load d dir file) as [r|] eqn:E; [|exact IH]. cbn [app]. constructor; [|exact IH]. apply Forall_forall. intros r2 X. apply in_flat_map in X. destruct X as [[dir2 file2] [X1 X2]]. cbn [fst snd] in X2. destruct (fresh load d dir2 file2) as [r3|] eqn:E3; [|destruct X2]. destruct X2 as [<-|[]]. rewrite (Hof _ _ _ E), (Hof _ _ _ E3). rewrite Forall_forall in Hx. exact (Hx _ X1).
Qed.
Print Assumptions C273_found_partial.
(** unlike the other scanner it misses a package file of the repository itself and finds those in excluded directories; a file that cannot be read is not an error *)
Definition yard : disk := tree [(T "/r", [T "package.py"; T ".git"; T "b"]); (T "/r/.git", [T "x"]); (T "/r/.git/x", [T "package.py"]); (T "/r/b", [T "package.py"])]
  [(T "/r/package.py", (1%N, T "a 1 ")); (T "/r/.git/x/package.py", (1%N, T "g 1 ")); (T "/r/b/package.py", (1%N, T "nonsense"))].
Theorem C273_refuted : exists z c, scan_repository toy yard default_settings (fun _ => 1%N) (T "/r") [] = Scanned z /\ fast_scan toy yard 9 10 4 true 100 (T "/r") [] = FastDone [mkFound (pkg "g" "1" 0) (T "/r/.git/x/package.py") (T "/r/.git/x") 4] [] c /\
  map fst (z_packages z) = [T "/r/package.py"] /\ z_errors z = [T "/r/b/package.py"].
Proof. eexists. eexists. split; [vm_compute; reflexivity|]. split; [vm_compute; reflexivity|]. split; vm_compute; reflexivity. Qed.
Print Assumptions C273_refuted.
Definition street_tree : disk := tree [(T "/r", [T "b"; T "a"]); (T "/r/a", [T "x"; T "package.py"]); (T "/r/a/x", [T "package.py"]); (T "/r/b", [T "package.yaml"; T "package.py"])]
  [(T "/r/a/package.py", (1%N, T "a 1 ")); (T "/r/a/x/package.py", (1%N, T "x 1 ")); (T "/r/b/package.py", (1%N, T "b 1 ")); (T "/r/b/package.yaml", (1%N, T "y 1 "))].
Example C273_example : (match fast_scan toy street_tree 9 10 4 false 100 (T "/r") [] with FastDone rs _ _ => map (fun r => p_name (o_package r)) rs | _ => [] end) = [T "a"; T "x"; T "b"] /\ named street_tree.
Proof.
  split; [vm_compute; reflexivity|]. intros dir es e H1 H2. cbn [d_list street_tree tree] in H1. apply aget_in in H1.
  destruct H1 as [X|[X|[X|[X|[]]]]]; injection X as <- <-; cbn [In] in H2; repeat (destruct H2 as [<-|H2]; [vm_compute; intuition discriminate|]); destruct H2.
Qed.

(** ** C274: the cache of the fast scanner *)
Theorem C274_bound_partial : forall load d fuel batch permits steal cap root rs es c c', (length c <= fast_cap cap)%nat -> fast_scan load d fuel batch permits steal cap root c = FastDone rs es c' -> (length c' <= fast_cap cap)%nat.
Proof.
  intros load d fuel batch permits steal cap root rs es c c' Hc H. unfold fast_scan in H. destruct (discover d fuel [root]) as [dirs|]; [|discriminate]. destruct (Nat.eqb batch 0); [discriminate|]. destruct (_ && _) in H; [discriminate|].
  pose proof (fast_each_bound load d cap (fast_order (fast_files d dirs)) c Hc) as K. destruct (fast_each load d cap (fast_order (fast_files d dirs)) c) as [rs' c2]. injection H as <- <- <-. exact K.
Qed.
Print Assumptions C274_bound_partial.
(** what is remembered for a file is given again whatever the file has become *)
Theorem C274_stale_refuted : forall load d d2 cap dir file c r, aget file c = Some r -> fst (fast_file load d cap (dir, file) c) = Some r /\ fst (fast_file load d2 cap (dir, file) c) = Some r.
Proof. intros load d d2 cap dir file c r H. unfold fast_file. rewrite H. split; reflexivity. Qed.
Print Assumptions C274_stale_refuted.
Theorem C274_refuted : let before := tree [(T "/r", [T "a"]); (T "/r/a", [T "package.py"])] [(T "/r/a/package.py", (5%N, T "a 1 "))] in
  let after := tree [(T "/r", [T "a"]); (T "/r/a", [T "package.py"])] [(T "/r/a/package.py", (6%N, T "a 2 xx"))] in
  exists rs c c2, fast_scan toy before 9 10 4 true 100 (T "/r") [] = FastDone rs [] c /\ fast_scan toy after 9 10 4 true 100 (T "/r") c = FastDone rs [] c2 /\ map o_package rs = [pkg "a" "1" 0] /\ toy_file after (T "/r/a/package.py") = Some (pkg "a" "2" 2).
Proof. cbv zeta. eexists. eexists. eexists. split; [vm_compute; reflexivity|]. split; [vm_compute; reflexivity|]. split; vm_compute; reflexivity. Qed.
Print Assumptions C274_refuted.
(** the file used last is kept first, and when the cache is full the one used longest ago goes *)
Theorem C274_recent_partial : forall load d cap dir file c r c', fast_file load d cap (dir, file) c = (Some r, c') ->
  aget file c' = Some r /\ (exists rest, c' = (file, r) :: rest) /\ (aget file c = None -> c' = (file, r) :: firstn (fast_cap cap - 1) c).
Proof.
  intros load d cap dir file c r c' H. assert (Hc : fast_cap cap <> 0%nat) by (destruct cap; cbn [fast_cap]; [intros Q; apply (f_equal N.of_nat) in Q; discriminate|discriminate]). unfold fast_file in H. destruct (aget file c) as [r0|] eqn:Ea.
  - injection H as <- <-. cbn [aget]. rewrite text_eqb_refl. split; [reflexivity|]. split; [eauto|discriminate].
  - destruct (d_stat d file) as [[time size]|]; [|discriminate]. destruct (d_text d file) as [t|]; [|discriminate]. destruct (load t) as [p|]; [|discriminate]. destruct (fast_cap cap) as [|k] eqn:Ek; [congruence|]. cbn [firstn] in H. injection H as <- <-. cbn [aget]. rewrite text_eqb_refl. split; [reflexivity|]. split; [eauto|]. intros _. replace (S k - 1)%nat with k by lia. reflexivity.
Qed.
Print Assumptions C274_recent_partial.
Example C274_example : fast_cap 100 = 100%nat /\ exists r c, fast_scan toy street_tree 9 10 4 false 2 (T "/r") [] = FastDone r [] c /\ map fst c = [T "/r/b/package.py"; T "/r/a/x/package.py"].
Proof. split; [vm_compute; reflexivity|]. eexists. eexists. split; vm_compute; reflexivity. Qed.

(** ** C275: settings of zero *)
Theorem C275_terminates_partial : forall load d g now root c, d_kind d root = KDir -> (forall k p, below d (fun q => excluded g q = false) root k p -> d_list d p <> None) -> g_batch g <> 0%nat -> g_scans g <> 0%nat -> exists z, scan_repository load d g now root c = Scanned z.
Proof.
  intros load d g now root c Hk Hl Hb Hs. unfold scan_repository. rewrite Hk. cbn [is_dir]. pose proof (collect_spec d g (S (g_depth g)) root) as K. destruct (collect d g (S (g_depth g)) root) as [dirs|]; [|destruct K as [k [q [_ [K1 K2]]]]; destruct (Hl k q K1 K2)]. apply Nat.eqb_neq in Hb, Hs. rewrite Hb, Hs. cbn [andb]. eauto.
Qed.
Print Assumptions C275_terminates_partial.
(** with no files in a batch it panics; with no scans at a time it waits for ever as soon as there is a package file *)
Theorem C275_refuted : (forall load d g now root c dirs, d_kind d root = KDir -> collect d g (S (g_depth g)) root = Some dirs -> g_batch g = 0%nat -> scan_repository load d g now root c = ScanPanic) /\
  (forall load d g now root c dirs dir, d_kind d root = KDir -> collect d g (S (g_depth g)) root = Some dirs -> g_batch g <> 0%nat -> g_scans g = 0%nat -> In dir dirs -> files_in d g dir <> [] -> scan_repository load d g now root c = ScanStuck) /\
  (forall load d fuel permits steal cap root c dirs, discover d fuel [root] = Some dirs -> fast_scan load d fuel 0 permits steal cap root c = FastPanic) /\
  (forall load d fuel batch cap root c dirs dir file, discover d fuel [root] = Some dirs -> batch <> 0%nat -> In (dir, file) (fast_files d dirs) -> fast_scan load d fuel batch 0 false cap root c = FastStuck).
Proof.
  split; [|split; [|split]].
  - intros load d g now root c dirs Hk Hc Hb. unfold scan_repository. rewrite Hk, Hc, Hb. reflexivity.
  - intros load d g now root c dirs dir Hk Hc Hb Hs Hd Hf. unfold scan_repository. rewrite Hk, Hc, Hs. apply Nat.eqb_neq in Hb. rewrite Hb. cbn [is_dir Nat.eqb andb]. destruct (flat_map (fun dir => map (pair dir) (files_in d g dir)) dirs) as [|x l] eqn:E; [|reflexivity]. exfalso. destruct (files_in d g dir) as [|f fs] eqn:Ef; [congruence|]. assert (X : In (dir, f) (flat_map (fun dir => map (pair dir) (files_in d g dir)) dirs)) by (apply in_flat_map; exists dir; split; [exact Hd|rewrite Ef; left; reflexivity]). rewrite E in X. destruct X.
  - intros load d fuel permits steal cap root c dirs H. unfold fast_scan. rewrite H. reflexivity.
  - intros load d fuel batch cap root c dirs dir file H Hb Hf. unfold fast_scan. rewrite H. apply Nat.eqb_neq in Hb. rewrite Hb. cbn [Nat.eqb andb negb]. destruct (fast_order (fast_files d dirs)) as [|x l] eqn:E; [|reflexivity]. exfalso. assert (L : length (fast_order (fast_files d dirs)) <> 0%nat); [|rewrite E in L; apply L; reflexivity].
    unfold fast_order. rewrite sort_length, map_length. clear -Hf. intros X. assert (K : forall fs m, fs <> [] \/ m <> [] -> fold_left (fun m f => aput (snd f) (fst f) m) fs m <> ([] : list (text * text))).
    { induction fs as [|f fs IH]; intros m [Y|Y]; [congruence|exact Y| |]; cbn [fold_left]; apply IH; right; destruct m as [|[a b] m]; cbn [aput]; try discriminate; destruct (text_eqb _ _); discriminate. }
    apply (K (fast_files d dirs) []); [left; destruct (fast_files d dirs); [destruct Hf|discriminate]|]. apply length_zero_iff_nil. exact X.
Qed.
Print Assumptions C275_refuted.
Example C275_example : scan_repository toy yard (mkSettings 0 10 [T "package.py"] [] 100 true 50 true) (fun _ => 1%N) (T "/r") [] = ScanStuck /\ scan_repository toy yard (mkSettings 4 10 [T "package.py"] [] 0 true 50 true) (fun _ => 1%N) (T "/r") [] = ScanPanic /\
  (exists z, scan_repository toy yard (mkSettings 1 10 [T "package.py"] [] 1 true 50 true) (fun _ => 1%N) (T "/r") [] = Scanned z) /\ fast_scan toy yard 9 10 0 true 100 (T "/r") [] = FastStuck.
Proof. split; [vm_compute; reflexivity|]. split; [vm_compute; reflexivity|]. split; [eexists; vm_compute; reflexivity|vm_compute; reflexivity]. Qed.
