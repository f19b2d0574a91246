(** C185-C199: packages from pip. *)
From Verif Require Import Base Base_lemmas Text_lemmas Maps Version_model Range_model Requirement_model Requirement_spec Query_model Pyfile_model Rex_model Pkgfile_model Pkgfile_spec Pkgfile_python Pkgfile_whole
  Range_proofs Requirement_text Release_model Release_spec Pip_model Pip_spec Pip_proofs Pip_files Pip_command.
Open Scope string_scope.
Open Scope list_scope.

(** ** C185 *)
Theorem C185_same_partial : forall a b, (normalize_package_name a = normalize_package_name b <-> same_name a b) /\ (cli_name a = cli_name b <-> same_name a b).
Proof. intros a b. split; [apply api_same|apply cli_same]. Qed.
Print Assumptions C185_same_partial.
(** the API and the command agree on the name of a package only where there is neither a dash nor an underscore *)
Theorem C185_agree_refuted : forall n, normalize_package_name n = cli_name n <-> undashed n.
Proof. exact api_cli. Qed.
Print Assumptions C185_agree_refuted.
(** names with dots are one for pip and two for rez *)
Theorem C185_dots_refuted : exists a b, same_for_pip a b /\ normalize_package_name a <> normalize_package_name b /\ cli_name a <> cli_name b.
Proof.
  exists (T "zope.interface"), (T "zope-interface"). split; [|split; discriminate]. unfold same_for_pip. cbn [T list_ascii_of_string].
  repeat (constructor; [first [right; reflexivity|left; split; cbn; tauto]|]). constructor.
Qed.
Print Assumptions C185_dots_refuted.
Theorem C185_stable_partial : forall n, normalize_package_name (normalize_package_name n) = normalize_package_name n /\ cli_name (cli_name n) = cli_name n.
Proof. intros n. split; [apply api_idem|apply cli_idem]. Qed.
Print Assumptions C185_stable_partial.
Example C185_example : normalize_package_name (T "Typing_Extensions") = T "typing-extensions" /\ cli_name (T "Typing-Extensions") = T "typing_extensions" /\ same_name (T "Typing_Extensions") (T "typing-extensions").
Proof. split; [reflexivity|]. split; [reflexivity|]. apply api_same. reflexivity. Qed.

(** ** C186 *)
Theorem C186_lower_partial : forall n b, name_text n -> release b ->
  read_to_accept (convert_requirement (n ++ T ">=" ++ numbers b)) (normalize_package_name n) (length b) (fun a => release_cmp a b <> Lt).
Proof. exact accept_ge. Qed.
Print Assumptions C186_lower_partial.
Theorem C186_range_partial : forall n lo hi, name_text n -> undashed n -> release lo -> release hi ->
  read_to_accept (convert_requirement (n ++ T ">=" ++ numbers lo ++ T ",<" ++ numbers hi)) (normalize_package_name n) (Nat.max (length lo) (length hi)) (fun a => release_cmp a lo <> Lt /\ release_cmp a hi = Lt).
Proof. exact accept_range. Qed.
Print Assumptions C186_range_partial.
Theorem C186_closed_range_partial : forall n lo hi, name_text n -> undashed n -> release lo -> release hi ->
  read_to_accept (convert_requirement (n ++ T ">=" ++ numbers lo ++ T ",<=" ++ numbers hi)) (normalize_package_name n) (Nat.max (length lo) (length hi))
    (fun a => release_cmp a lo <> Lt /\ (release_cmp a hi = Lt \/ exists r, a = hi ++ r)).
Proof. exact accept_range_le. Qed.
Print Assumptions C186_closed_range_partial.
Theorem C186_equal_partial : forall n b, name_text n -> undashed n -> release b ->
  read_to_accept (convert_requirement (n ++ T "==" ++ numbers b)) (normalize_package_name n) 0 (fun a => exists r, a = b ++ r).
Proof. exact accept_eq. Qed.
Print Assumptions C186_equal_partial.
(** a strict bound is not strict: the bound itself is accepted *)
Theorem C186_strict_refuted : forall n b, name_text n -> release b -> release_cmp b b = Eq /\
  read_to_accept (convert_requirement (n ++ T ">" ++ numbers b)) (normalize_package_name n) (length b) (fun a => release_cmp a b <> Lt).
Proof.
  intros n b N R. split; [|apply accept_gt; assumption]. clear. induction b as [|x b IH]; [reflexivity|]. cbn [release_cmp]. rewrite N.compare_refl. exact IH.
Qed.
Print Assumptions C186_strict_refuted.
(** an upper bound alone is taken for a bound of another package, whose name ends in a dash *)
Theorem C186_upper_refuted : forall n b, name_text n -> release b -> exists v, parse_version (numbers b) = Some v /\
  reads_as (convert_requirement (n ++ T "<" ++ numbers b)) (normalize_package_name n ++ T "-") (Some (Requirement_model.CLt v)) /\
  reads_as (convert_requirement (n ++ T "<=" ++ numbers b)) (normalize_package_name n ++ T "-") (Some (Requirement_model.CLe v)).
Proof.
  intros n b N R. destruct (release_read b R) as (v & P & S & _ & W & _). exists v. split; [exact P|]. rewrite <- S. split.
  - exact (convert_upper n OpLt v (or_introl eq_refl) N W).
  - exact (convert_upper n OpLe v (or_intror eq_refl) N W).
Qed.
Print Assumptions C186_upper_refuted.
(** with != and ~= the whole text becomes the name of a package of which every version is accepted *)
Theorem C186_other_refuted : forall n b, name_text n -> undashed n -> release b ->
  (let t := normalize_package_name n ++ T "-!=" ++ numbers b in convert_requirement (n ++ T "!=" ++ numbers b) = t /\ reads_as t t None) /\
  (let t := normalize_package_name n ++ T "~-=" ++ numbers b in convert_requirement (n ++ T "~=" ++ numbers b) = t /\ reads_as t t None).
Proof.
  intros n b N U R. destruct (release_read b R) as (v & _ & S & _ & W & _). rewrite <- S. split; [apply convert_ne|apply convert_compatible]; assumption.
Qed.
Print Assumptions C186_other_refuted.
(** a version with fewer numbers than the bound is compared on those it has *)
Theorem C186_depth_refuted : exists r v, parse_requirement (convert_requirement (T "foo>=1.5")) = Some r /\ parse_version (T "1") = Some v /\ r_satisfied r v = true /\ release_cmp [1%N] [1%N; 5%N] = Lt.
Proof. eexists _, _. split; [vm_compute; reflexivity|]. split; [vm_compute; reflexivity|]. split; vm_compute; reflexivity. Qed.
Print Assumptions C186_depth_refuted.
Example C186_example : name_text (T "NumPy") /\ undashed (T "NumPy") /\ release [1%N; 21%N] /\ release [2%N] /\ convert_requirement (T "NumPy>=1.21,<2") = T "numpy-1.21+<2" /\ release_cmp [1%N; 26%N; 4%N] [1%N; 21%N] = Gt.
Proof.
  split; [split; [discriminate|reflexivity]|]. split. { intros c C [-> | ->]; repeat (destruct C as [C|C]; [discriminate C|]); destruct C. }
  split; [split; [discriminate|]; split; [cbn; lia|]; intros n [<-|[<-|[]]]; vm_compute; discriminate|].
  split; [split; [discriminate|]; split; [cbn; lia|]; intros n [<-|[]]; vm_compute; discriminate|]. split; reflexivity.
Qed.

(** ** C187 *)
(** a name with a dash or an underscore is read as the name before it, with the rest as a version *)
Theorem C187_dashed_refuted : forall a c b v, name_text a -> undashed a -> dashy c -> forallb Requirement_model.name_char b = true -> parse_version (normalize_package_name b) = Some v -> v_str v = normalize_package_name b ->
  reads_as (convert_requirement (a ++ c :: b)) (normalize_package_name a) (Some (CPrefix v)).
Proof.
  intros a c b v N U D B P S. assert (Nab : name_text (a ++ c :: b)).
  { split; [destruct a; discriminate|]. rewrite forallb_app. cbn [forallb]. rewrite B, (proj2 N). destruct D as [-> | ->]; reflexivity. }
  rewrite (convert_bare _ Nab). assert (E : normalize_package_name (a ++ c :: b) = normalize_package_name a ++ T "-" ++ normalize_package_name b).
  { unfold normalize_package_name, swap, lower. rewrite !map_app. f_equal. destruct D as [-> | ->]; reflexivity. }
  rewrite E. apply read_dashed; [apply api_name_text, N|apply api_undashed, U|exact P|exact S].
Qed.
Print Assumptions C187_dashed_refuted.
Theorem C187_undashed_partial : forall n, name_text n -> undashed n -> reads_as (convert_requirement n) (normalize_package_name n) None.
Proof.
  intros n N U. rewrite (convert_bare n N). pose proof (api_name_text n N) as M. rewrite <- (app_nil_r (normalize_package_name n)) at 1.
  apply simple_read; [exact M|intros c []|]. rewrite app_nil_r. apply Requirement_text.parse_nv_plain; [exact M|apply api_undashed, U].
Qed.
Print Assumptions C187_undashed_partial.
(** the names the command writes are names that are read whole *)
Theorem C187_command_partial : forall n, name_text n -> reads_as (cli_name n) (cli_name n) None.
Proof.
  intros n N. assert (M : name_text (cli_name n)).
  { destruct N as [N1 N2]. split; [destruct n; [contradiction|discriminate]|]. unfold cli_name, swap, lower. rewrite map_map, forallb_forall. intros c C. apply in_map_iff in C as (x & <- & X).
    rewrite forallb_forall in N2. specialize (N2 x X). destruct (Ascii.eqb (to_lower x) "-"); [reflexivity|]. rewrite name_char_lower. exact N2. }
  rewrite <- (app_nil_r (cli_name n)) at 1. apply simple_read; [exact M|intros c []|]. rewrite app_nil_r. apply Requirement_text.parse_nv_plain; [exact M|].
  intros C. unfold cli_name, swap, lower in C. rewrite map_map in C. apply in_map_iff in C as (x & E & _). destruct (Ascii.eqb_spec (to_lower x) "-"); [discriminate E|contradiction].
Qed.
Print Assumptions C187_command_partial.
Example C187_example : exists v, parse_version (T "extensions") = Some v /\ reads_as (convert_requirement (T "typing_extensions")) (T "typing") (Some (CPrefix v)) /\ c_satisfied (CPrefix v) (mkVersion [T "3"] [] (T "3")) = false.
Proof. eexists. split; [vm_compute; reflexivity|]. split; vm_compute; reflexivity. Qed.

(** ** C188 *)
Theorem C188_dependents_partial : forall name fs f, In f (get_pip_dependencies name fs) <->
  exists ps reqs r n, In (f, ps) fs /\ In reqs ps /\ In r reqs /\ leads n (trim r) /\ same_name n name.
Proof. exact dependents_iff. Qed.
Print Assumptions C188_dependents_partial.
(** a package with a dash in its name has no dependents but those that write it with an underscore *)
Theorem C188_dashed_refuted : forall name fs f, In "-"%char name -> In f (get_pip_dependencies name fs) -> exists ps reqs r, In (f, ps) fs /\ In reqs ps /\ In r reqs /\ In "_"%char r.
Proof. exact dependents_dashed. Qed.
Print Assumptions C188_dashed_refuted.
(** ... while the name before the dash gets them: requirements on python-dateutil count for python *)
Theorem C188_wrong_refuted : exists fs, get_pip_dependencies (T "python-dateutil") fs = [] /\ get_pip_dependencies (T "python") fs = [T "pandas"] /\ fs = [(T "pandas", [[convert_requirement (T "python-dateutil>=2.8")]])].
Proof. eexists. split; [|split; [|reflexivity]]; vm_compute; reflexivity. Qed.
Print Assumptions C188_wrong_refuted.
(** a family is given once for each of its versions *)
Theorem C188_repeated_refuted : forall name f reqs k, get_pip_dependencies name [(f, [reqs])] = [f] -> get_pip_dependencies name [(f, repeat reqs k)] = repeat f k.
Proof.
  intros name f reqs k. unfold get_pip_dependencies. cbn [flat_map fst snd]. rewrite !app_nil_r. destruct (existsb _ reqs) eqn:E; [|discriminate]. intros _. induction k as [|k IH]; [reflexivity|].
  cbn [repeat flat_map]. rewrite E, IH. reflexivity.
Qed.
Print Assumptions C188_repeated_refuted.
Example C188_example : get_pip_dependencies (T "NumPy") [(T "scipy", [[T " numpy-1+"]; [T "numpy>=1"; T "six"]]); (T "six", [[]]); (T "x", [[T "~numpy"]; [T "numpy[platform==linux]"]])] = [T "scipy"; T "scipy"].
Proof. reflexivity. Qed.

(** ** C189 *)
Theorem C189_name_partial : forall n s rest, no_sign n -> sign s -> starts_with (T "=") rest = false -> parse_pkg_name_from_spec (n ++ s ++ rest) = cli_name (trim n).
Proof. exact spec_name. Qed.
Print Assumptions C189_name_partial.
Theorem C189_plain_partial : forall n, no_sign n -> parse_pkg_name_from_spec n = cli_name (trim n).
Proof. exact spec_plain. Qed.
Print Assumptions C189_plain_partial.
(** extras and markers stay in the name *)
Theorem C189_extras_refuted : parse_pkg_name_from_spec (T "requests[socks]>=2.0") = T "requests[socks]" /\ parse_pkg_name_from_spec (T "six ; python_version<'3'") = T "six ; python_version".
Proof. split; reflexivity. Qed.
Print Assumptions C189_extras_refuted.
(** the API takes what is before the first sign *)
Theorem C189_api_partial : forall n c rest, no_sign n -> In c (T "=><!~") -> pip_install [n ++ c :: rest] = [normalize_package_name (trim n)] /\ pip_install [n] = [normalize_package_name (trim n)].
Proof.
  intros n c rest N I. assert (F : forall m, In m n -> one_of (T "=><!~") m = false).
  { intros m M. unfold one_of. apply not_true_is_false. intros E. apply existsb_exists in E as (x & X & Y). apply Ascii.eqb_eq in Y. subst x. apply (N m M). cbn in X |- *. tauto. }
  assert (B : before_any (one_of (T "=><!~")) (n ++ c :: rest) = n /\ before_any (one_of (T "=><!~")) n = n).
  { clear N. induction n as [|x n IH]; cbn [app before_any].
    - assert (E : one_of (T "=><!~") c = true) by (apply existsb_exists; exists c; split; [exact I|apply Ascii.eqb_refl]). rewrite E. auto.
    - rewrite (F x (or_introl eq_refl)). destruct IH as [IH1 IH2]; [intros m M; apply F; right; exact M|]. rewrite IH1, IH2. auto. }
  unfold pip_install. cbn [map]. destruct B as [-> ->]. auto.
Qed.
Print Assumptions C189_api_partial.
(** the API does not cut a specification at an address *)
Theorem C189_api_refuted : parse_pkg_name_from_spec (T "foo @ https://x/foo.whl") = T "foo" /\ pip_install [T "foo @ https://x/foo.whl"] = [T "foo @ https://x/foo.whl"].
Proof. split; reflexivity. Qed.
Print Assumptions C189_api_refuted.
Lemma no_sign_b n : forallb (fun c => negb (existsb (Ascii.eqb c) (T "=><!~@"))) n = true -> no_sign n.
Proof. intros H c C I. rewrite forallb_forall in H. specialize (H c C). apply negb_true_iff in H. assert (E : existsb (Ascii.eqb c) (T "=><!~@") = true) by (apply existsb_exists; exists c; split; [exact I|apply Ascii.eqb_refl]). congruence. Qed.
Example C189_example : no_sign (T "Typing-Extensions ") /\ sign (T "~=") /\ parse_pkg_name_from_spec (T "Typing-Extensions ~=4.0") = T "typing_extensions".
Proof. split; [|split; [cbn; tauto|reflexivity]]. apply no_sign_b. reflexivity. Qed.

(** ** C190 *)
(** the command succeeds without having made a package *)
Theorem C190_nothing_made_refuted : forall u target a local release d py ss, g_dry_run a = false -> find_python u a = Some py -> collect_specs u a = Some ss -> ss <> [] ->
  (forall s t l, In s ss -> u_install u py l t <> None) -> (forall s t, In s ss -> discover u py s t = None) -> execute u target a local release d = (d, true).
Proof.
  intros u target a local release d py ss D P C N I F. unfold execute. rewrite P, C. destruct ss as [|s ss]; [contradiction|]. apply all_unfound; assumption.
Qed.
Print Assumptions C190_nothing_made_refuted.
(** so it is with extras: pip does not know the name that is asked for, and no directory has it *)
Theorem C190_extras_refuted : forall u target a local release d py n ex s rest, g_dry_run a = false -> find_python u a = Some py -> collect_specs u a = Some [n ++ T "[" ++ ex ++ T "]" ++ s ++ rest] ->
  no_sign n -> no_sign ex -> sign s -> starts_with (T "=") rest = false -> (forall l t, u_install u py l t <> None) ->
  (forall m t, In "["%char m -> u_show u py m t = None) -> (forall t e, In e (u_list u t) -> ~ In "["%char e) ->
  execute u target a local release d = (d, true).
Proof.
  intros u target a local release d py n ex s rest D P C N E S R I Sh L. apply (C190_nothing_made_refuted u target a local release d py _ D P C); [discriminate|intros s' t l _; apply I|].
  intros s' t [<-|[]]. unfold discover. assert (W : parse_pkg_name_from_spec (n ++ T "[" ++ ex ++ T "]" ++ s ++ rest) = cli_name (trim (n ++ T "[" ++ ex ++ T "]"))).
  { replace (n ++ T "[" ++ ex ++ T "]" ++ s ++ rest) with ((n ++ T "[" ++ ex ++ T "]") ++ s ++ rest) by (rewrite <- !app_assoc; reflexivity). apply spec_name; [|exact S|exact R].
    intros c H. apply in_app_or in H as [H|H]; [exact (N c H)|]. apply in_app_or in H as [[<-|[]]|H]; [cbn; intuition discriminate|]. apply in_app_or in H as [H|[<-|[]]]; [exact (E c H)|cbn; intuition discriminate]. }
  assert (Tr : In "["%char (trim (n ++ T "[" ++ ex ++ T "]"))) by (apply Range_proofs.In_trim; [apply in_or_app; right; left; reflexivity|reflexivity]).
  assert (B : In "["%char (parse_pkg_name_from_spec (n ++ T "[" ++ ex ++ T "]" ++ s ++ rest))).
  { rewrite W. apply cli_bracket, Tr. }
  rewrite (Sh _ t B). apply scan_none. intros e m v He Hd Hm. apply (L t e He). apply (dist_info_in e m v _ Hd). apply cli_bracket. rewrite Hm. apply cli_bracket, B.
Qed.
Print Assumptions C190_extras_refuted.
(** otherwise it goes through, with a package *)
Theorem C190_made_partial : forall u target a py inst d t s t' i, tidy u -> tidy_files t -> nothing_refused (u_refuse u) -> g_dry_run a = false -> u_install u py (install_args target a s) t = Some t' -> discover u py s t' = Some i ->
  exists d', pip_one u target a py inst d t s = (d', t', true) /\ holds d' (path_join (package_dir inst i) (T "python")) t' /\ content d' (path_join (package_dir inst i) (T "package.py")) = Some (cli_package_py i).
Proof. intros u target a py inst d t s t' i H1 H2 H3 H4 H5 H6. destruct (one_created u target a py inst d t s t' i H1 H2 H3 H4 H5 H6) as (d' & A & B & C & _). exists d'. auto. Qed.
Print Assumptions C190_made_partial.
(** it fails where pip fails, and leaves what was made before *)
Theorem C190_failed_partial : forall u target a py inst d t s ss, g_dry_run a = false -> u_install u py (install_args target a s) t = None -> pip_all u target a py inst d t (s :: ss) = (d, false).
Proof. intros u target a py inst d t s ss D I. cbn [pip_all]. unfold pip_one. rewrite D, I. reflexivity. Qed.
Print Assumptions C190_failed_partial.
(** what pip show says is taken even if it cannot be read; the directory is looked at only if pip show fails *)
Theorem C190_show_partial : forall u py s t, (forall out, u_show u py (parse_pkg_name_from_spec s) t = Some out -> discover u py s t = parse_pip_show_output out) /\
  (u_show u py (parse_pkg_name_from_spec s) t = None -> discover u py s t = scan_entries (cli_name (parse_pkg_name_from_spec s)) t (u_list u t)).
Proof. intros u py s t. unfold discover. split; [intros out ->|intros ->]; reflexivity. Qed.
Print Assumptions C190_show_partial.
(** pip is told to leave out dependencies and to install again exactly if asked for *)
Theorem C190_options_partial : forall target a s, exists rest, install_args target a s = map T ["-m"; "pip"; "install"; "--target"] ++ target :: s :: rest /\
  (In (T "--no-deps") rest <-> g_no_deps a = true) /\ (In (T "--force-reinstall") rest <-> g_force a = true) /\ (In (T "-q") rest <-> g_verbose a = 0%N) /\ (In (T "-v") rest <-> (1 < g_verbose a)%N).
Proof.
  intros target a s. eexists. split; [unfold install_args; cbn [map app]; reflexivity|].
  destruct (g_no_deps a), (g_force a), (N.ltb_spec 1 (g_verbose a)) as [L|L], (N.eqb_spec (g_verbose a) 0) as [E|E]; cbn [app In]; try (exfalso; lia);
    repeat split; intros H; try discriminate; try congruence; try lia; auto; repeat (destruct H as [H|H]; try discriminate H; try lia; auto); destruct H.
Qed.
Print Assumptions C190_options_partial.
(** pip puts a file where there is none *)
Definition add (k c : text) (t : files) : files := match aget k t with Some _ => t | None => aput k c t end.
(** a surrounding in which pip knows six and requests *)
Definition pip0 : outside :=
  mkOutside (fun p => text_eqb p (T "python3")) (fun f => if text_eqb f (T "r.txt") then Some (T "# all of them" ++ [NL] ++ T " six " ++ [NL] ++ [NL] ++ T "requests # http" ++ [NL]) else None)
    (fun _ l t => let n := nth 5 l [] in if text_eqb n (T "six") then Some (add (T "six.py") (T "x") t) else Some (add (T "requests/api.py") (T "y") t))
    (fun _ n t => if text_eqb n (T "six") then Some (T "Name: six" ++ [NL] ++ T "Version: 1.16.0" ++ [NL] ++ T "Requires: " ++ [NL]) else if text_eqb n (T "requests") then Some (T "Name: requests" ++ [NL] ++ T "Version: 2.0" ++ [NL] ++ T "Requires: idna, urllib3") else None)
    (fun t => [T "bin"; T "requests-2.0.dist-info"]) (mkRefusals (fun _ => false) (fun _ => false)).
Definition args0 (l : list text) : pip_args := mkPipArgs l false None None None false false false 0.
Lemma add_tidy k c t : starts_with (T "/") k = false -> tidy_files t -> tidy_files (add k c t).
Proof.
  intros K [R N]. unfold add. destruct (aget k t); [split; assumption|]. split; [|apply nodup_put, N]. intros r H. apply akeys_put in H as [->|H]; [exact K|apply R, H].
Qed.
Lemma add_keeps k c t : keeps_files t (add k c t).
Proof. intros r x H. unfold add. destruct (aget k t) eqn:E; [exact H|]. rewrite aget_put_other; [exact H|]. intros ->. congruence. Qed.
Lemma pip0_tidy : tidy pip0.
Proof. intros py l t t' Tt. cbn [pip0 u_install]. destruct (text_eqb _ _); intros [= <-]; apply add_tidy; first [reflexivity|exact Tt]. Qed.
Lemma pip0_keeps py l t t' : u_install pip0 py l t = Some t' -> keeps_files t t'.
Proof. cbn [pip0 u_install]. destruct (text_eqb _ _); intros [= <-]; apply add_keeps. Qed.
Lemma pip0_modest py s t i : discover pip0 py s t = Some i -> modest i.
Proof.
  unfold discover. cbn [pip0 u_show u_list]. destruct (text_eqb _ (T "six")); [intros [= <-]; split; reflexivity|]. destruct (text_eqb _ (T "requests")); [intros [= <-]; split; reflexivity|].
  intros H. apply scan_some in H as (a & e & b & E & D & _). assert (I : In e [T "bin"; T "requests-2.0.dist-info"]) by (rewrite E; apply in_or_app; right; left; reflexivity).
  destruct I as [<-|[<-|[]]]; [discriminate D|]. replace (dist_info (T "requests-2.0.dist-info")) with (Some (T "requests", T "2.0")) in D by reflexivity. injection D as D1 D2. unfold modest. rewrite <- D1, <- D2. split; reflexivity.
Qed.
Example C190_example :
  execute pip0 (T "/tmp/t") (args0 [T "requests[socks]==2.0"]) (T "/l") (T "/r") (mkDisk [] []) = (mkDisk [] [], true) /\
  (forall l t, u_install pip0 (T "python3") l t <> None) /\ (forall m t, In "["%char m -> u_show pip0 (T "python3") m t = None) /\ (forall t e, In e (u_list pip0 t) -> ~ In "["%char e).
Proof.
  split; [vm_compute; reflexivity|]. split; [intros l t; cbn [u_install pip0]; destruct (text_eqb _ _); discriminate|]. split.
  - intros m t H. cbn [u_show pip0]. destruct (text_eqb m (T "six")) eqn:E; [apply text_eqb_eq in E; subst; cbn in H; intuition discriminate|].
    destruct (text_eqb m (T "requests")) eqn:E'; [apply text_eqb_eq in E'; subst; cbn in H; intuition discriminate|reflexivity].
  - intros t e [<-|[<-|[]]]; cbn; intuition discriminate.
Qed.

(** ** C191 *)
(** the last package holds the files of all that pip has installed before *)
Theorem C191_shared_refuted : forall u target a py inst xs s d d' t1 t' i r c, tidy u -> g_dry_run a = false -> (forall l t t', u_install u py l t = Some t' -> keeps_files t t') ->
  pip_all u target a py inst d [] (xs ++ [s]) = (d', true) -> fetched u target a py [] xs = Some t1 -> aget r t1 = Some c ->
  fetched u target a py [] (xs ++ [s]) = Some t' -> discover u py s t' = Some i ->
  content d' (path_join (path_join (package_dir inst i) (T "python")) r) = Some c.
Proof.
  intros u target a py inst xs s d d' t1 t' i r c Ti D K H F1 G F I. destruct (last_holds u target a py inst xs s d [] d' t' i Ti (tidy_nil) D H F I) as [Ho _]. apply Ho.
  rewrite fetched_app, F1 in F. apply (fetched_keeps u target a py [s] K t1 t' F). exact G.
Qed.
Print Assumptions C191_shared_refuted.
(** what a package of that name and version had before and pip does not install now stays *)
Theorem C191_stale_refuted : forall u target a py inst d t s t' i r c, tidy u -> tidy_files t -> nothing_refused (u_refuse u) -> g_dry_run a = false -> u_install u py (install_args target a s) t = Some t' -> discover u py s t' = Some i ->
  starts_with (T "/") r = false -> ~ In r (akeys t') -> content d (path_join (path_join (package_dir inst i) (T "python")) r) = Some c ->
  exists d', pip_one u target a py inst d t s = (d', t', true) /\ content d' (path_join (path_join (package_dir inst i) (T "python")) r) = Some c.
Proof.
  intros u target a py inst d t s t' i r c Ti Tt Nr D E I R N C. destruct (one_created u target a py inst d t s t' i Ti Tt Nr D E I) as (d' & A & _ & _ & K). exists d'. split; [exact A|]. rewrite K; [exact C| |].
  - intros X. assert (Re : relative [(r, c)]) by (intros y [<-|[]]; exact R). apply (package_file_apart (package_dir inst i) [(r, c)] r Re); [left; reflexivity|]. symmetry. exact X.
  - intros y Y X. apply N. destruct (Ti _ _ _ _ Tt E) as [Re _]. rewrite (join_inj _ r y R (Re y Y) X). exact Y.
Qed.
Print Assumptions C191_stale_refuted.
Theorem C191_holds_partial : forall u target a py inst xs s d d' t' i, tidy u -> g_dry_run a = false -> pip_all u target a py inst d [] (xs ++ [s]) = (d', true) ->
  fetched u target a py [] (xs ++ [s]) = Some t' -> discover u py s t' = Some i ->
  holds d' (path_join (package_dir inst i) (T "python")) t' /\ content d' (path_join (package_dir inst i) (T "package.py")) = Some (cli_package_py i).
Proof. intros u target a py inst xs s d d' t' i H1 H2 H3 H4 H5. exact (last_holds u target a py inst xs s d [] d' t' i H1 tidy_nil H2 H3 H4 H5). Qed.
Print Assumptions C191_holds_partial.
Example C191_example : exists d', execute pip0 (T "/tmp/t") (args0 [T "six"; T "Requests>=2"]) (T "/l") (T "/r") (mkDisk [] []) = (d', true) /\
  content d' (T "/l/requests/2.0/python/six.py") = Some (T "x") /\ content d' (T "/l/six/1.16.0/python/six.py") = Some (T "x") /\ content d' (T "/l/six/1.16.0/python/requests/api.py") = None /\
  tidy pip0 /\ (forall py l t t', u_install pip0 py l t = Some t' -> keeps_files t t').
Proof. eexists. split; [|split; [|split; [|split; [|split; [exact pip0_tidy|exact pip0_keeps]]]]]; [vm_compute; reflexivity|vm_compute; reflexivity|vm_compute; reflexivity|vm_compute; reflexivity]. Qed.

(** ** C192 *)
Theorem C192_loads_partial : forall L w i v, reads_functions L -> good_name (n_name i) -> plain (n_version i) -> parse_version (n_version i) = Some v -> v_str v <> [] ->
  (forall c, In c (n_summary i) -> ~ In c [BS; NL; CR; "000"%char]) -> plain_all (n_requires i) ->
  load_python L w (cli_package_py i) =
  Ok (pip_pkg (cli_name (n_name i)) v (swap DQ SQ (n_summary i)) (T "pip-rez-next") (map cli_name (filter (fun r => negb (is_nil r)) (n_requires i))) (command_line (T "{root}/python"))).
Proof. exact cli_loads. Qed.
Print Assumptions C192_loads_partial.
(** names with a dot make a file that is refused *)
Theorem C192_dotted_refuted : forall L w, reads_functions L -> load_python L w (cli_package_py (mkInfo (T "zope.interface") (T "5.4.0") [] (T "Interfaces"))) = Err.
Proof.
  intros L w HL. unfold load_python. set (i := mkInfo _ _ _ _).
  set (head := ln (T "name = " ++ quoted (cli_name (n_name i))) ++ ln (T "version = " ++ quoted (n_version i)) ++ ln (T "description = " ++ quoted (n_summary i)) ++
    ln (T "authors = [" ++ quoted (T "pip-rez-next") ++ T "]") ++ [NL] ++ ln (T "requires = " ++ cli_requires []) ++ [NL]).
  replace (cli_package_py i) with (head ++ commands_text (T "{root}/python")) by (vm_compute; reflexivity).
  erewrite HL; [|apply plainb; reflexivity|right; eexists; unfold head; rewrite !app_assoc; reflexivity|vm_compute; reflexivity]. vm_compute. reflexivity.
Qed.
Print Assumptions C192_dotted_refuted.
(** a library that reads such files: what ends in the function is cut there *)
Definition function_reader (s : text) : option (list stmt) :=
  match strip_prefix (rev ([DQ] ++ T ")" ++ [NL])) (rev s) with
  | Some r => match from_any (Ascii.eqb DQ) r with
              | Some (_ :: r2) => match strip_prefix (rev (T "def commands():" ++ [NL] ++ T "    import os" ++ [NL] ++ T "    env.PYTHONPATH.prepend(")) r2 with
                                  | Some r3 => match python_reads (rev r3) with Some f => Some (f ++ [commands_stmt (rev (before_any (Ascii.eqb DQ) r))]) | None => None end
                                  | None => python_reads s
                                  end
              | _ => python_reads s
              end
  | None => python_reads s
  end.
Definition with_functions : library :=
  mkLibrary (l_json sample) (l_unjson sample) (l_yaml sample) (l_unyaml sample) (l_toml sample) (l_untoml sample) (l_gzip sample) (l_gunzip sample) (l_bin sample) (l_unbin sample) function_reader.
Lemma with_functions_ok : reads_functions with_functions.
Proof.
  intros s f x P _ E. cbn [with_functions l_python]. unfold function_reader, commands_text.
  replace (s ++ T "def commands():" ++ [NL] ++ T "    import os" ++ [NL] ++ T "    env.PYTHONPATH.prepend(" ++ [DQ] ++ x ++ [DQ] ++ T ")" ++ [NL])
    with (s ++ (T "def commands():" ++ [NL] ++ T "    import os" ++ [NL] ++ T "    env.PYTHONPATH.prepend(") ++ DQ :: x ++ ([DQ] ++ T ")" ++ [NL])) by (rewrite <- !app_assoc; reflexivity).
  set (tl := [DQ] ++ T ")" ++ [NL]). set (hd := T "def commands():" ++ [NL] ++ T "    import os" ++ [NL] ++ T "    env.PYTHONPATH.prepend(").
  assert (Er : rev (s ++ hd ++ DQ :: x ++ tl) = rev tl ++ rev x ++ DQ :: rev hd ++ rev s).
  { rewrite rev_app_distr, rev_app_distr. cbn [rev]. rewrite rev_app_distr. rewrite <- !app_assoc. reflexivity. }
  rewrite Er, strip_app.
  assert (Nx : none_of (Ascii.eqb DQ) (rev x)).
  { intros c C. destruct (Ascii.eqb_spec DQ c) as [<-|]; [|reflexivity]. apply in_rev in C. destruct (P DQ C). left. reflexivity. }
  rewrite from_app by (exact Nx || apply Ascii.eqb_refl). rewrite strip_app. rewrite rev_involutive, E. rewrite before_app by (exact Nx || apply Ascii.eqb_refl). rewrite rev_involutive. reflexivity.
Qed.
Example C192_example : reads_functions with_functions /\ exists p, load_python with_functions (mkWorld (fun _ => None) (T "linux") (T "posix"))
   (cli_package_py (mkInfo (T "Typing-Extensions") (T "4.0.1") [T "six"; T "Py-Dateutil"] (T "Backports of " ++ [DQ] ++ T "typing" ++ [DQ]))) = Ok p /\ Pkgfile_model.k_name p = T "typing_extensions" /\
   Pkgfile_model.k_requires p = [T "six"; T "py_dateutil"] /\ Pkgfile_model.k_description p = Some (T "Backports of 'typing'").
Proof. split; [exact with_functions_ok|]. eexists. split; [vm_compute; reflexivity|]. split; [vm_compute; reflexivity|]. split; vm_compute; reflexivity. Qed.

(** ** C193 *)
Theorem C193_dry : forall u target a local release d, g_dry_run a = true ->
  fst (execute u target a local release d) = d /\
  (snd (execute u target a local release d) = true <-> find_python u a <> None /\ exists s ss, collect_specs u a = Some (s :: ss)).
Proof. intros u target a local release d. apply execute_dry. Qed.
Print Assumptions C193_dry.
(** the Python that is given is taken as it is, else the first of a fixed list that runs *)
Theorem C193_python : forall u a, match g_python a with
  | Some p => find_python u a = Some p
  | None => match find_python u a with
            | Some p => u_runs u p = true /\ exists l r, map T ["python3"; "python"; "python3.11"; "python3.10"; "python3.9"] = l ++ p :: r /\ forall q, In q l -> u_runs u q = false
            | None => forall q, In q (map T ["python3"; "python"; "python3.11"; "python3.10"; "python3.9"]) -> u_runs u q = false
            end
  end.
Proof.
  intros u a. unfold find_python. destruct (g_python a); [reflexivity|]. generalize (map T ["python3"; "python"; "python3.11"; "python3.10"; "python3.9"]). intros L. induction L as [|x L IH]; cbn [find]; [intros q []|].
  destruct (u_runs u x) eqn:R.
  - split; [exact R|]. exists [], L. split; [reflexivity|intros q []].
  - destruct (find (u_runs u) L) as [p|].
    + destruct IH as (A & l & r & -> & B). split; [exact A|]. exists (x :: l), r. split; [reflexivity|]. intros q [<-|Q]; auto.
    + intros q [<-|Q]; auto.
Qed.
Print Assumptions C193_python.
Example C193_example : execute pip0 (T "/tmp/t") (mkPipArgs [T "six"] false None None None false false true 0) (T "/l") (T "/r") (mkDisk [] []) = (mkDisk [] [], true) /\
  execute pip0 (T "/tmp/t") (mkPipArgs [] false None None None false false true 0) (T "/l") (T "/r") (mkDisk [] []) = (mkDisk [] [], false).
Proof. split; reflexivity. Qed.

(** ** C194 *)
Theorem C194_specs_partial : forall u a f c, g_requirement a = Some f -> u_read u f = Some c -> exists l, collect_specs u a = Some (g_packages a ++ l) /\
  (forall s, In s l <-> exists x, In x (lines_of c) /\ s = trim x /\ s <> [] /\ starts_with (T "#") s = false).
Proof. exact collected. Qed.
Print Assumptions C194_specs_partial.
(** the order is that of the file *)
Theorem C194_order_partial : forall u a f c, g_requirement a = Some f -> u_read u f = Some c -> (forall x, In x (lines_of c) -> trim x <> [] /\ starts_with (T "#") (trim x) = false) ->
  collect_specs u a = Some (g_packages a ++ map trim (lines_of c)).
Proof.
  intros u a f c G R H. unfold collect_specs. rewrite G, R. f_equal. f_equal. revert H. induction (lines_of c) as [|x l IH]; intros H; [reflexivity|]. cbn [map filter].
  destruct (H x (or_introl eq_refl)) as [H1 H2]. rewrite H2. destruct (trim x) as [|c0 r]; [contradiction|]. cbn [is_nil negb andb]. f_equal. apply IH. intros y Y. apply H. right. exact Y.
Qed.
Print Assumptions C194_order_partial.
(** a comment behind a requirement stays, and so does a line with options: pip is given each as one argument *)
Theorem C194_comments_refuted : exists u a, collect_specs u a = Some [T "six"; T "requests # http"; T "-r more.txt"].
Proof. exists (mkOutside (fun _ => true) (fun _ => Some (T "six" ++ [NL] ++ T "requests # http" ++ [NL] ++ T "-r more.txt")) (fun _ _ _ => None) (fun _ _ _ => None) (fun _ => []) (mkRefusals (fun _ => false) (fun _ => false))), (mkPipArgs [] false None None (Some (T "r")) false false false 0). reflexivity. Qed.
Print Assumptions C194_comments_refuted.
Example C194_example : collect_specs pip0 (mkPipArgs [T "idna"] false None None (Some (T "r.txt")) false false false 0) = Some [T "idna"; T "six"; T "requests # http"].
Proof. reflexivity. Qed.

(** ** C195 *)
Theorem C195_below : forall u target a local release d, tidy u -> (forall py s t i, discover u py s t = Some i -> modest i) ->
  only_below (match g_prefix a with Some p => p | None => if g_release a then release else local end) d (fst (execute u target a local release d)).
Proof. intros u target a local release d. exact (execute_below u target a local release d). Qed.
Print Assumptions C195_below.
Example C195_example : exists d', execute pip0 (T "/tmp/t") (mkPipArgs [T "six"] true (Some (T "/p")) None None false false false 0) (T "/l") (T "/r") (mkDisk [(T "/r/a", T "1")] [T "/r"]) = (d', true) /\
  d_dirs d' = [T "/r"; T "/p/six/1.16.0"; T "/p/six/1.16.0/python"] /\ akeys (d_files d') = [T "/r/a"; T "/p/six/1.16.0/python/six.py"; T "/p/six/1.16.0/package.py"] /\
  tidy pip0 /\ (forall py s t i, discover pip0 py s t = Some i -> modest i).
Proof. eexists. split; [vm_compute; reflexivity|]. split; [vm_compute; reflexivity|]. split; [vm_compute; reflexivity|]. split; [exact pip0_tidy|exact pip0_modest]. Qed.

(** ** C196 *)
Theorem C196_shown : forall out n v, last_value (T "Name: ") (lines_of out) n -> last_value (T "Version: ") (lines_of out) v -> trim n <> [] -> trim v <> [] ->
  exists i, parse_pip_show_output out = Some i /\ n_name i = trim n /\ n_version i = trim v /\
    (forall r, last_value (T "Requires: ") (lines_of out) r -> n_requires i = filter (fun s => negb (is_nil s)) (map trim (split_on "," r))) /\ (unlabelled (T "Requires: ") (lines_of out) -> n_requires i = []) /\
    (forall s, last_value (T "Summary: ") (lines_of out) s -> n_summary i = trim s) /\ (unlabelled (T "Summary: ") (lines_of out) -> n_summary i = []).
Proof. exact show_parsed. Qed.
Print Assumptions C196_shown.
Theorem C196_nothing_shown : forall out, unlabelled (T "Name: ") (lines_of out) \/ unlabelled (T "Version: ") (lines_of out) -> parse_pip_show_output out = None.
Proof. exact show_unparsed. Qed.
Print Assumptions C196_nothing_shown.
Example C196_example : exists i, parse_pip_show_output (T "Name: requests" ++ [NL] ++ T "Version: 2.0" ++ [NL] ++ T "Summary: HTTP: for humans" ++ [NL] ++ T "Requires: idna, urllib3" ++ [NL]) = Some i /\
  i = mkInfo (T "requests") (T "2.0") [T "idna"; T "urllib3"] (T "HTTP: for humans").
Proof. eexists. split; reflexivity. Qed.

(** ** C197 *)
Theorem C197_directory_partial : forall n v, ~ In "-"%char v -> v <> T "info" -> dist_info (n ++ T "-" ++ v ++ T ".dist-info") = Some (n, v).
Proof. exact dist_info_split. Qed.
Print Assumptions C197_directory_partial.
Theorem C197_scan_partial : forall wanted t es i, scan_entries wanted t es = Some i ->
  exists a e b, es = a ++ e :: b /\ dist_info e = Some (n_name i, n_version i) /\ cli_name (n_name i) = wanted /\ (forall e' n v, In e' a -> dist_info e' = Some (n, v) -> cli_name n <> wanted).
Proof. exact scan_some. Qed.
Print Assumptions C197_scan_partial.
Theorem C197_missing_partial : forall wanted t es, (forall e n v, In e es -> dist_info e = Some (n, v) -> cli_name n <> wanted) -> scan_entries wanted t es = None.
Proof. exact scan_none. Qed.
Print Assumptions C197_missing_partial.
(** optional requirements become requirements, and a marker leaves its semicolon, with which no requirement is read *)
Theorem C197_optional_refuted : exists t i, scan_entries (T "requests") t [T "requests-2.0.dist-info"] = Some i /\
  aget (T "requests-2.0.dist-info/METADATA") t = Some (T "Requires-Dist: PySocks (>=1.5.6) ; extra == 'socks'" ++ [NL] ++ T "Requires-Dist: idna>=2.5; python_version>='3'") /\
  n_requires i = [T "PySocks"; T "idna>=2.5;"] /\ parse_requirement (cli_name (T "idna>=2.5;")) = None.
Proof. exists [(T "requests-2.0.dist-info/METADATA", T "Requires-Dist: PySocks (>=1.5.6) ; extra == 'socks'" ++ [NL] ++ T "Requires-Dist: idna>=2.5; python_version>='3'")]. eexists. split; [vm_compute; reflexivity|]. split; [vm_compute; reflexivity|]. split; vm_compute; reflexivity. Qed.
Print Assumptions C197_optional_refuted.
Example C197_example : scan_entries (T "typing_extensions") [] [T "bin"; T "six-1.0.dist-info"; T "typing_extensions-4.0.dist-info"] = Some (mkInfo (T "typing_extensions") (T "4.0") [] []) /\ ~ In "-"%char (T "4.0") /\ T "4.0" <> T "info".
Proof. split; [reflexivity|]. split; [cbn; intuition discriminate|discriminate]. Qed.

(** ** C198 *)
Theorem C198_written_partial : forall f d p install over,
  let dir := path_join (path_join install (i_name p)) (i_version p) in
  match write_pip_package f d p install over with
  | AlreadyThere => over = false /\ exists_at d dir = true
  | Written w d' => w = dir /\ (over = true \/ exists_at d dir = false) /\ content d' (path_join dir (T "package.py")) = Some (api_package_py p) /\
      (forall q, q <> path_join dir (T "package.py") -> content d' q = content d q) /\ (forall q, In q (d_dirs d') <-> In q (d_dirs d) \/ q = dir)
  | WriteFailed d' => d_files d' = d_files d /\ ~ nothing_refused f
  end.
Proof. exact write_spec. Qed.
Print Assumptions C198_written_partial.
(** the directory the package adds to PYTHONPATH is not written *)
Theorem C198_payload_refuted : forall f d p install over w d' r, write_pip_package f d p install over = Written w d' ->
  path_join (path_join w (T "lib/python3.9/site-packages")) r <> path_join w (T "package.py") ->
  content d' (path_join (path_join w (T "lib/python3.9/site-packages")) r) = content d (path_join (path_join w (T "lib/python3.9/site-packages")) r).
Proof. intros f d p install over w d' r H N. pose proof (write_spec f d p install over) as W. cbv zeta in W. rewrite H in W. destruct W as (-> & _ & _ & K & _). apply K, N. Qed.
Print Assumptions C198_payload_refuted.
Example C198_example : exists d', write_pip_package (mkRefusals (fun _ => false) (fun _ => false)) (mkDisk [] []) (convert_pip_to_rez (T "Six") (T "1.16.0") None None) (T "/l") false = Written (T "/l/six/1.16.0") d' /\
  akeys (d_files d') = [T "/l/six/1.16.0/package.py"] /\ write_pip_package (mkRefusals (fun _ => false) (fun _ => false)) d' (convert_pip_to_rez (T "six") (T "1.16.0") None None) (T "/l") false = AlreadyThere.
Proof. eexists. split; [vm_compute; reflexivity|]. split; vm_compute; reflexivity. Qed.

(** ** C199 *)
Theorem C199_loads_partial : forall L w p v, reads_functions L -> good_name (i_name p) -> plain (i_version p) -> parse_version (i_version p) = Some v -> v_str v <> [] -> plain (i_description p) ->
  plain_all (i_requires p) -> ~ In [] (i_requires p) ->
  load_python L w (api_package_py p) =
  Ok (pip_pkg (i_name p) v (i_description p) (T "pip") (i_requires p) (command_line (T "{root}/lib/python{python.major}.{python.minor}/site-packages"))).
Proof. exact api_loads. Qed.
Print Assumptions C199_loads_partial.
(** a quote in the description goes into the file as it is, where the command replaces it *)
Theorem C199_quote_refuted : exists p, i_description p = [DQ] ++ T "x" ++ [DQ] /\ find_text (T "description = " ++ [DQ; DQ] ++ T "x" ++ [DQ; DQ]) (api_package_py p) <> None.
Proof. exists (convert_pip_to_rez (T "six") (T "1.16.0") None (Some ([DQ] ++ T "x" ++ [DQ]))). split; [reflexivity|vm_compute; discriminate]. Qed.
Print Assumptions C199_quote_refuted.
Example C199_example : exists p, load_python with_functions (mkWorld (fun _ => None) (T "linux") (T "posix")) (api_package_py (convert_pip_to_rez (T "NumPy") (T "1.26.4") (Some [T "six>=1.5"; T "attrs"]) None)) = Ok p /\
  Pkgfile_model.k_name p = T "numpy" /\ Pkgfile_model.k_requires p = [T "six-1.5+"; T "attrs"].
Proof. eexists. split; [vm_compute; reflexivity|]. split; vm_compute; reflexivity. Qed.
