(** Claims about making packages of programs on the system. *)
From Verif Require Import Base Base_lemmas Maps Sorting Version_model Rex_model Requirement_model Pyfile_model Pkgfile_model.
From Verif Require Import Files_model Files_spec Files_proofs Bind_model Bind_spec Bind_text Bind_files Bind_disk.
Open Scope string_scope. Open Scope list_scope.

(** ** C248: the version a program states *)
Theorem C248_version_partial : forall x ls l ms a b v r,
  (forall m, In m (ls ++ l :: ms) -> a_line m) -> (forall m, In m ls -> without x m) -> first_at x l a (b ++ v ++ r) -> no_digit b -> numbers v -> over r ->
  number_after (lines (ls ++ l :: ms)) x = Some v.
Proof. intros x ls l ms a b v r A W F B V O. exact (number_after_text x ls l ms a b v r A W F B (numbers_run v V) O). Qed.
Print Assumptions C248_version_partial.
(** a revision behind the version is taken with it, up to its first letter *)
Theorem C248_revision_refuted : forall b v n r, no_digit b -> numbers v -> digits n -> over r -> number_in (b ++ (v ++ "-"%char :: n) ++ r) = Some (v ++ "-"%char :: n).
Proof. intros b v n r B V D O. apply number_in_run; [exact B|apply run_dash; [apply numbers_run, V|apply digits_run, D]|exact O]. Qed.
Print Assumptions C248_revision_refuted.
(** gcc: the first number of the line, whatever comes later *)
Definition gcc_system : system :=
  mkSystem (fun c _ => if text_eqb c (T "gcc") then Some (mkPrinted true (lines [T "gcc (Ubuntu 11.4.0-1ubuntu1~22.04) 11.4.0"]) []) else None) None (T "x86_64") (T "0.1.0") None.
Theorem C248_gcc_refuted : exists w, s_run w (T "gcc") [T "--version"] = Some (mkPrinted true (lines [T "gcc (Ubuntu 11.4.0-1ubuntu1~22.04) 11.4.0"]) []) /\
  exists d, detect w (T "gcc") = Some d /\ d_version d = T "11.4.0-1".
Proof. exists gcc_system. split; [reflexivity|]. eexists. split; [vm_compute; reflexivity|reflexivity]. Qed.
Print Assumptions C248_gcc_refuted.
Example C248_example : number_after (lines ([T "warning: x"] ++ T "Ubuntu Clang Version 14.0.6 (tags)" :: [T "Target: x86_64"])) (T "clang version") = Some (T "14.0.6").
Proof. vm_compute. reflexivity. Qed.
Example C248_hypotheses : first_at (T "Python") (T "Python 3.9.7") [] (T " " ++ T "3.9.7" ++ []) /\ numbers (T "3.9.7") /\ without (T "Python") (T "error") /\ a_line (T "Python 3.9.7").
Proof.
  split. { exists (T "Python"). split; [reflexivity|]. split; [reflexivity|]. intros. cbn. lia. }
  split. { apply (numbers_more (T "3") (T "9.7")); [split; [discriminate|intros c [<-|[]]; reflexivity]|]. apply (numbers_more (T "9") (T "7")); [split; [discriminate|intros c [<-|[]]; reflexivity]|]. constructor. split; [discriminate|intros c [<-|[]]; reflexivity]. }
  split; [|split; [vm_compute; intuition discriminate|vm_compute; discriminate]].
  intros a b c E S. assert (L : length b = 6) by (apply (f_equal (@length ascii)) in S; rewrite !map_length in S; exact S). assert (K := f_equal (@length ascii) E). rewrite !app_length, L in K. cbn in K. lia.
Qed.

(** ** C249: the version the library finds *)
Theorem C249_version_partial : forall a v r, no_digit a -> fresh a -> dotted v -> closed r -> extract_version (a ++ v ++ r) = Some v.
Proof. intros a v r N F D C. unfold extract_version. rewrite (find_dotted a v r N F D C). reflexivity. Qed.
Print Assumptions C249_version_partial.
(** if dotted numbers stand on their own, one of them is found *)
Theorem C249_stands_partial : forall s, (exists a v r, stands a v r s) -> exists a v r, extract_version s = Some v /\ stands a v r s.
Proof. exact extract_stands. Qed.
Print Assumptions C249_stands_partial.
(** behind a letter, the first number is lost *)
Theorem C249_letter_refuted : forall a d v r, no_digit a -> ~ fresh a -> digits d -> dotted v -> closed r -> extract_version (a ++ d ++ "."%char :: v ++ r) = Some v.
Proof. intros a d v r N F D V C. unfold extract_version. rewrite (find_glued a d v r N F D V C). reflexivity. Qed.
Print Assumptions C249_letter_refuted.
Example C249_example : map extract_version [T "Python 3.11.4"; T "v18.17.0"; T "go version go1.21.0 linux/amd64"; T "git version 2.39.2.windows.1"; T "release 7"; T "1.2.3a"; T "none"] =
  [Some (T "3.11.4"); Some (T "17.0"); Some (T "21.0"); Some (T "2.39.2"); Some (T "7"); Some (T "1.2"); None].
Proof. vm_compute. reflexivity. Qed.

(** ** C250: what is bound is on the system *)
(** a name that is not known, or a program that is not there, is bound as 1.0.0 *)
Theorem C250_refuted : forall w root nd name x, name <> [] -> ~ In "-"%char name ->
  ~ In name (map T ["platform"; "arch"; "os"; "python"; "rez"; "setuptools"; "pip"; "cmake"; "git"; "gcc"; "clang"]) \/
  (In name (map T ["cmake"; "git"; "gcc"; "clang"]) /\ forall args, s_run w name args = None) ->
  a_dir root x -> free (at_version root name (T "1.0.0")) x ->
  exists x', bind_command w root nd name x = (Some (at_version root name (T "1.0.0")), x') /\ exists c, get (pkg_file (at_version root name (T "1.0.0"))) x' = Some (File c).
Proof.
  intros w root nd name x N D K R F. assert (Dt : detect w name = None).
  { destruct K as [K|[K A]].
    - unfold detect. assert (E : forall t, In t (map T ["platform"; "arch"; "os"; "python"; "rez"; "setuptools"; "pip"; "cmake"; "git"; "gcc"; "clang"]) -> text_eqb name t = false).
      { intros t I. destruct (text_eqb_spec name t) as [->|]; [contradiction|reflexivity]. }
      unfold mem_text. cbn [existsb]. rewrite !E by (cbn; tauto). reflexivity.
    - destruct K as [<-|[<-|[<-|[<-|[]]]]];
        [change (detect_prefixed w (T "cmake") = None)|change (detect_prefixed w (T "git") = None)|change (detect_gcc w = None)|change (detect_prefixed w (T "clang") = None)]; unfold detect_gcc, detect_prefixed, try_program; rewrite A; reflexivity. }
  assert (V : version_for w name = T "1.0.0") by (unfold version_for; rewrite Dt; reflexivity).
  rewrite (command_one w root nd name x D R). destruct (parse_version (T "1.0.0")) as [v|] eqn:P; [|discriminate P].
  destruct (bind_one_works w root nd name x v N) as (x' & B & G); [rewrite V; discriminate|rewrite V; exact P|rewrite V; exact F|]. rewrite V in B, G. exists x'. split; [exact B|eexists; exact G].
Qed.
Print Assumptions C250_refuted.
(** a program that states its version is bound with it, and its directory comes first on the PATH *)
Theorem C250_partial : forall w root nd name x p ls l ms a b v r d f e vv,
  In name [T "cmake"; T "git"; T "clang"] -> s_run w name [T "--version"] = Some p -> pr_ok p = true -> pr_out p = lines (ls ++ l :: ms) ->
  (forall m, In m (ls ++ l :: ms) -> a_line m) -> (forall m, In m ls -> without (name ++ T " version") m) -> first_at (name ++ T " version") l a (b ++ v ++ r) -> no_digit b -> numbers v -> over r ->
  s_run w (T "which") [name] = Some (mkPrinted true (lines [d ++ "/"%char :: f]) e) -> a_line (d ++ "/"%char :: f) -> trim (d ++ "/"%char :: f) = d ++ "/"%char :: f -> d <> [] -> ~ In "/"%char f -> plain1 d ->
  parse_version v = Some vv -> v_str vv <> [] -> a_dir root x -> free (at_version root name v) x ->
  exists x' c, bind_command w root nd name x = (Some (at_version root name v), x') /\ get (pkg_file (at_version root name v)) x' = Some (File c) /\
    loads_as c (a_package name vv (package_description name) [] (default_tools name) (Some (prepends d))).
Proof.
  intros w root nd name x p ls l ms a b v r d f e vv I R O E A W F B V C Wh Al Tr Nd Nf Pd P Vn Rd Fr.
  assert (D := prefixed_detect w name p ls l ms a b v r I R O E A W F B V C).
  assert (Q := which_line w name _ e Wh Al Tr ltac:(destruct d; discriminate)).
  assert (VF : version_for w name = v) by (unfold version_for; rewrite D; reflexivity).
  assert (PF : path_for w name = Some (d ++ "/"%char :: f)) by (unfold path_for; rewrite D; exact Q).
  assert (Nn : name <> []) by (destruct I as [<-|[<-|[<-|[]]]]; discriminate).
  assert (Nh : ~ In "-"%char name) by (destruct I as [<-|[<-|[<-|[]]]]; vm_compute; intuition discriminate).
  assert (Vne : v <> []) by (destruct (numbers_first v V) as (c & s & -> & _); discriminate).
  assert (Sd : slashes d = d).
  { unfold slashes. clear -Pd. induction d as [|c d IH]; [reflexivity|]. cbn [map]. rewrite IH by (intros k K; apply Pd; right; exact K). destruct (Ascii.eqb_spec c "\"%char) as [->|_]; [|reflexivity]. exfalso. apply (Pd "\"%char); [left; reflexivity|right; left; reflexivity]. }
  assert (CD : command_dir name (path_for w name) = Some d).
  { rewrite PF. unfold command_dir. rewrite (parent_of d f Nd Nf), Sd. destruct I as [<-|[<-|[<-|[]]]]; (destruct d; [contradiction|reflexivity]). }
  rewrite (command_one w root nd name x Nh Rd).
  destruct (bind_one_works w root nd name x vv Nn) as (x' & Bo & G); [rewrite VF; exact Vne|rewrite VF; exact P|rewrite VF; exact Fr|]. rewrite VF in Bo, G. exists x', (package_text w nd name). split; [exact Bo|]. split; [exact G|].
  assert (Dr : default_requirements name = []) by (destruct I as [<-|[<-|[<-|[]]]]; reflexivity).
  unfold package_text. rewrite VF, Dr. change (Some (prepends d)) with (option_map prepends (Some d)). rewrite <- CD. replace (if nd then [] else []) with (@nil text) by (destruct nd; reflexivity).
  apply generate_loads; [| |exact P|exact Vn| |intros k []|intros []| |].
  - split; [exact Nn|]. intros c K. left. assert (H : forallb is_alnum name = true) by (destruct I as [<-|[<-|[<-|[]]]]; reflexivity). rewrite forallb_forall in H. apply H, K.
  - intros c K J. destruct (numbers_char v V c K) as [Dc| ->]; [|cbn in J; intuition discriminate]. repeat (destruct J as [<-|J]; [discriminate Dc|]). destruct J.
  - destruct I as [<-|[<-|[<-|[]]]]; apply plain1b; reflexivity.
  - intros k K. assert (H : forallb (fun k => forallb (fun c => negb (mem_text [c] [["'"%char]; ["\"%char]; [NL]; ["013"%char]; ["000"%char]])) k) (default_tools name) = true) by (destruct I as [<-|[<-|[<-|[]]]]; reflexivity).
    rewrite forallb_forall in H. apply plain1b, H, K.
  - intros k K. rewrite CD in K. injection K as <-. exact Pd.
Qed.
Print Assumptions C250_partial.
(** python3 is asked first, and python only if that gives no version *)
Theorem C250_python_partial : forall w p ls l ms a b v r, s_run w (T "python3") [T "--version"] = Some p -> pr_ok p = true -> pr_out p ++ pr_err p = lines (ls ++ l :: ms) ->
  (forall m, In m (ls ++ l :: ms) -> a_line m) -> (forall m, In m ls -> without (T "Python") m) -> first_at (T "Python") l a (b ++ v ++ r) -> no_digit b -> numbers v -> over r -> version_for w (T "python") = v.
Proof.
  intros w p ls l ms a b v r R O E A W F B V C. unfold version_for. change (detect w (T "python")) with (detect_python w). unfold detect_python. cbn [first_of]. unfold try_program at 1.
  rewrite R, O, E, (number_after_text (T "Python") ls l ms a b v r A W F B (numbers_run v V) C). reflexivity.
Qed.
Print Assumptions C250_python_partial.
(** a path that is told is never empty *)
Theorem C250_path_partial : forall w name p, name <> T "rez" -> path_for w name = Some p -> p <> [] /\ trim p = p.
Proof.
  assert (K : forall w c p, which w c = Some p -> p <> [] /\ trim p = p).
  { intros w c p H. unfold which in H. destruct (s_run w (T "which") [c]) as [q|]; [|discriminate H]. destruct (pr_ok q); [|discriminate H]. cbv zeta in H. destruct (trim (first_line (pr_out q))) as [|k t] eqn:E; [discriminate H|].
    cbn [is_nil] in H. assert (p = k :: t) by congruence. subst p. split; [discriminate|]. rewrite <- E. apply trim_idem. }
  assert (J : forall w c args f d p, try_program w c args f = Some d -> d_path d = Some p -> p <> [] /\ trim p = p).
  { intros w c args f d p H D. unfold try_program in H. destruct (s_run w c args) as [q|]; [|discriminate H]. destruct (pr_ok q); [|discriminate H]. destruct (f q) as [v|]; [|discriminate H]. injection H as <-. cbn [d_path] in D. exact (K _ _ _ D). }
  intros w name p N H. unfold path_for in H. destruct (detect w name) as [d|] eqn:D; [|discriminate H]. unfold detect in D.
  repeat match type of D with context [if ?b then _ else _] => destruct b eqn:?; [try (injection D as <-; cbn [d_path] in H; discriminate H)|] end; try discriminate D.
  all: try (unfold detect_python, detect_pip in D; cbn [first_of] in D; match type of D with context [match try_program ?w ?c ?a ?f with _ => _ end] => destruct (try_program w c a f) eqn:E1 end; [injection D as <-; exact (J _ _ _ _ _ _ E1 H)|];
            match type of D with context [match try_program ?w ?c ?a ?f with _ => _ end] => destruct (try_program w c a f) eqn:E2 end; [injection D as <-; exact (J _ _ _ _ _ _ E2 H)|discriminate D]).
  all: try exact (J _ _ _ _ _ _ D H).
  exfalso. apply N. apply text_eqb_eq. assumption.
Qed.
Print Assumptions C250_path_partial.
Example C250_example :
  let w := mkSystem (fun c args => if text_eqb c (T "cmake") then Some (mkPrinted true (lines [T "cmake version 3.22.1"]) []) else if text_eqb c (T "which") then Some (mkPrinted true (lines [T "/usr/bin/cmake"]) []) else None)
                    None (T "x86_64") (T "0.1.0") None in
  fst (bind_command w [T "p"] true (T "cmake") (Dir [(T "p", Dir [])])) = Some [T "p"; T "cmake"; T "3.22.1"] /\
  fst (bind_command w [T "p"] true (T "nothing_like_it") (Dir [(T "p", Dir [])])) = Some [T "p"; T "nothing_like_it"; T "1.0.0"].
Proof. vm_compute. split; reflexivity. Qed.

(** ** C251: the version that is asked for *)
(** the command reads a version in what is asked for, and does not use it *)
Theorem C251_refuted : forall w root nd n v x, ~ In "-"%char n -> ~ In "-"%char v -> (match v with c :: _ => is_digit c = true | [] => False end) ->
  bind_command w root nd (n ++ "-"%char :: v) x = bind_command w root nd n x.
Proof. intros w root nd n v x N V D. unfold bind_command. rewrite (spec_version n v V D), (spec_plain n N). reflexivity. Qed.
Print Assumptions C251_refuted.
(** the library uses it *)
Theorem C251_library_partial : forall w root name o x b x' v, bind_tool w root name o x = (inl b, x') -> o_version o = Some v -> v <> [] -> name <> [] ->
  b_version b = v /\ b_dir b = at_version root name v.
Proof.
  intros w root name o x b x' v H V Nv Nn. destruct (bind_tool_good _ _ _ _ _ _ _ H) as (_ & D & _ & E & _). specialize (E v V). split; [exact E|]. rewrite D, E. apply dir_of; assumption.
Qed.
Print Assumptions C251_library_partial.
Example C251_example :
  let w := mkSystem (fun c _ => if text_eqb c (T "python3") then Some (mkPrinted true (T "Python 3.11.4") []) else None) None (T "x86_64") (T "0.1.0") None in
  fst (bind_command w [T "p"] true (T "python-2.7") (Dir [])) = Some [T "p"; T "python"; T "3.11.4"] /\
  fst (bind_tool w [T "p"] (T "python3") (mkOptions (Some (T "2.7")) false [] true) (Dir [])) = inl (mkBound (T "python3") (T "2.7") [T "p"; T "python3"; T "2.7"] None).
Proof. vm_compute. split; reflexivity. Qed.

(** ** C252: what is written can be read *)
Theorem C252_command_partial : forall w nd name v, good_name name -> plain1 (version_for w name) -> parse_version (version_for w name) = Some v -> v_str v <> [] -> (forall p, path_for w name = Some p -> plain1 (slashes p)) ->
  exists command, loads_as (package_text w nd name) (a_package name v (package_description name) (if nd then [] else default_requirements name) (default_tools name) command).
Proof.
  intros w nd name v N PV V Vn PE. exists (option_map prepends (command_dir name (path_for w name))). unfold package_text. apply generate_loads; [exact N|exact PV|exact V|exact Vn| | | | |].
  - unfold package_description. destruct (aget name descriptions) as [d|] eqn:E; [|apply plain1_app; [apply plain1b; reflexivity|apply good_plain, N]].
    apply aget_in in E. repeat (destruct E as [E|E]; [injection E as _ <-; apply plain1b; reflexivity|]). destruct E.
  - intros r R. destruct nd; [destruct R|]. unfold default_requirements in R. destruct (aget name _) as [l|] eqn:E; [|destruct R]. apply aget_in in E.
    repeat (destruct E as [E|E]; [injection E as _ <-; repeat (destruct R as [<-|R]; [apply plain1b; reflexivity|]); destruct R|]). destruct E.
  - intros R. destruct nd; [destruct R|]. unfold default_requirements in R. destruct (aget name _) as [l|] eqn:E; [|destruct R]. apply aget_in in E.
    repeat (destruct E as [E|E]; [injection E as _ <-; repeat (destruct R as [R|R]; [discriminate R|]); destruct R|]). destruct E.
  - intros r R. unfold default_tools in R. destruct (aget name _) as [l|] eqn:E; [|destruct R]. apply aget_in in E.
    repeat (destruct E as [E|E]; [injection E as _ <-; repeat (destruct R as [<-|R]; [apply plain1b; reflexivity|]); destruct R|]). destruct E.
  - intros d D. unfold command_dir in D. destruct (mem_text name _); [|discriminate D]. assert (B : plain1 (T "{root}/bin")) by (apply plain1b; reflexivity).
    destruct (path_for w name) as [p|]; [|destruct (text_eqb name (T "python")); [injection D as <-; exact B|discriminate D]].
    destruct (is_nil (parent_dir p)); [destruct (text_eqb name (T "python")); [injection D as <-; exact B|discriminate D]|]. injection D as <-. apply parent_plain, PE, eq_refl.
Qed.
Print Assumptions C252_command_partial.
Theorem C252_library_partial : forall name version exe v, good_name name -> plain1 version -> parse_version version = Some v -> v_str v <> [] -> (forall p, exe = Some p -> plain1 (slashes p)) ->
  exists command, loads_as (lib_text name version exe []) (a_package name v (T "System-installed " ++ name ++ T " bound by rez-next bind") [] [name] command).
Proof. intros name version exe v N PV V Vn PE. eexists. apply lib_loads; assumption. Qed.
Print Assumptions C252_library_partial.
(** names of programs need not be names of packages: what is written for them is not loaded *)
Theorem C252_name_refuted : forall name version exe v, ~ good_name name -> plain1 name -> plain1 version -> parse_version version = Some v -> (forall p, exe = Some p -> plain1 (slashes p)) ->
  exists l, py (lib_text name version exe []) l /\ forall W, load W l = Err.
Proof. exact lib_bad. Qed.
Print Assumptions C252_name_refuted.
(** metadata is not escaped: one value with a quote is the same as two fields *)
Theorem C252_metadata_refuted : forall name version exe k1 v1 k2 v2, lib_text name version exe [(k1, v1 ++ T "'" ++ [NL] ++ k2 ++ T " = '" ++ v2)] = lib_text name version exe [(k1, v1); (k2, v2)].
Proof.
  intros. unfold lib_text. do 6 f_equal. f_equal. cbn [flat_map fst snd]. unfold ln, sq. rewrite !app_nil_r. repeat (rewrite <- !app_assoc; cbn [app]). reflexivity.
Qed.
Print Assumptions C252_metadata_refuted.
Example C252_example : lib_text (T "git") (T "2.39.2") (Some (T "/usr/bin/git")) [] = lines (map T
  ["# Auto-generated by rez-next bind"; "# Bound executable: /usr/bin/git"; "name = 'git'"; "version = '2.39.2'"; "description = 'System-installed git bound by rez-next bind'"; "tools = ['git']"; "";
   "def commands():"; "    env.prepend_path('PATH', r'/usr/bin')"; ""]) /\ ~ good_name (T "clang++").
Proof. split; [vm_compute; reflexivity|]. intros [_ H]. destruct (H "+"%char) as [X|[X|X]]; [vm_compute; tauto|discriminate X|discriminate X|discriminate X]. Qed.

(** ** C253: the packages a bound package requires *)
(** only the family of the package itself changes *)
Theorem C253_frame : forall w root nd name x o x' q, name <> [] -> bind_one w root nd name x = (o, x') -> apart (root ++ [name]) q -> get q x' = get q x.
Proof. intros w root nd name x o x' q N H A. apply (bind_one_frame w root nd name x o x' q H). unfold add_part. destruct name; [contradiction|exact A]. Qed.
Print Assumptions C253_frame.
(** pip requires python, which is not bound with it *)
Theorem C253_refuted : forall w root x o x' v, a_dir root x -> bind_command w root false (T "pip") x = (o, x') -> get (root ++ [T "python"]) x = None ->
  parse_version (version_for w (T "pip")) = Some v -> v_str v <> [] -> plain1 (version_for w (T "pip")) -> (forall p, path_for w (T "pip") = Some p -> plain1 (slashes p)) ->
  get (root ++ [T "python"]) x' = None /\ exists p, loads_as (package_text w false (T "pip")) p /\ k_requires p = [T "python"].
Proof.
  intros w root x o x' v R H N V Vn PV PE. rewrite (command_one w root false (T "pip") x) in H by (exact R || (vm_compute; intuition discriminate)). split.
  - rewrite <- N. apply (C253_frame w root false (T "pip") x o x'); [discriminate|exact H|]. assert (K := apart_sibling root (T "pip") (T "python") [] []). rewrite !app_nil_r in K. apply K. discriminate.
  - destruct (C252_command_partial w false (T "pip") v) as (command & L); [|exact PV|exact V|exact Vn|exact PE|].
    + split; [discriminate|]. intros c C. left. repeat (destruct C as [<-|C]; [reflexivity|]). destruct C.
    + eexists. split; [exact L|]. reflexivity.
Qed.
Print Assumptions C253_refuted.
(** what is bound by the quick start requires nothing *)
Theorem C253_quickstart_refuted : forall w name v, good_name name -> plain1 (version_for w name) -> parse_version (version_for w name) = Some v -> v_str v <> [] -> (forall p, path_for w name = Some p -> plain1 (slashes p)) ->
  exists p, loads_as (package_text w true name) p /\ k_requires p = [].
Proof. intros w name v N PV V Vn PE. destruct (C252_command_partial w true name v N PV V Vn PE) as (c & L). eexists. split; [exact L|reflexivity]. Qed.
Theorem C253_quickstart_written : forall w root x l x' n p, quickstart w root x = (Some l, x') -> In (n, p) l ->
  In n (map T ["platform"; "arch"; "os"; "python"; "rez"; "setuptools"; "pip"]) /\ get (pkg_file p) x' = Some (File (package_text w true n)).
Proof.
  assert (K : forall w root names x l x' n p, NoDup names -> ~ In [] names -> bind_each w root names x = (l, x') -> In (n, p) l -> In n names /\ get (pkg_file p) x' = Some (File (package_text w true n))).
  { intros w root. induction names as [|m names IH]; intros x l x' n p ND NE H I; [injection H as <- _; destruct I|]. cbn [bind_each] in H. destruct (bind_one w root true m x) as [o x1] eqn:B. destruct (bind_each w root names x1) as [l2 x2] eqn:R. injection H as <- <-.
    inversion ND as [|? ? Nm ND']; subst. assert (NE' : ~ In [] names) by (intros Z; apply NE; right; exact Z).
    assert (C : In (n, p) l2 \/ o = Some p /\ n = m) by (destruct o as [p1|]; [destruct I as [I|I]; [right; split; congruence|left; exact I]|left; exact I]). destruct C as [C|[-> ->]].
    - destruct (IH _ _ _ n p ND' NE' R C) as [J G]. split; [right; exact J|exact G].
    - split; [left; reflexivity|]. unfold bind_one in B. destruct (parse_version (version_for w m)); [|discriminate B]. destruct (write_package _ _ x) as [ok y] eqn:W. destruct ok; [|discriminate B].
      assert (p = package_dir root m (version_for w m)) by congruence. assert (y = x1) by congruence. subst p y. rewrite <- (write_done _ _ _ _ W). apply (bind_each_frame _ _ _ _ _ _ _ R).
      intros k Kk. assert (m <> []) by (intros ->; apply NE; left; reflexivity). assert (k <> []) by (intros ->; exact (NE' Kk)). assert (k <> m) by (intros ->; exact (Nm Kk)).
      unfold package_dir, pkg_file, add_part. destruct k as [|k0 k]; [contradiction|]. destruct m as [|m0 m]; [contradiction|]. cbn [is_nil].
      destruct (is_nil (version_for w (m0 :: m))).
      + assert (Z := apart_sibling root (k0 :: k) (m0 :: m) [] [T "package.py"]). rewrite app_nil_r in Z. apply Z. assumption.
      + assert (Z := apart_sibling root (k0 :: k) (m0 :: m) [] ([version_for w (m0 :: m)] ++ [T "package.py"])). rewrite app_nil_r, app_assoc in Z. apply Z. assumption. }
  intros w root x l x' n p H I. unfold quickstart in H. destruct (make_dirs root x) as [x1|]; [|discriminate H]. destruct (bind_each w root quick_names x1) as [l1 x2] eqn:B. injection H as -> ->.
  assert (ND : NoDup quick_names) by (repeat constructor; cbn; intuition discriminate). assert (NE : ~ In [] quick_names) by (cbn; intuition discriminate).
  exact (K _ _ _ _ _ _ _ _ ND NE B I).
Qed.
Print Assumptions C253_quickstart_written.
Print Assumptions C253_quickstart_refuted.
Example C253_example :
  let w := mkSystem (fun c _ => if text_eqb c (T "pip3") then Some (mkPrinted true (T "pip 22.0.2 from /usr/lib") []) else None) None (T "x86_64") (T "0.1.0") None in
  exists x', bind_command w [T "p"] false (T "pip") (Dir [(T "p", Dir [])]) = (Some [T "p"; T "pip"; T "22.0.2"], x') /\ get [T "p"; T "python"] x' = None /\
    fst (quickstart w [T "p"] (Dir [])) = Some (map (fun n => (fst n, [T "p"; fst n; snd n])) [(T "platform", T "1.0.0"); (T "arch", T "1.0.0"); (T "os", T "unknown"); (T "python", T "1.0.0"); (T "rez", T "0.1.0"); (T "setuptools", T "1.0.0"); (T "pip", T "22.0.2")]).
Proof. eexists. split; [vm_compute; reflexivity|]. split; vm_compute; reflexivity. Qed.

(** ** C254: packages that are there *)
(** the library keeps what is there, unless it is told otherwise *)
Theorem C254_library_partial : forall w root name v e s x, get (package_dir root name v) x <> None -> bind_tool w root name (mkOptions (Some v) false e s) x = (inr (AlreadyExists (package_dir root name v)), x).
Proof.
  intros w root name v e s x H. unfold bind_tool. cbn [o_version o_force]. unfold exists_at. destruct (get (package_dir root name v) x); [reflexivity|contradiction].
Qed.
Print Assumptions C254_library_partial.
(** told otherwise, only package.py is replaced *)
Theorem C254_force_partial : forall w root name v e s x r x' q, a_dir (package_dir root name v) x -> bind_tool w root name (mkOptions (Some v) true e s) x = (r, x') -> apart (pkg_file (package_dir root name v)) q -> get q x' = get q x.
Proof.
  intros w root name v e s x r x' q D H A. unfold bind_tool in H. cbn [o_version o_force o_extra] in H. rewrite andb_false_r in H. destruct (write_package _ _ x) as [ok x1] eqn:W. injection H as _ <-. exact (write_beside _ _ _ _ _ _ W D A).
Qed.
Print Assumptions C254_force_partial.
(** the command replaces the file of a package that is there *)
Theorem C254_refuted : forall w root nd name x c v, name <> [] -> ~ In "-"%char name -> version_for w name <> [] -> parse_version (version_for w name) = Some v -> a_dir root x -> way (at_version root name (version_for w name)) x ->
  get (pkg_file (at_version root name (version_for w name))) x = Some (File c) ->
  exists x', bind_command w root nd name x = (Some (at_version root name (version_for w name)), x') /\ get (pkg_file (at_version root name (version_for w name))) x' = Some (File (package_text w nd name)).
Proof.
  intros w root nd name x c v N D V P R W F. rewrite (command_one w root nd name x D R). apply (bind_one_works w root nd name x v N V P). split; [exact W|]. intros (es & E). unfold pkg_file in F. congruence.
Qed.
Print Assumptions C254_refuted.
Example C254_example :
  let w := mkSystem (fun _ _ => None) None (T "x86_64") (T "0.1.0") None in
  let x := Dir [(T "p", Dir [(T "maya", Dir [(T "1.0.0", Dir [(T "package.py", File (T "by hand")); (T "bin", Dir [])])])])] in
  exists x', bind_command w [T "p"] true (T "maya") x = (Some [T "p"; T "maya"; T "1.0.0"], x') /\ get [T "p"; T "maya"; T "1.0.0"; T "package.py"] x' <> Some (File (T "by hand")) /\
    get [T "p"; T "maya"; T "1.0.0"; T "bin"] x' = Some (Dir []) /\ fst (bind_tool w [T "p"] (T "maya") (mkOptions (Some (T "1.0.0")) false [] true) x) = inr (AlreadyExists [T "p"; T "maya"; T "1.0.0"]).
Proof. eexists. split; [vm_compute; reflexivity|]. split; [vm_compute; discriminate|]. split; vm_compute; reflexivity. Qed.

(** ** C255: the built-in binders *)
(** the package is named after the program, not after the binder *)
Theorem C255_rust_refuted : forall w root o x b x', bind_builtin w root (T "rust") o x = Some (inl b, x') -> b_name b = T "rustc".
Proof. intros w root o x b x' H. change (Some (bind_programs w root (T "rust") [T "rustc"] o x) = Some (inl b, x')) in H. assert (K : bind_programs w root (T "rust") [T "rustc"] o x = (inl b, x')) by congruence. clear H. rename K into H. apply programs_name in H. destruct H as [H|[]]. symmetry. exact H. Qed.
Print Assumptions C255_rust_refuted.
Theorem C255_name_partial : forall w root name o x b x', bind_builtin w root name o x = Some (inl b, x') -> exists exes, In (name, exes) builtins /\ In (b_name b) exes.
Proof. intros w root name o x b x' H. unfold bind_builtin in H. destruct (aget name builtins) as [exes|] eqn:E; [|discriminate H]. injection H as H. exists exes. split; [apply aget_in, E|apply (programs_name _ _ _ _ _ _ _ _ H)]. Qed.
Print Assumptions C255_name_partial.
(** without a version the program is always searched *)
Theorem C255_search_partial : forall w root name f e s s' x, bind_builtin w root name (mkOptions None f e s) x = bind_builtin w root name (mkOptions None f e s') x.
Proof.
  intros w root name f e s s' x. unfold bind_builtin. destruct (aget name builtins) as [exes|]; [|reflexivity]. f_equal. revert x. induction exes as [|c r IH]; intros x; [reflexivity|]. cbn [bind_programs o_version o_force o_extra].
  destruct (bind_tool _ _ _ _ x) as [[b|[]] x1]; try reflexivity; apply IH.
Qed.
Print Assumptions C255_search_partial.
(** with a version given, a program that is not there is bound all the same *)
Theorem C255_missing_refuted : forall w root name v e x, name <> [] -> v <> [] -> (forall c args, s_run w c args = None) -> get (at_version root name v) x = None -> free (at_version root name v) x ->
  exists x', bind_tool w root name (mkOptions (Some v) false e true) x = (inl (mkBound name v (at_version root name v) None), x').
Proof.
  intros w root name v e x N V A G F. unfold bind_tool. cbn [o_version o_search o_force o_extra]. assert (Wn : which w name = None) by (unfold which; rewrite A; reflexivity). rewrite Wn, (dir_of root name v N V).
  unfold exists_at. rewrite G. cbn [andb]. destruct (write_works _ (lib_text name v None e) x F) as (x' & ->). exists x'. reflexivity.
Qed.
Print Assumptions C255_missing_refuted.
(** the error for programs that are not found is never given by a binding *)
Theorem C255_error : forall w root name o x r x' n, bind_tool w root name o x = (r, x') -> r <> inr (ToolNotFound n).
Proof.
  intros w root name o x r x' n H ->. unfold bind_tool in H.
  destruct (match o_version o with Some v => Some v | None => _ end) as [v|]; [|discriminate H].
  destruct (exists_at (package_dir root name v) x && negb (o_force o)); [discriminate H|]. destruct (write_package _ _ x) as [ok x1]. destruct ok; discriminate H.
Qed.
Print Assumptions C255_error.
Example C255_example :
  let w := mkSystem (fun c _ => if text_eqb c (T "rustc") then Some (mkPrinted true (T "rustc 1.70.0") []) else None) None (T "x86_64") (T "0.1.0") None in
  exists x', bind_builtin w [T "p"] (T "rust") (mkOptions None false [] true) (Dir []) = Some (inl (mkBound (T "rustc") (T "1.70.0") [T "p"; T "rustc"; T "1.70.0"] None), x') /\
  bind_builtin w [T "p"] (T "go") (mkOptions None false [] true) (Dir []) = Some (inr (ToolNotFound (T "go")), Dir []).
Proof. eexists. split; vm_compute; reflexivity. Qed.

(** ** C256: the list of bound packages *)
Theorem C256_exact : forall root x f vs, a_dir root x -> tidy x -> In (f, vs) (list_bound root x) ->
  vs <> [] /\ forall v, In v vs <-> a_dir (at_version root f v) x /\ get (pkg_file (at_version root f v)) x <> None.
Proof.
  intros root x f vs (es & E) Tx H. destruct (proj1 (listed_in root x es f vs E Tx) H) as (gs & G & B & ->). split; [intros K; apply B; destruct (bound_versions gs) as [|v0 l0] eqn:Q; [reflexivity|]; exfalso; assert (I : In v0 (sort_by text_cmp (v0 :: l0))) by (apply sort_in; left; reflexivity); rewrite K in I; destruct I|]. intros v. rewrite sort_in, (there_iff root f v x es E).
  assert (Te := get_tidy root x _ Tx E). apply tidy_dir in Te. destruct Te as [_ Te]. rewrite Forall_forall in Te. assert (Tg := Te (f, Dir gs) (aget_in _ _ _ G)). apply tidy_dir in Tg. destruct Tg as [Ng _].
  rewrite (versions_in gs v Ng). split; [intros (fs & A & C); exists gs, fs; auto|]. intros (gs' & fs & A & C & D). rewrite G in A. injection A as <-. exists fs. auto.
Qed.
Print Assumptions C256_exact.
Theorem C256_all : forall root x f v, a_dir root x -> tidy x -> a_dir (at_version root f v) x -> get (pkg_file (at_version root f v)) x <> None -> exists vs, In (f, vs) (list_bound root x) /\ In v vs.
Proof.
  intros root x f v (es & E) Tx D P. destruct (proj1 (there_iff root f v x es E) (conj D P)) as (gs & fs & A & B & C). exists (sort_by text_cmp (bound_versions gs)).
  assert (Te := get_tidy root x _ Tx E). apply tidy_dir in Te. destruct Te as [_ Te]. rewrite Forall_forall in Te. assert (Tg := Te (f, Dir gs) (aget_in _ _ _ A)). apply tidy_dir in Tg. destruct Tg as [Ng _].
  assert (I : In v (bound_versions gs)) by (apply (versions_in gs v Ng); exists fs; auto).
  split; [apply (listed_in root x es _ _ E Tx); exists gs; split; [exact A|]; split; [intros H; rewrite H in I; destruct I|reflexivity]|apply sort_in, I].
Qed.
Print Assumptions C256_all.
(** families and the versions of each come in the order of their texts *)
Theorem C256_sorted : forall root x, sorted_by (fun a b => text_cmp (fst a) (fst b)) (list_bound root x) /\ forall f vs, In (f, vs) (list_bound root x) -> sorted_by text_cmp vs.
Proof.
  intros root x. unfold list_bound. destruct (get root x) as [[| | |es]|]; try (split; [intros l1 ? ? ? ? E; destruct l1; discriminate E|intros f vs []]). split.
  - apply (sort_sorted _ (fun _ => True)); [exact (TPO_map fst (fun _ => True) text_cmp TPO_text)|]. apply Forall_forall. intros; exact I.
  - intros f vs H. apply sort_in, in_flat_map in H. destruct H as ([k z] & _ & H). unfold family_of in H. cbn [fst snd] in H. destruct z as [| | |gs]; try (destruct H; fail). destruct (is_nil (bound_versions gs)); [destruct H|]. destruct H as [H|[]]. injection H as <- <-.
    apply (sort_sorted text_cmp (fun _ => True) TPO_text). apply Forall_forall. intros; exact I.
Qed.
Print Assumptions C256_sorted.
(** what was bound is at its place *)
Theorem C256_bound : forall w root name o x b x', bind_tool w root name o x = (inl b, x') -> name <> [] -> b_version b <> [] -> a_dir (at_version root name (b_version b)) x' /\ get (pkg_file (at_version root name (b_version b))) x' <> None.
Proof.
  intros w root name o x b x' H N V. destruct (bind_tool_good _ _ _ _ _ _ _ H) as (_ & D & _ & _ & G & _). rewrite (dir_of root name _ N V) in D. rewrite D in G. split; [|congruence].
  unfold pkg_file in G. rewrite get_app in G. destruct (get (at_version root name (b_version b)) x') as [y|] eqn:E; [|discriminate G]. destruct y as [| | |es]; try discriminate G. exists es. exact E.
Qed.
Print Assumptions C256_bound.
(** the last version of the list need not be the latest *)
Theorem C256_order_refuted : exists x, a_dir [] x /\ tidy x /\ list_bound [] x = [(T "git", [T "2.10.0"; T "2.9.0"])] /\ exists a b, parse_version (T "2.10.0") = Some a /\ parse_version (T "2.9.0") = Some b /\ vcmp a b = Gt.
Proof.
  exists (Dir [(T "git", Dir [(T "2.9.0", Dir [(T "package.py", File [])]); (T "2.10.0", Dir [(T "package.py", File [])])])]). split; [eexists; reflexivity|]. split; [|split; [vm_compute; reflexivity|]].
  - cbn. repeat (split || constructor); cbn; intuition discriminate.
  - eexists. eexists. split; [vm_compute; reflexivity|]. split; [vm_compute; reflexivity|]. vm_compute. reflexivity.
Qed.
Print Assumptions C256_order_refuted.
Example C256_example : list_bound [] (Dir [(T "b", Dir [(T "1.0", Dir [(T "package.py", File [])]); (T "0.9", Dir [])]); (T "a", Dir [(T "2", Dir [(T "package.py", File [])])]); (T "c", File [])]) = [(T "a", [T "2"]); (T "b", [T "1.0"])].
Proof. vm_compute. reflexivity. Qed.

(** ** C257: the packages of the platform and the architecture *)
(** what is bound for the architecture does not say which one it is *)
Theorem C257_refuted : forall w w' root nd x name, In name [T "platform"; T "arch"] -> bind_one w root nd name x = bind_one w' root nd name x.
Proof. intros w w' root nd x name [<-|[<-|[]]]; reflexivity. Qed.
Print Assumptions C257_refuted.
(** although it is detected *)
Theorem C257_partial : forall w, exists d, detect w (T "arch") = Some d /\ d_metadata d = [(T "arch", s_arch w)].
Proof. intros w. eexists. split; reflexivity. Qed.
Print Assumptions C257_partial.
Example C257_example : package_text (mkSystem (fun _ _ => None) None (T "aarch64") (T "0.1.0") None) true (T "arch") = lines (map T ["name = 'arch'"; "version = '1.0.0'"; ""; "description = 'System architecture package'"; ""]).
Proof. vm_compute. reflexivity. Qed.

(** ** C258: the version of the operating system *)
Theorem C258_partial : forall ls ms v (q : bool), (forall m, In m ls -> a_line m /\ starts_with (T "VERSION_ID=") m = false) -> (forall m, In m ms -> a_line m) -> bare v ->
  let l := T "VERSION_ID=" ++ (if q then "034"%char :: v ++ ["034"%char] else v) in a_line l -> os_version (Some (lines (ls ++ l :: ms))) = v.
Proof. intros ls ms v q A B (F & L & S). exact (os_version_line ls ms v q A B F L S). Qed.
Print Assumptions C258_partial.
(** other quotes stay, and the version cannot be read *)
Theorem C258_quotes_refuted : exists c, c = lines [T "ID=x"; T "VERSION_ID='12'"] /\ os_version (Some c) = T "'12'" /\ forall w root nd x, s_release w = Some c -> bind_one w root nd (T "os") x = (None, x).
Proof.
  eexists. split; [reflexivity|]. split; [vm_compute; reflexivity|]. intros w root nd x E. unfold bind_one. assert (V : version_for w (T "os") = T "'12'") by (change (version_for w (T "os")) with (os_version (s_release w)); rewrite E; vm_compute; reflexivity). rewrite V. reflexivity.
Qed.
Print Assumptions C258_quotes_refuted.
(** a system without one gets a package all the same *)
Theorem C258_unknown_refuted : forall c, (forall m, In m (Bundle_model.file_lines c) -> starts_with (T "VERSION_ID=") m = false) -> os_version (Some c) = T "unknown" /\ os_version None = T "unknown".
Proof.
  intros c H. split; [|reflexivity]. unfold os_version. destruct (filter _ (Bundle_model.file_lines c)) as [|l r] eqn:E; [reflexivity|]. exfalso. assert (I : In l (l :: r)) by (left; reflexivity). rewrite <- E in I. apply filter_In in I. destruct I as [I J]. rewrite (H l I) in J. discriminate J.
Qed.
Print Assumptions C258_unknown_refuted.
Example C258_example : os_version (Some (lines [T "NAME=Debian"; T "VERSION_ID=" ++ ["034"%char] ++ T "12" ++ ["034"%char]])) = T "12" /\ os_version (Some (T "VERSION_ID=3.18")) = T "3.18".
Proof. vm_compute. split; reflexivity. Qed.

(** ** C259: how a program is asked for its version *)
(** what is printed for the first argument counts, even if it is a complaint *)
Theorem C259_refuted : forall w exe p, s_run w exe [T "--version"] = Some p -> trim (pr_out p ++ pr_err p) <> [] -> tool_output w exe = trim (pr_out p ++ pr_err p).
Proof. intros w exe p R N. unfold tool_output, version_flags. cbn [first_of]. rewrite R. destruct (trim (pr_out p ++ pr_err p)); [contradiction|reflexivity]. Qed.
Print Assumptions C259_refuted.
Definition go_system : system :=
  mkSystem (fun c args => if text_eqb c (T "go") then (if mem_text (T "version") args then Some (mkPrinted true (T "go version 1.21.0") []) else Some (mkPrinted false [] (T "flag provided but not defined"))) else None)
    None (T "x86_64") (T "0.1.0") None.
Theorem C259_complaint_refuted : exists w, (exists p, s_run w (T "go") [T "version"] = Some p /\ pr_ok p = true /\ extract_version (pr_out p) = Some (T "1.21.0")) /\
  forall root x, bind_tool w root (T "go") (mkOptions None false [] true) x = (inr (VersionNotFound (T "go")), x).
Proof. exists go_system. split; [eexists; split; [reflexivity|split; [reflexivity|vm_compute; reflexivity]]|]. intros root x. reflexivity. Qed.
Print Assumptions C259_complaint_refuted.
(** a program that prints nothing for the first ones is asked on *)
Theorem C259_partial : forall w exe fs f gs p, version_flags = fs ++ f :: gs -> (forall g, In g fs -> match s_run w exe [g] with Some q => trim (pr_out q ++ pr_err q) = [] | None => True end) ->
  s_run w exe [f] = Some p -> trim (pr_out p ++ pr_err p) <> [] -> tool_output w exe = trim (pr_out p ++ pr_err p).
Proof.
  intros w exe fs f gs p E Q R N. unfold tool_output. rewrite E. clear E. induction fs as [|g fs IH].
  - cbn [app first_of]. rewrite R. destruct (trim (pr_out p ++ pr_err p)); [contradiction|reflexivity].
  - cbn [app first_of]. assert (K := Q g (or_introl eq_refl)). destruct (s_run w exe [g]) as [q|]; [rewrite K; cbn [is_nil]|]; apply IH; intros h H; apply Q; right; exact H.
Qed.
Print Assumptions C259_partial.
Example C259_example : tool_output (mkSystem (fun c args => if mem_text (T "-V") args then Some (mkPrinted false (T "x 1.2") []) else Some (mkPrinted true (T " ") [])) None [] [] None) (T "x") = T "x 1.2".
Proof. vm_compute. reflexivity. Qed.

(** ** C260: searching for what can be bound *)
Theorem C260_search : forall name order, Permutation order (map T ["platform"; "arch"; "os"; "python"; "rez"; "setuptools"; "pip"; "cmake"; "git"; "gcc"; "clang"]) ->
  match search name order with
  | inl n => n = name /\ In name order
  | inr l => ~ In name order /\ sorted_by text_cmp l /\ forall k, In k l <-> In k order /\ ((exists a b, k = a ++ name ++ b) \/ (exists a b, name = a ++ k ++ b))
  end.
Proof.
  intros name order _. unfold search. destruct (mem_text name order) eqn:M.
  - split; [reflexivity|]. apply mem_text_In, M.
  - split; [intros H; apply mem_text_In in H; congruence|]. split; [apply (sort_sorted text_cmp (fun _ => True) TPO_text), Forall_forall; intros; exact I|].
    intros k. rewrite sort_in, filter_In, orb_true_iff, !contains_text_spec. tauto.
Qed.
Print Assumptions C260_search.
Example C260_example : search (T "pyth") module_names = inr [T "python"] /\ search (T "git") module_names = inl (T "git") /\ search (T "clang++") module_names = inr [T "clang"] /\ search (T "maya") module_names = inr [].
Proof. vm_compute. repeat split. Qed.
