(** C172-C184: releasing packages. *)
From Verif Require Import Base Base_lemmas Maps Range_model Text_lemmas Query_model Release_model Release_spec Release_proofs Release_whole Release_cli.
Open Scope string_scope.
Open Scope list_scope.

(** worlds for the examples: a package foo-1.0 in /src, released to /rel, with a repository that answers as given *)
Definition ex_vcs (status : string) : vcs := mkVcs (Some (T status)) None (Some (T "meta")) true true (fun _ => T "  3:abc") (Some (T "log")).
Definition ex_package (vs : list (list text)) : rpkg := mkRpkg (T "foo") (Some (T "1.0")) vs.
Definition ex_refuse : refusals := mkRefusals (fun _ => false) (fun _ => false).
Definition ex_around (status : string) (vs : list (list text)) (py : option (list text)) (f : refusals) : around :=
  mkAround (T "~/packages") (T "/rel") (Some (T "/home/u")) None (fun _ => ex_vcs status) (fun _ c => if text_eqb c (T "def") then Some (ex_package vs) else None)
    py (fun c => if text_eqb c (T "true") then Some true else if text_eqb c (T "false") then Some false else None) (fun v => match v with [] => T "e3b0c442" | t :: _ => T "h" ++ t end) (fun _ => T "{}") f.
Definition ex_disk (mark : string) : disk := mkDisk [(T "/src/package.py", T "def"); (T "/rel/bar/2.0/package.py", T "bar")] [T "/src"; T "/src/" ++ T mark; T "/rel"].
Definition ex_m : manager := mkManager Release false false false.
Lemma ex_hash status vs py f : forall v, starts_with (T "/") (o_hash (ex_around status vs py f) v) = false.
Proof. intros [|t v]; reflexivity. Qed.
Lemma ex_usual : usual (T "/src").
Proof. exists (T "/sr"), "c"%char. split; [reflexivity|discriminate]. Qed.
Lemma ex_readable status vs py f mark : readable (ex_around status vs py f) (ex_disk mark) (T "/src") (ex_package vs).
Proof. exists (T "/src/package.py"), (T "package.py"), (T "def"). split; [left; split; [reflexivity|]; split; [reflexivity|]; eexists; reflexivity|]. repeat split; discriminate. Qed.

(** ** C172 *)
Theorem C172_rejected_partial : forall o, (forall v, starts_with (T "/") (o_hash o v) = false) -> forall m source message d ts p, usual source -> readable o d source p -> m_mode m <> DryRun -> rejected o m source d ->
  s_tags (after (release o m source message d ts)) = ts /\ s_meta (after (release o m source message d ts)) = None /\
  match release o m source message d ts with Done b _ s => b = false /\ In NotValid (s_errors s) | Failed _ => True end.
Proof.
  intros o H m source message d ts p U R N Q. pose proof (release_whole o H m source message d ts p U R N) as W. cbn zeta in W.
  assert (K : used o m source d = None) by (destruct Q as (A & k & B & C); unfold used; rewrite A, B, C; reflexivity).
  destruct (release o m source message d ts) as [s|b path s]; cbn [after].
  - destruct W as (_ & _ & A & B). split; [apply A, K|]. split; [apply B, Q|exact I].
  - destruct W as (_ & _ & A & _ & B & C & _). destruct (C Q) as [C1 C2]. split; [apply A, K|]. split; [exact C2|]. split; [|exact C1]. destruct b; [|reflexivity]. rewrite (proj1 B eq_refl) in C1. destruct C1.
Qed.
Print Assumptions C172_rejected_partial.
(** the package is installed all the same *)
Theorem C172_refuted : forall o, (forall v, starts_with (T "/") (o_hash o v) = false) -> forall m source message d ts p, usual source -> readable o d source p -> m_mode m <> DryRun -> rejected o m source d ->
  m_skip_build m = false -> nothing_refused (o_refuse o) -> let target := install_path o (m_mode m) p in starts_with target (source ++ T "/package.py") = false -> starts_with target (source ++ T "/package.yaml") = false ->
  exists s f n, release o m source message d ts = Done false target s /\ package_file d source f n /\ content (s_disk s) (path_join target n) = content d f /\ content d f <> None.
Proof.
  intros o H m source message d ts p U R N Q SB NR. cbn zeta. intros BP BY.
  assert (BF : forall f n, package_file d source f n -> starts_with (install_path o (m_mode m) p) f = false) by (intros f n [(-> & _)|(-> & _)]; assumption).
  destruct (done o H m source message d ts p U R N SB NR BF BP) as (b & s & E). pose proof (C172_rejected_partial o H m source message d ts p U R N Q) as (_ & _ & X). rewrite E in X. destruct X as [-> _].
  pose proof R as (f & n & c & F & C & _). exists s, f, n. split; [exact E|]. split; [exact F|]. split; [|rewrite C; discriminate]. rewrite C. exact (installed o H m source message d ts p false _ s f n c U R N E F C (BF f n F) BP).
Qed.
Print Assumptions C172_refuted.
(** when a repository counts as clean: its status is known and empty, and for hg so is the queue of patches if there is one *)
Theorem C172_states : forall k v, valid_state k v = true <-> v_status v = Some [] /\ (k = Hg -> forall q, v_queue v = Some q -> q = []).
Proof.
  intros k v. unfold valid_state. destruct (v_status v) as [s|]; [|split; [discriminate|intros [X _]; discriminate X]]. destruct s as [|c s]; [|split; [discriminate|intros [X _]; discriminate X]].
  cbn [is_nil andb]. destruct k; try (split; [intros _; split; [reflexivity|discriminate]|reflexivity]).
  destruct (v_queue v) as [q|]; [|split; [intros _; split; [reflexivity|discriminate]|reflexivity]].
  split; [intros H; split; [reflexivity|]; intros _ q' [= <-]; destruct q; [reflexivity|discriminate H]|]. intros [_ H]. rewrite (H eq_refl q eq_refl). reflexivity.
Qed.
Print Assumptions C172_states.
Example C172_example : let o := ex_around " M package.py" [] None ex_refuse in
  usual (T "/src") /\ readable o (ex_disk ".git") (T "/src") (ex_package []) /\ rejected o ex_m (T "/src") (ex_disk ".git") /\ nothing_refused (o_refuse o) /\
  starts_with (install_path o Release (ex_package [])) (T "/src/package.py") = false /\
  match release o ex_m (T "/src") None (ex_disk ".git") [] with Done b p s => b = false /\ p = T "/rel/foo/1.0" /\ content (s_disk s) (T "/rel/foo/1.0/package.py") = Some (T "def") /\ s_errors s = [NotValid] /\ s_tags s = [] | Failed _ => False end.
Proof. cbn zeta. split; [exact ex_usual|]. split; [apply ex_readable|]. split; [split; [reflexivity|exists Git; split; reflexivity]|]. split; [split; reflexivity|]. split; [reflexivity|]. vm_compute. repeat split; reflexivity. Qed.

(** ** C173 *)
Theorem C173_dry : forall o m source message d ts, m_mode m = DryRun -> exists b path s, release o m source message d ts = Done b path s /\ s_disk s = d /\ s_tags s = ts.
Proof.
  intros o m source message d ts E. unfold release. destruct (load_package o source (mkSt d ts None None [] [])) as [p s] eqn:L. pose proof (load_keeps o source (mkSt d ts None None [] [])) as [A B]. rewrite L in A, B. cbn in A, B.
  destruct (negb (is_nil (s_errors s))); [exists false, [], s; repeat split; assumption|]. rewrite E. destruct (m_skip_vcs m).
  - eexists _, _, _. split; [reflexivity|]. destruct message; split; assumption.
  - pose proof (validate_spec o source s) as V. destruct (validate_vcs o source s) as [k s2]. destruct V as (V1 & V2 & _). eexists _, _, _. split; [reflexivity|]. destruct message; cbn; split; congruence.
Qed.
Print Assumptions C173_dry.
Example C173_example : match release (ex_around "" [] None ex_refuse) (mkManager DryRun false false false) (T "/src") (Some (T "note")) (ex_disk ".git") [(T "a", T "b")] with
  Done b p s => b = true /\ p = T "[dry-run] /home/u/packages/foo/1.0" /\ s_notes s = [DryNote (T "note")] /\ s_meta s = Some (T "meta") | Failed _ => False end.
Proof. vm_compute. repeat split; reflexivity. Qed.

(** ** C174 *)
Theorem C174_dry_partial : forall o m source message d ts, m_mode m = DryRun -> usual source ->
  ((exists p, readable o d source p) <-> exists path s, release o m source message d ts = Done true path s).
Proof.
  intros o m source message d ts E U. split.
  - intros [p R]. unfold release. rewrite (load_readable o d ts source p U R). cbn [s_errors is_nil negb]. destruct (if m_skip_vcs m then _ else _) as [k s2]. rewrite E. eexists _, _. reflexivity.
  - intros (path & s & H). unfold release in H. destruct (load_package o source (mkSt d ts None None [] [])) as [p s1] eqn:L. destruct (s_errors s1) as [|x l] eqn:X; [|discriminate H]. exists p. exact (readable_load o d ts source p s1 U L X).
Qed.
Print Assumptions C174_dry_partial.
(** the dry run of a release that a dirty repository makes fail is a success *)
Theorem C174_refuted : exists o m m' source d, m_mode m = DryRun /\ m' = mkManager Release (m_skip_build m) (m_skip_tests m) (m_skip_vcs m) /\
  match release o m source None d [], release o m' source None d [] with Done b _ s, Done b' _ s' => b = true /\ s_errors s = [NotValid] /\ b' = false /\ s_errors s' = [NotValid] | _, _ => False end.
Proof. exists (ex_around " M x" [] None ex_refuse), (mkManager DryRun false false false). eexists. exists (T "/src"), (ex_disk ".git"). split; [reflexivity|]. split; [reflexivity|]. vm_compute. repeat split; reflexivity. Qed.
Print Assumptions C174_refuted.

(** ** C175 *)
Theorem C175_tags_partial : forall o, (forall v, starts_with (T "/") (o_hash o v) = false) -> forall m source message d ts p, usual source -> readable o d source p -> m_mode m <> DryRun ->
  tags_grow (tag_name p) ts (s_tags (after (release o m source message d ts))).
Proof.
  intros o H m source message d ts p U R N. pose proof (release_whole o H m source message d ts p U R N) as W. cbn zeta in W. destruct (release o m source message d ts); apply W.
Qed.
Print Assumptions C175_tags_partial.
(** a version that was released and tagged is replaced, and the release is a success *)
Theorem C175_refuted : exists o m source d ts, ahas (T "foo-1.0") ts = true /\ content d (T "/rel/foo/1.0/package.py") = Some (T "released before") /\
  match release o m source None d ts with Done b _ s => b = true /\ content (s_disk s) (T "/rel/foo/1.0/package.py") = Some (T "def") /\ In (TagThere (T "foo-1.0")) (s_notes s) /\ s_tags s = ts | Failed _ => False end.
Proof.
  exists (ex_around "" [] None ex_refuse), ex_m, (T "/src"), (mkDisk [(T "/src/package.py", T "def"); (T "/rel/foo/1.0/package.py", T "released before")] [T "/src"; T "/src/.git"; T "/rel/foo/1.0"]), [(T "foo-1.0", T "first")].
  split; [reflexivity|]. split; [reflexivity|]. vm_compute. repeat split; try reflexivity. right; right; left; reflexivity.
Qed.
Print Assumptions C175_refuted.

(** ** C176 *)
Theorem C176_only_below : forall o, (forall v, starts_with (T "/") (o_hash o v) = false) -> forall m source message d ts p, usual source -> readable o d source p -> m_mode m <> DryRun ->
  only_below (install_path o (m_mode m) p) d (s_disk (after (release o m source message d ts))).
Proof.
  intros o H m source message d ts p U R N. pose proof (release_whole o H m source message d ts p U R N) as W. cbn zeta in W. destruct (release o m source message d ts); apply W.
Qed.
Print Assumptions C176_only_below.
Theorem C176_unreadable : forall o m source message d ts, usual source -> (forall p, ~ readable o d source p) ->
  exists s, release o m source message d ts = Done false [] s /\ s_disk s = d /\ s_tags s = ts /\ s_errors s <> [].
Proof. exact unreadable. Qed.
Print Assumptions C176_unreadable.
Example C176_example : match release (ex_around "" [[T "a"]; [T "b"]] (Some [T "true"]) ex_refuse) ex_m (T "/src") None (ex_disk ".git") [] with
  Done b _ s => b = true /\ content (s_disk s) (T "/rel/bar/2.0/package.py") = Some (T "bar") /\ content (s_disk s) (T "/rel/foo/1.0/ha/variant.json") = Some (T "{}") | Failed _ => False end.
Proof. vm_compute. repeat split; reflexivity. Qed.

(** ** C177 *)
Theorem C177_success_partial : forall o, (forall v, starts_with (T "/") (o_hash o v) = false) -> forall m source message d ts p path s, usual source -> readable o d source p -> m_mode m <> DryRun ->
  release o m source message d ts = Done true path s -> let target := install_path o (m_mode m) p in
  path = target /\ s_errors s = [] /\
  (forall f n, package_file d source f n -> starts_with target f = false -> starts_with target (source ++ T "/package.py") = false -> content (s_disk s) (path_join target n) = content d f) /\
  (m_skip_build m = false -> In target (d_dirs (s_disk s)) /\ forall v, In v (k_variants p) -> In (path_join target (o_hash o v)) (d_dirs (s_disk s))) /\
  (m_skip_tests m = false -> starts_with target (source ++ T "/package.py") = false -> content d (source ++ T "/package.py") <> None -> forall cs c, o_python o = Some cs -> In c cs -> o_run o c = Some true) /\
  (m_skip_vcs m = false -> forall k, detect d source = Some k -> valid_state k (o_repo o k) = true /\ (k <> Hg -> ahas (tag_name p) (s_tags s) = true)).
Proof.
  intros o H m source message d ts p path s U R N E. cbn zeta. pose proof (release_whole o H m source message d ts p U R N) as W. cbn zeta in W. rewrite E in W.
  destruct W as (_ & _ & _ & Pa & Er & Re & s3 & s7 & O3 & O7 & _ & D & V & Te & Ta). split; [exact Pa|]. split; [apply Er; reflexivity|].
  split; [|split; [|split]].
  - intros f n F B BP. assert (C : exists c, content d f = Some c) by (destruct F as [(_ & _ & C)|(_ & _ & _ & _ & C)]; exact C). destruct C as [c C]. rewrite C. exact (installed o H m source message d ts p true path s f n c U R N E F C B BP).
  - intros SB. destruct (V SB eq_refl) as [V1 V2]. split; [apply D, V1|]. intros v J. apply D, V2, J.
  - intros ST BP C cs c P J. assert (X : run_test o (s_disk s3) (install_path o (m_mode m) p) c = Some true).
    { apply (Te ST eq_refl). unfold test_commands. rewrite (usual_py source U), (below_exists _ d (s_disk s3) _ O3 BP). destruct (content d (source ++ T "/package.py")) as [x|] eqn:Q; [|contradiction]. rewrite (exists_content _ _ _ Q), P. exact J. }
    unfold run_test in X. destruct (mem_text _ _); [exact X|discriminate X].
  - intros SV k K. destruct (valid_state k (o_repo o k)) eqn:VS.
    + split; [reflexivity|]. intros HG. apply (Ta k); [unfold used; rewrite SV, K, VS; reflexivity|reflexivity|exact HG].
    + exfalso. assert (Q : rejected o m source d) by (split; [exact SV|]; exists k; split; assumption). destruct (Re Q) as [Q1 _]. rewrite (proj1 Er eq_refl) in Q1. destruct Q1.
Qed.
Print Assumptions C177_success_partial.
(** success without a tag (hg finds foo-1.0 in foo-1.0.1), with tests that python could not name, with a variant that
    holds no file, and without any repository *)
Theorem C177_refuted :
  (exists o m source d ts, detect d source = Some Hg /\ match release o m source None d ts with Done b _ s => b = true /\ ahas (T "foo-1.0") (s_tags s) = false | Failed _ => False end) /\
  (exists o m source d, o_python o = None /\ m_skip_tests m = false /\ match release o m source None d [] with Done b _ s => b = true /\ In NoTests (s_notes s) | Failed _ => False end) /\
  (exists o m source d, match release o m source None d [] with Done b _ s => b = true /\ In (T "/rel/foo/1.0/ha") (d_dirs (s_disk s)) /\ content (s_disk s) (T "/rel/foo/1.0/ha/package.py") = None /\ content (s_disk s) (T "/rel/foo/1.0/ha/variant.json") = None | Failed _ => False end) /\
  (exists o m source d, m_skip_vcs m = false /\ exists_at d (T "/src/.git") = true /\ source = T "/src/sub" /\ match release o m source None d [] with Done b _ s => b = true /\ s_tags s = [] /\ In NoVcs (s_notes s) | Failed _ => False end).
Proof.
  split; [|split; [|split]].
  - exists (ex_around "" [] None ex_refuse), ex_m, (T "/src"), (ex_disk ".hg"), [(T "foo-1.0.1", T "m")]. split; [reflexivity|]. vm_compute. split; reflexivity.
  - exists (ex_around "" [] None ex_refuse), ex_m, (T "/src"), (ex_disk ".git"). split; [reflexivity|]. split; [reflexivity|]. vm_compute. split; [reflexivity|]. right; left; reflexivity.
  - exists (ex_around "" [[T "a"]] None (mkRefusals (fun _ => false) (fun p => contains_text (T "/ha/") p))), ex_m, (T "/src"), (ex_disk ".git"). vm_compute. split; [reflexivity|]. split; [right; right; right; right; left; reflexivity|]. split; reflexivity.
  - exists (ex_around "" [] None ex_refuse), ex_m, (T "/src/sub"), (mkDisk [(T "/src/sub/package.py", T "def")] [T "/src/.git"]). split; [reflexivity|]. split; [reflexivity|]. split; [reflexivity|]. vm_compute. split; [reflexivity|]. split; [reflexivity|]. left. reflexivity.
Qed.
Print Assumptions C177_refuted.
(** where the tags cannot be looked up, the tag is made as if there were none, and that is said *)
Theorem C177_unknown_tags : forall o k p message s, v_lookup (o_repo o k) = false -> In TagUnknown (s_notes (create_vcs_tag o k p message s)) /\
  s_tags (create_vcs_tag o k p message s) = match create_tag k (o_repo o k) (s_tags s) (tag_name p) (match message with Some m => m | None => T "Release " ++ tag_name p end) with Some ts => ts | None => s_tags s end.
Proof.
  intros o k p message s L. unfold create_vcs_tag, tag_exists. rewrite L. cbn [negb]. change (s_tags (warn s TagUnknown)) with (s_tags s). destruct (create_tag _ _ _ _ _); cbn; (split; [|reflexivity]); rewrite ?in_app_iff; cbn; tauto.
Qed.
Print Assumptions C177_unknown_tags.
Example C177_example : match release (ex_around "" [[T "a"]; [T "b"]] (Some [T "true"; T "true"]) ex_refuse) ex_m (T "/src") (Some (T "msg")) (ex_disk ".git") [] with
  Done b _ s => b = true /\ s_tags s = [(T "foo-1.0", T "msg")] /\ content (s_disk s) (T "/rel/foo/1.0/package.py") = Some (T "def") /\ content (s_disk s) (T "/rel/foo/1.0/vcs_metadata.json") = Some (T "meta") /\ s_log s = Some (T "log") /\
    content (s_disk s) (T "/rel/foo/1.0/hb/package.py") = Some (T "def") | Failed _ => False end /\
  match release (ex_around "" [] (Some [T "true"; T "false"; T "what"]) ex_refuse) ex_m (T "/src") None (ex_disk ".git") [] with
  Done b _ s => b = false /\ s_errors s = [TestFailed 2 (T "false"); TestNotRun 3 (T "what")] /\ s_tags s = [(T "foo-1.0", T "Release foo-1.0")] | Failed _ => False end.
Proof. vm_compute. repeat split; reflexivity. Qed.

(** ** C178 *)
(** a release whose build is skipped fails for a version that is not there, and leaves its tag *)
Theorem C178_refuted : forall o m source message d ts p, usual source -> readable o d source p -> m_mode m <> DryRun -> m_skip_build m = true -> used o m source d = Some Git ->
  v_lookup (o_repo o Git) = true -> v_make (o_repo o Git) = true -> ahas (tag_name p) ts = false -> ~ In (install_path o (m_mode m) p) (d_dirs d) ->
  exists s, release o m source message d ts = Failed s /\ s_disk s = d /\ ahas (tag_name p) (s_tags s) = true.
Proof. exact skipped. Qed.
Print Assumptions C178_refuted.
(** failed tests keep neither the tag nor the files back *)
Theorem C178_tests_refuted : exists o m source d, match release o m source None d [] with
  Done b _ s => b = false /\ s_errors s = [TestFailed 1 (T "false")] /\ ahas (T "foo-1.0") (s_tags s) = true /\ content (s_disk s) (T "/rel/foo/1.0/package.py") = Some (T "def") | Failed _ => False end.
Proof. exists (ex_around "" [] (Some [T "false"]) ex_refuse), ex_m, (T "/src"), (ex_disk ".git"). vm_compute. repeat split; reflexivity. Qed.
Print Assumptions C178_tests_refuted.
(** what is left behind is the tag and files below the install path *)
Theorem C178_left_partial : forall o, (forall v, starts_with (T "/") (o_hash o v) = false) -> forall m source message d ts p s, usual source -> readable o d source p -> m_mode m <> DryRun ->
  release o m source message d ts = Failed s -> only_below (install_path o (m_mode m) p) d (s_disk s) /\ tags_grow (tag_name p) ts (s_tags s) /\ (used o m source d = None -> s_tags s = ts).
Proof. intros o H m source message d ts p s U R N E. pose proof (release_whole o H m source message d ts p U R N) as W. cbn zeta in W. rewrite E in W. destruct W as (A & B & C & _). auto. Qed.
Print Assumptions C178_left_partial.
Example C178_example : let o := ex_around "" [] None ex_refuse in let m := mkManager Release true true false in
  usual (T "/src") /\ readable o (ex_disk ".git") (T "/src") (ex_package []) /\ used o m (T "/src") (ex_disk ".git") = Some Git /\ ~ In (install_path o Release (ex_package [])) (d_dirs (ex_disk ".git")) /\
  match release o m (T "/src") None (ex_disk ".git") [] with Failed s => s_errors s = [NotCopied] /\ s_tags s = [(T "foo-1.0", T "Release foo-1.0")] | _ => False end.
Proof. cbn zeta. split; [exact ex_usual|]. split; [apply ex_readable|]. split; [reflexivity|]. split; [|vm_compute; repeat split; reflexivity]. vm_compute. intros [J|[J|[J|[]]]]; discriminate J. Qed.

(** ** C179 *)
Theorem C179_release_partial : forall o p, o_release o <> [] -> o_release o <> T "~/.rez/packages/int" -> install_path o Release p = path_join (path_join (tilde o (o_release o)) (k_name p)) (version_text p).
Proof.
  intros o p A B. unfold install_path. rewrite (proj2 (nil_false (o_release o)) A). destruct (text_eqb (o_release o) (T "~/.rez/packages/int")) eqn:E; [apply text_eqb_eq in E; contradiction|]. reflexivity.
Qed.
Print Assumptions C179_release_partial.
Theorem C179_local : forall o p, install_path o Local p = path_join (path_join (tilde o (o_local o)) (k_name p)) (version_text p) /\ install_path o DryRun p = install_path o Local p.
Proof. split; reflexivity. Qed.
Print Assumptions C179_local.
Theorem C179_home : forall o r h, o_home o = Some h -> h <> [] -> tilde o (T "~" ++ r) = h ++ r.
Proof. intros o r h E N. unfold tilde. change (strip_prefix (T "~") (T "~" ++ r)) with (Some r). cbn iota zeta beta. rewrite E, (proj2 (nil_false h) N). reflexivity. Qed.
Print Assumptions C179_home.
Theorem C179_plain : forall o c r, c <> "~"%char -> tilde o (c :: r) = c :: r.
Proof.
  intros o c r N. unfold tilde, strip_prefix. destruct (starts_with (T "~") (c :: r)) eqn:E; [|reflexivity]. apply starts_with_spec in E as [x E]. injection E as E _. contradiction.
Qed.
Print Assumptions C179_plain.
(** with the default release path, releases go to the local packages, and the path of another user becomes a wrong one *)
Theorem C179_refuted : (forall o p, o_release o = T "~/.rez/packages/int" -> install_path o Release p = install_path o Local p) /\
  (exists o, o_home o = Some (T "/home/u") /\ tilde o (T "~bob/packages") = T "/home/ubob/packages").
Proof.
  split; [intros o p E; unfold install_path; rewrite E; reflexivity|]. exists (ex_around "" [] None ex_refuse). split; reflexivity.
Qed.
Print Assumptions C179_refuted.
Theorem C179_mode : forall s, (read_mode s = Local <-> s = T "local") /\ (read_mode s = DryRun <-> s = T "dry-run" \/ s = T "dry_run").
Proof.
  intros s. unfold read_mode. destruct (text_eqb s (T "local")) eqn:A; [apply text_eqb_eq in A as ->; split; split; try reflexivity; try discriminate; intros [H|H]; discriminate H|].
  assert (NA : s <> T "local") by (intros ->; discriminate A).
  destruct (text_eqb s (T "dry-run")) eqn:B; [apply text_eqb_eq in B as ->; cbn; split; split; try discriminate; try reflexivity; intros _; left; reflexivity|].
  destruct (text_eqb s (T "dry_run")) eqn:C; [apply text_eqb_eq in C as ->; cbn; split; split; try discriminate; try reflexivity; intros _; right; reflexivity|].
  cbn. split; split; try discriminate; [contradiction|]. intros [-> | ->]; discriminate.
Qed.
Print Assumptions C179_mode.

(** ** C180 *)
Theorem C180_success : forall a e w w', a_dry a = false -> (release_command a e w = (None, w') <->
  exists p is, checks_pass a e w p /\ variant_indices p (a_variants a) = Some is /\ Forall (fun i => e_build e i = true) is /\ ahas (tag_name p) (r_tags w) = false /\ e_tag_ok e = true /\ e_push e = PushOk /\
    w' = mkRepos (r_installed w ++ is) (aput (tag_name p) (message_of a e p) (r_tags w)) (aput (tag_name p) (message_of a e p) (r_origin w))).
Proof. exact command_success. Qed.
Print Assumptions C180_success.
Theorem C180_dry : forall a e w t w', a_dry a = true -> release_command a e w = (t, w') -> w' = w /\ (t = None <-> exists p, checks_pass a e w p).
Proof.
  intros a e w t w' D R. pose proof (checks a e w) as H. rewrite R in H. destruct H as [(p & C & E)|(N & -> & u & ->)].
  - rewrite D in E. injection E as -> ->. split; [reflexivity|]. split; [exists p; exact C|reflexivity].
  - split; [reflexivity|]. split; [discriminate|]. intros [p C]. destruct (N p C).
Qed.
Print Assumptions C180_dry.
Definition ex_args : rargs := mkRargs None false false false None None None.
Definition ex_meets (vs : list (list text)) : meets := mkMeets (Some (ex_package vs)) (fun k => match k with Git => true | _ => false end) (Some (true, [])) true PushOk true (fun _ => true) (fun _ => None).
Example C180_example : release_command ex_args (ex_meets [[T "a"]; [T "b"]]) (mkRepos [] [] []) = (None, mkRepos [Some 0; Some 1] [(T "foo-1.0", T "Release foo-1.0")] [(T "foo-1.0", T "Release foo-1.0")]) /\
  checks_pass ex_args (ex_meets []) (mkRepos [] [] []) (ex_package []).
Proof. split; [vm_compute; reflexivity|]. split; [reflexivity|]. split; [reflexivity|]. split; [right; exists true; reflexivity|right; reflexivity]. Qed.

(** ** C181 *)
Theorem C181_tags_partial : forall a e w u w', release_command a e w = (Some u, w') -> r_origin w' = r_origin w /\ (e_delete_ok e = true -> forall n, aget n (r_tags w') = aget n (r_tags w)) /\
  exists pre, r_installed w' = r_installed w ++ pre /\ (pre = [] \/ exists p is, e_package e = Some p /\ variant_indices p (a_variants a) = Some is /\ exists post, is = pre ++ post).
Proof. exact command_failure. Qed.
Print Assumptions C181_tags_partial.
(** variants built before the failure stay installed *)
Theorem C181_refuted : exists a e w u w', release_command a e w = (Some u, w') /\ u = BuildFailed (Some 1) /\ r_installed w = [] /\ r_installed w' = [Some 0].
Proof.
  exists ex_args, (mkMeets (Some (ex_package [[T "a"]; [T "b"]])) (fun _ => true) (Some (true, [])) true PushOk true (fun i => match i with Some 1 => false | _ => true end) (fun _ => None)), (mkRepos [] [] []).
  eexists _, _. split; [vm_compute; reflexivity|]. repeat split; reflexivity.
Qed.
Print Assumptions C181_refuted.
Example C181_example : exists u w', release_command ex_args (mkMeets (Some (ex_package [])) (fun _ => true) (Some (true, [])) true PushRejected true (fun _ => true) (fun _ => None)) (mkRepos [] [(T "x", T "y")] []) = (Some u, w') /\ u = PushFailed /\ r_tags w' = [(T "x", T "y")] /\ r_installed w' = [None].
Proof. eexists _, _. split; [vm_compute; reflexivity|]. repeat split; reflexivity. Qed.

(** ** C182 *)
Theorem C182_changes_partial : forall a e w b s, a_skip_errors a = false -> e_status e = Some (b, s) -> s <> [] -> exists u, release_command a e w = (Some u, w).
Proof.
  intros a e w b s A S N. pose proof (checks a e w) as H. destruct (release_command a e w) as [t w']. destruct H as [(p & (_ & _ & [X|[b' X]] & _) & _)|(_ & -> & u & ->)]; [congruence|congruence|exists u; reflexivity].
Qed.
Print Assumptions C182_changes_partial.
(** where git status fails, as outside of a repository, nothing is found to be changed *)
Theorem C182_refuted : exists a e w w', a_skip_errors a = false /\ e_status e = Some (false, []) /\ e_marks e Git = false /\ a_dry a = false /\ release_command a e w = (None, w').
Proof.
  exists (mkRargs (Some (T "git")) false false false None None None), (mkMeets (Some (ex_package [])) (fun _ => false) (Some (false, [])) true PushOk true (fun _ => true) (fun _ => None)), (mkRepos [] [] []).
  eexists. repeat split.
Qed.
Print Assumptions C182_refuted.

(** ** C183 *)
(** with an existing tag the option never helps: everything is built and installed, and then making the tag fails *)
Theorem C183_refuted : forall a e w p, a_dry a = false -> e_package e = Some p -> ahas (tag_name p) (r_tags w) = true ->
  (forall w', release_command a e w <> (None, w')) /\
  (a_ignore_tag a = true -> checks_pass a e w p -> forall is, variant_indices p (a_variants a) = Some is -> Forall (fun i => e_build e i = true) is ->
     release_command a e w = (Some TagFailed, mkRepos (r_installed w ++ is) (r_tags w) (r_origin w))).
Proof.
  intros a e w p D P T1. split.
  - intros w' E. apply (proj1 (command_success a e w w' D)) in E as (q & is & (Q & _) & _ & _ & X & _). rewrite P in Q. injection Q as <-. congruence.
  - intros _ C is V B. pose proof (checks a e w) as H. destruct (release_command a e w) as [t w']. destruct H as [(q & C' & E)|(N & _)]; [|destruct (N p C)]. rewrite <- (checks_unique a e w p q C C') in E.
    rewrite D, V, (build_all_ok e is w B) in E. unfold create_git_tag in E. cbn in E. rewrite T1, orb_true_r in E. exact E.
Qed.
Print Assumptions C183_refuted.
Theorem C183_refused_partial : forall a e w p, e_package e = Some p -> a_ignore_tag a = false -> ahas (tag_name p) (r_tags w) = true -> exists u, release_command a e w = (Some u, w).
Proof.
  intros a e w p P G T1. pose proof (checks a e w) as H. destruct (release_command a e w) as [t w']. destruct H as [(q & (X & _ & _ & [Y|Y]) & _)|(_ & -> & u & ->)]; [congruence| |exists u; reflexivity]. rewrite P in X. injection X as <-. congruence.
Qed.
Print Assumptions C183_refused_partial.
Example C183_example : let a := mkRargs None false true false None None None in let w := mkRepos [] [(T "foo-1.0", T "m")] [] in
  checks_pass a (ex_meets []) w (ex_package []) /\ release_command a (ex_meets []) w = (Some TagFailed, mkRepos [None] [(T "foo-1.0", T "m")] []) /\ release_command ex_args (ex_meets []) w = (Some TagExists, w).
Proof. cbn zeta. split; [|split; vm_compute; reflexivity]. split; [reflexivity|]. split; [reflexivity|]. split; [right; exists true; reflexivity|left; reflexivity]. Qed.

(** ** C184 *)
Theorem C184_selected : forall p ps r, k_variants p <> [] -> ps <> [] -> Forall (fun t => ~ In ","%char t) ps ->
  (variant_indices p (Some (join [","%char] ps)) = Some r <->
   exists ns l, Forall2 (fun v k => parse_u64 v = Some (N.of_nat k)) (filter (fun t => negb (is_nil t)) (map trim ps)) ns /\ Forall (fun k => k < length (k_variants p)) ns /\ ns <> [] /\ firsts ns l /\ r = map Some l).
Proof. exact indices_spec. Qed.
Print Assumptions C184_selected.
Theorem C184_all : forall p, (k_variants p <> [] -> variant_indices p None = Some (map Some (seq 0 (length (k_variants p))))) /\ (k_variants p = [] -> variant_indices p None = Some [None]) /\
  (k_variants p = [] -> forall s, variant_indices p (Some s) = if is_nil (trim s) then Some [None] else None).
Proof.
  intros p. unfold variant_indices. split; [|split].
  - destruct (k_variants p); [contradiction|reflexivity].
  - intros ->. reflexivity.
  - intros -> s. reflexivity.
Qed.
Print Assumptions C184_all.
Example C184_example : let p := ex_package [[T "a"]; [T "b"]; [T "c"]] in
  variant_indices p (Some (T " 2,0 ,,2")) = Some [Some 2; Some 0] /\ variant_indices p (Some (T "3")) = None /\ variant_indices p (Some (T " ,")) = None /\ variant_indices p (Some (T "x")) = None /\ firsts [2; 0; 2] [2; 0].
Proof.
  cbn zeta. repeat split; try (vm_compute; reflexivity). apply (firsts_old [2; 0] [2; 0] 2); [|left; reflexivity]. apply (firsts_new [2] [2] 0); [|intros [J|[]]; discriminate J]. apply (firsts_new [] [] 2); [constructor|intros []].
Qed.
