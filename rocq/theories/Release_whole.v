(** Proofs about a whole release. *)
From Verif Require Import Base Base_lemmas Maps Range_model Query_model Release_model Release_spec Release_proofs.
Open Scope string_scope.
Open Scope list_scope.

Lemma starts_refl p : starts_with p p = true.
Proof. apply starts_with_spec. exists []. rewrite app_nil_r. reflexivity. Qed.

Section Whole.
Context (o : around) (hash_name : forall v, starts_with (T "/") (o_hash o v) = false).

Lemma exists_content d p c : content d p = Some c -> exists_at d p = true.
Proof. intros H. unfold exists_at. apply orb_true_iff. left. apply ahas_in, aget_some. exists c. exact H. Qed.
Lemma not_exists d p : content d p = None -> ~ In p (d_dirs d) -> exists_at d p = false.
Proof.
  intros H N. unfold exists_at. apply orb_false_iff. split.
  - destruct (ahas p (d_files d)) eqn:E; [|reflexivity]. apply ahas_in, aget_some in E as [v E]. unfold content in H. congruence.
  - destruct (mem_text p (d_dirs d)) eqn:E; [|reflexivity]. apply mem_in in E. contradiction.
Qed.
Lemma exists_false d p : exists_at d p = false -> content d p = None /\ ~ In p (d_dirs d).
Proof.
  unfold exists_at. intros H. apply orb_false_iff in H as [A B]. split.
  - destruct (content d p) eqn:E; [|reflexivity]. assert (J : In p (akeys (d_files d))) by (apply aget_some; eexists; exact E). apply ahas_in in J. congruence.
  - intros J. apply mem_in in J. congruence.
Qed.
Lemma usual_py source : usual source -> path_join source (T "package.py") = source ++ T "/package.py".
Proof. intros U. rewrite join_usual; [reflexivity|exact U|reflexivity]. Qed.
Lemma usual_yaml source : usual source -> path_join source (T "package.yaml") = source ++ T "/package.yaml".
Proof. intros U. rewrite join_usual; [reflexivity|exact U|reflexivity]. Qed.

Lemma load_readable d ts source p : usual source -> readable o d source p -> load_package o source (mkSt d ts None None [] []) = (p, mkSt d ts None None [] []).
Proof.
  intros U (f & n & c & F & C & L & N & V). unfold load_package. rewrite (usual_py source U), (usual_yaml source U). cbn [s_disk].
  destruct F as [(-> & _ & _)|(-> & _ & X & Y & _)]; [rewrite (exists_content _ _ _ C)|rewrite (not_exists _ _ X Y), (exists_content _ _ _ C)].
  all:   rewrite C, L, (proj2 (nil_false (k_name p)) N); destruct (k_version p); [reflexivity|contradiction].
Qed.
Lemma readable_load d ts source p s : usual source -> load_package o source (mkSt d ts None None [] []) = (p, s) -> s_errors s = [] -> readable o d source p.
Proof.
  intros U L E. destruct (load_ok o source _ p s L eq_refl E) as (-> & N & V). unfold load_package in L. rewrite (usual_py source U), (usual_yaml source U) in L. cbn [s_disk] in L.
  destruct (exists_at d (source ++ T "/package.py")) eqn:E1.
  - destruct (content d (source ++ T "/package.py")) as [c|] eqn:C; [|injection L as <-; cbn in N; contradiction]. destruct (o_load o (source ++ T "/package.py") c) as [q|] eqn:Q; [|injection L as <-; cbn in N; contradiction].
    injection L as <- _. exists (source ++ T "/package.py"), (T "package.py"), c. split; [left; split; [reflexivity|]; split; [reflexivity|exists c; exact C]|]. repeat split; assumption.
  - destruct (exists_false _ _ E1) as [A B]. destruct (exists_at d (source ++ T "/package.yaml")) eqn:E2; [|injection L as <-; cbn in N; contradiction].
    destruct (content d (source ++ T "/package.yaml")) as [c|] eqn:C; [|injection L as <-; cbn in N; contradiction]. destruct (o_load o (source ++ T "/package.yaml") c) as [q|] eqn:Q; [|injection L as <-; cbn in N; contradiction].
    injection L as <- _. exists (source ++ T "/package.yaml"), (T "package.yaml"), c. split; [right; split; [reflexivity|]; split; [reflexivity|]; split; [exact A|]; split; [exact B|exists c; exact C]|]. repeat split; assumption.
Qed.
(** loading changes no file and no tag *)
Lemma load_keeps source s : s_disk (snd (load_package o source s)) = s_disk s /\ s_tags (snd (load_package o source s)) = s_tags s.
Proof.
  unfold load_package.
  repeat match goal with |- context [match ?x with _ => _ end] => destruct x | |- context [if ?x then _ else _] => destruct x end; split; reflexivity.
Qed.
Lemma unreadable m source message d ts : usual source -> (forall p, ~ readable o d source p) -> exists s, release o m source message d ts = Done false [] s /\ s_disk s = d /\ s_tags s = ts /\ s_errors s <> [].
Proof.
  intros U N. unfold release. destruct (load_package o source (mkSt d ts None None [] [])) as [p s] eqn:L. pose proof (load_keeps source (mkSt d ts None None [] [])) as [A B]. rewrite L in A, B. cbn in A, B.
  destruct (s_errors s) as [|e es] eqn:E; [exfalso; exact (N p (readable_load d ts source p s U L E))|]. cbn. exists s. repeat split; try assumption. rewrite E. discriminate.
Qed.

(** the parts of a release of a readable package that is no dry run *)
Lemma release_parts m source message d ts p : usual source -> readable o d source p -> m_mode m <> DryRun ->
  let s0 := mkSt d ts None None [] [] in let target := install_path o (m_mode m) p in
  release o m source message d ts =
    let (k, s2) := if m_skip_vcs m then (None, s0) else validate_vcs o source s0 in
    match (if m_skip_build m then Go s2 else build_package o source p target s2) with
    | Stop s3 => Failed s3
    | Go s3 =>
        let s4 := if m_skip_tests m then warn s3 TestsSkipped else run_tests o source target s3 in
        let s5 := match k with Some k => create_vcs_tag o k p message s4 | None => s4 end in
        let s6 := match k with Some k => generate_changelog o k s5 | None => s5 end in
        let s7 := write_metadata o k target s6 in
        match install_definition o source target s7 with
        | Stop s8 => Failed s8
        | Go s8 => Done (is_nil (s_errors s8)) target s8
        end
    end.
Proof.
  intros U R N. cbn zeta. unfold release. rewrite (load_readable d ts source p U R). cbn [s_errors is_nil negb]. destruct (m_mode m); [| |contradiction]; reflexivity.
Qed.

Lemma validated m source d ts : let s0 := mkSt d ts None None [] [] in
  exists s2, (if m_skip_vcs m then (None, s0) else validate_vcs o source s0) = (used o m source d, s2) /\ s_disk s2 = d /\ s_tags s2 = ts /\
    (rejected o m source d -> s_errors s2 = [NotValid] /\ s_meta s2 = None) /\ (~ rejected o m source d -> s_errors s2 = []).
Proof.
  cbn. unfold used. destruct (m_skip_vcs m) eqn:S.
  - exists (mkSt d ts None None [] []). repeat split; try reflexivity. destruct H as [H _]; congruence.
  - pose proof (validate_spec o source (mkSt d ts None None [] [])) as V. destruct (validate_vcs o source (mkSt d ts None None [] [])) as [k s2]. cbn in V. destruct V as (A & B & V). exists s2.
    destruct (detect d source) as [x|] eqn:D.
    + destruct (valid_state x (o_repo o x)) eqn:W.
      * destruct V as [-> E]. split; [reflexivity|]. split; [exact A|]. split; [exact B|]. split; [|intros _; exact E]. intros (_ & y & Y & Z). congruence.
      * destruct V as (-> & E & M). split; [reflexivity|]. split; [exact A|]. split; [exact B|]. split; [intros _; split; assumption|]. intros H. exfalso. apply H. split; [exact S|]. exists x. split; assumption.
    + destruct V as (-> & E & M). split; [reflexivity|]. split; [exact A|]. split; [exact B|]. split; [|intros _; exact E]. intros (_ & y & Y & _). congruence.
Qed.

(** ** what every release keeps *)
Lemma install_spec source target s : match install_definition o source target s with Go s' | Stop s' => keeps target s s' /\ s_tags s' = s_tags s /\ s_meta s' = s_meta s end.
Proof.
  unfold install_definition. match goal with |- context [match ?x with Some n => _ | None => Go s end] => set (n := x); assert (N : forall y, n = Some y -> starts_with (T "/") y = false) end.
  { unfold n. intros y. destruct (exists_at _ _); [intros [= <-]; reflexivity|]. destruct (exists_at _ _); [intros [= <-]; reflexivity|discriminate]. }
  destruct n as [n|]; [|split; [apply keeps_refl|split; reflexivity]].
  destruct (copy_in (o_refuse o) (s_disk s) (path_join source n) target n) as [d|] eqn:C; [|split; [apply keeps_err|split; reflexivity]].
  destruct (copy_below _ _ _ _ _ _ target C (N n eq_refl) (starts_refl target)) as (A & B & _). split; [apply keeps_disk; [exact A|rewrite B; tauto]|split; reflexivity].
Qed.

(** one account of a whole release *)
Lemma release_whole m source message d ts p : usual source -> readable o d source p -> m_mode m <> DryRun ->
  let target := install_path o (m_mode m) p in let k := used o m source d in
  match release o m source message d ts with
  | Failed s' => only_below target d (s_disk s') /\ tags_grow (tag_name p) ts (s_tags s') /\ (k = None -> s_tags s' = ts) /\ (rejected o m source d -> s_meta s' = None)
  | Done b path s' => only_below target d (s_disk s') /\ tags_grow (tag_name p) ts (s_tags s') /\ (k = None -> s_tags s' = ts) /\ path = target /\ (b = true <-> s_errors s' = []) /\
      (rejected o m source d -> In NotValid (s_errors s') /\ s_meta s' = None) /\
      exists s3 s7, only_below target d (s_disk s3) /\ only_below target d (s_disk s7) /\ install_definition o source target s7 = Go s' /\ (forall q, In q (d_dirs (s_disk s3)) -> In q (d_dirs (s_disk s'))) /\
        (m_skip_build m = false -> b = true -> In target (d_dirs (s_disk s3)) /\ forall v, In v (k_variants p) -> In (path_join target (o_hash o v)) (d_dirs (s_disk s3))) /\
        (m_skip_tests m = false -> b = true -> forall c, In c (test_commands o (s_disk s3) source) -> run_test o (s_disk s3) target c = Some true) /\
        (forall x, k = Some x -> b = true -> x <> Hg -> ahas (tag_name p) (s_tags s') = true)
  end.
Proof.
  intros U R N. cbn zeta. rewrite (release_parts m source message d ts p U R N). cbn zeta.
  destruct (validated m source d ts) as (s2 & -> & A2 & B2 & C2 & D2). cbn iota beta. set (k := used o m source d) in *. set (target := install_path o (m_mode m) p).
  assert (KN : rejected o m source d -> k = None) by (intros (X & y & Y & Z); unfold k, used; rewrite X, Y, Z; reflexivity).
  assert (BD : exists s3 b3, (if m_skip_build m then Go s2 else build_package o source p target s2) = (if b3 : bool then Go s3 else Stop s3) /\ keeps target s2 s3 /\ same_rest s2 s3 /\
     (b3 = true -> m_skip_build m = false -> In target (d_dirs (s_disk s3)) /\ (s_errors s3 = [] -> forall v, In v (k_variants p) -> In (path_join target (o_hash o v)) (d_dirs (s_disk s3))))).
  { destruct (m_skip_build m); [exists s2, true; split; [reflexivity|]; split; [apply keeps_refl|split; [repeat split|discriminate]]|].
    pose proof (build_spec o hash_name source p target s2 (starts_refl target)) as B. destruct (build_package o source p target s2) as [s3|s3].
    - destruct B as (X & Y & Z & W). exists s3, true. split; [reflexivity|]. split; [exact X|]. split; [exact Y|]. intros _ _. split; assumption.
    - destruct B as (X & Y & Z). exists s3, false. split; [reflexivity|]. split; [exact X|]. split; [exact Y|discriminate]. }
  destruct BD as (s3 & b3 & -> & K3 & (T3 & M3 & _) & V3).
  assert (O3 : only_below target d (s_disk s3)) by (rewrite <- A2; exact (proj1 K3)).
  destruct b3.
  2: { split; [exact O3|]. split; [rewrite T3, B2; apply tag_grow_same|]. split; [intros _; congruence|]. intros Q. rewrite M3. apply C2, Q. }
  match goal with |- context [match k with Some k => create_vcs_tag o k p message ?x | None => _ end] => set (s4 := x) end.
  assert (S4 : keeps target s3 s4 /\ same_rest s3 s4 /\ s_disk s4 = s_disk s3 /\ (m_skip_tests m = false -> s_errors s4 = [] -> forall c, In c (test_commands o (s_disk s3) source) -> run_test o (s_disk s3) target c = Some true)).
  { unfold s4. destruct (m_skip_tests m); [split; [apply keeps_warn|repeat split; discriminate]|]. destruct (run_tests_spec o source target s3) as (X & Y & Z & W). split; [exact X|]. split; [exact Y|]. split; [exact Z|]. intros _. exact W. }
  destruct S4 as (K4 & (T4 & M4 & _) & D4 & V4).
  match goal with |- context [match k with Some k => generate_changelog o k ?x | None => _ end] => set (s5 := x) end.
  assert (S5 : keeps target s4 s5 /\ s_disk s5 = s_disk s4 /\ s_meta s5 = s_meta s4 /\ tags_grow (tag_name p) (s_tags s4) (s_tags s5) /\ (k = None -> s_tags s5 = s_tags s4) /\
     (forall x, k = Some x -> s_errors s5 = [] -> x <> Hg -> ahas (tag_name p) (s_tags s5) = true)).
  { unfold s5. destruct k as [x|]; [|split; [apply keeps_refl|]; repeat split; auto; discriminate]. destruct (tag_spec o target x p message s4) as (X & Y & Z & W & Q). split; [exact X|]. split; [exact Y|]. split; [exact Z|]. split; [exact W|]. split; [discriminate|].
    intros y [= <-]. exact Q. }
  destruct S5 as (K5 & D5 & M5 & T5 & E5 & V5).
  match goal with |- context [write_metadata o k target ?x] => set (s6 := x) end.
  assert (S6 : keeps target s5 s6 /\ s_disk s6 = s_disk s5 /\ s_tags s6 = s_tags s5 /\ s_meta s6 = s_meta s5 /\ s_errors s6 = s_errors s5).
  { unfold s6. destruct k as [x|]; [apply changelog_spec|split; [apply keeps_refl|repeat split]]. }
  destruct S6 as (K6 & D6 & T6 & M6 & E6).
  destruct (metadata_spec o target k s6 (starts_refl target)) as (K7 & T7 & E7 & M7 & X7). set (s7 := write_metadata o k target s6) in *.
  pose proof (install_spec source target s7) as I8.
  assert (K37 : keeps target s3 s7) by exact (keeps_trans _ _ _ _ K4 (keeps_trans _ _ _ _ K5 (keeps_trans _ _ _ _ K6 K7))).
  assert (O7 : only_below target d (s_disk s7)) by exact (below_trans _ _ _ _ O3 (proj1 K37)).
  assert (T37 : tags_grow (tag_name p) ts (s_tags s7) /\ (k = None -> s_tags s7 = ts)).
  { rewrite T7, T6. replace ts with (s_tags s4) by congruence. split; assumption. }
  assert (M37 : rejected o m source d -> s_meta s7 = None).
  { intros Q. rewrite (M7 (KN Q)), M6, M5, M4, M3. apply C2, Q. }
  destruct (install_definition o source target s7) as [s8|s8] eqn:I; destruct I8 as (K8 & T8 & M8).
  2: { split; [exact (below_trans _ _ _ _ O7 (proj1 K8))|]. rewrite T8, M8. split; [apply T37|]. split; [apply T37|exact M37]. }
  split; [exact (below_trans _ _ _ _ O7 (proj1 K8))|]. rewrite T8, M8. split; [apply T37|]. split; [apply T37|]. split; [reflexivity|]. split; [apply is_nil_true|].
  assert (K38 : keeps target s3 s8) by exact (keeps_trans _ _ _ _ K37 K8).
  split.
  { intros Q. split; [|apply M37, Q]. destruct (keeps_trans _ _ _ _ K3 K38) as (_ & _ & l & E). rewrite E. apply in_or_app. left. rewrite (proj1 (C2 Q)). left. reflexivity. }
  exists s3, s7. split; [exact O3|]. split; [exact O7|]. split; [exact I|]. split; [apply K38|].
  split; [|split].
  - intros SB BT. apply is_nil_true in BT. destruct (V3 eq_refl SB) as [X Y]. split; [exact X|]. apply Y. exact (clean_back _ _ _ K38 BT).
  - intros SB BT. apply is_nil_true in BT. apply V4; [exact SB|]. exact (clean_back _ _ _ (keeps_trans _ _ _ _ K5 (keeps_trans _ _ _ _ K6 (keeps_trans _ _ _ _ K7 K8))) BT).
  - intros x X BT HG. apply is_nil_true in BT. rewrite T7, T6. apply (V5 x X); [|exact HG]. exact (clean_back _ _ _ (keeps_trans _ _ _ _ K6 (keeps_trans _ _ _ _ K7 K8)) BT).
Qed.

(** the definition that a release installs is that of the source *)
Lemma installed m source message d ts p b path s' f n c : usual source -> readable o d source p -> m_mode m <> DryRun -> let target := install_path o (m_mode m) p in
  release o m source message d ts = Done b path s' -> package_file d source f n -> content d f = Some c -> starts_with target f = false -> starts_with target (source ++ T "/package.py") = false ->
  content (s_disk s') (path_join target n) = Some c.
Proof.
  intros U R N. cbn zeta. set (target := install_path o (m_mode m) p). intros E F C B BP. pose proof (release_whole m source message d ts p U R N) as H. cbn zeta in H. fold target in H. rewrite E in H.
  destruct H as (_ & _ & _ & _ & _ & _ & s3 & s7 & _ & O7 & I & _). unfold install_definition in I. rewrite (usual_py source U), (usual_yaml source U) in I.
  assert (J : exists_at (s_disk s7) (source ++ T "/package.py") = exists_at d (source ++ T "/package.py")) by (apply (below_exists target); assumption).
  rewrite J in I.
  assert (G : (if exists_at d (source ++ T "/package.py") then Some (T "package.py") else if exists_at (s_disk s7) (source ++ T "/package.yaml") then Some (T "package.yaml") else None) = Some n /\ path_join source n = f /\ starts_with (T "/") n = false).
  { destruct F as [(-> & -> & _)|(-> & -> & X & Y & _)].
    - rewrite (exists_content _ _ _ C). split; [reflexivity|]. split; [apply usual_py, U|reflexivity].
    - rewrite (not_exists _ _ X Y). rewrite (below_exists target d (s_disk s7) _ O7 B), (exists_content _ _ _ C). split; [reflexivity|]. split; [apply usual_yaml, U|reflexivity]. }
  destruct G as (G & PJ & NS). rewrite G in I. destruct (copy_in (o_refuse o) (s_disk s7) (path_join source n) target n) as [d'|] eqn:Q; [|discriminate I]. injection I as <-.
  destruct (copy_below _ _ _ _ _ _ target Q NS (starts_refl target)) as (_ & _ & _ & c' & C' & W). rewrite PJ in C', W. destruct (O7 f B) as [X _]. cbn. rewrite (W (fun Z => ltac:(rewrite Z, (join_below target n NS) in B; discriminate B))). congruence.
Qed.
(** where nothing is refused and the build is not skipped, a release is done *)
Lemma done m source message d ts p : usual source -> readable o d source p -> m_mode m <> DryRun -> m_skip_build m = false -> nothing_refused (o_refuse o) -> let target := install_path o (m_mode m) p in
  (forall f n, package_file d source f n -> starts_with target f = false) -> starts_with target (source ++ T "/package.py") = false ->
  exists b s', release o m source message d ts = Done b target s'.
Proof.
  intros U R N SB (ND & NW). cbn zeta. set (target := install_path o (m_mode m) p). intros BF BP. pose proof (release_whole m source message d ts p U R N) as H. cbn zeta in H. fold target in H.
  destruct (release o m source message d ts) as [s'|b path s'] eqn:E; [|destruct H as (_ & _ & _ & -> & _); exists b, s'; reflexivity]. exfalso. clear H.
  rewrite (release_parts m source message d ts p U R N) in E. cbn zeta in E. fold target in E. destruct (validated m source d ts) as (s2 & V & A2 & _). rewrite V in E. clear V. rewrite SB in E.
  pose proof (build_spec o hash_name source p target s2 (starts_refl target)) as BS. destruct (build_package o source p target s2) as [s3|s3]; [|destruct BS as (_ & _ & X); rewrite ND in X; discriminate X].
  destruct BS as (K3 & _ & T3 & _). set (k := used o m source d) in *.
  match type of E with context [match k with Some k => create_vcs_tag o k p message ?x | None => _ end] => set (s4 := x) in E end.
  assert (K4 : keeps target s3 s4) by (unfold s4; destruct (m_skip_tests m); [apply keeps_warn|apply run_tests_spec]).
  match type of E with context [match k with Some k => generate_changelog o k ?x | None => _ end] => set (s5 := x) in E end.
  assert (K5 : keeps target s4 s5) by (unfold s5; destruct k; [apply tag_spec|apply keeps_refl]).
  match type of E with context [write_metadata o k target ?x] => set (s6 := x) in E end.
  assert (K6 : keeps target s5 s6) by (unfold s6; destruct k; [apply changelog_spec|apply keeps_refl]).
  destruct (metadata_spec o target k s6 (starts_refl target)) as (K7 & _). set (s7 := write_metadata o k target s6) in *.
  assert (K37 : keeps target s3 s7) by exact (keeps_trans _ _ _ _ K4 (keeps_trans _ _ _ _ K5 (keeps_trans _ _ _ _ K6 K7))).
  assert (O7 : only_below target d (s_disk s7)) by (rewrite <- A2; exact (below_trans _ _ _ _ (proj1 K3) (proj1 K37))).
  assert (T7 : In target (d_dirs (s_disk s7))) by (apply K37, T3).
  destruct R as (f & n & c & F & C & _).
  assert (X : exists s8, install_definition o source target s7 = Go s8).
  { unfold install_definition. rewrite (usual_py source U), (usual_yaml source U). rewrite (below_exists target d (s_disk s7) _ O7 BP).
    assert (Z : copy_in (o_refuse o) (s_disk s7) (path_join source n) target n <> None).
    { unfold copy_in. assert (PJ : path_join source n = f) by (destruct F as [(-> & -> & _)|(-> & -> & _)]; [apply usual_py, U|apply usual_yaml, U]). rewrite PJ. rewrite (proj1 (O7 f (BF f n F))), C.
      unfold write_in. rewrite (proj2 (mem_in _ _) T7), NW. discriminate. }
    destruct (copy_in (o_refuse o) (s_disk s7) (path_join source n) target n) as [d'|] eqn:Q; [|contradiction]. exists (with_disk s7 d').
    destruct F as [(Ff & -> & _)|(Ff & -> & X & Y & _)].
    - subst f. rewrite (exists_content _ _ _ C). rewrite Q. reflexivity.
    - subst f. rewrite (not_exists _ _ X Y). assert (BY : starts_with target (source ++ T "/package.yaml") = false) by (apply (BF _ (T "package.yaml")); right; repeat split; try assumption; exists c; exact C).
      rewrite (below_exists target d (s_disk s7) _ O7 BY), (exists_content _ _ _ C), Q. reflexivity. }
  destruct X as [s8 X]. rewrite X in E. discriminate E.
Qed.
End Whole.
