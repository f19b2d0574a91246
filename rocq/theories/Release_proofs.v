(** Proofs about the release manager. *)
From Verif Require Import Base Base_lemmas Maps Range_model Query_model Release_model Release_spec.
Open Scope string_scope.
Open Scope list_scope.

(** ** paths *)
Lemma join_below a b : starts_with (T "/") b = false -> starts_with a (path_join a b) = true.
Proof. intros H. unfold path_join. rewrite H. apply starts_with_spec. destruct (is_nil a || ends_with (T "/") a); [exists b|exists (T "/" ++ b)]; reflexivity. Qed.
Lemma starts_trans a b c : starts_with a b = true -> starts_with b c = true -> starts_with a c = true.
Proof. rewrite !starts_with_spec. intros [x ->] [y ->]. exists (x ++ y). rewrite app_assoc. reflexivity. Qed.
Lemma usual_ends p : usual p -> is_nil p || ends_with (T "/") p = false.
Proof.
  intros (a & c & -> & H). apply orb_false_iff. split; [destruct a; reflexivity|]. destruct (ends_with (T "/") (a ++ [c])) eqn:E; [|reflexivity].
  apply ends_with_spec in E as [r E]. apply app_inj_tail in E as [_ E]. contradiction.
Qed.
Lemma join_usual p x : usual p -> starts_with (T "/") x = false -> path_join p x = p ++ T "/" ++ x.
Proof. intros U H. unfold path_join. rewrite H, (usual_ends p U). reflexivity. Qed.
Lemma mem_in x l : mem_text x l = true <-> In x l.
Proof. unfold mem_text. rewrite existsb_exists. split; [intros (y & H & E); apply text_eqb_eq in E as ->; exact H|intros H; exists x; split; [exact H|apply text_eqb_eq; reflexivity]]. Qed.
Lemma is_nil_true {A} (l : list A) : is_nil l = true <-> l = [].
Proof. destruct l; cbn; split; congruence. Qed.
Lemma nil_false {A} (l : list A) : is_nil l = false <-> l <> [].
Proof. destruct l; cbn; split; congruence. Qed.

(** ** the disk *)
Lemma below_refl r d : only_below r d d.
Proof. intros p _. split; [reflexivity|tauto]. Qed.
Lemma below_trans r a b c : only_below r a b -> only_below r b c -> only_below r a c.
Proof. intros H K p N. destruct (H p N) as [A B], (K p N) as [C D]. split; [congruence|tauto]. Qed.
Lemma make_dir_below f d p d' r : make_dir f d p = Some d' -> starts_with r p = true -> only_below r d d' /\ In p (d_dirs d') /\ (forall q, In q (d_dirs d) -> In q (d_dirs d')) /\ d_files d' = d_files d.
Proof.
  unfold make_dir. destruct (no_dir f p); [discriminate|]. intros [= <-] H. destruct (mem_text p (d_dirs d)) eqn:M.
  - apply mem_in in M. cbn. split; [intros q N; split; [reflexivity|tauto]|]. split; [exact M|]. split; [tauto|reflexivity].
  - cbn. split; [|split; [apply in_or_app; right; left; reflexivity|split; [intros q J; apply in_or_app; left; exact J|reflexivity]]].
    intros q N. split; [reflexivity|]. cbn. rewrite in_app_iff. split; [intros [J|[E|[]]]; [exact J|]; subst; congruence|tauto].
Qed.
Lemma write_below f d dir n c d' r : write_in f d dir n c = Some d' -> starts_with (T "/") n = false -> starts_with r dir = true ->
  only_below r d d' /\ d_dirs d' = d_dirs d /\ content d' (path_join dir n) = Some c /\ In dir (d_dirs d).
Proof.
  unfold write_in. destruct (mem_text dir (d_dirs d)) eqn:M; [|discriminate]. destruct (no_write f (path_join dir n)); [discriminate|]. cbn. intros [= <-] N H. cbn.
  split; [|split; [reflexivity|split; [unfold content; cbn; apply aget_put_same|apply mem_in, M]]].
  intros q Q. split; [|tauto]. unfold content. cbn. apply aget_put_other. intros ->. rewrite (starts_trans r dir _ H (join_below dir n N)) in Q. discriminate Q.
Qed.
Lemma copy_below f d src dir n d' r : copy_in f d src dir n = Some d' -> starts_with (T "/") n = false -> starts_with r dir = true ->
  only_below r d d' /\ d_dirs d' = d_dirs d /\ In dir (d_dirs d) /\ exists c, content d src = Some c /\ (src <> path_join dir n -> content d' (path_join dir n) = Some c).
Proof.
  unfold copy_in. destruct (content d src) as [c|] eqn:E; [|discriminate]. intros H N S. destruct (write_below _ _ _ _ _ _ r H N S) as (A & B & C & D).
  split; [exact A|]. split; [exact B|]. split; [exact D|]. exists c. split; [reflexivity|]. intros X. rewrite C. destruct (text_eqb src (path_join dir n)) eqn:Q; [apply text_eqb_eq in Q; contradiction|reflexivity].
Qed.
Lemma below_exists r d d' p : only_below r d d' -> starts_with r p = false -> exists_at d' p = exists_at d p.
Proof.
  intros H N. destruct (H p N) as [A B]. unfold exists_at, content in *. f_equal.
  - apply eq_true_iff_eq. rewrite !ahas_in, <- !aget_some. rewrite A. tauto.
  - apply eq_true_iff_eq. rewrite !mem_in. exact B.
Qed.

Section Steps.
Context (o : around) (hash_name : forall v, starts_with (T "/") (o_hash o v) = false).

(** what a step keeps: the disk changes below the target, tags and metadata stay, errors are added *)
Definition keeps (r : text) (s s' : st) : Prop :=
  only_below r (s_disk s) (s_disk s') /\ (forall q, In q (d_dirs (s_disk s)) -> In q (d_dirs (s_disk s'))) /\ exists l, s_errors s' = s_errors s ++ l.
Lemma keeps_refl r s : keeps r s s.
Proof. split; [apply below_refl|]. split; [tauto|]. exists []. rewrite app_nil_r. reflexivity. Qed.
Lemma keeps_trans r a b c : keeps r a b -> keeps r b c -> keeps r a c.
Proof. intros (A & B & l & E) (C & D & l' & F). split; [exact (below_trans _ _ _ _ A C)|]. split; [auto|]. exists (l ++ l'). rewrite F, E, app_assoc. reflexivity. Qed.
Lemma keeps_same r s s' : s_disk s' = s_disk s -> (exists l, s_errors s' = s_errors s ++ l) -> keeps r s s'.
Proof. intros E H. split; [rewrite E; apply below_refl|]. split; [rewrite E; tauto|exact H]. Qed.
Lemma keeps_warn r s n : keeps r s (warn s n).
Proof. apply keeps_same; [reflexivity|]. exists []. cbn. rewrite app_nil_r. reflexivity. Qed.
Lemma keeps_err r s p : keeps r s (err s p).
Proof. apply keeps_same; [reflexivity|]. exists [p]. reflexivity. Qed.
Lemma keeps_disk r s d : only_below r (s_disk s) d -> (forall q, In q (d_dirs (s_disk s)) -> In q (d_dirs d)) -> keeps r s (with_disk s d).
Proof. intros A B. split; [exact A|]. split; [exact B|]. exists []. cbn. rewrite app_nil_r. reflexivity. Qed.
Lemma clean_back r s s' : keeps r s s' -> s_errors s' = [] -> s_errors s = [].
Proof. intros (_ & _ & l & E) H. rewrite H in E. symmetry in E. apply app_eq_nil in E. tauto. Qed.
(** the same tags, metadata and changelog *)
Definition same_rest (s s' : st) : Prop := s_tags s' = s_tags s /\ s_meta s' = s_meta s /\ s_log s' = s_log s.
Lemma same_trans a b c : same_rest a b -> same_rest b c -> same_rest a c.
Proof. intros (A & B & C) (D & E & F). repeat split; congruence. Qed.

Lemma build_variant_spec source target s v : keeps target s (build_variant o source target s v) /\ same_rest s (build_variant o source target s v) /\
  (In (path_join target (o_hash o v)) (d_dirs (s_disk (build_variant o source target s v))) \/ In (NoVariantDir (o_hash o v)) (s_errors (build_variant o source target s v))).
Proof.
  unfold build_variant. set (dir := path_join target (o_hash o v)). assert (B : starts_with target dir = true) by (apply join_below, hash_name).
  destruct (make_dir (o_refuse o) (s_disk s) dir) as [d|] eqn:M.
  2: { split; [apply keeps_err|]. split; [repeat split|]. right. cbn. apply in_or_app. right. left. reflexivity. }
  destruct (make_dir_below _ _ _ _ target M B) as (A1 & A2 & A3 & _).
  set (s1 := with_disk s d). assert (K1 : keeps target s s1) by (apply keeps_disk; assumption).
  match goal with |- context [write_in _ (s_disk ?x) _ _ _] => set (s2 := x) end.
  assert (K2 : keeps target s1 s2 /\ same_rest s1 s2 /\ d_dirs (s_disk s2) = d_dirs d).
  { unfold s2. destruct (exists_at d (path_join source (T "package.py"))); [|split; [apply keeps_refl|split; [repeat split|reflexivity]]].
    destruct (copy_in (o_refuse o) d _ dir (T "package.py")) as [d'|] eqn:C; [|split; [apply keeps_warn|split; [repeat split|reflexivity]]].
    destruct (copy_below _ _ _ _ _ _ target C eq_refl B) as (C1 & C2 & _). split; [apply keeps_disk; [exact C1|rewrite C2; tauto]|]. split; [repeat split|exact C2]. }
  destruct K2 as (K2 & R2 & D2).
  match goal with |- context [warn ?x (VariantMade _)] => set (s3 := x) end.
  assert (K3 : keeps target s2 s3 /\ same_rest s2 s3 /\ d_dirs (s_disk s3) = d_dirs (s_disk s2)).
  { unfold s3. destruct (write_in (o_refuse o) (s_disk s2) dir (T "variant.json") _) as [d'|] eqn:C; [|split; [apply keeps_warn|split; [repeat split|reflexivity]]].
    destruct (write_below _ _ _ _ _ _ target C eq_refl B) as (C1 & C2 & _). split; [apply keeps_disk; [exact C1|rewrite C2; tauto]|]. split; [repeat split|exact C2]. }
  destruct K3 as (K3 & R3 & D3).
  split; [exact (keeps_trans _ _ _ _ (keeps_trans _ _ _ _ (keeps_trans _ _ _ _ K1 K2) K3) (keeps_warn _ _ _))|].
  split; [apply (same_trans _ s1); [repeat split|]; apply (same_trans _ s2); [exact R2|]; apply (same_trans _ s3); [exact R3|repeat split]|].
  left. cbn. rewrite D3, D2. exact A2.
Qed.
Lemma build_variants_spec source target vs : forall s, keeps target s (fold_left (build_variant o source target) vs s) /\ same_rest s (fold_left (build_variant o source target) vs s) /\
  forall v, In v vs -> In (path_join target (o_hash o v)) (d_dirs (s_disk (fold_left (build_variant o source target) vs s))) \/ In (NoVariantDir (o_hash o v)) (s_errors (fold_left (build_variant o source target) vs s)).
Proof.
  induction vs as [|v vs IH]; intros s; cbn [fold_left]; [split; [apply keeps_refl|split; [repeat split|intros v []]]|].
  destruct (build_variant_spec source target s v) as (A & B & C). destruct (IH (build_variant o source target s v)) as (D & E & F).
  split; [exact (keeps_trans _ _ _ _ A D)|]. split; [exact (same_trans _ _ _ B E)|]. intros w [<-|J]; [|apply F, J].
  destruct D as (_ & D1 & l & D2). destruct C as [C|C]; [left; apply D1, C|right; rewrite D2; apply in_or_app; left; exact C].
Qed.
Lemma build_spec source p target s : starts_with target target = true ->
  match build_package o source p target s with
  | Go s' => keeps target s s' /\ same_rest s s' /\ In target (d_dirs (s_disk s')) /\
             (s_errors s' = [] -> forall v, In v (k_variants p) -> In (path_join target (o_hash o v)) (d_dirs (s_disk s')))
  | Stop s' => keeps target s s' /\ same_rest s s' /\ no_dir (o_refuse o) target = true
  end.
Proof.
  intros TT. unfold build_package. destruct (make_dir (o_refuse o) (s_disk s) target) as [d|] eqn:M.
  2: { split; [apply keeps_err|]. split; [repeat split|]. unfold make_dir in M. destruct (no_dir (o_refuse o) target); [reflexivity|discriminate M]. }
  destruct (make_dir_below _ _ _ _ target M TT) as (A1 & A2 & A3 & _). set (s1 := with_disk s d). assert (K1 : keeps target s s1) by (apply keeps_disk; assumption).
  destruct (k_variants p) as [|v vs].
  - assert (K : forall s2, keeps target s1 s2 /\ same_rest s1 s2 /\ d_dirs (s_disk s2) = d_dirs d ->
       keeps target s s2 /\ same_rest s s2 /\ In target (d_dirs (s_disk s2)) /\ (s_errors s2 = [] -> forall v, In v [] -> In (path_join target (o_hash o v)) (d_dirs (s_disk s2)))).
    { intros s2 (P & Q & R). split; [exact (keeps_trans _ _ _ _ K1 P)|]. split; [apply (same_trans _ s1); [repeat split|exact Q]|]. split; [rewrite R; exact A2|intros _ w []]. }
    apply K. destruct (exists_at d (path_join source (T "package.py"))); [|split; [apply keeps_warn|split; [repeat split|reflexivity]]].
    destruct (copy_in (o_refuse o) d _ target (T "package.py")) as [d'|] eqn:C.
    + destruct (copy_below _ _ _ _ _ _ target C eq_refl TT) as (C1 & C2 & _). split; [|split; [repeat split|exact C2]].
      apply (keeps_trans _ _ (warn s1 NoVariants)); [apply keeps_warn|]. apply keeps_disk; [exact C1|cbn; rewrite C2; tauto].
    + split; [|split; [repeat split|reflexivity]]. apply (keeps_trans _ _ (warn s1 NoVariants)); apply keeps_warn.
  - destruct (build_variants_spec source target (v :: vs) (warn s1 (ManyVariants (length (v :: vs))))) as (D & E & F).
    assert (K : keeps target s1 (fold_left (build_variant o source target) (v :: vs) (warn s1 (ManyVariants (length (v :: vs)))))) by (apply (keeps_trans _ _ (warn s1 (ManyVariants (length (v :: vs))))); [apply keeps_warn|exact D]).
    split; [exact (keeps_trans _ _ _ _ K1 K)|]. split; [apply (same_trans _ (warn s1 (ManyVariants (length (v :: vs))))); [repeat split|exact E]|].
    split; [destruct K as (_ & K & _); apply K; exact A2|]. intros N w J. destruct (F w J) as [X|X]; [exact X|]. rewrite N in X. destruct X.
Qed.
Lemma run_all_spec target cs : forall i s, keeps target s (run_all o target i cs s) /\ same_rest s (run_all o target i cs s) /\ s_disk (run_all o target i cs s) = s_disk s /\
  (s_errors (run_all o target i cs s) = [] -> forall c, In c cs -> run_test o (s_disk s) target c = Some true).
Proof.
  induction cs as [|c cs IH]; intros i s; cbn [run_all]; [split; [apply keeps_refl|split; [repeat split|split; [reflexivity|intros _ c []]]]|].
  match goal with |- context [run_all o target (S i) cs ?x] => set (s1 := x) end.
  assert (K : keeps target s s1 /\ same_rest s s1 /\ s_disk s1 = s_disk s /\ (s_errors s1 = [] -> run_test o (s_disk s) target c = Some true)).
  { unfold s1. destruct (run_test o (s_disk s) target c) as [[|]|].
    - split; [apply keeps_refl|]. repeat split.
    - split; [apply keeps_err|]. split; [repeat split|]. split; [reflexivity|]. cbn. intros H. apply app_eq_nil in H as [_ H]. discriminate H.
    - split; [apply keeps_err|]. split; [repeat split|]. split; [reflexivity|]. cbn. intros H. apply app_eq_nil in H as [_ H]. discriminate H. }
  destruct K as (A & B & C & D). destruct (IH (S i) s1) as (E & F & G & H).
  split; [exact (keeps_trans _ _ _ _ A E)|]. split; [exact (same_trans _ _ _ B F)|]. split; [congruence|]. intros N x [<-|J].
  - apply D. exact (clean_back _ _ _ E N).
  - rewrite <- C. apply H; assumption.
Qed.
Lemma run_tests_spec source target s : keeps target s (run_tests o source target s) /\ same_rest s (run_tests o source target s) /\ s_disk (run_tests o source target s) = s_disk s /\
  (s_errors (run_tests o source target s) = [] -> forall c, In c (test_commands o (s_disk s) source) -> run_test o (s_disk s) target c = Some true).
Proof.
  unfold run_tests. destruct (test_commands o (s_disk s) source) as [|c cs]; [|apply run_all_spec]. split; [apply keeps_warn|]. repeat split. intros _ c [].
Qed.
Lemma tag_grow_same t ts : tags_grow t ts ts.
Proof. split; auto. Qed.
Lemma create_tag_grow k v ts t m ts' : create_tag k v ts t m = Some ts' -> tags_grow t ts ts' /\ ahas t ts' = true.
Proof.
  unfold create_tag. destruct (v_make v); [|discriminate]. cbn. destruct (ahas t ts) eqn:H.
  - destruct k; try discriminate. intros [= <-]. split; [apply tag_grow_same|exact H].
  - intros [= <-]. split; [split|].
    + intros n x E. rewrite aget_put_other; [exact E|]. intros ->. assert (J : In t (akeys ts)) by (apply aget_some; exists x; exact E). apply ahas_in in J. congruence.
    + intros n N. apply aget_put_other, N.
    + apply ahas_in, akeys_put. left. reflexivity.
Qed.
Lemma tag_spec target k p message s : let s' := create_vcs_tag o k p message s in
  keeps target s s' /\ s_disk s' = s_disk s /\ s_meta s' = s_meta s /\ tags_grow (tag_name p) (s_tags s) (s_tags s') /\ (s_errors s' = [] -> k <> Hg -> ahas (tag_name p) (s_tags s') = true).
Proof.
  cbn. unfold create_vcs_tag.
  assert (P : forall s1, keeps target s s1 -> s_disk s1 = s_disk s -> s_meta s1 = s_meta s -> s_tags s1 = s_tags s ->
    let s' := match create_tag k (o_repo o k) (s_tags s1) (tag_name p) (match message with Some m => m | None => T "Release " ++ tag_name p end) with
              | Some ts => warn (with_tags s1 ts) (Tagged (tag_name p)) | None => err s1 NotTagged end in
    keeps target s s' /\ s_disk s' = s_disk s /\ s_meta s' = s_meta s /\ tags_grow (tag_name p) (s_tags s) (s_tags s') /\ (s_errors s' = [] -> k <> Hg -> ahas (tag_name p) (s_tags s') = true)).
  { intros s1 K D M E. cbn zeta. destruct (create_tag _ _ _ _ _) as [ts|] eqn:C.
    - apply create_tag_grow in C as [G H]. cbn. rewrite E in G. split; [|repeat split; try assumption; intros; apply H || apply G; assumption].
      destruct K as (K1 & K2 & K3). split; [exact K1|]. split; [exact K2|exact K3].
    - split; [apply (keeps_trans _ _ s1); [exact K|apply keeps_err]|]. split; [exact D|]. split; [exact M|]. cbn. rewrite E. split; [apply tag_grow_same|]. intros H. apply app_eq_nil in H as [_ H]. discriminate H. }
  destruct (tag_exists k (o_repo o k) (s_tags s) (tag_name p)) as [[|]|] eqn:X.
  - split; [apply keeps_warn|]. repeat split; auto. intros _ N. cbn. unfold tag_exists in X. destruct (v_lookup (o_repo o k)); [|discriminate X]. destruct k; [injection X as X; exact X|contradiction|injection X as X; exact X].
  - apply P; try reflexivity. apply keeps_refl.
  - apply P; try reflexivity. apply keeps_warn.
Qed.
Lemma changelog_spec target k s : keeps target s (generate_changelog o k s) /\ s_disk (generate_changelog o k s) = s_disk s /\ s_tags (generate_changelog o k s) = s_tags s /\
  s_meta (generate_changelog o k s) = s_meta s /\ s_errors (generate_changelog o k s) = s_errors s.
Proof. unfold generate_changelog. destruct (v_log (o_repo o k)); [|split; [apply keeps_warn|repeat split]]. split; [|repeat split]. apply keeps_same; [reflexivity|]. exists []. cbn. rewrite app_nil_r. reflexivity. Qed.
Lemma metadata_spec target k s : starts_with target target = true -> let s' := write_metadata o k target s in keeps target s s' /\ s_tags s' = s_tags s /\ s_errors s' = s_errors s /\ (k = None -> s_meta s' = s_meta s) /\ d_dirs (s_disk s') = d_dirs (s_disk s).
Proof.
  intros TT. cbn. unfold write_metadata. destruct k as [k|]; [|split; [apply keeps_warn|repeat split]]. destruct (v_meta (o_repo o k)) as [m|]; [|split; [apply keeps_warn|repeat split]].
  destruct (write_in (o_refuse o) (s_disk s) target (T "vcs_metadata.json") m) as [d|] eqn:W; [|split; [apply keeps_warn|repeat split]].
  destruct (write_below _ _ _ _ _ _ target W eq_refl TT) as (A & B & _). split; [|repeat split; [discriminate|exact B]].
  split; [exact A|]. split; [cbn; rewrite B; tauto|]. exists []. cbn. rewrite app_nil_r. reflexivity.
Qed.
Lemma validate_spec source s : let (k, s') := validate_vcs o source s in
  s_disk s' = s_disk s /\ s_tags s' = s_tags s /\
  match detect (s_disk s) source with
  | None => k = None /\ s_errors s' = s_errors s /\ s_meta s' = s_meta s
  | Some x => if valid_state x (o_repo o x) then k = Some x /\ s_errors s' = s_errors s else k = None /\ s_errors s' = s_errors s ++ [NotValid] /\ s_meta s' = s_meta s
  end.
Proof.
  unfold validate_vcs. destruct (detect (s_disk s) source) as [x|]; [|repeat split]. destruct (valid_state x (o_repo o x)); [|repeat split]. destruct (v_meta (o_repo o x)); repeat split.
Qed.
Lemma load_ok source s p s' : load_package o source s = (p, s') -> s_errors s = [] -> s_errors s' = [] -> s' = s /\ k_name p <> [] /\ k_version p <> None.
Proof.
  unfold load_package. intros L E0 E.
  repeat match type of L with (match ?x with _ => _ end) = _ => destruct x | (if ?x then _ else _, _) = _ => destruct x end; injection L as <- <-; cbn in E; rewrite ?E0 in E;
    repeat match goal with H : context [match ?x with _ => _ end] |- _ => destruct x eqn:?; cbn in H; rewrite ?E0 in H end; try discriminate E.
  all: split; [reflexivity|]; split; [apply nil_false; assumption|congruence].
Qed.
End Steps.
