(** Filters, XML texts, the names of files and whole files. *)
From Verif Require Import Base Base_lemmas Text_lemmas Maps Json Version_model Rex_model Requirement_model Pyfile_model Pkgfile_model Pkgfile_spec Pkgfile_python Pkgfile_loads Pkgfile_writers Pkgfile_proofs.
Open Scope string_scope. Open Scope list_scope.

(** ** Filters *)
Lemma mem_cons x y l : mem_text x (y :: l) = text_eqb x y || mem_text x l.
Proof. reflexivity. Qed.
Lemma exclude_description l : forall p, k_description (fold_left exclude_field l p) = if mem_text (T "description") l then None else k_description p.
Proof.
  induction l as [|x l IH]; intros p; [reflexivity|]. cbn [fold_left]. rewrite IH, mem_cons, (text_eqb_sym _ x). unfold exclude_field.
  destruct (text_eqb x (T "description")) eqn:E1; [destruct (mem_text _ l); reflexivity|]. cbn [orb].
  destruct (text_eqb x (T "help")); [reflexivity|]. destruct (text_eqb x (T "authors")); [reflexivity|]. destruct (text_eqb x (T "tools")); reflexivity.
Qed.
Lemma only_one x a b : text_eqb x (T a) = true -> text_eqb (T a) (T b) = false -> text_eqb x (T b) = false.
Proof. intros E N. apply text_eqb_eq in E. subst x. exact N. Qed.
Lemma exclude_help l : forall p, k_help (fold_left exclude_field l p) = if mem_text (T "help") l then None else k_help p.
Proof.
  induction l as [|x l IH]; intros p; [reflexivity|]. cbn [fold_left]. rewrite IH, mem_cons, (text_eqb_sym _ x). unfold exclude_field.
  destruct (text_eqb x (T "description")) eqn:E1; [rewrite (only_one x _ "help" E1 eq_refl); reflexivity|].
  destruct (text_eqb x (T "help")); [destruct (mem_text _ l); reflexivity|]. destruct (text_eqb x (T "authors")); [reflexivity|]. destruct (text_eqb x (T "tools")); reflexivity.
Qed.
Lemma exclude_authors l : forall p, k_authors (fold_left exclude_field l p) = if mem_text (T "authors") l then [] else k_authors p.
Proof.
  induction l as [|x l IH]; intros p; [reflexivity|]. cbn [fold_left]. rewrite IH, mem_cons, (text_eqb_sym _ x). unfold exclude_field.
  destruct (text_eqb x (T "description")) eqn:E1; [rewrite (only_one x _ "authors" E1 eq_refl); reflexivity|].
  destruct (text_eqb x (T "help")) eqn:E2; [rewrite (only_one x _ "authors" E2 eq_refl); reflexivity|].
  destruct (text_eqb x (T "authors")); [destruct (mem_text _ l); reflexivity|]. destruct (text_eqb x (T "tools")); reflexivity.
Qed.
Lemma exclude_tools l : forall p, k_tools (fold_left exclude_field l p) = if mem_text (T "tools") l then [] else k_tools p.
Proof.
  induction l as [|x l IH]; intros p; [reflexivity|]. cbn [fold_left]. rewrite IH, mem_cons, (text_eqb_sym _ x). unfold exclude_field.
  destruct (text_eqb x (T "description")) eqn:E1; [rewrite (only_one x _ "tools" E1 eq_refl); reflexivity|].
  destruct (text_eqb x (T "help")) eqn:E2; [rewrite (only_one x _ "tools" E2 eq_refl); reflexivity|].
  destruct (text_eqb x (T "authors")) eqn:E3; [rewrite (only_one x _ "tools" E3 eq_refl); reflexivity|].
  destruct (text_eqb x (T "tools")); [destruct (mem_text _ l); reflexivity|reflexivity].
Qed.
(** the package without the four fields that can be left out *)
Definition bare (p : pkg) : pkg := set_description None (set_help None (set_authors [] (set_tools [] p))).
Lemma exclude_bare l : forall p, bare (fold_left exclude_field l p) = bare p.
Proof.
  induction l as [|x l IH]; intros p; [reflexivity|]. cbn [fold_left]. rewrite IH. unfold exclude_field.
  destruct (text_eqb x (T "description")); [reflexivity|]. destruct (text_eqb x (T "help")); [reflexivity|].
  destruct (text_eqb x (T "authors")); [reflexivity|]. destruct (text_eqb x (T "tools")); reflexivity.
Qed.
Ltac incl IH := intros q; cbn [fold_left]; rewrite IH, mem_cons, (text_eqb_sym _ _); unfold include_field.
Section Include.
Context (from : pkg).
Let step := include_field from.
Ltac go x l s :=
  repeat (match goal with |- context [text_eqb x (T ?a)] => destruct (text_eqb x (T a)) eqn:?E; [try (match goal with E0 : text_eqb x (T ?b) = true |- context [text_eqb x (T s)] => rewrite (only_one x b s E0 eq_refl) end); cbn [orb]; try (destruct (mem_text (T s) l); reflexivity); try reflexivity|] end);
  cbn [orb]; try reflexivity; destruct (mem_text (T s) l); reflexivity.
Lemma include_version l : forall q, k_version (fold_left step l q) = if mem_text (T "version") l then k_version from else k_version q.
Proof. induction l as [|x l IH]; intros q; [reflexivity|]. cbn [fold_left]. rewrite IH, mem_cons, (text_eqb_sym _ x). unfold step, include_field. go x l "version". Qed.
Lemma include_description l : forall q, k_description (fold_left step l q) = if mem_text (T "description") l then k_description from else k_description q.
Proof. induction l as [|x l IH]; intros q; [reflexivity|]. cbn [fold_left]. rewrite IH, mem_cons, (text_eqb_sym _ x). unfold step, include_field. go x l "description". Qed.
Lemma include_authors l : forall q, k_authors (fold_left step l q) = if mem_text (T "authors") l then k_authors from else k_authors q.
Proof. induction l as [|x l IH]; intros q; [reflexivity|]. cbn [fold_left]. rewrite IH, mem_cons, (text_eqb_sym _ x). unfold step, include_field. go x l "authors". Qed.
Lemma include_requires l : forall q, k_requires (fold_left step l q) = if mem_text (T "requires") l then k_requires from else k_requires q.
Proof. induction l as [|x l IH]; intros q; [reflexivity|]. cbn [fold_left]. rewrite IH, mem_cons, (text_eqb_sym _ x). unfold step, include_field. go x l "requires". Qed.
Lemma include_build_requires l : forall q, k_build_requires (fold_left step l q) = if mem_text (T "build_requires") l then k_build_requires from else k_build_requires q.
Proof. induction l as [|x l IH]; intros q; [reflexivity|]. cbn [fold_left]. rewrite IH, mem_cons, (text_eqb_sym _ x). unfold step, include_field. go x l "build_requires". Qed.
Lemma include_variants l : forall q, k_variants (fold_left step l q) = if mem_text (T "variants") l then k_variants from else k_variants q.
Proof. induction l as [|x l IH]; intros q; [reflexivity|]. cbn [fold_left]. rewrite IH, mem_cons, (text_eqb_sym _ x). unfold step, include_field. go x l "variants". Qed.
Lemma include_tools l : forall q, k_tools (fold_left step l q) = if mem_text (T "tools") l then k_tools from else k_tools q.
Proof. induction l as [|x l IH]; intros q; [reflexivity|]. cbn [fold_left]. rewrite IH, mem_cons, (text_eqb_sym _ x). unfold step, include_field. go x l "tools". Qed.
(** the package without the seven fields that can be asked for *)
Definition plainest (p : pkg) : pkg :=
  set_version None (set_description None (set_authors [] (set_requires [] (set_build_requires [] (set_variants [] (set_tools [] p)))))).
Lemma include_plainest l : forall q, plainest (fold_left step l q) = plainest q.
Proof.
  induction l as [|x l IH]; intros q; [reflexivity|]. cbn [fold_left]. rewrite IH. unfold step, include_field.
  repeat (match goal with |- context [text_eqb x (T ?a)] => destruct (text_eqb x (T a)); [reflexivity|] end). reflexivity.
Qed.
End Include.
(** a field is in the list that is asked for *)
Definition left_out (o : options) (x : text) : bool := match o_exclude o with Some l => mem_text x l | None => false end.
Definition excluded (o : options) (p : pkg) : pkg := match o_exclude o with Some l => fold_left exclude_field l p | None => p end.
Lemma excluded_bare o p : bare (excluded o p) = bare p.
Proof. unfold excluded. destruct (o_exclude o); [apply exclude_bare|reflexivity]. Qed.
Lemma bare_fields p q : bare p = bare q ->
  k_name p = k_name q /\ k_version p = k_version q /\ k_requires p = k_requires q /\ k_build_requires p = k_build_requires q /\ k_variants p = k_variants q /\
  k_private_build_requires p = k_private_build_requires q /\ k_tests p = k_tests q /\ k_timestamp p = k_timestamp q /\ k_format_version p = k_format_version q /\ k_previous_version p = k_previous_version q.
Proof. intros E. destruct p, q. unfold bare in E. cbn in E. injection E. intros. cbn. repeat split; assumption. Qed.
Lemma filter_split o p : filter_fields o p = match o_only o with Some l => fold_left (include_field (excluded o p)) l (new_pkg (k_name (excluded o p))) | None => excluded o p end.
Proof. reflexivity. Qed.
Lemma filter_name o p : k_name (filter_fields o p) = k_name p.
Proof.
  rewrite filter_split. pose proof (bare_fields _ _ (excluded_bare o p)) as (E & _). destruct (o_only o) as [l|]; [|exact E].
  pose proof (include_plainest (excluded o p) l (new_pkg (k_name (excluded o p)))) as H. apply (f_equal k_name) in H. exact (eq_trans H E).
Qed.
Lemma filter_version o p : k_version (filter_fields o p) = if asked o (T "version") then k_version p else None.
Proof.
  rewrite filter_split. unfold asked. pose proof (bare_fields _ _ (excluded_bare o p)) as (_ & E & _). destruct (o_only o) as [l|]; [|exact E].
  rewrite include_version, E. reflexivity.
Qed.
Lemma filter_requires o p : k_requires (filter_fields o p) = if asked o (T "requires") then k_requires p else [].
Proof.
  rewrite filter_split. unfold asked. pose proof (bare_fields _ _ (excluded_bare o p)) as (_ & _ & E & _). destruct (o_only o) as [l|]; [|exact E].
  rewrite include_requires, E. reflexivity.
Qed.
Lemma filter_build_requires o p : k_build_requires (filter_fields o p) = if asked o (T "build_requires") then k_build_requires p else [].
Proof.
  rewrite filter_split. unfold asked. pose proof (bare_fields _ _ (excluded_bare o p)) as (_ & _ & _ & E & _). destruct (o_only o) as [l|]; [|exact E].
  rewrite include_build_requires, E. reflexivity.
Qed.
Lemma filter_variants o p : k_variants (filter_fields o p) = if asked o (T "variants") then k_variants p else [].
Proof.
  rewrite filter_split. unfold asked. pose proof (bare_fields _ _ (excluded_bare o p)) as (_ & _ & _ & _ & E & _). destruct (o_only o) as [l|]; [|exact E].
  rewrite include_variants, E. reflexivity.
Qed.
Lemma excluded_description o p : k_description (excluded o p) = if left_out o (T "description") then None else k_description p.
Proof. unfold excluded, left_out. destruct (o_exclude o); [apply exclude_description|reflexivity]. Qed.
Lemma excluded_authors o p : k_authors (excluded o p) = if left_out o (T "authors") then [] else k_authors p.
Proof. unfold excluded, left_out. destruct (o_exclude o); [apply exclude_authors|reflexivity]. Qed.
Lemma excluded_tools o p : k_tools (excluded o p) = if left_out o (T "tools") then [] else k_tools p.
Proof. unfold excluded, left_out. destruct (o_exclude o); [apply exclude_tools|reflexivity]. Qed.
Lemma kept_split o x : kept o x = negb (left_out o x) && asked o x.
Proof. unfold kept, left_out, asked. destruct (o_exclude o); reflexivity. Qed.
Lemma filter_description o p : k_description (filter_fields o p) = if kept o (T "description") then k_description p else None.
Proof.
  rewrite filter_split, kept_split. unfold asked. pose proof (excluded_description o p) as E. destruct (o_only o) as [l|].
  - rewrite include_description, E. destruct (mem_text _ l); destruct (left_out o _); reflexivity.
  - rewrite E. destruct (left_out o _); reflexivity.
Qed.
Lemma filter_authors o p : k_authors (filter_fields o p) = if kept o (T "authors") then k_authors p else [].
Proof.
  rewrite filter_split, kept_split. unfold asked. pose proof (excluded_authors o p) as E. destruct (o_only o) as [l|].
  - rewrite include_authors, E. destruct (mem_text _ l); destruct (left_out o _); reflexivity.
  - rewrite E. destruct (left_out o _); reflexivity.
Qed.
Lemma filter_tools o p : k_tools (filter_fields o p) = if kept o (T "tools") then k_tools p else [].
Proof.
  rewrite filter_split, kept_split. unfold asked. pose proof (excluded_tools o p) as E. destruct (o_only o) as [l|].
  - rewrite include_tools, E. destruct (mem_text _ l); destruct (left_out o _); reflexivity.
  - rewrite E. destruct (left_out o _); reflexivity.
Qed.
(** everything else is lost as soon as fields are asked for, and kept otherwise *)
Lemma filter_rest o p : set_help None (plainest (filter_fields o p)) = set_help None (plainest match o_only o with Some _ => new_pkg (k_name p) | None => p end).
Proof.
  rewrite filter_split. pose proof (bare_fields _ _ (excluded_bare o p)) as (E & _). destruct (o_only o) as [l|].
  - rewrite include_plainest, E. reflexivity.
  - pose proof (excluded_bare o p) as B. apply (f_equal plainest) in B. exact B.
Qed.
Lemma filter_help o p : k_help (filter_fields o p) = match o_only o with Some _ => None | None => if left_out o (T "help") then None else k_help p end.
Proof.
  rewrite filter_split. destruct (o_only o) as [l|].
  - pose proof (include_plainest (excluded o p) l (new_pkg (k_name (excluded o p)))) as H. apply (f_equal k_help) in H. exact H.
  - unfold excluded, left_out. destruct (o_exclude o); [apply exclude_help|reflexivity].
Qed.
Lemma filter_none o p : o_only o = None -> o_exclude o = None -> filter_fields o p = p.
Proof. intros E1 E2. unfold filter_fields. rewrite E1, E2. reflexivity. Qed.
Lemma if_list_in {A} (b : bool) (l : list A) x : In x (if b then l else []) -> In x l.
Proof. destruct b; [auto|intros []]. Qed.
Lemma filter_acceptable o p : acceptable p -> acceptable (filter_fields o p).
Proof.
  intros (A & B & C & D & E & F & G). unfold acceptable. rewrite filter_name, filter_version, filter_requires, filter_build_requires, filter_variants.
  split; [exact A|]. split; [exact B|]. split. { intros v. destruct (asked o _); [exact (C v)|discriminate]. }
  split. { intros I. apply if_list_in in I. exact (D I). } split. { intros I. apply if_list_in in I. exact (E I). } split.
  { pose proof (filter_rest o p) as H. apply (f_equal k_private_build_requires) in H. change (k_private_build_requires (filter_fields o p) = k_private_build_requires match o_only o with Some _ => new_pkg (k_name p) | None => p end) in H.
    rewrite H. destruct (o_only o); [intros []|exact F]. }
  intros l I. apply if_list_in in I. exact (G l I).
Qed.
Lemma filter_version_ok o p : version_ok (k_version p) -> version_ok (k_version (filter_fields o p)).
Proof. intros V. rewrite filter_version. destruct (asked o _); [exact V|exact I]. Qed.
Lemma filter_versions_ok o p : versions_ok p -> versions_ok (filter_fields o p).
Proof.
  intros [V1 V2]. split; [apply filter_version_ok, V1|]. pose proof (filter_rest o p) as H. apply (f_equal k_previous_version) in H.
  change (k_previous_version (filter_fields o p) = k_previous_version match o_only o with Some _ => new_pkg (k_name p) | None => p end) in H. rewrite H. destruct (o_only o); [exact I|exact V2].
Qed.
Lemma filter_sized o p : sized p -> sized (filter_fields o p).
Proof.
  intros (S1 & S2 & S3). pose proof (filter_rest o p) as H.
  pose proof (f_equal k_timestamp H) as H1. pose proof (f_equal k_format_version H) as H2. pose proof (f_equal k_tests H) as H3.
  change (k_timestamp (filter_fields o p) = k_timestamp match o_only o with Some _ => new_pkg (k_name p) | None => p end) in H1.
  change (k_format_version (filter_fields o p) = k_format_version match o_only o with Some _ => new_pkg (k_name p) | None => p end) in H2.
  change (k_tests (filter_fields o p) = k_tests match o_only o with Some _ => new_pkg (k_name p) | None => p end) in H3.
  unfold sized. rewrite H1, H2, H3. destruct (o_only o); [|exact (conj S1 (conj S2 S3))]. cbn. split; [discriminate|]. split; [discriminate|]. constructor.
Qed.
Lemma filter_plain o p : plain_eight p -> plain_eight (filter_fields o p).
Proof.
  intros (P1 & P2 & P3 & P4 & P5 & P6 & P7 & P8). unfold plain_eight, opt_version. rewrite filter_name, filter_version, filter_description, filter_authors, filter_requires, filter_build_requires, filter_variants, filter_tools.
  unfold opt_version in P2.
  split; [exact P1|]. split; [destruct (asked o _); [exact P2|exact I]|]. split; [destruct (kept o _); [exact P3|exact I]|].
  split; [intros s I; apply if_list_in in I; exact (P4 s I)|]. split; [intros s I; apply if_list_in in I; exact (P5 s I)|]. split; [intros s I; apply if_list_in in I; exact (P6 s I)|].
  split; [intros s I; apply if_list_in in I; exact (P7 s I)|]. intros s I. apply if_list_in in I. exact (P8 s I).
Qed.

(** ** XML *)
Notation LT := "<"%char.
Lemma find_skip y pre s : ~ In LT pre -> find_text (LT :: y) (pre ++ s) = match find_text (LT :: y) s with Some n => Some (length pre + n) | None => None end.
Proof.
  induction pre as [|c pre IH]; intros N; [change ([] ++ s) with s; destruct (find_text (LT :: y) s); reflexivity|].
  cbn [app length]. change (find_text (LT :: y) (c :: pre ++ s)) with (if starts_with (LT :: y) (c :: pre ++ s) then Some 0 else let* n := find_text (LT :: y) (pre ++ s) in Some (S n)). assert (E : starts_with (LT :: y) (c :: pre ++ s) = false).
  { cbn [starts_with]. destruct (Ascii.eqb_spec LT c) as [<-|_]; [exfalso; apply N; left; reflexivity|reflexivity]. }
  rewrite E, IH by (intros I; apply N; right; exact I). destruct (find_text (LT :: y) s); reflexivity.
Qed.
Lemma find_tag y t s : ~ In LT t -> starts_with y (t ++ s) = false -> find_text (LT :: y) (LT :: t ++ s) = match find_text (LT :: y) s with Some n => Some (S (length t) + n) | None => None end.
Proof.
  intros N E. change (find_text (LT :: y) (LT :: t ++ s)) with (if starts_with (LT :: y) (LT :: t ++ s) then Some 0 else let* n := find_text (LT :: y) (t ++ s) in Some (S n)). assert (E' : starts_with (LT :: y) (LT :: t ++ s) = false) by (cbn [starts_with]; rewrite Ascii.eqb_refl; exact E).
  rewrite E', find_skip by exact N. destruct (find_text (LT :: y) s); reflexivity.
Qed.
Lemma slice_shift pre s i j : slice (pre ++ s) (length pre + i) (length pre + j) = slice s i j.
Proof.
  unfold slice. assert (E : Nat.ltb (length pre + j) (length pre + i) = Nat.ltb j i).
  { destruct (Nat.ltb_spec j i); destruct (Nat.ltb_spec (length pre + j) (length pre + i)); lia || reflexivity. }
  rewrite E. destruct (Nat.ltb j i); [reflexivity|]. replace (length pre + j - (length pre + i)) with (j - i) by lia. rewrite skipn_app.
  rewrite (skipn_all2 pre) by lia. replace (length pre + i - length pre) with i by lia. reflexivity.
Qed.
Definition op (x : text) : text := x ++ T ">".
Definition cl (x : text) : text := "/"%char :: x ++ T ">".
Lemma between_eq x s : between x s = (let* i := find_text (LT :: op x) s in let* j := find_text (LT :: cl x) s in Some (slice s (i + S (length (op x))) j)).
Proof. reflexivity. Qed.
Lemma between_pre x pre s : ~ In LT pre -> between x (pre ++ s) = between x s.
Proof.
  intros N. rewrite !between_eq, !find_skip by exact N. destruct (find_text (LT :: op x) s) as [i|]; [|reflexivity]. destruct (find_text (LT :: cl x) s) as [j|]; [|reflexivity].
  rewrite <- Nat.add_assoc, slice_shift. reflexivity.
Qed.
Lemma between_tag x t s : ~ In LT t -> starts_with (op x) (t ++ s) = false -> starts_with (cl x) (t ++ s) = false -> between x (LT :: t ++ s) = between x s.
Proof.
  intros N E1 E2. rewrite !between_eq, (find_tag (op x)), (find_tag (cl x)) by assumption.
  destruct (find_text (LT :: op x) s) as [i|]; [|reflexivity]. destruct (find_text (LT :: cl x) s) as [j|]; [|reflexivity].
  rewrite <- Nat.add_assoc. rewrite (slice_shift (LT :: t) s). reflexivity.
Qed.
Lemma starts_refl p s : starts_with p (p ++ s) = true.
Proof. apply starts_with_app. Qed.
Lemma between_hit x body s : ~ In LT x -> ~ In LT body -> (forall r, starts_with (cl x) (x ++ r) = false) -> between x (tagged x body ++ s) = Some (Ok body).
Proof.
  intros Nx Nb Nc. rewrite between_eq.
  assert (E0 : tagged x body ++ s = LT :: x ++ ">"%char :: body ++ T "</" ++ x ++ T ">" ++ s) by (unfold tagged; rewrite <- !app_assoc; reflexivity). rewrite E0. clear E0.
  assert (E1 : find_text (LT :: op x) (LT :: x ++ ">"%char :: body ++ T "</" ++ x ++ T ">" ++ s) = Some 0).
  { cbn [find_text]. assert (E : starts_with (LT :: op x) (LT :: x ++ ">"%char :: body ++ T "</" ++ x ++ T ">" ++ s) = true).
    { cbn [starts_with]. rewrite Ascii.eqb_refl. replace (x ++ ">"%char :: body ++ T "</" ++ x ++ T ">" ++ s) with (op x ++ body ++ T "</" ++ x ++ T ">" ++ s) by (unfold op; rewrite <- app_assoc; reflexivity). apply starts_refl. }
    rewrite E. reflexivity. }
  assert (E2 : find_text (LT :: cl x) (LT :: x ++ ">"%char :: body ++ T "</" ++ x ++ T ">" ++ s) = Some (S (length (op x)) + length body)).
  { replace (x ++ ">"%char :: body ++ T "</" ++ x ++ T ">" ++ s) with ((op x ++ body) ++ LT :: cl x ++ s) by (unfold op, cl; rewrite <- !app_assoc; cbn [app]; rewrite <- !app_assoc; reflexivity).
    rewrite find_tag.
    - cbn [find_text]. assert (E : starts_with (LT :: cl x) (LT :: cl x ++ s) = true) by (cbn [starts_with]; rewrite Ascii.eqb_refl; apply starts_refl). rewrite E, app_length. f_equal. lia.
    - unfold op. intros I. apply in_app_or in I. destruct I as [I|I]; [|exact (Nb I)]. apply in_app_or in I. destruct I as [I|[I|[]]]; [exact (Nx I)|discriminate I].
    - unfold op. rewrite <- !app_assoc. apply Nc. }
  rewrite E1, E2. f_equal. unfold slice. replace (Nat.ltb (S (length (op x)) + length body) (0 + S (length (op x)))) with false by (symmetry; apply Nat.ltb_ge; lia).
  replace (S (length (op x)) + length body - (0 + S (length (op x)))) with (length body) by lia.
  replace (LT :: x ++ ">"%char :: body ++ T "</" ++ x ++ T ">" ++ s) with ((LT :: op x) ++ body ++ T "</" ++ x ++ T ">" ++ s) by (unfold op; cbn [app]; rewrite <- app_assoc; reflexivity).
  rewrite skipn_app. change (0 + S (length (op x))) with (length (LT :: op x)). rewrite skipn_all, Nat.sub_diag. cbn [app skipn]. rewrite firstn_app, firstn_all, Nat.sub_diag. cbn [firstn]. rewrite app_nil_r. reflexivity.
Qed.
(** two tags that cannot be taken for each other *)
Definition apart (x y : text) : Prop := forall r,
  starts_with (op x) (op y ++ r) = false /\ starts_with (cl x) (op y ++ r) = false /\ starts_with (op x) (cl y ++ r) = false /\ starts_with (cl x) (cl y ++ r) = false.
Lemma between_open x y a s : apart x y -> ~ In LT y -> ~ In LT a -> between x (LT :: (op y ++ a) ++ s) = between x s.
Proof.
  intros Ap Ny Na. apply between_tag.
  - unfold op. intros I. apply in_app_or in I. destruct I as [I|I]; [|exact (Na I)]. apply in_app_or in I. destruct I as [I|[I|[]]]; [exact (Ny I)|discriminate I].
  - rewrite <- app_assoc. apply Ap.
  - rewrite <- app_assoc. apply Ap.
Qed.
Lemma between_close x y a s : apart x y -> ~ In LT y -> ~ In LT a -> between x (LT :: (cl y ++ a) ++ s) = between x s.
Proof.
  intros Ap Ny Na. apply between_tag.
  - unfold cl. intros I. apply in_app_or in I. destruct I as [I|I]; [|exact (Na I)]. destruct I as [I|I]; [discriminate I|]. apply in_app_or in I. destruct I as [I|[I|[]]]; [exact (Ny I)|discriminate I].
  - rewrite <- app_assoc. apply Ap.
  - rewrite <- app_assoc. apply Ap.
Qed.
Lemma between_tagged x y a s : apart x y -> ~ In LT y -> ~ In LT a -> between x (tagged y a ++ s) = between x s.
Proof.
  intros Ap Ny Na. assert (E : tagged y a ++ s = LT :: (op y ++ a) ++ LT :: (cl y ++ []) ++ s).
  { unfold tagged, op, cl. rewrite app_nil_r. rewrite <- !app_assoc. cbn [app]. rewrite <- !app_assoc. reflexivity. }
  rewrite E, between_open, between_close by (assumption || intros []). reflexivity.
Qed.
Lemma no_lt_spaces : ~ In LT (T "  ") /\ ~ In LT (T "    ") /\ ~ In LT [NL].
Proof. repeat split; intros I; cbn in I; repeat (destruct I as [I|I]; [discriminate I|]); exact I. Qed.
Lemma between_nl x s : between x (NL :: s) = between x s.
Proof. apply (between_pre x [NL]). apply no_lt_spaces. Qed.
Lemma between_line x y a s : apart x y -> ~ In LT y -> ~ In LT a -> between x (ln (T "  " ++ tagged y a) ++ s) = between x s.
Proof.
  intros Ap Ny Na. unfold ln. rewrite <- !app_assoc. rewrite between_pre by apply no_lt_spaces. rewrite between_tagged by assumption. apply between_nl.
Qed.
Lemma between_list x outer inner (l : list text) s : apart x outer -> apart x inner -> ~ In LT outer -> ~ In LT inner -> (forall a, In a l -> ~ In LT a) ->
  between x (xml_list outer inner l ++ s) = between x s.
Proof.
  intros A1 A2 N1 N2 H. unfold xml_list. destruct (is_nil l); [reflexivity|]. rewrite <- !app_assoc.
  assert (E1 : forall r, between x (ln (T "  <" ++ outer ++ T ">") ++ r) = between x r).
  { intros r. replace (ln (T "  <" ++ outer ++ T ">") ++ r) with (T "  " ++ LT :: (op outer ++ [NL]) ++ r) by (unfold ln, op; rewrite <- !app_assoc; reflexivity).
    rewrite between_pre by apply no_lt_spaces. apply between_open; [exact A1|exact N1|apply no_lt_spaces]. }
  assert (E3 : forall r, between x (ln (T "  </" ++ outer ++ T ">") ++ r) = between x r).
  { intros r. replace (ln (T "  </" ++ outer ++ T ">") ++ r) with (T "  " ++ LT :: (cl outer ++ [NL]) ++ r) by (unfold ln, cl; rewrite <- !app_assoc; cbn [app]; rewrite <- !app_assoc; reflexivity).
    rewrite between_pre by apply no_lt_spaces. apply between_close; [exact A1|exact N1|apply no_lt_spaces]. }
  rewrite E1. transitivity (between x (ln (T "  </" ++ outer ++ T ">") ++ s)); [|apply E3]. clear E1 E3. generalize (ln (T "  </" ++ outer ++ T ">") ++ s). intros r.
  induction l as [|a l IH]; [reflexivity|]. cbn [map concat]. rewrite <- app_assoc. unfold ln at 1. rewrite <- !app_assoc. rewrite between_pre by apply no_lt_spaces.
  rewrite between_tagged by (assumption || (apply H; left; reflexivity)). cbn [app]. rewrite between_nl. apply IH. intros b Hb. apply H. right. exact Hb.
Qed.
Ltac lt_free := let I := fresh in intros I; cbn in I; repeat (destruct I as [I|I]; [discriminate I|]); exact I.
Ltac apart_ok := intros r; repeat split; reflexivity.
Definition xml_header (o : options) : text :=
  if o_pretty o then ln (T "<?xml version=" ++ quoted (T "1.0") ++ T " encoding=" ++ quoted (T "UTF-8") ++ T "?>") else [].
Lemma between_header x o s : In x [T "name"; T "version"; T "description"] -> between x (xml_header o ++ ln (T "<package>") ++ s) = between x s.
Proof.
  intros Hx. assert (P : between x (ln (T "<package>") ++ s) = between x s).
  { change (ln (T "<package>") ++ s) with (LT :: (op (T "package") ++ [NL]) ++ s). apply between_open; [|lt_free|apply no_lt_spaces].
    destruct Hx as [<-|[<-|[<-|[]]]]; apart_ok. }
  unfold xml_header. destruct (o_pretty o); [|exact P].
  transitivity (between x (ln (T "<package>") ++ s)); [|exact P].
  change (ln (T "<?xml version=" ++ quoted (T "1.0") ++ T " encoding=" ++ quoted (T "UTF-8") ++ T "?>") ++ ln (T "<package>") ++ s)
    with (LT :: (T "?xml version=" ++ quoted (T "1.0") ++ T " encoding=" ++ quoted (T "UTF-8") ++ T "?>" ++ [NL]) ++ ln (T "<package>") ++ s).
  apply between_tag; [lt_free| |]; destruct Hx as [<-|[<-|[<-|[]]]]; reflexivity.
Qed.
Lemma load_save_xml o p : version_ok (k_version p) -> tagless_five p -> load_xml (save_xml o p) = Ok (only_three p).
Proof.
  intros V (N1 & N2 & N3 & N4 & N5).
  assert (X : save_xml o p = xml_header o ++ ln (T "<package>") ++ ln (T "  " ++ tagged (T "name") (k_name p)) ++
    match k_version p with Some v => ln (T "  " ++ tagged (T "version") (v_str v)) | None => [] end ++
    match k_description p with Some d => ln (T "  " ++ tagged (T "description") d) | None => [] end ++
    xml_list (T "authors") (T "author") (k_authors p) ++ xml_list (T "requires") (T "requirement") (k_requires p) ++ ln (T "</package>")) by reflexivity.
  assert (En : between (T "name") (save_xml o p) = Some (Ok (k_name p))).
  { rewrite X, between_header by (cbn; tauto). unfold ln at 1. rewrite <- !app_assoc. rewrite between_pre by apply no_lt_spaces. apply between_hit; [lt_free|exact N1|reflexivity]. }
  assert (Tl : forall x, In x [T "version"; T "description"] ->
    between x (xml_list (T "authors") (T "author") (k_authors p) ++ xml_list (T "requires") (T "requirement") (k_requires p) ++ ln (T "</package>")) = None).
  { intros x Hx. destruct Hx as [<-|[<-|[]]]; (rewrite between_list by (apart_ok || lt_free || exact N4); rewrite between_list by (apart_ok || lt_free || exact N5); reflexivity). }
  assert (Ev : between (T "version") (save_xml o p) = match k_version p with Some v => Some (Ok (v_str v)) | None => None end).
  { rewrite X, between_header by (cbn; tauto). rewrite between_line by (apart_ok || lt_free || exact N1). destruct (k_version p) as [v|].
    - unfold ln at 1. rewrite <- !app_assoc. rewrite between_pre by apply no_lt_spaces. apply between_hit; [lt_free|exact (N2 v eq_refl)|reflexivity].
    - cbn [app]. destruct (k_description p) as [d|]; [rewrite between_line by (apart_ok || lt_free || exact (N3 d eq_refl))|cbn [app]]; apply Tl; cbn; tauto. }
  assert (Ed : between (T "description") (save_xml o p) = match k_description p with Some d => Some (Ok d) | None => None end).
  { rewrite X, between_header by (cbn; tauto). rewrite between_line by (apart_ok || lt_free || exact N1).
    assert (Sv : forall s, between (T "description") (match k_version p with Some v => ln (T "  " ++ tagged (T "version") (v_str v)) | None => [] end ++ s) = between (T "description") s).
    { intros s. destruct (k_version p) as [v|]; [apply between_line; [apart_ok|lt_free|exact (N2 v eq_refl)]|reflexivity]. }
    rewrite Sv. destruct (k_description p) as [d|]; [|cbn [app]; apply Tl; cbn; tauto].
    unfold ln at 1. rewrite <- !app_assoc. rewrite between_pre by apply no_lt_spaces. apply between_hit; [lt_free|exact (N3 d eq_refl)|reflexivity]. }
  unfold load_xml. rewrite En, Ev, Ed. unfold only_three. destruct (k_version p) as [v|]; destruct (k_description p) as [d|]; cbn [bind put_if]; cbn [version_ok] in V; try rewrite V; reflexivity.
Qed.

(** ** The names of files *)
Lemma path_parts_last d n : ~ In "/"%char n -> n <> [] -> n <> T "." -> path_parts (d ++ "/"%char :: n) = path_parts d ++ [n].
Proof.
  intros N1 N2 N3. unfold path_parts. rewrite split_on_app_gen, filter_app, (split_on_none _ n N1). f_equal. cbn [filter].
  destruct n as [|c n]; [contradiction|]. cbn [is_nil orb]. destruct (text_eqb (c :: n) (T ".")) eqn:E; [apply text_eqb_eq in E; contradiction|reflexivity].
Qed.
Lemma file_name_last d n : ~ In "/"%char n -> n <> [] -> n <> T "." -> n <> T ".." -> file_name (d ++ "/"%char :: n) = Some n.
Proof.
  intros N1 N2 N3 N4. unfold file_name. rewrite path_parts_last by assumption. rewrite rev_app_distr. cbn [rev app].
  destruct (text_eqb n (T "..")) eqn:E; [apply text_eqb_eq in E; contradiction|reflexivity].
Qed.
Lemma ends_app x d n : length x <= length n -> ends_with x (d ++ n) = ends_with x n.
Proof.
  intros H. unfold ends_with. rewrite rev_app_distr. rewrite <- (rev_length x), <- (rev_length n) in H. revert H. generalize (rev x) (rev n) (rev d). clear.
  intros p s r. revert s. induction p as [|c p IH]; intros s H; [destruct s; reflexivity|]. destruct s as [|e s]; [cbn in H; lia|].
  cbn [app starts_with]. rewrite IH; [reflexivity|cbn in H; lia].
Qed.
Lemma format_of_default d f : from_extension (d ++ "/"%char :: default_filename f) = Some f.
Proof.
  unfold from_extension, extension. rewrite file_name_last by (destruct f; (discriminate || (intros I; cbn in I; repeat (destruct I as [I|I]; [discriminate I|]); exact I))).
  assert (E : forall x, length x <= 9 -> ends_with x (d ++ "/"%char :: default_filename f) = ends_with x ("/"%char :: default_filename f)).
  { intros x H. apply ends_app. destruct f; cbn [default_filename length T]; cbn; lia. }
  rewrite (E (T ".yaml.gz")), (E (T ".yml.gz")), (E (T ".json.gz")) by (cbn; lia). destruct f; reflexivity.
Qed.
