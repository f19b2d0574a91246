(** Binding and the disk. *)
From Verif Require Import Base Base_lemmas Maps Sorting Version_model Rex_model Range_model Requirement_model.
From Verif Require Import Files_model Files_spec Files_proofs Bind_model Bind_spec Bind_text Bind_files.
From Verif Require Diff_command.
Open Scope string_scope. Open Scope list_scope.

Lemma put_empty p y : exists x', put p y (Dir []) = Some x'.
Proof. induction p as [|c p IH]; [exists y; reflexivity|]. cbn. destruct IH as (z & ->). eexists. reflexivity. Qed.
Lemma put_way p y : forall x, (forall q r, p = q ++ r -> r <> [] -> get q x = None \/ a_dir q x) -> exists x', put p y x = Some x'.
Proof.
  induction p as [|c p IH]; intros x W; [exists y; reflexivity|].
  destruct (W [] (c :: p) eq_refl) as [H|(es & H)]; [discriminate|discriminate H|]. cbn in H. injection H as ->. cbn [put].
  destruct (aget c es) as [z|] eqn:E.
  - destruct (IH z) as (z' & ->); [|eexists; reflexivity]. intros q r -> N. destruct (W (c :: q) r eq_refl N) as [H|(fs & H)]; cbn [get] in H; rewrite E in H; [left; exact H|right; exists fs; exact H].
  - destruct (put_empty p y) as (z' & ->). eexists. reflexivity.
Qed.
Lemma app_ne {A} (p : list A) (c : A) r : p <> p ++ c :: r.
Proof. intros H. assert (L := f_equal (@length A) H). rewrite app_length in L. cbn in L. lia. Qed.
Lemma make_works p x : way p x -> exists x1, make_dirs p x = Some x1 /\ (forall q r, p = q ++ r -> a_dir q x1 \/ get q x1 = None) /\ a_dir p x1 /\ (x1 = x \/ (get p x = None /\ put p (Dir []) x = Some x1)).
Proof.
  intros W. unfold make_dirs. destruct (W p []) as [N|(es & E)]; [rewrite app_nil_r; reflexivity| |].
  - rewrite N. destruct (put_way p (Dir []) x) as (x1 & P); [intros q r -> _; apply (W q r eq_refl)|]. exists x1. split; [exact P|]. split; [|split; [exists []; apply (get_put_same _ _ _ _ P)|right; auto]].
    intros q r ->. left. destruct r as [|c r]; [rewrite app_nil_r in *; exists []; apply (get_put_same _ _ _ _ P)|].
    destruct (get_put_dir _ _ q _ _ P) as (es & E); [apply under_app|apply app_ne|exists es; exact E].
  - rewrite E. exists x. split; [reflexivity|]. split; [intros q r H; destruct (W q r H); tauto|]. split; [exists es; exact E|left; reflexivity].
Qed.
Lemma write_works dir c x : free dir x -> exists x', write_package dir c x = (true, x').
Proof.
  intros [W N]. unfold write_package. destruct (make_works dir x W) as (x1 & -> & D & _ & K). unfold write_file.
  assert (F : is_dir (dir ++ [T "package.py"]) x1 = false).
  { unfold is_dir. destruct K as [->|[G P]].
    - destruct (get (dir ++ [T "package.py"]) x) as [[| | |es]|] eqn:E; try reflexivity. exfalso. apply N. exists es. exact E.
    - rewrite (get_put_under _ _ [T "package.py"] _ _ P). reflexivity. }
  rewrite F. destruct (put_way (dir ++ [T "package.py"]) (File c) x1) as (x' & ->); [|exists x'; reflexivity].
  intros q r E Nr. destruct (exists_last Nr) as (r' & d & ->). rewrite app_assoc in E. apply app_inj_tail in E. destruct E as [E _]. destruct (D q r' E); tauto.
Qed.
Lemma write_frame dir c x ok x' q : write_package dir c x = (ok, x') -> apart dir q -> get q x' = get q x.
Proof.
  unfold write_package, make_dirs. intros H A.
  assert (K : forall x1, (match get dir x with Some (Dir _) => Some x | Some _ => None | None => put dir (Dir []) x end) = Some x1 -> get q x1 = get q x).
  { intros x1 E. destruct (get dir x) as [[| | |es]|]; try discriminate E; [injection E as <-; reflexivity|]. apply (get_put_apart _ _ _ _ _ E A). }
  destruct (match get dir x with Some (Dir _) => Some x | Some _ => None | None => put dir (Dir []) x end) as [x1|]; [|injection H as _ <-; reflexivity].
  unfold write_file in H. destruct (is_dir _ x1); [injection H as _ <-; apply K, eq_refl|]. destruct (put (dir ++ [T "package.py"]) (File c) x1) as [x2|] eqn:P; injection H as _ <-; [|apply K, eq_refl].
  etransitivity; [|apply K, eq_refl]. apply (get_put_apart _ _ _ _ _ P). 
  apply (apart_under dir q (dir ++ [T "package.py"])); [exact A|apply under_app].
Qed.
Lemma write_done dir c x x' : write_package dir c x = (true, x') -> get (pkg_file dir) x' = Some (File c).
Proof.
  unfold write_package, write_file. destruct (make_dirs dir x) as [x1|]; [|discriminate]. destruct (is_dir _ x1); [discriminate|]. destruct (put _ (File c) x1) as [x2|] eqn:P; [|discriminate].
  intros H. injection H as <-. apply (get_put_same _ _ _ _ P).
Qed.
(** what else is in the directory stays *)
Lemma write_beside dir c x x' ok q : write_package dir c x = (ok, x') -> a_dir dir x -> apart (pkg_file dir) q -> get q x' = get q x.
Proof.
  unfold write_package, make_dirs, write_file. intros H (es & E) A. rewrite E in H. destruct (is_dir _ x); [injection H as _ <-; reflexivity|]. destruct (put _ (File c) x) as [x2|] eqn:P; injection H as _ <-; [|reflexivity].
  apply (get_put_apart _ _ _ _ _ P A).
Qed.
Lemma make_there p x : a_dir p x -> make_dirs p x = Some x.
Proof. intros (es & E). unfold make_dirs. rewrite E. reflexivity. Qed.
Lemma dir_of root name v : name <> [] -> v <> [] -> package_dir root name v = at_version root name v.
Proof. intros N V. unfold package_dir, add_part, at_version. destruct name; [contradiction|]. destruct v; [contradiction|]. cbn [is_nil]. rewrite <- app_assoc. reflexivity. Qed.
Lemma spec_plain n : ~ In "-"%char n -> parse_spec n = (n, None).
Proof. intros N. unfold parse_spec, rfind_char. rewrite (proj2 (Requirement_text.find_char_none "-" (rev n))) by (intros I; apply N, in_rev, I). reflexivity. Qed.
Lemma spec_version n v : ~ In "-"%char v -> (match v with c :: _ => is_digit c = true | [] => False end) -> parse_spec (n ++ "-"%char :: v) = (n, Some v).
Proof. intros N D. unfold parse_spec. rewrite Diff_command.rfind_some by exact N. destruct v as [|c v]; [destruct D|]. rewrite D. reflexivity. Qed.
Lemma bind_one_works w root nd name x v : name <> [] -> version_for w name <> [] -> parse_version (version_for w name) = Some v -> free (at_version root name (version_for w name)) x ->
  exists x', bind_one w root nd name x = (Some (at_version root name (version_for w name)), x') /\
    get (pkg_file (at_version root name (version_for w name))) x' = Some (File (package_text w nd name)).
Proof.
  intros N V P F. unfold bind_one. rewrite P, (dir_of root name _ N V). destruct (write_works _ (package_text w nd name) x F) as (x' & E). rewrite E. exists x'. split; [reflexivity|]. apply (write_done _ _ _ _ E).
Qed.
Lemma command_one w root nd name x : ~ In "-"%char name -> a_dir root x -> bind_command w root nd name x = bind_one w root nd name x.
Proof. intros N D. unfold bind_command. rewrite (make_there root x D), (spec_plain name N). reflexivity. Qed.
Lemma add_under p c : under p (add_part p c).
Proof. unfold add_part. destruct (is_nil c); [apply under_refl|apply under_app]. Qed.
Lemma bind_one_frame w root nd name x o x' q : bind_one w root nd name x = (o, x') -> apart (add_part root name) q -> get q x' = get q x.
Proof.
  unfold bind_one. intros H A. destruct (parse_version _); [|injection H as _ <-; reflexivity]. destruct (write_package _ _ x) as [ok x1] eqn:W. injection H as _ <-.
  apply (write_frame _ _ _ _ _ q W). apply (apart_under (add_part root name) q); [exact A|]. unfold package_dir. apply add_under.
Qed.
Lemma bind_each_frame w root names : forall x l x' q, bind_each w root names x = (l, x') -> (forall n, In n names -> apart (add_part root n) q) -> get q x' = get q x.
Proof.
  induction names as [|n names IH]; intros x l x' q H A; [injection H as _ <-; reflexivity|]. cbn [bind_each] in H. destruct (bind_one w root true n x) as [o x1] eqn:B. destruct (bind_each w root names x1) as [l2 x2] eqn:R. injection H as _ <-.
  rewrite (IH _ _ _ q R) by (intros m M; apply A; right; exact M). apply (bind_one_frame _ _ _ _ _ _ _ _ B). apply A. left. reflexivity.
Qed.
(** detection *)
Lemma which_line w c p e : s_run w (T "which") [c] = Some (mkPrinted true (lines [p]) e) -> a_line p -> trim p = p -> p <> [] -> which w c = Some p.
Proof.
  intros H A Tp N. unfold which. rewrite H. cbn [pr_ok pr_out]. unfold first_line. rewrite lines_of by (intros l [<-|[]]; exact A). rewrite Tp. destruct p; [contradiction|reflexivity].
Qed.
Lemma parent_of d f : d <> [] -> ~ In "/"%char f -> parent_dir (d ++ "/"%char :: f) = d.
Proof. intros N F. unfold parent_dir. rewrite Diff_command.rfind_some by exact F. destruct d; [contradiction|reflexivity]. Qed.
Lemma prefixed_detect w name p ls l ms a b v r : In name [T "cmake"; T "git"; T "clang"] -> s_run w name [T "--version"] = Some p -> pr_ok p = true -> pr_out p = lines (ls ++ l :: ms) ->
  (forall m, In m (ls ++ l :: ms) -> a_line m) -> (forall m, In m ls -> without (name ++ T " version") m) -> first_at (name ++ T " version") l a (b ++ v ++ r) -> no_digit b -> numbers v -> over r ->
  detect w name = Some (mkDetected v (which w name) []).
Proof.
  intros I R O E A W F B V C. assert (D : detect w name = detect_prefixed w name). { destruct I as [<-|[<-|[<-|[]]]]; reflexivity. }
  rewrite D. unfold detect_prefixed, try_program. rewrite R, O, E. rewrite (number_after_text (name ++ T " version") ls l ms a b v r A W F B (numbers_run v V) C). reflexivity.
Qed.
(** ** Listing *)
Lemma get_tidy p : forall x y, tidy x -> get p x = Some y -> tidy y.
Proof.
  induction p as [|c p IH]; intros x y Tx H; [injection H as <-; exact Tx|]. destruct x as [| | |es]; try discriminate H. cbn [get] in H. destruct (aget c es) as [z|] eqn:E; [|discriminate H].
  apply (IH z y); [|exact H]. apply tidy_dir in Tx. destruct Tx as [_ F]. rewrite Forall_forall in F. apply (F (c, z)), aget_in, E.
Qed.
Lemma versions_in es v : NoDup (akeys es) -> In v (bound_versions es) <-> exists fs, aget v es = Some (Dir fs) /\ aget (T "package.py") fs <> None.
Proof.
  intros N. unfold bound_versions. rewrite in_map_iff. split.
  - intros ([k z] & <- & H). apply filter_In in H. cbn [fst snd] in *. destruct H as [H K]. destruct z as [| | |fs]; try discriminate K. exists fs. split; [apply (aget_nodup k _ _ N H)|].
    unfold exists_at in K. cbn [get] in K. destruct (aget _ fs); [discriminate|discriminate K].
  - intros (fs & E & F). exists (v, Dir fs). split; [reflexivity|]. apply filter_In. split; [apply aget_in, E|]. cbn [snd]. unfold exists_at. cbn [get]. destruct (aget _ fs); [reflexivity|contradiction].
Qed.
Lemma there_iff root f v x es : get root x = Some (Dir es) ->
  (a_dir (at_version root f v) x /\ get (pkg_file (at_version root f v)) x <> None) <-> exists gs fs, aget f es = Some (Dir gs) /\ aget v gs = Some (Dir fs) /\ aget (T "package.py") fs <> None.
Proof.
  intros E. unfold a_dir, at_version, pkg_file. rewrite <- app_assoc, !get_app, E. cbn [app get]. split.
  - intros [(fs & H) K]. destruct (aget f es) as [g|]; [|discriminate H]. destruct g as [| | |gs]; try discriminate H. destruct (aget v gs) as [z|] eqn:Z; [|discriminate H]. injection H as ->. exists gs, fs. split; [reflexivity|]. split; [exact Z|].
    destruct (aget (T "package.py") fs); [discriminate|contradiction].
  - intros (gs & fs & -> & -> & K). split; [exists fs; reflexivity|]. destruct (aget (T "package.py") fs); [discriminate|contradiction].
Qed.
Lemma listed_in root x es f vs : get root x = Some (Dir es) -> tidy x ->
  In (f, vs) (list_bound root x) <-> exists gs, aget f es = Some (Dir gs) /\ bound_versions gs <> [] /\ vs = sort_by text_cmp (bound_versions gs).
Proof.
  intros E Tx. assert (Te := get_tidy root x _ Tx E). apply tidy_dir in Te. destruct Te as [N _]. unfold list_bound. rewrite E, sort_in, in_flat_map. split.
  - intros ([k z] & I & H). unfold family_of in H. cbn [fst snd] in H. destruct z as [| | |gs]; try (destruct H; fail). destruct (is_nil (bound_versions gs)) eqn:B; [destruct H|]. destruct H as [H|[]]. injection H as <- <-.
    exists gs. split; [apply (aget_nodup k _ _ N I)|]. split; [intros H; rewrite H in B; discriminate B|reflexivity].
  - intros (gs & I & B & ->). exists (f, Dir gs). split; [apply aget_in, I|]. unfold family_of. cbn [fst snd]. destruct (bound_versions gs) as [|v r]; [contradiction|]. left. reflexivity.
Qed.
(** ** The library *)
Lemma bind_tool_version w root name o x : o_version o = None -> bind_tool w root name o x =
  match extract_version (tool_output w (match (if o_search o then which w name else None) with Some p => p | None => name end)) with
  | None => (inr (VersionNotFound name), x)
  | Some v => bind_tool w root name (mkOptions (Some v) (o_force o) (o_extra o) (o_search o)) x
  end.
Proof. intros V. unfold bind_tool. rewrite V. cbn [o_version o_force o_extra o_search]. destruct (extract_version _); reflexivity. Qed.
Lemma bind_tool_good w root name o x b x' : bind_tool w root name o x = (inl b, x') -> b_name b = name /\ b_dir b = package_dir root name (b_version b) /\
  b_path b = (if o_search o then which w name else None) /\ (forall v, o_version o = Some v -> b_version b = v) /\
  get (pkg_file (b_dir b)) x' = Some (File (lib_text name (b_version b) (b_path b) (o_extra o))) /\ (o_force o = false -> get (b_dir b) x = None).
Proof.
  unfold bind_tool. set (e := if o_search o then which w name else None).
  destruct (match o_version o with Some v => Some v | None => extract_version (tool_output w match e with Some p => p | None => name end) end) as [v|] eqn:V; [|discriminate].
  destruct (exists_at (package_dir root name v) x && negb (o_force o)) eqn:X; [discriminate|]. destruct (write_package _ _ x) as [ok x1] eqn:W. destruct ok; [|discriminate]. intros H. injection H as <- <-. cbn [b_name b_dir b_path b_version].
  split; [reflexivity|]. split; [reflexivity|]. split; [reflexivity|]. split; [intros u U; rewrite U in V; congruence|]. split; [apply (write_done _ _ _ _ W)|].
  intros F. rewrite F in X. rewrite andb_true_r in X. apply exists_at_none, X.
Qed.
Lemma bind_tool_frame w root name o x r x' q : bind_tool w root name o x = (r, x') -> apart (add_part root name) q -> get q x' = get q x.
Proof.
  unfold bind_tool. set (e := if o_search o then which w name else None). intros H A.
  destruct (match o_version o with Some v => Some v | None => extract_version (tool_output w match e with Some p => p | None => name end) end) as [v|]; [|injection H as _ <-; reflexivity].
  destruct (exists_at (package_dir root name v) x && negb (o_force o)); [injection H as _ <-; reflexivity|]. destruct (write_package _ _ x) as [ok x1] eqn:W. injection H as _ <-.
  apply (write_frame _ _ _ _ _ q W). apply (apart_under (add_part root name) q); [exact A|]. unfold package_dir. apply add_under.
Qed.
Lemma bind_tool_never w root name o x r x' : bind_tool w root name o x = (r, x') -> r <> inr (ToolNotFound name).
Proof.
  unfold bind_tool. set (e := if o_search o then which w name else None). intros H ->.
  destruct (match o_version o with Some v => Some v | None => extract_version (tool_output w match e with Some p => p | None => name end) end) as [v|]; [|discriminate H].
  destruct (exists_at (package_dir root name v) x && negb (o_force o)); [discriminate H|]. destruct (write_package _ _ x) as [ok x1]. destruct ok; discriminate H.
Qed.
Lemma programs_name w root name exes o : forall x b x', bind_programs w root name exes o x = (inl b, x') -> In (b_name b) exes.
Proof.
  induction exes as [|e r IH]; intros x b x' H; [discriminate H|]. cbn [bind_programs] in H. destruct (bind_tool w root e _ x) as [[b1|er] x1] eqn:B.
  - injection H as <- <-. apply bind_tool_good in B. left. symmetry. apply B.
  - destruct er; try discriminate H; right; apply (IH _ _ _ H).
Qed.
(** ** The version of the operating system *)
Lemma drop_both_quoted v : (match v with c :: _ => c <> "034"%char | [] => False end) -> (match rev v with c :: _ => c <> "034"%char | [] => False end) ->
  drop_both "034" v = v /\ drop_both "034" ("034"%char :: v ++ ["034"%char]) = v.
Proof.
  intros F L. assert (D : drop_while (Ascii.eqb "034") v = v). { destruct v as [|c v]; [destruct F|]. cbn [drop_while]. destruct (Ascii.eqb_spec "034" c) as [E|_]; [congruence|reflexivity]. }
  assert (R : drop_while (Ascii.eqb "034") (rev v) = rev v). { destruct (rev v) as [|c r]; [destruct L|]. cbn [drop_while]. destruct (Ascii.eqb_spec "034" c) as [E|_]; [congruence|reflexivity]. }
  assert (W : drop_while (Ascii.eqb "034") (v ++ ["034"%char]) = v ++ ["034"%char]). { destruct v as [|c v]; [destruct F|]. cbn [app drop_while]. destruct (Ascii.eqb_spec "034" c) as [E|_]; [congruence|reflexivity]. }
  unfold drop_both, drop_end. split; [rewrite D, R; apply rev_involutive|].
  change (drop_while (Ascii.eqb "034") ("034"%char :: v ++ ["034"%char])) with (drop_while (Ascii.eqb "034") (v ++ ["034"%char])). rewrite W, rev_app_distr. cbn [rev app].
  change (drop_while (Ascii.eqb "034") ("034"%char :: rev v)) with (drop_while (Ascii.eqb "034") (rev v)). rewrite R. apply rev_involutive.
Qed.
Lemma os_version_line ls ms v (q : bool) : (forall m, In m ls -> a_line m /\ starts_with (T "VERSION_ID=") m = false) -> (forall m, In m ms -> a_line m) ->
  (match v with c :: _ => c <> "034"%char | [] => False end) -> (match rev v with c :: _ => c <> "034"%char | [] => False end) -> starts_with (T "VERSION_ID=") v = false ->
  let l := T "VERSION_ID=" ++ (if q then "034"%char :: v ++ ["034"%char] else v) in a_line l -> os_version (Some (lines (ls ++ l :: ms))) = v.
Proof.
  intros A B F L Sv l C. unfold os_version. rewrite lines_of.
  2:{ intros m M. apply in_app_iff in M. destruct M as [M|[<-|M]]; [apply A, M|exact C|apply B, M]. }
  assert (E : filter (starts_with (T "VERSION_ID=")) ls = []). { clear -A. induction ls as [|m ls IH]; [reflexivity|]. cbn [filter]. rewrite (proj2 (A m (or_introl eq_refl))). apply IH. intros k K. apply A. right. exact K. }
  rewrite filter_app, E. cbn [app filter]. assert (X : starts_with (T "VERSION_ID=") l = true) by (apply starts_iff; eexists; reflexivity). rewrite X.
  assert (Y : drop_prefixes (length l) (T "VERSION_ID=") l = if q then "034"%char :: v ++ ["034"%char] else v).
  { assert (N : forall n x s, starts_with x s = false -> drop_prefixes n x s = s) by (intros [|n] x s H; cbn [drop_prefixes]; [reflexivity|rewrite H; reflexivity]).
    assert (Z : exists n, length l = S n) by (unfold l; rewrite app_length; eexists; reflexivity). destruct Z as (n & ->).
    assert (K : drop_prefixes (S n) (T "VERSION_ID=") l = drop_prefixes n (T "VERSION_ID=") (if q then "034"%char :: v ++ ["034"%char] else v)) by reflexivity. rewrite K. apply N. destruct q; [reflexivity|exact Sv]. }
  rewrite Y. destruct (drop_both_quoted v F L) as [D1 D2]. destruct q; assumption.
Qed.
