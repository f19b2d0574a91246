(** Packages through serde, files, XML and filters. *)
From Verif Require Import Base Base_lemmas Maps Json Version_model Rex_model Requirement_model Pyfile_model Pkgfile_model Pkgfile_spec Pkgfile_python Pkgfile_loads.
Open Scope string_scope. Open Scope list_scope.

(** ** Reading what was written with serde *)
Definition agree (m : list (text * json)) (p : pkg) : Prop :=
  forall k, aget k m = aget k (ser_fields p) \/ (aget k (ser_fields p) = Some JNull /\ aget k m = None).
Section Agree.
Context (m : list (text * json)) (p : pkg) (A : agree m p).
Lemma agree_here k j : aget k (ser_fields p) = Some j -> j <> JNull -> aget k m = Some j.
Proof. intros E N. destruct (A k) as [->|[E' _]]; [exact E|]. rewrite E in E'. injection E' as ->. contradiction. Qed.
Lemma agree_opt {B} (f : json -> option B) (g : B -> json) k o : aget k (ser_fields p) = Some (jopt g o) ->
  (forall b, o = Some b -> g b <> JNull /\ f (g b) = Some b) -> or_default (de_opt f) None (aget k m) = Some o.
Proof.
  intros E H. destruct o as [b|]; cbn [jopt] in E.
  - destruct (H b eq_refl) as [N F]. rewrite (agree_here k _ E N). cbn [or_default]. unfold de_opt. rewrite F. destruct (g b); try reflexivity. contradiction.
  - destruct (A k) as [->|[_ ->]]; [rewrite E|]; reflexivity.
Qed.
Lemma agree_text k o : aget k (ser_fields p) = Some (jopt JStr o) -> or_default (de_opt de_text) None (aget k m) = Some o.
Proof. intros E. apply (agree_opt _ JStr _ _ E). intros b _. split; [discriminate|reflexivity]. Qed.
Lemma agree_bool k o : aget k (ser_fields p) = Some (jopt JBool o) -> or_default (de_opt as_bool) None (aget k m) = Some o.
Proof. intros E. apply (agree_opt _ JBool _ _ E). intros b _. split; [discriminate|reflexivity]. Qed.
Lemma agree_version k o : aget k (ser_fields p) = Some (jopt jver o) -> version_ok o -> or_default (de_opt de_version) None (aget k m) = Some o.
Proof. intros E V. apply (agree_opt _ jver _ _ E). intros b ->. split; [discriminate|exact V]. Qed.
Lemma all_texts l : all_some de_text (map JStr l) = Some l.
Proof. induction l as [|s l IH]; [reflexivity|]. cbn [map all_some de_text as_str]. rewrite IH. reflexivity. Qed.
Lemma agree_list k l : aget k (ser_fields p) = Some (jtexts l) -> or_default (de_list de_text) [] (aget k m) = Some l.
Proof. intros E. rewrite (agree_here k _ E) by discriminate. apply all_texts. Qed.
Lemma all_variants l : all_some (de_list de_text) (map jtexts l) = Some l.
Proof.
  induction l as [|v l IH]; [reflexivity|]. cbn [map all_some]. change (de_list de_text (jtexts v)) with (all_some de_text (map JStr v)). rewrite all_texts, IH. reflexivity.
Qed.
Lemma agree_variants k l : aget k (ser_fields p) = Some (jvariants l) -> or_default (de_list (de_list de_text)) [] (aget k m) = Some l.
Proof. intros E. rewrite (agree_here k _ E) by discriminate. apply all_variants. Qed.
End Agree.
Lemma put_last {V} k (v : V) m : ~ In k (akeys m) -> aput k v m = m ++ [(k, v)].
Proof.
  induction m as [|[x u] m IH]; intros N; [reflexivity|]. cbn [aput app]. destruct (text_eqb k x) eqn:E.
  - apply text_eqb_eq in E. subst x. exfalso. apply N. left. reflexivity.
  - rewrite IH by (intros I; apply N; right; exact I). reflexivity.
Qed.
Lemma last_wins_once {V} (l : list (text * V)) : NoDup (map fst l) -> last_wins l = l.
Proof.
  unfold last_wins. intros N. enough (G : forall l d, NoDup (map fst (d ++ l)) -> fold_left (fun m b => aput (fst b) (snd b) m) l d = d ++ l) by exact (G l [] N).
  clear. intros l. induction l as [|[k v] l IH]; intros d N; cbn [fold_left fst snd]; [rewrite app_nil_r; reflexivity|].
  rewrite put_last; [rewrite IH, <- app_assoc; [reflexivity|]; rewrite <- app_assoc; exact N|].
  rewrite map_app in N. cbn [map fst] in N. apply NoDup_remove_2 in N. intros I. apply N. apply in_or_app. left. exact I.
Qed.
Lemma de_jmap l : NoDup (map fst l) -> de_map (jmap l) = Some l.
Proof.
  intros N. unfold de_map, jmap.
  assert (E : all_some (fun b => let* s := as_str (snd b) in Some (fst b, s)) (map (fun b => (fst b, JStr (snd b))) l) = Some l).
  { clear N. induction l as [|[k v] l IH]; [reflexivity|]. cbn [map all_some as_str fst snd]. rewrite IH. reflexivity. }
  rewrite E, last_wins_once by exact N. reflexivity.
Qed.
Lemma i32_ok o : (forall z, o = Some z -> (- 2147483648 <= z <= 2147483647)%Z) -> forall z, o = Some z -> JNum z <> JNull /\ de_i32 (JNum z) = Some z.
Proof.
  intros H z E. split; [discriminate|]. specialize (H z E). cbn [de_i32].
  destruct ((-2147483648 <=? z) && (z <=? 2147483647))%Z eqn:D; [reflexivity|]. exfalso. apply andb_false_iff in D. destruct D as [D|D]; apply Z.leb_gt in D; lia.
Qed.
Lemma i64_ok o : (forall z, o = Some z -> (- 9223372036854775808 <= z <= 9223372036854775807)%Z) -> forall z, o = Some z -> JNum z <> JNull /\ as_i64 (JNum z) = Some z.
Proof. intros H z E. split; [discriminate|]. specialize (H z E). cbn [as_i64].
  destruct ((I64_MIN <=? z) && (z <=? Z.of_N I64_MAX))%Z eqn:D; [reflexivity|]. exfalso. change I64_MIN with (-9223372036854775808)%Z in D.
  change (Z.of_N I64_MAX) with 9223372036854775807%Z in D. apply andb_false_iff in D. destruct D as [D|D]; apply Z.leb_gt in D; lia.
Qed.
Lemma de_fields_ser m p : agree m p -> versions_ok p -> sized p -> de_fields m = Some (only_written p).
Proof.
  intros A [V1 V2] (S1 & S2 & S3). unfold de_fields.
  rewrite (agree_here m p A (T "name") (JStr (k_name p)) eq_refl) by discriminate. cbn [de_text as_str].
  rewrite (agree_version m p A (T "version") (k_version p) eq_refl V1).
  rewrite (agree_text m p A (T "description") (k_description p) eq_refl).
  rewrite (agree_list m p A (T "authors") (k_authors p) eq_refl).
  rewrite (agree_list m p A (T "requires") (k_requires p) eq_refl).
  rewrite (agree_list m p A (T "build_requires") (k_build_requires p) eq_refl).
  rewrite (agree_list m p A (T "private_build_requires") (k_private_build_requires p) eq_refl).
  rewrite (agree_variants m p A (T "variants") (k_variants p) eq_refl).
  rewrite (agree_list m p A (T "tools") (k_tools p) eq_refl).
  rewrite (agree_text m p A (T "commands") (k_commands p) eq_refl).
  rewrite (agree_text m p A (T "build_command") (k_build_command p) eq_refl).
  rewrite (agree_text m p A (T "build_system") (k_build_system p) eq_refl).
  rewrite (agree_text m p A (T "pre_commands") (k_pre_commands p) eq_refl).
  rewrite (agree_text m p A (T "post_commands") (k_post_commands p) eq_refl).
  rewrite (agree_text m p A (T "pre_test_commands") (k_pre_test_commands p) eq_refl).
  rewrite (agree_text m p A (T "pre_build_commands") (k_pre_build_commands p) eq_refl).
  rewrite (agree_here m p A (T "tests") (jmap (k_tests p)) eq_refl) by discriminate. cbn [or_default]. rewrite de_jmap by exact S3.
  rewrite (agree_text m p A (T "requires_rez_version") (k_requires_rez_version p) eq_refl).
  rewrite (agree_text m p A (T "uuid") (k_uuid p) eq_refl).
  rewrite (agree_text m p A (T "help") (k_help p) eq_refl).
  rewrite (agree_bool m p A (T "relocatable") (k_relocatable p) eq_refl).
  rewrite (agree_bool m p A (T "cachable") (k_cachable p) eq_refl).
  rewrite (agree_opt m p A as_i64 JNum (T "timestamp") (k_timestamp p) eq_refl (i64_ok _ S1)).
  rewrite (agree_text m p A (T "revision") (k_revision p) eq_refl).
  rewrite (agree_text m p A (T "changelog") (k_changelog p) eq_refl).
  rewrite (agree_text m p A (T "release_message") (k_release_message p) eq_refl).
  rewrite (agree_version m p A (T "previous_version") (k_previous_version p) eq_refl V2).
  rewrite (agree_text m p A (T "previous_revision") (k_previous_revision p) eq_refl).
  rewrite (agree_text m p A (T "vcs") (k_vcs p) eq_refl).
  rewrite (agree_opt m p A de_i32 JNum (T "format_version") (k_format_version p) eq_refl (i32_ok _ S2)).
  rewrite (agree_text m p A (T "base") (k_base p) eq_refl).
  rewrite (agree_bool m p A (T "has_plugins") (k_has_plugins p) eq_refl).
  rewrite (agree_list m p A (T "plugin_for") (k_plugin_for p) eq_refl).
  rewrite (agree_bool m p A (T "hashed_variants") (k_hashed_variants p) eq_refl).
  rewrite (agree_text m p A (T "preprocess") (k_preprocess p) eq_refl).
  assert (E : aget (T "is_dev_package") m = None) by (destruct (A (T "is_dev_package")) as [->|[_ ->]]; reflexivity). rewrite E. reflexivity.
Qed.
Lemma ser_keys p : map fst (ser_fields p) = map fst (ser_fields (new_pkg [])).
Proof. reflexivity. Qed.
Lemma ser_nodup p : NoDup (map fst (ser_fields p)).
Proof. apply distinct_nodup. reflexivity. Qed.
Lemma de_ser p : versions_ok p -> sized p -> de_package (ser p) = Some (only_written p).
Proof.
  intros V S. cbn [ser de_package]. unfold visit_map.
  assert (E : no_repeat (akeys (ser_fields p)) && forallb (fun x => mem_text x FIELDS) (akeys (ser_fields p)) = true) by reflexivity.
  rewrite E. apply de_fields_ser; [intros k; left; reflexivity|exact V|exact S].
Qed.
(** values without names: one is missing *)
Lemma de_short l : nth_error l 35 = None -> de_seq l = None.
Proof.
  intros E. assert (E' : next (de_opt as_bool) 35 l = None) by (unfold next; rewrite E; reflexivity). unfold de_seq. rewrite E'.
  repeat match goal with |- match ?e with Some _ => _ | None => None end = None => destruct e; [|reflexivity] end. reflexivity.
Qed.
Lemma de_seq_ser p : de_seq (map snd (ser_fields p)) = None.
Proof. apply de_short. reflexivity. Qed.
(** TOML: bindings in any order, without the absent ones *)
Lemma once_names l : names_once l = true -> NoDup l.
Proof. exact (distinct_nodup l). Qed.
Lemma names_nodup l : NoDup l -> names_once l = true.
Proof.
  induction l as [|x l IH]; intros N; [reflexivity|]. inversion N as [|? ? N1 N2]; subst. cbn [names_once]. rewrite (IH N2).
  destruct (mem_text x l) eqn:E; [exfalso; apply N1; apply Env_proofs.mem_text_in; exact E|reflexivity].
Qed.
Lemma aget_nodup_in {V} k (v : V) m : NoDup (map fst m) -> In (k, v) m -> aget k m = Some v.
Proof. intros N I. apply aget_nodup; assumption. Qed.
Lemma aget_none {V} k (m : list (text * V)) : ~ In k (map fst m) -> aget k m = None.
Proof.
  induction m as [|[x u] m IH]; intros N; [reflexivity|]. cbn [aget]. destruct (text_eqb k x) eqn:E.
  - apply text_eqb_eq in E. subst x. exfalso. apply N. left. reflexivity.
  - apply IH. intros I. apply N. right. exact I.
Qed.
Notation toml_fields p := (filter (fun b => negb (is_null (snd b))) (ser_fields p)).
Lemma nodup_filter_keys {V} (f : text * V -> bool) m : NoDup (map fst m) -> NoDup (map fst (filter f m)).
Proof.
  induction m as [|b m IH]; intros N; [constructor|]. cbn [map] in N. inversion N as [|? ? N1 N2]; subst. cbn [filter]. destruct (f b); [|exact (IH N2)].
  cbn [map]. constructor; [|exact (IH N2)]. intros I. apply N1. apply in_map_iff in I. destruct I as (c & E & I). apply filter_In in I. apply in_map_iff. exists c. tauto.
Qed.
Lemma filtered_agree (m m0 : list (text * json)) : NoDup (map fst m0) -> Permutation m (filter (fun b => negb (is_null (snd b))) m0) ->
  NoDup (map fst m) /\ forall k, aget k m = aget k m0 \/ (aget k m0 = Some JNull /\ aget k m = None).
Proof.
  intros N0 P. assert (N : NoDup (map fst m)).
  { apply (Permutation_NoDup (l := map fst (filter (fun b => negb (is_null (snd b))) m0))); [apply Permutation_map, Permutation_sym, P|]. apply nodup_filter_keys, N0. }
  split; [exact N|]. intros k. destruct (aget k m0) as [j|] eqn:E.
  - apply aget_in in E. destruct (is_null j) eqn:Nj.
    + right. destruct j; try discriminate. split; [reflexivity|]. apply aget_none. intros I. apply in_map_iff in I. destruct I as ([k' j'] & Ek & I). cbn [fst] in Ek. subst k'.
      apply (Permutation_in _ P) in I. apply filter_In in I. destruct I as [I Nn]. pose proof (aget_nodup_in _ _ _ N0 I) as E1. pose proof (aget_nodup_in _ _ _ N0 E) as E2.
      rewrite E1 in E2. injection E2 as ->. discriminate.
    + left. apply aget_nodup_in; [exact N|]. apply (Permutation_in _ (Permutation_sym P)). apply filter_In. split; [exact E|]. cbn [snd]. rewrite Nj. reflexivity.
  - left. apply aget_none. intros I. apply in_map_iff in I. destruct I as ([k' j'] & Ek & I). cbn [fst] in Ek. subst k'.
    apply (Permutation_in _ P) in I. apply filter_In in I. destruct I as [I _]. rewrite (aget_nodup_in _ _ _ N0 I) in E. discriminate.
Qed.
Lemma toml_agree m p : Permutation m (toml_fields p) -> NoDup (map fst m) /\ agree m p.
Proof. exact (filtered_agree m (ser_fields p) (ser_nodup p)). Qed.
Lemma no_repeat_iff l : no_repeat l = names_once l.
Proof. induction l as [|x l IH]; [reflexivity|]. cbn [no_repeat names_once]. rewrite IH. reflexivity. Qed.
Lemma filtered_known (m m0 : list (text * json)) f : Permutation m (filter f m0) ->
  forallb (fun x => mem_text x FIELDS) (map fst m0) = true -> forallb (fun x => mem_text x FIELDS) (map fst m) = true.
Proof.
  intros P F0. rewrite forallb_forall in *. intros x I. apply F0. apply in_map_iff in I. destruct I as (b & <- & I).
  apply (Permutation_in _ P) in I. apply filter_In in I. destruct I as [I _]. apply in_map. exact I.
Qed.
Lemma ser_known p : forallb (fun x => mem_text x FIELDS) (map fst (ser_fields p)) = true.
Proof. reflexivity. Qed.
Lemma visit_ok m q : NoDup (map fst m) -> forallb (fun x => mem_text x FIELDS) (map fst m) = true -> de_fields m = q -> visit_map m = q.
Proof. intros N F E. unfold visit_map. rewrite no_repeat_iff. unfold akeys. rewrite (names_nodup _ N), F. exact E. Qed.
Lemma toml_visit m p : versions_ok p -> sized p -> Permutation m (toml_fields p) -> visit_map m = Some (only_written p).
Proof.
  intros V S P. destruct (toml_agree m p P) as [N A]. apply visit_ok; [exact N| |apply de_fields_ser; assumption].
  exact (filtered_known m (ser_fields p) _ P (ser_known p)).
Qed.

(** ** Trees that fit *)
Lemma fits_texts b l : fits b (jtexts l) = true.
Proof. cbn [jtexts fits]. apply forallb_forall. intros j I. apply in_map_iff in I. destruct I as (s & <- & _). reflexivity. Qed.
Lemma fits_variants b l : fits b (jvariants l) = true.
Proof. cbn [jvariants fits]. apply forallb_forall. intros j I. apply in_map_iff in I. destruct I as (s & <- & _). apply fits_texts. Qed.
Lemma fits_obj b m : fits b (JObj m) = names_once (map fst m) && forallb (fun c => fits b (snd c)) m.
Proof.
  cbn [fits]. f_equal. induction m as [|[k v] m IH]; [reflexivity|]. cbn [forallb snd]. rewrite <- IH. reflexivity.
Qed.
Lemma fits_jmap b l : NoDup (map fst l) -> fits b (jmap l) = true.
Proof.
  intros N. unfold jmap. rewrite fits_obj. rewrite map_map. change (map (fun x => fst (fst x, JStr (snd x))) l) with (map fst l). rewrite (names_nodup _ N).
  apply forallb_forall. intros c I. apply in_map_iff in I. destruct I as (s & <- & _). reflexivity.
Qed.
Lemma fits_num b z : (- 9223372036854775808 <= z <= 9223372036854775807)%Z -> fits b (JNum z) = true.
Proof. intros H. cbn [fits]. apply andb_true_iff. split; apply Z.leb_le; lia. Qed.
Lemma fits_fields p : sized p -> forall b, In b (ser_fields p) -> fits true (snd b) = true /\ (is_null (snd b) = false -> fits false (snd b) = true).
Proof.
  intros (S1 & S2 & S3).
  assert (D : forall j, (fits true j = true /\ (is_null j = false -> fits false j = true)) <-> (j = JNull \/ (fits true j = true /\ fits false j = true))).
  { intros j. split; [intros [A B]; destruct (is_null j) eqn:E; [left; destruct j; (reflexivity || discriminate)|right; auto]|intros [->|[A B]]; [split; [reflexivity|discriminate]|auto]]. }
  assert (G : forall (g : forall (A : Type) , A -> A), True) by auto. clear G.
  assert (O : forall {A} (g : A -> json) o, (forall a, o = Some a -> fits true (g a) = true /\ fits false (g a) = true) -> jopt g o = JNull \/ (fits true (jopt g o) = true /\ fits false (jopt g o) = true)).
  { intros A g [a|] H; [right; exact (H a eq_refl)|left; reflexivity]. }
  intros b I. apply D. unfold ser_fields in I. cbn [In] in I.
  repeat (destruct I as [<-|I]; [cbn [snd];
    first [ right; split; reflexivity
          | right; split; apply fits_texts
          | right; split; apply fits_variants
          | right; split; apply fits_jmap; exact S3
          | apply (O _ JNum); intros z Ez; split; apply fits_num; first [exact (S1 z Ez) | specialize (S2 z Ez); lia]
          | apply O; intros; split; reflexivity ]|]).
  destruct I.
Qed.
Lemma fits_ser p : sized p -> fits true (ser p) = true.
Proof.
  intros S. unfold ser. rewrite fits_obj. rewrite (names_nodup _ (ser_nodup p)). apply forallb_forall. intros c I. apply (fits_fields p S c I).
Qed.
Lemma fits_toml p : sized p -> fits false (JObj (toml_fields p)) = true.
Proof.
  intros S. rewrite fits_obj. rewrite (names_nodup _ (nodup_filter_keys _ _ (ser_nodup p))). apply forallb_forall. intros c I. apply filter_In in I. destruct I as [I N].
  apply (fits_fields p S c I). destruct (is_null (snd c)); [discriminate|reflexivity].
Qed.

(** ** Trees of values *)
Lemma texts_of_jtexts l : texts_of (map JStr l) = l.
Proof. apply filter_map_all. reflexivity. Qed.
Lemma variants_of_jvariants l : map texts_of (filter_map as_array (map jtexts l)) = l.
Proof.
  induction l as [|v l IH]; [reflexivity|]. cbn [map filter_map jtexts as_array]. rewrite texts_of_jtexts, IH. reflexivity.
Qed.
Lemma valid_nine p : valid (only_nine p) = valid p.
Proof. reflexivity. Qed.
Lemma load_ser p : version_ok (k_version p) -> load_data (ser_fields p) = if valid p then Ok (only_nine p) else Err.
Proof.
  intros V. rewrite <- (valid_nine p). unfold load_data.
  change (got as_str (T "name") (ser_fields p)) with (Some (k_name p)).
  change (got as_str (T "version") (ser_fields p)) with (as_str (jopt jver (k_version p))).
  change (got as_str (T "description") (ser_fields p)) with (as_str (jopt JStr (k_description p))).
  change (got as_array (T "authors") (ser_fields p)) with (Some (map JStr (k_authors p))).
  change (got as_array (T "requires") (ser_fields p)) with (Some (map JStr (k_requires p))).
  change (got as_array (T "build_requires") (ser_fields p)) with (Some (map JStr (k_build_requires p))).
  change (got as_array (T "private_build_requires") (ser_fields p)) with (Some (map JStr (k_private_build_requires p))).
  change (got as_array (T "variants") (ser_fields p)) with (Some (map jtexts (k_variants p))).
  change (got as_array (T "tools") (ser_fields p)) with (Some (map JStr (k_tools p))).
  cbn [put_if]. rewrite !texts_of_jtexts, variants_of_jvariants.
  assert (E : match as_str (jopt jver (k_version p)) with Some s => match parse_version s with Some v => Some (Some v) | None => None end | None => Some None end = Some (k_version p)).
  { destruct (k_version p) as [v|]; [|reflexivity]. cbn [jopt jver as_str]. cbn [version_ok] in V. rewrite V. reflexivity. }
  rewrite E. unfold only_nine, only_eight. destruct (k_version p) as [v|]; destruct (k_description p) as [d|]; reflexivity.
Qed.
Lemma load_json_ser p : version_ok (k_version p) -> load_json_tree (ser p) = if valid p then Ok (only_nine p) else Err.
Proof. intros V. cbn [ser load_json_tree]. rewrite last_wins_once by apply ser_nodup. apply load_ser. exact V. Qed.
Lemma yaml_texts l : yaml_json (as_yaml (jtexts l)) = jtexts l.
Proof.
  unfold jtexts. cbn [as_yaml yaml_json]. f_equal. rewrite !map_map. apply map_ext. reflexivity.
Qed.
Lemma yaml_variants l : yaml_json (as_yaml (jvariants l)) = jvariants l.
Proof. unfold jvariants. cbn [as_yaml yaml_json]. f_equal. rewrite !map_map. apply map_ext. exact yaml_texts. Qed.
Lemma yaml_map l : NoDup (map fst l) -> yaml_json (as_yaml (jmap l)) = jmap l.
Proof.
  intros N. unfold jmap. cbn [as_yaml yaml_json]. f_equal.
  assert (E : yaml_pairs yaml_json ((fix go (m : list (text * json)) := match m with [] => [] | (k, v) :: m' => (YStr k, as_yaml v) :: go m' end) (map (fun b => (fst b, JStr (snd b))) l)) =
    map (fun b => (fst b, JStr (snd b))) l).
  { clear N. induction l as [|[k v] l IH]; [reflexivity|]. cbn [map fst snd yaml_pairs as_yaml yaml_json]. f_equal. exact IH. }
  rewrite E. apply last_wins_once. rewrite map_map. exact N.
Qed.
Lemma yaml_opt {A} (g : A -> json) o : (forall a, yaml_json (as_yaml (g a)) = g a) -> yaml_json (as_yaml (jopt g o)) = jopt g o.
Proof. intros H. destruct o; [apply H|reflexivity]. Qed.
Definition yaml_fields (m : list (text * json)) : list (text * yaml) := map (fun b => (fst b, as_yaml (snd b))) m.
Lemma yaml_keys_of m : yaml_keys ((fix go (m : list (text * json)) := match m with [] => [] | (k, v) :: m' => (YStr k, as_yaml v) :: go m' end) m) = Some (yaml_fields m).
Proof. induction m as [|[k v] m IH]; [reflexivity|]. cbn [yaml_keys]. rewrite IH. reflexivity. Qed.
Lemma load_yaml_obj m : NoDup (map fst m) -> load_yaml_tree (as_yaml (JObj m)) = load_data (map (fun b => (fst b, yaml_json (as_yaml (snd b)))) m).
Proof.
  intros N. cbn [as_yaml load_yaml_tree]. rewrite yaml_keys_of, last_wins_once; [unfold yaml_fields; rewrite map_map; reflexivity|]. unfold yaml_fields. rewrite map_map. exact N.
Qed.
Lemma yaml_back p : NoDup (map fst (k_tests p)) -> map (fun b => (fst b, yaml_json (as_yaml (snd b)))) (ser_fields p) = ser_fields p.
Proof.
  intros N. unfold ser_fields. cbn [map fst snd].
  rewrite (yaml_opt jver), !(yaml_opt JStr), !(yaml_opt JBool), !(yaml_opt JNum), !(yaml_opt jver), !yaml_texts, yaml_variants, yaml_map by (exact N || reflexivity). reflexivity.
Qed.
Lemma load_yaml_ser p : version_ok (k_version p) -> NoDup (map fst (k_tests p)) -> load_yaml_tree (as_yaml (ser p)) = if valid p then Ok (only_nine p) else Err.
Proof. intros V N. unfold ser. rewrite load_yaml_obj by apply ser_nodup. rewrite yaml_back by exact N. apply load_ser. exact V. Qed.
