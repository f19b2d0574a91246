(** Proofs about [RezCoreConfig] (CC). *)
From Coq Require Import Permutation.
From Verif Require Import Base Base_lemmas Text_lemmas Maps Json Config_model Config_spec Config_proofs.
Open Scope string_scope. Open Scope list_scope.

Definition u64 (n : Z) : Prop := (0 <= n <= Z.of_N U64_MAX)%Z.
Lemma de_u64_num n : u64 n -> de_u64 (JNum n) = Some n.
Proof. intros [A B]. cbn [de_u64]. apply Z.leb_le in A. apply Z.leb_le in B. rewrite A, B. reflexivity. Qed.
Lemma de_list_ser l : de_list (ser_list l) = Some l.
Proof. unfold ser_list. cbn [de_list]. induction l as [|x l IH]; [reflexivity|]. cbn [map de_texts as_str]. rewrite IH. reflexivity. Qed.
(** the numbers of the settings fit *)
Definition fits_core (c : core) : Prop := (forall n, k_threads c = Some n -> u64 n) /\ u64 (c_size (k_cache c)) /\ u64 (c_ttl (k_cache c)).
Lemma de_cache_ser k : u64 (c_size k) -> u64 (c_ttl k) -> de_cache (ser_cache k) = Some k.
Proof.
  intros A B. unfold de_cache, ser_cache.
  destruct k as [a b s t]. cbn [c_memory c_disk c_size c_ttl] in *.
  change (struct_map cache_fields (JObj (combine cache_fields [JBool a; JBool b; JNum s; JNum t]))) with (Some (combine cache_fields [JBool a; JBool b; JNum s; JNum t])).
  cbn [obind]. change (field as_bool (T "enable_memory_cache") (combine cache_fields [JBool a; JBool b; JNum s; JNum t])) with (Some a).
  change (field as_bool (T "enable_disk_cache") (combine cache_fields [JBool a; JBool b; JNum s; JNum t])) with (Some b).
  change (field de_u64 (T "memory_cache_size") (combine cache_fields [JBool a; JBool b; JNum s; JNum t])) with (de_u64 (JNum s)).
  change (field de_u64 (T "cache_ttl_seconds") (combine cache_fields [JBool a; JBool b; JNum s; JNum t])) with (de_u64 (JNum t)).
  rewrite (de_u64_num s A), (de_u64_num t B). reflexivity.
Qed.
(** ** reading a map: only the values of the fields count *)
Lemma field_ext {A} (f : json -> option A) k m m' : aget k m = aget k m' -> field f k m = field f k m'.
Proof. unfold field. intros ->. reflexivity. Qed.
Lemma de_core_obj m m' : repeated core_fields m = false -> repeated core_fields m' = false -> (forall k, In k core_fields -> aget k m = aget k m') -> de_core (JObj m) = de_core (JObj m').
Proof.
  intros R R' E. unfold de_core, struct_map. rewrite R, R'. cbn [obind]. unfold de_threads, field.
  unfold core_fields in E.
  rewrite !E by (cbn [In]; tauto). reflexivity.
Qed.
Lemma de_core_ser c : fits_core c -> de_core (ser_core c) = Some c.
Proof.
  intros [TH [SZ TT]]. unfold de_core, ser_core.
  set (m := combine core_fields _). assert (R : struct_map core_fields (JObj m) = Some m) by reflexivity. rewrite R. clear R. cbn [obind].
  assert (E1 : field as_bool (T "use_rust_version") m = Some (k_version_rs c)) by reflexivity.
  assert (E2 : field as_bool (T "use_rust_solver") m = Some (k_solver_rs c)) by reflexivity.
  assert (E3 : field as_bool (T "use_rust_repository") m = Some (k_repo_rs c)) by reflexivity.
  assert (E4 : field as_bool (T "rust_fallback") m = Some (k_fallback c)) by reflexivity.
  assert (E5 : de_threads m = Some (k_threads c)).
  { unfold de_threads. change (aget (T "thread_count") m) with (Some (match k_threads c with Some n => JNum n | None => JNull end)).
    destruct (k_threads c) as [n|]; [|reflexivity]. rewrite (de_u64_num n (TH n eq_refl)). reflexivity. }
  assert (E6 : field de_cache (T "cache") m = Some (k_cache c)) by (change (field de_cache (T "cache") m) with (de_cache (ser_cache (k_cache c))); exact (de_cache_ser _ SZ TT)).
  assert (E7 : field de_list (T "packages_path") m = Some (k_packages c)) by (change (field de_list (T "packages_path") m) with (de_list (ser_list (k_packages c))); apply de_list_ser).
  assert (E8 : field as_str (T "local_packages_path") m = Some (k_local c)) by reflexivity.
  assert (E9 : field as_str (T "release_packages_path") m = Some (k_release c)) by reflexivity.
  assert (E10 : field as_str (T "default_shell") m = Some (k_shell c)) by reflexivity.
  assert (E11 : field as_str (T "version") m = Some (k_version c)) by reflexivity.
  assert (E12 : field de_list (T "plugin_path") m = Some (k_plugins c)) by (change (field de_list (T "plugin_path") m) with (de_list (ser_list (k_plugins c))); apply de_list_ser).
  assert (E13 : field de_list (T "package_cache_path") m = Some (k_pkgcache c)) by (change (field de_list (T "package_cache_path") m) with (de_list (ser_list (k_pkgcache c))); apply de_list_ser).
  assert (E14 : field as_str (T "tmpdir") m = Some (k_tmp c)) by reflexivity.
  assert (E15 : field as_str (T "editor") m = Some (k_editor c)) by reflexivity.
  assert (E16 : field as_str (T "image_viewer") m = Some (k_viewer c)) by reflexivity.
  assert (E17 : field as_str (T "browser") m = Some (k_browser c)) by reflexivity.
  assert (E18 : field as_str (T "difftool") m = Some (k_diff c)) by reflexivity.
  assert (E19 : field as_str (T "terminal_emulator_command") m = Some (k_term c)) by reflexivity.
  rewrite E1, E2, E3, E4, E5, E6, E7, E8, E9, E10, E11, E12, E13, E14, E15, E16, E17, E18, E19. cbn [obind]. destruct c; reflexivity.
Qed.
Lemma nodup_once m k : NoDup (akeys m) -> Nat.leb 2 (List.length (filter (fun b : text * json => text_eqb k (fst b)) m)) = false.
Proof.
  intros N. apply Nat.leb_gt. induction m as [|[k' v] m IH]; [cbn; lia|]. cbn [akeys map fst] in N. inversion N as [|? ? NI N']; subst.
  cbn [filter fst]. destruct (text_eqb k k') eqn:E; [|exact (IH N')]. apply text_eqb_eq in E. subst k'.
  assert (filter (fun b : text * json => text_eqb k (fst b)) m = []) as ->; [|cbn; lia].
  clear -NI. induction m as [|[k' v'] m IH]; [reflexivity|]. cbn [filter fst]. destruct (text_eqb k k') eqn:E.
  - apply text_eqb_eq in E. subst k'. destruct NI. left. reflexivity.
  - apply IH. intros I. apply NI. right. exact I.
Qed.
Lemma nodup_repeated names m : NoDup (akeys m) -> repeated names m = false.
Proof. intros N. unfold repeated. induction names as [|k l IH]; [reflexivity|]. cbn [existsb]. rewrite (nodup_once m k N), IH. reflexivity. Qed.
(** a file with all the fields is read, whatever the order and whatever else it holds *)
Lemma complete_file c m : fits_core c -> NoDup (akeys m) -> (forall k v, In k core_fields -> at_path (ser_core c) [k] v -> In (k, v) m) -> de_core (JObj m) = Some c.
Proof.
  intros F N A. rewrite <- (de_core_ser c F). unfold ser_core. apply de_core_obj; [apply nodup_repeated; exact N|reflexivity|].
  intros k I. match goal with |- _ = aget k ?x => set (t := x) in * end.
  assert (exists v, aget k t = Some v) as [v E] by (apply aget_some; exact I). rewrite E.
  apply (aget_nodup k v m N). apply A; [exact I|]. unfold ser_core. apply (at_below _ k v [] v); [exact (aget_in k v t E)|constructor].
Qed.
(** the number of threads may be left out *)
Lemma field_skip {A} (f : json -> option A) k k' v m : k' <> k -> field f k ((k', v) :: m) = field f k m.
Proof. intros N. unfold field. cbn [aget]. destruct (text_eqb k' k) eqn:E; [apply text_eqb_eq in E; contradiction|]. destruct (text_eqb k k') eqn:E'; [apply text_eqb_eq in E'; congruence|reflexivity]. Qed.
Lemma without_threads c m : fits_core c -> k_threads c = None -> NoDup (akeys m) -> aget (T "thread_count") m = None ->
  (forall k v, In k core_fields -> k <> T "thread_count" -> at_path (ser_core c) [k] v -> In (k, v) m) -> de_core (JObj m) = Some c.
Proof.
  intros F K N E A. assert (NI : ~ In (T "thread_count") (akeys m)) by (intros I; apply aget_some in I as [v I]; congruence).
  rewrite <- (complete_file c ((T "thread_count", JNull) :: m) F).
  - unfold de_core, struct_map. rewrite (nodup_repeated core_fields m N), (nodup_repeated core_fields ((T "thread_count", JNull) :: m)) by (constructor; assumption). cbn [obind].
    rewrite !(field_skip _ _ (T "thread_count") JNull m) by discriminate.
    assert (D : de_threads ((T "thread_count", JNull) :: m) = de_threads m) by (unfold de_threads; rewrite E; reflexivity). rewrite D. reflexivity.
  - constructor; assumption.
  - intros k v I P. destruct (text_eqb k (T "thread_count")) eqn:Q.
    + apply text_eqb_eq in Q. subst k. left. f_equal. unfold ser_core in P. rewrite K in P. clear - P. inversion P as [|m' x y p z J P' E1 E2]. subst. inversion P'. subst. cbn in J.
      repeat (destruct J as [J|J]; [first [discriminate J|apply (f_equal snd) in J; exact J]|]). destruct J.
    + right. apply A; [exact I| |exact P]. intros X. apply text_eqb_eq in X. congruence.
Qed.
(** a map without one of the fields is not settings *)
Lemma obind_none {A B} (x : option A) (f : A -> option B) : (forall a, f a = None) -> obind x f = None.
Proof. intros H. destruct x as [a|]; [exact (H a)|reflexivity]. Qed.
Lemma incomplete_map m k : In k required_fields -> aget k m = None -> de_core (JObj m) = None.
Proof.
  intros I E. unfold de_core, struct_map. destruct (repeated core_fields m); [reflexivity|]. cbn [obind].
  assert (F : forall A (f : json -> option A), field f k m = None) by (intros A f; unfold field; rewrite E; reflexivity).
  unfold required_fields in I. cbn [In] in I.
  repeat (destruct I as [<-|I]; [rewrite ?F; cbn [obind]; repeat (first [reflexivity | apply obind_none; intros ?])|]). destruct I.
Qed.
Lemma not_settings j : (match j with JObj _ | JArr _ => False | _ => True end) -> de_core j = None.
Proof. destruct j; intros H; (reflexivity || destruct H). Qed.
(** ** fields *)
Lemma ser_tidy c : tidy (ser_core c).
Proof.
  assert (ND : forall l : list text, (fix once (l : list text) := match l with [] => true | x :: r => negb (mem_text x r) && once r end) l = true -> NoDup l).
  { induction l as [|x l IH]; intros H; [constructor|]. apply andb_true_iff in H. destruct H as [H1 H2]. constructor; [|exact (IH H2)].
    intros I. apply negb_true_iff in H1. unfold mem_text in H1. assert (existsb (text_eqb x) l = true) as Z by (apply existsb_exists; exists x; split; [exact I|apply text_eqb_refl]). congruence. }
  assert (SL : forall l, tidy (ser_list l)) by (intros l; constructor; intros x I; apply in_map_iff in I; destruct I as [s [<- _]]; constructor).
  constructor; [apply ND; reflexivity|]. intros k x I. cbn [combine core_fields In] in I.
  repeat (destruct I as [I|I]; [injection I as <- <-; first [apply SL | constructor | destruct (k_threads c); constructor | idtac]|]); try destruct I.
  - apply ND. reflexivity.
  - intros k x I. cbn [combine cache_fields In] in I. repeat (destruct I as [I|I]; [injection I as <- <-; constructor|]). destruct I.
Qed.
Lemma field_iff c path v : get_field c path = Some v <-> exists p, p <> [] /\ Forall plain_name p /\ spelled p = path /\ at_path (ser_core c) p v.
Proof. exact (get_iff path (ser_core c) v (ser_tidy c)). Qed.
(** ** which file *)
Definition readable (yaml parse : text -> option json) (fs : files) (p : text) : option core := obind (read_at fs p) (read_core yaml parse).
Lemma first_loaded_find yaml parse fs l1 p l2 c : (forall q, In q l1 -> readable yaml parse fs q = None) -> readable yaml parse fs p = Some c -> first_loaded yaml parse fs (l1 ++ p :: l2) = Some c.
Proof.
  intros N E. induction l1 as [|q l1 IH]; cbn [app first_loaded].
  - unfold readable in E. rewrite E. reflexivity.
  - pose proof (N q (or_introl eq_refl)) as Q. unfold readable in Q. rewrite Q. apply IH. intros x I. apply N. right. exact I.
Qed.
Lemma first_loaded_none yaml parse fs l : (forall q, In q l -> readable yaml parse fs q = None) -> first_loaded yaml parse fs l = None.
Proof.
  induction l as [|q l IH]; intros N; [reflexivity|]. cbn [first_loaded]. pose proof (N q (or_introl eq_refl)) as Q. unfold readable in Q. rewrite Q. apply IH. intros x I. apply N. right. exact I.
Qed.
Lemma first_loaded_ext yaml parse fs fs' l : (forall p, In p l -> readable yaml parse fs p = readable yaml parse fs' p) -> first_loaded yaml parse fs l = first_loaded yaml parse fs' l.
Proof.
  induction l as [|q l IH]; intros E; [reflexivity|]. cbn [first_loaded]. pose proof (E q (or_introl eq_refl)) as Q. unfold readable in Q. rewrite Q.
  rewrite IH; [reflexivity|]. intros x I. apply E. right. exact I.
Qed.
Lemma first_loaded_cases yaml parse fs l : first_loaded yaml parse fs l = None /\ (forall q, In q l -> readable yaml parse fs q = None) \/
  exists l1 p l2 c, l = l1 ++ p :: l2 /\ (forall q, In q l1 -> readable yaml parse fs q = None) /\ readable yaml parse fs p = Some c /\ first_loaded yaml parse fs l = Some c.
Proof.
  induction l as [|q l IH]; [left; split; [reflexivity|intros q []]|]. destruct (readable yaml parse fs q) as [c|] eqn:E.
  - right. exists [], q, l, c. repeat split; [intros x []|exact E|]. unfold readable in E. cbn [first_loaded]. rewrite E. reflexivity.
  - assert (S : first_loaded yaml parse fs (q :: l) = first_loaded yaml parse fs l) by (unfold readable in E; cbn [first_loaded]; rewrite E; reflexivity). rewrite S.
    destruct IH as [[H N]|[l1 [p [l2 [c [-> [N [R H]]]]]]]].
    + left. split; [exact H|]. intros x [<-|I]; [exact E|exact (N x I)].
    + right. exists (q :: l1), p, l2, c. repeat split; [|exact R|exact H]. intros x [<-|I]; [exact E|exact (N x I)].
Qed.
(** ** paths in variables *)
Lemma split_paths l : l <> [] -> (forall p, In p l -> p <> [] /\ ~ In ":"%char p /\ trim p = p) -> split_env_paths (join (T ":") l) = l.
Proof.
  intros N H. unfold split_env_paths. change (T ":") with [":"%char]. rewrite (split_join ":" l N) by (apply Forall_forall; intros p I; exact (proj1 (proj2 (H p I)))).
  clear N. induction l as [|p l IH]; [reflexivity|]. destruct (H p (or_introl eq_refl)) as [NE [_ TR]]. cbn [map filter]. rewrite TR.
  destruct p as [|c p]; [destruct NE; reflexivity|]. cbn [is_nil negb]. rewrite IH by (intros q I; apply H; right; exact I). reflexivity.
Qed.
Lemma split_paths_clean s p : In p (split_env_paths s) -> p <> [] /\ ~ In ":"%char p /\ trim p = p.
Proof.
  unfold split_env_paths. intros I. apply filter_In in I. destruct I as [I NE]. apply in_map_iff in I. destruct I as [q [<- I]].
  split; [intros E; rewrite E in NE; discriminate NE|]. split; [|apply trim_idem]. intros C.
  pose proof (split_on_pieces ":" s) as F. rewrite Forall_forall in F. apply (F q I). destruct (trim_split q) as [u [v [_ [_ E]]]]. rewrite E. apply in_or_app. right. apply in_or_app. left. exact C.
Qed.
