(** Proofs about the environment of a build, its script, placeholders and the addresses of sources. *)
From Verif Require Import Range_model Base Base_lemmas Text_lemmas Maps Sorting Files_model Files_spec Rex_model Rex_spec Rex_proofs Rex_shell Requirement_model Diff_command Query_model Bundle_model Bundle_spec Bundle_disk Build_model Build_spec Build_proofs.
From Coq Require Import Lia Permutation.
Open Scope string_scope. Open Scope list_scope.

(** ** Variables *)
Lemma put_all_get k vs : forall m, aget k (put_all vs m) = match aget k (rev vs) with Some v => Some v | None => aget k m end.
Proof.
  induction vs as [|[j v] vs IH]; intros m; [reflexivity|]. unfold put_all. cbn [fold_left fst snd rev]. fold (put_all vs (aput j v m)). rewrite IH.
  assert (A : forall l, aget k (l ++ [(j, v)]) = match aget k l with Some u => Some u | None => if text_eqb k j then Some v else None end).
  { induction l as [|[a b] l IHl]; [cbn; destruct (text_eqb k j); reflexivity|]. cbn. destruct (text_eqb k a); [reflexivity|exact IHl]. }
  rewrite A. destruct (aget k (rev vs)); [reflexivity|]. destruct (text_eqb k j) eqn:E; [apply text_eqb_eq in E; subst; apply aget_put_same|]. apply aget_put_other. intros ->. rewrite (proj2 (text_eqb_eq j j) eq_refl) in E. discriminate.
Qed.
Lemma put_all_in k v vs m : NoDup (map fst vs) -> In (k, v) vs -> aget k (put_all vs m) = Some v.
Proof.
  intros N H. rewrite put_all_get. rewrite (aget_nodup k v (rev vs)); [reflexivity| |apply -> in_rev; exact H].
  unfold akeys. rewrite map_rev. apply (Permutation_NoDup (Permutation_rev _)). exact N.
Qed.
Lemma put_all_out k vs m : unmentioned k vs -> aget k (put_all vs m) = aget k m.
Proof. intros H. rewrite put_all_get. replace (aget k (rev vs)) with (@None text); [reflexivity|]. symmetry. apply aget_none. unfold akeys. rewrite map_rev, <- in_rev. exact H. Qed.
Section Env.
Variable cwd : text.
Variable userprofile home : option text.
Variable threads : text.
Variable req_name : text -> option text.
Variable parent : text -> option text.
Variable hash : list text -> text.
Variable exists_file : text -> bool.
Notation path_env := (with_install_path cwd userprofile home threads req_name parent).
Notation env_of := (build_environment cwd userprofile home threads req_name parent hash exists_file).
Notation variant_env := (set_variant_env req_name).
Notation requirements := (set_requirements req_name).
Lemma requirements_get p vreq k m : k <> T "REZ_BUILD_REQUIRES" -> k <> T "REZ_BUILD_REQUIRES_UNVERSIONED" -> aget k (requirements p vreq m) = aget k m.
Proof. intros H1 H2. unfold set_requirements. rewrite !aget_put_other by assumption. reflexivity. Qed.
Lemma variant_get p i vreq k e : ~ In k variant_names -> aget k (e_set (variant_env p i vreq e)) = aget k (e_set e).
Proof.
  intros H. unfold set_variant_env, with_set. cbn [e_set]. rewrite requirements_get; [rewrite !aget_put_other; [reflexivity| |]| |]; intros ->; apply H; cbn; tauto.
Qed.
(** the environment without what belongs to the variant *)
Definition made (base : text) (config : list (text * text)) (q : request) (b : text) : option benv :=
  match path_env (q_pkg q) b (q_context q) (q_install q) with
  | Some e => Some (with_set (fun m => put_all (q_env q) (put_all config m)) (set_source exists_file (q_pkg q) (q_source q) e))
  | None => None end.
Lemma env_made base config q e : env_of base config q = Some e -> exists b e0, made base config q b = Some e0 /\ e_build e = e_build e0 /\ e_install e = e_install e0 /\
  (forall k, ~ In k variant_names -> aget k (e_set e) = aget k (e_set e0)) /\ (q_variant q = None -> e = e0 /\ b = base).
Proof.
  unfold build_environment. fold (made base config q base). destruct (made base config q base) as [e1|] eqn:E1; [|discriminate]. destruct (q_variant q) as [i|].
  - destruct (q_variant_requires q) as [r|].
    + match goal with |- match ?z with Some _ => _ | None => _ end = _ -> _ => change z with (made base config q (path_join (e_install e1) (hash r))) end.
      destruct (made base config q (path_join (e_install e1) (hash r))) as [e2|] eqn:E2; [|discriminate]. intros E. injection E as <-.
      exists (path_join (e_install e1) (hash r)), e2. split; [exact E2|]. split; [reflexivity|]. split; [reflexivity|]. split; [|discriminate]. intros k Hk. cbn [with_set e_set]. rewrite aget_put_other by (intros ->; apply Hk; cbn; tauto).
      apply (variant_get (q_pkg q) i r k e2 Hk).
    + intros E. injection E as <-. exists base, e1. split; [exact E1|]. split; [reflexivity|]. split; [reflexivity|]. split; [|discriminate]. intros k Hk. apply variant_get, Hk.
  - intros E. injection E as <-. exists base, e1. repeat split; auto.
Qed.
Lemma made_get base config q b e k : made base config q b = Some e -> exists e0, path_env (q_pkg q) b (q_context q) (q_install q) = Some e0 /\ e_build e = e_build e0 /\ e_install e = e_install e0 /\
  aget k (e_set e) = aget k (put_all (q_env q) (put_all config (e_set (set_source exists_file (q_pkg q) (q_source q) e0)))).
Proof. unfold made. destruct (path_env _ _ _ _) as [e0|]; [|discriminate]. intros E. injection E as <-. exists e0. repeat split. Qed.
(** the variables of the build itself *)
Definition own (p : pkg) (bd inst : text) (installing : bool) : list (text * text) :=
  [(T "REZ_BUILD_ENV", T "1"); (T "REZ_BUILD_TYPE", T "local"); (T "REZ_BUILD_INSTALL", if installing then T "1" else T "0");
   (T "REZ_BUILD_PACKAGE_NAME", k_name p); (T "REZ_BUILD_PROJECT_NAME", k_name p); (T "REZ_BUILD_PACKAGE_VERSION", built_version p);
   (T "REZ_BUILD_PROJECT_VERSION", built_version p); (T "REZ_BUILD_INSTALL_PATH", inst); (T "REZ_BUILD_PATH", bd);
   (T "REZ_BUILD_PROJECT_DESCRIPTION", trim (match k_description p with Some d => d | None => [] end)); (T "REZ_BUILD_THREAD_COUNT", threads);
   (T "REZ_BUILD_VARIANT_INDEX", T "0"); (T "REZ_BUILD_VARIANT_REQUIRES", []); (T "REZ_BUILD_VARIANT_SUBPATH", [])].
Definition plain_install (p : pkg) (bd : text) (install : option text) : text := match install with Some i => path_join (path_join i (k_name p)) (built_version p) | None => path_join bd (T "install") end.
Definition is_some {A} (o : option A) : bool := match o with Some _ => true | None => false end.
Lemma path_env_spec p b c i e : path_env p b c i = Some e -> exists nb, normal_build cwd userprofile home b = Some nb /\ e_build e = path_join nb (k_name p) /\ e_install e = plain_install p (e_build e) i /\
  e_set e = put_all (match c with Some vs => vs | None => [] end) (set_file_vars parent p (requirements p [] (put_all (own p (e_build e) (e_install e) (is_some i)) []))).
Proof.
  unfold with_install_path. destruct (normal_build cwd userprofile home b) as [nb|]; [|discriminate]. intros E. injection E as <-. exists nb. cbn [e_build e_install e_set].
  split; [reflexivity|]. split; [reflexivity|]. split; [reflexivity|]. destruct c as [vs|]; destruct i; reflexivity.
Qed.
Lemma env_options base config q e k v : env_of base config q = Some e -> NoDup (map fst (q_env q)) -> In (k, v) (q_env q) -> ~ In k variant_names -> aget k (e_set e) = Some v.
Proof.
  intros E N H K. destruct (env_made _ _ _ _ E) as (b & e0 & M & _ & _ & G & _). rewrite (G k K). destruct (made_get _ _ _ _ _ k M) as (e1 & _ & _ & _ & ->). apply put_all_in; assumption.
Qed.
Lemma env_config base config q e k v : env_of base config q = Some e -> NoDup (map fst config) -> In (k, v) config -> unmentioned k (q_env q) -> ~ In k variant_names -> aget k (e_set e) = Some v.
Proof.
  intros E N H U K. destruct (env_made _ _ _ _ E) as (b & e0 & M & _ & _ & G & _). rewrite (G k K). destruct (made_get _ _ _ _ _ k M) as (e1 & _ & _ & _ & ->). rewrite put_all_out by exact U. apply put_all_in; assumption.
Qed.
Lemma env_source base config q e : env_of base config q = Some e ->
  (unmentioned (T "REZ_BUILD_SOURCE_PATH") (q_env q) -> unmentioned (T "REZ_BUILD_SOURCE_PATH") config -> aget (T "REZ_BUILD_SOURCE_PATH") (e_set e) = Some (q_source q)) /\
  (unmentioned (T "REZ_BUILD_PROJECT_FILE") (q_env q) -> unmentioned (T "REZ_BUILD_PROJECT_FILE") config -> aget (T "REZ_BUILD_PROJECT_FILE") (e_set e) = Some (project_file exists_file (q_pkg q) (q_source q))).
Proof.
  intros E. destruct (env_made _ _ _ _ E) as (b & e0 & M & _ & _ & G & _).
  assert (X : forall k, In k source_names -> ~ In k variant_names) by (intros k Hk Hv; cbn in Hk, Hv; intuition (subst; discriminate)).
  split; intros U C; rewrite G by (apply X; cbn; tauto).
  - destruct (made_get _ _ _ _ _ (T "REZ_BUILD_SOURCE_PATH") M) as (e1 & _ & _ & _ & ->). rewrite !put_all_out by assumption. unfold set_source, with_set. cbn [e_set]. rewrite aget_put_other by discriminate. apply aget_put_same.
  - destruct (made_get _ _ _ _ _ (T "REZ_BUILD_PROJECT_FILE") M) as (e1 & _ & _ & _ & ->). rewrite !put_all_out by assumption. unfold set_source, with_set. cbn [e_set]. apply aget_put_same.
Qed.
Lemma env_under base config q e k : env_of base config q = Some e -> unmentioned k (q_env q) -> unmentioned k config -> ~ In k variant_names -> ~ In k source_names ->
  exists b e0, path_env (q_pkg q) b (q_context q) (q_install q) = Some e0 /\ e_build e = e_build e0 /\ e_install e = e_install e0 /\ aget k (e_set e) = aget k (e_set e0).
Proof.
  intros E U C K S. destruct (env_made _ _ _ _ E) as (b & e1 & M & B1 & I1 & G & _). destruct (made_get _ _ _ _ _ k M) as (e0 & P & B0 & I0 & A). exists b, e0.
  split; [exact P|]. split; [congruence|]. split; [congruence|]. rewrite (G k K), A, !put_all_out by assumption. unfold set_source, with_set. cbn [e_set]. rewrite !aget_put_other; [reflexivity| |]; intros ->; apply S; cbn; tauto.
Qed.
Lemma env_context base config q e k v : env_of base config q = Some e -> NoDup (map fst (settings_of q)) -> In (k, v) (settings_of q) ->
  unmentioned k (q_env q) -> unmentioned k config -> ~ In k variant_names -> ~ In k source_names -> aget k (e_set e) = Some v.
Proof.
  intros E N H U C K S. destruct (env_under base config q e k E U C K S) as (b & e0 & P & _ & _ & ->). destruct (path_env_spec _ _ _ _ _ P) as (nb & _ & _ & _ & ->).
  apply (put_all_in k v (settings_of q)); assumption.
Qed.
Lemma file_vars_get p k m : ~ In k source_names -> aget k (set_file_vars parent p m) = aget k m.
Proof.
  intros H. unfold set_file_vars. destruct (k_file p) as [f|]; [|reflexivity]. destruct (parent f); rewrite ?aget_put_other; try reflexivity; intros ->; apply H; cbn; tauto.
Qed.
Lemma env_own base config q e k : env_of base config q = Some e -> unmentioned k (settings_of q) ->
  unmentioned k (q_env q) -> unmentioned k config -> ~ In k variant_names -> ~ In k source_names ->
  aget k (e_set e) = aget k (own (q_pkg q) (e_build e) (e_install e) (is_some (q_install q))).
Proof.
  intros E X U C K S. destruct (env_under base config q e k E U C K S) as (b & e0 & P & -> & -> & ->). destruct (path_env_spec _ _ _ _ _ P) as (nb & _ & _ & _ & ->).
  rewrite (put_all_out k (settings_of q)) by exact X. rewrite file_vars_get by exact S. rewrite requirements_get by (intros ->; apply K; cbn; tauto). rewrite put_all_get.
  assert (N : NoDup (akeys (own (q_pkg q) (e_build e0) (e_install e0) (is_some (q_install q))))) by (cbn; repeat constructor; cbn; intuition discriminate).
  destruct (aget k (own (q_pkg q) (e_build e0) (e_install e0) (is_some (q_install q)))) as [v|] eqn:G.
  - apply aget_in in G. rewrite (aget_nodup k v (rev (own _ _ _ _))); [reflexivity| |apply -> in_rev; exact G]. unfold akeys. rewrite map_rev. apply (Permutation_NoDup (Permutation_rev _)). exact N.
  - replace (aget k (rev (own (q_pkg q) (e_build e0) (e_install e0) (is_some (q_install q))))) with (@None text); [reflexivity|]. symmetry. apply aget_none. apply aget_none in G. unfold akeys in *. rewrite map_rev, <- in_rev. exact G.
Qed.
Lemma env_variant base config q e i : env_of base config q = Some e -> q_variant q = Some i -> let r := match q_variant_requires q with Some r => r | None => [] end in
  let rs := k_requires (q_pkg q) ++ k_build_requires (q_pkg q) ++ k_private_requires (q_pkg q) ++ r in
  aget (T "REZ_BUILD_VARIANT_INDEX") (e_set e) = Some (show_N (N.of_nat i)) /\ aget (T "REZ_BUILD_VARIANT_REQUIRES") (e_set e) = Some (join (T " ") r) /\
  aget (T "REZ_BUILD_REQUIRES") (e_set e) = Some (join (T " ") rs) /\
  aget (T "REZ_BUILD_REQUIRES_UNVERSIONED") (e_set e) = Some (join (T " ") (map (fun r => match req_name r with Some n => n | None => r end) rs)) /\
  (q_variant_requires q <> None -> aget (T "REZ_BUILD_VARIANT_SUBPATH") (e_set e) = Some (hash r)).
Proof.
  intros E V r rs. unfold build_environment in E. fold (made base config q base) in E. destruct (made base config q base) as [e1|]; [|discriminate]. rewrite V in E.
  assert (G : forall e0, aget (T "REZ_BUILD_VARIANT_INDEX") (e_set (variant_env (q_pkg q) i r e0)) = Some (show_N (N.of_nat i)) /\ aget (T "REZ_BUILD_VARIANT_REQUIRES") (e_set (variant_env (q_pkg q) i r e0)) = Some (join (T " ") r) /\
    aget (T "REZ_BUILD_REQUIRES") (e_set (variant_env (q_pkg q) i r e0)) = Some (join (T " ") rs) /\
    aget (T "REZ_BUILD_REQUIRES_UNVERSIONED") (e_set (variant_env (q_pkg q) i r e0)) = Some (join (T " ") (map (fun r => match req_name r with Some n => n | None => r end) rs))).
  { intros e0. unfold set_variant_env, with_set, set_requirements. cbn [e_set]. split; [|split; [|split]].
    - do 3 rewrite aget_put_other by discriminate. apply aget_put_same.
    - do 2 rewrite aget_put_other by discriminate. apply aget_put_same.
    - rewrite aget_put_other by discriminate. apply aget_put_same.
    - apply aget_put_same. }
  destruct (q_variant_requires q) as [r0|] eqn:R.
  - match type of E with match ?z with Some _ => _ | None => _ end = _ => destruct z as [e2|]; [|discriminate] end. injection E as <-. destruct (G e2) as (A & B & C & D). cbn [with_set e_set].
    do 4 rewrite aget_put_other by discriminate. split; [exact A|]. split; [exact B|]. split; [exact C|]. split; [exact D|]. intros _. apply aget_put_same.
  - injection E as <-. destruct (G e1) as (A & B & C & D). split; [exact A|]. split; [exact B|]. split; [exact C|]. split; [exact D|]. congruence.
Qed.
(** ** Where things go *)
Lemma env_install_dir base config q e i : env_of base config q = Some e -> q_install q = Some i -> e_install e = path_join (path_join i (k_name (q_pkg q))) (built_version (q_pkg q)).
Proof.
  intros E H. destruct (env_made _ _ _ _ E) as (b & e1 & M & _ & -> & _). destruct (made_get _ _ _ _ _ [] M) as (e0 & P & _ & -> & _). destruct (path_env_spec _ _ _ _ _ P) as (nb & _ & _ & -> & _). rewrite H. reflexivity.
Qed.
Lemma dir_part a n : dir_text a -> part n -> path_join a n = a ++ T "/" ++ n /\ dir_text (a ++ T "/" ++ n).
Proof.
  intros Ha [N S]. split; [apply path_join_slash; [exact Ha|]; intros r ->; apply S; left; reflexivity|]. apply dir_text_app, dir_text_app. split; [exact N|]. intros r ->. apply S. apply in_or_app. right. left. reflexivity.
Qed.
Lemma normal_abs b : abs_dir b -> normal_build cwd userprofile home b = Some b.
Proof. intros [(c & r & -> & N) _]. unfold normal_build. cbn. destruct c as [[] [] [] [] [] [] [] []]; try reflexivity. exfalso. apply N. reflexivity. Qed.
Lemma abs_app a b : abs_dir a -> dir_text (a ++ b) -> abs_dir (a ++ b).
Proof. intros [(c & r & -> & N) _] D. split; [|exact D]. exists c, (r ++ b). split; [reflexivity|exact N]. Qed.
Lemma install_part : part (T "install").
Proof. split; [discriminate|]. cbn. intuition discriminate. Qed.
Lemma path_env_local p b c e : abs_dir b -> part (k_name p) -> path_env p b c None = Some e -> e_build e = b ++ T "/" ++ k_name p /\ e_install e = b ++ T "/" ++ k_name p ++ T "/install".
Proof.
  intros A N P. destruct (path_env_spec _ _ _ _ _ P) as (nb & Hn & Hb & Hi & _). rewrite (normal_abs b A) in Hn. injection Hn as <-. destruct (dir_part b (k_name p) (proj2 A) N) as [E1 D1]. rewrite E1 in Hb. split; [exact Hb|].
  rewrite Hi, Hb. cbn [plain_install]. destruct (dir_part _ (T "install") D1 install_part) as [-> _]. rewrite <- !app_assoc. reflexivity.
Qed.
Lemma env_local base config q e : abs_dir base -> part (k_name (q_pkg q)) -> q_install q = None -> env_of base config q = Some e ->
  match q_variant q, q_variant_requires q with
  | Some _, Some r => part (hash r) -> e_install e = base ++ T "/" ++ k_name (q_pkg q) ++ T "/install/" ++ hash r ++ T "/" ++ k_name (q_pkg q) ++ T "/install"
  | _, _ => e_install e = base ++ T "/" ++ k_name (q_pkg q) ++ T "/install"
  end.
Proof.
  intros A N I E. unfold build_environment in E. fold (made base config q base) in E. destruct (made base config q base) as [e1|] eqn:M1; [|discriminate].
  destruct (made_get _ _ _ _ _ [] M1) as (e0 & P & _ & I0 & _). rewrite I in P. destruct (path_env_local _ _ _ _ A N P) as [_ L]. rewrite <- I0 in L.
  destruct (q_variant q) as [i|]; [|injection E as <-; exact L]. destruct (q_variant_requires q) as [r|]; [|injection E as <-; exact L]. intros H.
  match type of E with match ?z with Some _ => _ | None => _ end = _ => change z with (made base config q (path_join (e_install e1) (hash r))) in E end.
  destruct (made base config q (path_join (e_install e1) (hash r))) as [e2|] eqn:M2; [|discriminate]. injection E as <-. cbn [with_set e_install]. unfold set_variant_env, with_set. cbn [e_install].
  destruct (made_get _ _ _ _ _ [] M2) as (e3 & P3 & _ & I3 & _). rewrite I in P3. assert (D : dir_text (e_install e1)).
  { rewrite L. apply dir_text_app. change (T "/install") with (T "/" ++ T "install"). apply dir_text_app, dir_text_app, dir_text_app. split; [discriminate|]. intros x F. change (T "install") with (T "instal" ++ ["l"%char]) in F. change (T "/") with ["/"%char] in F. apply app_inj_tail in F. destruct F as [_ F]. discriminate. }
  destruct (dir_part _ (hash r) D H) as [J DJ]. rewrite J in P3.
  assert (A3 : abs_dir (e_install e1 ++ T "/" ++ hash r)). { rewrite L in DJ |- *. rewrite <- app_assoc in DJ |- *. apply abs_app; assumption. }
  destruct (path_env_local _ _ _ _ A3 N P3) as [_ L3]. rewrite I3, L3, L, <- !app_assoc. reflexivity.
Qed.
Lemma env_variant_build base config q e i j r : env_of base config q = Some e -> q_install q = Some i -> q_variant q = Some j -> q_variant_requires q = Some r ->
  normal_build cwd userprofile home (path_join (e_install e) (hash r)) = Some (path_join (e_install e) (hash r)) -> e_build e = path_join (path_join (e_install e) (hash r)) (k_name (q_pkg q)).
Proof.
  intros E I V R Nb. pose proof (env_install_dir _ _ _ _ _ E I) as Li. unfold build_environment in E. fold (made base config q base) in E. destruct (made base config q base) as [e1|] eqn:M1; [|discriminate]. rewrite V, R in E.
  match type of E with match ?z with Some _ => _ | None => _ end = _ => change z with (made base config q (path_join (e_install e1) (hash r))) in E end.
  assert (L1 : e_install e1 = e_install e).
  { rewrite Li. destruct (made_get _ _ _ _ _ [] M1) as (e0 & P & _ & -> & _). destruct (path_env_spec _ _ _ _ _ P) as (nb & _ & _ & -> & _). rewrite I. reflexivity. }
  destruct (made base config q (path_join (e_install e1) (hash r))) as [e2|] eqn:M2; [|discriminate]. injection E as <-. cbn [with_set e_build set_variant_env e_install] in *. rewrite <- L1 in Nb |- *.
  destruct (made_get _ _ _ _ _ [] M2) as (e3 & P3 & -> & _ & _). destruct (path_env_spec _ _ _ _ _ P3) as (nb & H & -> & _). rewrite Nb in H. injection H as <-. reflexivity.
Qed.
End Env.

(** ** The script *)
Lemma esc_none v : ~ In """"%char v -> ~ In "\"%char v -> esc_dq v = v.
Proof.
  induction v as [|c v IH]; intros H1 H2; [reflexivity|]. rewrite esc_dq_cons. rewrite IH by (intros X; first [apply H1; right; exact X|apply H2; right; exact X]). unfold esc_dq1.
  destruct (Ascii.eqb_spec c DQ) as [->|_]; [destruct H1; left; reflexivity|]. destruct (Ascii.eqb_spec c BS) as [->|_]; [destruct H2; left; reflexivity|]. reflexivity.
Qed.
Lemma join_lines (ls : list text) : ls <> [] -> join [NL] (ls ++ [[]]) = flat_map (fun l => l ++ [NL]) ls.
Proof.
  induction ls as [|l ls IH]; intros H; [congruence|]. destruct ls as [|m ls]; [cbn; rewrite app_nil_r; reflexivity|].
  change ((l :: m :: ls) ++ [[]]) with (l :: ((m :: ls) ++ [[]])). rewrite join_cons by (cbn; discriminate). rewrite IH by discriminate. cbn [flat_map]. rewrite <- !app_assoc. reflexivity.
Qed.
Lemma flat_map_map {A B C} (f : A -> B) (g : B -> list C) l : flat_map g (map f l) = flat_map (fun a => g (f a)) l.
Proof. induction l; cbn; congruence. Qed.
Lemma script_reads vars : (forall k v, In (k, v) vars -> shell_name k /\ quotable v) -> Reads (build_script vars) (map (fun kv => Export (fst kv) (snd kv)) vars).
Proof.
  intros H. set (ls := [(T "#!/bin/bash", []); (T "# Build environment setup", []); ([], [])] ++ map (fun kv => (T "export " ++ fst kv ++ ["="%char; DQ] ++ snd kv ++ [DQ], [Export (fst kv) (snd kv)])) vars ++ [([], [])]).
  assert (E : build_script vars = join [NL] (map fst ls)).
  { unfold ls. rewrite !map_app, map_map. cbn [map fst]. change ([T "#!/bin/bash"; T "# Build environment setup"; []] ++ ?x ++ [[]]) with (([T "#!/bin/bash"; T "# Build environment setup"; []] ++ x) ++ [[]]).
    rewrite join_lines by discriminate. rewrite flat_map_app, flat_map_map. unfold build_script.
    assert (X : flat_map (fun kv : text * text => T "export " ++ fst kv ++ ["="%char; DQ] ++ snd kv ++ [DQ; NL]) vars = flat_map (fun a : text * text => (T "export " ++ fst a ++ ["="%char; DQ] ++ snd a ++ [DQ]) ++ [NL]) vars).
    { apply flat_map_ext. intros a. rewrite <- !app_assoc. reflexivity. }
    etransitivity; [|exact (f_equal (fun z => T "#!/bin/bash" ++ [NL] ++ T "# Build environment setup" ++ [NL; NL] ++ z) X)]. reflexivity. }
  rewrite E. assert (F : flat_map snd ls = map (fun kv => Export (fst kv) (snd kv)) vars).
  { unfold ls. rewrite !flat_map_app. cbn [flat_map snd app]. rewrite app_nil_r, flat_map_map. clear. induction vars as [|a l IH]; [reflexivity|]. cbn [flat_map map]. rewrite IH. reflexivity. }
  rewrite <- F. apply reads_join. intros x Hx. unfold ls in Hx. apply in_app_iff in Hx. destruct Hx as [[<-|[<-|[<-|[]]]]|Hx].
  - apply (as_comment (T "!/bin/bash")). cbn. intuition discriminate.
  - apply (as_comment (T " Build environment setup")). cbn. intuition discriminate.
  - apply as_blank.
  - apply in_app_iff in Hx. destruct Hx as [Hx|[<-|[]]]; [|apply as_blank]. apply in_map_iff in Hx. destruct Hx as ([k v] & <- & Hx). cbn [fst snd]. destruct (H k v Hx) as (Sn & Q & Q1 & Q2).
    rewrite <- (esc_none v Q1 Q2) at 1. apply as_export; assumption.
Qed.
(** ** Placeholders *)
Lemma fold_expands ctx : forall s, (forall k v, In (k, v) ctx -> braceless k /\ braceless v) -> NoDup (map fst ctx) -> flat s ->
  Expands ctx s (fold_left (fun c kv => replace ("{"%char :: fst kv ++ ["}"%char]) (snd kv) c) ctx s).
Proof.
  induction ctx as [|[k v] ctx IH]; intros s H N F; cbn [fold_left fst snd].
  - clear. induction s as [|c s IH]; [constructor|]. apply Exp_lit; [intros k v q []|exact IH].
  - inversion N as [|? ? Nk Nc]. subst. destruct (H k v (or_introl eq_refl)) as [Hk Hv]. apply step_expands; try assumption.
    + intros k' v' Hi. apply (H k' v'). right. exact Hi.
    + apply IH; [intros k' v' Hi; apply H; right; exact Hi|exact Nc|apply swap1_flat; assumption].
Qed.
(** ** The addresses of sources *)
Lemma git_plain u : at_free u -> parse_git_url u = (u, None).
Proof.
  intros H. unfold parse_git_url. destruct (rfind_char "@" u) as [[b a]|] eqn:E; [|reflexivity]. exfalso. apply H.
  assert (X : forall d s x y, rfind_char d s = Some (x, y) -> In d s); [|exact (X _ _ _ _ E)]. clear.
  intros d s x y H. unfold rfind_char in H. destruct (find_char d (rev s)) as [[b a]|] eqn:E; [|discriminate]. apply in_rev. clear H x y. revert b a E.
  induction (rev s) as [|c t IH]; intros b a E; [discriminate|]. cbn in E. destruct (Ascii.eqb_spec c d) as [->|]; [left; reflexivity|]. destruct (find_char d t) as [[p q]|]; [|discriminate]. right. eapply IH. reflexivity.
Qed.
Lemma git_http u r : starts_with (T "http") u = true -> at_free r -> parse_git_url (u ++ "@"%char :: r) = (u, Some r).
Proof. intros H F. unfold parse_git_url. rewrite (rfind_some "@" u r F), H. cbn [negb andb]. rewrite andb_false_r. reflexivity. Qed.
Lemma git_scp user host repo r : at_free host -> at_free repo -> at_free r -> starts_with (T "http") user = false -> parse_git_url (user ++ "@"%char :: host ++ ":"%char :: repo ++ "@"%char :: r) = (user, Some r).
Proof.
  intros Hh Hp Hr S. unfold parse_git_url.
  replace (user ++ "@"%char :: host ++ ":"%char :: repo ++ "@"%char :: r) with ((user ++ "@"%char :: host ++ ":"%char :: repo) ++ "@"%char :: r) by (rewrite <- !app_assoc; cbn; rewrite <- !app_assoc; reflexivity).
  rewrite (rfind_some "@" _ r Hr).
  replace (contains_text (T ":") (user ++ "@"%char :: host ++ ":"%char :: repo)) with true by (symmetry; apply contains_text_spec; exists (user ++ "@"%char :: host), repo; rewrite <- !app_assoc; reflexivity).
  replace (starts_with (T "http") (user ++ "@"%char :: host ++ ":"%char :: repo)) with false.
  - cbn [negb andb]. rewrite rfind_some; [reflexivity|]. intros X. apply in_app_iff in X. destruct X as [X|[X|X]]; [exact (Hh X)|discriminate|exact (Hp X)].
  - symmetry. destruct user as [|a [|b [|c [|d u]]]]; [reflexivity| | | |]; cbn [app T starts_with list_ascii_of_string] in *; try (rewrite !andb_false_r; reflexivity); exact S.
Qed.
(** ** Tests *)
Lemma zero_went r : went_well r = true <-> zero r.
Proof. unfold zero. destruct r as [e|[|p|p] o e]; cbn; split; intros H; try discriminate; try (destruct H as (? & ? & H); discriminate); eauto. Qed.
Lemma run_tests_spec run root ts : forall ran, exists l r, run_tests run root ts ran = (ran ++ l, r) /\ tested run (expand_test root) ts l r.
Proof.
  induction ts as [|[n c] ts IH]; intros ran; [exists [], (inl true); split; [cbn; rewrite app_nil_r; reflexivity|constructor]|]. cbn [run_tests]. destruct (run (expand_test root c)) as [e|z o e] eqn:E.
  - exists [(n, expand_test root c)], (inr e). split; [reflexivity|]. apply tested_error, E.
  - destruct (went_well (Exit z o e)) eqn:G.
    + destruct (IH (ran ++ [(n, expand_test root c)])) as (l & r & -> & H). exists ((n, expand_test root c) :: l), r. rewrite <- app_assoc. split; [reflexivity|]. apply tested_pass; [|exact H]. rewrite E. apply zero_went, G.
    + exists [(n, expand_test root c)], (inl false). split; [reflexivity|]. eapply tested_fail; [exact E|]. intros ->. discriminate.
Qed.
Lemma tested_all run say ts l r : tested run say ts l r -> r = inl true <-> forall n c, In (n, c) ts -> zero (run (say c)).
Proof.
  induction 1 as [|n c ts l r Z _ IH|n c ts z o e E Nz|n c ts e E].
  - split; [intros _ n c []|reflexivity].
  - split; [intros -> m d [F|F]; [injection F as <- <-; exact Z|apply (proj1 IH eq_refl m d F)]|]. intros H. apply IH. intros m d F. apply (H m d). right. exact F.
  - split; [discriminate|]. intros H. destruct (H n c (or_introl eq_refl)) as (o' & e' & X). rewrite E in X. injection X as -> _ _. congruence.
  - split; [discriminate|]. intros H. destruct (H n c (or_introl eq_refl)) as (o' & e' & X). rewrite E in X. discriminate.
Qed.
(** ** The command *)
Lemma add_new_in r l a : In a (add_new l r) <-> a = r \/ In a l.
Proof. unfold add_new. destruct (mem_text r l) eqn:E; [apply mem_in in E; split; [auto|intros [->|H]; auto]|]. rewrite in_app_iff. cbn. intuition. Qed.
Lemma add_new_nodup r l : NoDup l -> NoDup (add_new l r).
Proof.
  intros N. unfold add_new. destruct (mem_text r l) eqn:E; [exact N|]. apply (Permutation_NoDup (Permutation_cons_append l r)). constructor; [|exact N]. intros H. apply mem_in in H. congruence.
Qed.
Lemma fold_new_spec l : forall acc, NoDup acc -> NoDup (fold_left add_new l acc) /\ (forall a, In a (fold_left add_new l acc) <-> In a acc \/ In a l) /\
  exists r, fold_left add_new l acc = acc ++ r.
Proof.
  induction l as [|b l IH]; intros acc N; [split; [exact N|split; [intros a; cbn; tauto|exists []; cbn; rewrite app_nil_r; reflexivity]]|]. cbn [fold_left]. destruct (IH (add_new acc b) (add_new_nodup b acc N)) as (A & B & r & C).
  split; [exact A|]. split; [intros a; rewrite B, add_new_in; cbn; intuition|]. rewrite C. unfold add_new. destruct (mem_text b acc); [exists r; reflexivity|]. exists (b :: r). rewrite <- app_assoc. reflexivity.
Qed.
Lemma fold_new_first l : first_seen l (fold_left add_new l []).
Proof.
  destruct (fold_new_spec l [] (NoDup_nil _)) as (A & B & _). split; [exact A|]. split; [intros a; rewrite B; cbn; tauto|]. clear A B.
  induction l as [|x l IH] using rev_ind; intros a b r1 r2 r3 E; [destruct r1; discriminate|]. rewrite fold_left_app in E. cbn [fold_left] in E.
  destruct (fold_new_spec l [] (NoDup_nil _)) as (_ & B & _). set (m := fold_left add_new l []) in *.
  assert (G : forall q, m = r1 ++ a :: r2 ++ b :: q -> exists l1 l2, l ++ [x] = l1 ++ a :: l2 /\ ~ In b l1).
  { intros q Hq. destruct (IH _ _ _ _ _ Hq) as (l1 & l2 & -> & H). exists l1, (l2 ++ [x]). rewrite <- app_assoc. split; [reflexivity|exact H]. }
  unfold add_new in E. destruct (mem_text x m) eqn:M; [exact (G _ E)|]. destruct r3 as [|y r3 _] using rev_ind.
  - replace (r1 ++ a :: r2 ++ [b]) with ((r1 ++ a :: r2) ++ [b]) in E by (rewrite <- app_assoc; reflexivity). apply app_inj_tail in E. destruct E as [E ->].
    assert (Ha : In a l) by (destruct (proj1 (B a)) as [[]|X]; [rewrite E; apply in_or_app; right; left; reflexivity|exact X]). apply in_split in Ha. destruct Ha as (l1 & l2 & ->). exists l1, (l2 ++ [b]). rewrite <- app_assoc. split; [reflexivity|].
    intros H. assert (Hm : In b m) by (apply B; right; apply in_or_app; left; exact H). apply mem_in in Hm. congruence.
  - replace (r1 ++ a :: r2 ++ b :: r3 ++ [y]) with ((r1 ++ a :: r2 ++ b :: r3) ++ [y]) in E by (rewrite <- !app_assoc; cbn; rewrite <- !app_assoc; reflexivity). apply app_inj_tail in E. destruct E as [E _]. exact (G _ E).
Qed.
Lemma build_variants_spec {W} (one : option nat -> W -> W * bool) vs : forall w, build_variants one vs w =
  match vs with [] => (w, true) | v :: r => if snd (one v w) then build_variants one r (fst (one v w)) else (fst (one v w), false) end.
Proof. destruct vs as [|v r]; intros w; [reflexivity|]. cbn. destruct (one v w) as [w' []]; reflexivity. Qed.
