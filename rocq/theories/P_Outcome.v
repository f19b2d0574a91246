(** C293-C300: the results of a resolution and the collections beside the solver. *)
From Verif Require Import Base Base_lemmas Maps Sorting Outcome_model Outcome_spec Outcome_proofs.
From Verif Require Scan_spec Env_model Env_context.
From Coq Require Import Lia Permutation Sorted.
Open Scope string_scope. Open Scope list_scope.

Definition pk (n : text) (v : option text) (ts : list text) (c : option text) : package := mkPackage n v [] [] [] [] ts c.

(** ** C293: a result that was checked *)
Theorem C293_validate_partial : forall ps, validate ps = Fine <-> NoDup (map key ps) /\ Forall usable ps.
Proof. exact validate_fine. Qed.
Theorem C293_duplicate_partial : forall ps k, validate ps = Duplicate k -> exists a p b, ps = a ++ p :: b /\ key p = k /\ In k (map key a) /\ NoDup (map key a).
Proof.
  intros ps k H. unfold validate in H. destruct (duplicate [] ps) as [j|] eqn:D; [|now destruct (find (fun p => negb (valid_package p)) ps)].
  injection H as ->. apply duplicate_some in D as (a & p & b & A & B & [[]|C] & E & _). exists a, p, b. auto.
Qed.
Theorem C293_invalid_partial : forall ps n, validate ps = Invalid n -> NoDup (map key ps) /\ exists p, In p ps /\ p_name p = n /\ ~ usable p.
Proof.
  intros ps n H. unfold validate in H. destruct (duplicate [] ps) as [j|] eqn:D; [discriminate|]. apply duplicate_none in D as [D _]. split; [assumption|].
  destruct (find (fun p => negb (valid_package p)) ps) as [p|] eqn:F; [|discriminate]. injection H as <-. apply find_some in F as [F G]. exists p. split; [assumption|]. split; [reflexivity|]. rewrite <- valid_usable. apply negb_true_iff in G. congruence.
Qed.
(** two versions of a package pass *)
Theorem C293_versions_refuted : forall p q, usable p -> usable q -> p_name p = p_name q -> p_version p <> p_version q -> p_version p <> None -> p_version q <> None -> validate [p; q] = Fine.
Proof.
  intros p q A B E F G K. apply validate_fine. split; [|constructor; [assumption|constructor; [assumption|constructor]]]. cbn [map]. constructor; [|repeat constructor; intros []]. intros [H|[]]. unfold key in H.
  destruct (p_version p) as [v|], (p_version q) as [w|]; try congruence. rewrite E in H. apply app_inv_head in H. apply app_inv_head in H. congruence.
Qed.
(** different packages are taken for one *)
Theorem C293_names_refuted : forall p q v, p_version p = Some v -> p_version q = None -> p_name q = p_name p ++ T "-" ++ v -> validate [p; q] = Duplicate (p_name q) /\ p_name p <> p_name q.
Proof.
  intros p q v A B C. split.
  - unfold validate. cbn [duplicate mem_text existsb]. unfold key. rewrite A, B, <- C, text_eqb_refl. reflexivity.
  - rewrite C. intros H. apply (f_equal (@length ascii)) in H. rewrite !app_length in H. change (length (T "-")) with 1 in H. lia.
Qed.
Example C293_example : validate [pk (T "a") (Some (T "1")) [] None; pk (T "b") None [] None] = Fine /\ validate [pk (T "a") (Some (T "1")) [] None; pk (T "a") (Some (T "2")) [] None] = Fine /\
  validate [pk (T "a") (Some (T "1")) [] None; pk (T "a-1") None [] None] = Duplicate (T "a-1") /\ validate [pk (T "a b") None [] None] = Invalid (T "a b").
Proof. cbv zeta. repeat match goal with |- _ /\ _ => split end; reflexivity. Qed.

(** ** C294: looking for packages *)
Theorem C294_find_partial : forall ps pattern p, ~ In "."%char pattern -> ~ In "?"%char pattern -> Scan_spec.one_line (p_name p) -> (In p (find_packages ps pattern) <-> In p ps /\ Scan_spec.wildcard pattern (p_name p)).
Proof. intros ps pattern p A B L. unfold find_packages. rewrite filter_In, matches_glob by assumption. reflexivity. Qed.
Theorem C294_exact : forall ps pattern, ~ In "*"%char pattern -> forall p, In p (find_packages ps pattern) <-> In p ps /\ p_name p = pattern.
Proof. intros ps pattern H p. unfold find_packages. rewrite filter_In, matches_exact by assumption. reflexivity. Qed.
Theorem C294_all : forall ps, find_packages ps (T "*") = ps.
Proof. intros ps. unfold find_packages. induction ps as [|p r IH]; [reflexivity|]. cbn [filter]. change (matches (p_name p) (T "*")) with true. cbv iota. now rewrite IH. Qed.
Theorem C294_order : forall ps qs pattern, find_packages (ps ++ qs) pattern = find_packages ps pattern ++ find_packages qs pattern.
Proof. intros. apply filter_app. Qed.
(** in a pattern with a star a point is for any character *)
Theorem C294_star_partial : forall ps pattern p, In "*"%char pattern -> Scan_spec.one_line (p_name p) -> (In p (find_packages ps pattern) <-> In p ps /\ Scan_spec.wildcard (Scan_spec.loose pattern) (p_name p)).
Proof. intros ps pattern p A L. unfold find_packages. rewrite filter_In, matches_star by assumption. reflexivity. Qed.
Theorem C294_point_refuted : forall p c r, p_name p = "a"%char :: c :: r -> c <> "."%char -> Scan_spec.one_line (p_name p) -> find_packages [p] (T "a.*") = [p] /\ ~ Scan_spec.wildcard (T "a.*") (p_name p).
Proof.
  intros p c r E H L. split.
  - assert (K : In p (find_packages [p] (T "a.*"))).
    { apply C294_star_partial; [cbn; tauto|assumption|]. split; [now left|]. rewrite E. change (Scan_spec.loose (T "a.*")) with ("a"%char :: "?"%char :: T "*"). apply Scan_spec.W_char; [discriminate|discriminate|]. apply Scan_spec.W_one, wild_star. }
    revert K. unfold find_packages. cbn [filter]. destruct (matches (p_name p) (T "a.*")); [reflexivity|intros []].
  - rewrite E. intros W. change (T "a.*") with ("a"%char :: "."%char :: T "*") in W. inversion W as [|? ? ? ? ? W1| |]; subst. inversion W1; subst. congruence.
Qed.
Example C294_example : let ps := [pk (T "maya") None [] None; pk (T "mayapy") None [] None; pk (T "nuke") None [] None] in
  find_packages ps (T "maya*") = [pk (T "maya") None [] None; pk (T "mayapy") None [] None] /\ find_packages ps (T "maya") = [pk (T "maya") None [] None] /\ find_packages ps (T "m.y*") = find_packages ps (T "maya*").
Proof. cbv zeta. repeat match goal with |- _ /\ _ => split end; reflexivity. Qed.

(** ** C295: one package *)
Theorem C295_get : forall ps n p, get_package ps n = Some p <-> first_with n ps p.
Proof. exact get_first. Qed.
Theorem C295_none : forall ps n, get_package ps n = None <-> ~ In n (package_names ps).
Proof. exact get_none. Qed.
Theorem C295_contains : forall ps n, contains_package ps n = true <-> In n (package_names ps).
Proof. exact contains_in. Qed.
Theorem C295_names : forall ps, length (package_names ps) = length ps /\ forall i p, nth_error ps i = Some p -> nth_error (package_names ps) i = Some (p_name p).
Proof. intros ps. unfold package_names. split; [apply map_length|]. intros i p H. now rewrite (map_nth_error p_name i ps H). Qed.
Example C295_example : let ps := [pk (T "a") (Some (T "1")) [] None; pk (T "b") None [] None; pk (T "a") (Some (T "2")) [] None] in
  get_package ps (T "a") = Some (pk (T "a") (Some (T "1")) [] None) /\ contains_package ps (T "c") = false /\ package_names ps = [T "a"; T "b"; T "a"].
Proof. cbv zeta. repeat match goal with |- _ /\ _ => split end; reflexivity. Qed.

(** ** C296: the summary *)
Theorem C296_count : forall ps, fst (fst (summary ps)) = length ps /\ snd (fst (summary ps)) = (1048576 * N.of_nat (length ps))%N.
Proof. intros ps. split; [reflexivity|]. cbn [summary fst snd]. rewrite size_sum. lia. Qed.
Theorem C296_last : forall ps n p, last_with n ps p -> aget n (snd (summary ps)) = Some (shown p).
Proof.
  intros ps n p (a & b & -> & <- & H). rewrite versions_gather. apply (gather_last p_name (fun p => Some (shown p))); [reflexivity|]. intros q Q E. exfalso. apply H. rewrite <- E. now apply in_map.
Qed.
Theorem C296_versions_partial : forall ps, NoDup (map p_name ps) -> length (snd (summary ps)) = length ps /\ forall p, In p ps -> aget (p_name p) (snd (summary ps)) = Some (shown p).
Proof.
  intros ps H. split.
  - rewrite versions_gather. rewrite <- (map_length fst), <- (map_length p_name ps). apply Permutation_length, NoDup_Permutation; [apply gather_nodup; constructor|assumption|]. intros x.
    change (map fst ?m) with (akeys m). rewrite gather_keys, in_map_iff. cbn [akeys map In]. split.
    + intros [[]|(p & A & B & _)]. eauto.
    + intros (p & A & B). right. exists p. split; [assumption|]. split; [assumption|discriminate].
  - intros p K. apply C296_last. destruct (nodup_split p_name ps p H K) as (a & b & E & F). exists a, b. split; [assumption|]. split; [reflexivity|]. intros Q. apply in_map_iff in Q as (q & A & B). apply (F q); [apply in_or_app; now right|assumption].
Qed.
(** of two packages with one name the version of the first is not in the summary, which still counts it *)
Theorem C296_versions_refuted : forall p q, p_name p = p_name q -> fst (fst (summary [p; q])) = 2 /\ snd (summary [p; q]) = [(p_name q, shown q)].
Proof. intros p q E. split; [reflexivity|]. cbn. rewrite E, text_eqb_refl. reflexivity. Qed.
Example C296_example : summary [pk (T "a") (Some (T "1")) [] None; pk (T "b") None [] None] = (2, 2097152%N, [(T "a", T "1"); (T "b", T "latest")]).
Proof. reflexivity. Qed.

(** ** C297: the environment *)
Theorem C297_packages : forall ps, length (fst (environment ps)) = length ps /\
  forall i p, nth_error ps i = Some p -> exists s, nth_error (fst (environment ps)) i = Some s /\ s_name s = p_name p /\ s_version s = p_version p /\ s_requires s = p_requires p /\ s_tools s = p_tools p.
Proof. intros ps. cbn [environment fst]. split; [apply map_length|]. intros i p H. exists (spec_of p). split; [exact (map_nth_error spec_of i ps H)|]. repeat split; reflexivity. Qed.
Theorem C297_commands_partial : forall ps, NoDup (map (fun p => map to_upper (p_name p)) ps) -> forall p, In p ps -> aget (variable (p_name p)) (snd (environment ps)) = p_commands p.
Proof.
  intros ps H p K. rewrite vars_gather. destruct (nodup_split _ ps p H K) as (a & b & -> & F). cbv beta in F.
  destruct (p_commands p) as [c|] eqn:E.
  - apply (gather_last (fun p => variable (p_name p)) p_commands); [assumption|]. intros q Q W. exfalso. apply variable_same in W. apply (F q); [apply in_or_app; now right|exact W].
  - rewrite gather_other; [reflexivity|]. intros q Q W. apply variable_same in W. apply in_app_iff in Q. destruct Q as [Q|[<-|Q]]; [exfalso; apply (F q); [apply in_or_app; now left|exact W]|assumption|exfalso; apply (F q); [apply in_or_app; now right|exact W]].
Qed.
Theorem C297_only : forall ps x, In x (akeys (snd (environment ps))) <-> exists p, In p ps /\ variable (p_name p) = x /\ p_commands p <> None.
Proof. intros ps x. rewrite vars_gather, gather_keys. cbn [akeys map In]. tauto. Qed.
(** of two packages whose names differ in capital letters only, the commands of the first are lost *)
Theorem C297_commands_refuted : forall p q c d, same_name (p_name p) (p_name q) -> p_commands p = Some c -> p_commands q = Some d -> snd (environment [p; q]) = [(variable (p_name q), d)].
Proof. intros p q c d E A B. apply variable_same in E. cbn. rewrite A, B, E. cbn. rewrite text_eqb_refl. reflexivity. Qed.
Example C297_example : snd (environment [pk (T "a") None [] (Some (T "x")); pk (T "b") None [] None; pk (T "c") None [] (Some (T "y"))]) = [(T "A_COMMANDS", T "x"); (T "C_COMMANDS", T "y")] /\
  snd (environment [pk (T "a") None [] (Some (T "x")); pk (T "A") None [] (Some (T "y"))]) = [(T "A_COMMANDS", T "y")].
Proof. split; reflexivity. Qed.

(** ** C298: lists of requirements *)
Theorem C298_get : forall h n, get_requirements n (run h) = since n (rev h).
Proof. exact run_get. Qed.
Theorem C298_all : forall h, exists ns, NoDup ns /\ (forall n, In n ns <-> since n (rev h) <> []) /\ list_len (run h) = length ns /\ all_requirements (run h) = flat_map (fun n => since n (rev h)) ns.
Proof.
  intros h. destruct (run_ok h) as [A B]. exists (akeys (run h)). split; [assumption|]. split; [apply run_names|]. split; [unfold list_len, akeys; now rewrite map_length|].
  unfold all_requirements. rewrite flat_nodup by assumption. rewrite !flat_map_concat_map. f_equal. apply map_ext. intros n. apply run_get.
Qed.
Theorem C298_empty : forall h, list_empty (run h) = true <-> forall n, since n (rev h) = [].
Proof.
  intros h. unfold list_empty. split.
  - intros H n. rewrite <- run_get. destruct (run h); [reflexivity|discriminate].
  - intros H. destruct (run h) as [|[n l] m] eqn:E; [reflexivity|]. exfalso. assert (K : In n (akeys (run h))) by (rewrite E; now left). apply run_names in K. now apply K.
Qed.
Theorem C298_added : forall l, Permutation (all_requirements (run (map (fun x => Add (fst x) (snd x)) l))) (map snd l).
Proof.
  intros l. induction l as [|[n r] l IH] using rev_ind; [constructor|]. rewrite !map_app. cbn [map fst snd]. rewrite run_snoc. cbn [step]. rewrite all_add, IH. apply Permutation_cons_append.
Qed.
(** the length is that of the names, not that of the requirements *)
Theorem C298_length_refuted : forall n r s, list_len (run [Add n r; Add n s]) = 1 /\ length (all_requirements (run [Add n r; Add n s])) = 2.
Proof. intros n r s. unfold run. cbn [fold_left step]. unfold add_requirement at 2 4. cbn [aget aput]. unfold add_requirement. cbn [aget aput]. rewrite text_eqb_refl. split; reflexivity. Qed.
Example C298_example : let m := run [Add (T "a") (T "a-1"); Add (T "b") (T "b-2"); Add (T "a") (T "a<3"); Remove (T "b")] in
  get_requirements (T "a") m = [T "a-1"; T "a<3"] /\ get_requirements (T "b") m = [] /\ list_len m = 1.
Proof. cbv zeta. repeat match goal with |- _ /\ _ => split end; reflexivity. Qed.

(** ** C299: the cache of variants and the reductions *)
Theorem C299_cache : forall h n, fst (get_variants n (crun h)) = there n (rev h).
Proof. intros h n. rewrite get_variants_eq. apply crun_there. Qed.
Theorem C299_counts : forall h, v_hits (crun h) = found true (rev h) /\ v_misses (crun h) = found false (rev h).
Proof. exact crun_counts. Qed.
Theorem C299_reductions : forall rs, fold_left (fun t r => add_reduction r t) rs ([], 0) = (rs, length rs).
Proof.
  intros rs. induction rs as [|r rs IH] using rev_ind; [reflexivity|]. rewrite fold_left_app, IH. cbn [fold_left add_reduction fst snd]. rewrite app_length. cbn [length]. now rewrite Nat.add_1_r.
Qed.
Example C299_example : let c := crun [Get (T "a"); Put (T "a") [T "v"]; Get (T "a"); Get (T "b"); Drop (T "a"); Get (T "a")] in
  v_hits c = 1 /\ v_misses c = 3 /\ fst (get_variants (T "a") c) = None /\ fst (get_variants (T "a") (cache_variants (T "a") [T "w"] c)) = Some [T "w"].
Proof. cbv zeta. repeat match goal with |- _ /\ _ => split end; reflexivity. Qed.

(** ** C300: tools and the script *)
Theorem C300_tools : forall ss, (forall t, In t (all_tools ss) <-> exists s, In s ss /\ In t (s_tools s)) /\ StronglySorted (fun a b => text_cmp a b = Lt) (all_tools ss).
Proof.
  intros ss. unfold all_tools. split.
  - intros t. rewrite Env_context.dedup_in, sort_in. apply in_flat_map.
  - apply Env_context.dedup_sorted, (sort_chain _ _ TPO_text), Forall_forall. auto.
Qed.
Theorem C300_lines_partial : forall e, (forall n v, In (n, v) (snd e) -> exists a b, bash_script e = a ++ T "export " ++ n ++ T "=" ++ ["034"%char] ++ v ++ ["034"%char; "010"%char] ++ b) /\
  (forall t, In t (all_tools (fst e)) -> exists a b, bash_script e = a ++ T "export PATH=" ++ ["034"%char] ++ T "$PATH:/path/to/" ++ t ++ ["034"%char; "010"%char] ++ b).
Proof.
  intros [ss vs]. split.
  - cbn [snd]. intros n v H. apply in_split in H as (x & y & ->). unfold bash_script. cbn [fst snd]. rewrite flat_map_app. cbn [flat_map fst snd]. eexists (T "#!/bin/bash" ++ ["010"%char] ++ T "# Generated by rez-core" ++ ["010"%char; "010"%char] ++ flat_map _ x), _. rewrite <- !app_assoc. reflexivity.
  - cbn [fst]. intros t H. unfold bash_script. cbn [fst snd]. destruct (all_tools ss) as [|t0 ts]; [destruct H|]. apply in_split in H as (x & y & ->). rewrite flat_map_app. cbn [flat_map].
    eexists (T "#!/bin/bash" ++ ["010"%char] ++ T "# Generated by rez-core" ++ ["010"%char; "010"%char] ++ flat_map _ vs ++ ["010"%char] ++ T "# Add tools to PATH" ++ ["010"%char] ++ flat_map _ x), _. rewrite <- !app_assoc. reflexivity.
Qed.
(** without quotes and line feeds in them, the lines are the two of the start, one for each variable and one for each tool *)
Definition exported (v : text * text) : text := T "export " ++ fst v ++ T "=" ++ ["034"%char] ++ snd v ++ ["034"%char].
Definition on_path (t : text) : text := T "export PATH=" ++ ["034"%char] ++ T "$PATH:/path/to/" ++ t ++ ["034"%char].
Theorem C300_only_partial : forall e, (forall n v, In (n, v) (snd e) -> ~ In "010"%char (n ++ v)) -> (forall t, In t (all_tools (fst e)) -> ~ In "010"%char t) ->
  exists ls, bash_script e = flat_map (fun l => l ++ ["010"%char]) ls /\ Forall (fun l => ~ In "010"%char l) ls /\ (forall l, In l ls -> l <> [] -> hd_error l <> Some "#"%char -> (exists v, In v (snd e) /\ l = exported v) \/ (exists t, In t (all_tools (fst e)) /\ l = on_path t)).
Proof.
  intros [ss vs] A B. cbn [fst snd] in *. exists ([T "#!/bin/bash"; T "# Generated by rez-core"; []] ++ map exported vs ++ match all_tools ss with [] => [] | ts => [[]; T "# Add tools to PATH"] ++ map on_path ts end).
  assert (E : forall us, flat_map (fun v : text * text => T "export " ++ fst v ++ T "=" ++ ["034"%char] ++ snd v ++ ["034"%char; "010"%char]) us = flat_map (fun l => l ++ ["010"%char]) (map exported us)).
  { induction us as [|u us IH]; [reflexivity|]. cbn [flat_map map]. rewrite IH. unfold exported. rewrite <- !app_assoc. reflexivity. }
  assert (F : forall us, flat_map (fun t : text => T "export PATH=" ++ ["034"%char] ++ T "$PATH:/path/to/" ++ t ++ ["034"%char; "010"%char]) us = flat_map (fun l => l ++ ["010"%char]) (map on_path us)).
  { induction us as [|u us IH]; [reflexivity|]. cbn [flat_map map]. rewrite IH. unfold on_path. rewrite <- !app_assoc. reflexivity. }
  assert (G : forall v, In v vs -> ~ In "010"%char (exported v)).
  { intros [n v] H K. apply (A n v H). apply in_or_app. unfold exported in K. cbn [fst snd] in K. rewrite !in_app_iff in K. destruct K as [K|[K|[K|[K|[K|K]]]]]; [exfalso; cbn in K; intuition discriminate|tauto|exfalso; cbn in K; intuition discriminate|exfalso; cbn in K; intuition discriminate|tauto|exfalso; cbn in K; intuition discriminate]. }
  assert (P : forall t, In t (all_tools ss) -> ~ In "010"%char (on_path t)).
  { intros t H K. apply (B t H). unfold on_path in K. rewrite !in_app_iff in K. destruct K as [K|[K|[K|[K|K]]]]; [exfalso; cbn in K; intuition discriminate|exfalso; cbn in K; intuition discriminate|exfalso; cbn in K; intuition discriminate|assumption|exfalso; cbn in K; intuition discriminate]. }
  split; [|split].
  - unfold bash_script. cbn [fst snd]. rewrite E, !flat_map_app. destruct (all_tools ss) as [|t ts]; [cbn [flat_map]; rewrite <- ?app_assoc; reflexivity|]. rewrite F, flat_map_app. cbn [flat_map app]. rewrite <- ?app_assoc. reflexivity.
  - apply Forall_forall. intros l H. rewrite !in_app_iff in H. destruct H as [H|[H|H]].
    + cbn in H. destruct H as [<-|[<-|[<-|[]]]]; cbn; intuition discriminate.
    + apply in_map_iff in H as (v & <- & H). auto.
    + destruct (all_tools ss) as [|t ts]; [destruct H|]. apply in_app_iff in H. destruct H as [[<-|[<-|[]]]|H]; [cbn; intuition discriminate|cbn; intuition discriminate|]. apply in_map_iff in H as (u & <- & H). auto.
  - intros l H N K. rewrite !in_app_iff in H. destruct H as [H|[H|H]].
    + exfalso. cbn [In] in H. destruct H as [<-|[<-|[<-|[]]]]; [now apply K|now apply K|now apply N].
    + left. apply in_map_iff in H as (v & <- & H). eauto.
    + right. destruct (all_tools ss) as [|t ts]; [destruct H|]. apply in_app_iff in H. destruct H as [[<-|[<-|[]]]|H]; [now elim N|now elim K|]. apply in_map_iff in H as (u & <- & H). eauto.
Qed.
(** a value can set another variable: the script is that of an environment with both *)
Theorem C300_value_refuted : forall ss n v m w, bash_script (ss, [(n, v ++ ["034"%char; "010"%char] ++ T "export " ++ m ++ T "=" ++ ["034"%char] ++ w)]) = bash_script (ss, [(n, v); (m, w)]).
Proof. intros. unfold bash_script. cbn [fst snd flat_map]. rewrite !app_nil_r, <- !app_assoc. reflexivity. Qed.
Example C300_example : all_tools (map spec_of [pk (T "a") None [T "z"; T "b"] None; pk (T "c") None [T "b"; T "a"] None]) = [T "a"; T "b"; T "z"].
Proof. reflexivity. Qed.
Print Assumptions C293_validate_partial.
Print Assumptions C293_duplicate_partial.
Print Assumptions C293_invalid_partial.
Print Assumptions C293_versions_refuted.
Print Assumptions C293_names_refuted.
Print Assumptions C294_find_partial.
Print Assumptions C294_exact.
Print Assumptions C294_all.
Print Assumptions C294_order.
Print Assumptions C294_star_partial.
Print Assumptions C294_point_refuted.
Print Assumptions C295_get.
Print Assumptions C295_none.
Print Assumptions C295_contains.
Print Assumptions C295_names.
Print Assumptions C296_count.
Print Assumptions C296_last.
Print Assumptions C296_versions_partial.
Print Assumptions C296_versions_refuted.
Print Assumptions C297_packages.
Print Assumptions C297_commands_partial.
Print Assumptions C297_only.
Print Assumptions C297_commands_refuted.
Print Assumptions C298_get.
Print Assumptions C298_all.
Print Assumptions C298_empty.
Print Assumptions C298_added.
Print Assumptions C298_length_refuted.
Print Assumptions C299_cache.
Print Assumptions C299_counts.
Print Assumptions C299_reductions.
Print Assumptions C300_tools.
Print Assumptions C300_lines_partial.
Print Assumptions C300_only_partial.
Print Assumptions C300_value_refuted.
