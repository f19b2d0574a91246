(** More proofs about the repository in a file system: lookups, searches, variants, statistics; and about duplicates. *)
From Verif Require Import Base Base_lemmas Maps Sorting Version_model Package_model Order_model Order_spec Order_proofs Scan_model Scan_spec Scan_proofs.
Open Scope string_scope. Open Scope list_scope.

(** what is stored is well formed *)
Definition tidy_map (c : list (text * list (text * package))) : Prop := NoDup (akeys c) /\ forall n vs, In (n, vs) c -> NoDup (akeys vs) /\ vs <> [] /\ forall k p, In (k, p) vs -> called n k p.
Lemma aput_not_nil {A} k (v : A) m : aput k v m <> [].
Proof. destruct m as [|[x y] m]; cbn [aput]; [discriminate|]. destruct (text_eqb k x); discriminate. Qed.
Lemma tidy_add p c : tidy_map c -> tidy_map (add_package p c).
Proof.
  intros [H1 H2]. split; [apply nodup_put, H1|]. intros n vs Hin. unfold add_package in Hin. apply aput_in in Hin; [|exact H1]. destruct Hin as [[-> ->]|[_ Hin]]; [|apply H2, Hin].
  assert (Hn : NoDup (akeys (match aget (p_name p) c with Some vs => vs | None => [] end))).
  { destruct (aget (p_name p) c) eqn:E; [|constructor]. apply aget_in in E. apply (H2 _ _ E). }
  split; [apply nodup_put, Hn|]. split; [apply aput_not_nil|]. intros k q Hq. apply aput_in in Hq; [|exact Hn]. destruct Hq as [[-> ->]|[_ Hq]]; [apply called_key; auto|].
  destruct (aget (p_name p) c) eqn:E; [|destruct Hq]. apply aget_in in E. apply (H2 _ _ E). exact Hq.
Qed.
Lemma tidy_all ps : tidy_map (add_all ps []).
Proof.
  induction ps as [|p ps IH] using rev_ind; [split; [constructor|intros n vs []]|]. unfold add_all. rewrite fold_left_app. apply tidy_add, IH.
Qed.
Lemma in_stored ps n vs : aget n (add_all ps []) = Some vs -> forall k p, In (k, p) vs <-> last_one (called n k) ps p.
Proof.
  intros E k p. rewrite <- stored_last. unfold stored. rewrite E. destruct (tidy_all ps) as [_ H]. apply aget_in in E. destruct (H _ _ E) as [H1 _]. split; [apply aget_nodup, H1|apply aget_in].
Qed.
Lemma called_dec n k p : {called n k p} + {~ called n k p}.
Proof.
  destruct (text_eqb n (p_name p) && text_eqb k (version_key p)) eqn:E; [left|right]; rewrite called_key.
  - apply andb_true_iff in E. rewrite !text_eqb_eq in E. intuition congruence.
  - intros [<- <-]. rewrite !text_eqb_refl in E. discriminate.
Qed.
Lemma names_all ps n : In n (akeys (add_all ps [])) <-> exists p, In p ps /\ p_name p = n.
Proof.
  split.
  - intros H. apply aget_some in H. destruct H as [vs E]. destruct (tidy_all ps) as [_ H]. destruct (H n vs (aget_in _ _ _ E)) as [_ [H1 _]]. destruct vs as [|[k p] vs]; [congruence|].
    assert (L : last_one (called n k) ps p) by (apply (in_stored ps n _ E); left; reflexivity). destruct L as [a [b [E2 [[H3 _] _]]]]. exists p. split; [rewrite E2; apply in_elt|exact H3].
  - intros [p [H1 H2]]. apply aget_some. destruct (aget n (add_all ps [])) as [vs|] eqn:E; [eauto|]. exfalso.
    destruct (proj1 (last_exists (called n (version_key p)) (called_dec n (version_key p)) ps)) as [q Hq]; [exists p; split; [assumption|apply called_key; auto]|]. apply stored_last in Hq. unfold stored in Hq. rewrite E in Hq. discriminate.
Qed.

Section Scanned.
Variable ps : list package.
Variable m : list (text * list text).
Variable t : stats.
Variable b : bool.
Let r := mkRepo (add_all ps []) m t b.
Lemma get_exact n v p : get_package n (Some v) r = Some p <-> last_one (called n (v_str v)) ps p.
Proof. rewrite <- stored_last. reflexivity. Qed.
Lemma exists_exact n v : package_exists n (Some v) r = true <-> exists p, In p ps /\ called n (v_str v) p.
Proof.
  rewrite (last_exists (called n (v_str v)) (called_dec n (v_str v))). unfold package_exists, r. cbn [f_packages]. unfold ahas. split.
  - destruct (aget n (add_all ps [])) as [vs|] eqn:E; [|discriminate]. destruct (aget (v_str v) vs) as [p|] eqn:E2; [|discriminate]. intros _. exists p. apply stored_last. unfold stored. rewrite E. exact E2.
  - intros [p H]. apply stored_last in H. unfold stored in H. destruct (aget n (add_all ps [])); [|discriminate]. rewrite H. reflexivity.
Qed.
Lemma exists_name n : package_exists n None r = true <-> exists p, In p ps /\ p_name p = n.
Proof.
  rewrite <- names_all, <- aget_some. unfold package_exists, r. cbn [f_packages]. split.
  - destruct (aget n (add_all ps [])) as [vs|]; [eauto|discriminate].
  - intros [vs E]. rewrite E. destruct (tidy_all ps) as [_ H]. destruct (H n vs (aget_in _ _ _ E)) as [_ [H1 _]]. destruct vs; [congruence|reflexivity].
Qed.
Lemma names_exact : sorted_by text_cmp (get_names r) /\ NoDup (get_names r) /\ forall n, In n (get_names r) <-> exists p, In p ps /\ p_name p = n.
Proof.
  unfold get_names, r. cbn [f_packages]. split; [apply (sort_sorted text_cmp (fun _ => True) TPO_text), Forall_forall; auto|]. split.
  - eapply Permutation_NoDup; [symmetry; apply sort_perm|]. apply (tidy_all ps).
  - intros n. rewrite sort_in. apply names_all.
Qed.
Lemma latest_none n : get_package n None r = None <-> forall p, In p ps -> p_name p <> n.
Proof.
  unfold get_package, r. cbn [f_packages]. destruct (aget n (add_all ps [])) as [vs|] eqn:E.
  - assert (K : In n (akeys (add_all ps []))) by (apply aget_some; eauto). apply names_all in K. destruct K as [p [K1 K2]]. split; [|intros H; exfalso; exact (H p K1 K2)].
    destruct (tidy_all ps) as [_ H]. destruct (H n vs (aget_in _ _ _ E)) as [_ [H1 _]]. destruct (sort_by descending (map snd vs)) eqn:E2; [|discriminate]. apply sort_nil in E2. destruct vs; [congruence|discriminate].
  - split; [|auto]. intros _ p H1 H2. apply aget_none in E. apply E, names_all. eauto.
Qed.
Lemma latest_exact S n p : transitive_versions S -> versions_in S ps -> get_package n None r = Some p ->
  (exists k, last_one (called n k) ps p) /\ forall k q, last_one (called n k) ps q -> goes_before true p q.
Proof.
  intros HS Hv. unfold get_package, r. cbn [f_packages]. destruct (aget n (add_all ps [])) as [vs|] eqn:E; [|discriminate]. intros Hh.
  assert (Hall : Forall (fun p => forall v, p_version p = Some v -> S v) (map snd vs)).
  { apply Forall_forall. intros q Hq v Eq. apply in_map_iff in Hq. destruct Hq as [[k x] [<- Hq]]. apply (in_stored ps n vs E) in Hq. destruct Hq as [a [c [E2 _]]]. apply (Hv x); [rewrite E2; apply in_elt|exact Eq]. }
  pose proof (sort_sorted descending _ (descending_TPO S HS) _ Hall) as Hs. destruct (sort_by descending (map snd vs)) as [|x l] eqn:E2; [discriminate|]. injection Hh as ->.
  assert (Hin : forall q, In q (p :: l) <-> In q (map snd vs)) by (intros q; rewrite <- E2; apply sort_in). split.
  - assert (H : In p (map snd vs)) by (apply Hin; left; reflexivity). apply in_map_iff in H. destruct H as [[k q] [E3 Hq]]. cbn in E3. subst q. exists k. apply (in_stored ps n vs E), Hq.
  - intros k q Hq. apply (in_stored ps n vs E) in Hq. apply (goes_before_iff true). assert (H : In q (p :: l)) by (apply Hin, in_map_iff; exists (k, q); auto). destruct H as [->|H].
    + assert (Hq' : In q (map snd vs)) by (apply in_map_iff; exists (k, q); auto). rewrite Forall_forall in Hall. rewrite (tpo_refl _ _ (descending_TPO S HS)); [discriminate|exact (Hall q Hq')].
    + apply in_split in H. destruct H as [l1 [l2 ->]]. apply (Hs [] p l1 q l2). reflexivity.
Qed.
Lemma versions_exact n v : In v (get_versions n r) <-> exists p, last_one (called n (v_str v)) ps p /\ p_version p = Some v.
Proof.
  unfold get_versions, r. cbn [f_packages]. destruct (aget n (add_all ps [])) as [vs|] eqn:E.
  - rewrite sort_in, in_flat_map. split.
    + intros [[k p] [H1 H2]]. cbn [snd] in H2. destruct (p_version p) as [w|] eqn:Ew; [|destruct H2]. destruct H2 as [<-|[]]. exists p. split; [|exact Ew]. pose proof (proj1 (in_stored ps n vs E k p) H1) as L. assert (k = v_str w) as <-; [|exact L]. destruct L as [a [c [_ [[_ L] _]]]]. rewrite Ew in L. auto.
    + intros [p [L Ew]]. exists (v_str v, p). split; [apply (in_stored ps n vs E), L|]. cbn [snd]. rewrite Ew. left. reflexivity.
  - split; [intros []|]. intros [p [L _]]. apply stored_last in L. unfold stored in L. rewrite E in L. discriminate.
Qed.
Lemma versions_nodup n : NoDup (map v_str (get_versions n r)).
Proof.
  unfold get_versions, r. cbn [f_packages]. destruct (aget n (add_all ps [])) as [vs|] eqn:E; [|constructor].
  eapply Permutation_NoDup; [apply Permutation_map; symmetry; apply sort_perm|]. destruct (tidy_all ps) as [_ H]. destruct (H n vs (aget_in _ _ _ E)) as [H1 [_ H2]]. clear E H. induction vs as [|[k p] vs IH]; [constructor|].
  cbn [akeys map fst] in H1. inversion H1; subst. specialize (IH H4 (fun k p X => H2 k p (or_intror X))). cbn [flat_map snd]. destruct (p_version p) as [w|] eqn:Ew; [|exact IH]. cbn [app map]. constructor; [|exact IH].
  intros X. apply H3. apply in_map_iff in X. destruct X as [u [Eu X]]. apply in_flat_map in X. destruct X as [[k2 p2] [X1 X2]]. cbn [snd] in X2. destruct (p_version p2) as [w2|] eqn:Ew2; [|destruct X2]. destruct X2 as [<-|[]].
  destruct (H2 k p (or_introl eq_refl)) as [_ A]. destruct (H2 k2 p2 (or_intror X1)) as [_ B]. rewrite Ew in A. rewrite Ew2 in B. assert (k = k2) as -> by congruence. apply in_map_iff. exists (k2, p2). auto.
Qed.
Lemma versions_sorted S n : transitive_versions S -> versions_in S ps -> sorted_by (fun a b => vcmp b a) (get_versions n r).
Proof.
  intros HS Hv. pose proof (versions_exact n) as He. unfold get_versions, r in *. cbn [f_packages] in *. destruct (aget n (add_all ps [])) as [vs|] eqn:E; [|intros l1 x l2 y l3 X; destruct l1; discriminate].
  assert (HT : TPO S (fun a b => vcmp b a)).
  { pose proof (descending_TPO S HS) as D. set (f := fun v => mkPackage [] (Some v) [] [] None [] 0%N). destruct D as [D1 D2 D3]. constructor.
    - intros a Ha. apply (D1 (f a)). cbn. intros v Ev. injection Ev as <-. exact Ha.
    - intros a c Ha Hc. apply (D2 (f a) (f c)); cbn; intros v Ev; injection Ev as <-; assumption.
    - intros a c e Ha Hc He'. apply (D3 (f a) (f c) (f e)); cbn; intros v Ev; injection Ev as <-; assumption. }
  apply (sort_sorted _ S HT). apply Forall_forall. intros v Hv'. apply (sort_in (fun a b => vcmp b a)), He in Hv'. destruct Hv' as [p [[a [c [Ep _]]] Ev]]. apply (Hv p); [rewrite Ep; apply in_elt|exact Ev].
Qed.
(** the packages that are visited in a search *)
Definition candidates (c : criteria) : list package := flat_map (fun e => if match c_pattern c with Some p => name_matches (fst e) p | None => true end then map snd (snd e) else []) (f_packages r).
Lemma candidates_in c p : In p (candidates c) <-> (exists k, last_one (called (p_name p) k) ps p) /\ match c_pattern c with Some pat => name_matches (p_name p) pat = true | None => True end.
Proof.
  unfold candidates, r. cbn [f_packages]. rewrite in_flat_map. destruct (tidy_all ps) as [Hn Ht]. split.
  - intros [[n vs] [H1 H2]]. cbn [fst snd] in H2. destruct (match c_pattern c with Some p => name_matches n p | None => true end) eqn:E; [|destruct H2]. apply in_map_iff in H2. destruct H2 as [[k q] [E2 H2]]. cbn in E2. subst q.
    destruct (Ht n vs H1) as [_ [_ H3]]. destruct (H3 k p H2) as [H4 _]. subst n. split; [|destruct (c_pattern c); auto]. exists k. apply (in_stored ps _ vs); [apply aget_nodup; assumption|assumption].
  - intros [[k L] E]. pose proof L as L2. apply stored_last in L. unfold stored in L. destruct (aget (p_name p) (add_all ps [])) as [vs|] eqn:E2; [|discriminate]. exists (p_name p, vs). split; [apply aget_in, E2|]. cbn [fst snd].
    destruct (c_pattern c) as [pat|]; [rewrite E|]; apply in_map_iff; exists (k, p); (split; [reflexivity|apply aget_in, L]).
Qed.
End Scanned.

(** ** Searches *)
Lemma gather_all c l : c_limit c = None -> forall acc, gather c l acc = acc ++ filter (fun p => negb (passed_over c p) && satisfies c p) l.
Proof.
  intros H. induction l as [|p l IH]; intros acc; cbn [gather filter]; [rewrite app_nil_r; reflexivity|]. rewrite H. destruct (passed_over c p); cbn [negb andb]; [apply IH|].
  destruct (satisfies c p); rewrite IH; [rewrite <- app_assoc|]; reflexivity.
Qed.
Lemma gather_limit c n l : c_limit c = Some n -> forall acc, (length acc < n)%nat -> gather c l acc = acc ++ firstn (n - length acc) (filter (fun p => negb (passed_over c p) && satisfies c p) l).
Proof.
  intros H. induction l as [|p l IH]; intros acc Ha; cbn [gather filter]; [rewrite firstn_nil, app_nil_r; reflexivity|]. rewrite H. destruct (passed_over c p); cbn [negb andb]; [apply IH, Ha|].
  destruct (satisfies c p).
  - rewrite app_length. cbn [length]. destruct (Nat.leb_spec n (length acc + 1)).
    + replace (n - length acc)%nat with 1%nat by lia. reflexivity.
    + rewrite IH by (rewrite app_length; cbn [length]; lia). rewrite app_length. cbn [length]. replace (n - length acc)%nat with (S (n - (length acc + 1))) by lia. rewrite <- app_assoc. reflexivity.
  - destruct (Nat.leb_spec n (length acc)); [lia|]. apply IH, Ha.
Qed.
Lemma gather_zero c l : c_limit c = Some 0%nat -> (length (gather c l []) <= 1)%nat.
Proof.
  intros H. induction l as [|p l IH]; cbn [gather]; [cbn; lia|]. rewrite H. destruct (passed_over c p); [exact IH|]. cbn [Nat.leb]. destruct (satisfies c p); cbn; lia.
Qed.

(** ** Variants *)
Lemma variants_get ps : forall m k, aget k (variants_all ps m) = match find (fun p => text_eqb k (dashed (p_name p) (version_key p)) && negb (is_nil (p_variants p))) (rev ps) with Some p => Some (variant_names (length (p_variants p))) | None => aget k m end.
Proof.
  induction ps as [|p ps IH] using rev_ind; intros m k; [reflexivity|]. unfold variants_all. rewrite fold_left_app. cbn [fold_left]. rewrite rev_app_distr. cbn [rev app find]. unfold add_variants at 1.
  destruct (is_nil (p_variants p)); cbn [negb]; [rewrite andb_false_r; apply IH|]. rewrite andb_true_r. destruct (text_eqb_spec k (dashed (p_name p) (version_key p))) as [->|Hk]; [apply aget_put_same|]. rewrite aget_put_other by exact Hk. apply IH.
Qed.
Lemma dashed_inj a b x y : ~ In "-"%char a -> ~ In "-"%char x -> dashed a b = dashed x y -> a = x /\ b = y.
Proof.
  unfold dashed. revert x. induction a as [|c a IH]; intros [|e x] Ha Hx E; cbn [app] in E.
  - injection E as ->. auto.
  - injection E as <- _. exfalso. apply Hx. left. reflexivity.
  - injection E as -> _. exfalso. apply Ha. left. reflexivity.
  - injection E as <- E. destruct (IH x) as [-> ->]; [intros X; apply Ha; right; exact X|intros X; apply Hx; right; exact X|exact E|auto].
Qed.
Lemma variants_last ps n v p : (forall q, In q ps -> ~ In "-"%char (p_name q)) -> ~ In "-"%char n ->
  (find (fun p => text_eqb (dashed n v) (dashed (p_name p) (version_key p)) && negb (is_nil (p_variants p))) (rev ps) = Some p <-> last_one (fun q => called n v q /\ p_variants q <> []) ps p).
Proof.
  intros Hd Hn. rewrite find_first. unfold last_one.
  assert (H : forall q, In q ps -> (text_eqb (dashed n v) (dashed (p_name q) (version_key q)) && negb (is_nil (p_variants q)) = true <-> called n v q /\ p_variants q <> [])).
  { intros q Hq. rewrite andb_true_iff, text_eqb_eq, called_key. assert (E : negb (is_nil (p_variants q)) = true <-> p_variants q <> []) by (destruct (p_variants q); cbn; split; congruence). rewrite E. split.
    - intros [X Y]. apply dashed_inj in X; [|exact Hn|apply Hd, Hq]. intuition congruence.
    - intros [[-> ->] Y]. auto. }
  split.
  - intros [a [b [E [H1 H2]]]]. assert (El : ps = rev b ++ p :: rev a) by (rewrite <- (rev_involutive ps), E, rev_app_distr; cbn [rev]; rewrite <- app_assoc; reflexivity).
    exists (rev b), (rev a). split; [exact El|]. split; [apply H; [rewrite El; apply in_elt|exact H1]|]. intros y Hy X. apply H in X; [|rewrite El; apply in_app_iff; right; right; exact Hy]. rewrite (H2 y) in X by (apply in_rev; exact Hy). discriminate.
  - intros [a [b [E [H1 H2]]]]. exists (rev b), (rev a). split; [rewrite E, rev_app_distr; cbn [rev]; rewrite <- app_assoc; reflexivity|]. split; [apply H; [rewrite E; apply in_elt|exact H1]|].
    intros y Hy. apply in_rev in Hy. destruct (text_eqb (dashed n v) _ && _) eqn:X; [|reflexivity]. exfalso. apply (H2 y Hy), H; [rewrite E; apply in_app_iff; right; right; exact Hy|exact X].
Qed.

(** ** Statistics *)
Section Stats.
Variable load_file : text -> option package.
Variable d : disk.
Lemma total_app a b : total (a ++ b) = (total a + total b)%N.
Proof. induction a as [|x a IH]; [reflexivity|]. cbn [app total]. rewrite IH. lia. Qed.
Lemma stats_spec dirs : let t := stats_all load_file d dirs (mkStats 0 0 0 0) in
  t_packages t = length (loaded load_file d dirs) /\ t_versions t = length (loaded load_file d dirs) /\ t_variants t = length (flat_map p_variants (loaded load_file d dirs)).
Proof.
  cbv zeta. induction dirs as [|x dirs IH] using rev_ind; [auto|]. destruct IH as [H1 [H2 H3]]. rewrite loaded_app, flat_map_app, !app_length. unfold stats_all in *. rewrite fold_left_app. cbn [fold_left]. unfold loaded at 2 4 6. cbn [flat_map]. change (x ++ T "/package.py") with (child x (T "package.py")).
  destruct (d_kind d (child x (T "package.py"))); cbn [is_there]; try (destruct (load_file (child x (T "package.py"))); cbn [t_packages t_versions t_variants]; cbn [app length flat_map]; rewrite ?app_nil_r; repeat split; lia); cbn [app length flat_map]; repeat split; lia.
Qed.
End Stats.

(** ** Duplicates *)
Lemma by_name_TPO S : transitive_versions S -> TPO (fun p => forall v, p_version p = Some v -> S v) by_name.
Proof.
  intros HS. pose proof (descending_TPO S HS) as D. pose proof TPO_text as X. constructor.
  - intros a Ha. unfold by_name. rewrite (tpo_refl _ _ X) by exact I. apply (tpo_refl _ _ D), Ha.
  - intros a b Ha Hb. unfold by_name. rewrite (tpo_anti _ _ X (p_name a) (p_name b)) by exact I. rewrite (tpo_anti _ _ D a b Ha Hb). destruct (text_cmp (p_name a) (p_name b)); reflexivity.
  - intros a b c Ha Hb Hc. unfold by_name. intros H1 H2.
    destruct (text_cmp (p_name a) (p_name b)) eqn:E1; [| |congruence].
    + apply text_cmp_eq in E1. rewrite E1. destruct (text_cmp (p_name b) (p_name c)) eqn:E2; [|discriminate|congruence]. exact (tpo_trans _ _ D a b c Ha Hb Hc H1 H2).
    + destruct (text_cmp (p_name b) (p_name c)) eqn:E2; [| |congruence].
      * apply text_cmp_eq in E2. rewrite <- E2, E1. discriminate.
      * assert (T1 : text_cmp (p_name a) (p_name c) <> Gt) by (apply (tpo_trans _ _ X _ (p_name b)); auto; congruence).
        destruct (text_cmp (p_name a) (p_name c)) eqn:E3; [|discriminate|congruence]. apply text_cmp_eq in E3. exfalso. rewrite E3 in E1. pose proof (tpo_anti _ _ X (p_name b) (p_name c) I I) as A. rewrite E1, E2 in A. discriminate.
Qed.
Lemma first_each_spec l : forall seen, NoDup (map unique_key (first_each seen l)) /\ (forall p, In p (first_each seen l) -> ~ In (unique_key p) seen /\ In p l) /\
  (forall p, In p l -> ~ In (unique_key p) seen -> exists a q b, l = a ++ q :: b /\ unique_key q = unique_key p /\ In q (first_each seen l) /\ forall y, In y a -> unique_key y <> unique_key p).
Proof.
  induction l as [|p l IH]; intros seen; cbn [first_each]; [split; [constructor|split; [intros p []|intros p []]]|].
  destruct (mem_text (unique_key p) seen) eqn:E.
  - apply mem_text_In in E. destruct (IH seen) as [H1 [H2 H3]]. split; [exact H1|]. split.
    + intros q Hq. destruct (H2 q Hq). split; [assumption|right; assumption].
    + intros q [<-|Hq] Hs; [tauto|]. destruct (H3 q Hq Hs) as [a [x [b [-> [Ek [Hin Ha]]]]]]. exists (p :: a), x, b. split; [reflexivity|]. split; [assumption|]. split; [assumption|]. intros y [<-|Hy]; [intros X; rewrite X in E; tauto|auto].
  - assert (En : ~ In (unique_key p) seen) by (intros X; apply mem_text_In in X; congruence). destruct (IH (unique_key p :: seen)) as [H1 [H2 H3]]. split; [|split].
    + cbn [map]. constructor; [|exact H1]. intros X. apply in_map_iff in X. destruct X as [q [Eq X]]. destruct (H2 q X) as [X1 _]. apply X1. left. auto.
    + intros q [<-|Hq]; [split; [exact En|left; reflexivity]|]. destruct (H2 q Hq) as [X1 X2]. split; [intros X; apply X1; right; exact X|right; exact X2].
    + intros q Hq Hs. destruct (text_eqb_spec (unique_key p) (unique_key q)) as [Ek|Ek].
      * exists [], p, l. split; [reflexivity|]. split; [assumption|]. split; [left; reflexivity|intros y []].
      * destruct Hq as [->|Hq]; [congruence|]. destruct (H3 q Hq) as [a [x [b [-> [Ek2 [Hin Ha]]]]]]; [intros [X|X]; congruence|]. exists (p :: a), x, b. split; [reflexivity|]. split; [assumption|]. split; [right; assumption|]. intros y [<-|Hy]; auto.
Qed.
Inductive subseq {A} : list A -> list A -> Prop :=
| S_nil : subseq [] []
| S_skip x l l' : subseq l l' -> subseq l (x :: l')
| S_keep x l l' : subseq l l' -> subseq (x :: l) (x :: l').
Lemma first_each_subseq l : forall seen, subseq (first_each seen l) l.
Proof. induction l as [|p l IH]; intros seen; cbn [first_each]; [constructor|]. destruct (mem_text (unique_key p) seen); constructor; apply IH. Qed.
Lemma subseq_nil {A} (l : list A) : subseq [] l.
Proof. induction l; constructor; assumption. Qed.
Lemma subseq_app_inv {A} (x y l : list A) : subseq (x ++ y) l -> exists l1 l2, l = l1 ++ l2 /\ subseq x l1 /\ subseq y l2.
Proof.
  intros H. remember (x ++ y) as k eqn:E. revert x E. induction H as [|z k l H IH|z k l H IH]; intros x E.
  - symmetry in E. apply app_eq_nil in E. destruct E as [-> ->]. exists [], []. repeat split; constructor.
  - destruct (IH x E) as [l1 [l2 [-> [H2 H3]]]]. exists (z :: l1), l2. split; [reflexivity|]. split; [constructor; assumption|assumption].
  - destruct x as [|w x]; cbn [app] in E.
    + exists [], (z :: l). split; [reflexivity|]. split; [constructor|]. rewrite <- E. apply S_keep, H.
    + injection E as -> E. destruct (IH x E) as [l1 [l2 [-> [H2 H3]]]]. exists (w :: l1), l2. split; [reflexivity|]. split; [apply S_keep; assumption|assumption].
Qed.
Lemma subseq_in {A} (x : A) y l : subseq (x :: y) l -> exists l1 l2, l = l1 ++ x :: l2 /\ subseq y l2.
Proof.
  intros H. remember (x :: y) as k eqn:E. induction H as [|z k l H IH|z k l H IH]; [discriminate| |].
  - destruct (IH E) as [l1 [l2 [-> H3]]]. exists (z :: l1), l2. auto.
  - injection E as -> ->. exists [], l. auto.
Qed.
Lemma subseq_sorted cmp (l l' : list package) : subseq l l' -> sorted_by cmp l' -> sorted_by cmp l.
Proof.
  intros H Hs l1 x l2 y l3 ->. apply subseq_app_inv in H. destruct H as [k1 [k2 [-> [_ H]]]]. apply subseq_in in H. destruct H as [k3 [k4 [-> H]]]. apply subseq_app_inv in H. destruct H as [k5 [k6 [-> [_ H]]]]. apply subseq_in in H. destruct H as [k7 [k8 [-> _]]].
  apply (Hs (k1 ++ k3) x (k5 ++ k7) y k8). rewrite <- !app_assoc. reflexivity.
Qed.
