(** Depth, conflicts and keys. *)
From Verif Require Import Base Base_lemmas Text_lemmas Version_model Range_model Range_spec Range_proofs Range_text Requirement_model Maps Sorting
  Package_model Dfs Order_spec Graph_model Graph_spec Graph_proofs Graph_topo Graph_cycle.

(** ** filing *)
Lemma update_package k f ns : (forall n, n_package (f n) = n_package n) ->
  forall x n, aget x (update k f ns) = Some n -> exists m, aget x ns = Some m /\ n_package m = n_package n.
Proof.
  intros Hf x n. unfold update. destruct (aget k ns) as [m|] eqn:E; [|eauto]. destruct (text_eqb_spec x k) as [->|Ex].
  - rewrite aget_put_same. intros [= <-]. rewrite Hf. eauto.
  - rewrite aget_put_other by exact Ex. eauto.
Qed.
Lemma fold_update_package f ks : (forall n, n_package (f n) = n_package n) -> forall ns x n,
  aget x (fold_left (fun ns d => update d f ns) ks ns) = Some n -> exists m, aget x ns = Some m /\ n_package m = n_package n.
Proof.
  intros Hf. induction ks as [|k ks IH]; intros ns x n; cbn [fold_left]; [eauto|]. intros H. destruct (IH _ _ _ H) as (m & H1 & H2).
  destruct (update_package k f ns Hf x m H1) as (m' & H3 & H4). exists m'. split; [exact H3|congruence].
Qed.
Lemma filed_op x g : filed g -> filed (apply_op x g).
Proof.
  intros F k n. destruct x as [p|a b|d|e|r]; cbn [apply_op].
  - unfold add_package. destruct (mem_text (p_name p) (g_excluded g)); cbn [snd set_nodes g_nodes]; [apply F|].
    destruct (text_eqb_spec k (pkg_key p)) as [->|E]; [rewrite aget_put_same; intros [= <-]; reflexivity|]. rewrite aget_put_other by exact E. apply F.
  - unfold add_edge. destruct (aget a (g_nodes g)) as [na|] eqn:Ea; [|apply F].
    assert (forall k n, aget k (aput a (add_dep b na) (g_nodes g)) = Some n -> pkg_key (n_package n) = k) as F1.
    { intros k' n'. destruct (text_eqb_spec k' a) as [->|E]; [rewrite aget_put_same; intros [= <-]; apply (F a na Ea)|]. rewrite aget_put_other by exact E. apply F. }
    destruct (aget b (aput a (add_dep b na) (g_nodes g))) as [m|] eqn:Eb; cbn [snd set_nodes g_nodes]; [|apply F1].
    destruct (text_eqb_spec k b) as [->|E]; [rewrite aget_put_same; intros [= <-]; apply (F1 b m Eb)|]. rewrite aget_put_other by exact E. apply F1.
  - unfold remove_package. destruct (aget d (g_nodes g)) as [nd|]; [|apply F]. cbn [set_nodes g_nodes]. intros H.
    apply (fold_update_package (del_dep d)) in H as (m & H & E1); [|reflexivity].
    apply (fold_update_package (del_dependent d)) in H as (m' & H & E2); [|reflexivity].
    rewrite <- E1, <- E2. apply F. clear - H. destruct (text_eqb_spec k d) as [->|E].
    + rewrite aget_del_same in H. discriminate.
    + rewrite aget_del_other in H by exact E. exact H.
  - cbn. apply F.
  - cbn. apply F.
Qed.
Lemma filed_ops xs : forall g, filed g -> filed (apply_ops xs g).
Proof. induction xs as [|x xs IH]; intros g F; [exact F|]. cbn. apply IH, filed_op, F. Qed.
Lemma filed_empty : filed g_empty.
Proof. intros k n H. discriminate. Qed.

(** ** depth: always the length of a chain that exists *)
Lemma depth_chain o g : any_gorder o -> forall fuel k vis, 0 < fst (depth_from o g fuel k vis) -> chain_of g k (fst (depth_from o g fuel k vis)).
Proof.
  intros Ho. induction fuel as [|fuel IH]; intros k vis; cbn [depth_from]; [cbn; lia|].
  destruct (mem_text k vis); [cbn; lia|]. destruct (aget k (g_nodes g)) as [n|] eqn:E; [|cbn; lia].
  assert (is_node g k) as Hk by (apply is_node_get; eauto).
  set (step := fun (mv : nat * list text) d => let '(d', vis') := depth_from o g fuel d (snd mv) in (Nat.max (fst mv) d', vis')).
  assert (forall ds mv, (forall d, In d ds -> edge g k d) -> (fst mv = 0 \/ chain_of g k (S (fst mv))) ->
    fst (fold_left step ds mv) = 0 \/ chain_of g k (S (fst (fold_left step ds mv)))) as K.
  { induction ds as [|d ds IHds]; intros mv Hd Hm; [exact Hm|]. cbn [fold_left]. apply IHds; [intros x Hx; apply Hd; right; exact Hx|].
    unfold step. pose proof (IH d (snd mv)) as IHd. destruct (depth_from o g fuel d (snd mv)) as [d' vis']. cbn [fst] in *.
    destruct (Nat.max_spec (fst mv) d') as [[Hlt ->]|[Hle ->]]; [|exact Hm]. right. apply (chain_more g k d); [apply Hd; left; reflexivity|exact Hk|apply IHd; lia]. }
  specialize (K (go_deps o k (n_deps n)) (0, k :: vis)).
  destruct (fold_left step (go_deps o k (n_deps n)) (0, k :: vis)) as [m vis'] eqn:Ef. cbn [fst] in *. intros _.
  destruct K as [->|K]; [|auto|apply chain_one, Hk|exact K].
  intros d Hd. exists n. split; [exact E|]. destruct Ho as [_ Hod]. apply (Permutation_in _ (Hod k (n_deps n))), Hd.
Qed.
Lemma depth_positive o g fuel k n : aget k (g_nodes g) = Some n -> 0 < fst (depth_from o g (S fuel) k []).
Proof.
  intros E. cbn [depth_from mem_text existsb]. rewrite E. destruct (fold_left _ _ _). cbn. lia.
Qed.
Lemma fold_max_spec {A} (f : A -> nat) l : forall m, m <= fold_left (fun m x => Nat.max m (f x)) l m /\
  (forall x, In x l -> f x <= fold_left (fun m x => Nat.max m (f x)) l m) /\
  (fold_left (fun m x => Nat.max m (f x)) l m = m \/ exists x, In x l /\ fold_left (fun m x => Nat.max m (f x)) l m = f x).
Proof.
  induction l as [|y l IH]; intros m; cbn [fold_left]; [split; [lia|split; [intros x []|auto]]|].
  destruct (IH (Nat.max m (f y))) as (H1 & H2 & H3). split; [lia|]. split.
  - intros x [<-|Hx]; [lia|apply H2, Hx].
  - destruct H3 as [H3|(x & Hx & H3)]; [|right; exists x; split; [right; exact Hx|exact H3]].
    destruct (Nat.max_spec m (f y)) as [[_ E]|[_ E]]; rewrite E in H3 |- *; [right; exists y; split; [left; reflexivity|exact H3]|left; exact H3].
Qed.
Lemma max_depth_chain o g : any_gorder o -> filed g -> NoDup (akeys (g_nodes g)) -> g_nodes g <> [] ->
  exists k, chain_of g k (max_depth o g).
Proof.
  intros Ho F Hn Hne. unfold max_depth.
  set (f := fun kn : text * node => fst (depth_from o g (S (length (all_names g))) (pkg_key (n_package (snd kn))) [])).
  assert (forall kn, In kn (g_nodes g) -> 0 < f kn /\ aget (fst kn) (g_nodes g) = Some (snd kn)) as Hp.
  { intros [k n] H. assert (aget k (g_nodes g) = Some n) as E by (apply aget_nodup; assumption). split; [|exact E]. unfold f. cbn [snd].
    apply (depth_positive o g _ _ n). rewrite (F k n E). exact E. }
  destruct (fold_max_spec f (g_nodes g) 0) as (_ & H2 & [H3|(x & Hx & H3)]).
  - destruct (g_nodes g) as [|kn ns] eqn:E; [congruence|]. pose proof (H2 kn (or_introl eq_refl)). destruct (Hp kn (or_introl eq_refl)). lia.
  - change (fold_left (fun m kn => Nat.max m (fst (depth_from o g (S (length (all_names g))) (pkg_key (n_package (snd kn))) []))) (g_nodes g) 0)
      with (fold_left (fun m x => Nat.max m (f x)) (g_nodes g) 0).
    rewrite H3. exists (pkg_key (n_package (snd x))). apply depth_chain; [exact Ho|]. apply Hp, Hx.
Qed.

(** ** conflicts *)
Lemma incompatible_pair l : some_incompatible l = true -> exists a b, In a l /\ In b l /\ reqs_compatible a b = false.
Proof.
  induction l as [|a l IH]; [discriminate|]. cbn [some_incompatible]. rewrite orb_true_iff. intros [H|H].
  - apply existsb_exists in H as (b & Hb & H). apply negb_true_iff in H. exists a, b. cbn [In]. auto.
  - destruct (IH H) as (x & y & Hx & Hy & H'). exists x, y. cbn [In]. auto.
Qed.
Lemma reqs_disjoint S a b v : transitive_on S -> S v -> spec_in S a -> spec_in S b -> reqs_compatible a b = false ->
  ~ (spec_allows a v /\ spec_allows b v).
Proof.
  intros Ht Hv Ha Hb. unfold reqs_compatible, spec_of. destruct (pr_spec a) as [sa|] eqn:Ea; [|discriminate].
  destruct (pr_spec b) as [sb|] eqn:Eb; [|cbn [is_nil]; rewrite orb_true_r; discriminate].
  destruct (is_nil sa || is_nil sb) eqn:En; [discriminate|]. destruct (parse_range sa) as [x|] eqn:Ex; [|discriminate].
  destruct (parse_range sb) as [y|] eqn:Ey; [|discriminate]. destruct (intersect x y) eqn:Ei; [discriminate|]. intros _ [H1 H2].
  unfold spec_allows in H1, H2. rewrite Ea in H1. rewrite Eb in H2. apply orb_false_iff in En as [En1 En2].
  destruct H1 as [->|(x' & H1 & H1')]; [discriminate|]. destruct H2 as [->|(y' & H2 & H2')]; [discriminate|].
  rewrite Ex in H1. injection H1 as <-. rewrite Ey in H2. injection H2 as <-.
  destruct (intersect_complete S x y v) as (r & Hr & _); auto.
  - eapply built_parse; eauto.
  - eapply built_parse; eauto.
  - eapply Ha; eauto.
  - eapply Hb; eauto.
  - congruence.
Qed.
Lemma conflicts_real S g n l : transitive_on S -> In (n, l) (detect_conflicts g) -> (forall r, In r l -> spec_in S r) ->
  exists a b, In a l /\ In b l /\ forall v, S v -> ~ (spec_allows a v /\ spec_allows b v).
Proof.
  intros Ht H Hs. apply filter_In in H as [_ H]. cbn [snd] in H. apply incompatible_pair in H as (a & b & Ha & Hb & H). exists a, b. split; [exact Ha|]. split; [exact Hb|].
  intros v Hv. apply (reqs_disjoint S); auto.
Qed.
(** the requirements recorded under a name, in order *)
Lemma aget_requirement r g n : aget n (g_reqs (add_requirement r g)) =
  if text_eqb n (pr_name r) then Some (match aget n (g_reqs g) with Some l => l | None => [] end ++ [r]) else aget n (g_reqs g).
Proof.
  unfold add_requirement. cbn [g_reqs]. destruct (text_eqb_spec n (pr_name r)) as [->|E]; [apply aget_put_same|apply aget_put_other, E].
Qed.

(** ** keys *)
Lemma prefix_dash a b x y : ~ In "-"%char a -> ~ In "-"%char b -> a ++ "-"%char :: x = b ++ "-"%char :: y -> a = b /\ x = y.
Proof.
  revert b. induction a as [|c a IH]; intros [|d b] Ha Hb E; cbn [app] in E.
  - injection E as ->. auto.
  - injection E as <- _. destruct Hb. left. reflexivity.
  - injection E as -> _. destruct Ha. left. reflexivity.
  - injection E as <- E. destruct (IH b) as [-> ->]; auto; intros H; [apply Ha|apply Hb]; right; exact H.
Qed.
Lemma key_determines p q : ~ In "-"%char (p_name p) -> ~ In "-"%char (p_name q) -> pkg_key p = pkg_key q ->
  p_name p = p_name q /\ option_map v_str (p_version p) = option_map v_str (p_version q).
Proof.
  intros Hp Hq. unfold pkg_key. destruct (p_version p) as [v|], (p_version q) as [w|]; cbn [option_map]; intros E.
  - apply prefix_dash in E as [-> ->]; auto.
  - exfalso. apply Hq. rewrite <- E, in_app_iff. right. left. reflexivity.
  - exfalso. apply Hp. rewrite E, in_app_iff. right. left. reflexivity.
  - auto.
Qed.

(** ** applying a resolution *)
Lemma remove_reqs k g : g_reqs (remove_package k g) = g_reqs g.
Proof. unfold remove_package. destruct (aget k (g_nodes g)); reflexivity. Qed.
Lemma remove_all_reqs ks : forall g, g_reqs (fold_left (fun g k => remove_package k g) ks g) = g_reqs g.
Proof. induction ks as [|k ks IH]; intros g; [reflexivity|]. cbn [fold_left]. rewrite IH. apply remove_reqs. Qed.
Lemma remove_all_nodes ks : forall g x, consistent g -> is_node (fold_left (fun g k => remove_package k g) ks g) x <-> is_node g x /\ ~ In x ks.
Proof.
  induction ks as [|k ks IH]; intros g x C; cbn [fold_left In]; [tauto|].
  rewrite (IH _ x (remove_consistent k g C)), (remove_nodes k g x C). split; intros H; intuition congruence.
Qed.
Lemma resolution_nodes n v ks g x : consistent g -> is_node (apply_resolution n v ks g) x <-> is_node g x /\ ~ In x ks.
Proof.
  intros C. rewrite <- (remove_all_nodes ks g x C). unfold apply_resolution, is_node.
  destruct (aget n (g_reqs (fold_left (fun g k => remove_package k g) ks g))), v; reflexivity.
Qed.
Lemma aput_In_iff {V} k (v : V) m : NoDup (akeys m) -> forall k' v', In (k', v') (aput k v m) <-> (k' = k /\ v' = v) \/ (k' <> k /\ In (k', v') m).
Proof.
  intros Hn k' v'. pose proof (nodup_put k v m Hn) as Hn'. split.
  - intros H. apply (aget_nodup _ _ _ Hn') in H. destruct (text_eqb_spec k' k) as [->|E].
    + rewrite aget_put_same in H. injection H as ->. auto.
    + rewrite aget_put_other in H by exact E. right. split; [exact E|]. apply aget_in, H.
  - intros [[-> ->]|[E H]]; apply aget_in; [apply aget_put_same|]. rewrite aget_put_other by exact E. apply aget_nodup; assumption.
Qed.
Lemma resolution_conflicts name v ks g : NoDup (akeys (g_reqs g)) ->
  forall n l, In (n, l) (detect_conflicts (apply_resolution name (Some v) ks g)) <-> n <> name /\ In (n, l) (detect_conflicts g).
Proof.
  intros Hn n l. unfold apply_resolution, detect_conflicts. rewrite remove_all_reqs. destruct (aget name (g_reqs g)) as [l0|] eqn:E.
  - cbn [g_reqs]. rewrite !filter_In, (aput_In_iff _ _ _ Hn). cbn [snd]. split.
    + intros [[[-> ->]|[H1 H2]] H3]; [discriminate|auto].
    + intros (H1 & H2 & H3). auto.
  - rewrite remove_all_reqs. split; [|intros [_ H]; exact H]. intros H. split; [|exact H]. intros ->. apply filter_In in H as [H _].
    apply (aget_nodup _ _ _ Hn) in H. congruence.
Qed.
(** requirements are filed under their name *)
Definition reqs_filed (g : graph) : Prop := NoDup (akeys (g_reqs g)) /\ forall n l r, In (n, l) (g_reqs g) -> In r l -> pr_name r = n.
Lemma reqs_filed_op x g : reqs_filed g -> reqs_filed (apply_op x g).
Proof.
  intros [Hn Hf]. destruct x as [p|a b|k|e|r]; cbn [apply_op].
  - unfold add_package. destruct (mem_text _ _); split; assumption.
  - unfold add_edge. destruct (aget a (g_nodes g)); [|split; assumption]. destruct (aget b _); split; assumption.
  - unfold reqs_filed. rewrite remove_reqs. split; assumption.
  - split; assumption.
  - unfold add_requirement, reqs_filed. cbn [g_reqs]. split; [apply nodup_put, Hn|]. intros n l q H Hq. apply (aput_In_iff _ _ _ Hn) in H as [[-> ->]|[_ H]]; [|eapply Hf; eauto].
    apply in_app_iff in Hq as [Hq|[<-|[]]]; [|reflexivity]. destruct (aget (pr_name r) (g_reqs g)) as [l0|] eqn:E; [|destruct Hq].
    apply aget_in in E. eapply Hf; eauto.
Qed.
Lemma reqs_filed_ops xs : forall g, reqs_filed g -> reqs_filed (apply_ops xs g).
Proof. induction xs as [|x xs IH]; intros g F; [exact F|]. cbn. apply IH, reqs_filed_op, F. Qed.
Lemma reqs_filed_empty : reqs_filed g_empty.
Proof. split; [constructor|intros n l r []]. Qed.
