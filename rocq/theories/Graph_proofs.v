(** Proofs about the dependency graph. *)
From Verif Require Import Base Base_lemmas Text_lemmas Version_model Range_model Requirement_model Maps Sorting Package_model Dfs
  Order_spec Graph_model Graph_spec.

(** ** sets *)
Lemma set_add_in x l y : In y (set_add x l) <-> y = x \/ In y l.
Proof.
  unfold set_add. destruct (mem_text x l) eqn:E.
  - apply mem_text_In in E. split; [auto|]. intros [->|H]; auto.
  - rewrite in_app_iff. cbn [In]. split; [intros [H|[<-|[]]]; auto|intros [->|H]; auto].
Qed.
Lemma nodup_snoc {A} (l : list A) x : NoDup l -> ~ In x l -> NoDup (l ++ [x]).
Proof.
  intros H Hx. apply (Permutation_NoDup (l := x :: l)); [|constructor; assumption].
  apply Permutation_cons_append.
Qed.
Lemma set_add_nodup x l : NoDup l -> NoDup (set_add x l).
Proof.
  intros H. unfold set_add. destruct (mem_text x l) eqn:E; [exact H|]. apply nodup_snoc; [exact H|]. rewrite <- mem_text_In. congruence.
Qed.
Lemma set_del_in x l y : In y (set_del x l) <-> In y l /\ y <> x.
Proof.
  unfold set_del. rewrite filter_In. destruct (text_eqb_spec x y) as [->|E]; cbn [negb]; intuition congruence.
Qed.
Lemma set_del_nodup x l : NoDup l -> NoDup (set_del x l).
Proof. apply NoDup_filter. Qed.

(** ** updates *)
Lemma aget_update k f ns k' : aget k' (update k f ns) = if text_eqb k' k then match aget k' ns with Some n => Some (f n) | None => None end else aget k' ns.
Proof.
  unfold update. destruct (text_eqb_spec k' k) as [->|E].
  - destruct (aget k ns) as [n|] eqn:En; [apply aget_put_same|exact En].
  - destruct (aget k ns) as [n|]; [apply aget_put_other, E|reflexivity].
Qed.
Lemma akeys_update k f ns x : In x (akeys (update k f ns)) <-> In x (akeys ns).
Proof.
  unfold update. destruct (aget k ns) as [n|] eqn:E; [|tauto]. rewrite akeys_put. split; [|auto]. intros [->|H]; [|exact H]. apply aget_some. eauto.
Qed.
Lemma nodup_update k f ns : NoDup (akeys ns) -> NoDup (akeys (update k f ns)).
Proof. unfold update. destruct (aget k ns); [apply nodup_put|auto]. Qed.
(** applying [f] at each of the keys [ks] *)
Lemma aget_updates f ks : (forall n, f (f n) = f n) -> forall ns k, aget k (fold_left (fun ns d => update d f ns) ks ns) =
  if mem_text k ks then match aget k ns with Some n => Some (f n) | None => None end else aget k ns.
Proof.
  intros Hf. induction ks as [|d ks IH]; intros ns k; cbn [fold_left]; [reflexivity|]. rewrite IH, aget_update. unfold mem_text. cbn [existsb].
  fold (mem_text k ks). destruct (text_eqb_spec k d) as [->|E]; cbn [orb].
  - destruct (mem_text d ks); [|reflexivity]. destruct (aget d ns) as [n|]; [rewrite Hf|]; reflexivity.
  - reflexivity.
Qed.
Lemma nodup_updates f ks : forall ns, NoDup (akeys ns) -> NoDup (akeys (fold_left (fun ns d => update d f ns) ks ns)).
Proof. induction ks as [|d ks IH]; intros ns H; [exact H|]. apply IH, nodup_update, H. Qed.
Lemma akeys_updates f ks x : forall ns, In x (akeys (fold_left (fun ns d => update d f ns) ks ns)) <-> In x (akeys ns).
Proof. induction ks as [|d ks IH]; intros ns; [reflexivity|]. cbn [fold_left]. rewrite IH. apply akeys_update. Qed.
Lemma set_del_idem k l : set_del k (set_del k l) = set_del k l.
Proof.
  unfold set_del. induction l as [|x l IH]; [reflexivity|]. cbn [filter]. destruct (negb (text_eqb k x)) eqn:E; [|exact IH].
  cbn [filter]. rewrite E, IH. reflexivity.
Qed.
Lemma del_dep_idem k n : del_dep k (del_dep k n) = del_dep k n.
Proof. unfold del_dep. cbn [n_deps n_dependents n_package]. rewrite set_del_idem. reflexivity. Qed.
Lemma del_dependent_idem k n : del_dependent k (del_dependent k n) = del_dependent k n.
Proof. unfold del_dependent. cbn [n_deps n_dependents n_package]. rewrite set_del_idem. reflexivity. Qed.

Lemma is_node_get g k : is_node g k <-> exists n, aget k (g_nodes g) = Some n.
Proof. unfold is_node. symmetry. apply aget_some. Qed.

(** ** edits *)
Lemma empty_consistent : consistent g_empty.
Proof.
  constructor; [constructor|..].
  - constructor.
  - intros k n H. discriminate.
  - intros a b. split; intros (n & H & _); discriminate.
  - intros a b (n & H & _). discriminate.
Qed.
Lemma add_package_consistent p g : consistent g -> ~ is_node g (pkg_key p) -> consistent (snd (add_package p g)).
Proof.
  intros C Hn. unfold add_package. destruct (mem_text (p_name p) (g_excluded g)); [exact C|]. cbn [snd].
  set (k := pkg_key p) in *.
  assert (forall a b, edge (set_nodes (aput k (mkNode p [] []) (g_nodes g)) g) a b <-> edge g a b) as He.
  { intros a b. unfold edge. cbn [set_nodes g_nodes]. destruct (text_eqb_spec a k) as [->|E].
    - rewrite aget_put_same. split; [intros (n & [= <-] & [])|]. intros (n & H & _). destruct Hn. apply is_node_get. eauto.
    - rewrite aget_put_other by exact E. reflexivity. }
  assert (forall a b, back_edge (set_nodes (aput k (mkNode p [] []) (g_nodes g)) g) a b <-> back_edge g a b) as Hb.
  { intros a b. unfold back_edge. cbn [set_nodes g_nodes]. destruct (text_eqb_spec a k) as [->|E].
    - rewrite aget_put_same. split; [intros (n & [= <-] & [])|]. intros (n & H & _). destruct Hn. apply is_node_get. eauto.
    - rewrite aget_put_other by exact E. reflexivity. }
  constructor; [constructor|..].
  - apply nodup_put, C.
  - intros x n. cbn [set_nodes g_nodes]. destruct (text_eqb_spec x k) as [->|E].
    + rewrite aget_put_same. intros [= <-]. split; constructor.
    + rewrite aget_put_other by exact E. apply C.
  - intros a b. rewrite He, Hb. apply C.
  - intros a b H. apply He in H. unfold is_node. cbn [set_nodes g_nodes]. rewrite akeys_put. right. apply (co_nodes _ C a b H).
Qed.
Lemma add_edge_nodes a b g : well_formed g -> is_node g a -> is_node g b ->
  exists g', add_edge a b g = (true, g') /\ NoDup (akeys (g_nodes g')) /\ (forall k, is_node g' k <-> is_node g k) /\
    forall k, aget k (g_nodes g') = match aget k (g_nodes g) with
                                    | None => None
                                    | Some n => let n := if text_eqb k a then add_dep b n else n in Some (if text_eqb k b then add_dependent a n else n)
                                    end.
Proof.
  intros W Ha Hb. unfold add_edge. apply is_node_get in Ha as (n & Hn). rewrite Hn. set (ns := aput a (add_dep b n) (g_nodes g)).
  assert (forall k, aget k ns = match aget k (g_nodes g) with None => None | Some n => Some (if text_eqb k a then add_dep b n else n) end) as Hns.
  { intros k. unfold ns. destruct (text_eqb_spec k a) as [->|E]; [rewrite aget_put_same, Hn; reflexivity|]. rewrite aget_put_other by exact E. destruct (aget k (g_nodes g)); reflexivity. }
  assert (forall k, In k (akeys ns) <-> is_node g k) as Hk.
  { intros k. unfold ns, is_node. rewrite akeys_put. split; [|auto]. intros [->|H]; [|exact H]. apply aget_some. eauto. }
  apply is_node_get in Hb as (m & Hm). pose proof (Hns b) as Hb. rewrite Hm in Hb. rewrite Hb. eexists. split; [reflexivity|].
  cbn [set_nodes g_nodes]. split; [apply nodup_put, nodup_put, W|]. split.
  - intros k. unfold is_node. cbn [set_nodes g_nodes]. rewrite akeys_put, Hk. split; [|auto]. intros [->|H]; [|exact H]. apply is_node_get. eauto.
  - intros k. destruct (text_eqb_spec k b) as [->|E].
    + rewrite aget_put_same, Hm. reflexivity.
    + rewrite aget_put_other by exact E. apply Hns.
Qed.
Lemma add_edge_consistent a b g : consistent g -> (is_node g a -> is_node g b) -> consistent (snd (add_edge a b g)) /\
  (is_node g a -> fst (add_edge a b g) = true /\ forall x y, edge (snd (add_edge a b g)) x y <-> edge g x y \/ (x = a /\ y = b)).
Proof.
  intros C Hab. destruct (aget a (g_nodes g)) as [n|] eqn:En.
  2: { unfold add_edge. rewrite En. cbn [snd]. split; [exact C|]. intros Ha. apply is_node_get in Ha as (m & Hm). congruence. }
  assert (is_node g a) as Ha by (apply is_node_get; eauto). pose proof (Hab Ha) as Hb.
  destruct (add_edge_nodes a b g (co_wf _ C) Ha Hb) as (g' & E & Hnd & Hk & Hg). rewrite E. cbn [fst snd].
  assert (forall x y, edge g' x y <-> edge g x y \/ (x = a /\ y = b)) as He.
  { intros x y. unfold edge. rewrite Hg. split.
    - intros (m & Hm & Hy). destruct (aget x (g_nodes g)) as [m0|] eqn:Ex; [|discriminate]. injection Hm as <-.
      assert (In y (n_deps (if text_eqb x a then add_dep b m0 else m0))) as Hy' by (destruct (text_eqb x b); exact Hy).
      destruct (text_eqb_spec x a) as [->|Exa]; [|left; eauto]. cbn [add_dep n_deps] in Hy'. apply set_add_in in Hy' as [->|Hy']; [auto|left; eauto].
    - intros [(m0 & Hm0 & Hy)|[-> ->]].
      + rewrite Hm0. eexists. split; [reflexivity|]. cbn zeta.
        assert (In y (n_deps (if text_eqb x a then add_dep b m0 else m0))) as Hy' by (destruct (text_eqb x a); [apply set_add_in; auto|exact Hy]).
        destruct (text_eqb x b); exact Hy'.
      + rewrite En, text_eqb_refl. eexists. split; [reflexivity|]. cbn zeta.
        assert (In b (n_deps (add_dep b n))) as Hy' by (apply set_add_in; auto). destruct (text_eqb a b); exact Hy'. }
  assert (forall y x, back_edge g' y x <-> back_edge g y x \/ (x = a /\ y = b)) as Hbk.
  { intros y x. unfold back_edge. rewrite Hg. split.
    - intros (m & Hm & Hx). destruct (aget y (g_nodes g)) as [m0|] eqn:Ey; [|discriminate]. injection Hm as <-. cbn zeta in Hx.
      destruct (text_eqb_spec y b) as [->|Eyb].
      + cbn [add_dependent n_dependents] in Hx. apply set_add_in in Hx as [->|Hx]; [auto|]. left. exists m0. split; [reflexivity|]. destruct (text_eqb b a); exact Hx.
      + left. exists m0. split; [reflexivity|]. destruct (text_eqb y a); exact Hx.
    - intros [(m0 & Hm0 & Hx)|[-> ->]].
      + rewrite Hm0. eexists. split; [reflexivity|]. cbn zeta.
        assert (In x (n_dependents (if text_eqb y a then add_dep b m0 else m0))) as Hx' by (destruct (text_eqb y a); exact Hx).
        destruct (text_eqb y b); [apply set_add_in; auto|exact Hx'].
      + apply is_node_get in Hb as (m & Hm). rewrite Hm, text_eqb_refl. eexists. split; [reflexivity|]. apply set_add_in. auto. }
  split; [|intros _; split; [reflexivity|exact He]].
  constructor; [constructor|..].
  - exact Hnd.
  - intros k m Hm. rewrite Hg in Hm. destruct (aget k (g_nodes g)) as [m0|] eqn:Ek; [|discriminate]. injection Hm as <-.
    destruct (wf_sets _ (co_wf _ C) k m0 Ek) as [W1 W2].
    destruct (text_eqb k a), (text_eqb k b); cbn; auto using set_add_nodup.
  - intros x y. rewrite He, Hbk, (co_mirror _ C). reflexivity.
  - intros x y H. apply Hk. apply He in H as [H|[-> ->]]; [apply (co_nodes _ C x y H)|exact Hb].
Qed.
Lemma remove_get k g x n : aget k (g_nodes g) = Some n ->
  aget x (g_nodes (remove_package k g)) =
    if text_eqb x k then None
    else match aget x (g_nodes g) with
         | None => None
         | Some m => let m := if mem_text x (n_deps n) then del_dependent k m else m in Some (if mem_text x (n_dependents n) then del_dep k m else m)
         end.
Proof.
  intros E. unfold remove_package. rewrite E. cbn [set_nodes g_nodes].
  rewrite (aget_updates (del_dep k) _ (del_dep_idem k)), (aget_updates (del_dependent k) _ (del_dependent_idem k)).
  destruct (text_eqb_spec x k) as [->|Ex].
  - rewrite aget_del_same. destruct (mem_text k (n_dependents n)), (mem_text k (n_deps n)); reflexivity.
  - rewrite aget_del_other by exact Ex. destruct (aget x (g_nodes g)) as [m|]; [|destruct (mem_text x (n_dependents n)), (mem_text x (n_deps n)); reflexivity].
    destruct (mem_text x (n_dependents n)), (mem_text x (n_deps n)); reflexivity.
Qed.
Lemma remove_nodes k g x : consistent g -> is_node (remove_package k g) x <-> is_node g x /\ x <> k.
Proof.
  intros C. destruct (aget k (g_nodes g)) as [n|] eqn:E.
  - rewrite !is_node_get. setoid_rewrite (remove_get k g x n E). destruct (text_eqb_spec x k) as [->|Ex].
    + split; [intros (m & H); discriminate|intros [_ H]; congruence].
    + destruct (aget x (g_nodes g)); split; [eauto|eauto|intros (m & H); discriminate|intros [(m & H) _]; discriminate].
  - unfold remove_package. rewrite E. split; [|tauto]. intros H. split; [exact H|]. intros ->. apply is_node_get in H as (m & H). congruence.
Qed.
Lemma remove_edge k g a b : consistent g -> edge (remove_package k g) a b <-> edge g a b /\ a <> k /\ b <> k.
Proof.
  intros C. destruct (aget k (g_nodes g)) as [n|] eqn:E.
  - unfold edge. rewrite (remove_get k g a n E). destruct (text_eqb_spec a k) as [->|Ea].
    + split; [intros (m & H & _); discriminate|intros (_ & H & _); congruence].
    + destruct (aget a (g_nodes g)) as [m|] eqn:Em.
      2: { split; [intros (m & H & _); discriminate|intros ((m & H & _) & _); discriminate]. }
      set (m1 := if mem_text a (n_deps n) then del_dependent k m else m).
      assert (n_deps m1 = n_deps m) as Hm1 by (unfold m1; destruct (mem_text a (n_deps n)); reflexivity).
      assert (forall z, In z (n_deps (if mem_text a (n_dependents n) then del_dep k m1 else m1)) <-> In z (n_deps m) /\ z <> k) as Hz.
      { intros z. destruct (mem_text a (n_dependents n)) eqn:Ed.
        - cbn [del_dep n_deps]. rewrite set_del_in, Hm1. reflexivity.
        - rewrite Hm1. split; [|tauto]. intros H. split; [exact H|]. intros ->.
          assert (edge g a k) as He by (exists m; auto). apply (co_mirror _ C) in He as (n' & Hn' & Hin). rewrite E in Hn'. injection Hn' as <-.
          apply mem_text_In in Hin. congruence. }
      split.
      * intros (m' & [= <-] & H). apply Hz in H as [H1 H2]. split; [exists m; auto|auto].
      * intros ((m' & [= <-] & H) & _ & Hb). eexists. split; [reflexivity|]. apply Hz. auto.
  - unfold remove_package. rewrite E. split; [|tauto]. intros H. split; [exact H|]. split; intros ->.
    + destruct H as (m & H & _). congruence.
    + apply (co_nodes _ C) in H. apply is_node_get in H as (m & H). congruence.
Qed.
Lemma remove_back_edge k g b a : consistent g -> back_edge (remove_package k g) b a <-> back_edge g b a /\ a <> k /\ b <> k.
Proof.
  intros C. destruct (aget k (g_nodes g)) as [n|] eqn:E.
  - unfold back_edge. rewrite (remove_get k g b n E). destruct (text_eqb_spec b k) as [->|Eb].
    + split; [intros (m & H & _); discriminate|intros (_ & _ & H); congruence].
    + destruct (aget b (g_nodes g)) as [m|] eqn:Em.
      2: { split; [intros (m & H & _); discriminate|intros ((m & H & _) & _); discriminate]. }
      set (m1 := if mem_text b (n_deps n) then del_dependent k m else m).
      assert (forall z, In z (n_dependents (if mem_text b (n_dependents n) then del_dep k m1 else m1)) <-> In z (n_dependents m) /\ z <> k) as Hz.
      { intros z. assert (n_dependents (if mem_text b (n_dependents n) then del_dep k m1 else m1) = n_dependents m1) as -> by (destruct (mem_text b (n_dependents n)); reflexivity).
        unfold m1. destruct (mem_text b (n_deps n)) eqn:Ed.
        - cbn [del_dependent n_dependents]. rewrite set_del_in. reflexivity.
        - split; [|tauto]. intros H. split; [exact H|]. intros ->.
          assert (back_edge g b k) as He by (exists m; auto). apply (co_mirror _ C) in He as (n' & Hn' & Hin). rewrite E in Hn'. injection Hn' as <-.
          apply mem_text_In in Hin. congruence. }
      split.
      * intros (m' & [= <-] & H). apply Hz in H as [H1 H2]. split; [exists m; auto|auto].
      * intros ((m' & [= <-] & H) & Ha & _). eexists. split; [reflexivity|]. apply Hz. auto.
  - unfold remove_package. rewrite E. split; [|tauto]. intros H. split; [exact H|]. split; intros ->.
    + apply (co_mirror _ C) in H as (m & H & _). congruence.
    + destruct H as (m & H & _). congruence.
Qed.
Lemma remove_consistent k g : consistent g -> consistent (remove_package k g).
Proof.
  intros C. constructor; [constructor|..].
  - unfold remove_package. destruct (aget k (g_nodes g)); [|apply C]. cbn [set_nodes g_nodes]. apply nodup_updates, nodup_updates, nodup_del, C.
  - intros x m Hm. destruct (aget k (g_nodes g)) as [n|] eqn:E.
    + rewrite (remove_get k g x n E) in Hm. destruct (text_eqb x k); [discriminate|]. destruct (aget x (g_nodes g)) as [m0|] eqn:E0; [|discriminate].
      injection Hm as <-. destruct (wf_sets _ (co_wf _ C) x m0 E0) as [W1 W2].
      destruct (mem_text x (n_deps n)), (mem_text x (n_dependents n)); cbn [del_dep del_dependent n_deps n_dependents]; split; auto using set_del_nodup.
    + unfold remove_package in Hm. rewrite E in Hm. apply (wf_sets _ (co_wf _ C) x m Hm).
  - intros a b. rewrite (remove_edge k g a b C), (remove_back_edge k g b a C), (co_mirror _ C). reflexivity.
  - intros a b H. apply (remove_edge k g a b C) in H as (H & _ & Hb). apply (remove_nodes k g b C). split; [apply (co_nodes _ C a b H)|exact Hb].
Qed.
Lemma same_nodes_consistent g g' : g_nodes g' = g_nodes g -> consistent g -> consistent g'.
Proof.
  intros E C. assert (forall a b, edge g' a b <-> edge g a b) as He by (intros; unfold edge; rewrite E; reflexivity).
  assert (forall a b, back_edge g' a b <-> back_edge g a b) as Hb by (intros; unfold back_edge; rewrite E; reflexivity).
  constructor; [constructor|..].
  - rewrite E. apply C.
  - rewrite E. apply C.
  - intros a b. rewrite He, Hb. apply C.
  - intros a b H. unfold is_node. rewrite E. apply He in H. apply (co_nodes _ C a b H).
Qed.
Lemma ops_consistent xs : forall g, consistent g -> all_careful xs g -> consistent (apply_ops xs g).
Proof.
  induction xs as [|x xs IH]; intros g C H; [exact C|]. destruct H as [Hx Hxs]. unfold apply_ops. cbn [fold_left]. apply IH; [|exact Hxs].
  destruct x as [p|a b|k|n|r]; cbn [apply_op careful] in *.
  - apply add_package_consistent; assumption.
  - apply (add_edge_consistent a b g C Hx).
  - apply remove_consistent, C.
  - apply (same_nodes_consistent g); [reflexivity|exact C].
  - apply (same_nodes_consistent g); [reflexivity|exact C].
Qed.
