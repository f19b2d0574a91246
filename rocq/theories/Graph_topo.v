(** Proofs about the topological sort. *)
From Verif Require Import Base Base_lemmas Text_lemmas Version_model Range_model Requirement_model Maps Sorting Package_model Dfs
  Order_spec Graph_model Graph_spec Graph_proofs.

(** ** one node *)
Lemma relax_spec ds : forall deg q, NoDup ds -> (forall k, In k ds -> aget k deg <> Some 0) ->
  exists deg', relax ds deg q = Some (deg', q ++ filter (fun k => match aget k deg with Some 1 => true | _ => false end) ds) /\
    akeys deg' = akeys deg /\
    forall k, aget k deg' = if mem_text k ds then match aget k deg with Some n => Some (pred n) | None => None end else aget k deg.
Proof.
  induction ds as [|d ds IH]; intros deg q Hn Hz; cbn [relax].
  - exists deg. split; [cbn [filter]; rewrite app_nil_r; reflexivity|]. split; reflexivity.
  - inversion Hn as [|? ? Hd Hds]; subst. cbn [filter]. destruct (aget d deg) as [[|n]|] eqn:E.
    + destruct (Hz d (or_introl eq_refl) E).
    + assert (forall k, k <> d -> aget k (aput d n deg) = aget k deg) as Ho by (intros k Hk; apply aget_put_other, Hk).
      destruct (IH (aput d n deg) (if Nat.eqb n 0 then q ++ [d] else q) Hds) as (deg' & H1 & H2 & H3).
      { intros k Hk. rewrite Ho; [apply Hz; right; exact Hk|]. intros ->. contradiction. }
      exists deg'. split; [|split].
      * rewrite H1. f_equal. f_equal.
        assert (filter (fun k => match aget k (aput d n deg) with Some 1 => true | _ => false end) ds =
                filter (fun k => match aget k deg with Some 1 => true | _ => false end) ds) as ->.
        { apply filter_ext_in. intros k Hk. rewrite Ho; [reflexivity|]. intros ->. contradiction. }
        destruct n as [|n]; cbn [Nat.eqb]; [rewrite <- app_assoc|]; reflexivity.
      * rewrite H2. clear - E. induction deg as [|[k v] m IH]; [discriminate|]. cbn [aput aget] in *.
        destruct (text_eqb_spec d k) as [->|Ek]; [reflexivity|]. cbn [akeys map fst]. f_equal. apply IH, E.
      * intros k. rewrite H3. unfold mem_text at 2. cbn [existsb]. fold (mem_text k ds). destruct (text_eqb_spec k d) as [->|Ek]; cbn [orb].
        -- destruct (mem_text d ds) eqn:Em; [apply mem_text_In in Em; contradiction|]. rewrite aget_put_same, E. reflexivity.
        -- rewrite Ho by exact Ek. reflexivity.
    + destruct (IH deg q Hds) as (deg' & H1 & H2 & H3).
      { intros k Hk. apply Hz. right. exact Hk. }
      exists deg'. split; [exact H1|]. split; [exact H2|]. intros k. rewrite H3. unfold mem_text at 2. cbn [existsb]. fold (mem_text k ds).
      destruct (text_eqb_spec k d) as [->|Ek]; cbn [orb]; [|reflexivity]. destruct (mem_text d ds); rewrite E; reflexivity.
Qed.

Lemma nodup_app_split {A} (a b : list A) : NoDup (a ++ b) -> NoDup a /\ NoDup b /\ forall x, In x a -> ~ In x b.
Proof.
  induction a as [|x a IH]; cbn [app]; intros H; [split; [constructor|split; [exact H|intros x []]]|].
  inversion H as [|? ? Hx Ha]; subst. destruct (IH Ha) as (H1 & H2 & H3). rewrite in_app_iff in Hx. split; [constructor; tauto|]. split; [exact H2|].
  intros y [<-|Hy]; [tauto|apply H3, Hy].
Qed.
(** ** the packages of a list of keys *)
Lemma packages_of_keys l (ns : list (text * node)) : Permutation l (akeys ns) -> NoDup (akeys ns) ->
  Permutation (concat (map (fun k => match aget k ns with Some n => [n_package n] | None => [] end) l)) (map (fun kn => n_package (snd kn)) ns).
Proof.
  intros P Hn. rewrite <- flat_map_concat_map.
  transitivity (flat_map (fun k => match aget k ns with Some n => [n_package n] | None => [] end) (akeys ns)).
  - clear Hn. induction P as [|x l1 l2 _ IH|x y l1|l1 l2 l3 _ IH1 _ IH2]; cbn [flat_map]; [constructor|apply Permutation_app_head, IH| |etransitivity; eassumption].
    rewrite !app_assoc. apply Permutation_app_tail, Permutation_app_comm.
  - assert (forall m, (forall k n, In (k, n) m -> aget k ns = Some n) ->
      flat_map (fun k => match aget k ns with Some n => [n_package n] | None => [] end) (akeys m) = map (fun kn => n_package (snd kn)) m) as K.
    { induction m as [|[k n] m IH]; intros H; [reflexivity|]. cbn [akeys map fst flat_map snd]. rewrite (H k n (or_introl eq_refl)). cbn [app]. f_equal.
      apply IH. intros k' n' Hin. apply H. right. exact Hin. }
    rewrite (K ns); [reflexivity|]. intros k n H. apply aget_nodup; assumption.
Qed.
(** ** counting *)
Definition open_ones (done l : list text) : nat := length (filter (fun a => negb (mem_text a done)) l).
Lemma mem_text_app x a b : mem_text x (a ++ b) = mem_text x a || mem_text x b.
Proof. apply existsb_app. Qed.
Lemma mem_text_cons x y l : mem_text x (y :: l) = text_eqb x y || mem_text x l.
Proof. reflexivity. Qed.
Lemma mem_text_false x l : mem_text x l = false <-> ~ In x l.
Proof. rewrite <- mem_text_In. destruct (mem_text x l); split; congruence. Qed.
Lemma open_ones_snoc done l c : NoDup l -> ~ In c done ->
  open_ones done l = open_ones (done ++ [c]) l + (if mem_text c l then 1 else 0).
Proof.
  intros Hn Hc. unfold open_ones. induction l as [|x l IH]; [reflexivity|]. inversion Hn as [|? ? Hx Hl]; subst. specialize (IH Hl).
  rewrite mem_text_cons. cbn [filter]. rewrite mem_text_app, mem_text_cons. change (mem_text x []) with false. rewrite orb_false_r.
  destruct (text_eqb_spec x c) as [->|E].
  - rewrite text_eqb_refl, orb_true_r. cbn [orb negb]. apply mem_text_false in Hc. apply mem_text_false in Hx. rewrite Hc. rewrite Hx in IH.
    cbn [negb length]. lia.
  - assert (text_eqb c x = false) as -> by (destruct (text_eqb_spec c x); congruence). rewrite orb_false_r. cbn [orb].
    destruct (mem_text x done); cbn [negb length]; lia.
Qed.
Lemma open_ones_zero done l : open_ones done l = 0 <-> forall a, In a l -> In a done.
Proof.
  unfold open_ones. split.
  - intros H a Ha. destruct (mem_text a done) eqn:E; [apply mem_text_In, E|]. exfalso.
    assert (In a (filter (fun a => negb (mem_text a done)) l)) as K by (apply filter_In; rewrite E; auto).
    destruct (filter _ l); [destruct K|discriminate].
  - intros H. assert (filter (fun a => negb (mem_text a done)) l = []) as ->; [|reflexivity].
    induction l as [|x l IH]; [reflexivity|]. cbn [filter]. assert (mem_text x done = true) as -> by (apply mem_text_In, H; left; reflexivity).
    apply IH. intros a Ha. apply H. right. exact Ha.
Qed.

(** ** the loop *)
Definition dependents_of (g : graph) (k : text) : list text := match aget k (g_nodes g) with Some n => n_dependents n | None => [] end.
Section Topo.
Context (o : gorder) (g : graph).
Hypothesis Ho : any_gorder o.
Hypothesis Hg : consistent g.

Lemma deps_of_edge a b : In b (deps_of o g a) <-> edge g a b.
Proof.
  unfold deps_of, edge. destruct (aget a (g_nodes g)) as [n|].
  - destruct Ho as [_ Hd]. split.
    + intros H. exists n. split; [reflexivity|]. apply (Permutation_in _ (Hd a (n_deps n))), H.
    + intros (m & [= <-] & H). apply (Permutation_in _ (Permutation_sym (Hd a (n_deps n)))), H.
  - split; [intros []|intros (m & H & _); discriminate].
Qed.
Lemma deps_of_nodup a : NoDup (deps_of o g a).
Proof.
  unfold deps_of. destruct (aget a (g_nodes g)) as [n|] eqn:E; [|constructor]. destruct Ho as [_ Hd].
  apply (Permutation_NoDup (Permutation_sym (Hd a (n_deps n)))). apply (wf_sets _ (co_wf _ Hg) a n E).
Qed.
Lemma dependents_edge a b : In a (dependents_of g b) <-> edge g a b.
Proof.
  rewrite (co_mirror _ Hg). unfold dependents_of, back_edge. destruct (aget b (g_nodes g)) as [n|].
  - split; [eauto|]. intros (m & [= <-] & H). exact H.
  - split; [intros []|intros (m & H & _); discriminate].
Qed.
Lemma dependents_nodup k : NoDup (dependents_of g k).
Proof. unfold dependents_of. destruct (aget k (g_nodes g)) as [n|] eqn:E; [|constructor]. apply (wf_sets _ (co_wf _ Hg) k n E). Qed.
Lemma edge_from a b : edge g a b -> is_node g a.
Proof. intros (n & H & _). apply is_node_get. eauto. Qed.

Record topo_inv (queue : list text) (deg : list (text * nat)) (done : list text) : Prop := {
  ti_nodup : NoDup (done ++ queue);
  ti_keys : forall k, aget k deg = if mem_text k (akeys (g_nodes g)) then Some (open_ones done (dependents_of g k)) else None;
  ti_zero : forall k, In k (done ++ queue) <-> is_node g k /\ open_ones done (dependents_of g k) = 0;
  ti_order : forall l1 k l2, done = l1 ++ k :: l2 -> forall a, edge g a k -> In a l1
}.

Lemma mem_node k : mem_text k (akeys (g_nodes g)) = true <-> is_node g k.
Proof. unfold is_node. apply mem_text_In. Qed.

Lemma nodup_app_intro {A} (a b : list A) : NoDup a -> NoDup b -> (forall x, In x a -> ~ In x b) -> NoDup (a ++ b).
Proof.
  induction a as [|x a IH]; intros Ha Hb H; [exact Hb|]. inversion Ha as [|? ? Hx Ha']; subst. cbn [app]. constructor.
  - rewrite in_app_iff. intros [H1|H1]; [contradiction|]. apply (H x (or_introl eq_refl) H1).
  - apply IH; auto. intros y Hy. apply H. right. exact Hy.
Qed.

Lemma topo_step k q deg done : topo_inv (k :: q) deg done ->
  exists deg' q', relax (deps_of o g k) deg q = Some (deg', q') /\ topo_inv q' deg' (done ++ [k]).
Proof.
  intros I. assert (~ In k done /\ NoDup done /\ NoDup q /\ ~ In k q /\ (forall x, In x done -> ~ In x q)) as (Hk & Nd & Nq & Hkq & Hdis).
  { pose proof (ti_nodup _ _ _ I) as N. apply NoDup_remove in N as [N1 N2]. rewrite in_app_iff in N2.
    apply nodup_app_split in N1 as (N3 & N4 & N5). split; [tauto|]. split; [exact N3|]. split; [exact N4|]. split; [tauto|exact N5]. }
  assert (forall d, edge g k d -> is_node g d) as Hnode by (intros d Hd; apply (co_nodes _ Hg k d Hd)).
  assert (forall x, open_ones done (dependents_of g x) = open_ones (done ++ [k]) (dependents_of g x) + (if mem_text x (deps_of o g k) then 1 else 0)) as Hopen.
  { intros x. rewrite (open_ones_snoc done (dependents_of g x) k (dependents_nodup x) Hk). f_equal.
    destruct (mem_text k (dependents_of g x)) eqn:E1, (mem_text x (deps_of o g k)) eqn:E2; try reflexivity.
    - apply mem_text_In, dependents_edge, deps_of_edge, mem_text_In in E1. congruence.
    - apply mem_text_In, deps_of_edge, dependents_edge, mem_text_In in E2. congruence. }
  destruct (relax_spec (deps_of o g k) deg q (deps_of_nodup k)) as (deg' & Hr & _ & Hdeg').
  { intros x Hx. rewrite (ti_keys _ _ _ I). apply deps_of_edge in Hx as He. pose proof (Hnode x He) as Hn. apply mem_node in Hn. rewrite Hn.
    rewrite Hopen. apply mem_text_In in Hx. rewrite Hx. intros [= E]. lia. }
  exists deg'. eexists. split; [exact Hr|].
  set (fresh := filter _ (deps_of o g k)).
  assert (forall x, In x fresh <-> edge g k x /\ open_ones (done ++ [k]) (dependents_of g x) = 0) as Hfresh.
  { intros x. unfold fresh. rewrite filter_In, deps_of_edge, (ti_keys _ _ _ I). split; intros [He Hx]; (split; [exact He|]);
      pose proof (Hnode x He) as Hn; apply mem_node in Hn; rewrite Hn in *; pose proof (Hopen x) as Hox;
      (assert (mem_text x (deps_of o g k) = true) as Hm by (apply mem_text_In, deps_of_edge, He)); rewrite Hm in Hox; rewrite Hox in *.
    - destruct (open_ones (done ++ [k]) (dependents_of g x)) as [|n]; [reflexivity|]. replace (S n + 1) with (S (S n)) in Hx by lia. discriminate.
    - rewrite Hx. reflexivity. }
  assert (forall x, In x fresh -> ~ In x done /\ x <> k /\ ~ In x q) as Hnew.
  { intros x Hx. apply Hfresh in Hx as [He H0]. assert (~ In x (done ++ k :: q)) as Hnot.
    { intros Hin. apply (ti_zero _ _ _ I) in Hin as [_ Hz]. rewrite Hopen in Hz.
      assert (mem_text x (deps_of o g k) = true) as Hm by (apply mem_text_In, deps_of_edge, He). rewrite Hm in Hz. lia. }
    rewrite in_app_iff in Hnot. cbn [In] in Hnot. intuition. }
  constructor.
  - rewrite <- app_assoc. apply nodup_app_intro; [exact Nd| |].
    + cbn [app]. constructor.
      * rewrite in_app_iff. intros [H|H]; [contradiction|]. apply Hnew in H as (_ & H & _). congruence.
      * apply nodup_app_intro; [exact Nq|apply NoDup_filter, deps_of_nodup|]. intros x Hx Hf. apply Hnew in Hf as (_ & _ & Hf). contradiction.
    + intros x Hx. cbn [app In]. rewrite in_app_iff. intros [<-|[H|H]]; [contradiction|apply (Hdis x Hx H)|apply Hnew in H as (H & _); contradiction].
  - intros x. rewrite Hdeg', (ti_keys _ _ _ I), Hopen. destruct (mem_text x (akeys (g_nodes g))), (mem_text x (deps_of o g k)); try reflexivity.
    + f_equal. lia.
    + f_equal. lia.
  - intros x. rewrite <- app_assoc. cbn [app]. rewrite in_app_iff. cbn [In]. rewrite in_app_iff, Hfresh.
    assert (In x done \/ k = x \/ In x q <-> is_node g x /\ open_ones done (dependents_of g x) = 0) as Hold.
    { rewrite <- (ti_zero _ _ _ I x), in_app_iff. cbn [In]. tauto. }
    split.
    + intros [H|[H|[H|[He H0]]]].
      1-3: assert (is_node g x /\ open_ones done (dependents_of g x) = 0) as [H1 H2] by tauto; split; [exact H1|]; rewrite Hopen in H2; lia.
      split; [apply Hnode, He|exact H0].
    + intros [Hn Hz]. destruct (mem_text x (deps_of o g k)) eqn:Em.
      * right. right. right. split; [apply deps_of_edge, mem_text_In, Em|exact Hz].
      * assert (open_ones done (dependents_of g x) = 0) as Hz' by (rewrite Hopen, Em; lia). tauto.
  - intros l1 x l2 E a He.
    assert (In x (done ++ k :: q)) as Hx.
    { assert (In x (done ++ [k])) as H by (rewrite E; apply in_app_iff; right; left; reflexivity). rewrite in_app_iff in *. cbn [In] in *. tauto. }
    destruct (list_eq_dec (list_eq_dec ascii_dec) l2 []) as [->|Hl2].
    + apply app_inj_tail in E as [<- <-]. apply (ti_zero _ _ _ I) in Hx as [_ Hz]. rewrite open_ones_zero in Hz. apply Hz, dependents_edge, He.
    + destruct (exists_last Hl2) as (l2' & y & ->). rewrite app_comm_cons, app_assoc in E. apply app_inj_tail in E as [E _].
      apply (ti_order _ _ _ I l1 x l2' E a He).
Qed.

Lemma inv_length queue deg done : topo_inv queue deg done -> length done + length queue <= length (g_nodes g).
Proof.
  intros I. rewrite <- app_length. rewrite <- (map_length fst (g_nodes g)). apply NoDup_incl_length; [apply (ti_nodup _ _ _ I)|].
  intros x Hx. apply (ti_zero _ _ _ I) in Hx as [Hx _]. exact Hx.
Qed.
Lemma loop_spec fuel : forall queue deg done, topo_inv queue deg done -> length (g_nodes g) <= fuel + length done ->
  exists deg' done', topo_inv [] deg' done' /\
    topo_loop o g fuel queue deg done = if Nat.eqb (length done') (length (g_nodes g)) then Sorted done' else Cyclic.
Proof.
  induction fuel as [|f IH]; intros queue deg done I Hf; pose proof (inv_length _ _ _ I) as Hl; destruct queue as [|k q]; cbn [topo_loop].
  - eauto.
  - cbn [length] in Hl. lia.
  - eauto.
  - destruct (topo_step k q deg done I) as (deg' & q' & E & I'). rewrite E. apply IH; [exact I'|]. rewrite app_length. cbn [length]. lia.
Qed.
Lemma initial_inv : topo_inv
  (filter (fun k => match aget k (map (fun kn => (fst kn, length (n_dependents (snd kn)))) (g_nodes g)) with Some O => true | _ => false end)
     (go_keys o (akeys (map (fun kn => (fst kn, length (n_dependents (snd kn)))) (g_nodes g)))))
  (map (fun kn => (fst kn, length (n_dependents (snd kn)))) (g_nodes g)) [].
Proof.
  set (deg := map _ (g_nodes g)).
  assert (akeys deg = akeys (g_nodes g)) as Hk by (unfold deg, akeys; rewrite map_map; reflexivity).
  assert (forall k, aget k deg = if mem_text k (akeys (g_nodes g)) then Some (open_ones [] (dependents_of g k)) else None) as Hd.
  { intros k. unfold deg, dependents_of, open_ones. clear. induction (g_nodes g) as [|[x n] ns IH]; [reflexivity|]. cbn [map aget fst snd akeys].
    unfold mem_text. cbn [existsb]. fold (mem_text k (map fst ns)). destruct (text_eqb k x).
    - cbn [orb]. f_equal. clear. induction (n_dependents n) as [|a l IH]; [reflexivity|]. cbn [filter mem_text existsb negb length]. f_equal. exact IH.
    - cbn [orb]. exact IH. }
  destruct Ho as [Hok _].
  constructor.
  - cbn [app]. apply NoDup_filter, (Permutation_NoDup (Permutation_sym (Hok (akeys deg)))). rewrite Hk. apply (wf_keys _ (co_wf _ Hg)).
  - exact Hd.
  - intros k. cbn [app]. rewrite filter_In, Hd. split.
    + intros [H1 H2]. apply (Permutation_in _ (Hok (akeys deg))) in H1. rewrite Hk in H1. split; [exact H1|]. apply mem_text_In in H1. rewrite H1 in H2.
      destruct (open_ones [] (dependents_of g k)); [reflexivity|discriminate].
    + intros [H1 H2]. split; [apply (Permutation_in _ (Permutation_sym (Hok (akeys deg)))); rewrite Hk; exact H1|].
      apply mem_node in H1. rewrite H1, H2. reflexivity.
  - intros [|] k l2 E; discriminate.
Qed.
Lemma topo_spec : exists deg done, topo_inv [] deg done /\ topo_sort o g = if Nat.eqb (length done) (length (g_nodes g)) then Sorted done else Cyclic.
Proof. unfold topo_sort. apply loop_spec; [apply initial_inv|]. cbn [length]. lia. Qed.

(** ** the results *)
Lemma leads_order done : (forall l1 k l2, done = l1 ++ k :: l2 -> forall a, edge g a k -> In a l1) -> NoDup done ->
  forall a b, leads g a b -> In b done -> before done a b.
Proof.
  intros H Hn a b Hl. induction Hl as [b He|b c Hl IH He]; intros Hin.
  - apply in_split in Hin as (l1 & l2 & E). specialize (H l1 b l2 E a He). apply in_split in H as (p1 & p2 & ->).
    exists p1, p2, l2. rewrite E, <- app_assoc. reflexivity.
  - apply in_split in Hin as (l1 & l2 & E). pose proof (H l1 c l2 E b He) as Hb.
    assert (In b done) as Hbd by (rewrite E; apply in_app_iff; auto).
    destruct (IH Hbd) as (p1 & p2 & p3 & E2). apply in_split in Hb as (q1 & q2 & ->).
    assert (q1 = p1 ++ a :: p2) as ->.
    { rewrite E2, <- app_assoc in E. cbn [app] in E. rewrite E2 in Hn.
      assert (forall (x y u v : list text), x ++ b :: y = u ++ b :: v -> NoDup (x ++ b :: y) -> x = u) as K.
      { clear. induction x as [|z x IH]; intros y u v E N; destruct u as [|w u]; [reflexivity| | |].
        - injection E as <- E. exfalso. cbn [app] in N. inversion N as [|? ? Hz _]; subst. apply Hz, in_app_iff. right. left. reflexivity.
        - injection E as -> _. exfalso. cbn [app] in N. inversion N as [|? ? Hz _]; subst. apply Hz, in_app_iff. right. left. reflexivity.
        - injection E as <- E. f_equal. cbn [app] in N. inversion N; subst. eapply IH; eauto. }
      replace (p1 ++ a :: p2 ++ b :: p3) with ((p1 ++ a :: p2) ++ b :: p3) in E, Hn by (rewrite <- app_assoc; reflexivity).
      symmetry. eapply K; eauto. }
    exists p1, (p2 ++ b :: q2), l2. rewrite E. repeat (rewrite <- app_assoc; cbn [app]). reflexivity.
Qed.
Lemma before_not_self done a : NoDup done -> ~ before done a a.
Proof.
  intros Hn (l1 & l2 & l3 & E). rewrite E in Hn. apply NoDup_remove in Hn as [_ Hn]. apply Hn. rewrite !in_app_iff. cbn [In]. auto.
Qed.

(** a finite set in which everyone has a predecessor contains a loop *)
Lemma predecessor_loop (s : list text) : s <> [] -> (forall x, In x s -> exists y, In y s /\ edge g y x) -> exists x, leads g x x.
Proof.
  intros Hne Hp.
  assert (forall n, exists l, length l = S n /\ (forall x, In x l -> In x s) /\ forall l1 a b l2, l = l1 ++ a :: b :: l2 -> edge g a b) as K.
  { induction n as [|n IH].
    - destruct s as [|x s]; [congruence|]. exists [x]. split; [reflexivity|]. split; [intros y [<-|[]]; left; reflexivity|].
      intros l1 a b l2 E. destruct l1 as [|? [|]]; discriminate.
    - destruct IH as (l & Hl & Hs & He). destruct l as [|x l]; [discriminate|]. destruct (Hp x (Hs x (or_introl eq_refl))) as (y & Hy & Hyx).
      exists (y :: x :: l). split; [cbn [length] in *; lia|]. split; [intros z [<-|Hz]; auto|].
      intros l1 a b l2 E. destruct l1 as [|z l1]; [injection E as <- <- <-; exact Hyx|]. injection E as <- E. apply (He l1 a b l2 E). }
  destruct (K (length s)) as (l & Hl & Hs & He).
  assert (~ NoDup l) as Hnd by (intros N; pose proof (NoDup_incl_length N Hs); lia).
  assert (exists x l1 l2 l3, l = l1 ++ x :: l2 ++ x :: l3) as (x & l1 & l2 & l3 & E).
  { clear - Hnd. induction l as [|y l IH]; [destruct Hnd; constructor|]. destruct (in_dec (list_eq_dec ascii_dec) y l) as [Hy|Hy].
    - apply in_split in Hy as (l2 & l3 & ->). exists y, [], l2, l3. reflexivity.
    - destruct IH as (x & l1 & l2 & l3 & ->); [intros N; apply Hnd; constructor; assumption|]. exists x, (y :: l1), l2, l3. reflexivity. }
  exists x. assert (forall l2 l1 y l3, l = l1 ++ x :: l2 ++ y :: l3 -> leads g x y) as L.
  { clear - He. induction l2 as [|z l2 IH] using rev_ind; intros l1 y l3 E.
    - apply leads_edge, (He l1 x y l3 E).
    - apply (leads_step _ _ z).
      + apply (IH l1 z (y :: l3)). rewrite E. rewrite <- app_assoc. reflexivity.
      + apply (He (l1 ++ x :: l2) z y l3). rewrite E, <- !app_assoc. cbn [app]. reflexivity. }
  apply (L l2 l1 x l3 E).
Qed.

Lemma topo_sorted l : topo_sort o g = Sorted l -> Permutation l (akeys (g_nodes g)) /\ (forall a b, edge g a b -> before l a b) /\ loop_free g.
Proof.
  destruct topo_spec as (deg & done & I & ->). destruct (Nat.eqb (length done) (length (g_nodes g))) eqn:E; [|discriminate]. intros [= <-].
  apply Nat.eqb_eq in E. pose proof (ti_nodup _ _ _ I) as Nd. rewrite app_nil_r in Nd.
  assert (forall x, In x done -> is_node g x) as Hin.
  { intros x Hx. apply (ti_zero _ _ _ I). rewrite app_nil_r. exact Hx. }
  assert (Permutation done (akeys (g_nodes g))) as P.
  { apply NoDup_Permutation_bis; [exact Nd| |exact Hin]. unfold akeys. rewrite map_length, E. lia. }
  assert (forall a b, leads g a b -> before done a b) as Hb.
  { intros a b Hl. apply (leads_order done (ti_order _ _ _ I) Nd a b Hl). apply (Permutation_in _ (Permutation_sym P)).
    destruct Hl as [b He|b c _ He]; eapply (co_nodes _ Hg); eauto. }
  split; [exact P|]. split; [intros a b He; apply Hb, leads_edge, He|]. intros k Hk. apply (before_not_self done k Nd), Hb, Hk.
Qed.
Lemma topo_cyclic : topo_sort o g = Cyclic -> exists k, leads g k k.
Proof.
  destruct topo_spec as (deg & done & I & ->). destruct (Nat.eqb (length done) (length (g_nodes g))) eqn:E; [discriminate|]. intros _.
  apply Nat.eqb_neq in E. pose proof (ti_nodup _ _ _ I) as Nd. rewrite app_nil_r in Nd.
  set (s := filter (fun k => negb (mem_text k done)) (akeys (g_nodes g))).
  assert (forall x, In x s <-> is_node g x /\ ~ In x done) as Hs.
  { intros x. unfold s. rewrite filter_In, negb_true_iff. unfold is_node. split; intros [H1 H2]; (split; [exact H1|]).
    - rewrite <- mem_text_In. congruence.
    - destruct (mem_text x done) eqn:Em; [apply mem_text_In in Em; contradiction|reflexivity]. }
  apply (predecessor_loop s).
  - intros En. apply E. apply Nat.le_antisymm.
    + pose proof (inv_length _ _ _ I). cbn [length] in *. lia.
    + rewrite <- (map_length fst (g_nodes g)). apply NoDup_incl_length; [apply (wf_keys _ (co_wf _ Hg))|].
      intros x Hx. destruct (in_dec (list_eq_dec ascii_dec) x done) as [H|H]; [exact H|]. exfalso. assert (In x s) as K by (apply Hs; auto). rewrite En in K. destruct K.
  - intros x Hx. apply Hs in Hx as [Hn Hx].
    destruct (open_ones done (dependents_of g x)) as [|n] eqn:Eo.
    + exfalso. apply Hx. pose proof (ti_zero _ _ _ I x) as Z. rewrite app_nil_r in Z. apply Z. auto.
    + unfold open_ones in Eo. destruct (filter _ (dependents_of g x)) as [|y l] eqn:Ef; [discriminate|].
      assert (In y (filter (fun a => negb (mem_text a done)) (dependents_of g x))) as Hy by (rewrite Ef; left; reflexivity).
      apply filter_In in Hy as [Hy Hyd]. apply dependents_edge in Hy. exists y. split; [|exact Hy]. apply Hs. split; [apply (edge_from y x Hy)|].
      apply negb_true_iff in Hyd. rewrite <- mem_text_In. congruence.
Qed.
Lemma topo_outcome : (exists l, topo_sort o g = Sorted l) \/ topo_sort o g = Cyclic.
Proof. destruct topo_spec as (deg & done & I & ->). destruct (Nat.eqb _ _); eauto. Qed.
Lemma topo_exact : (exists l, topo_sort o g = Sorted l) <-> loop_free g.
Proof.
  split.
  - intros [l E]. apply (topo_sorted l E).
  - intros H. destruct topo_outcome as [?|E]; [assumption|]. apply topo_cyclic in E as [k Hk]. destruct (H k Hk).
Qed.
End Topo.
