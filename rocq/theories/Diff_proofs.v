(** Facts about comparisons of lists of packages. *)
From Verif Require Import Base Base_lemmas Version_model Version_order Maps Sorting Requirement_model Requirement_spec Package_model Order_spec Diff_model Diff_spec.
Open Scope string_scope.
Open Scope list_scope.

(** ** the map of versions *)
Definition vstep (m : list (text * version)) (p : package) := match p_version p with Some v => aput (p_name p) v m | None => m end.
Lemma version_map_snoc l p : version_map (l ++ [p]) = vstep (version_map l) p.
Proof. unfold version_map. rewrite fold_left_app. reflexivity. Qed.
Lemma version_map_nodup l : NoDup (akeys (version_map l)).
Proof.
  induction l as [|p l IH] using rev_ind; [constructor|]. rewrite version_map_snoc. unfold vstep.
  destruct (p_version p); [apply nodup_put, IH|exact IH].
Qed.
Lemma text_dec (a b : text) : {a = b} + {a <> b}.
Proof. apply list_eq_dec, ascii_dec. Qed.
Lemma absent_snoc l p n : absent (l ++ [p]) n <-> absent l n /\ (p_name p = n -> p_version p = None).
Proof.
  split.
  - intros H. split; [intros q I; apply H, in_or_app; left; exact I|]. apply H, in_or_app. right. left. reflexivity.
  - intros [H K] q I E. apply in_app_iff in I as [I|[<-|[]]]; [exact (H q I E)|exact (K E)].
Qed.
Lemma current_snoc l p n v : current (l ++ [p]) n v <->
  (p_name p = n /\ p_version p = Some v) \/ ((p_name p = n -> p_version p = None) /\ current l n v).
Proof.
  split.
  - intros (l1 & q & l2 & E & N & V & A). destruct (rev l2) as [|r k] eqn:R.
    + apply (f_equal (@rev _)) in R. rewrite rev_involutive in R. subst l2. apply app_inj_tail in E as [_ <-]. left. split; assumption.
    + apply (f_equal (@rev _)) in R. rewrite rev_involutive in R. cbn [rev] in R. subst l2.
      change (l1 ++ q :: rev k ++ [r]) with (l1 ++ (q :: rev k) ++ [r]) in E. rewrite app_assoc in E. apply app_inj_tail in E as [-> <-].
      apply absent_snoc in A as [A B]. right. split; [exact B|]. exists l1, q, (rev k). repeat split; assumption.
  - intros [[N V]|[B (l1 & q & l2 & -> & N & V & A)]].
    + exists l, p, []. repeat split; try assumption. intros r [].
    + exists l1, q, (l2 ++ [p]). rewrite <- app_assoc. repeat split; try assumption. apply absent_snoc. split; assumption.
Qed.
Lemma version_map_get l n : match aget n (version_map l) with Some v => current l n v | None => absent l n end.
Proof.
  induction l as [|p l IH] using rev_ind; [intros q []|]. rewrite version_map_snoc. unfold vstep.
  destruct (p_version p) as [v|] eqn:V.
  - destruct (text_dec n (p_name p)) as [->|D].
    + rewrite aget_put_same. apply current_snoc. left. split; [reflexivity|exact V].
    + rewrite aget_put_other by exact D. destruct (aget n (version_map l)).
      * apply current_snoc. right. split; [intros E; exfalso; apply D; symmetry; exact E|exact IH].
      * apply absent_snoc. split; [exact IH|intros E; exfalso; apply D; symmetry; exact E].
  - destruct (aget n (version_map l)).
    + apply current_snoc. right. split; [intros _; exact V|exact IH].
    + apply absent_snoc. split; [exact IH|intros _; exact V].
Qed.
Lemma absent_current l n v : absent l n -> current l n v -> False.
Proof. intros A (l1 & p & l2 & -> & N & V & _). rewrite (A p) in V by (try assumption; apply in_elt). discriminate V. Qed.
Lemma current_one l n v w : current l n v -> current l n w -> v = w.
Proof.
  revert v w. induction l as [|p l IH] using rev_ind; intros v w A B.
  - destruct A as (l1 & p & l2 & E & _). destruct l1; discriminate E.
  - apply current_snoc in A, B. destruct A as [[N V]|[N A]], B as [[N' V']|[N' B]]; try congruence.
    + rewrite (N' N) in V. discriminate V.
    + rewrite (N N') in V'. discriminate V'.
    + apply IH; assumption.
Qed.
Lemma get_current l n v : aget n (version_map l) = Some v <-> current l n v.
Proof.
  pose proof (version_map_get l n) as H. split.
  - intros E. rewrite E in H. exact H.
  - intros C. destruct (aget n (version_map l)) as [w|]; [f_equal; apply (current_one l n); assumption|]. destruct (absent_current _ _ _ H C).
Qed.
Lemma get_absent l n : aget n (version_map l) = None <-> absent l n.
Proof.
  pose proof (version_map_get l n) as H. split.
  - intros E. rewrite E in H. exact H.
  - intros A. destruct (aget n (version_map l)) as [w|]; [destruct (absent_current _ _ _ A H)|reflexivity].
Qed.
Lemma in_current l n v : In (n, v) (version_map l) <-> current l n v.
Proof.
  rewrite <- get_current. split; [apply aget_nodup, version_map_nodup|apply aget_in].
Qed.
Lemma has_false l n : ahas n (version_map l) = false <-> absent l n.
Proof. rewrite <- get_absent. unfold ahas. destruct (aget n (version_map l)); split; congruence. Qed.
Lemma present l n : absent l n \/ exists v, current l n v.
Proof. pose proof (version_map_get l n) as H. destruct (aget n (version_map l)) as [v|]; [right; exists v; exact H|left; exact H]. Qed.

(** ** the entries *)
Lemma cmp_opp a b : vcmp b a = CompOpp (vcmp a b).
Proof. apply vcmp_anti. Qed.
Lemma classify_entry old new n a b : current old n a -> current new n b ->
  entry old new (mkDiff n (Some (v_str a)) (Some (v_str b)) (classify a b)).
Proof.
  intros A B. unfold classify. destruct (text_eqb (v_str b) (v_str a)) eqn:E.
  - apply text_eqb_eq in E. apply e_same; [assumption..|congruence].
  - assert (D : v_str a <> v_str b) by (intros X; symmetry in X; apply text_eqb_eq in X; congruence).
    rewrite (cmp_opp a b). destruct (vcmp a b) eqn:C; cbn [CompOpp]; [apply e_down|apply e_up|apply e_down]; try assumption; congruence.
Qed.
Section Orders.
Context (o1 o2 : list (text * version) -> list (text * version)).
Hypothesis P1 : forall l, Permutation (o1 l) l.
Hypothesis P2 : forall l, Permutation (o2 l) l.
Lemma o1_in l x : In x (o1 l) <-> In x l.
Proof. split; apply Permutation_in; [|symmetry]; apply P1. Qed.
Lemma o2_in l x : In x (o2 l) <-> In x l.
Proof. split; apply Permutation_in; [|symmetry]; apply P2. Qed.

Lemma compute_entries old new d : In d (compute_diff o1 o2 old new) <-> entry old new d.
Proof.
  unfold compute_diff. rewrite sort_in, !in_app_iff. unfold removed_diffs, added_diffs, both_diffs. rewrite !in_flat_map. split.
  - intros [((n, v) & I & H)|[((n, v) & I & H)|((n, v) & I & H)]]; cbn [fst snd] in H.
    + apply o1_in, in_current in I. destruct (ahas n (version_map new)) eqn:E; [destruct H|]. destruct H as [<-|[]]. apply e_removed; [exact I|apply has_false, E].
    + apply o2_in, in_current in I. destruct (ahas n (version_map old)) eqn:E; [destruct H|]. destruct H as [<-|[]]. apply e_added; [apply has_false, E|exact I].
    + apply o2_in, in_current in I. destruct (aget n (version_map old)) as [a|] eqn:E; [|destruct H]. destruct H as [<-|[]].
      apply classify_entry; [apply get_current, E|exact I].
  - assert (K : forall n a b, current old n a -> current new n b -> exists x, In x (o2 (version_map new)) /\
      In (mkDiff n (Some (v_str a)) (Some (v_str b)) (classify a b)) (match aget (fst x) (version_map old) with
        | Some o => [mkDiff (fst x) (Some (v_str o)) (Some (v_str (snd x))) (classify o (snd x))] | None => [] end)).
    { intros n a b A B. exists (n, b). split; [apply o2_in, in_current, B|]. cbn [fst snd]. apply get_current in A. rewrite A. left. reflexivity. }
    intros [n v A C|n v C A|n a b A B E|n a b A B N E|n a b A B N E].
    + right. left. exists (n, v). split; [apply o2_in, in_current, C|]. cbn [fst snd]. apply has_false in A. rewrite A. left. reflexivity.
    + left. exists (n, v). split; [apply o1_in, in_current, C|]. cbn [fst snd]. apply has_false in A. rewrite A. left. reflexivity.
    + right. right. replace Unchanged with (classify a b); [apply K; assumption|]. unfold classify. rewrite (proj2 (text_eqb_eq _ _)) by congruence. reflexivity.
    + right. right. replace Upgraded with (classify a b); [apply K; assumption|]. unfold classify.
      destruct (text_eqb (v_str b) (v_str a)) eqn:X; [apply text_eqb_eq in X; congruence|]. rewrite (cmp_opp a b), E. reflexivity.
    + right. right. replace Downgraded with (classify a b); [apply K; assumption|]. unfold classify.
      destruct (text_eqb (v_str b) (v_str a)) eqn:X; [apply text_eqb_eq in X; congruence|]. rewrite (cmp_opp a b). destruct (vcmp a b); try reflexivity. congruence.
Qed.

Lemma nodup_flat {A B} (key : B -> text) (f : A -> list B) (k : A -> text) l :
  (forall x y, In y (f x) -> key y = k x) -> (forall x, length (f x) <= 1) -> NoDup (map k l) -> NoDup (map key (flat_map f l)).
Proof.
  intros K L N. induction l as [|x l IH]; [constructor|]. cbn [flat_map map] in *. inversion N as [|? ? NI N']; subst. rewrite map_app.
  specialize (IH N'). specialize (L x). pose proof (K x) as Kx. destruct (f x) as [|y [|z r]]; [exact IH| |cbn in L; lia].
  cbn [map app]. constructor; [|exact IH]. rewrite (Kx y) by (left; reflexivity). intros I. apply NI.
  apply in_map_iff in I as (z & E & I). apply in_flat_map in I as (w & Iw & Iz). apply in_map_iff. exists w. split; [|exact Iw]. rewrite <- (K w z Iz). exact E.
Qed.
Lemma perm_keys (o : list (text * version) -> list (text * version)) l : (forall l, Permutation (o l) l) -> NoDup (akeys l) -> NoDup (map fst (o l)).
Proof. intros P N. eapply Permutation_NoDup; [|exact N]. unfold akeys. apply Permutation_map. symmetry. apply P. Qed.
Lemma nodup_app_intro {A} (a b : list A) : NoDup a -> NoDup b -> (forall x, In x a -> ~ In x b) -> NoDup (a ++ b).
Proof.
  intros A1 B1 D. induction A1 as [|x a NI A1 IH]; [exact B1|]. cbn [app]. constructor.
  - rewrite in_app_iff. intros [H|H]; [exact (NI H)|]. apply (D x); [left; reflexivity|exact H].
  - apply IH. intros y I. apply D. right. exact I.
Qed.
Lemma raw_names old new : NoDup (map d_name (removed_diffs o1 (version_map old) (version_map new) ++ added_diffs o2 (version_map old) (version_map new) ++ both_diffs o2 (version_map old) (version_map new))).
Proof.
  set (om := version_map old). set (nm := version_map new).
  assert (KO : NoDup (map fst (o1 om))) by (apply perm_keys; [exact P1|apply version_map_nodup]).
  assert (KN : NoDup (map fst (o2 nm))) by (apply perm_keys; [exact P2|apply version_map_nodup]).
  rewrite !map_app. apply nodup_app_intro; [|apply nodup_app_intro|].
  - apply (nodup_flat d_name _ fst); [| |exact KO].
    + intros x y I. destruct (ahas (fst x) nm); [destruct I|destruct I as [<-|[]]; reflexivity].
    + intros x. destruct (ahas (fst x) nm); cbn; lia.
  - apply (nodup_flat d_name _ fst); [| |exact KN].
    + intros x y I. destruct (ahas (fst x) om); [destruct I|destruct I as [<-|[]]; reflexivity].
    + intros x. destruct (ahas (fst x) om); cbn; lia.
  - apply (nodup_flat d_name _ fst); [| |exact KN].
    + intros x y I. destruct (aget (fst x) om); [destruct I as [<-|[]]; reflexivity|destruct I].
    + intros x. destruct (aget (fst x) om); cbn; lia.
  - intros n A B. apply in_map_iff in A as (d & <- & A), B as (e & E & B). apply in_flat_map in A as ((x, v) & _ & A), B as ((y, w) & _ & B). cbn [fst snd] in A, B. unfold ahas in A.
    destruct (aget x om) as [u|] eqn:X; [destruct A|]. destruct A as [<-|[]]. destruct (aget y om) as [u|] eqn:Y; [|destruct B]. destruct B as [<-|[]]. cbn in E. congruence.
  - intros n A B. apply in_map_iff in A as (d & <- & A). apply in_flat_map in A as ((x, v) & _ & A). cbn [fst snd] in A. destruct (ahas x nm) eqn:X; [destruct A|]. destruct A as [<-|[]]. cbn [d_name] in B.
    apply in_app_iff in B as [B|B]; apply in_map_iff in B as (e & E & B); apply in_flat_map in B as ((y, w) & I & B); cbn [fst snd] in B; apply (proj1 (o2_in nm (y, w))) in I;
      assert (Hy : ahas y nm = true) by (apply ahas_in; apply in_map_iff; exists (y, w); split; [reflexivity|exact I]).
    + destruct (ahas y om); [destruct B|]. destruct B as [<-|[]]. cbn in E. congruence.
    + destruct (aget y om); [|destruct B]. destruct B as [<-|[]]. cbn in E. congruence.
Qed.
Lemma compute_names old new : NoDup (map d_name (compute_diff o1 o2 old new)).
Proof. eapply Permutation_NoDup; [|apply (raw_names old new)]. apply Permutation_map. symmetry. apply sort_perm. Qed.
End Orders.

(** ** the order *)
Lemma TPO_diff : TPO (fun _ => True) diff_cmp.
Proof.
  assert (R : forall a, diff_cmp a a = Eq) by (intros a; unfold diff_cmp; rewrite Nat.compare_refl; apply text_cmp_eq; reflexivity).
  assert (A : forall a b, diff_cmp b a = CompOpp (diff_cmp a b)).
  { intros a b. unfold diff_cmp. rewrite (Nat.compare_antisym (rank (d_change a)) (rank (d_change b))). destruct (Nat.compare (rank (d_change a)) (rank (d_change b))); cbn [CompOpp]; try reflexivity.
    apply (tpo_anti _ _ TPO_text); exact I. }
  constructor.
  - intros x _. apply R.
  - intros x y _ _. apply A.
  - intros x y z _ _ _ H K. unfold diff_cmp in *. destruct (Nat.compare_spec (rank (d_change x)) (rank (d_change y))) as [E1|E1|E1]; try congruence;
    destruct (Nat.compare_spec (rank (d_change y)) (rank (d_change z))) as [E2|E2|E2]; try congruence;
    destruct (Nat.compare_spec (rank (d_change x)) (rank (d_change z))) as [E3|E3|E3]; try lia; try congruence.
    apply (tpo_trans _ _ TPO_text (d_name x) (d_name y) (d_name z)); (exact I || assumption).
Qed.
Lemma rank_place a b : rank a < rank b -> place a < place b.
Proof. destruct a, b; cbn; lia. Qed.
Lemma rank_inj a b : rank a = rank b -> a = b.
Proof. destruct a, b; cbn; congruence. Qed.
Lemma compute_sorted o1 o2 (P1 : forall l, Permutation (o1 l) l) (P2 : forall l, Permutation (o2 l) l) old new : pairwise listed_before (compute_diff o1 o2 old new).
Proof.
  intros l1 x l2 y l3 E. pose proof (compute_names o1 o2 P1 P2 old new) as N. unfold compute_diff in *.
  set (raw := removed_diffs _ _ _ ++ _) in *.
  assert (S : diff_cmp x y <> Gt) by (apply (sort_sorted diff_cmp (fun _ => True) TPO_diff raw) in E; [exact E|apply Forall_forall; intros; exact I]).
  rewrite E in N. rewrite map_app in N. cbn [map] in N. rewrite map_app in N. cbn [map] in N.
  assert (D : d_name x <> d_name y).
  { apply NoDup_remove_2 in N. intros X. apply N. rewrite X. apply in_or_app. right. apply in_or_app. right. left. reflexivity. }
  unfold diff_cmp in S. destruct (Nat.compare_spec (rank (d_change x)) (rank (d_change y))) as [E1|E1|E1]; [|left; apply rank_place, E1|congruence].
  right. split; [apply rank_inj, E1|]. destruct (text_cmp (d_name x) (d_name y)) eqn:C; [apply text_cmp_eq in C; contradiction|reflexivity|congruence].
Qed.
Lemma place_rank a b : place a < place b -> rank a < rank b.
Proof. destruct a, b; cbn; lia. Qed.
Lemma before_lt a b : listed_before a b -> diff_cmp a b = Lt.
Proof.
  intros [H|[H K]]; unfold diff_cmp.
  - apply place_rank in H. apply Nat.compare_lt_iff in H. rewrite H. reflexivity.
  - rewrite H, Nat.compare_refl. exact K.
Qed.
(** two lists in this order with the same members are equal *)
Lemma order_unique a : forall b, pairwise listed_before a -> pairwise listed_before b -> (forall d, In d a <-> In d b) -> a = b.
Proof.
  assert (IR : forall d, ~ listed_before d d) by (intros d H; apply before_lt in H; rewrite (tpo_refl _ _ TPO_diff) in H by exact I; discriminate H).
  assert (AS : forall d e, listed_before d e -> ~ listed_before e d).
  { intros d e H K. apply before_lt in H, K. rewrite (tpo_anti _ _ TPO_diff d e I I), H in K. discriminate K. }
  assert (HD : forall x l y, pairwise listed_before (x :: l) -> In y l -> listed_before x y).
  { intros x l y W J. apply in_split in J as (l2 & l3 & ->). exact (W [] x l2 y l3 eq_refl). }
  assert (TL : forall x l, pairwise listed_before (x :: l) -> pairwise listed_before l) by (intros x l W l1 p l2 q l3 ->; exact (W (x :: l1) p l2 q l3 eq_refl)).
  induction a as [|x a IH]; intros b A B M.
  - destruct b as [|y b]; [reflexivity|]. destruct (proj2 (M y) (or_introl eq_refl)).
  - destruct b as [|y b]; [destruct (proj1 (M x) (or_introl eq_refl))|].
    assert (x = y).
    { destruct (proj1 (M x) (or_introl eq_refl)) as [->|X]; [reflexivity|]. destruct (proj2 (M y) (or_introl eq_refl)) as [->|Y]; [reflexivity|].
      exfalso. exact (AS x y (HD x a y A Y) (HD y b x B X)). }
    subst y. f_equal. apply IH; [exact (TL x a A)|exact (TL x b B)|]. intros d. split; intros J.
    + destruct (proj1 (M d) (or_intror J)) as [<-|K]; [destruct (IR x (HD x a x A J))|exact K].
    + destruct (proj2 (M d) (or_intror J)) as [<-|K]; [destruct (IR x (HD x b x B J))|exact K].
Qed.
Lemma compute_fixed o1 o2 u1 u2 (P1 : forall l, Permutation (o1 l) l) (P2 : forall l, Permutation (o2 l) l) (Q1 : forall l, Permutation (u1 l) l) (Q2 : forall l, Permutation (u2 l) l) old new :
  compute_diff o1 o2 old new = compute_diff u1 u2 old new.
Proof. apply order_unique; try (apply compute_sorted; assumption). intros d. rewrite !compute_entries by assumption. reflexivity. Qed.

(** ** counting *)
Lemma counted_filter {A} (P : A -> Prop) f l : (forall x, f x = true <-> P x) -> counted P l (length (filter f l)).
Proof.
  intros H. induction l as [|x l IH]; [constructor|]. cbn [filter]. destruct (f x) eqn:E; [cbn [length]; constructor; [apply H, E|exact IH]|].
  constructor; [|exact IH]. intros Px. apply H in Px. congruence.
Qed.
Lemma is_change_iff c d : is_change c d = true <-> d_change d = c.
Proof. unfold is_change. rewrite Nat.eqb_eq. split; [apply rank_inj|intros ->; reflexivity]. Qed.
Lemma counts_sum ds : let s := summarise ds in n_added s + n_removed s + n_upgraded s + n_downgraded s + n_unchanged s = length ds.
Proof.
  cbn [summarise n_added n_removed n_upgraded n_downgraded n_unchanged]. induction ds as [|d ds IH]; [reflexivity|].
  assert (K : forall c, length (filter (is_change c) (d :: ds)) = (if is_change c d then 1 else 0) + length (filter (is_change c) ds)) by (intros c; cbn [filter]; destruct (is_change c d); reflexivity).
  rewrite !K. unfold is_change at 1 3 5 7 9. cbn [length]. destruct (d_change d); cbn [rank Nat.eqb]; lia.
Qed.
Lemma count_zero {A} (f : A -> bool) l : Nat.eqb (length (filter f l)) 0 = true <-> forall x, In x l -> f x = false.
Proof.
  rewrite Nat.eqb_eq. split.
  - intros H x I. destruct (f x) eqn:E; [|reflexivity]. assert (J : In x (filter f l)) by (apply filter_In; split; assumption). destruct (filter f l); [destruct J|discriminate H].
  - intros H. induction l as [|x l IH]; [reflexivity|]. cbn [filter]. rewrite (H x) by (left; reflexivity). apply IH. intros y I. apply H. right. exact I.
Qed.
Lemma identical_iff ds : is_identical (summarise ds) = true <-> forall d, In d ds -> d_change d = Unchanged.
Proof.
  unfold is_identical. cbn [summarise n_added n_removed n_upgraded n_downgraded]. rewrite !andb_true_iff, !count_zero. split.
  - intros (((A & B) & C) & D) d J. specialize (A d J). specialize (B d J). specialize (C d J). specialize (D d J). unfold is_change in *. destruct (d_change d); (reflexivity || discriminate).
  - intros H. repeat split; intros d J; unfold is_change; rewrite (H d J); reflexivity.
Qed.
Lemma identical_names o1 o2 (P1 : forall l, Permutation (o1 l) l) (P2 : forall l, Permutation (o2 l) l) old new :
  is_identical (summarise (compute_diff o1 o2 old new)) = true <->
  forall n, (absent old n /\ absent new n) \/ exists a b, current old n a /\ current new n b /\ v_str a = v_str b.
Proof.
  rewrite identical_iff. split.
  - intros H n. destruct (present old n) as [A|(a & A)], (present new n) as [B|(b & B)].
    + left. split; assumption.
    + assert (X : Added = Unchanged) by (apply (H (mkDiff n None (Some (v_str b)) Added)); apply compute_entries; [assumption..|apply e_added; assumption]). discriminate X.
    + assert (X : Removed = Unchanged) by (apply (H (mkDiff n (Some (v_str a)) None Removed)); apply compute_entries; [assumption..|apply e_removed; assumption]). discriminate X.
    + right. exists a, b. repeat split; try assumption. pose proof (classify_entry old new n a b A B) as E. apply (compute_entries o1 o2 P1 P2) in E. apply H in E. cbn [d_change] in E.
      unfold classify in E. destruct (text_eqb (v_str b) (v_str a)) eqn:X; [apply text_eqb_eq in X; congruence|]. destruct (vcmp b a); discriminate E.
  - intros H d J. apply compute_entries in J; try assumption.
    destruct J as [n v A C|n v C A|n a b A B E|n a b A B N E|n a b A B N E]; [| |reflexivity|..]; cbn [d_change]; exfalso; destruct (H n) as [[X Y]|(x & y & X & Y & Z)].
    + exact (absent_current _ _ _ Y C).
    + exact (absent_current _ _ _ A X).
    + exact (absent_current _ _ _ X C).
    + exact (absent_current _ _ _ A Y).
    + exact (absent_current _ _ _ X A).
    + apply N. rewrite (current_one _ _ _ _ A X), (current_one _ _ _ _ B Y). exact Z.
    + exact (absent_current _ _ _ X A).
    + apply N. rewrite (current_one _ _ _ _ A X), (current_one _ _ _ _ B Y). exact Z.
Qed.
Lemma usual_current l n v : usual_list l -> (current l n v <-> exists p, In p l /\ p_name p = n /\ p_version p = Some v).
Proof.
  intros [N V]. split.
  - intros (l1 & p & l2 & -> & Np & Vp & _). exists p. split; [apply in_elt|split; assumption].
  - intros (p & J & Np & Vp). apply in_split in J as (l1 & l2 & ->). exists l1, p, l2. repeat split; try assumption.
    intros q J Nq. exfalso. rewrite map_app in N. cbn [map] in N. apply NoDup_remove_2 in N. apply N. rewrite Np, <- Nq. apply in_or_app. right. apply in_map, J.
Qed.
Lemma identical_usual o1 o2 (P1 : forall l, Permutation (o1 l) l) (P2 : forall l, Permutation (o2 l) l) old new : usual_list old -> usual_list new ->
  (is_identical (summarise (compute_diff o1 o2 old new)) = true <-> forall n s, shown_in old n s <-> shown_in new n s).
Proof.
  intros U W. rewrite (identical_names o1 o2 P1 P2).
  assert (SC : forall l n s, usual_list l -> (shown_in l n s <-> exists v, current l n v /\ v_str v = s)).
  { intros l n s Ul. split.
    - intros (p & v & J & Np & Vp & E). exists v. split; [apply usual_current; [exact Ul|exists p; repeat split; assumption]|exact E].
    - intros (v & C & E). apply usual_current in C as (p & J & Np & Vp); [|exact Ul]. exists p, v. repeat split; assumption. }
  split.
  - intros H n s. rewrite !SC by assumption. destruct (H n) as [[A B]|(a & b & A & B & E)].
    + split; intros (v & C & _); exfalso; [exact (absent_current _ _ _ A C)|exact (absent_current _ _ _ B C)].
    + split; intros (v & C & Ev); [exists b|exists a]; (split; [assumption|]); [rewrite <- (current_one _ _ _ _ A C) in Ev|rewrite <- (current_one _ _ _ _ B C) in Ev]; congruence.
  - intros H n. destruct (present old n) as [A|(a & A)], (present new n) as [B|(b & B)].
    + left. split; assumption.
    + exfalso. assert (K : shown_in old n (v_str b)) by (apply H, SC; [exact W|exists b; split; [exact B|reflexivity]]). apply SC in K as (v & C & _); [|exact U]. exact (absent_current _ _ _ A C).
    + exfalso. assert (K : shown_in new n (v_str a)) by (apply H, SC; [exact U|exists a; split; [exact A|reflexivity]]). apply SC in K as (v & C & _); [|exact W]. exact (absent_current _ _ _ B C).
    + right. exists a, b. repeat split; try assumption. assert (K : shown_in new n (v_str a)) by (apply H, SC; [exact U|exists a; split; [exact A|reflexivity]]).
      apply SC in K as (v & C & E); [|exact W]. rewrite (current_one _ _ _ _ B C). symmetry. exact E.
Qed.

(** ** the other way round *)
Lemma current_in l n v : current l n v -> exists p, In p l /\ p_name p = n /\ p_version p = Some v.
Proof. intros (l1 & p & l2 & -> & N & V & _). exists p. split; [apply in_elt|split; assumption]. Qed.
Lemma entry_turned old new d : written_alike old new -> entry old new d -> entry new old (turned d).
Proof.
  intros H [n v A C|n v C A|n a b A B E|n a b A B N E|n a b A B N E]; unfold turned; cbn [d_name d_old d_new d_change turned_change].
  - apply e_removed; assumption.
  - apply e_added; assumption.
  - apply e_same; [assumption..|congruence].
  - apply e_down; [assumption..|congruence|]. rewrite (cmp_opp a b), E. discriminate.
  - apply e_up; [assumption..|congruence|]. rewrite (cmp_opp a b). destruct (vcmp a b) eqn:C; [|congruence|reflexivity].
    exfalso. apply N. destruct (current_in _ _ _ A) as (p & Jp & Np & Vp), (current_in _ _ _ B) as (q & Jq & Nq & Vq). apply (H p q a b); congruence.
Qed.
Lemma turned_turned d : turned (turned d) = d.
Proof. destruct d as [n o w []]; reflexivity. Qed.
Lemma alike_sym old new : written_alike old new -> written_alike new old.
Proof.
  intros H p q a b Jp Jq N Vp Vq C. symmetry. apply (H q p b a); try assumption; [symmetry; exact N|]. rewrite (cmp_opp a b), C. reflexivity.
Qed.
Lemma compute_turned o1 o2 u1 u2 (P1 : forall l, Permutation (o1 l) l) (P2 : forall l, Permutation (o2 l) l) (Q1 : forall l, Permutation (u1 l) l) (Q2 : forall l, Permutation (u2 l) l) old new d :
  written_alike old new -> (In d (compute_diff o1 o2 old new) <-> In (turned d) (compute_diff u1 u2 new old)).
Proof.
  intros H. rewrite !compute_entries by assumption. split; intros E; [apply entry_turned; assumption|].
  apply entry_turned in E; [|apply alike_sym, H]. rewrite turned_turned in E. exact E.
Qed.

(** ** the text *)
Lemma format_changes ds : (forall d, In d ds -> d_change d <> Unchanged -> exists s, diff_line d = Some s /\ line_says d s) ->
  Forall2 line_says (changed_diffs (summarise ds)) (flat_map (fun x => match diff_line x with Some s => [s] | None => [] end) ds).
Proof.
  unfold changed_diffs. cbn [summarise c_diffs]. induction ds as [|d ds IH]; intros H; [constructor|]. cbn [filter flat_map].
  assert (Hd : is_change Unchanged d = true \/ d_change d <> Unchanged) by (destruct (is_change Unchanged d) eqn:E; [left; reflexivity|right; intros X; apply is_change_iff in X; congruence]).
  specialize (IH (fun e J => H e (or_intror J))). destruct Hd as [E|N].
  - rewrite E. cbn [negb]. apply is_change_iff in E. unfold diff_line at 1. rewrite E. exact IH.
  - destruct (H d (or_introl eq_refl) N) as (s & E & L). rewrite E. destruct (is_change Unchanged d) eqn:X; [apply is_change_iff in X; contradiction|]. cbn [negb app]. constructor; assumption.
Qed.
Lemma entry_line old new d : entry old new d -> d_change d <> Unchanged -> exists s, diff_line d = Some s /\ line_says d s.
Proof. intros [n v A C|n v C A|n a b A B E|n a b A B N E|n a b A B N E] X; try (exfalso; apply X; reflexivity); eexists; (split; [reflexivity|constructor]). Qed.
Lemma changed_none ds : changed_diffs (summarise ds) = [] <-> is_identical (summarise ds) = true.
Proof.
  rewrite identical_iff. unfold changed_diffs. cbn [summarise c_diffs]. split.
  - intros H d J. destruct (is_change Unchanged d) eqn:E; [apply is_change_iff, E|]. assert (K : In d (filter (fun x => negb (is_change Unchanged x)) ds)) by (apply filter_In; split; [exact J|rewrite E; reflexivity]). rewrite H in K. destruct K.
  - intros H. induction ds as [|d ds IH]; [reflexivity|]. cbn [filter]. rewrite (proj2 (is_change_iff Unchanged d)) by (apply H; left; reflexivity). apply IH. intros e J. apply H. right. exact J.
Qed.
Lemma format_entries o1 o2 (P1 : forall l, Permutation (o1 l) l) (P2 : forall l, Permutation (o2 l) l) old new : let d := summarise (compute_diff o1 o2 old new) in
  (is_identical d = true -> format_lines d = [T "  (no changes)"]) /\ (is_identical d = false -> Forall2 line_says (changed_diffs d) (format_lines d)).
Proof.
  cbn zeta. pose proof (format_changes (compute_diff o1 o2 old new)) as F. pose proof (changed_none (compute_diff o1 o2 old new)) as C.
  assert (H : forall d, In d (compute_diff o1 o2 old new) -> d_change d <> Unchanged -> exists s, diff_line d = Some s /\ line_says d s).
  { intros d J. apply (entry_line old new). apply (compute_entries o1 o2 P1 P2), J. }
  specialize (F H). unfold format_lines. cbn [summarise c_diffs] in *. set (lines := flat_map _ _) in *. split; intros E.
  - apply C in E. cbn [summarise] in F. rewrite E in F. inversion F. reflexivity.
  - destruct lines as [|x l] eqn:L; [|exact F]. inversion F as [X|]. symmetry in X. apply C in X. cbn [summarise] in X. congruence.
Qed.
