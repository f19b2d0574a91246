(** [slice::sort_by]: a stable sort.  For a comparator that is a total preorder on the elements every stable
    sort gives the same result, and insertion sort is used.  For other comparators Rust leaves the result
    unspecified (a permutation of the input, or a panic); statements about such cases only use that the result is
    a permutation. *)
From Verif Require Import Base Base_lemmas.

Section Sort.
Context {A : Type} (cmp : A -> A -> comparison).
Fixpoint insert_by (x : A) (l : list A) : list A :=
  match l with
  | [] => [x]
  | y :: l' => if is_gt (cmp x y) then y :: insert_by x l' else x :: l
  end.
Fixpoint sort_by (l : list A) : list A :=
  match l with
  | [] => []
  | x :: l' => insert_by x (sort_by l')
  end.

Lemma insert_perm x l : Permutation (insert_by x l) (x :: l).
Proof.
  induction l as [|y l IH]; cbn [insert_by]; [reflexivity|].
  destruct (is_gt (cmp x y)); [|reflexivity]. rewrite IH. apply perm_swap.
Qed.
Lemma sort_perm l : Permutation (sort_by l) l.
Proof. induction l as [|x l IH]; cbn [sort_by]; [reflexivity|]. rewrite insert_perm, IH. reflexivity. Qed.
Lemma sort_in l x : In x (sort_by l) <-> In x l.
Proof. split; apply Permutation_in; [|symmetry]; apply sort_perm. Qed.
Lemma sort_length l : length (sort_by l) = length l.
Proof. apply Permutation_length, sort_perm. Qed.
Lemma sort_nil l : sort_by l = [] <-> l = [].
Proof.
  split; [|intros ->; reflexivity]. intros H. pose proof (sort_length l) as Hl. rewrite H in Hl.
  destruct l; [reflexivity|discriminate].
Qed.

(** every element is not after the later ones *)
Definition sorted_by (l : list A) : Prop :=
  forall l1 x l2 y l3, l = l1 ++ x :: l2 ++ y :: l3 -> cmp x y <> Gt.
Inductive chain : list A -> Prop :=
| chain_nil : chain []
| chain_cons x l : Forall (fun y => cmp x y <> Gt) l -> chain l -> chain (x :: l).
Lemma chain_sorted l : chain l <-> sorted_by l.
Proof.
  split.
  - induction 1 as [|x l Hx Hl IH]; intros l1 a l2 b l3 E; [destruct l1; discriminate|].
    destruct l1 as [|c l1]; injection E as -> ->.
    + rewrite Forall_forall in Hx. apply Hx. apply in_app_iff. right. left. reflexivity.
    + eapply IH. reflexivity.
  - induction l as [|x l IH]; intros H; constructor.
    + apply Forall_forall. intros y Hy. apply in_split in Hy as (l2 & l3 & ->). apply (H [] x l2 y l3). reflexivity.
    + apply IH. intros l1 a l2 b l3 ->. apply (H (x :: l1) a l2 b l3). reflexivity.
Qed.

Context (P : A -> Prop) (HP : TPO P cmp).
Lemma insert_chain x l : P x -> Forall P l -> chain l -> chain (insert_by x l).
Proof.
  intros Px Pl H. induction H as [|y l Hy Hl IH]; cbn [insert_by].
  - constructor; constructor.
  - inversion Pl as [|? ? Py Pl']; subst. destruct (is_gt (cmp x y)) eqn:E.
    + constructor; [|apply IH, Pl']. apply Forall_forall. intros z Hz.
      apply (Permutation_in _ (insert_perm x l)) in Hz as [<-|Hz].
      * rewrite (tpo_anti _ _ HP x y) by assumption. destruct (cmp x y); try discriminate E. discriminate.
      * rewrite Forall_forall in Hy. apply Hy, Hz.
    + constructor; [|constructor; assumption]. assert (cmp x y <> Gt) as Hxy by (intros X; rewrite X in E; discriminate).
      constructor; [exact Hxy|]. apply Forall_forall. intros z Hz. rewrite Forall_forall in Hy, Pl'.
      apply (tpo_trans _ _ HP x y z); auto.
Qed.
Lemma sort_chain l : Forall P l -> chain (sort_by l).
Proof.
  induction l as [|x l IH]; intros H; cbn [sort_by]; [constructor|]. inversion H as [|? ? Px Pl]; subst.
  apply insert_chain; [exact Px| |apply IH, Pl]. apply Forall_forall. intros y Hy. apply (proj1 (sort_in _ _)) in Hy.
  rewrite Forall_forall in Pl. auto.
Qed.
Lemma sort_sorted l : Forall P l -> sorted_by (sort_by l).
Proof. intros H. apply chain_sorted, sort_chain, H. Qed.

(** elements comparing equal keep their order *)
Lemma insert_stable x l a : P a -> P x -> Forall P l -> chain l ->
  filter (fun y => is_eq (cmp a y)) (insert_by x l) = filter (fun y => is_eq (cmp a y)) (x :: l).
Proof.
  intros Pa Px Pl H. induction H as [|y l Hy Hl IH]; cbn [insert_by]; [reflexivity|].
  inversion Pl as [|? ? Py Pl']; subst. destruct (is_gt (cmp x y)) eqn:E; [|reflexivity].
  cbn [filter]. rewrite IH by assumption. cbn [filter].
  destruct (is_eq (cmp a x)) eqn:Ex; [|reflexivity]. destruct (is_eq (cmp a y)) eqn:Ey; [|reflexivity].
  assert (cmp a x = Eq) as E1 by (destruct (cmp a x); try reflexivity; discriminate).
  assert (cmp a y = Eq) as E2 by (destruct (cmp a y); try reflexivity; discriminate).
  assert (cmp x y = Eq) as E3.
  { rewrite <- (tpo_eq_l HP a x y) by assumption. exact E2. }
  rewrite E3 in E. discriminate.
Qed.
Lemma sort_stable l a : P a -> Forall P l ->
  filter (fun y => is_eq (cmp a y)) (sort_by l) = filter (fun y => is_eq (cmp a y)) l.
Proof.
  intros Pa. induction l as [|x l IH]; intros H; cbn [sort_by]; [reflexivity|]. inversion H as [|? ? Px Pl]; subst.
  rewrite insert_stable; [|exact Pa|exact Px| |apply sort_chain, Pl].
  - cbn [filter]. rewrite IH by assumption. reflexivity.
  - apply Forall_forall. intros y Hy. apply (proj1 (sort_in _ _)) in Hy. rewrite Forall_forall in Pl. auto.
Qed.

(** the result is determined: any sorted list with the same elements of each class in the same order *)
Lemma stable_sorted_unique l1 : forall l2, Forall P l1 -> Forall P l2 -> chain l1 -> chain l2 ->
  Permutation l1 l2 -> (forall a, P a -> filter (fun y => is_eq (cmp a y)) l1 = filter (fun y => is_eq (cmp a y)) l2) ->
  l1 = l2.
Proof.
  induction l1 as [|x l1 IH]; intros l2 P1 P2 C1 C2 Hp Hs.
  - apply Permutation_nil in Hp. congruence.
  - destruct l2 as [|y l2]; [symmetry in Hp; apply Permutation_nil_cons in Hp as []|].
    inversion P1 as [|? ? Px P1']; inversion P2 as [|? ? Py P2']; subst.
    inversion C1 as [|? ? Cx C1']; inversion C2 as [|? ? Cy C2']; subst.
    assert (cmp x y = Eq) as Exy.
    { assert (cmp x y <> Gt) as N1.
      { assert (In y (x :: l1)) as [<-|Hin] by (apply (Permutation_in _ (Permutation_sym Hp)); left; reflexivity).
        - rewrite (tpo_refl _ _ HP) by assumption. discriminate.
        - rewrite Forall_forall in Cx. auto. }
      assert (cmp y x <> Gt) as N2.
      { assert (In x (y :: l2)) as [<-|Hin] by (apply (Permutation_in _ Hp); left; reflexivity).
        - rewrite (tpo_refl _ _ HP) by assumption. discriminate.
        - rewrite Forall_forall in Cy. auto. }
      rewrite (tpo_anti _ _ HP x y) in N2 by assumption. destruct (cmp x y); simpl in *; congruence. }
    pose proof (Hs x Px) as Hx. cbn [filter] in Hx. rewrite (tpo_refl _ _ HP), Exy in Hx by assumption.
    cbn [is_eq] in Hx. injection Hx as <- _. f_equal. apply IH; auto.
    + eapply Permutation_cons_inv. exact Hp.
    + intros a Pa. specialize (Hs a Pa). cbn [filter] in Hs. destruct (is_eq (cmp a x)); [injection Hs as Hs|]; exact Hs.
Qed.
End Sort.
