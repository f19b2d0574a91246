(** Proofs about [Config] (CF). *)
From Coq Require Import Permutation.
From Verif Require Import Base Base_lemmas Maps Json Config_model Config_spec.
Open Scope string_scope. Open Scope list_scope.

Lemma tidy_inv m : tidy (JObj m) -> NoDup (akeys m) /\ forall k x, In (k, x) m -> tidy x.
Proof. intros H. inversion H; subst. split; assumption. Qed.
Lemma tidy_get m k x : tidy (JObj m) -> aget k m = Some x -> tidy x.
Proof. intros H E. destruct (tidy_inv m H) as [_ A]. exact (A k x (aget_in k x m E)). Qed.
Lemma walk_iff p : forall j v, tidy j -> walk p j = Some v <-> at_path j p v.
Proof.
  induction p as [|k p IH]; intros j v TJ.
  - cbn [walk]. split; intros H; [injection H as <-; constructor|inversion H; reflexivity].
  - cbn [walk]. split; intros H.
    + destruct j as [| | | | |m]; try discriminate H. cbn [jget] in H. destruct (aget k m) as [x|] eqn:E; [|discriminate H].
      apply (at_below m k x p v (aget_in k x m E)). apply IH; [exact (tidy_get m k x TJ E)|exact H].
    + inversion H as [|m ? x ? ? I P]; subst. cbn [jget]. destruct (tidy_inv m TJ) as [N A]. rewrite (aget_nodup k x m N I).
      apply IH; [exact (A k x I)|exact P].
Qed.
Lemma spelled_split p : p <> [] -> Forall plain_name p -> split_on "." (spelled p) = p.
Proof. intros N F. exact (split_join "." p N F). Qed.
Lemma get_iff key j v : tidy j -> cfg_get key j = Some v <-> exists p, p <> [] /\ Forall plain_name p /\ spelled p = key /\ at_path j p v.
Proof.
  intros TJ. unfold cfg_get. rewrite (walk_iff _ j v TJ). split.
  - intros H. exists (split_on "." key). repeat split; [exact (split_on_nonnil "." key)|exact (split_on_pieces "." key)|exact (join_split "." key)|exact H].
  - intros [p [N [F [E A]]]]. subst key. rewrite (spelled_split p N F). exact A.
Qed.
Lemma get_path p j v : tidy j -> p <> [] -> Forall plain_name p -> cfg_get (spelled p) j = Some v <-> at_path j p v.
Proof. intros TJ N F. unfold cfg_get. rewrite (spelled_split p N F). exact (walk_iff p j v TJ). Qed.

(** ** merging *)
Definition both (v e : json) : json := if is_object e && is_object v then merge v e else v.
Definition mstep (m : list (text * json)) (b : text * json) : list (text * json) :=
  aput (fst b) (match aget (fst b) m with Some e => both (snd b) e | None => snd b end) m.
Lemma merge_fold n o : merge (JObj n) (JObj o) = JObj (fold_left mstep n o).
Proof.
  cbn [merge is_null]. f_equal. revert o. induction n as [|[k v] n IH]; intros o; [reflexivity|].
  cbn [fold_left]. rewrite <- IH. f_equal. unfold mstep, both. cbn [fst snd]. destruct (aget k o) as [e|]; [|reflexivity].
  destruct (is_object e && is_object v); reflexivity.
Qed.
Lemma fold_get n : forall o k, NoDup (akeys n) ->
  aget k (fold_left mstep n o) = match aget k n with Some v => Some (match aget k o with Some e => both v e | None => v end) | None => aget k o end.
Proof.
  induction n as [|[k' v] n IH]; intros o k ND; [reflexivity|]. cbn [akeys map fst] in ND. inversion ND as [|? ? NI ND']; subst.
  cbn [fold_left aget]. rewrite (IH _ k ND'). unfold mstep. cbn [fst snd]. destruct (text_eqb k k') eqn:E.
  - apply text_eqb_eq in E. subst k'. assert (aget k n = None) as -> by (apply aget_none; exact NI). apply aget_put_same.
  - rewrite aget_put_other; [reflexivity|]. intros ->. rewrite text_eqb_refl in E. discriminate E.
Qed.
Lemma fold_nodup n : forall o, NoDup (akeys o) -> NoDup (akeys (fold_left mstep n o)).
Proof. induction n as [|b n IH]; intros o N; [exact N|]. cbn [fold_left]. apply IH. apply nodup_put. exact N. Qed.
Lemma both_obj m m' : both (JObj m) (JObj m') = merge (JObj m) (JObj m').
Proof. reflexivity. Qed.
Fixpoint size (j : json) : nat :=
  match j with
  | JObj m => S ((fix go (m : list (text * json)) := match m with [] => 0 | (_, v) :: m' => size v + go m' end) m)
  | _ => 1
  end.
Lemma size_in m k x : In (k, x) m -> size x < size (JObj m).
Proof.
  intros I. cbn [size]. apply Nat.lt_succ_r. induction m as [|[k' v] m IH]; [destruct I|].
  destruct I as [E|I]; [injection E as -> ->; lia|]. specialize (IH I). lia.
Qed.
Lemma merge_tidy : forall n b a, size b < n -> tidy a -> tidy b -> tidy (merge b a).
Proof.
  induction n as [|n IH]; intros b a L TA TB; [lia|].
  destruct b as [| | | | |nb]; try (destruct a; exact TB). destruct a as [| | | | |o]; try exact TB.
  rewrite merge_fold. destruct (tidy_inv _ TA) as [NA AA]. destruct (tidy_inv _ TB) as [NB AB].
  pose proof (fold_nodup nb o NA) as NF. constructor; [exact NF|]. intros k x I.
  pose proof (aget_nodup k x _ NF I) as E. rewrite fold_get in E by exact NB.
  destruct (aget k nb) as [v|] eqn:EB.
  - pose proof (aget_in _ _ _ EB) as IB. injection E as <-. destruct (aget k o) as [e|] eqn:EO; [|exact (AB k v IB)].
    unfold both. destruct (is_object e && is_object v); [|exact (AB k v IB)].
    apply IH; [pose proof (size_in nb k v IB); lia|exact (AA k e (aget_in _ _ _ EO))|exact (AB k v IB)].
  - exact (AA k x (aget_in _ _ _ E)).
Qed.
Lemma merge_table b a : table b -> table a -> table (merge b a).
Proof. intros [n ->] [o ->]. rewrite merge_fold. eexists. reflexivity. Qed.
Lemma tidy_merge b a : tidy a -> tidy b -> tidy (merge b a).
Proof. exact (merge_tidy (S (size b)) b a (Nat.lt_succ_diag_r _)). Qed.

Lemma begins_nil p : begins [] p. Proof. exists p. reflexivity. Qed.
Lemma begins_cons k p q : begins p q -> begins (k :: p) (k :: q).
Proof. intros [r ->]. exists r. reflexivity. Qed.
Lemma begins_refl p : begins p p. Proof. exists []. rewrite app_nil_r. reflexivity. Qed.
Lemma begins_inv k p q : begins (k :: p) q -> exists q', q = k :: q' /\ begins p q'.
Proof. intros [r ->]. exists (p ++ r). split; [reflexivity|]. exists r. reflexivity. Qed.
Lemma begins_nil_inv p : begins p [] -> p = [].
Proof. intros [r E]. symmetry in E. apply app_eq_nil in E. exact (proj1 E). Qed.
Lemma settles_cons m k x p : NoDup (akeys m) -> In (k, x) m -> settles (JObj m) (k :: p) <-> settles x p.
Proof.
  intros N I. assert (U : forall y, In (k, y) m -> y = x).
  { intros y J. pose proof (aget_nodup k x m N I) as E1. pose proof (aget_nodup k y m N J) as E2. congruence. }
  split.
  - intros [[w A]|[q [w [B [A NT]]]]].
    + inversion A as [|? ? y ? ? I' A']; subst. rewrite (U y I') in A'. left. exists w. exact A'.
    + destruct q as [|k' q]; [inversion A; subst; destruct NT; eexists; reflexivity|].
      destruct (begins_inv _ _ _ B) as [q' [E B']]. injection E as <- <-. inversion A as [|? ? y ? ? I' A']; subst. rewrite (U y I') in A'.
      right. exists q, w. repeat split; assumption.
  - intros [[w A]|[q [w [B [A NT]]]]].
    + left. exists w. exact (at_below m k x p w I A).
    + right. exists (k :: q), w. repeat split; [apply begins_cons; exact B|exact (at_below m k x q w I A)|exact NT].
Qed.
Lemma settles_none m k p : ~ In k (akeys m) -> ~ settles (JObj m) (k :: p).
Proof.
  intros NI [[w A]|[q [w [B [A NT]]]]].
  - inversion A as [|? ? y ? ? I' A']; subst. apply NI. apply in_map_iff. exists (k, y). split; [reflexivity|exact I'].
  - destruct q as [|k' q]; [inversion A; subst; destruct NT; eexists; reflexivity|].
    destruct (begins_inv _ _ _ B) as [q' [E B']]. injection E as <- <-. inversion A as [|? ? y ? ? I' A']; subst.
    apply NI. apply in_map_iff. exists (k, y). split; [reflexivity|exact I'].
Qed.
Lemma settles_leaf j p : ~ table j -> settles j p.
Proof. intros N. right. exists [], j. repeat split; [apply begins_nil|constructor|exact N]. Qed.
Lemma not_object j : is_object j = false -> ~ table j.
Proof. intros H [m ->]. discriminate H. Qed.
Lemma is_object_table j : is_object j = true -> table j.
Proof. destruct j; try discriminate. intros _. eexists. reflexivity. Qed.
(** a setting of the merged tree is one of the tree merged in, or one of the other that the first says nothing about *)
Lemma merge_leaf p : forall a b v, tidy a -> tidy b -> table a -> table b -> ~ table v ->
  at_path (merge b a) p v <-> at_path b p v \/ (at_path a p v /\ ~ settles b p).
Proof.
  induction p as [|k p IH]; intros a b v TA TB [o ->] [n ->] NT.
  - split.
    + intros H. inversion H; subst. destruct NT. apply merge_table; eexists; reflexivity.
    + intros [H|[H _]]; inversion H; subst; destruct NT; eexists; reflexivity.
  - pose proof (tidy_merge (JObj n) (JObj o) TA TB) as TM. rewrite <- (walk_iff _ _ _ TM), <- (walk_iff _ _ _ TA), <- (walk_iff _ _ _ TB).
    rewrite merge_fold. cbn [walk jget]. destruct (tidy_inv _ TA) as [NA AA]. destruct (tidy_inv _ TB) as [NB AB]. rewrite fold_get by exact NB.
    destruct (aget k n) as [y|] eqn:EN.
    + pose proof (aget_in _ _ _ EN) as IN. pose proof (AB k y IN) as TY. rewrite (settles_cons n k y p NB IN).
      destruct (aget k o) as [x|] eqn:EO.
      * pose proof (AA k x (aget_in _ _ _ EO)) as TX. unfold both. destruct (is_object x) eqn:OX; cbn [andb].
        -- destruct (is_object y) eqn:OY.
           ++ rewrite (walk_iff _ _ _ (tidy_merge y x TX TY)), (walk_iff _ _ _ TX), (walk_iff _ _ _ TY).
              apply IH; [assumption..|exact (is_object_table x OX)|exact (is_object_table y OY)|exact NT].
           ++ pose proof (settles_leaf y p (not_object y OY)) as S. tauto.
        -- split; [tauto|]. intros [H|[H NS]]; [exact H|]. exfalso. apply (walk_iff _ _ _ TX) in H. destruct p as [|k' p].
           ++ apply NS. left. exists y. constructor.
           ++ inversion H; subst. discriminate OX.
      * split; [tauto|]. intros [H|[H _]]; [exact H|discriminate H].
    + assert (NI : ~ In k (akeys n)) by (apply aget_none; exact EN). pose proof (settles_none n k p NI) as S.
      split; [intros H; right; split; [exact H|exact S]|]. intros [H|[H _]]; [discriminate H|exact H].
Qed.
