(** Association lists with text keys: the model of [HashMap<String, _>] and [BTreeMap<String, _>].
    A map is a list of bindings; [aput] replaces or appends, so keys stay distinct.  The order in which a
    [HashMap] is iterated is never read off the list: definitions that iterate take the order as an argument. *)
From Verif Require Import Base Base_lemmas.

Section Map.
Context {A : Type}.
(** [HashMap::get] *)
Fixpoint aget (k : text) (m : list (text * A)) : option A :=
  match m with
  | [] => None
  | (k', v) :: m' => if text_eqb k k' then Some v else aget k m'
  end.
(** [HashMap::insert] *)
Fixpoint aput (k : text) (v : A) (m : list (text * A)) : list (text * A) :=
  match m with
  | [] => [(k, v)]
  | (k', v') :: m' => if text_eqb k k' then (k, v) :: m' else (k', v') :: aput k v m'
  end.
(** [HashMap::remove] *)
Definition adel (k : text) (m : list (text * A)) : list (text * A) :=
  filter (fun b => negb (text_eqb k (fst b))) m.
(** [HashMap::retain] on keys *)
Definition akeep (f : text -> bool) (m : list (text * A)) : list (text * A) :=
  filter (fun b => f (fst b)) m.
Definition akeys (m : list (text * A)) : list text := map fst m.
(** [HashMap::contains_key] *)
Definition ahas (k : text) (m : list (text * A)) : bool := match aget k m with Some _ => true | None => false end.

Lemma aget_put_same k v m : aget k (aput k v m) = Some v.
Proof.
  induction m as [|[k' v'] m IH]; cbn [aput aget].
  - rewrite text_eqb_refl. reflexivity.
  - destruct (text_eqb k k') eqn:E; cbn [aget]; [rewrite text_eqb_refl; reflexivity|]. rewrite E. exact IH.
Qed.
Lemma aget_put_other k k' v m : k' <> k -> aget k' (aput k v m) = aget k' m.
Proof.
  intros Hn. induction m as [|[x v'] m IH]; cbn [aput aget].
  - destruct (text_eqb_spec k' k); [congruence|reflexivity].
  - destruct (text_eqb_spec k x) as [<-|Hx]; cbn [aget].
    + destruct (text_eqb_spec k' k); [congruence|reflexivity].
    + rewrite IH. reflexivity.
Qed.
Lemma aget_del_same k m : aget k (adel k m) = None.
Proof.
  induction m as [|[x v] m IH]; [reflexivity|]. unfold adel in *. cbn [filter fst].
  destruct (text_eqb k x) eqn:E; cbn [negb]; [exact IH|]. cbn [aget]. rewrite E. exact IH.
Qed.
Lemma aget_del_other k k' m : k' <> k -> aget k' (adel k m) = aget k' m.
Proof.
  intros Hn. induction m as [|[x v] m IH]; [reflexivity|]. unfold adel in *. cbn [filter fst].
  destruct (text_eqb_spec k x) as [<-|Hx]; cbn [negb aget].
  - destruct (text_eqb_spec k' k); [congruence|exact IH].
  - rewrite IH. reflexivity.
Qed.
Lemma aget_keep f k m : aget k (akeep f m) = if f k then aget k m else None.
Proof.
  induction m as [|[x v] m IH]; [destruct (f k); reflexivity|]. unfold akeep in *. cbn [filter fst].
  destruct (f x) eqn:Ef; cbn [aget].
  - destruct (text_eqb_spec k x) as [->|Hx]; [rewrite Ef; reflexivity|exact IH].
  - rewrite IH. destruct (text_eqb_spec k x) as [->|Hx]; [rewrite Ef; reflexivity|reflexivity].
Qed.
Lemma aget_in k v m : aget k m = Some v -> In (k, v) m.
Proof.
  induction m as [|[x w] m IH]; [discriminate|]. cbn [aget].
  destruct (text_eqb_spec k x) as [->|_]; [intros [= ->]; left; reflexivity|]. intros H. right. apply IH, H.
Qed.
Lemma aget_none k m : aget k m = None <-> ~ In k (akeys m).
Proof.
  induction m as [|[x w] m IH]; cbn [aget akeys map fst].
  - split; [intros _ []|reflexivity].
  - destruct (text_eqb_spec k x) as [->|Hx].
    + split; [discriminate|]. intros H. destruct H. left. reflexivity.
    + rewrite IH. split; [intros H [E|Hin]; [congruence|exact (H Hin)]|]. intros H Hin. apply H. right. exact Hin.
Qed.
Lemma aget_some k m : (exists v, aget k m = Some v) <-> In k (akeys m).
Proof.
  destruct (aget k m) as [v|] eqn:E.
  - split; [|eauto]. intros _. apply aget_in in E. apply in_map with (f := fst) in E. exact E.
  - apply aget_none in E. split; [intros [v H]; discriminate|]. intros H. destruct (E H).
Qed.
Lemma aget_nodup k v m : NoDup (akeys m) -> In (k, v) m -> aget k m = Some v.
Proof.
  induction m as [|[x w] m IH]; [intros _ []|]. cbn [akeys map fst]. intros Hn. inversion Hn as [|? ? Hx Hm]; subst.
  intros [[= -> ->]|Hin]; cbn [aget].
  - rewrite text_eqb_refl. reflexivity.
  - destruct (text_eqb_spec k x) as [->|_]; [|apply IH; assumption].
    destruct Hx. apply in_map with (f := fst) in Hin. exact Hin.
Qed.
Lemma akeys_put k v m x : In x (akeys (aput k v m)) <-> x = k \/ In x (akeys m).
Proof.
  induction m as [|[y w] m IH]; cbn [aput akeys map fst].
  - simpl. intuition congruence.
  - destruct (text_eqb_spec k y) as [<-|Hy]; cbn [map fst].
    + simpl. intuition congruence.
    + simpl. change (map fst (aput k v m)) with (akeys (aput k v m)). rewrite IH. intuition congruence.
Qed.
Lemma nodup_put k v m : NoDup (akeys m) -> NoDup (akeys (aput k v m)).
Proof.
  induction m as [|[y w] m IH]; cbn [aput akeys map fst]; intros H.
  - constructor; [intros []|constructor].
  - inversion H as [|? ? Hx Hm]; subst. destruct (text_eqb_spec k y) as [<-|Hy]; cbn [map fst].
    + constructor; assumption.
    + constructor; [|apply IH, Hm]. change (map fst (aput k v m)) with (akeys (aput k v m)).
      rewrite akeys_put. intros [E|E]; [congruence|exact (Hx E)].
Qed.
Lemma akeys_keep f m x : In x (akeys (akeep f m)) <-> In x (akeys m) /\ f x = true.
Proof.
  unfold akeys, akeep. rewrite !in_map_iff. split.
  - intros ([k v] & <- & H). apply filter_In in H as [H1 H2]. split; [exists (k, v); auto|exact H2].
  - intros [([k v] & <- & H) Hf]. exists (k, v). split; [reflexivity|]. apply filter_In. auto.
Qed.
Lemma nodup_filter_keys (f : text * A -> bool) m : NoDup (akeys m) -> NoDup (akeys (filter f m)).
Proof.
  induction m as [|[y w] m IH]; intros H; [constructor|]. cbn [filter]. inversion H as [|? ? Hx Hm]; subst.
  destruct (f (y, w)); [|apply IH, Hm]. cbn [akeys map fst]. constructor; [|apply IH, Hm].
  intros Hin. apply Hx. unfold akeys in *. apply in_map_iff in Hin as (b & E & Hb). apply filter_In in Hb as [Hb _].
  apply in_map_iff. eauto.
Qed.
Lemma nodup_keep f m : NoDup (akeys m) -> NoDup (akeys (akeep f m)).
Proof. apply nodup_filter_keys. Qed.
Lemma nodup_del k m : NoDup (akeys m) -> NoDup (akeys (adel k m)).
Proof. apply nodup_filter_keys. Qed.
Lemma akeys_del k m x : In x (akeys (adel k m)) <-> In x (akeys m) /\ x <> k.
Proof.
  unfold akeys, adel. rewrite !in_map_iff. split.
  - intros ([y v] & <- & H). apply filter_In in H as [H1 H2]. split; [exists (y, v); auto|].
    cbn [fst] in *. destruct (text_eqb_spec k y); [discriminate|congruence].
  - intros [([y v] & <- & H) Hf]. exists (y, v). split; [reflexivity|]. apply filter_In. split; [exact H|].
    cbn [fst] in *. destruct (text_eqb_spec k y); [congruence|reflexivity].
Qed.
Lemma ahas_in k m : ahas k m = true <-> In k (akeys m).
Proof. unfold ahas. rewrite <- aget_some. destruct (aget k m); split; eauto; try discriminate. intros [v H]; discriminate. Qed.
Lemma aput_in k v k' v' m : NoDup (akeys m) -> In (k', v') (aput k v m) <-> (k' = k /\ v' = v) \/ (k' <> k /\ In (k', v') m).
Proof.
  intros Hn. pose proof (nodup_put k v m Hn) as Hp. split.
  - intros H. apply (aget_nodup _ _ _ Hp) in H. destruct (text_eqb_spec k' k) as [->|Hk].
    + rewrite aget_put_same in H. injection H as <-. auto.
    + rewrite aget_put_other in H by exact Hk. right. split; [exact Hk|apply aget_in, H].
  - intros [[-> ->]|[Hk H]]; apply aget_in; [apply aget_put_same|]. rewrite aget_put_other by exact Hk.
    apply aget_nodup; assumption.
Qed.
End Map.
Arguments aget {A}. Arguments aput {A}. Arguments adel {A}. Arguments akeep {A}. Arguments akeys {A}. Arguments ahas {A}.
