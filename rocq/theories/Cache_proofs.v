(** Proofs about the two-level cache. *)
From Verif Require Import Base Base_lemmas Maps Cache_model Cache_spec.

(** ** Validity *)
Lemma valid_alive now e : entry_valid now e = true <-> alive (ce_ttl e) now (ce_created e).
Proof.
  unfold entry_valid, alive. assert (N : (0 < NS)%Z) by reflexivity. destruct (Z.eqb_spec (ce_ttl e) 0) as [->|Ht].
  - split; auto.
  - destruct (Z.ltb_spec now (ce_created e)).
    + split; [discriminate|]. intros [H1|[H1 H2]]; lia.
    + rewrite Z.ltb_lt. split.
      * intros H1. right. split; [lia|]. assert (D := Z.div_mod (now - ce_created e) NS). assert (M := Z.mod_pos_bound (now - ce_created e) NS N). nia.
      * intros [H1|[_ H1]]; [contradiction|]. apply Z.div_lt_upper_bound; lia.
Qed.

(** ** Entries only move *)
Lemma del_some {A} k k' (m : list (text * A)) e : aget k (adel k' m) = Some e -> aget k m = Some e /\ k <> k'.
Proof. intros H. destruct (text_eqb_spec k k') as [->|N]; [rewrite aget_del_same in H; discriminate|]. rewrite aget_del_other in H by exact N. auto. Qed.
Lemma put_some {A} k k' v (m : list (text * A)) e : aget k (aput k' v m) = Some e -> (k = k' /\ e = v) \/ aget k m = Some e.
Proof. intros H. destruct (text_eqb_spec k k') as [->|N]; [rewrite aget_put_same in H; injection H as <-; auto|]. rewrite aget_put_other in H by exact N. auto. Qed.
Lemma dels_some {A} k ks (m : list (text * A)) e : aget k (fold_left (fun m k => adel k m) ks m) = Some e -> aget k m = Some e.
Proof. revert m. induction ks as [|x ks IH]; intros m H; [exact H|]. cbn in H. apply IH in H. apply del_some in H. tauto. Qed.
Lemma demote_some c r k e m k' e' : aget k' (demote c r k e m) = Some e' -> (k' = k /\ e' = e) \/ aget k' m = Some e'.
Proof.
  unfold demote. intros H. apply put_some in H as [H|H]; [auto|]. right. destruct (cc_max2 c <=? length m); [|exact H]. apply dels_some in H. exact H.
Qed.
Lemma evict_keys_some c r vs : forall m1 m2 n a b, evict_keys c r vs m1 m2 = (n, a, b) -> forall k e,
  (aget k a = Some e -> aget k m1 = Some e) /\ (aget k b = Some e -> aget k m1 = Some e \/ aget k m2 = Some e).
Proof.
  induction vs as [|d vs IH]; intros m1 m2 n a b E k e; cbn [evict_keys] in E.
  - injection E as _ <- <-. auto.
  - destruct (aget d m1) as [de|] eqn:Ed; [|exact (IH _ _ _ _ _ E k e)]. destruct (1 <? ce_count de).
    + destruct (evict_keys c r vs (adel d (adel d m1)) (demote c r d de m2)) as [[n' a'] b'] eqn:E'. injection E as _ <- <-. destruct (IH _ _ _ _ _ E' k e) as [A B]. split.
      * intros H. apply A in H. apply del_some in H as [H _]. apply del_some in H as [H _]. exact H.
      * intros H. apply B in H as [H|H].
        -- apply del_some in H as [H _]. apply del_some in H as [H _]. auto.
        -- apply demote_some in H as [[-> ->]|H]; auto.
    + destruct (IH _ _ _ _ _ E k e) as [A B]. split.
      * intros H. apply A in H. apply del_some in H as [H _]. exact H.
      * intros H. apply B in H as [H|H]; [apply del_some in H as [H _]|]; auto.
Qed.
Lemma make_room_some c r m1 m2 n a b : make_room c r m1 m2 = (n, a, b) -> forall k e,
  (aget k a = Some e -> aget k m1 = Some e) /\ (aget k b = Some e -> aget k m1 = Some e \/ aget k m2 = Some e).
Proof.
  unfold make_room. destruct (cc_max1 c <=? length m1).
  - apply evict_keys_some.
  - intros [= _ <- <-] k e. auto.
Qed.
Definition holds (s : cache) (k : text) (e : centry) : Prop := aget k (c_l1 s) = Some e \/ aget k (c_l2 s) = Some e.
Definition like (e e' : centry) : Prop := ce_value e = ce_value e' /\ ce_created e = ce_created e' /\ ce_ttl e = ce_ttl e'.
Lemma like_refl e : like e e. Proof. repeat split. Qed.
Lemma like_mark e : like (mark e) e. Proof. repeat split. Qed.
Lemma put_holds c r t k v s k' e : holds (put c r t k v s) k' e -> (k' = k /\ e = mkCentry v t 1 (cc_ttl c)) \/ holds s k' e.
Proof.
  unfold put, holds. destruct (make_room c r (c_l1 s) (c_l2 s)) as [[n a] b] eqn:E. cbn [c_l1 c_l2]. destruct (make_room_some _ _ _ _ _ _ _ E k' e) as [A B].
  intros [H|H]; [apply put_some in H as [H|H]|]; tauto.
Qed.
Lemma promote_holds c r k e s k' e' : holds (promote c r k e s) k' e' -> (k' = k /\ e' = mark e) \/ holds s k' e'.
Proof.
  unfold promote, holds. destruct (make_room c r (c_l1 s) (c_l2 s)) as [[n a] b] eqn:E. cbn [c_l1 c_l2]. destruct (make_room_some _ _ _ _ _ _ _ E k' e') as [A B].
  intros [H|H]; [apply put_some in H as [H|H]; tauto|]. apply del_some in H as [H _]. tauto.
Qed.
Lemma get2_holds c r now k s k' e : holds (snd (get2 c r now k s)) k' e -> exists e0, holds s k' e0 /\ like e e0.
Proof.
  unfold get2. destruct (aget k (c_l2 s)) as [e0|] eqn:E0.
  - destruct (entry_valid now e0); cbn [snd].
    + destruct (cc_promote c <=? ce_count (mark e0)).
      * intros H. apply (promote_holds c r k (mark e0) (mkCache (c_l1 s) (adel k (c_l2 s)) (c_stats s)) k' e) in H as [[-> ->]|H].
        -- exists e0. split; [right; exact E0|]. repeat split.
        -- exists e. split; [|apply like_refl]. destruct H as [H|H]; [left; exact H|]. apply del_some in H as [H _]. right. exact H.
      * intros [H|H]; cbn in H.
        -- exists e. split; [left; exact H|apply like_refl].
        -- apply put_some in H as [[-> ->]|H]; [exists e0; split; [right; exact E0|apply like_mark]|]. exists e. split; [right; exact H|apply like_refl].
    + intros [H|H]; cbn in H; exists e; (split; [|apply like_refl]); [left; exact H|]. apply del_some in H as [H _]. right. exact H.
  - intros H. exists e. split; [exact H|apply like_refl].
Qed.
Lemma get_holds c r a b k s k' e : holds (snd (get c r a b k s)) k' e -> exists e0, holds s k' e0 /\ like e e0.
Proof.
  unfold get. destruct (aget k (c_l1 s)) as [e0|] eqn:E0; [|apply get2_holds]. destruct (entry_valid a e0); cbn [snd].
  - intros [H|H]; cbn in H.
    + apply put_some in H as [[-> ->]|H]; [exists e0; split; [left; exact E0|apply like_mark]|]. exists e. split; [left; exact H|apply like_refl].
    + exists e. split; [right; exact H|apply like_refl].
  - intros H. apply get2_holds in H as (e1 & H & L). exists e1. split; [|exact L]. destruct H as [H|H]; cbn in H; [apply del_some in H as [H _]; left; exact H|right; exact H].
Qed.
Lemma get_result c r a b k s v : fst (get c r a b k s) = Some v -> exists e, holds s k e /\ ce_value e = v /\ (entry_valid a e = true \/ entry_valid b e = true).
Proof.
  assert (G2 : forall s', fst (get2 c r b k s') = Some v -> exists e, aget k (c_l2 s') = Some e /\ ce_value e = v /\ entry_valid b e = true).
  { intros s' H. unfold get2 in H. destruct (aget k (c_l2 s')) as [e|]; [|discriminate]. destruct (entry_valid b e) eqn:V; [|discriminate]. injection H as <-. exists e. auto. }
  unfold get. destruct (aget k (c_l1 s)) as [e0|] eqn:E0.
  - destruct (entry_valid a e0) eqn:V; cbn [fst].
    + intros [= <-]. exists e0. unfold holds. auto.
    + intros H. apply G2 in H as (e & H & K). cbn in H. exists e. unfold holds. intuition.
  - intros H. apply G2 in H as (e & H & K). exists e. unfold holds. intuition.
Qed.

(** ** Histories *)
Lemma after_app c a b s : after c (a ++ b) s = after c b (after c a s).
Proof. revert s. induction a as [|o a IH]; intros s; [reflexivity|]. apply IH. Qed.
Definition state (c : ccfg) (os : list cop) : cache := after c os new_cache.
Lemma state_snoc c os o : state c (os ++ [o]) = snd (exec c o (state c os)).
Proof. unfold state. rewrite after_app. reflexivity. Qed.
Lemma since_snoc os o k t v : put_since os k t v -> o <> ORemove k -> o <> OClear -> put_since (os ++ [o]) k t v.
Proof.
  intros (u & r & w & -> & H1 & H2) N1 N2. exists u, r, (w ++ [o]). rewrite <- app_assoc. split; [reflexivity|].
  split; intros K; apply in_app_iff in K as [K|[K|[]]]; auto.
Qed.
Lemma state_since c os : forall k e, holds (state c os) k e -> put_since os k (ce_created e) (ce_value e) /\ ce_ttl e = cc_ttl c.
Proof.
  induction os as [|o os IH] using rev_ind; intros k e H; [destruct H as [H|H]; discriminate H|]. rewrite state_snoc in H. destruct o as [r a b x|r t x v|x|]; cbn [exec snd] in H.
  - apply get_holds in H as (e0 & H & L1 & L2 & L3). rewrite L1, L2, L3. destruct (IH k e0 H) as [A B]. split; [|exact B]. apply since_snoc; [exact A|discriminate|discriminate].
  - apply put_holds in H as [[-> ->]|H].
    + split; [|reflexivity]. exists os, r, []. cbn. auto.
    + destruct (IH k e H) as [A B]. split; [|exact B]. apply since_snoc; [exact A|discriminate|discriminate].
  - cbn [remove snd] in H. assert (K : holds (state c os) k e /\ k <> x) by (destruct H as [H|H]; cbn in H; apply del_some in H as [H N]; (split; [|exact N]); [left|right]; exact H).
    destruct K as [K N]. destruct (IH k e K) as [A B]. split; [|exact B]. apply since_snoc; [exact A|congruence|discriminate].
  - destruct H as [H|H]; discriminate H.
Qed.
Lemma served c os r a b k v : fst (get c r a b k (state c os)) = Some v ->
  exists t, put_since os k t v /\ (alive (cc_ttl c) a t \/ alive (cc_ttl c) b t).
Proof.
  intros H. apply get_result in H as (e & H & <- & V). destruct (state_since c os k e H) as [A B]. exists (ce_created e). split; [exact A|].
  destruct V as [V|V]; apply valid_alive in V; rewrite B in V; auto.
Qed.
Lemma removed_gone c u w k r a b : (forall r' t v, ~ In (OPut r' t k v) w) -> fst (get c r a b k (state c (u ++ ORemove k :: w))) = None.
Proof.
  intros N. destruct (fst (get c r a b k (state c (u ++ ORemove k :: w)))) as [v|] eqn:E; [|reflexivity]. exfalso.
  apply served in E as (t & (u' & r' & w' & E & H1 & _) & _).
  assert (Q : forall u w u' w', (forall r' t v, ~ In (OPut r' t k v) w) -> ~ In (ORemove k) w' -> u ++ ORemove k :: w <> u' ++ OPut r' t k v :: w').
  { clear. intros u. induction u as [|o u IH]; intros w u' w' N H E.
    - destruct u' as [|o' u']; [discriminate E|]. injection E as _ E. apply (N r' t v). rewrite E. apply in_app_iff. right. left. reflexivity.
    - destruct u' as [|o' u']; injection E as -> E.
      + apply H. rewrite <- E. apply in_app_iff. right. left. reflexivity.
      + exact (IH w u' w' N H E). }
  exact (Q u w u' w' N H1 E).
Qed.
Lemma cleared_gone c u w k r a b : (forall r' t v, ~ In (OPut r' t k v) w) -> fst (get c r a b k (state c (u ++ OClear :: w))) = None.
Proof.
  intros N. destruct (fst (get c r a b k (state c (u ++ OClear :: w)))) as [v|] eqn:E; [|reflexivity]. exfalso.
  apply served in E as (t & (u' & r' & w' & E & _ & H1) & _).
  assert (Q : forall u w u' w', (forall r' t v, ~ In (OPut r' t k v) w) -> ~ In OClear w' -> u ++ OClear :: w <> u' ++ OPut r' t k v :: w').
  { clear. intros u. induction u as [|o u IH]; intros w u' w' N H E.
    - destruct u' as [|o' u']; [discriminate E|]. injection E as _ E. apply (N r' t v). rewrite E. apply in_app_iff. right. left. reflexivity.
    - destruct u' as [|o' u']; injection E as -> E.
      + apply H. rewrite <- E. apply in_app_iff. right. left. reflexivity.
      + exact (IH w u' w' N H E). }
  exact (Q u w u' w' N H1 E).
Qed.
Lemma own_put c r r' t a b k v s : alive (cc_ttl c) a t -> fst (get c r' a b k (put c r t k v s)) = Some v.
Proof.
  intros H. unfold put. destruct (make_room c r (c_l1 s) (c_l2 s)) as [[n m1] m2]. unfold get. cbn [c_l1]. rewrite aget_put_same.
  assert (V : entry_valid a (mkCentry v t 1 (cc_ttl c)) = true) by (apply valid_alive; exact H). rewrite V. reflexivity.
Qed.

(** ** Room in the first level: the cache is a dictionary *)
Lemma keys_len {A} (m : list (text * A)) ks : NoDup (akeys m) -> (forall k, In k (akeys m) -> In k ks) -> length m <= length ks.
Proof. intros N H. rewrite <- (map_length fst m). apply NoDup_incl_length; [exact N|exact H]. Qed.
Lemma small_state c ks os : length ks < cc_max1 c -> (forall r t k v, In (OPut r t k v) os -> In k ks) ->
  c_l2 (state c os) = [] /\ NoDup (akeys (c_l1 (state c os))) /\ (forall k, In k (akeys (c_l1 (state c os))) -> In k ks) /\
  forall k e, aget k (c_l1 (state c os)) = Some e -> latest os k (ce_created e) (ce_value e).
Proof.
  intros Hk. induction os as [|o os IH] using rev_ind; intros Ho.
  { split; [reflexivity|]. split; [constructor|]. split; [intros k []|]. intros k e H. discriminate H. }
  destruct IH as (L2 & N & Sub & La); [intros r t k v H; apply (Ho r t k v), in_app_iff; auto|]. rewrite state_snoc.
  assert (Keep : forall k t v, latest os k t v -> o <> ORemove k -> o <> OClear -> (forall r' t' v', o <> OPut r' t' k v') -> latest (os ++ [o]) k t v).
  { intros k t v (u & r & w & -> & H1 & H2 & H3) N1 N2 N3. exists u, r, (w ++ [o]). rewrite <- app_assoc. split; [reflexivity|].
    split; [|split]; [intros K|intros K|intros r' t' v' K]; apply in_app_iff in K as [K|[K|[]]]; try (exact (H1 K) || exact (H2 K) || exact (H3 _ _ _ K)); [exact (N1 K)|exact (N2 K)|exact (N3 _ _ _ K)]. }
  set (s := state c os) in *. destruct o as [r a b x|r t x v|x|]; cbn [exec snd].
  - assert (G2 : forall s', c_l2 s' = [] -> get2 c r b x s' = (None, set_stats miss s')) by (intros s' E; unfold get2; rewrite E; reflexivity).
    assert (K : c_l2 (snd (get c r a b x s)) = [] /\ (c_l1 (snd (get c r a b x s)) = c_l1 s \/ c_l1 (snd (get c r a b x s)) = adel x (c_l1 s) \/
      exists e, aget x (c_l1 s) = Some e /\ c_l1 (snd (get c r a b x s)) = aput x (mark e) (c_l1 s))).
    { unfold get. destruct (aget x (c_l1 s)) as [e|] eqn:E.
      - destruct (entry_valid a e); cbn [snd]; [split; [exact L2|]; right; right; exists e; auto|]. rewrite G2 by exact L2. split; [exact L2|]. auto.
      - rewrite G2 by exact L2. split; [exact L2|]. auto. }
    destruct K as [K2 K1]. split; [exact K2|]. destruct K1 as [-> | [-> | (e & He & ->)]].
    + split; [exact N|]. split; [exact Sub|]. intros k e H. apply Keep; [exact (La k e H)|discriminate..].
    + split; [apply nodup_del, N|]. split; [intros k H; apply Sub; apply aget_some in H as [e H]; apply del_some in H as [H _]; apply aget_some; eauto|].
      intros k e H. apply del_some in H as [H _]. apply Keep; [exact (La k e H)|discriminate..].
    + split; [apply nodup_put, N|]. split.
      * intros k H. apply aget_some in H as [e' H]. apply put_some in H as [[-> _]|H]; apply Sub, aget_some; eauto.
      * intros k e' H. apply put_some in H as [[-> ->]|H]; [cbn; apply Keep; [exact (La x e He)|discriminate..]|]. apply Keep; [exact (La k e' H)|discriminate..].
  - unfold put. assert (R : make_room c r (c_l1 s) (c_l2 s) = (0, c_l1 s, c_l2 s)).
    { unfold make_room. assert (Hl := keys_len (c_l1 s) ks N Sub). destruct (Nat.leb_spec (cc_max1 c) (length (c_l1 s))); [lia|reflexivity]. }
    rewrite R. cbn [c_l1 c_l2]. split; [exact L2|]. split; [apply nodup_put, N|]. split.
    + intros k H. apply aget_some in H as [e H]. apply put_some in H as [[-> _]|H]; [apply (Ho r t x v), in_app_iff; right; left; reflexivity|]. apply Sub, aget_some. eauto.
    + intros k e H. destruct (text_eqb_spec k x) as [->|Hn].
      * rewrite aget_put_same in H. injection H as <-. cbn. exists os, r, []. cbn. auto.
      * rewrite aget_put_other in H by exact Hn. apply Keep; [exact (La k e H)|discriminate|discriminate|]. congruence.
  - cbn [remove snd c_l1 c_l2]. rewrite L2. split; [reflexivity|]. split; [apply nodup_del, N|]. split.
    + intros k H. apply Sub. apply aget_some in H as [e H]. apply del_some in H as [H _]. apply aget_some. eauto.
    + intros k e H. apply del_some in H as [H Hn]. apply Keep; [exact (La k e H)|congruence|discriminate|discriminate].
  - split; [reflexivity|]. split; [constructor|]. split; [intros k []|]. intros k e H. discriminate H.
Qed.
Lemma small_served c ks os r a b k v : length ks < cc_max1 c -> (forall r t k v, In (OPut r t k v) os -> In k ks) ->
  fst (get c r a b k (state c os)) = Some v -> exists t, latest os k t v.
Proof.
  intros Hk Ho H. destruct (small_state c ks os Hk Ho) as (L2 & _ & _ & La). apply get_result in H as (e & [H|H] & <- & _).
  - exists (ce_created e). apply La, H.
  - rewrite L2 in H. discriminate H.
Qed.

(** ** Limits *)
Lemma del_len {A} k (m : list (text * A)) : length (adel k m) <= length m.
Proof. unfold adel. induction m as [|x m IH]; [reflexivity|]. cbn. destruct (negb _); cbn; lia. Qed.
Lemma del_len_lt {A} k (m : list (text * A)) : In k (akeys m) -> length (adel k m) < length m.
Proof.
  unfold adel, akeys. induction m as [|[x v] m IH]; cbn; [intros []|]. intros [-> |H].
  - rewrite text_eqb_refl. cbn. assert (Q := del_len k m). unfold adel in Q. lia.
  - specialize (IH H). destruct (negb (text_eqb k x)); cbn; lia.
Qed.
Lemma put_len {A} k (v : A) m : length (aput k v m) <= S (length m).
Proof. induction m as [|[x w] m IH]; cbn; [lia|]. destruct (text_eqb k x); cbn; lia. Qed.
Lemma dels_len {A} ks (m : list (text * A)) : length (fold_left (fun m k => adel k m) ks m) <= length m.
Proof. revert m. induction ks as [|k ks IH]; intros m; cbn; [lia|]. specialize (IH (adel k m)). assert (Q := del_len k m). lia. Qed.
Lemma evict_count_pos n : exists j, evict_count n = S j.
Proof. unfold evict_count. exists (Nat.max 1 (n / 10) - 1). lia. Qed.
Lemma victim r m : ranks r -> m <> [] -> exists k ks, firstn (evict_count (length m)) (r m) = k :: ks /\ In k (akeys m).
Proof.
  intros Hr N. destruct (evict_count_pos (length m)) as [j ->]. assert (P := Hr m). destruct (r m) as [|k l] eqn:E.
  - apply Permutation_nil in P. destruct m; [contradiction|discriminate P].
  - exists k, (firstn j l). split; [reflexivity|]. apply (Permutation_in _ P). left. reflexivity.
Qed.
Lemma evict2_len r m : ranks r -> m <> [] -> length (evict2 r m) < length m.
Proof.
  intros Hr N. unfold evict2. destruct (victim r m Hr N) as (k & ks & -> & Hk). cbn. assert (A := dels_len ks (adel k m)). assert (B := del_len_lt k m Hk). lia.
Qed.
Lemma demote_len c r k e m : ranks r -> 1 <= cc_max2 c -> length m <= cc_max2 c -> length (demote c r k e m) <= cc_max2 c.
Proof.
  intros Hr H1 H. unfold demote. destruct (Nat.leb_spec (cc_max2 c) (length m)) as [L|L].
  - assert (N : m <> []) by (destruct m; [cbn in L; lia|discriminate]). assert (A := put_len k e (evict2 r m)). assert (B := evict2_len r m Hr N). lia.
  - assert (A := put_len k e m). lia.
Qed.
Lemma evict_keys_len c r vs : ranks r -> 1 <= cc_max2 c -> forall m1 m2 n a b, evict_keys c r vs m1 m2 = (n, a, b) -> length m2 <= cc_max2 c ->
  length a <= length m1 /\ length b <= cc_max2 c.
Proof.
  intros Hr H1. induction vs as [|d vs IH]; intros m1 m2 n a b E H; cbn [evict_keys] in E.
  - injection E as _ <- <-. auto.
  - destruct (aget d m1) as [de|]; [|exact (IH _ _ _ _ _ E H)]. assert (D := del_len d m1). assert (D2 := del_len d (adel d m1)). destruct (1 <? ce_count de).
    + destruct (evict_keys c r vs (adel d (adel d m1)) (demote c r d de m2)) as [[n' a'] b'] eqn:E'. injection E as _ <- <-.
      destruct (IH _ _ _ _ _ E' (demote_len c r d de m2 Hr H1 H)). lia.
    + destruct (IH _ _ _ _ _ E H). lia.
Qed.
Lemma make_room_len c r m1 m2 n a b : ranks r -> 1 <= cc_max1 c -> 1 <= cc_max2 c -> make_room c r m1 m2 = (n, a, b) -> length m1 <= cc_max1 c -> length m2 <= cc_max2 c ->
  S (length a) <= cc_max1 c /\ length b <= cc_max2 c.
Proof.
  intros Hr H1 H2 E L1 L2. unfold make_room in E. destruct (Nat.leb_spec (cc_max1 c) (length m1)) as [L|L].
  - assert (N : m1 <> []) by (destruct m1; [cbn in L; lia|discriminate]). destruct (victim r m1 Hr N) as (k & ks & Ek & Hk). rewrite Ek in E. cbn [evict_keys] in E.
    apply aget_some in Hk as Hk'. destruct Hk' as [e He]. rewrite He in E. assert (B := del_len_lt k m1 Hk). assert (B2 := del_len k (adel k m1)). destruct (1 <? ce_count e).
    + destruct (evict_keys c r ks (adel k (adel k m1)) (demote c r k e m2)) as [[n' a'] b'] eqn:E'. injection E as _ <- <-.
      destruct (evict_keys_len c r ks Hr H2 _ _ _ _ _ E' (demote_len c r k e m2 Hr H2 L2)). lia.
    + destruct (evict_keys_len c r ks Hr H2 _ _ _ _ _ E L2). lia.
  - injection E as _ <- <-. lia.
Qed.
Definition within (c : ccfg) (s : cache) : Prop := length (c_l1 s) <= cc_max1 c /\ length (c_l2 s) <= cc_max2 c.
Lemma put_same_len {A} k (v w : A) m : aget k m = Some w -> length (aput k v m) = length m.
Proof. induction m as [|[x u] m IH]; [discriminate|]. cbn. destruct (text_eqb k x); [reflexivity|]. intros H. cbn. rewrite (IH H). reflexivity. Qed.
Lemma promote_within c r k e s : ranks r -> 1 <= cc_max1 c -> 1 <= cc_max2 c -> within c s -> within c (promote c r k e s).
Proof.
  intros Hr H1 H2 [L1 L2]. unfold promote. destruct (make_room c r (c_l1 s) (c_l2 s)) as [[n a] b] eqn:E. destruct (make_room_len _ _ _ _ _ _ _ Hr H1 H2 E L1 L2).
  split; cbn [c_l1 c_l2]; [assert (A := put_len k (mark e) a)|assert (A := del_len k b)]; lia.
Qed.
Lemma get2_within c r now k s : ranks r -> 1 <= cc_max1 c -> 1 <= cc_max2 c -> within c s -> within c (snd (get2 c r now k s)).
Proof.
  intros Hr H1 H2 W. unfold get2. destruct (aget k (c_l2 s)) as [e|] eqn:E; [|exact W]. assert (D := del_len k (c_l2 s)). destruct W as [L1 L2]. destruct (entry_valid now e); cbn [snd].
  - destruct (cc_promote c <=? ce_count (mark e)).
    + assert (P := promote_within c r k (mark e) (mkCache (c_l1 s) (adel k (c_l2 s)) (c_stats s)) Hr H1 H2). destruct P as [P1 P2]; [split; cbn; lia|]. split; [exact P1|exact P2].
    + split; cbn [set_stats c_l1 c_l2]; [lia|]. rewrite (put_same_len k (mark e) e) by exact E. exact L2.
  - split; cbn [set_stats c_l1 c_l2]; lia.
Qed.
Lemma exec_within c o s : op_ranks o -> 1 <= cc_max1 c -> 1 <= cc_max2 c -> within c s -> within c (snd (exec c o s)).
Proof.
  intros Hr H1 H2 W. destruct o as [r a b x|r t x v|x|]; cbn [exec snd op_ranks] in *.
  - unfold get. destruct (aget x (c_l1 s)) as [e|] eqn:E; [|apply get2_within; assumption]. destruct (entry_valid a e); cbn [snd].
    + destruct W as [L1 L2]. split; cbn [set_stats c_l1 c_l2]; [|exact L2]. rewrite (put_same_len x (mark e) e) by exact E. exact L1.
    + apply get2_within; try assumption. destruct W as [L1 L2]. assert (D := del_len x (c_l1 s)). split; cbn [c_l1 c_l2]; lia.
  - unfold put. destruct W as [L1 L2]. destruct (make_room c r (c_l1 s) (c_l2 s)) as [[n a] b] eqn:E. destruct (make_room_len _ _ _ _ _ _ _ Hr H1 H2 E L1 L2).
    split; cbn [c_l1 c_l2]; [assert (A := put_len x (mkCentry v t 1 (cc_ttl c)) a)|]; lia.
  - destruct W as [L1 L2]. assert (A := del_len x (c_l1 s)). assert (B := del_len x (c_l2 s)). split; cbn [remove snd c_l1 c_l2]; lia.
  - split; cbn; lia.
Qed.
Lemma state_within c os : cfg_ok c = true -> (forall o, In o os -> op_ranks o) -> within c (state c os).
Proof.
  unfold cfg_ok. rewrite andb_true_iff, !negb_true_iff, !Nat.eqb_neq. intros [H1 H2]. induction os as [|o os IH] using rev_ind; intros Hr; [split; cbn; lia|].
  rewrite state_snoc. apply exec_within; [apply Hr, in_app_iff; right; left; reflexivity|lia|lia|]. apply IH. intros x Hx. apply Hr, in_app_iff. auto.
Qed.

(** ** Counters and the membership test *)
Lemma contains_get c r a b k s : contains a b k s = true <-> fst (get c r a b k s) <> None.
Proof.
  unfold contains, get, get2. destruct (aget k (c_l1 s)) as [e|].
  - destruct (entry_valid a e); cbn [fst c_l2]; [split; [discriminate|reflexivity]|].
    destruct (aget k (c_l2 s)) as [e'|]; [|split; [discriminate|cbn; congruence]]. destruct (entry_valid b e'); cbn; split; congruence.
  - destruct (aget k (c_l2 s)) as [e'|]; [|split; [discriminate|cbn; congruence]]. destruct (entry_valid b e'); cbn; split; congruence.
Qed.
Definition counted (s : cache) (n : nat) : Prop := cs_hits1 (c_stats s) + cs_hits2 (c_stats s) + cs_misses1 (c_stats s) = n /\ cs_misses1 (c_stats s) = cs_misses2 (c_stats s).
Lemma get_counted c r a b k s n : counted s n -> counted (snd (get c r a b k s)) (S n).
Proof.
  assert (P : forall e s', cs_hits1 (c_stats (promote c r k e s')) = cs_hits1 (c_stats s') /\ cs_hits2 (c_stats (promote c r k e s')) = cs_hits2 (c_stats s') /\
    cs_misses1 (c_stats (promote c r k e s')) = cs_misses1 (c_stats s') /\ cs_misses2 (c_stats (promote c r k e s')) = cs_misses2 (c_stats s')).
  { intros e s'. unfold promote. destruct (make_room c r (c_l1 s') (c_l2 s')) as [[x y] z]. repeat split. }
  assert (G : forall s', counted s' n -> counted (snd (get2 c r b k s')) (S n)).
  { intros s' [A B]. unfold get2, counted. destruct (aget k (c_l2 s')) as [e|].
    - destruct (entry_valid b e); cbn [snd].
      + destruct (cc_promote c <=? ce_count (mark e)).
        * destruct (P (mark e) (mkCache (c_l1 s') (adel k (c_l2 s')) (c_stats s'))) as (E1 & E2 & E3 & E4).
          unfold set_stats, hit2. cbn [c_stats cs_hits1 cs_hits2 cs_misses1 cs_misses2]. rewrite E1, E2, E3, E4. cbn [c_stats]. split; [lia|exact B].
        * cbn. split; [lia|exact B].
      + cbn. split; lia.
    - cbn. split; lia. }
  intros H. unfold get. destruct (aget k (c_l1 s)) as [e|]; [|apply G, H]. destruct (entry_valid a e); [|apply G, H]. destruct H as [A B]. split; cbn; [lia|exact B].
Qed.
Lemma state_counted c os : counted (state c os) (lookups (rev os)).
Proof.
  induction os as [|o os IH] using rev_ind; [split; reflexivity|]. rewrite state_snoc, rev_app_distr. cbn [rev app]. destruct o as [r a b x|r t x v|x|]; cbn [exec snd lookups].
  - apply get_counted, IH.
  - unfold put. destruct (make_room c r (c_l1 (state c os)) (c_l2 (state c os))) as [[n a] b]. exact IH.
  - exact IH.
  - split; reflexivity.
Qed.
