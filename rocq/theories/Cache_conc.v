(** Proofs about concurrent calls of the two-level cache. *)
From Verif Require Import Base Base_lemmas Maps Cache_model Cache_spec Cache_proofs.

Section Safe.
Variables (c : ccfg) (P : text -> centry -> Prop) (xs : list task).
Hypothesis P_mark : forall k e, P k e -> P k (mark e).
Hypothesis P_new : forall t k v, In (TPut t k v) xs -> P k (mkCentry v t 1 (cc_ttl c)).
Definition good (a b : Z) (k v : text) : Prop := exists e, P k e /\ ce_value e = v /\ (entry_valid a e = true \/ entry_valid b e = true).
Definition answers (x0 : task) (v : text) : Prop := exists a b k, x0 = TGet a b k /\ good a b k v.
Definition goal_ok (x0 : task) (g : goal) : Prop := match g with ForPut => True | ForPromote v => answers x0 v end.
Definition task_ok (x0 x : task) : Prop :=
  match x with
  | TPut _ _ _ | TGet _ _ _ | TRemove1 _ | TClear1 => x = x0
  | TEvict _ k e g | TDrop _ _ k e g | TInsert k e g => P k e /\ goal_ok x0 g
  | TRoom d de _ k e g | TDemote d de _ k e g => P d de /\ P k e /\ goal_ok x0 g
  | TUnlist _ v => answers x0 v
  | TExpired b k | TGet2 b k => exists a, x0 = TGet a b k
  | TPromote k e v => P k e /\ answers x0 v
  | TRemove2 _ | TClear2 | TDone None => True
  | TDone (Some v) => answers x0 v
  end.
Definition level_ok (m : list (text * centry)) : Prop := forall k e, aget k m = Some e -> P k e.
Lemma level_del k m : level_ok m -> level_ok (adel k m). Proof. intros H x e K. apply del_some in K as [K _]. exact (H x e K). Qed.
Lemma level_put k e m : P k e -> level_ok m -> level_ok (aput k e m). Proof. intros Hp H x e' K. apply put_some in K as [[-> ->]|K]; [exact Hp|exact (H x e' K)]. Qed.
Lemma level_evict2 r m : level_ok m -> level_ok (evict2 r m). Proof. intros H x e K. apply dels_some in K. exact (H x e K). Qed.
Lemma level_nil : level_ok (@nil (text * centry)). Proof. intros k e K. discriminate K. Qed.
Lemma start_ok x0 (r : ranking) m1 k e g : P k e -> goal_ok x0 g -> task_ok x0 (if cc_max1 c <=? length m1 then TEvict (firstn (evict_count (length m1)) (r m1)) k e g else TInsert k e g).
Proof. intros Hp Hg. destruct (cc_max1 c <=? length m1); cbn; auto. Qed.
Lemma tstep_ok x0 r x m1 m2 x' m1' m2' : In x0 xs -> tstep c r x m1 m2 = Some (x', m1', m2') -> task_ok x0 x -> level_ok m1 -> level_ok m2 ->
  task_ok x0 x' /\ level_ok m1' /\ level_ok m2'.
Proof.
  intros I E H L1 L2. unfold tstep in E. destruct x as [t k v|vs k e g|d de vs k e g|d de vs k e g|d vs k e g|k e g|k v|a b k|b k|b k|k e v|k|k| | |res]; cbn [task_ok] in H.
  - injection E as <- <- <-. split; [|auto]. apply start_ok; [|exact Logic.I]. apply P_new. rewrite H. exact I.
  - destruct vs as [|d vs]; [injection E as <- <- <-; auto|]. destruct (aget d m1) as [de|] eqn:Ed.
    + injection E as <- <- <-. split; [|split; [apply level_del, L1|exact L2]]. destruct (1 <? ce_count de); cbn; [|exact H]. split; [exact (L1 d de Ed)|exact H].
    + injection E as <- <- <-. auto.
  - injection E as <- <- <-. split; [exact H|]. split; [exact L1|]. destruct (cc_max2 c <=? length m2); [apply level_evict2, L2|exact L2].
  - injection E as <- <- <-. split; [exact (proj2 H)|]. split; [exact L1|]. apply level_put; [exact (proj1 H)|exact L2].
  - injection E as <- <- <-. split; [exact H|]. split; [apply level_del, L1|exact L2].
  - destruct H as [Hp Hg]. destruct g as [|v]; injection E as <- <- <-; (split; [|split; [apply level_put; assumption|exact L2]]); [exact Logic.I|exact Hg].
  - injection E as <- <- <-. split; [exact H|]. split; [exact L1|apply level_del, L2].
  - destruct (aget k m1) as [e|] eqn:Ek.
    + destruct (entry_valid a e) eqn:V; injection E as <- <- <-.
      * split; [|split; [apply level_put; [apply P_mark, (L1 k e Ek)|exact L1]|exact L2]]. exists a, b, k. split; [symmetry; exact H|]. exists e. split; [exact (L1 k e Ek)|auto].
      * split; [exists a; symmetry; exact H|auto].
    + injection E as <- <- <-. split; [exists a; symmetry; exact H|auto].
  - injection E as <- <- <-. split; [exact H|]. split; [apply level_del, L1|exact L2].
  - destruct H as [a H]. destruct (aget k m2) as [e|] eqn:Ek; [|injection E as <- <- <-; cbn; auto]. destruct (entry_valid b e) eqn:V.
    + assert (A : answers x0 (ce_value e)) by (exists a, b, k; split; [exact H|]; exists e; split; [exact (L2 k e Ek)|auto]).
      destruct (cc_promote c <=? ce_count (mark e)); injection E as <- <- <-.
      * split; [|split; [exact L1|apply level_del, L2]]. split; [apply P_mark, (L2 k e Ek)|exact A].
      * split; [exact A|]. split; [exact L1|]. apply level_put; [apply P_mark, (L2 k e Ek)|exact L2].
    + injection E as <- <- <-. split; [exact Logic.I|]. split; [exact L1|apply level_del, L2].
  - injection E as <- <- <-. split; [|auto]. apply start_ok; [apply P_mark, H|exact (proj2 H)].
  - injection E as <- <- <-. split; [exact Logic.I|]. split; [apply level_del, L1|exact L2].
  - injection E as <- <- <-. split; [exact Logic.I|]. split; [exact L1|apply level_del, L2].
  - injection E as <- <- <-. split; [exact Logic.I|]. split; [apply level_nil|exact L2].
  - injection E as <- <- <-. split; [exact Logic.I|]. split; [exact L1|apply level_nil].
  - discriminate E.
Qed.
Lemma set_nth_get {A} i (x : A) l j y : nth_error (set_nth i x l) j = Some y -> i < length l -> (j = i /\ y = x) \/ (j <> i /\ nth_error l j = Some y).
Proof.
  unfold set_nth. intros H Hi. destruct (Nat.lt_trichotomy j i) as [L|[->|L]].
  - right. split; [lia|]. rewrite nth_error_app1 in H by (rewrite firstn_length; lia). rewrite <- (firstn_skipn i l). rewrite nth_error_app1 by (rewrite firstn_length; lia). exact H.
  - left. split; [reflexivity|]. rewrite nth_error_app2 in H by (rewrite firstn_length; lia). rewrite firstn_length in H. replace (i - Nat.min i (length l)) with 0 in H by lia. injection H as <-. reflexivity.
  - right. split; [lia|]. rewrite nth_error_app2 in H by (rewrite firstn_length; lia). rewrite firstn_length in H. replace (j - Nat.min i (length l)) with (S (j - S i)) in H by lia. cbn in H.
    rewrite <- (firstn_skipn (S i) l). rewrite nth_error_app2 by (rewrite firstn_length; lia). rewrite firstn_length. replace (j - Nat.min (S i) (length l)) with (j - S i) by lia. exact H.
Qed.
Definition system_ok (y : system) : Prop :=
  (forall i x, nth_error (y_tasks y) i = Some x -> exists x0, nth_error xs i = Some x0 /\ task_ok x0 x) /\ level_ok (y_l1 y) /\ level_ok (y_l2 y).
Lemma sstep_ok r i y y' : sstep c r i y = Some y' -> system_ok y -> system_ok y'.
Proof.
  unfold sstep. intros E (H & L1 & L2). destruct (nth_error (y_tasks y) i) as [x|] eqn:Ex; [|discriminate]. destruct (tstep c r x (y_l1 y) (y_l2 y)) as [[[x' m1] m2]|] eqn:Es; [|discriminate].
  injection E as <-. destruct (H i x Ex) as (x0 & E0 & H0). destruct (tstep_ok x0 r x _ _ _ _ _ (nth_error_In _ _ E0) Es H0 L1 L2) as (H1 & A & B).
  split; [|split; [exact A|exact B]]. cbn [y_tasks]. intros j z Hj. apply set_nth_get in Hj as [[-> ->]|[_ Hj]].
  - exists x0. auto.
  - exact (H j z Hj).
  - apply nth_error_Some. rewrite Ex. discriminate.
Qed.
Lemma srun_ok l : forall y y', srun c l y = Some y' -> system_ok y -> system_ok y'.
Proof.
  induction l as [|[i r] l IH]; intros y y' E H; cbn in E; [injection E as <-; exact H|]. destruct (sstep c r i y) as [z|] eqn:Ez; [|discriminate]. exact (IH z y' E (sstep_ok r i y z Ez H)).
Qed.
Lemma fresh_ok : (forall x, In x xs -> fresh x) -> system_ok (start xs).
Proof.
  intros Hf. split; [|split; apply level_nil]. cbn. intros i x Hx. exists x. split; [exact Hx|]. apply nth_error_In, Hf in Hx. destruct x; try destruct Hx; reflexivity.
Qed.
End Safe.

Lemma concurrent_served c xs l y i v : (forall x, In x xs -> fresh x) -> srun c l (start xs) = Some y -> nth_error (y_tasks y) i = Some (TDone (Some v)) ->
  exists a b k t, nth_error xs i = Some (TGet a b k) /\ In (TPut t k v) xs /\ (alive (cc_ttl c) a t \/ alive (cc_ttl c) b t).
Proof.
  intros Hf E H. set (P := fun k e => exists t v n, In (TPut t k v) xs /\ e = mkCentry v t n (cc_ttl c)).
  assert (K : system_ok P xs y).
  { apply (srun_ok c P xs) with (l := l) (y := start xs); [| |exact E|apply fresh_ok, Hf].
    - intros k e (t & w & n & I & ->). exists t, w, (S n). auto.
    - intros t k w I. exists t, w, 1. auto. }
  destruct (proj1 K i _ H) as (x0 & E0 & a & b & k & -> & e & (t & w & n & I & ->) & <- & V). exists a, b, k, t. split; [exact E0|]. split; [exact I|].
  destruct V as [V|V]; apply valid_alive in V; auto.
Qed.

(** ** A task running alone does what the call does *)
Lemma srun_app c a b y : srun c (a ++ b) y = match srun c a y with Some z => srun c b z | None => None end.
Proof. revert y. induction a as [|[i r] a IH]; intros y; [reflexivity|]. cbn. destruct (sstep c r i y); [apply IH|reflexivity]. Qed.
Definition alone (r : ranking) (n : nat) : list (nat * ranking) := repeat (0, r) n.
Definition reaches (c : ccfg) (r : ranking) (x : task) m1 m2 (x' : task) m1' m2' : Prop :=
  exists n, srun c (alone r n) (mkSystem [x] m1 m2) = Some (mkSystem [x'] m1' m2').
Lemma reach_refl c r x m1 m2 : reaches c r x m1 m2 x m1 m2. Proof. exists 0. reflexivity. Qed.
Lemma reach_step c r x m1 m2 x1 a b x' m1' m2' : tstep c r x m1 m2 = Some (x1, a, b) -> reaches c r x1 a b x' m1' m2' -> reaches c r x m1 m2 x' m1' m2'.
Proof. intros E [n H]. exists (S n). cbn [alone repeat srun]. unfold sstep. cbn [y_tasks nth_error y_l1 y_l2]. rewrite E. exact H. Qed.
Lemma reach_evict c r k e g x' m1' m2' vs : forall m1 m2 n a b, evict_keys c r vs m1 m2 = (n, a, b) -> reaches c r (TInsert k e g) a b x' m1' m2' ->
  reaches c r (TEvict vs k e g) m1 m2 x' m1' m2'.
Proof.
  induction vs as [|d vs IH]; intros m1 m2 n a b E H; cbn [evict_keys] in E.
  - injection E as _ <- <-. eapply reach_step; [reflexivity|exact H].
  - destruct (aget d m1) as [de|] eqn:Ed.
    + destruct (1 <? ce_count de) eqn:Ec.
      * destruct (evict_keys c r vs (adel d (adel d m1)) (demote c r d de m2)) as [[n' a'] b'] eqn:E'. injection E as _ <- <-.
        eapply reach_step; [cbn [tstep]; rewrite Ed, Ec; reflexivity|]. eapply reach_step; [reflexivity|]. eapply reach_step; [reflexivity|]. eapply reach_step; [reflexivity|].
        exact (IH _ _ _ _ _ E' H).
      * eapply reach_step; [cbn [tstep]; rewrite Ed, Ec; reflexivity|]. exact (IH _ _ _ _ _ E H).
    + eapply reach_step; [cbn [tstep]; rewrite Ed; reflexivity|]. exact (IH _ _ _ _ _ E H).
Qed.
Lemma reach_start c r k e g m1 m2 n a b x' m1' m2' : make_room c r m1 m2 = (n, a, b) -> reaches c r (TInsert k e g) a b x' m1' m2' ->
  reaches c r (if cc_max1 c <=? length m1 then TEvict (firstn (evict_count (length m1)) (r m1)) k e g else TInsert k e g) m1 m2 x' m1' m2'.
Proof. unfold make_room. destruct (cc_max1 c <=? length m1); [apply reach_evict|]. intros [= _ <- <-] H. exact H. Qed.
Definition task_of (o : cop) : task := match o with OGet _ a b k => TGet a b k | OPut _ t k v => TPut t k v | ORemove k => TRemove1 k | OClear => TClear1 end.
Definition uses (o : cop) (r : ranking) : Prop := match o with OGet r' _ _ _ => r' = r | OPut r' _ _ _ => r' = r | _ => True end.
Lemma reach_get2 c r b k s : reaches c r (TGet2 b k) (c_l1 s) (c_l2 s) (TDone (fst (get2 c r b k s))) (c_l1 (snd (get2 c r b k s))) (c_l2 (snd (get2 c r b k s))).
Proof.
  unfold get2. destruct (aget k (c_l2 s)) as [e|] eqn:E; [|eapply reach_step; [cbn [tstep]; rewrite E; reflexivity|apply reach_refl]].
  destruct (entry_valid b e) eqn:V; [|eapply reach_step; [cbn [tstep]; rewrite E, V; reflexivity|apply reach_refl]].
  destruct (cc_promote c <=? ce_count (mark e)) eqn:Q; [|eapply reach_step; [cbn [tstep]; rewrite E, V, Q; reflexivity|apply reach_refl]].
  eapply reach_step; [cbn [tstep]; rewrite E, V, Q; reflexivity|]. eapply reach_step; [reflexivity|]. unfold promote. cbn [fst snd c_l1 c_l2 c_stats].
  destruct (make_room c r (c_l1 s) (adel k (c_l2 s))) as [[n m1] m2] eqn:R. eapply reach_start; [exact R|]. eapply reach_step; [reflexivity|]. eapply reach_step; [reflexivity|]. apply reach_refl.
Qed.
Lemma alone_exec c r o s : uses o r -> reaches c r (task_of o) (c_l1 s) (c_l2 s) (TDone (fst (exec c o s))) (c_l1 (snd (exec c o s))) (c_l2 (snd (exec c o s))).
Proof.
  intros U. destruct o as [r' a b k|r' t k v|k|]; cbn [uses task_of exec] in *; try subst r'.
  - unfold get. destruct (aget k (c_l1 s)) as [e|] eqn:E.
    + destruct (entry_valid a e) eqn:V; [eapply reach_step; [cbn [tstep]; rewrite E, V; reflexivity|apply reach_refl]|].
      eapply reach_step; [cbn [tstep]; rewrite E, V; reflexivity|]. eapply reach_step; [reflexivity|]. exact (reach_get2 c r b k (mkCache (adel k (c_l1 s)) (c_l2 s) (c_stats s))).
    + eapply reach_step; [cbn [tstep]; rewrite E; reflexivity|]. apply reach_get2.
  - eapply reach_step; [reflexivity|]. unfold put. cbn [fst snd]. destruct (make_room c r (c_l1 s) (c_l2 s)) as [[n m1] m2] eqn:R. eapply reach_start; [exact R|].
    eapply reach_step; [reflexivity|apply reach_refl].
  - eapply reach_step; [reflexivity|]. eapply reach_step; [reflexivity|apply reach_refl].
  - eapply reach_step; [reflexivity|]. eapply reach_step; [reflexivity|apply reach_refl].
Qed.
