(** Properties C43, C44 and C95-C98: the two-level cache. *)
From Verif Require Import Base Base_lemmas Maps Cache_model Cache_spec Cache_proofs Cache_conc.
Open Scope string_scope. Open Scope list_scope.

(** ** Concrete data *)
Definition by_key (m : list (text * centry)) : list text := akeys m.
Lemma by_key_ranks : ranks by_key. Proof. intros m. apply Permutation_refl. Qed.
(** one entry in the first level, two in the second, no expiry, promotion from nine accesses on *)
Definition tiny : ccfg := mkCcfg 1 2 0 9.
Definition short : ccfg := mkCcfg 3 2 60 2.
Definition k : text := T "k". Definition j : text := T "j". Definition old : text := T "old". Definition new : text := T "new".
Definition sec (n : Z) : Z := (n * NS)%Z.

(** ** C43 *)
(** An old value comes back: it was moved to the second level, a new one was stored and evicted. *)
Definition stale_history : list cop :=
  [OPut by_key 0 k old; OGet by_key 0 0 k; OPut by_key 0 j old; OPut by_key 0 k new; OPut by_key 0 j old].
Theorem C43_refuted : exists c os r a b x v, cfg_ok c = true /\ (forall o, In o os -> op_ranks o) /\ fst (get c r a b x (after c os new_cache)) = Some v /\
  (exists t, latest os x t new) /\ v <> new.
Proof.
  exists tiny, stale_history, by_key, 0%Z, 0%Z, k, old. split; [reflexivity|]. split.
  - intros o H. repeat (destruct H as [<-|H]; [exact by_key_ranks|]). destruct H.
  - split; [vm_compute; reflexivity|]. split; [|discriminate]. exists 0%Z, [OPut by_key 0 k old; OGet by_key 0 0 k; OPut by_key 0 j old], by_key, [OPut by_key 0 j old].
    split; [reflexivity|]. split; [intros [H|[]]; discriminate H|]. split; [intros [H|[]]; discriminate H|]. intros r' t' v' [H|[]]. discriminate H.
Qed.
Print Assumptions C43_refuted.
(** What a lookup returns was stored under that key, after the last removal of the key and the last clear, and has not expired. *)
Theorem C43_since_partial : forall c os r a b x v, fst (get c r a b x (after c os new_cache)) = Some v ->
  exists t, put_since os x t v /\ (alive (cc_ttl c) a t \/ alive (cc_ttl c) b t).
Proof. exact served. Qed.
Print Assumptions C43_since_partial.
(** So keys that are always stored with the same value between removals are right. *)
Theorem C43_once_partial : forall c os r a b x v w, (forall t u, put_since os x t u -> u = w) -> fst (get c r a b x (after c os new_cache)) = Some v -> v = w.
Proof. intros c os r a b x v w H E. destruct (served c os r a b x v E) as (t & K & _). exact (H t v K). Qed.
Print Assumptions C43_once_partial.
(** With fewer keys than the limit of the first level, a lookup returns nothing or the latest value. *)
Theorem C43_small_partial : forall c ks os r a b x v, length ks < cc_max1 c -> (forall r t y u, In (OPut r t y u) os -> In y ks) ->
  fst (get c r a b x (after c os new_cache)) = Some v -> exists t, latest os x t v.
Proof. exact small_served. Qed.
Print Assumptions C43_small_partial.
(** A value is found right after it was stored. *)
Theorem C43_own : forall c r r' t a b x v s, alive (cc_ttl c) a t -> fst (get c r' a b x (put c r t x v s)) = Some v.
Proof. exact own_put. Qed.
Print Assumptions C43_own.
Example C43_example :
  let os := [OPut by_key (sec 1) k old; OPut by_key (sec 2) j old; OPut by_key (sec 3) k new] in
  fst (get short by_key (sec 62) (sec 62) k (after short os new_cache)) = Some new /\ fst (get short by_key (sec 63) (sec 63) k (after short os new_cache)) = None /\
  length [k; j] < cc_max1 short /\ alive 60 (sec 62) (sec 3).
Proof. split; [vm_compute; reflexivity|]. split; [vm_compute; reflexivity|]. split; [cbn; lia|]. right. split; vm_compute; congruence. Qed.

(** ** C44 *)
(** No lookup returns an expired value. *)
Theorem C44_expiry : forall c os r now x v, fst (get c r now now x (after c os new_cache)) = Some v -> exists t, put_since os x t v /\ alive (cc_ttl c) now t.
Proof. intros c os r now x v H. destruct (served c os r now now x v H) as (t & A & B). exists t. tauto. Qed.
Print Assumptions C44_expiry.
(** With a configuration that passes validation, no level outgrows its limit. *)
Theorem C44_capacity_partial : forall c os, cfg_ok c = true -> (forall o, In o os -> op_ranks o) ->
  length (c_l1 (after c os new_cache)) <= cc_max1 c /\ length (c_l2 (after c os new_cache)) <= cc_max2 c /\ size (after c os new_cache) <= capacity c.
Proof.
  intros c os H Hr. destruct (state_within c os H Hr) as [A B]. unfold state in *. split; [exact A|]. split; [exact B|]. unfold size, capacity. lia.
Qed.
Print Assumptions C44_capacity_partial.
(** The constructor does not validate: a limit of zero is not kept. *)
Theorem C44_zero_refuted : exists c o, op_ranks o /\ cc_max1 c = 0 /\ length (c_l1 (after c [o] new_cache)) = 1.
Proof. exists (mkCcfg 0 1 0 1), (OPut by_key 0 k old). split; [exact by_key_ranks|]. split; reflexivity. Qed.
Print Assumptions C44_zero_refuted.
Example C44_example : cfg_ok tiny = true /\ (forall o, In o stale_history -> op_ranks o) /\
  akeys (c_l1 (after tiny stale_history new_cache)) = [j] /\ akeys (c_l2 (after tiny stale_history new_cache)) = [k].
Proof.
  split; [reflexivity|]. split; [|split; vm_compute; reflexivity]. intros o H. repeat (destruct H as [<-|H]; [exact by_key_ranks|]). destruct H.
Qed.

(** ** C95 *)
(** The membership test says yes exactly when a lookup at that moment would find a value. *)
Theorem C95_contains : forall c r a b x s, contains a b x s = true <-> fst (get c r a b x s) <> None.
Proof. exact contains_get. Qed.
Print Assumptions C95_contains.
Example C95_example : contains 0 0 k (after tiny stale_history new_cache) = true /\ contains 0 0 k new_cache = false.
Proof. split; vm_compute; reflexivity. Qed.

(** ** C96 *)
(** One hit and one miss are reported as one hit and two misses. *)
Theorem C96_refuted : exists c os, lookups (rev os) = 2 /\ total_hits (after c os new_cache) = 1 /\ total_misses (after c os new_cache) = 2.
Proof. exists tiny, [OPut by_key 0 k old; OGet by_key 0 0 k; OGet by_key 0 0 j]. vm_compute. repeat split. Qed.
Print Assumptions C96_refuted.
(** The hits and the misses of the first level count the lookups since the last clear; the reported misses are twice as many. *)
Theorem C96_exact_partial : forall c os, let s := after c os new_cache in
  total_hits s + cs_misses1 (c_stats s) = lookups (rev os) /\ total_misses s = 2 * cs_misses1 (c_stats s).
Proof. intros c os s. destruct (state_counted c os) as [A B]. fold (state c os) in s. subst s. unfold total_hits, total_misses. lia. Qed.
Print Assumptions C96_exact_partial.
Example C96_example : lookups (rev [OGet by_key 0 0 k; OClear; OPut by_key 0 k old; OGet by_key 0 0 k; OGet by_key 0 0 j]) = 2.
Proof. reflexivity. Qed.

(** ** C97 *)
(** Without concurrency a removed key is gone until it is stored again; the same for a clear. *)
Theorem C97_removed_partial : forall c u w x r a b, (forall r' t v, ~ In (OPut r' t x v) w) ->
  fst (get c r a b x (after c (u ++ ORemove x :: w) new_cache)) = None /\ fst (get c r a b x (after c (u ++ OClear :: w) new_cache)) = None.
Proof. intros c u w x r a b H. split; [exact (removed_gone c u w x r a b H)|exact (cleared_gone c u w x r a b H)]. Qed.
Print Assumptions C97_removed_partial.
(** With concurrency it can come back: an eviction in flight files the entry in the second level after the removal is over. *)
Definition crowd : list task := [TPut 0 k old; TGet 0 0 k; TPut 0 j old; TRemove1 k; TGet 0 0 k].
Definition turns (l : list nat) : list (nat * ranking) := map (fun i => (i, by_key)) l.
Theorem C97_refuted : exists y0 y1 y2, srun tiny (turns [0; 0; 1; 2; 2]) (start crowd) = Some y0 /\ srun tiny (turns [3; 3]) y0 = Some y1 /\ srun tiny (turns [2; 2; 2; 2; 2; 4; 4]) y1 = Some y2 /\
  (forall x, In x crowd -> fresh x) /\ nth_error (y_tasks y0) 0 = Some (TDone None) /\ nth_error (y_tasks y0) 3 = Some (TRemove1 k) /\
  nth_error (y_tasks y1) 3 = Some (TDone None) /\ nth_error (y_tasks y1) 4 = Some (TGet 0 0 k) /\ nth_error (y_tasks y2) 4 = Some (TDone (Some old)).
Proof.
  do 3 eexists. split; [vm_compute; reflexivity|]. split; [vm_compute; reflexivity|]. split; [vm_compute; reflexivity|].
  split; [|vm_compute; repeat split]. intros x H. repeat (destruct H as [<-|H]; [exact I|]). destruct H.
Qed.
Print Assumptions C97_refuted.
Example C97_example : fst (get tiny by_key 0 0 k (after tiny (stale_history ++ ORemove k :: [OPut by_key 0 j new]) new_cache)) = None /\
  fst (get tiny by_key 0 0 k (after tiny stale_history new_cache)) = Some old.
Proof. split; vm_compute; reflexivity. Qed.

(** ** C98 *)
(** Whatever the number of tasks and the schedule, a lookup that returns a value returns one that some task stored under that key, unexpired. *)
Theorem C98_concurrent : forall c xs l y i v, (forall x, In x xs -> fresh x) -> srun c l (start xs) = Some y -> nth_error (y_tasks y) i = Some (TDone (Some v)) ->
  exists a b x t, nth_error xs i = Some (TGet a b x) /\ In (TPut t x v) xs /\ (alive (cc_ttl c) a t \/ alive (cc_ttl c) b t).
Proof. exact concurrent_served. Qed.
Print Assumptions C98_concurrent.
Example C98_example : exists y, srun tiny (turns [0; 0; 1]) (start crowd) = Some y /\ nth_error (y_tasks y) 1 = Some (TDone (Some old)).
Proof. eexists. split; vm_compute; reflexivity. Qed.
(** A call running alone does, step by step, what the sequential model says. *)
Theorem C98_alone : forall c r o s, uses o r -> exists n,
  srun c (alone r n) (mkSystem [task_of o] (c_l1 s) (c_l2 s)) = Some (mkSystem [TDone (fst (exec c o s))] (c_l1 (snd (exec c o s))) (c_l2 (snd (exec c o s)))).
Proof. exact alone_exec. Qed.
Print Assumptions C98_alone.
