(** Properties C45, C46, C99 and C100: the repository cache. *)
From Verif Require Import Base Base_lemmas Maps Order_spec Locks_model Locks_spec Locks_proofs Rcache_model Rcache_spec Rcache_proofs.
From Coq Require Import Lia.
Open Scope string_scope. Open Scope list_scope.

(** ** C45 *)
(** A store and a lookup block each other for ever: the store holds the statistics and wants the index, the lookup holds the index and wants the statistics. *)
Definition crossed : list nat := [0; 0; 0; 0; 0; 0; 0; 1; 1; 1; 0].
Theorem C45_refuted : exists s, reached [prog_put true; prog_get] s /\ deadlock s.
Proof.
  destruct (lrun crossed (lstart [prog_put true; prog_get])) as [s|] eqn:E; [|vm_compute in E; discriminate E].
  exists s. split; [exists crossed; exact E|]. vm_compute in E. injection E as <-. split.
  - intros H. specialize (H _ _ (or_introl eq_refl)). discriminate H.
  - intros (i & s' & H). destruct i as [|[|i]]; [discriminate H|discriminate H|]. unfold lstep in H. cbn in H. destruct i; discriminate H.
Qed.
Print Assumptions C45_refuted.
(** The same with a removal and with a cleanup, and for two stores one of which cleans up. *)
Theorem C45_more_refuted : forall q, In q [prog_remove true; prog_cleanup; prog_put true] -> exists s, reached [prog_put true; q] s /\ deadlock s.
Proof.
  intros q H.
  assert (G : forall l q, match lrun l (lstart [prog_put true; q]) with
    | Some s => match ls_tasks s with [(_ :: _, _); _] => match lstep 0 s, lstep 1 s with None, None => True | _, _ => False end | _ => False end
    | None => False end -> exists s, reached [prog_put true; q] s /\ deadlock s).
  { clear. intros l q. destruct (lrun l (lstart [prog_put true; q])) as [s|] eqn:E; [|intros []]. destruct (ls_tasks s) as [|[[|a p] b] [|[p2 b2] [|]]] eqn:F; try (intros []; fail).
    destruct (lstep 0 s) eqn:A; [intros []|]. destruct (lstep 1 s) eqn:B; [intros []|]. intros _. exists s. split; [exists l; exact E|]. split.
    - intros H. specialize (H (a :: p) b). rewrite F in H. discriminate (H (or_introl eq_refl)).
    - intros (i & s' & H). destruct i as [|[|i]]; [congruence|congruence|]. unfold lstep in H. rewrite F in H. cbn in H. destruct i; discriminate H. }
  destruct H as [<-|[<-|[<-|[]]]].
  - apply (G [0; 0; 0; 0; 0; 0; 0; 1; 1; 1; 1; 0]). vm_compute. exact I.
  - apply (G [0; 0; 0; 0; 0; 0; 0; 1; 1; 1; 1; 0]). vm_compute. exact I.
  - apply (G ([1; 1; 1; 1; 1; 1; 1; 1; 1; 1; 1; 1; 1] ++ [1; 1; 1; 1] ++ [0; 0; 0; 0; 0; 0; 0] ++ [1; 1; 1; 1] ++ [0])). vm_compute. exact I.
Qed.
Print Assumptions C45_more_refuted.
(** Without stores, any number of tasks gets on: the index is always taken first. *)
Theorem C45_readers_partial : forall ps,
  Forall (fun p => In p [prog_get; prog_remove true; prog_remove false; prog_clear; prog_stats; prog_cleanup; prog_init true; prog_init false]) ps -> gets_on ps.
Proof.
  intros ps H. apply (ordered_gets_on (fun l => l)). apply Forall_impl with (2 := H). intros p I.
  repeat (destruct I as [<-|I]; [cbn; unfold index_lock, stats_lock; intuition (try lia; try discriminate)|]). destruct I.
Qed.
Print Assumptions C45_readers_partial.
(** Stores get on with each other, with clearing and with reading the statistics while no cleanup is due: the statistics are always taken first. *)
Theorem C45_stores_partial : forall ps, Forall (fun p => In p [prog_put false; prog_remove false; prog_clear; prog_stats; prog_init true; prog_init false]) ps -> gets_on ps.
Proof.
  intros ps H. apply (ordered_gets_on (fun l => 1 - l)). apply Forall_impl with (2 := H). intros p I.
  repeat (destruct I as [<-|I]; [cbn; unfold index_lock, stats_lock; intuition (subst; try lia; try discriminate)|]). destruct I.
Qed.
Print Assumptions C45_stores_partial.
(** In general: any number of tasks that take locks in one order, whatever the locks. *)
Theorem C45_ordered : forall rank ps, Forall (orderly rank []) ps -> gets_on ps.
Proof. exact ordered_gets_on. Qed.
Print Assumptions C45_ordered.
(** The locks are locks. *)
Theorem C45_exclusive : forall rank ps s, Forall (orderly rank []) ps -> reached ps s -> exclusive s.
Proof. intros rank ps s H (l & R). destruct (run_inv rank _ _ _ (start_inv rank ps H) R) as [V _]. exact (inv_excl rank s V). Qed.
Print Assumptions C45_exclusive.
(** Operations one after another always end. *)
Example C45_example : forall p, In p [prog_get; prog_put true; prog_put false; prog_remove true; prog_clear; prog_cleanup] ->
  exists s, lrun (repeat 0 (length p + length (filter (fun a => match a with Acq _ _ => true | _ => false end) p))) (lstart [p]) = Some s /\ all_done s.
Proof.
  intros p H. repeat (destruct H as [<-|H]; [eexists; split; [vm_compute; reflexivity|intros q b [K|[]]; injection K as <- <-; reflexivity]|]). destruct H.
Qed.
Example C45_example_many : Forall (fun p => In p [prog_get; prog_remove true; prog_remove false; prog_clear; prog_stats; prog_cleanup; prog_init true; prog_init false]) [prog_get; prog_cleanup; prog_get; prog_clear].
Proof. repeat (constructor; [cbn; tauto|]). constructor. Qed.

(** ** Concrete data *)
Definition show (e : rentry) : text := re_package e.
Definition noread (s : text) : option (list (text * rentry)) := None.
Definition py : text := T "/p/maya/package.py". Definition k : text := T "maya". Definition v1 : text := T "maya 1".
Definition at_ (now : Z) (f : option (Z * text)) : world := mkWorld (now * GIGA) (fun p => if text_eqb p py then f else None) true true.
Definition hour : rcfg := mkRcfg 3600 300.
Definition ordk (l : list text) : list text := l.
Definition put1 (now m : Z) (x : text) : rop :=
  let w := at_ now (Some (m, x)) in RPut w w ordk (fun _ => w) w k v1 py.
Lemma ordk_any : any_order ordk. Proof. intros l. apply Permutation_refl. Qed.

Lemma put1_stores now m x : (0 <= now)%Z -> (0 <= m)%Z -> stores (put1 now (m * GIGA) x) k v1 py now m x.
Proof.
  intros A B. unfold put1, stores. cbn [w_write at_ w_now w_file]. rewrite text_eqb_refl. change GIGA with 1000000000%Z. unfold second. rewrite Z.div_mul by lia. repeat split; try lia.
  exists (m * 1000000000)%Z. rewrite Z.div_mul by lia. repeat split; lia.
Qed.

(** ** C46 *)
(** The value of a package whose source is gone is served. *)
Theorem C46_deleted_refuted : exists os w v path t m x, newest os k v path t m x /\ w_file w path = None /\ fst (rget w k (rafter show hour os new_rcache)) = Some (Some v).
Proof.
  exists [put1 100 (50 * GIGA) (T "old")], (at_ 110 None), v1, py, 100%Z, 50%Z, (T "old"). split; [|split; vm_compute; reflexivity].
  exists [], (put1 100 (50 * GIGA) (T "old")), []. split; [reflexivity|]. split; [|intros o' []]. apply (put1_stores 100 50); lia.
Qed.
Print Assumptions C46_deleted_refuted.
(** So is one whose source was written again in the same second, or replaced by an older file. *)
Theorem C46_changed_refuted : forall ns, In ns [50 * GIGA + 1; 20 * GIGA]%Z ->
  exists os w v path t m x, newest os k v path t m x /\ w_file w path = Some (ns, T "new") /\ ~ unchanged w path x /\ fst (rget w k (rafter show hour os new_rcache)) = Some (Some v).
Proof.
  intros ns H. exists [put1 100 (50 * GIGA) (T "old")], (at_ 110 (Some (ns, T "new"))), v1, py, 100%Z, 50%Z, (T "old"). split.
  - exists [], (put1 100 (50 * GIGA) (T "old")), []. split; [reflexivity|]. split; [|intros o' []]. apply (put1_stores 100 50); lia.
  - split; [reflexivity|]. split; [intros (n & K); vm_compute in K; discriminate K|]. destruct H as [<-|[<-|[]]]; vm_compute; reflexivity.
Qed.
Print Assumptions C46_changed_refuted.
(** No number of entries is too many. *)
Definition many_key (i : nat) : text := repeat "a"%char i.
Definition many_put (i : nat) : rop := let w := at_ 0 (Some (0%Z, [])) in RPut w w ordk (fun _ => w) w (many_key i) v1 py.
Definition many (n : nat) : list rop := map many_put (seq 0 n).
Lemma many_key_inj i j : many_key i = many_key j -> i = j.
Proof. intros H. apply (f_equal (@length _)) in H. unfold many_key in H. rewrite !repeat_length in H. exact H. Qed.
Lemma many_stores i : stores (many_put i) (many_key i) v1 py 0 0 [].
Proof. cbn. repeat split; try lia. exists 0%Z. repeat split; try lia. Qed.
Lemma many_held n i : i < n -> aget (many_key i) (r_index (rafter show hour (many n) new_rcache)) <> None.
Proof.
  intros L. unfold many. replace n with (i + (S (n - i - 1))) by lia. rewrite seq_app, map_app. cbn [seq map].
  rewrite (held show hour _ (many_put i) _ (many_key i) v1 py 0 0 []); [discriminate|apply many_stores| | |].
  - intros o I. apply in_map_iff in I. destruct I as (j & <- & J). apply in_seq in J. split; [intros []|]. intros v' p' t' m' x' (K & _). apply many_key_inj in K. cbn in J. lia.
  - intros o [<-|I]; [exact ordk_any|]. apply in_map_iff in I. destruct I as (j & <- & J). exact ordk_any.
  - intros o w [<-|I] K; [cbn in K; subst w; reflexivity|]. apply in_map_iff in I. destruct I as (j & <- & J). cbn in K. subst w. reflexivity.
Qed.
Theorem C46_limit_refuted : forall n, exists os, (forall o, In o os -> any_orders o) /\ n <= length (r_index (rafter show hour os new_rcache)).
Proof.
  intros n. exists (many n). split; [intros o I; apply in_map_iff in I; destruct I as (j & <- & _); exact ordk_any|].
  rewrite <- (map_length fst). change (map fst (r_index (rafter show hour (many n) new_rcache))) with (akeys (r_index (rafter show hour (many n) new_rcache))).
  replace n with (length (map many_key (seq 0 n))) at 1 by (rewrite map_length, seq_length; reflexivity). apply NoDup_incl_length.
  - apply FinFun.Injective_map_NoDup; [intros i j; apply many_key_inj|apply seq_NoDup].
  - intros x H. apply in_map_iff in H. destruct H as (i & <- & I). apply in_seq in I. apply aget_some. destruct (aget (many_key i) (r_index (rafter show hour (many n) new_rcache))) as [e|] eqn:E; [exists e; reflexivity|]. exfalso. apply (many_held n i); [lia|exact E].
Qed.
Print Assumptions C46_limit_refuted.
(** What is served is the newest value stored and not discarded; its lifetime is not over, and the source is not seen with a later second of change. *)
Theorem C46_served_partial : forall write cfg os w k v, (0 <= rc_ttl cfg)%Z -> fst (rget w k (rafter write cfg os new_rcache)) = Some (Some v) ->
  exists path t m x, newest os k v path t m x /\ in_time (rc_ttl cfg) w t /\ not_later w path m.
Proof. exact rserved. Qed.
Print Assumptions C46_served_partial.
(** Conversely such a value is served, if it passed at every earlier check as well. *)
Theorem C46_kept_partial : forall write cfg u o r w k v path t m x, stores o k v path t m x ->
  (forall o', In o' r -> ~ discards o' k /\ forall v' path' t' m' x', ~ stores o' k v' path' t' m' x') ->
  (forall o', In o' (o :: r) -> any_orders o') -> (0 <= rc_ttl cfg)%Z -> (t + rc_ttl cfg < 2 ^ 64)%Z ->
  (forall w', (exists o', In o' (o :: r) /\ looks o' k w') \/ w' = w -> in_time (rc_ttl cfg) w' t /\ not_later w' path m) ->
  fst (rget w k (rafter write cfg (u ++ o :: r) new_rcache)) = Some (Some v).
Proof. exact rkept. Qed.
Print Assumptions C46_kept_partial.
(** A cleanup that succeeds leaves exactly the entries that pass the check. *)
Theorem C46_cleanup_partial : forall write cfg os ord wv we k e, any_order ord -> let c := rafter write cfg os new_rcache in
  fst (rcleanup ord wv we c) = true -> aget k (r_index (snd (rcleanup ord wv we c))) = Some e <-> aget k (r_index c) = Some e /\ rvalid (wv k) e = true.
Proof.
  intros write cfg os ord wv we k e O c S1. pose proof (after_keys write cfg os) as N. fold c in N. split.
  - intros H. split; [|exact (cleanup_drops ord wv we c k e O N S1 H)]. pose proof (cleanup_spec ord wv we c) as K. destruct (rcleanup ord wv we c) as [b c']. apply K. exact H.
  - intros [A B]. apply cleanup_keeps; assumption.
Qed.
Print Assumptions C46_cleanup_partial.
Example C46_example : let os := [put1 100 (50 * GIGA) (T "old"); put1 200 (150 * GIGA) (T "new")] in
  fst (rget (at_ 3800 (Some ((150 * GIGA)%Z, T "new"))) k (rafter show hour os new_rcache)) = Some (Some v1) /\
  fst (rget (at_ 3801 (Some ((150 * GIGA)%Z, T "new"))) k (rafter show hour os new_rcache)) = Some None /\
  fst (rget (at_ 300 (Some ((151 * GIGA)%Z, T "new"))) k (rafter show hour os new_rcache)) = Some None.
Proof. vm_compute. repeat split. Qed.

(** ** C99 *)
(** The number of entries reported is wrong after a lookup dropped one. *)
Theorem C99_refuted : exists os, let c := rafter show hour os new_rcache in r_index c = [] /\ r_entries c = 1.
Proof. exists [put1 100 (50 * GIGA) (T "old"); RGet (at_ 9999 None) k]. vm_compute. repeat split. Qed.
Print Assumptions C99_refuted.
(** It is never too small. *)
Theorem C99_bound_partial : forall write cfg os, let c := rafter write cfg os new_rcache in length (r_index c) <= r_entries c.
Proof. intros write cfg os. exact (rentries_bound write cfg os). Qed.
Print Assumptions C99_bound_partial.
(** It is right after a removal, a clear or a cleanup that succeeded, and after storing. *)
Theorem C99_exact_partial : forall write cfg w k c, (fst (rremove w k c) = Some true -> r_entries (snd (rremove w k c)) = length (r_index (snd (rremove w k c))) /\ aget k (r_index (snd (rremove w k c))) = None) /\
  (fst (rclear w c) = true -> r_entries (snd (rclear w c)) = length (r_index (snd (rclear w c)))) /\
  (forall ord wv we, fst (rcleanup ord wv we c) = true -> r_entries (snd (rcleanup ord wv we c)) = length (r_index (snd (rcleanup ord wv we c)))) /\
  (forall wc ord wv we pkg path, fst (rput write cfg w wc ord wv we k pkg path c) = true ->
     r_entries (snd (rput write cfg w wc ord wv we k pkg path c)) = length (r_index (snd (rput write cfg w wc ord wv we k pkg path c)))).
Proof.
  intros write cfg w k c. assert (C : forall ord wv we c, fst (rcleanup ord wv we c) = true -> r_entries (snd (rcleanup ord wv we c)) = length (r_index (snd (rcleanup ord wv we c)))).
  { intros ord wv we c'. unfold rcleanup. destruct (drop_keys _ _ _ _) as [[[|] i] d]; [reflexivity|discriminate]. }
  split; [|split; [|split; [intros ord wv we; apply C|]]].
  - unfold rremove. destruct (ahas k (r_index c)); [|discriminate]. destruct (remove_file w k (r_disk c)) as [[|] d]; [|discriminate]. intros _. split; [reflexivity|]. apply aget_del_same.
  - unfold rclear. destruct (w_remove w); [reflexivity|discriminate].
  - intros wc ord wv we pkg path. unfold rput. destruct (entry_new _ _ _ _); [|discriminate]. destruct (w_write w); [|discriminate]. unfold rcleanup_if. destruct (match r_last _ with Some _ => _ | None => _ end); [apply C|reflexivity].
Qed.
Print Assumptions C99_exact_partial.
(** Hits and misses count the lookups since the last clear. *)
Theorem C99_lookups_partial : forall write cfg os, (forall o, In o os -> removable o) -> let c := rafter write cfg os new_rcache in r_hits c + r_misses c = gets_rev (rev os).
Proof. intros write cfg os. exact (rcounts write cfg os). Qed.
Print Assumptions C99_lookups_partial.
Example C99_example : let os := [RGet (at_ 1 None) k; put1 100 (50 * GIGA) (T "old"); RGet (at_ 101 None) k] in
  (forall o, In o os -> removable o) /\ r_hits (rafter show hour os new_rcache) = 1 /\ gets_rev (rev os) = 2.
Proof. split; [intros o H; repeat (destruct H as [<-|H]; [vm_compute; exact I || reflexivity|]); destruct H|]. vm_compute. split; reflexivity. Qed.

(** ** C100 *)
(** Nothing survives a restart: entries are written to files but the index that is read back is written by nothing. *)
Theorem C100_refuted : forall write read cfg os, ~ written os (T "index") -> exists c, reopen read (r_disk (rafter write cfg os new_rcache)) = Some c /\
  forall w k, fst (rget w k c) = Some None.
Proof. intros write read cfg os N. eexists. split; [exact (reopened_empty write cfg read os N)|]. intros w k'. reflexivity. Qed.
Print Assumptions C100_refuted.
(** A package stored under the key [index] makes the cache unusable at the next start: an entry does not read as an index. *)
Theorem C100_index_refuted : forall write read cfg w ord pkg path, (forall e, read (write e) = None) -> any_order ord ->
  w_write w = true -> (0 <= w_now w)%Z -> (0 <= rc_ttl cfg)%Z -> (second (w_now w) + rc_ttl cfg < 2 ^ 64)%Z -> (exists ns x, (0 <= ns)%Z /\ w_file w path = Some (ns, x)) ->
  reopen read (r_disk (rafter write cfg [RPut w w ord (fun _ => w) w (T "index") pkg path] new_rcache)) = None.
Proof.
  intros write read cfg w ord pkg path F O W N P L (ns & x & A & B).
  assert (E : entry_new w pkg path (rc_ttl cfg) = Some (mkRentry pkg (second (w_now w)) (rc_ttl cfg) path (second ns))) by (apply entry_new_some; exists ns, x; auto).
  set (e := mkRentry pkg (second (w_now w)) (rc_ttl cfg) path (second ns)) in *.
  assert (V : rvalid w e = true).
  { apply rvalid_complete; subst e; cbn; [apply second_nonneg; exact N|exact P|exact L|unfold in_time; lia|]. intros ns' x' K _. rewrite B in K. injection K as <- <-. lia. }
  unfold rafter. cbn [fold_left rexec]. unfold rput. rewrite E, W. unfold rcleanup_if. cbn [r_last new_rcache]. unfold rcleanup. cbn [r_index new_rcache aput filter fst snd r_disk]. rewrite V. cbn [negb akeys map].
  assert (Z1 : ord [] = []) by (apply Permutation_nil; apply Permutation_sym; apply O). rewrite Z1. cbn [drop_keys snd r_disk]. unfold reopen. cbn [aput aget].
  change (key_file (T "index")) with (T "index.json"). rewrite text_eqb_refl. rewrite F. reflexivity.
Qed.
Print Assumptions C100_index_refuted.
(** Otherwise opening succeeds. *)
Theorem C100_opens_partial : forall write read cfg os, ~ written os (T "index") -> reopen read (r_disk (rafter write cfg os new_rcache)) <> None.
Proof. intros write read cfg os N H. rewrite (reopened_empty write cfg read os N) in H. discriminate H. Qed.
Print Assumptions C100_opens_partial.
Example C100_example : ~ written [put1 100 (50 * GIGA) (T "old")] (T "index") /\ akeys (r_disk (rafter show hour [put1 100 (50 * GIGA) (T "old")] new_rcache)) = [T "maya.json"] /\
  (forall e, noread (show e) = None).
Proof. split; [|split; [vm_compute; reflexivity|reflexivity]]. intros (w & wc & ord & wv & we & v & p & [H|[]]). discriminate H. Qed.
