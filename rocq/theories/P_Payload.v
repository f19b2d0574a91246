(** Properties C40-C42 and C67-C73: the payload cache. *)
From Verif Require Import Base Base_lemmas Maps Order_spec Base26_model Base26_spec Payload_model Payload_spec Payload_proofs Payload_seq Payload_misc
  Payload_crash.
From Coq Require Import Permutation.
Open Scope string_scope. Open Scope list_scope.

(** ** Concrete data *)
Definition same (b : bucket) : bucket := b.
Lemma same_order : any_order same.
Proof. intros l. apply Permutation_refl. Qed.
Definition flat (_ : text) : text := T "0000".
Definition variant (n : N) : handle := mkHandle (T "p") (Some (T "1")) (Some n) [].
Definition its_files : files := [(T "f", T "one"); (T "g", T "two")].
Definition always (fs : files) (_ : text) : files := fs.
Lemma empty_sound truth : complete truth no_cache /\ no_stray no_cache /\ tidy no_cache /\ covering truth no_cache.
Proof. repeat split; intros b; try constructor; intros; discriminate. Qed.
Lemma empty_misc hash : unique_entries no_cache /\ filed hash no_cache /\ proper no_cache.
Proof. repeat split; try (intros b; intros; discriminate). constructor. Qed.
Lemma empty_short b : short_names no_cache b.
Proof. intros i H. destruct (H eq_refl). Qed.

(** ** C40 *)
(** After any sequence of additions and lookups, each cut off at an arbitrary step, whatever a lookup finds has every file of its
    variant with its full content.  The cache may start in any state in which that holds. *)
Theorem C40_crash : forall hash truth ks c ord now h i, tidy c -> covering truth c ->
  (forall k, In k ks -> any_order (k_order k) /\ honest truth (k_op k) /\ removal (k_op k) = false) -> any_order ord ->
  finds (look hash ord now h (history hash ks c)) i ->
  holds_all (truth (hrepr h)) (payload (history hash ks c) (hpath hash h) i).
Proof. exact crash_found. Qed.
Print Assumptions C40_crash.
(** While no hash directory has more than 26 entries the payload is exactly the variant's files. *)
Theorem C40_exact : forall hash truth ks c ord now h i, complete truth c -> no_stray c -> tidy c ->
  (forall k, In k ks -> any_order (k_order k) /\ honest truth (k_op k) /\ removal (k_op k) = false) -> roomy hash ks c -> any_order ord ->
  finds (look hash ord now h (history hash ks c)) i ->
  payload (history hash ks c) (hpath hash h) i = Some (truth (hrepr h)).
Proof. exact history_found. Qed.
Print Assumptions C40_exact.
(** One addition cut off in the middle of its second file, another one that completes: only the second variant is found. *)
Definition two_cuts : list cut :=
  [mkCut (OAdd (variant 0) its_files true) same 10 9; mkCut (OAdd (variant 1) its_files true) same 11 20].
Example C40_example :
  (forall k, In k two_cuts -> any_order (k_order k) /\ honest (always its_files) (k_op k) /\ removal (k_op k) = false) /\
  look flat same 12 (variant 0) (history flat two_cuts no_cache) = LBusy (T "a") false /\
  payload (history flat two_cuts no_cache) (hpath flat (variant 0)) (T "a") = Some [(T "f", T "one"); (T "g", [])] /\
  finds (look flat same 12 (variant 1) (history flat two_cuts no_cache)) (T "b").
Proof.
  split; [|split; [vm_compute; reflexivity|split; [vm_compute; reflexivity|]]].
  - intros k [<-|[<-|[]]]; (split; [exact same_order|]); (split; [|reflexivity]); (split; [reflexivity|]); cbn; repeat constructor; cbn; intuition discriminate.
  - exists (variant 1), 6%N. vm_compute. reflexivity.
Qed.

(** ** C41 *)
(** Two processes cache the same variant; the second empties a file again after the first has finished, and the lookup finds the variant. *)
Theorem C41_refuted : exists hash truth ops ns h i,
  (forall o, In o ops -> honest truth o /\ removal o = false) /\
  let c := fst (schedule hash same 10 ns (no_cache, map Start ops)) in
  finds (look hash same 10 h c) i /\ ~ holds_all (truth (hrepr h)) (payload c (hpath hash h) i).
Proof.
  exists flat, (always its_files), [OAdd (variant 0) its_files true; OAdd (variant 0) its_files true],
    [0; 1; 0; 1; 0; 0; 0; 0; 0; 0; 0; 0; 1; 1; 1; 1; 1; 0], (variant 0), (T "a").
  split.
  { intros o [<-|[<-|[]]]; (split; [|reflexivity]); (split; [reflexivity|]); cbn; repeat constructor; cbn; intuition discriminate. }
  cbv zeta. split; [exists (variant 0), 6%N; vm_compute; reflexivity|].
  intros (l & El & H). specialize (H (T "f") (T "one") (or_introl eq_refl)). vm_compute in El. injection El as <-. vm_compute in H. discriminate.
Qed.
Print Assumptions C41_refuted.
(** Any number of processes add and look up, interleaved in any way, crashing anywhere.  If additions to one hash directory do not
    overlap and no hash directory has more than 26 entries, whatever is found is complete. *)
Theorem C41_concurrent_partial : forall hash truth c st ord now h i, complete truth c -> no_stray c -> tidy c ->
  run hash truth (c, []) st -> any_order ord -> finds (look hash ord now h (fst st)) i ->
  payload (fst st) (hpath hash h) i = Some (truth (hrepr h)).
Proof. exact run_found. Qed.
Print Assumptions C41_concurrent_partial.
(** An addition in progress and a second process that looks up at the same time. *)
Example C41_example : exists st, run flat (always its_files) (no_cache, []) st /\
  nth_error (snd st) 1 = Some (Finished (Copying, Some (hpath flat (variant 0), T "a"))) /\
  payload (fst st) (hpath flat (variant 0)) (T "a") = Some [(T "f", [])].
Proof.
  assert (forall st, run flat (always its_files) (no_cache, []) st -> forall n, n < 2 ->
    (forall h src f, nth_error (snd st) n = Some (Start (OAdd h src f)) -> length (snd st) = 1 /\ n = 0) ->
    (forall h src, nth_error (snd st) n = Some (Chosen h src) -> ca_buckets (fst st) = []) ->
    run flat (always its_files) (no_cache, []) (sys_step flat same 10 n st)) as Go.
  { intros st H n Hn H1 H2. apply run_step; [exact H|exact same_order| |].
    - intros h src f E m s Hm E'. destruct (H1 h src f E) as [E1 ->]. destruct m; [congruence|]. assert (nth_error (snd st) (S m) <> None) as K by congruence.
      apply nth_error_Some in K. lia.
    - intros h src E i Hi. exfalso. apply Hi. unfold slot_of, bucket_of. rewrite (H2 h src E). reflexivity. }
  assert (run flat (always its_files) (no_cache, []) (no_cache, [Start (OAdd (variant 0) its_files true)])) as R1.
  { apply (run_spawn flat _ (no_cache, []) (no_cache, []) (OAdd (variant 0) its_files true)); [apply run_start| |reflexivity].
    split; [reflexivity|]. cbn. repeat constructor; cbn; intuition discriminate. }
  pose proof (Go _ R1 0 ltac:(lia) ltac:(cbn; auto) ltac:(cbn; auto)) as R2.
  pose proof (Go _ R2 0 ltac:(lia) ltac:(cbn; intros; discriminate) ltac:(cbn; auto)) as R3.
  pose proof (run_spawn flat _ _ _ (OGet (variant 0)) R3 I eq_refl) as R4.
  set (st4 := (fst (sys_step flat same 10 0 (sys_step flat same 10 0 (no_cache, [Start (OAdd (variant 0) its_files true)]))),
               snd (sys_step flat same 10 0 (sys_step flat same 10 0 (no_cache, [Start (OAdd (variant 0) its_files true)]))) ++ [Start (OGet (variant 0))])) in *.
  exists (schedule flat same 10 [0; 0; 0; 0; 0; 1] st4). split; [|split; vm_compute; reflexivity]. cbn [schedule].
  repeat (apply Go; [|lia|vm_compute; intros; discriminate|vm_compute; intros; discriminate]). exact R4.
Qed.

(** ** C42 *)
Fixpoint add_many (hash : text -> text) (n : nat) (hs : list handle) (c : cache) : cache :=
  match hs with [] => c | h :: hs' => add_many hash (S n) hs' (fst (done hash same 10 (OAdd h [(T "f", show_N (N.of_nat n))] true) c)) end.
(** With 28 variants whose digests share four characters, adding the 28th makes the 27th disappear. *)
Theorem C42_refuted : exists hash hs h src h' i, let c := add_many hash 0 hs no_cache in
  hrepr h <> hrepr h' /\ finds (look hash same 10 h' c) i /\
  look hash same 10 h' (fst (done hash same 10 (OAdd h src true) c)) = LNone.
Proof.
  exists flat, (map (fun n => variant (N.of_nat n)) (seq 0 27)), (variant 27), [(T "f", T "x")], (variant 26), (T "aa"). cbv zeta.
  split; [vm_compute; discriminate|]. split; [exists (variant 26), 2%N; vm_compute; reflexivity|vm_compute; reflexivity].
Qed.
Print Assumptions C42_refuted.
(** While the hash directory has at most 26 entries, an operation on one variant, cut off after any number of steps, changes nothing
    a lookup of another variant sees. *)
Theorem C42_others_partial : forall hash ord now k c o ord1 ord2 now' h,
  any_order ord -> any_order ord1 -> any_order ord2 -> tidy c -> unique_entries c -> short_op hash c o -> hrepr h <> hrepr (op_handle o) ->
  let c' := fst (steps hash ord now k (c, Start o)) in
  look hash ord2 now' h c' = look hash ord1 now' h c /\
  forall i, finds (look hash ord1 now' h c) i -> payload c' (hpath hash h) i = payload c (hpath hash h) i.
Proof. exact others_kept. Qed.
Print Assumptions C42_others_partial.
(** The added variant itself is found afterwards, with its files. *)
Theorem C42_added_partial : forall hash ord now c h src ord' now', any_order ord -> any_order ord' -> tidy c -> no_stray c ->
  short_names c (hpath hash h) -> NoDup (akeys src) -> look hash ord now h c = LNone ->
  let r := done hash ord now (OAdd h src true) c in
  exists i, snd r = Finished (CreatedNow, Some (hpath hash h, i)) /\ finds (look hash ord' now' h (fst r)) i /\ payload (fst r) (hpath hash h) i = Some src.
Proof.
  intros hash ord now c h src ord' now' H1 H2 H3 H4 H5 H6 H7. cbv zeta.
  destruct (add_findable hash ord now c h src ord' now' H1 H2 H3 H4 H5 H6 H7) as (i & E & F & P). exists i. split; [rewrite E; reflexivity|]. split; assumption.
Qed.
Print Assumptions C42_added_partial.
(** Every operation keeps one entry per variant. *)
Theorem C42_unique_partial : forall hash ord now k c o, any_order ord -> tidy c -> unique_entries c -> short_op hash c o ->
  unique_entries (fst (steps hash ord now k (c, Start o))).
Proof. exact unique_kept. Qed.
Print Assumptions C42_unique_partial.
Example C42_example : let c := fst (done flat same 10 (OAdd (variant 0) its_files true) no_cache) in
  tidy c /\ unique_entries c /\ finds (look flat same 10 (variant 0) c) (T "a") /\
  finds (look flat same 11 (variant 0) (fst (done flat same 11 (OAdd (variant 1) its_files true) c))) (T "a").
Proof.
  cbv zeta. split; [apply steps_tidy, (proj1 (proj2 (proj2 (empty_sound (always [])))))|]. split.
  - apply unique_kept; [exact same_order|apply (empty_sound (always []))|apply (empty_misc flat)|apply empty_short].
  - split; exists (variant 0), 6%N; vm_compute; reflexivity.
Qed.

(** ** C67 *)
(** Attribute texts can imitate other attributes: the lookup of a variant that was never cached then finds the payload of another
    variant, whatever the digest. *)
Theorem C67_refuted : forall hash, exists h1 h2 fs i, h1 <> h2 /\
  let c := fst (done hash same 10 (OAdd h1 fs true) no_cache) in
  finds (look hash same 10 h2 c) i /\ payload c (hpath hash h2) i = Some fs.
Proof.
  intros hash. exists (mkHandle (T "p") (Some (T "1")) None [(T "a", T "1, b=2")]), (mkHandle (T "p") (Some (T "1")) None [(T "a", T "1"); (T "b", T "2")]), its_files.
  set (h1 := mkHandle (T "p") (Some (T "1")) None [(T "a", T "1, b=2")]). set (h2 := mkHandle (T "p") (Some (T "1")) None [(T "a", T "1"); (T "b", T "2")]).
  assert (hrepr h2 = hrepr h1) as Er by (vm_compute; reflexivity).
  assert (hpath hash h2 = hpath hash h1) as Ep by (unfold hpath; rewrite Er; reflexivity).
  assert (forall c, look hash same 10 h2 c = look hash same 10 h1 c) as El by (intros c; unfold look, matches; rewrite Er, Ep; reflexivity).
  destruct (add_findable hash same 10%N no_cache h1 its_files same 10%N same_order same_order) as (i & _ & Hf & Hp);
    [apply (empty_sound (always []))|apply (empty_sound (always []))|apply empty_short|cbn; repeat constructor; cbn; intuition discriminate|reflexivity|].
  exists i. split; [discriminate|]. cbv zeta. rewrite El, Ep. split; [exact Hf|exact Hp].
Qed.
Print Assumptions C67_refuted.
(** Variants without attributes (the only ones the program makes) never mix, even if the digests of all variants were equal. *)
Theorem C67_own_partial : forall hash ord now h c i h' z, any_order ord -> tidy c -> filed hash c -> plain_handle h -> plain_handle h' ->
  look hash ord now h c = LFound i h' z -> h' = h.
Proof. exact found_own. Qed.
Print Assumptions C67_own_partial.
(** Every operation files its entry under the variant's own path. *)
Theorem C67_filed : forall hash ord now k c o, any_order ord -> tidy c -> filed hash c -> filed hash (fst (steps hash ord now k (c, Start o))).
Proof. exact filed_steps. Qed.
Print Assumptions C67_filed.
Example C67_example : let c := fst (done flat same 10 (OAdd (variant 0) its_files true) no_cache) in
  filed flat c /\ plain_handle (variant 0) /\ look flat same 10 (variant 0) c = LFound (T "a") (variant 0) 6 /\ look flat same 10 (variant 1) c = LNone.
Proof.
  cbv zeta. split; [apply filed_steps; [exact same_order|apply (empty_sound (always []))|apply (empty_misc flat)]|].
  split; [|split; vm_compute; reflexivity]. split; [reflexivity|]. cbn. split; [intuition discriminate|]. intros v [= <-]. cbn. intuition discriminate.
Qed.

(** ** C68 *)
(** A removal interrupted between moving the payload away and deleting the metadata leaves a variant that is found without payload. *)
Theorem C68_refuted : exists hash h src k i,
  let c := fst (done hash same 10 (OAdd h src true) no_cache) in
  let c' := fst (steps hash same 10 k (c, Start (ORemove h))) in
  finds (look hash same 10 h c') i /\ payload c' (hpath hash h) i = None.
Proof.
  exists flat, (variant 0), its_files, 4, (T "a"). cbv zeta. split; [exists (variant 0), 6%N; vm_compute; reflexivity|vm_compute; reflexivity].
Qed.
Print Assumptions C68_refuted.
(** A lookup that runs at the same time as a removal can put the metadata back: the removed variant is found, without payload. *)
Theorem C68_race_refuted : exists hash h src ns i,
  let c := fst (done hash same 10 (OAdd h src true) no_cache) in
  let st := schedule hash same 10 ns (c, [Start (OGet h); Start (ORemove h)]) in
  (forall n s, nth_error (snd st) n = Some s -> exists a, s = Finished a) /\
  finds (look hash same 10 h (fst st)) i /\ payload (fst st) (hpath hash h) i = None.
Proof.
  exists flat, (variant 0), its_files, [0; 1; 1; 1; 1; 1; 1; 0; 0; 0], (T "a"). cbv zeta. split.
  - intros [|[|[|n]]] s E; vm_compute in E; try discriminate; injection E as <-; eexists; reflexivity.
  - split; [exists (variant 0), 6%N; vm_compute; reflexivity|vm_compute; reflexivity].
Qed.
Print Assumptions C68_race_refuted.
(** A completed removal without interference: the variant is gone, its payload is in the trash, everything else is as before. *)
Theorem C68_removal_partial : forall hash ord now c h i h' z, any_order ord -> tidy c -> unique_entries c -> look hash ord now h c = LFound i h' z ->
  let c' := fst (done hash ord now (ORemove h) c) in
  snd (done hash ord now (ORemove h) c) = Finished (Removed, Some (hpath hash h, i)) /\
  slot_of c' (hpath hash h) i = no_slot /\
  (forall b j, b <> hpath hash h \/ j <> i -> slot_of c' b j = slot_of c b j) /\
  (forall ord' now', any_order ord' -> look hash ord' now' h c' = LNone) /\
  ca_trash c' = ca_trash c ++ match payload c (hpath hash h) i with Some l => [l] | None => [] end.
Proof. exact remove_done. Qed.
Print Assumptions C68_removal_partial.
Example C68_example : let c := fst (done flat same 10 (OAdd (variant 0) its_files true) no_cache) in
  tidy c /\ unique_entries c /\ look flat same 10 (variant 0) c = LFound (T "a") (variant 0) 6 /\ ca_trash (fst (done flat same 10 (ORemove (variant 0)) c)) = [its_files].
Proof.
  cbv zeta. split; [apply C42_example|]. split; [apply C42_example|]. split; vm_compute; reflexivity.
Qed.

(** ** C69 *)
(** The listing reports a variant as found whose payload is half copied and which a lookup reports as being copied. *)
Theorem C69_refuted : exists hash h src k i,
  let c := fst (steps hash same 10 k (no_cache, Start (OAdd h src true))) in
  In (h, (hpath hash h, i), true) (listed c) /\ look hash same 10 h c = LBusy i false /\ ~ holds_all src (payload c (hpath hash h) i).
Proof.
  exists flat, (variant 0), its_files, 7, (T "a"). cbv zeta. split; [vm_compute; left; reflexivity|]. split; [vm_compute; reflexivity|].
  intros (l & El & H). specialize (H (T "f") (T "one") (or_introl eq_refl)). vm_compute in El. injection El as <-. vm_compute in H. discriminate.
Qed.
Print Assumptions C69_refuted.
(** The listing has exactly the readable entries, reported as found exactly if a payload directory exists. *)
Theorem C69_listing_partial : forall c h b i f, proper c -> tidy c ->
  (In (h, (b, i), f) (listed c) <->
   exists t z, s_meta (slot_of c b i) = Some (Meta h t z) /\ f = match payload c b i with Some _ => true | None => false end).
Proof. exact listed_spec. Qed.
Print Assumptions C69_listing_partial.
Example C69_example : listed (history flat two_cuts no_cache) =
  [(variant 0, (hpath flat (variant 0), T "a"), true); (variant 1, (hpath flat (variant 1), T "b"), true)].
Proof. vm_compute. reflexivity. Qed.

(** ** C70 *)
(** A payload larger than the free space: an optimised build says it fits, a debug build panics. *)
Theorem C70_refuted : exists min_free available needed,
  (available < needed)%N /\ check_space false min_free available needed = Some true /\ check_space true min_free available needed = None.
Proof. exists 100%N, 50%N, 60%N. vm_compute. auto. Qed.
Print Assumptions C70_refuted.
(** If the payload is not larger than the free space the check is exact. *)
Theorem C70_space_partial : forall debug min_free available needed, (needed <= available)%N ->
  exists b, check_space debug min_free available needed = Some b /\ (b = true <-> (needed + min_free < available)%N) /\ b = meets_space min_free available needed.
Proof.
  intros debug m a n H. unfold check_space, meets_space. apply N.leb_le in H as H'. rewrite H'. eexists. split; [reflexivity|]. split; [rewrite N.ltb_lt; lia|].
  destruct (N.ltb_spec m (a - n)), (N.ltb_spec (n + m) a); reflexivity || lia.
Qed.
Print Assumptions C70_space_partial.
Example C70_example : (60 <= 200)%N /\ check_space true 100 200 60 = Some true /\ check_space true 150 200 60 = Some false.
Proof. vm_compute. split; [discriminate|auto]. Qed.

(** ** C71 *)
(** An addition interrupted while copying blocks its variant for ever: no lookup, addition or removal, at any later time, changes
    anything or finds it. *)
Theorem C71_refuted : exists hash h src k i,
  let c := fst (steps hash same 10 k (no_cache, Start (OAdd h src true))) in
  (forall now, exists st, look hash same now h c = LBusy i st) /\
  (forall now m o, op_handle o = h -> fst (steps hash same now m (c, Start o)) = c).
Proof.
  exists flat, (variant 0), its_files, 6, (T "a"). cbv zeta.
  assert (forall now, exists st, look flat same now (variant 0) (fst (steps flat same 10 6 (no_cache, Start (OAdd (variant 0) its_files true)))) = LBusy (T "a") st) as L.
  { intros now. exists (300 <? now - 10)%N. vm_compute. reflexivity. }
  split; [exact L|]. intros now m o Eo. destruct (L now) as [st Hst]. apply (busy_stuck flat same now _ o (T "a") st m). rewrite Eo. exact Hst.
Qed.
Print Assumptions C71_refuted.
(** In general: a variant reported as being copied, stalled or not, stays as it is. *)
Theorem C71_stuck : forall hash ord now c o i st k, look hash ord now (op_handle o) c = LBusy i st -> fst (steps hash ord now k (c, Start o)) = c.
Proof. exact busy_stuck. Qed.
Print Assumptions C71_stuck.
(** An addition interrupted before its metadata is written leaves the variant absent, so it can be added again. *)
Theorem C71_retry_partial : forall hash ord now c h src f k ord' now', any_order ord -> any_order ord' -> tidy c -> short_names c (hpath hash h) ->
  look hash ord now h c = LNone -> k <= 4 ->
  look hash ord' now' h (fst (steps hash ord now k (c, Start (OAdd h src f)))) = LNone.
Proof. exact early_crash. Qed.
Print Assumptions C71_retry_partial.
Example C71_example : look flat same 10 (variant 0) no_cache = LNone /\
  let c := fst (steps flat same 10 4 (no_cache, Start (OAdd (variant 0) its_files true))) in
  s_meta (slot_of c (hpath flat (variant 0)) (T "a")) = Some Garbled /\ finds (look flat same 12 (variant 0) (fst (done flat same 11 (OAdd (variant 0) its_files true) c))) (T "b").
Proof. split; [reflexivity|]. cbv zeta. split; [vm_compute; reflexivity|]. exists (variant 0), 6%N. vm_compute. reflexivity. Qed.

(** ** C72 *)
(** A lookup rewrites the metadata: if it is interrupted in between, the cached variant is lost. *)
Theorem C72_refuted : exists hash h src k i,
  let c := fst (done hash same 10 (OAdd h src true) no_cache) in
  finds (look hash same 10 h c) i /\ look hash same 10 h (fst (steps hash same 11 k (c, Start (OGet h)))) = LNone.
Proof.
  exists flat, (variant 0), its_files, 2, (T "a"). cbv zeta. split; [exists (variant 0), 6%N; vm_compute; reflexivity|vm_compute; reflexivity].
Qed.
Print Assumptions C72_refuted.
(** A completed lookup answers with the entry and changes nothing a later lookup sees. *)
Theorem C72_lookup_partial : forall hash ord now c h i h' z ord' now', any_order ord -> any_order ord' -> tidy c -> unique_entries c ->
  look hash ord now h c = LFound i h' z ->
  let c' := fst (done hash ord now (OGet h) c) in
  snd (done hash ord now (OGet h) c) = Finished (Found, Some (hpath hash h, i)) /\
  look hash ord' now' h c' = LFound i h' z /\ (forall b j, payload c' b j = payload c b j) /\
  (forall b j, b <> hpath hash h \/ j <> i -> slot_of c' b j = slot_of c b j).
Proof. exact get_keeps. Qed.
Print Assumptions C72_lookup_partial.
Example C72_example : let c := fst (done flat same 10 (OAdd (variant 0) its_files true) no_cache) in
  look flat same 10 (variant 0) c = LFound (T "a") (variant 0) 6 /\
  s_meta (slot_of (fst (done flat same 99 (OGet (variant 0)) c)) (hpath flat (variant 0)) (T "a")) = Some (Meta (variant 0) 99 6).
Proof. cbv zeta. split; vm_compute; reflexivity. Qed.

(** ** C73 *)
(** An access time later than the clock: a debug build panics, an optimised build removes the entry although it was used last. *)
Theorem C73_refuted : exists hash h src max now,
  let c := fst (done hash same 20 (OAdd h src true) no_cache) in
  clean hash same (fun l => l) true (Some max) now c = None /\
  exists c', clean hash same (fun l => l) false (Some max) now c = Some c' /\ look hash same now h c' = LNone.
Proof.
  exists flat, (variant 0), its_files, 1000%N, 19%N. cbv zeta. split; [vm_compute; reflexivity|]. eexists. split; [vm_compute; reflexivity|vm_compute; reflexivity].
Qed.
Print Assumptions C73_refuted.
(** Cleaning removes exactly the completely copied entries that were not used for longer than the given age, in any order. *)
Theorem C73_clean_partial : forall hash ord lord debug max now c, any_order ord -> any_order lord -> proper c -> tidy c -> unique_entries c ->
  filed hash c -> past_access now c ->
  exists c', clean hash ord lord debug (Some max) now c = Some c' /\
  forall b i, slot_of c' b i = if stale max now (slot_of c b i) then no_slot else slot_of c b i.
Proof. exact clean_exact. Qed.
Print Assumptions C73_clean_partial.
Definition two_ages : cache :=
  Eval vm_compute in fst (done flat same 90 (OAdd (variant 1) its_files true) (fst (done flat same 10 (OAdd (variant 0) its_files true) no_cache))).
Example C73_example : proper two_ages /\ tidy two_ages /\ past_access 100 two_ages /\
  stale 50 100 (slot_of two_ages (hpath flat (variant 0)) (T "a")) = true /\ stale 50 100 (slot_of two_ages (hpath flat (variant 1)) (T "b")) = false.
Proof.
  assert (forall e, In e (ca_buckets two_ages) -> NoDup (akeys (snd e)) /\
    forall f, In f (snd e) -> match s_meta (snd f) with Some (Meta _ t _) => (t <= 100)%N | _ => True end) as K.
  { intros e [<-|[]]. split; [cbn; repeat constructor; cbn; intuition discriminate|]. intros f [<-|[<-|[]]]; cbn; lia. }
  split; [repeat constructor; intros []|]. split; [|split; [|split; vm_compute; reflexivity]].
  - intros b. unfold bucket_of. destruct (aget b (ca_buckets two_ages)) as [bk|] eqn:Eb; [|constructor]. apply aget_in in Eb. exact (proj1 (K _ Eb)).
  - intros b i h t z E. unfold slot_of, bucket_of in E. destruct (aget b (ca_buckets two_ages)) as [bk|] eqn:Eb; [|discriminate].
    destruct (aget i bk) as [sl|] eqn:Ei; [|discriminate]. apply aget_in in Eb. apply aget_in in Ei. pose proof (proj2 (K _ Eb) _ Ei) as K2.
    cbn [snd] in K2. rewrite E in K2. exact K2.
Qed.
