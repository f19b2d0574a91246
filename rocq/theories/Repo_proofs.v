(** The answers of repositories and of the manager. *)
From Verif Require Import Base Base_lemmas Maps Sorting Version_model Package_model Order_model Order_spec Version_order Order_proofs Suite_proofs Repo_model Repo_spec.
From Coq Require Import Lia.

(** induction over trees *)
Fixpoint rdir_rect2 (P : rdir -> Prop) (H : forall x b subs, Forall (fun e => P (snd e)) subs -> P (RDir x b subs)) (d : rdir) : P d :=
  match d with
  | RDir x b subs => H x b subs ((fix all (l : list (text * rdir)) : Forall (fun e => P (snd e)) l :=
      match l with [] => Forall_nil _ | e :: r => Forall_cons _ (rdir_rect2 P H (snd e)) (all r) end) subs)
  end.

(** the families with faults, in order *)
Fixpoint failing (fam : option text) (d : rdir) : list text :=
  match d with
  | RDir _ _ subs => flat_map (fun e => match e with
      | (n, RDir (Some None) _ _) => [match fam with Some f => f | None => n end]
      | (_, RDir (Some _) _ _) => []
      | (n, x) => failing (Some match fam with Some f => f | None => n end) x end) subs
  end.
Definition all_pushed (ps : list package) (c : list (text * list package)) := fold_left (fun c p => push p c) ps c.
Definition all_blamed (fs : list text) (e : list (text * text)) := fold_left (fun e f => aput f f e) fs e.

Lemma scan_ok d : forall fam s, listable d = true -> scan_directory fam d s = (true, mkRstate (all_pushed (packages_of d) (rs_cache s)) (all_blamed (failing fam d) (rs_errors s))).
Proof.
  induction d as [x b subs IH] using rdir_rect2. intros fam s H. cbn [listable] in H. apply andb_true_iff in H. destruct H as [-> H]. cbn [scan_directory packages_of failing].
  revert s H. induction IH as [|[n y] subs Hy IH IHl]; intros s H; [destruct s; reflexivity|]. cbn [forallb flat_map] in *. apply andb_true_iff in H. destruct H as [Hx H].
  destruct y as [[[p|]|] by_ ys]; cbn [d_descr snd fst] in *.
  - rewrite IHl by exact H. reflexivity.
  - rewrite IHl by exact H. reflexivity.
  - rewrite Hy by exact Hx. rewrite IHl by exact H. cbn [rs_cache rs_errors]. unfold all_pushed, all_blamed. rewrite !fold_left_app. reflexivity.
Qed.
Lemma scan_bad d : forall fam s, listable d = false -> fst (scan_directory fam d s) = false.
Proof.
  induction d as [x b subs IH] using rdir_rect2. intros fam s H. cbn [listable] in H. cbn [scan_directory]. destruct b; [|reflexivity]. cbn in H.
  revert s H. induction IH as [|[n y] subs Hy IH IHl]; intros s H; [discriminate|]. cbn [forallb] in H. destruct y as [[[p|]|] by_ ys]; cbn [d_descr snd] in *.
  - apply IHl. exact H.
  - apply IHl. exact H.
  - destruct (listable (RDir None by_ ys)) eqn:L.
    + rewrite scan_ok by exact L. apply IHl. exact H.
    + specialize (Hy (Some match fam with Some f => f | None => n end) s eq_refl). destruct (scan_directory _ (RDir None by_ ys) s) as [[|] s']; [discriminate|reflexivity].
Qed.

Lemma pushed_get ps : forall c n, aget n (all_pushed ps c) = match named n ps with [] => aget n c | l => Some (match aget n c with Some o => o | None => [] end ++ l) end.
Proof.
  induction ps as [|p ps IH]; intros c n; [reflexivity|]. change (all_pushed (p :: ps) c) with (all_pushed ps (push p c)). rewrite IH. unfold named. cbn [filter]. fold (named n ps). unfold push.
  destruct (text_eqb n (p_name p)) eqn:E.
  - apply text_eqb_eq in E. subst n. rewrite aget_put_same. destruct (named (p_name p) ps); [reflexivity|]. rewrite <- app_assoc. reflexivity.
  - rewrite aget_put_other by (intros ->; rewrite text_eqb_refl in E; discriminate). reflexivity.
Qed.
Lemma blamed_get fs : forall e n, aget n (all_blamed fs e) <> None <-> In n fs \/ aget n e <> None.
Proof.
  induction fs as [|f fs IH]; intros e n; [cbn; tauto|]. change (all_blamed (f :: fs) e) with (all_blamed fs (aput f f e)). rewrite IH. cbn [In].
  destruct (list_eq_dec ascii_dec n f) as [->|N]; [rewrite aget_put_same|rewrite aget_put_other by exact N]; intuition congruence.
Qed.
Lemma failing_some f d n : In n (failing (Some f) d) <-> n = f /\ broken d = true.
Proof.
  induction d as [x b subs IH] using rdir_rect2. cbn [failing broken]. rewrite in_flat_map, existsb_exists. rewrite Forall_forall in IH. split.
  - intros ([m y] & I & K). cbn [snd fst] in K. destruct y as [[[p|]|] by_ ys]; [destruct K|destruct K as [<-|[]]; split; [reflexivity|exists (m, RDir (Some None) by_ ys); auto]|].
    specialize (IH _ I). cbn [snd] in IH. apply IH in K. destruct K as [-> K]. split; [reflexivity|]. exists (m, RDir None by_ ys). auto.
  - intros [-> ([m y] & I & K)]. exists (m, y). split; [exact I|]. cbn [snd fst]. destruct y as [[[p|]|] by_ ys]; [discriminate|now left|]. specialize (IH _ I). cbn [snd] in IH. apply IH. auto.
Qed.
Lemma failing_root root n : In n (failing None root) <-> family_broken root n.
Proof.
  destruct root as [x b subs]. cbn [failing family_broken]. rewrite in_flat_map. split.
  - intros ([m y] & I & K). cbn [snd fst] in K. destruct y as [[[p|]|] by_ ys].
    + destruct K.
    + destruct K as [<-|[]]. exists (RDir (Some None) by_ ys). auto.
    + apply failing_some in K. destruct K as [-> K]. exists (RDir None by_ ys). auto.
  - intros (y & I & K). exists (n, y). split; [exact I|]. cbn [snd fst]. destruct y as [[[p|]|] by_ ys]; cbn [d_descr] in K.
    + destruct K as [K|[K _]]; discriminate.
    + now left.
    + destruct K as [K|[_ K]]; [discriminate|]. apply failing_some. auto.
Qed.

(** the two states of a repository *)
Definition warm (root : rdir) : rstate := snd (scan root).
Definition usual (root : rdir) (s : rstate) : Prop := s = cold \/ s = warm root.
Lemma warm_cache root n : listable root = true -> aget n (rs_cache (warm root)) = match held root n with [] => None | l => Some l end.
Proof. intros H. unfold warm, scan. rewrite scan_ok by exact H. cbn. rewrite pushed_get. unfold held. destruct (named n (packages_of root)); reflexivity. Qed.
Lemma warm_errors root n : listable root = true -> (aget n (rs_errors (warm root)) <> None <-> family_broken root n).
Proof. intros H. unfold warm, scan. rewrite scan_ok by exact H. cbn. rewrite blamed_get, failing_root. cbn. tauto. Qed.
Lemma scan_warm root : scan root = (listable root, warm root).
Proof.
  unfold warm. destruct (listable root) eqn:L; [unfold scan; rewrite scan_ok by exact L; reflexivity|]. pose proof (scan_bad root None cold L). unfold scan in *. destruct (scan_directory None root cold). cbn in *. congruence.
Qed.
Lemma find_state root n s : usual root s -> usual root (snd (find_packages root n s)).
Proof.
  intros U. unfold find_packages. destruct (aget n (rs_cache s)); [exact U|]. destruct (aget n (rs_errors s)); [exact U|]. rewrite scan_warm.
  destruct (listable root); [destruct (aget n (rs_errors (warm root)))|]; right; reflexivity.
Qed.
Lemma find_sound root n s : usual root s -> sound root n -> fst (find_packages root n s) = Ok (held root n).
Proof.
  intros U [L B]. assert (E : aget n (rs_errors (warm root)) = None).
  { destruct (aget n (rs_errors (warm root))) eqn:E; [|reflexivity]. exfalso. apply B. apply warm_errors; [exact L|congruence]. }
  unfold find_packages. rewrite scan_warm, L. rewrite E, (warm_cache root n L). destruct U as [->| ->].
  - cbn. destruct (held root n); reflexivity.
  - rewrite (warm_cache root n L), E. destruct (held root n); reflexivity.
Qed.
Lemma find_broken root n s : usual root s -> listable root = true -> family_broken root n -> held root n = [] -> fst (find_packages root n s) = Err.
Proof.
  intros U L B H. assert (E : exists e, aget n (rs_errors (warm root)) = Some e).
  { destruct (aget n (rs_errors (warm root))) as [e|] eqn:E; [exists e; reflexivity|]. exfalso. apply (proj2 (warm_errors root n L) B). exact E. }
  destruct E as [e E]. unfold find_packages. rewrite scan_warm, L, E. destruct U as [->| ->]; [reflexivity|]. rewrite (warm_cache root n L), H, E. reflexivity.
Qed.
Lemma find_mixed root n : listable root = true -> mixed root n -> fst (find_packages root n cold) = Err /\ fst (find_packages root n (warm root)) = Ok (held root n).
Proof.
  intros L [H B]. assert (E : exists e, aget n (rs_errors (warm root)) = Some e).
  { destruct (aget n (rs_errors (warm root))) as [e|] eqn:E; [exists e; reflexivity|]. exfalso. apply (proj2 (warm_errors root n L) B). exact E. }
  destruct E as [e E]. split.
  - unfold find_packages. cbn. rewrite scan_warm, L, E. reflexivity.
  - unfold find_packages. rewrite (warm_cache root n L). destruct (held root n); [congruence|reflexivity].
Qed.

(** the manager *)
Definition usuals (m : manager) : Prop := Forall (fun e => usual (fst e) (snd e)) m.
Lemma fresh_usual roots : usuals (fresh roots).
Proof. apply Forall_forall. intros e H. apply in_map_iff in H. destruct H as (r & <- & _). now left. Qed.
Lemma get_state root n v s : usual root s -> usual root (snd (get_package root n v s)).
Proof. intros U. unfold get_package. pose proof (find_state root n s U). destruct (find_packages root n s) as [[l|] s']; exact H. Qed.
Lemma list_state ord root : usual root (snd (list_packages ord root)).
Proof. unfold list_packages. rewrite scan_warm. destruct (listable root); right; reflexivity. Qed.
Lemma collect_state n m : usuals m -> usuals (snd (collect n m)) /\ map fst (snd (collect n m)) = map fst m.
Proof.
  induction 1 as [|[r s] m U F [IH IH']]; [split; [constructor|reflexivity]|]. cbn [collect]. pose proof (find_state r n s U) as K. destruct (find_packages r n s) as [[l|] s']; cbn [snd] in K.
  - destruct (collect n m) as [[l'|] m2]; cbn [snd map fst] in *; (split; [constructor; assumption|f_equal; exact IH']).
  - split; [constructor; assumption|reflexivity].
Qed.
Lemma get_first_state n v m : usuals m -> usuals (snd (get_first n v m)) /\ map fst (snd (get_first n v m)) = map fst m.
Proof.
  induction 1 as [|[r s] m U F [IH IH']]; [split; [constructor|reflexivity]|]. cbn [get_first]. pose proof (get_state r n v s U) as K. destruct (get_package r n v s) as [[[p|]|] s']; cbn [snd] in K.
  - split; [constructor; assumption|reflexivity].
  - destruct (get_first n v m) as [a m2]; cbn [snd map fst] in *. split; [constructor; assumption|f_equal; exact IH'].
  - split; [constructor; assumption|reflexivity].
Qed.
Lemma names_state ord m : usuals m -> usuals (snd (all_names ord m)) /\ map fst (snd (all_names ord m)) = map fst m.
Proof.
  induction 1 as [|[r s] m U F [IH IH']]; [split; [constructor|reflexivity]|]. cbn [all_names]. pose proof (list_state ord r) as K. destruct (list_packages ord r) as [[l|] s']; cbn [snd] in K.
  - destruct (all_names ord m) as [[l'|] m2]; cbn [snd map fst] in *; (split; [constructor; assumption|f_equal; exact IH']).
  - split; [constructor; assumption|reflexivity].
Qed.
Lemma asked_state q m : usuals m -> usuals (asked q m) /\ map fst (asked q m) = map fst m.
Proof.
  intros U. destruct q as [n|n v|ord]; cbn [asked].
  - unfold find_all. pose proof (collect_state n m U). destruct (collect n m) as [[l|] m2]; assumption.
  - exact (get_first_state n v m U).
  - unfold list_all. pose proof (names_state ord m U). destruct (all_names ord m) as [[l|] m2]; assumption.
Qed.
Lemma history_state qs : forall m, usuals m -> usuals (history qs m) /\ map fst (history qs m) = map fst m.
Proof. induction qs as [|q qs IH]; intros m U; [split; [exact U|reflexivity]|]. cbn. destruct (asked_state q m U) as [A B]. destruct (IH _ A) as [C D]. split; [exact C|]. fold (history qs (asked q m)). rewrite D. exact B. Qed.
Lemma fresh_fst roots : map fst (fresh roots) = roots.
Proof. unfold fresh. rewrite map_map. apply map_id. Qed.

Lemma collect_sound n m : usuals m -> (forall r, In r (map fst m) -> sound r n) -> fst (collect n m) = Ok (flat_map (fun r => held r n) (map fst m)).
Proof.
  induction 1 as [|[r s] m U F IH]; intros H; [reflexivity|]. cbn [collect map flat_map fst]. pose proof (find_sound r n s U (H r (or_introl eq_refl))) as K.
  destruct (find_packages r n s) as [a s']. cbn [fst] in K. subst a. specialize (IH (fun x I => H x (or_intror I))). destruct (collect n m) as [a m2]. cbn [fst] in IH. subst a. reflexivity.
Qed.
Lemma find_all_sound n m : usuals m -> (forall r, In r (map fst m) -> sound r n) -> fst (find_all n m) = Ok (sort_by descending (flat_map (fun r => held r n) (map fst m))).
Proof. intros U H. unfold find_all. pose proof (collect_sound n m U H) as K. destruct (collect n m) as [a m2]. cbn [fst] in K. subst a. reflexivity. Qed.
(** the answer of the first repository that has one *)
Fixpoint first_answer (v : option text) (n : text) (roots : list rdir) : answer (option package) :=
  match roots with
  | [] => Ok None
  | r :: rs => match choose v (held r n) with Ok None => first_answer v n rs | a => a end
  end.
Lemma get_first_sound n v m : usuals m -> (forall r, In r (map fst m) -> sound r n) -> fst (get_first n v m) = first_answer v n (map fst m).
Proof.
  induction 1 as [|[r s] m U F IH]; intros H; [reflexivity|]. cbn [get_first map first_answer fst]. unfold get_package. pose proof (find_sound r n s U (H r (or_introl eq_refl))) as K.
  destruct (find_packages r n s) as [a s']. cbn [fst] in K. subst a. destruct (choose v (held r n)) as [[p|]|]; [reflexivity| |reflexivity].
  specialize (IH (fun x I => H x (or_intror I))). destruct (get_first n v m) as [a m2]. exact IH.
Qed.

Lemma held_named r n p : In p (held r n) -> p_name p = n.
Proof. unfold held, named. intros H. apply filter_In in H. destruct H as [_ H]. apply text_eqb_eq in H. congruence. Qed.
Lemma held_in r n p : In p (held r n) <-> In p (packages_of r) /\ p_name p = n.
Proof.
  unfold held, named. rewrite filter_In. split; intros [A B]; (split; [exact A|]); [apply text_eqb_eq in B; congruence|]. rewrite B. apply text_eqb_refl.
Qed.
Lemma choose_latest S l p : transitive_versions S -> versions_in S l -> choose None l = Ok (Some p) -> In p l /\ forall q, In q l -> not_lower p q.
Proof.
  intros T0 V H. cbn in H. destruct (sort_by descending l) as [|p' l'] eqn:E; [discriminate|]. injection H as ->.
  assert (I : forall q, In q (sort_by descending l) <-> In q l) by (intros q; apply sort_in). split; [apply I; rewrite E; now left|].
  intros q Q. apply I in Q. rewrite E in Q. pose proof (sort_chain _ _ (descending_TPO S T0) l (forall_versions S l V)) as C. rewrite E in C. inversion C as [|x y Fx Cy]; subst.
  apply (goes_before_iff true). destruct Q as [<-|Q].
  - unfold descending, by_version. destruct (p_version p); [|discriminate]. rewrite (Version_order.vcmp_refl v). discriminate.
  - rewrite Forall_forall in Fx. exact (Fx _ Q).
Qed.
Lemma choose_none l : choose None l = Ok None <-> l = [].
Proof. cbn. destruct (sort_by descending l) eqn:E; split; intros H; try discriminate; try reflexivity; [apply (sort_nil descending); exact E|subst l; discriminate E]. Qed.
Lemma first_latest n roots p : first_answer None n roots = Ok (Some p) -> exists a r b, roots = a ++ r :: b /\ (forall x, In x a -> held x n = []) /\ choose None (held r n) = Ok (Some p).
Proof.
  induction roots as [|r rs IH]; [discriminate|]. cbn [first_answer]. destruct (choose None (held r n)) as [[q|]|] eqn:E.
  - intros H. injection H as <-. exists [], r, rs. split; [reflexivity|]. split; [intros x []|exact E].
  - intros H. destruct (IH H) as (a & r' & b & -> & A & B). exists (r :: a), r', b. split; [reflexivity|]. split; [|exact B]. intros x [<-|I]; [apply choose_none; exact E|exact (A _ I)].
  - discriminate.
Qed.
Lemma first_none n roots : first_answer None n roots = Ok None <-> forall r, In r roots -> held r n = [].
Proof.
  induction roots as [|r rs IH]; [split; [intros _ r []|reflexivity]|]. cbn [first_answer]. destruct (choose None (held r n)) as [[q|]|] eqn:E.
  - split; [discriminate|]. intros H. rewrite (H r (or_introl eq_refl)) in E. discriminate.
  - rewrite IH. apply choose_none in E. split; intros H x; [intros [<-|I]; [exact E|exact (H _ I)]|intros I; exact (H x (or_intror I))].
  - exfalso. cbn in E. discriminate.
Qed.
Lemma first_version t x n roots : parse_version t = Some x ->
  match first_answer (Some t) n roots with
  | Ok (Some p) => exists r y, In r roots /\ In p (held r n) /\ p_version p = Some y /\ vcmp y x = Eq
  | Ok None => forall r p y, In r roots -> In p (held r n) -> p_version p = Some y -> vcmp y x <> Eq
  | Err => False
  end.
Proof.
  intros P. induction roots as [|r rs IH]; cbn [first_answer]; [intros r p y []|]. unfold choose. rewrite P. destruct (find _ (held r n)) as [p|] eqn:E.
  - apply find_some in E. destruct E as [I K]. destruct (p_version p) as [y|] eqn:V; [|discriminate]. exists r, y. split; [now left|]. split; [exact I|]. split; [reflexivity || exact V|]. apply Version_order.veq_iff. exact K.
  - destruct (first_answer (Some t) n rs) as [[p|]|]; [| |exact IH].
    + destruct IH as (r' & y & A & B). exists r', y. split; [now right|exact B].
    + intros r' p y [<-|I] Q V C; [|exact (IH _ _ _ I Q V C)]. apply find_none with (2 := Q) in E. rewrite V in E. apply Version_order.veq_iff in C. congruence.
Qed.

(** names *)
Lemma nodup_join {A} (a b : list A) : NoDup a -> NoDup b -> (forall x, In x a -> ~ In x b) -> NoDup (a ++ b).
Proof. induction 1 as [|x a X N IH]; intros B D; [exact B|]. cbn. constructor; [rewrite in_app_iff; intros [K|K]; [exact (X K)|exact (D x (or_introl eq_refl) K)]|]. apply IH; [exact B|]. intros y Y. apply D. now right. Qed.
Lemma pushed_keys ps : forall c, NoDup (akeys c) -> NoDup (akeys (all_pushed ps c)).
Proof. induction ps as [|p ps IH]; intros c N; [exact N|]. apply IH. apply nodup_put. exact N. Qed.
Lemma warm_names root : listable root = true -> NoDup (akeys (rs_cache (warm root))) /\ forall n, In n (akeys (rs_cache (warm root))) <-> exists p, In p (packages_of root) /\ p_name p = n.
Proof.
  intros L. split; [unfold warm, scan; rewrite scan_ok by exact L; cbn; apply pushed_keys; constructor|]. intros n. rewrite <- aget_some, (warm_cache root n L). split.
  - intros (v & H). destruct (held root n) as [|p l] eqn:E; [discriminate|]. exists p. apply held_in. rewrite E. now left.
  - intros (p & A & B). pose proof (proj2 (held_in root n p) (conj A B)) as K. destruct (held root n); [destruct K|]. eexists. reflexivity.
Qed.
Lemma names_spec ord m : any_order ord -> (forall r, In r (map fst m) -> listable r = true) ->
  exists l, fst (all_names ord m) = Ok l /\ NoDup l /\ forall n, In n l <-> exists r p, In r (map fst m) /\ In p (packages_of r) /\ p_name p = n.
Proof.
  intros O. induction m as [|[r s] m IH]; intros H.
  - exists []. split; [reflexivity|]. split; [constructor|]. intros n. split; [intros []|intros (r & p & [] & _)].
  - cbn [all_names]. unfold list_packages. pose proof (H r (or_introl eq_refl)) as L. rewrite scan_warm, L. destruct IH as (l & E & N & I); [intros x X; apply H; now right|].
    destruct (all_names ord m) as [a m2]. cbn [fst] in E. subst a. destruct (warm_names r L) as [NW IW]. set (k := sort_by text_cmp (ord (akeys (rs_cache (warm r))))) in *.
    assert (PK : Permutation k (akeys (rs_cache (warm r)))) by (eapply Permutation_trans; [apply sort_perm|apply O]).
    eexists. split; [reflexivity|]. split.
    + apply nodup_join.
      * apply (Permutation_NoDup (Permutation_sym PK) NW).
      * apply NoDup_filter. exact N.
      * intros x X Y. apply filter_In in Y. destruct Y as [_ Y]. rewrite (proj2 (mem_in x k) X) in Y. discriminate Y.
    + intros n. rewrite in_app_iff, filter_In. split.
      * intros [X|[X _]].
        -- apply (Permutation_in _ PK) in X. apply IW in X. destruct X as (p & X). exists r, p. split; [now left|exact X].
        -- apply I in X. destruct X as (r' & p & X & Y). exists r', p. split; [now right|exact Y].
      * intros (r' & p & [<-|X] & Y).
        -- left. apply (Permutation_in _ (Permutation_sym PK)). apply IW. exists p. exact Y.
        -- destruct (mem_text n k) eqn:M; [left; apply mem_in; exact M|right]. split; [|reflexivity]. apply I. exists r', p. auto.
Qed.
Lemma list_all_spec ord m : any_order ord -> (forall r, In r (map fst m) -> listable r = true) ->
  exists l, fst (list_all ord m) = Ok l /\ NoDup l /\ sorted_by text_cmp l /\ forall n, In n l <-> exists r p, In r (map fst m) /\ In p (packages_of r) /\ p_name p = n.
Proof.
  intros O H. destruct (names_spec ord m O H) as (l & E & N & I). unfold list_all. destruct (all_names ord m) as [a m2]. cbn [fst] in E. subst a. cbn [fst].
  eexists. split; [reflexivity|]. assert (PK : Permutation (sort_by text_cmp (ord l)) l) by (eapply Permutation_trans; [apply sort_perm|apply O]). split; [|split].
  - apply (Permutation_NoDup (Permutation_sym PK) N).
  - apply (sort_sorted _ _ TPO_text). apply Forall_forall. intros; exact Logic.I.
  - intros n. rewrite <- I. split; apply Permutation_in; [exact PK|apply Permutation_sym; exact PK].
Qed.
Lemma list_all_state ord m m' : map fst m = map fst m' -> fst (list_all ord m) = fst (list_all ord m').
Proof.
  intros H. assert (K : fst (all_names ord m) = fst (all_names ord m')).
  { revert m' H. induction m as [|[r s] m IH]; intros [|[r' s'] m'] H; try discriminate; [reflexivity|]. cbn in H. injection H as <- H. specialize (IH _ H). cbn [all_names].
    destruct (list_packages ord r) as [[l|] q]; [|reflexivity]. destruct (all_names ord m) as [[?|] ?], (all_names ord m') as [[?|] ?]; cbn in *; congruence. }
  unfold list_all. destruct (all_names ord m) as [[?|] ?], (all_names ord m') as [[?|] ?]; cbn in *; congruence.
Qed.
