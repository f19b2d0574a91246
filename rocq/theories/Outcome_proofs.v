(** Proofs about the results of a resolution. *)
From Verif Require Import Base Base_lemmas Maps Sorting Outcome_model Outcome_spec.
From Verif Require Scan_model Scan_spec Scan_proofs.
From Coq Require Import Lia Permutation.
Open Scope string_scope. Open Scope list_scope.

(** ** Looking up *)
Lemma get_first ps n p : get_package ps n = Some p <-> first_with n ps p.
Proof.
  induction ps as [|q r IH]; cbn [get_package find].
  - split; [discriminate|]. intros (a & b & E & _). destruct a; discriminate.
  - fold (get_package r n). destruct (text_eqb_spec (p_name q) n) as [E|E].
    + split.
      * intros H. injection H as <-. exists [], r. cbn. tauto.
      * intros (a & b & F & G & K). destruct a as [|x a]; cbn in F; [congruence|]. injection F as <- _. cbn in K. tauto.
    + rewrite IH. split; intros (a & b & F & G & K).
      * exists (q :: a), b. cbn. rewrite F. split; [reflexivity|]. split; [exact G|]. tauto.
      * destruct a as [|x a]; cbn in F; injection F as <- F; [contradiction|]. exists a, b. cbn in K. tauto.
Qed.
Lemma contains_in ps n : contains_package ps n = true <-> In n (package_names ps).
Proof.
  unfold contains_package, package_names. rewrite existsb_exists, in_map_iff. split; intros (p & H & K).
  - exists p. destruct (text_eqb_spec (p_name p) n); [auto|discriminate].
  - exists p. subst. split; [assumption|apply text_eqb_refl].
Qed.
Lemma get_none ps n : get_package ps n = None <-> ~ In n (package_names ps).
Proof.
  rewrite <- contains_in. unfold get_package, contains_package. induction ps as [|q r IH]; cbn; [split; [discriminate|reflexivity]|]. destruct (text_eqb (p_name q) n); cbn; [split; [discriminate|congruence]|exact IH].
Qed.

(** ** Patterns *)
Lemma no_star p : existsb (Ascii.eqb "*") p = true <-> In "*"%char p.
Proof. rewrite existsb_exists. split; [intros (c & H & E); apply Ascii.eqb_eq in E; now subst|intros H; exists "*"%char; split; [assumption|reflexivity]]. Qed.
Lemma loose_id p : ~ In "."%char p -> Scan_spec.loose p = p.
Proof. intros H. unfold Scan_spec.loose. rewrite <- (map_id p) at 2. apply map_ext_in. intros c K. destruct (Ascii.eqb_spec c "."); [subst; contradiction|reflexivity]. Qed.
Lemma wild_plain p : ~ In "*"%char p -> ~ In "?"%char p -> forall s, Scan_spec.wildcard p s <-> s = p.
Proof.
  induction p as [|c r IH]; intros A B s; cbn in A, B.
  - split; [intros H; now inversion H|intros ->; constructor].
  - split.
    + intros H. inversion H; subst; [f_equal; apply IH; tauto|tauto|tauto].
    + intros ->. constructor; [intros ->; tauto|intros ->; tauto|]. apply IH; tauto.
Qed.
Lemma wild_star s : Scan_spec.wildcard (T "*") s.
Proof. rewrite <- (app_nil_r s). apply Scan_spec.W_all, Scan_spec.W_end. Qed.
Lemma matches_star s p : In "*"%char p -> Scan_spec.one_line s -> (matches s p = true <-> Scan_spec.wildcard (Scan_spec.loose p) s).
Proof.
  intros H L. unfold matches. destruct (text_eqb_spec p (T "*")) as [->|N].
  - change (Scan_spec.loose (T "*")) with (T "*"). split; [intros _; apply wild_star|reflexivity].
  - apply no_star in H. rewrite H. apply Scan_proofs.name_tokens_spec, L.
Qed.
Lemma matches_exact s p : ~ In "*"%char p -> (matches s p = true <-> s = p).
Proof.
  intros H. unfold matches. destruct (text_eqb_spec p (T "*")) as [->|N]; [exfalso; apply H; left; reflexivity|].
  destruct (existsb (Ascii.eqb "*") p) eqn:E; [apply no_star in E; contradiction|]. destruct (text_eqb_spec s p); split; congruence.
Qed.
Lemma matches_glob s p : ~ In "."%char p -> ~ In "?"%char p -> Scan_spec.one_line s -> (matches s p = true <-> Scan_spec.wildcard p s).
Proof.
  intros A B L. destruct (existsb (Ascii.eqb "*") p) eqn:E.
  - apply no_star in E. rewrite matches_star by assumption. now rewrite loose_id.
  - assert (N : ~ In "*"%char p) by (rewrite <- no_star; congruence). rewrite matches_exact by assumption. now rewrite wild_plain.
Qed.

(** ** Checking *)
Lemma nonempty (l : list text) : forallb (fun r => negb (is_nil r)) l = true <-> ~ In [] l.
Proof.
  rewrite forallb_forall. split; [intros H K; apply H in K; discriminate|]. intros H x K. destruct x; [contradiction|reflexivity].
Qed.
Lemma valid_usable p : valid_package p = true <-> usable p.
Proof.
  unfold valid_package. rewrite !andb_true_iff, !nonempty. split.
  - intros ((((((A & B) & C) & D) & E) & F) & G). rewrite forallb_forall in B, G. constructor; try assumption.
    + destruct (p_name p); [discriminate|congruence].
    + intros c K. apply B in K. rewrite !orb_true_iff, !Ascii.eqb_eq in K. tauto.
    + intros Q. rewrite Q in C. discriminate.
    + intros v K. apply nonempty, G, K.
  - intros [A B C D E F G]. repeat match goal with |- _ /\ _ => split end; try assumption.
    + destruct (p_name p); [congruence|reflexivity].
    + apply forallb_forall. intros c K. apply B in K. rewrite !orb_true_iff, !Ascii.eqb_eq. tauto.
    + revert C. destruct (p_version p) as [[|]|]; [intros Q; now elim Q|reflexivity|reflexivity].
    + apply forallb_forall. intros v K. apply nonempty, G, K.
Qed.
Lemma duplicate_none ps : forall seen, duplicate seen ps = None <-> NoDup (map key ps) /\ (forall k, In k seen -> ~ In k (map key ps)).
Proof.
  induction ps as [|p r IH]; intros seen; cbn [duplicate map].
  - split; [intros _; split; [constructor|intros k _ []]|reflexivity].
  - destruct (mem_text (key p) seen) eqn:M.
    + split; [discriminate|]. intros [_ H]. exfalso. apply mem_text_In in M. apply (H _ M). now left.
    + rewrite IH. split.
      * intros [A B]. split; [constructor; [apply B; now left|assumption]|]. intros k H [K|K]; [subst k; apply mem_text_In in H; congruence|]. revert K. apply B. now right.
      * intros [A B]. inversion A as [|? ? C D]; subst. split; [assumption|]. intros k [<-|H]; [assumption|]. intros K. apply (B _ H). now right.
Qed.
Lemma duplicate_some ps : forall seen k, duplicate seen ps = Some k -> exists a p b, ps = a ++ p :: b /\ key p = k /\ (In k seen \/ In k (map key a)) /\ NoDup (map key a) /\ (forall j, In j seen -> ~ In j (map key a)).
Proof.
  induction ps as [|p r IH]; intros seen k; cbn [duplicate]; [discriminate|]. destruct (mem_text (key p) seen) eqn:M; intros H.
  - injection H as <-. exists [], p, r. split; [reflexivity|]. split; [reflexivity|]. split; [left; now apply mem_text_In|]. split; [constructor|intros j _ []].
  - apply IH in H as (a & q & b & -> & E & F & G & K). exists (p :: a), q, b. split; [reflexivity|]. split; [exact E|]. cbn [map In] in *. split; [tauto|]. split.
    + constructor; [apply K; now left|assumption].
    + intros j J [Q|Q]; [subst j; apply mem_text_In in J; congruence|]. revert Q. apply K. now right.
Qed.
Lemma validate_fine ps : validate ps = Fine <-> NoDup (map key ps) /\ Forall usable ps.
Proof.
  unfold validate. destruct (duplicate [] ps) as [k|] eqn:D.
  - split; [discriminate|]. intros [A _]. assert (duplicate [] ps = None) by (apply duplicate_none; split; [assumption|intros j []]). congruence.
  - apply duplicate_none in D as [D _]. destruct (find (fun p => negb (valid_package p)) ps) as [p|] eqn:F.
    + apply find_some in F as [F G]. split; [discriminate|]. intros [_ A]. rewrite Forall_forall in A. apply A, valid_usable in F. rewrite F in G. discriminate.
    + split; [intros _; split; [assumption|]|reflexivity]. apply Forall_forall. intros p H. apply valid_usable. apply (find_none _ _ F) in H. now apply negb_false_iff in H.
Qed.

(** ** Summaries and variables *)
Section Last.
  Variables (k : package -> text) (g : package -> option text).
  Definition gather (m : list (text * text)) (ps : list package) : list (text * text) := fold_left (fun m p => match g p with Some c => aput (k p) c m | None => m end) ps m.
  Lemma gather_other ps : forall m x, (forall p, In p ps -> k p = x -> g p = None) -> aget x (gather m ps) = aget x m.
  Proof.
    induction ps as [|p r IH]; intros m x H; [reflexivity|]. cbn [gather fold_left]. fold (gather (match g p with Some c => aput (k p) c m | None => m end) r). rewrite IH by (intros q Q; apply H; now right).
    destruct (g p) as [c|] eqn:E; [|reflexivity]. apply aget_put_other. intros ->. rewrite (H p) in E; [discriminate|now left|reflexivity].
  Qed.
  Lemma gather_app m a b : gather m (a ++ b) = gather (gather m a) b.
  Proof. apply fold_left_app. Qed.
  Lemma gather_last m a p b c : g p = Some c -> (forall q, In q b -> k q = k p -> g q = None) -> aget (k p) (gather m (a ++ p :: b)) = Some c.
  Proof.
    intros E H. rewrite gather_app. cbn [gather fold_left]. fold (gather (match g p with Some c => aput (k p) c (gather m a) | None => gather m a end) b). rewrite gather_other by exact H. rewrite E. apply aget_put_same.
  Qed.
  Lemma gather_nodup ps : forall m, NoDup (akeys m) -> NoDup (akeys (gather m ps)).
  Proof. induction ps as [|p r IH]; intros m H; [exact H|]. cbn [gather fold_left]. apply IH. destruct (g p); [apply nodup_put|]; assumption. Qed.
  Lemma gather_keys ps : forall m x, In x (akeys (gather m ps)) <-> In x (akeys m) \/ exists p, In p ps /\ k p = x /\ g p <> None.
  Proof.
    induction ps as [|p r IH]; intros m x.
    - cbn. split; [now left|]. intros [H|(p & [] & _)]. exact H.
    - cbn [gather fold_left]. fold (gather (match g p with Some c => aput (k p) c m | None => m end) r). rewrite IH. destruct (g p) as [c|] eqn:E.
      + rewrite akeys_put. split.
        * intros [[->|H]|(q & A & B)]; [right; exists p; split; [now left|]; split; [reflexivity|congruence]|now left|right; exists q; split; [now right|assumption]].
        * intros [H|(q & [->|A] & B & C)]; [tauto|left; left; congruence|right; exists q; auto].
      + split.
        * intros [H|(q & A & B)]; [now left|right; exists q; split; [now right|assumption]].
        * intros [H|(q & [->|A] & B & C)]; [now left|congruence|right; exists q; auto].
  Qed.
End Last.
Lemma versions_gather ps : snd (summary ps) = gather p_name (fun p => Some (shown p)) [] ps.
Proof. reflexivity. Qed.
Lemma vars_gather ps : snd (environment ps) = gather (fun p => variable (p_name p)) p_commands [] ps.
Proof. reflexivity. Qed.
Lemma size_sum (ps : list package) : forall n, fold_left (fun n _ => (n + 1048576)%N) ps n = (n + 1048576 * N.of_nat (length ps))%N.
Proof. induction ps as [|p r IH]; intros n; cbn [fold_left length]; [lia|]. rewrite IH. lia. Qed.
Lemma variable_same a b : variable a = variable b <-> same_name a b.
Proof. unfold variable, same_name. split; [intros H; now apply app_inv_tail in H|intros H; now rewrite H]. Qed.
Lemma nodup_split {A} (f : A -> text) ps p : NoDup (map f ps) -> In p ps -> exists a b, ps = a ++ p :: b /\ (forall q, In q (a ++ b) -> f q <> f p).
Proof.
  intros H K. apply in_split in K as (a & b & ->). exists a, b. split; [reflexivity|]. intros q Q E. rewrite map_app in H. cbn [map] in H. apply NoDup_remove_2 in H. apply H. rewrite <- map_app, <- E. now apply in_map.
Qed.

(** ** Collections *)
Definition step (m : list (text * list text)) (c : change) : list (text * list text) := match c with Add n r => add_requirement n r m | Remove n => remove_requirements n m end.
Definition run (h : list change) : list (text * list text) := fold_left step h [].
Lemma run_snoc h c : run (h ++ [c]) = step (run h) c.
Proof. unfold run. now rewrite fold_left_app. Qed.
Lemma run_get h n : get_requirements n (run h) = since n (rev h).
Proof.
  induction h as [|c h IH] using rev_ind; [reflexivity|]. rewrite run_snoc, rev_app_distr. cbn [rev app since]. rewrite <- IH. destruct c as [m r|m]; cbn [step]; unfold add_requirement, remove_requirements, get_requirements.
  - destruct (text_eqb_spec m n) as [->|E]; [rewrite aget_put_same; now destruct (aget n (run h))|now rewrite aget_put_other by congruence].
  - destruct (text_eqb_spec m n) as [->|E]; [now rewrite aget_del_same|now rewrite aget_del_other by congruence].
Qed.
Lemma run_ok h : NoDup (akeys (run h)) /\ (forall n l, In (n, l) (run h) -> l <> []).
Proof.
  induction h as [|c h [A B]] using rev_ind; [split; [constructor|intros n l []]|]. rewrite run_snoc. destruct c as [m r|m]; cbn [step]; unfold add_requirement, remove_requirements.
  - split; [now apply nodup_put|]. intros n l H. apply aput_in in H; [|assumption]. destruct H as [[-> ->]|[_ H]]; [|eauto]. destruct (aget m (run h)) as [x|]; [destruct x|]; discriminate.
  - split; [now apply nodup_del|]. intros n l H. apply filter_In in H as [H _]. eauto.
Qed.
Lemma run_names h n : In n (akeys (run h)) <-> since n (rev h) <> [].
Proof.
  destruct (run_ok h) as [A B]. rewrite <- run_get. unfold get_requirements. rewrite <- aget_some. destruct (aget n (run h)) as [l|] eqn:E.
  - split; [intros _; eapply B, aget_in, E|eauto].
  - split; [intros [v H]; discriminate|congruence].
Qed.
Lemma flat_nodup (m : list (text * list text)) : NoDup (akeys m) -> flat_map snd m = flat_map (fun n => get_requirements n m) (akeys m).
Proof.
  intros H. unfold akeys. rewrite flat_map_concat_map, flat_map_concat_map, map_map. f_equal. apply map_ext_in. intros [n l] K. unfold get_requirements. cbn [fst snd]. now rewrite (aget_nodup n l m H K).
Qed.
Lemma all_add n r m : Permutation (all_requirements (add_requirement n r m)) (r :: all_requirements m).
Proof.
  unfold all_requirements, add_requirement. induction m as [|[x l] m IH]; cbn [aget aput flat_map snd app]; [reflexivity|].
  destruct (text_eqb n x) eqn:E; cbn [flat_map snd].
  - rewrite <- app_assoc. cbn [app]. symmetry. apply Permutation_middle.
  - rewrite IH. symmetry. apply Permutation_middle.
Qed.
Definition cstep (c : vcache) (u : use) : vcache := match u with Get n => snd (get_variants n c) | Put n vs => cache_variants n vs c | Drop n => invalidate n c | Clear => clear c end.
Definition crun (h : list use) : vcache := fold_left cstep h (mkVcache [] 0 0).
Lemma crun_snoc h c : crun (h ++ [c]) = cstep (crun h) c.
Proof. unfold crun. now rewrite fold_left_app. Qed.
Lemma get_variants_eq n c : get_variants n c = (aget n (v_entries c), match aget n (v_entries c) with Some _ => mkVcache (v_entries c) (S (v_hits c)) (v_misses c) | None => mkVcache (v_entries c) (v_hits c) (S (v_misses c)) end).
Proof. unfold get_variants, ahas. now destruct (aget n (v_entries c)). Qed.
Lemma crun_there h n : aget n (v_entries (crun h)) = there n (rev h).
Proof.
  induction h as [|c h IH] using rev_ind; [reflexivity|]. rewrite crun_snoc, rev_app_distr. cbn [rev app there]. rewrite <- IH. destruct c as [m|m vs|m|]; cbn [cstep].
  - rewrite get_variants_eq. cbn [snd]. now destruct (aget m (v_entries (crun h))).
  - cbn [cache_variants v_entries]. destruct (text_eqb_spec m n) as [->|E]; [apply aget_put_same|apply aget_put_other; congruence].
  - cbn [invalidate v_entries]. destruct (text_eqb_spec m n) as [->|E]; [apply aget_del_same|apply aget_del_other; congruence].
  - reflexivity.
Qed.
Lemma crun_counts h : v_hits (crun h) = found true (rev h) /\ v_misses (crun h) = found false (rev h).
Proof.
  induction h as [|c h [A B]] using rev_ind; [split; reflexivity|]. rewrite crun_snoc, rev_app_distr. cbn [rev app found]. destruct c as [m|m vs|m|]; cbn [cstep].
  - rewrite get_variants_eq. cbn [snd]. rewrite <- (crun_there h m), <- A, <- B. destruct (aget m (v_entries (crun h))); cbn; split; reflexivity.
  - cbn. split; assumption.
  - cbn. split; assumption.
  - split; reflexivity.
Qed.
