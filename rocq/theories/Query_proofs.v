(** Facts about the search command and the helpers of the command line. *)
From Verif Require Import Base Base_lemmas Text_lemmas Pyfile_spec Version_model Version_order Maps Sorting Range_model Range_compat Package_model Order_model Order_spec Order_proofs Pyfile_model Pyfile_proofs Query_model Query_spec.
Open Scope string_scope.
Open Scope list_scope.

(** ** matching *)
Lemma occurs_iff q s : contains_text q s = true <-> occurs q s.
Proof. rewrite contains_text_spec. reflexivity. Qed.
Section Matching.
Context (re : text -> option (text -> bool)) (description : N -> option text).
Lemma matches_iff a s : text_matches re a s = true <-> finds re a s.
Proof.
  unfold text_matches, finds. change (folded a) with (seen a). destruct (q_regex a); [|apply occurs_iff].
  destruct (re (seen a (q_query a))) as [m|]; split; try discriminate.
  - intros H. exists m. split; [reflexivity|exact H].
  - intros (m' & E & H). injection E as <-. exact H.
  - intros (m' & E & _). discriminate E.
Qed.
Lemma contains_iff a s : text_contains a s = true <-> occurs (seen a (q_query a)) (seen a s).
Proof. apply occurs_iff. Qed.
Lemma exists_match {A} (f : A -> bool) (P : A -> Prop) l : (forall x, f x = true <-> P x) -> (existsb f l = true <-> exists x, In x l /\ P x).
Proof. intros H. rewrite existsb_exists. split; intros (x & J & K); exists x; (split; [exact J|]); apply H, K. Qed.
Lemma pos_if (b : bool) n (P : Prop) : (b = true <-> P) -> 0 < n -> (0 < (if b then n else 0) <-> P).
Proof. intros H L. destruct b; [split; intros _; [apply H; reflexivity|exact L]|]. split; [lia|]. intros X. apply H in X. discriminate X. Qed.
Lemma name_pos a p : 0 < name_score re a p <-> finds re a (p_name p).
Proof.
  unfold name_score. rewrite <- matches_iff. destruct (text_matches re a (p_name p)); [|split; [lia|discriminate]].
  split; [reflexivity|]. intros _. destruct (q_regex a); [lia|]. destruct (text_eqb _ _); lia.
Qed.
Lemma description_pos a p : 0 < description_score re description a p <-> q_description a = true /\ exists d, description (p_rest p) = Some d /\ finds re a d.
Proof.
  unfold description_score. destruct (q_description a); [|split; [lia|intros [X _]; discriminate X]]. destruct (description (p_rest p)) as [d|].
  - rewrite (pos_if _ _ (finds re a d)) by (apply matches_iff || lia). split; [intros H; split; [reflexivity|]; exists d; split; [reflexivity|exact H]|].
    intros (_ & d' & E & H). injection E as <-. exact H.
  - split; [lia|]. intros (_ & d' & E & _). discriminate E.
Qed.
Lemma tools_pos a p : 0 < tools_score re a p <-> q_tools a = true /\ exists t, In t (p_tools p) /\ finds re a t.
Proof.
  unfold tools_score. destruct (q_tools a); [|split; [lia|intros [X _]; discriminate X]].
  rewrite (pos_if _ _ (exists t, In t (p_tools p) /\ finds re a t)) by (try lia; apply exists_match; intros x; apply matches_iff). tauto.
Qed.
Lemma requirements_pos a p : 0 < requirements_score re a p <-> q_requirements a = true /\ exists t, In t (p_requires p) /\ finds re a t.
Proof.
  unfold requirements_score. destruct (q_requirements a); [|split; [lia|intros [X _]; discriminate X]].
  rewrite (pos_if _ _ (exists t, In t (p_requires p) /\ finds re a t)) by (try lia; apply exists_match; intros x; apply matches_iff). tauto.
Qed.
Lemma default_iff a : by_default a = true <-> q_description a = false /\ q_tools a = false /\ q_requirements a = false.
Proof. unfold by_default. destruct (q_description a), (q_tools a), (q_requirements a); cbn; split; try discriminate; try tauto; intros (?&?&?); discriminate. Qed.
Lemma default_description_pos a p : 0 < default_description description a p <-> by_default a = true /\ exists d, description (p_rest p) = Some d /\ occurs (seen a (q_query a)) (seen a d).
Proof.
  unfold default_description. destruct (by_default a); [|split; [lia|intros [X _]; discriminate X]]. destruct (description (p_rest p)) as [d|].
  - rewrite (pos_if _ _ (occurs (seen a (q_query a)) (seen a d))) by (apply contains_iff || lia). split; [intros H; split; [reflexivity|]; exists d; split; [reflexivity|exact H]|].
    intros (_ & d' & E & H). injection E as <-. exact H.
  - split; [lia|]. intros (_ & d' & E & _). discriminate E.
Qed.
Lemma default_tools_pos a p : 0 < default_tools a p <-> by_default a = true /\ exists t, In t (p_tools p) /\ occurs (seen a (q_query a)) (seen a t).
Proof.
  unfold default_tools. destruct (by_default a); [|split; [lia|intros [X _]; discriminate X]].
  rewrite (pos_if _ _ (exists t, In t (p_tools p) /\ occurs (seen a (q_query a)) (seen a t))) by (try lia; apply exists_match; intros x; apply contains_iff). tauto.
Qed.
Lemma evaluate_some a p h : evaluate re description a p = Some h -> h_package h = p.
Proof. unfold evaluate. destruct (Nat.ltb 0 _); [|discriminate]. intros E. injection E as <-. reflexivity. Qed.
Lemma evaluate_iff a p : (exists h, evaluate re description a p = Some h) <-> found_by re description a p.
Proof.
  unfold evaluate, found_by. rewrite <- name_pos, <- description_pos, <- tools_pos, <- requirements_pos.
  assert (D : (q_description a = false /\ q_tools a = false /\ q_requirements a = false /\
    ((exists d, description (p_rest p) = Some d /\ occurs (seen a (q_query a)) (seen a d)) \/ (exists t, In t (p_tools p) /\ occurs (seen a (q_query a)) (seen a t))))
    <-> 0 < default_description description a p \/ 0 < default_tools a p).
  { rewrite default_description_pos, default_tools_pos, default_iff. tauto. }
  rewrite D. clear D. match goal with |- context [Nat.ltb 0 ?s] => set (score := s) end.
  destruct (Nat.ltb_spec 0 score) as [L|L]; unfold score in L.
  - split; [intros _; lia|]. intros _. eexists. reflexivity.
  - split; [intros (h & E); discriminate E|]. lia.
Qed.
(** ** filters *)
Lemma time_iff newer older p : time_kept newer older p = true <-> in_time newer older p.
Proof.
  unfold time_kept, in_time, package_time, stamped.
  assert (K : forall t, match newer with Some n => negb (t <=? n)%Z | None => true end && match older with Some o => negb (o <=? t)%Z | None => true end = true
    <-> (forall n, newer = Some n -> (n < t)%Z) /\ (forall o, older = Some o -> (t < o)%Z)).
  { intros t. rewrite andb_true_iff. destruct newer as [n|], older as [o|]; rewrite ?negb_true_iff, ?Z.leb_gt; split.
    all: try (intros [H K]; split; intros x E; try discriminate E; injection E as <-; assumption).
    all: intros [H K]; split; try reflexivity; (apply H || apply K); reflexivity. }
  destruct (p_timestamp p) as [t|].
  - rewrite (K t). split; [intros H; exists t; split; [left; reflexivity|exact H]|]. intros (t' & [E|[E _]] & H); [injection E as <-; exact H|discriminate E].
  - rewrite (K 0%Z). split; [intros H; exists 0%Z; split; [right; split; reflexivity|exact H]|]. intros (t' & [E|[_ ->]] & H); [discriminate E|exact H].
Qed.
Lemma variant_iff r p : variant_match r p = true <-> variant_mentions r p.
Proof.
  unfold variant_match, variant_mentions.
  rewrite (exists_match _ (fun v => exists x, In x v /\ occurs (map to_lower r) (map to_lower x))).
  - split; [intros (v & J & x & K & L); exists v, x; tauto|intros (v & x & J & K & L); exists v; split; [exact J|exists x; tauto]].
  - intros v. apply exists_match. intros x. apply occurs_iff.
Qed.
Lemma kind_iff a p : type_kept a p = true <-> of_kind a p.
Proof.
  unfold type_kept, of_kind. destruct (text_eqb (q_type a) (T "family")) eqn:F.
  - apply text_eqb_eq in F. split; [intros _; left; exact F|reflexivity].
  - assert (NF : q_type a <> T "family") by (intros X; apply text_eqb_eq in X; congruence).
    assert (V : (match q_variant a with Some r => variant_match r p | None => true end = true) <-> forall r, q_variant a = Some r -> variant_mentions r p).
    { destruct (q_variant a) as [r|]; [rewrite variant_iff|]; split; try reflexivity; try (intros _ r E; discriminate E).
      - intros H r' E. injection E as <-. exact H.
      - intros H. apply H. reflexivity. }
    destruct (text_eqb (q_type a) (T "variant")) eqn:W.
    + apply text_eqb_eq in W. rewrite andb_true_iff, V. split.
      * intros [N H]. right. repeat split; try assumption. intros _ X. rewrite X in N. discriminate N.
      * intros [X|(_ & N & H)]; [contradiction|]. split; [|exact H]. specialize (N W). destruct (p_variants p); [contradiction|reflexivity].
    + assert (NW : q_type a <> T "variant") by (intros X; apply text_eqb_eq in X; congruence). rewrite V. split.
      * intros H. right. repeat split; try assumption. intros X. contradiction.
      * intros [X|(_ & _ & H)]; [contradiction|exact H].
Qed.
Context (names : list text) (packages_of : text -> list package).
Lemma all_hits_iff a newer older h : In h (all_hits re description names packages_of a newer older) <->
  exists n, In n names /\ In (h_package h) (packages_of n) /\ in_time newer older (h_package h) /\ of_kind a (h_package h) /\ evaluate re description a (h_package h) = Some h.
Proof.
  unfold all_hits. rewrite in_flat_map. split.
  - intros (n & J & K). apply in_flat_map in K as (p & L & K). destruct (time_kept newer older p && type_kept a p) eqn:E; [|destruct K].
    apply andb_true_iff in E as [E1 E2]. destruct (evaluate re description a p) as [x|] eqn:V; [|destruct K]. destruct K as [<-|[]].
    pose proof (evaluate_some _ _ _ V) as W. rewrite W. exists n. repeat split; try assumption; [apply time_iff, E1|apply kind_iff, E2].
  - intros (n & J & L & M & K & V). exists n. split; [exact J|]. apply in_flat_map. exists (h_package h). split; [exact L|].
    apply time_iff in M. apply kind_iff in K. rewrite M, K, V. left. reflexivity.
Qed.
End Matching.

(** ** order and limit *)
Lemma firstn_first {A} k (l : list A) : first_of k (firstn k l) l.
Proof.
  exists (skipn k l). split; [symmetry; apply firstn_skipn|]. split; [apply firstn_le_length|]. intros H.
  rewrite firstn_length in H. apply skipn_all2. lia.
Qed.
Lemma by_name_TPO : TPO (fun _ : hit => True) (fun x y => text_cmp (p_name (h_package x)) (p_name (h_package y))).
Proof. apply (TPO_map (fun h => p_name (h_package h)) (fun _ => True)). exact TPO_text. Qed.
Lemma by_score_TPO : TPO (fun _ : hit => True) (fun x y => Nat.compare (h_score y) (h_score x)).
Proof.
  constructor.
  - intros x _. apply Nat.compare_refl.
  - intros x y _ _. apply Nat.compare_antisym.
  - intros x y z _ _ _ H K. intros X. apply Nat.compare_gt_iff in X. apply H. apply Nat.compare_gt_iff.
    destruct (Nat.compare_spec (h_score z) (h_score y)) as [E|E|E]; [lia|lia|]. congruence.
Qed.
Definition hits_in (S : version -> Prop) (l : list hit) : Prop := forall h v, In h l -> p_version (h_package h) = Some v -> S v.
Lemma hit_TPO a S : transitive_versions S -> TPO (fun h => forall v, p_version (h_package h) = Some v -> S v) (hit_cmp (q_sort a)).
Proof.
  intros TV. unfold hit_cmp. destruct (text_eqb (q_sort a) (T "version")).
  - apply (TPO_map h_package (fun p => forall v, p_version p = Some v -> S v)). apply descending_TPO, TV.
  - destruct (text_eqb (q_sort a) (T "score")); [apply (TPO_weaken (fun _ => True)); [intros; exact I|exact by_score_TPO]|].
    apply (TPO_weaken (fun _ => True)); [intros; exact I|exact by_name_TPO].
Qed.
Lemma cmp_before a x y : hit_cmp (q_sort a) x y <> Gt <-> shown_before a x y.
Proof.
  unfold hit_cmp, shown_before. destruct (text_eqb (q_sort a) (T "version")).
  - unfold descending, by_version, goes_before. destruct (p_version (h_package x)), (p_version (h_package y)); split; try tauto; try discriminate.
  - destruct (text_eqb (q_sort a) (T "score")); [|reflexivity]. rewrite Nat.compare_ngt_iff. lia.
Qed.
Lemma sorted_hits a S l : transitive_versions S -> hits_in S l -> pairwise (shown_before a) (sort_by (hit_cmp (q_sort a)) l).
Proof.
  intros TV V l1 x l2 y l3 E. apply cmp_before. pose proof (sort_sorted _ _ (hit_TPO a S TV) l) as H.
  apply (H (proj2 (Forall_forall _ _) (fun h J v => V h v J)) l1 x l2 y l3 E).
Qed.

(** ** one of each name *)
Definition keyed (m : list (text * hit)) : Prop := forall k h, In (k, h) m -> k = p_name (h_package h).
Section Fold.
Context (step : list (text * hit) -> hit -> list (text * hit)).
Hypothesis step_shape : forall m r, step m r = m \/ step m r = aput (p_name (h_package r)) r m.
Hypothesis step_new : forall m r, aget (p_name (h_package r)) m = None -> step m r = aput (p_name (h_package r)) r m.
Lemma fold_inv l : forall m, NoDup (akeys m) -> keyed m ->
  NoDup (akeys (fold_left step l m)) /\ keyed (fold_left step l m) /\
  (forall k, In k (akeys (fold_left step l m)) <-> In k (akeys m) \/ exists h, In h l /\ p_name (h_package h) = k) /\
  (forall k h, In (k, h) (fold_left step l m) -> In (k, h) m \/ In h l).
Proof.
  induction l as [|r l IH]; intros m N K; cbn [fold_left].
  - repeat split; try assumption; intros; try tauto. destruct H as [H|(h & [] & _)]; exact H.
  - assert (Q : NoDup (akeys (step m r)) /\ keyed (step m r) /\ (forall k, In k (akeys (step m r)) <-> In k (akeys m) \/ k = p_name (h_package r)) /\ (forall k h, In (k, h) (step m r) -> In (k, h) m \/ h = r)).
    { destruct (aget (p_name (h_package r)) m) as [e|] eqn:G.
      - assert (Hin : In (p_name (h_package r)) (akeys m)) by (apply aget_some; exists e; exact G).
        destruct (step_shape m r) as [->| ->].
        + repeat split; try assumption; intros; try tauto. destruct H as [H| ->]; assumption.
        + split; [apply nodup_put, N|]. split; [intros k h J; apply aput_in in J as [[-> ->]|[_ J]]; [reflexivity|apply (K k h J)|exact N]|].
          split; [intros k; rewrite akeys_put; tauto|]. intros k h J. apply aput_in in J as [[-> ->]|[_ J]]; [right; reflexivity|left; exact J|exact N].
      - rewrite (step_new m r G). split; [apply nodup_put, N|]. split; [intros k h J; apply aput_in in J as [[-> ->]|[_ J]]; [reflexivity|apply (K k h J)|exact N]|].
        split; [intros k; rewrite akeys_put; tauto|]. intros k h J. apply aput_in in J as [[-> ->]|[_ J]]; [right; reflexivity|left; exact J|exact N]. }
    destruct Q as (Q1 & Q2 & Q3 & Q4). destruct (IH (step m r) Q1 Q2) as (A & B & C & D). split; [exact A|]. split; [exact B|]. split.
    + intros k. rewrite C, Q3. split.
      * intros [[H| ->]|(h & J & E)]; [left; exact H|right; exists r; split; [left; reflexivity|reflexivity]|right; exists h; split; [right; exact J|exact E]].
      * intros [H|(h & [<-|J] & E)]; [left; left; exact H|left; right; symmetry; exact E|right; exists h; split; assumption].
    + intros k h J. destruct (D k h J) as [H|H]; [|right; right; exact H]. destruct (Q4 k h H) as [X| ->]; [left; exact X|right; left; reflexivity].
Qed.
Context (better : hit -> hit -> Prop) (P : hit -> Prop).
Hypothesis better_refl : forall x, P x -> better x x.
Hypothesis better_trans : forall x y z, P x -> P y -> P z -> better x y -> better y z -> better x z.
Hypothesis step_better : forall m r e, P r -> P e -> aget (p_name (h_package r)) m = Some e ->
  (step m r = m /\ better e r) \/ (step m r = aput (p_name (h_package r)) r m /\ better r e).
Lemma fold_better l : forall m, NoDup (akeys m) -> keyed m -> (forall k h, In (k, h) m -> P h) -> (forall h, In h l -> P h) ->
  forall h k, In (k, h) (fold_left step l m) -> (forall e, In (k, e) m -> better h e) /\ (forall r, In r l -> p_name (h_package r) = k -> better h r).
Proof.
  induction l as [|r l IH]; intros m N K Pm Pl h k J; cbn [fold_left] in J.
  - split; [|intros r []]. intros e J'. pose proof (aget_nodup _ _ _ N J') as E. rewrite (aget_nodup _ _ _ N J) in E. injection E as <-. apply better_refl, (Pm k h J).
  - assert (Pr : P r) by (apply Pl; left; reflexivity).
    assert (Q : NoDup (akeys (step m r)) /\ keyed (step m r) /\ (forall k h, In (k, h) (step m r) -> P h)).
    { destruct (step_shape m r) as [->| ->]; [repeat split; assumption|]. split; [apply nodup_put, N|]. split; intros k' h' J'; apply aput_in in J' as [[-> ->]|[_ J']]; try exact N; try assumption; [reflexivity|apply (K k' h' J')|apply (Pm k' h' J')]. }
    destruct Q as (Q1 & Q2 & Q3). destruct (IH (step m r) Q1 Q2 Q3 (fun x Jx => Pl x (or_intror Jx)) h k J) as [A B].
    assert (Ph : P h).
    { destruct (proj2 (proj2 (proj2 (fold_inv l (step m r) Q1 Q2))) k h J) as [X|X]; [exact (Q3 k h X)|apply Pl; right; exact X]. }
    assert (X : (forall e, In (k, e) m -> better h e) /\ (p_name (h_package r) = k -> better h r)).
    { destruct (aget (p_name (h_package r)) m) as [e0|] eqn:G.
      - assert (Pe : P e0) by (apply (Pm (p_name (h_package r))), aget_in, G). destruct (step_better m r e0 Pr Pe G) as [[E Bt]|[E Bt]]; rewrite E in A.
        + split; [exact A|]. intros <-. assert (Be : better h e0) by (apply A, aget_in, G). apply (better_trans h e0 r); assumption.
        + assert (Br : p_name (h_package r) = k -> better h r) by (intros <-; apply A; apply aput_in; [exact N|left; split; reflexivity]). split; [|exact Br].
          intros e Je. destruct (list_eq_dec ascii_dec (p_name (h_package r)) k) as [Ek|Nk].
          * subst k. pose proof (aget_nodup _ _ _ N Je) as G'. rewrite G in G'. injection G' as <-. apply (better_trans h r e0); auto.
          * apply A. apply aput_in; [exact N|]. right. split; [intros X; apply Nk; symmetry; exact X|exact Je].
      - rewrite (step_new m r G) in A. assert (Br : p_name (h_package r) = k -> better h r) by (intros <-; apply A; apply aput_in; [exact N|left; split; reflexivity]). split; [|exact Br].
        intros e Je. apply A. apply aput_in; [exact N|]. right. split; [|exact Je]. intros X. subst k. rewrite (aget_nodup _ _ _ N Je) in G. discriminate G. }
    destruct X as [X1 X2]. split; [exact X1|]. intros r' [<-|J'] E; [apply X2, E|apply B; assumption].
Qed.
End Fold.

Lemma no_keys : keyed [].
Proof. intros k h []. Qed.
Lemma no_hits (P : hit -> Prop) (k : text) (h : hit) : In (k, h) [] -> P h.
Proof. intros []. Qed.
Lemma latest_shape m r : latest_step m r = m \/ latest_step m r = aput (p_name (h_package r)) r m.
Proof.
  unfold latest_step. destruct (aget _ m); [|right; reflexivity]. destruct (p_version (h_package r)), (p_version (h_package h)); try (left; reflexivity); try (right; reflexivity).
  destruct (vcmp v v0); (left; reflexivity) || (right; reflexivity).
Qed.
Lemma latest_new m r : aget (p_name (h_package r)) m = None -> latest_step m r = aput (p_name (h_package r)) r m.
Proof. intros E. unfold latest_step. rewrite E. reflexivity. Qed.
Lemma family_shape m r : family_step m r = m \/ family_step m r = aput (p_name (h_package r)) r m.
Proof. unfold family_step. destruct (aget _ m); [|right; reflexivity]. destruct (Nat.ltb _ _); (left; reflexivity) || (right; reflexivity). Qed.
Lemma family_new m r : aget (p_name (h_package r)) m = None -> family_step m r = aput (p_name (h_package r)) r m.
Proof. intros E. unfold family_step. rewrite E. reflexivity. Qed.
Lemma keyed_names m : keyed m -> map (fun h => p_name (h_package h)) (map snd m) = akeys m.
Proof. intros K. unfold akeys. rewrite map_map. apply map_ext_in. intros [k h] J. symmetry. exact (K k h J). Qed.
Section Order.
Context (ord : list hit -> list hit).
Hypothesis P : forall l, Permutation (ord l) l.
Lemma values_in (m : list (text * hit)) h : In h (ord (map snd m)) <-> exists k, In (k, h) m.
Proof.
  assert (E : In h (ord (map snd m)) <-> In h (map snd m)) by (split; apply Permutation_in; [|symmetry]; apply P). rewrite E, in_map_iff. split.
  - intros ((k, h') & F & J). cbn in F. subst. exists k. exact J.
  - intros (k & J). exists (k, h). split; [reflexivity|exact J].
Qed.
Lemma one_each step l : (forall m r, step m r = m \/ step m r = aput (p_name (h_package r)) r m) -> (forall m r, aget (p_name (h_package r)) m = None -> step m r = aput (p_name (h_package r)) r m) ->
  let out := ord (map snd (fold_left step l [])) in
  NoDup (map (fun h => p_name (h_package h)) out) /\ (forall h, In h out -> In h l) /\ (forall h, In h l -> exists h', In h' out /\ p_name (h_package h') = p_name (h_package h)).
Proof.
  intros S1 S2 out. destruct (fold_inv step S1 S2 l [] (NoDup_nil _) no_keys) as (A & B & C & D).
  split; [|split].
  - eapply Permutation_NoDup; [apply Permutation_map; symmetry; apply P|]. rewrite keyed_names by exact B. exact A.
  - intros h J. apply values_in in J as (k & J). destruct (D k h J) as [[]|X]. exact X.
  - intros h J. assert (K : In (p_name (h_package h)) (akeys (fold_left step l []))) by (apply C; right; exists h; split; [exact J|reflexivity]).
    apply in_map_iff in K as ((k, h') & E & K). cbn in E. subst k. exists h'. split; [apply values_in; exists (p_name (h_package h)); exact K|]. symmetry. exact (B _ _ K).
Qed.
Lemma latest_best S l : transitive_versions S -> hits_in S l ->
  forall h r, In h (latest_versions ord l) -> In r l -> p_name (h_package r) = p_name (h_package h) -> not_older (h_package h) (h_package r).
Proof.
  intros TV V h r J Jr E. unfold latest_versions in J. apply values_in in J as (k & J).
  set (Q := fun h => forall v, p_version (h_package h) = Some v -> S v).
  assert (K : k = p_name (h_package h)) by (exact (proj1 (proj2 (fold_inv latest_step latest_shape latest_new l [] (NoDup_nil _) no_keys)) k h J)). subst k.
  refine (proj2 (fold_better latest_step latest_shape latest_new (fun x y => not_older (h_package x) (h_package y)) Q _ _ _ l [] (NoDup_nil _) no_keys (no_hits Q) (fun h J v => V h v J) h _ J) r Jr E).
  - intros x _. unfold not_older. destruct (p_version (h_package x)); [rewrite vcmp_refl; discriminate|exact I].
  - intros x y z Qx Qy Qz. unfold not_older, Q in *. destruct (p_version (h_package x)) as [vx|], (p_version (h_package y)) as [vy|], (p_version (h_package z)) as [vz|]; try tauto.
    intros A B. exact (TV vz vy vx (Qz _ eq_refl) (Qy _ eq_refl) (Qx _ eq_refl) B A).
  - intros m x e Px Pe G. unfold latest_step, not_older. rewrite G. destruct (p_version (h_package x)) as [vx|] eqn:Vx, (p_version (h_package e)) as [ve|] eqn:Ve.
    + destruct (vcmp vx ve) eqn:C; [left|left|right]; (split; [reflexivity|]); try (rewrite ?C; discriminate). rewrite (vcmp_anti vx ve), C. discriminate.
    + right. split; [reflexivity|exact I].
    + left. split; [reflexivity|exact I].
    + left. split; [reflexivity|exact I].
Qed.
Lemma family_best l h r : In h (families ord l) -> In r l -> p_name (h_package r) = p_name (h_package h) -> h_score r <= h_score h.
Proof.
  intros J Jr E. unfold families in J. apply values_in in J as (k & J).
  assert (K : k = p_name (h_package h)) by (exact (proj1 (proj2 (fold_inv family_step family_shape family_new l [] (NoDup_nil _) no_keys)) k h J)). subst k.
  refine (proj2 (fold_better family_step family_shape family_new (fun x y => h_score y <= h_score x) (fun _ => True) _ _ _ l [] (NoDup_nil _) no_keys (fun _ _ _ => I) (fun _ _ => I) h _ J) r Jr E).
  - intros; lia.
  - intros x y z _ _ _. lia.
  - intros m x e _ _ G. unfold family_step. rewrite G. destruct (Nat.ltb_spec (h_score e) (h_score x)) as [L|L]; [right|left]; (split; [reflexivity|]); lia.
Qed.
End Order.

(** ** times *)
Lemma unit_iff c k : unit_seconds c = Some k <-> unit_of c k.
Proof.
  unfold unit_seconds. destruct (Ascii.eqb_spec c "d") as [->|]; [cbn; split; [intros E; injection E as <-; constructor|intros E; inversion E; reflexivity]|].
  destruct (Ascii.eqb_spec c "D") as [->|]; [cbn; split; [intros E; injection E as <-; constructor|intros E; inversion E; reflexivity]|].
  destruct (Ascii.eqb_spec c "w") as [->|]; [cbn; split; [intros E; injection E as <-; constructor|intros E; inversion E; reflexivity]|].
  destruct (Ascii.eqb_spec c "W") as [->|]; [cbn; split; [intros E; injection E as <-; constructor|intros E; inversion E; reflexivity]|].
  destruct (Ascii.eqb_spec c "m") as [->|]; [cbn; split; [intros E; injection E as <-; constructor|intros E; inversion E; reflexivity]|].
  destruct (Ascii.eqb_spec c "M") as [->|]; [cbn; split; [intros E; injection E as <-; constructor|intros E; inversion E; reflexivity]|].
  destruct (Ascii.eqb_spec c "y") as [->|]; [cbn; split; [intros E; injection E as <-; constructor|intros E; inversion E; reflexivity]|].
  destruct (Ascii.eqb_spec c "Y") as [->|]; [cbn; split; [intros E; injection E as <-; constructor|intros E; inversion E; reflexivity]|].
  cbn. split; [discriminate|]. intros E. inversion E; congruence.
Qed.
Lemma unit_no_cont c k : unit_of c k -> continues c = false /\ is_ws c = false.
Proof. intros []; split; reflexivity. Qed.
Lemma relative_time now (n : N) c k : (n <= I64_MAX)%N -> unit_of c k -> (0 <= now <= Z.of_N I64_MAX)%Z -> (Z.of_N n * k <= Z.of_N I64_MAX)%Z ->
  parse_relative_time now (show_N n ++ [c]) = Ok (Some (now - Z.of_N n * k)%Z).
Proof.
  intros Hn U Hnow Hk. destruct (unit_no_cont c k U) as [Hc Hw]. unfold parse_relative_time.
  destruct (show_N_spec n) as (_ & D & _).
  assert (TR : trim (show_N n ++ [c]) = show_N n ++ [c]).
  { apply trim_no_ws. rewrite forallb_app. cbn [forallb]. rewrite Hw. cbn [negb andb]. rewrite andb_true_r. apply forallb_forall. intros d J. rewrite forallb_forall in D. specialize (D d J).
    destruct (is_ws d) eqn:W; [|reflexivity]. exfalso. clear - D W. destruct d as [[] [] [] [] [] [] [] []]; discriminate D || discriminate W. }
  rewrite TR, rev_app_distr. cbn [rev app]. rewrite Hc, rev_involutive, parse_i64_show. apply N.leb_le in Hn. rewrite Hn. rewrite (proj2 (unit_iff c k) U).
  assert (Kp : (0 < k)%Z) by (destruct U; reflexivity). assert (M : (I64_MAX = 9223372036854775807)%N) by reflexivity.
  rewrite (wrap64_fits (Z.of_N n * k)) by (unfold fits; lia). rewrite wrap64_fits by (unfold fits; lia). reflexivity.
Qed.

(** ** paths *)
Lemma separated_split sep l s : separated sep l s -> split_on sep s = l.
Proof.
  induction 1 as [p N|p l s N H IH].
  - induction p as [|c p IHp]; [reflexivity|]. cbn [split_on]. destruct (Ascii.eqb_spec c sep) as [E|E]; [exfalso; apply N; left; exact E|].
    rewrite IHp by (intros J; apply N; right; exact J). reflexivity.
  - induction p as [|c p IHp]; cbn [app split_on].
    + rewrite Ascii.eqb_refl, IH. reflexivity.
    + destruct (Ascii.eqb_spec c sep) as [E|E]; [exfalso; apply N; left; exact E|]. rewrite IHp by (intros J; apply N; right; exact J). reflexivity.
Qed.
Lemma split_separated sep s : separated sep (split_on sep s) s.
Proof.
  induction s as [|c s IH]; cbn [split_on]; [constructor; intros []|]. destruct (Ascii.eqb_spec c sep) as [->|E].
  - apply (sep_more sep [] (split_on sep s) s); [intros []|exact IH].
  - inversion IH as [p N E1 E2|p l s' N H E1 E2]; rewrite <- E1 in *.
    + constructor. intros [X|X]; [exact (E X)|]. rewrite <- E2 in *. exact (N X).
    + apply (sep_more sep (c :: p)); [|exact H]. intros [X|X]; [exact (E X)|exact (N X)].
Qed.
Lemma split_paths_iff win l s : separated (path_sep win) l s ->
  split_package_paths win s = filter (fun p => negb (is_nil p)) (map trim l).
Proof. intros H. unfold split_package_paths. rewrite (separated_split _ _ _ H). reflexivity. Qed.
Lemma split_tidy win l s : separated (path_sep win) l s -> Forall (tidy_path (path_sep win)) l -> split_package_paths win s = l.
Proof.
  intros H F. rewrite (split_paths_iff win l s H). clear H. induction F as [|p l (N & _ & E) F IH]; [reflexivity|]. cbn [map filter]. rewrite E. destruct p; [contradiction|]. cbn [is_nil negb]. rewrite IH. reflexivity.
Qed.

(** ** the points and the fields *)
Lemma score_value {P : Prop} {n} k : (0 < n <-> P) -> n = 0 \/ n = k -> 0 < k -> worth P k n.
Proof. intros H [->| ->] K; [right|left]; (split; [|reflexivity]); [intros X; apply H in X; lia|apply H, K]. Qed.
Ltac flag := match goal with |- context [if ?b then _ else _] => destruct b end; tauto.
Lemma points_of re description a p h : evaluate re description a p = Some h -> points re description a p (h_score h).
Proof.
  unfold evaluate. destruct (Nat.ltb 0 _); [|discriminate]. intros E. injection E as <-. cbn [h_score].
  exists (name_score re a p), (description_score re description a p), (tools_score re a p), (requirements_score re a p), (default_description description a p), (default_tools a p).
  split; [reflexivity|]. split; [|split; [|split; [|split; [|split]]]].
  - pose proof (matches_iff re a (p_name p)) as M. unfold name_score. change (folded a) with (seen a). destruct (text_matches re a (p_name p)); [|right; right; split; [intros X; apply M in X; discriminate X|reflexivity]].
    assert (F : finds re a (p_name p)) by (apply M; reflexivity). destruct (q_regex a); [left; repeat split; try exact F; left; reflexivity|].
    destruct (text_eqb (seen a (p_name p)) (seen a (q_query a))) eqn:E.
    + left. repeat split; [exact F|right; apply text_eqb_eq, E].
    + right. left. repeat split; [exact F|]. intros X. apply text_eqb_eq in X. congruence.
  - apply score_value; [apply description_pos| |lia]. unfold description_score. destruct (q_description a); [|tauto]. destruct (description (p_rest p)); cbv iota beta; [flag|tauto].
  - apply score_value; [apply tools_pos| |lia]. unfold tools_score. destruct (q_tools a); cbv iota beta; [flag|tauto].
  - apply score_value; [apply requirements_pos| |lia]. unfold requirements_score. destruct (q_requirements a); cbv iota beta; [flag|tauto].
  - apply score_value; [unfold no_field; rewrite <- default_iff; apply (default_description_pos re)| |lia]. unfold default_description. destruct (by_default a); [|tauto]. destruct (description (p_rest p)); cbv iota beta; [flag|tauto].
  - apply score_value; [unfold no_field; rewrite <- default_iff; apply default_tools_pos| |lia]. unfold default_tools. destruct (by_default a); cbv iota beta; [flag|tauto].
Qed.
Lemma named_in f g n : In f (named_field g n) <-> f = g /\ 0 < n.
Proof. destruct n; cbn; split; try tauto; try (intros [_ H]; lia). - intros [E|[]]. split; [symmetry; exact E|lia]. - intros [E _]. left. symmetry. exact E. Qed.
Lemma fields_of re description a p h : evaluate re description a p = Some h -> forall f, In f (h_fields h) <-> found_in re description a p f.
Proof.
  unfold evaluate. destruct (Nat.ltb 0 _); [|discriminate]. intros E. injection E as <-. cbn [h_fields]. intros f.
  rewrite !in_app_iff, !named_in. pose proof (name_pos re a p) as E1. pose proof (description_pos re description a p) as E2. pose proof (tools_pos re a p) as E3.
  pose proof (requirements_pos re a p) as E4. pose proof (default_description_pos re description a p) as E5. pose proof (default_tools_pos a p) as E6. rewrite default_iff in E5, E6.
  assert (D : FDescription <> FName /\ FDescription <> FTools /\ FDescription <> FRequirements /\ FTools <> FName /\ FTools <> FRequirements /\ FRequirements <> FName) by (repeat split; discriminate).
  destruct D as (D1 & D2 & D3 & D4 & D5 & D6).
  destruct f; cbn [found_in]; unfold no_field; rewrite <- ?E1, <- ?E2, <- ?E3, <- ?E4, <- ?E5, <- ?E6; clear E1 E2 E3 E4 E5 E6; split; intros H;
    repeat match goal with K : _ \/ _ |- _ => destruct K as [K|K] end; try (destruct H as [X H]; congruence); tauto.
Qed.

(** ** the results *)
Section Results.
Context (re : text -> option (text -> bool)) (description : N -> option text) (ord : list hit -> list hit).
Context (names : list text) (packages_of : text -> list package).
Definition kept (a : qargs) newer older (p : package) : bool :=
  time_kept newer older p && type_kept a p && match evaluate re description a p with Some _ => true | None => false end.
Lemma kept_iff a newer older p : kept a newer older p = true <-> in_time newer older p /\ of_kind a p /\ found_by re description a p.
Proof.
  unfold kept. rewrite !andb_true_iff, (time_iff newer older p), (kind_iff re a p), <- (evaluate_iff re description a p). destruct (evaluate re description a p) as [h|]; split.
  - intros [[H K] _]. repeat split; try assumption. exists h. reflexivity.
  - tauto.
  - intros [_ X]. discriminate X.
  - intros (_ & _ & h & X). discriminate X.
Qed.
Lemma filter_flat {A B} (f : B -> bool) (g : A -> list B) l : filter f (flat_map g l) = flat_map (fun x => filter f (g x)) l.
Proof. induction l as [|x l IH]; [reflexivity|]. cbn [flat_map]. rewrite filter_app, IH. reflexivity. Qed.
Lemma hits_packages a newer older : map h_package (all_hits re description names packages_of a newer older) = filter (kept a newer older) (flat_map packages_of names).
Proof.
  unfold all_hits. rewrite filter_flat. induction names as [|n l IH]; [reflexivity|]. cbn [flat_map]. rewrite map_app, IH. f_equal. clear IH.
  induction (packages_of n) as [|p ps IH]; [reflexivity|]. cbn [flat_map filter]. rewrite map_app, IH. unfold kept at 2.
  destruct (time_kept newer older p && type_kept a p); [|reflexivity]. destruct (evaluate re description a p) as [h|] eqn:E; [|reflexivity]. cbn. rewrite (evaluate_some _ _ _ _ _ E). reflexivity.
Qed.
Lemma hits_versions S a newer older : versions_in S (flat_map packages_of names) -> hits_in S (all_hits re description names packages_of a newer older).
Proof.
  intros V h v J E. apply all_hits_iff in J as (n & J & K & _). refine (V (h_package h) v _ E). apply in_flat_map. exists n. split; assumption.
Qed.
End Results.
