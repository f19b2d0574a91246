(** The resolver ends when families can be put on levels and equal requirements accept the same versions. *)
From Verif Require Import Base Base_lemmas Version_model Range_model Requirement_model Maps Sorting Package_model Dfs Order_spec Solver_model Solver_spec Solver_proofs Solver_result.

(** ** the families that matter *)
Section Ends.
Context (repo : text -> option (list package)) (cfg : config) (reqs : list requirement) (level : text -> nat).
Hypothesis Hwell : well_named repo.
Hypothesis Hlevel : layered repo level.
Hypothesis Happ : told_apart repo reqs.

Definition offered (n : text) : list package := match repo n with Some ps => ps | None => [] end.
Definition dep_names (n : text) : list text :=
  flat_map (fun p => flat_map (fun t => match parse_dep t with Some (false, r) => [rq_name r] | _ => [] end) (p_requires p ++ concat (p_variants p))) (offered n).
Lemma dep_names_in a b : In b (dep_names a) -> depends repo a b.
Proof.
  unfold dep_names, offered. intros H. apply in_flat_map in H as (p & Hp & H). destruct (repo a) as [ps|] eqn:E; [|destruct Hp]. apply in_flat_map in H as (t & Ht & H).
  destruct (parse_dep t) as [[[|] r]|] eqn:Ep; try (destruct H; fail). destruct H as [<-|[]]. apply parse_dep_positive in Ep as [P1 P2]. pose proof (Hwell _ _ _ E Hp) as Hn.
  assert (W : forall x, rs_package x = p -> variant_ok x -> requires_text x t -> depends repo a (rq_name r)).
  { intros x X V Q. exists x, r. unfold rs_name. rewrite X. split; [exact Hn|]. split; [exists ps; unfold rs_name; rewrite X, Hn; auto|]. split; [exact V|]. split; [exists t; auto|reflexivity]. }
  apply in_app_iff in Ht as [Ht|Ht].
  - destruct (p_variants p) as [|v vs] eqn:Ev.
    + apply (W (mkResolved p None true [] None)); [reflexivity|exact Ev|left; exact Ht].
    + apply (W (mkResolved p (Some 0) true [] None)); [reflexivity|cbn; rewrite Ev; cbn; lia|left; exact Ht].
  - apply in_concat in Ht as (vs & Hv & Ht). apply In_nth_error in Hv as [i Hi].
    apply (W (mkResolved p (Some i) true [] None)); [reflexivity|cbn; apply nth_error_Some; congruence|right; exists i, vs; auto].
Qed.
Lemma depends_names a b : depends repo a b -> In b (dep_names a).
Proof.
  intros (x & r & <- & (ps & Hr & Hp) & _ & (t & Ht & N & P) & <-). unfold dep_names, offered. rewrite Hr. apply in_flat_map. exists (rs_package x). split; [exact Hp|].
  apply in_flat_map. exists t. split.
  - apply in_app_iff. destruct Ht as [Ht|(i & vs & _ & Hi & Ht)]; [left; exact Ht|right]. apply in_concat. exists vs. split; [apply nth_error_In in Hi; exact Hi|exact Ht].
  - assert (E : parse_dep t = Some (false, r)) by (apply parse_dep_positive; auto). rewrite E. left. reflexivity.
Qed.
Fixpoint tier (k : nat) : list text := match k with O => map rq_name reqs | S k' => flat_map dep_names (tier k') end.
Definition top : nat := fold_right (fun r m => Nat.max (level (rq_name r)) m) 0 reqs.
Definition names : list text := nodup (list_eq_dec ascii_dec) (flat_map tier (seq 0 (S top))).
Lemma top_level r : In r reqs -> level (rq_name r) <= top.
Proof.
  clear Happ. unfold top. induction reqs as [|q l IH]; [intros []|]. cbn [fold_right]. intros [->|H]; [lia|]. specialize (IH H). lia.
Qed.
Lemma tier_level k n : In n (tier k) -> level n + k <= top.
Proof.
  revert n. induction k as [|k IH]; intros n; cbn [tier].
  - intros H. apply in_map_iff in H as (r & <- & H). pose proof (top_level r H). lia.
  - intros H. apply in_flat_map in H as (a & Ha & H). specialize (IH a Ha). pose proof (Hlevel a n (dep_names_in a n H)). lia.
Qed.
Lemma names_in n : In n names <-> exists k, In n (tier k).
Proof.
  unfold names. rewrite nodup_In, in_flat_map. split; [intros (k & _ & H); exists k; exact H|]. intros [k H]. exists k. split; [|exact H]. apply in_seq. pose proof (tier_level k n H). lia.
Qed.
Lemma names_asked r : In r reqs -> In (rq_name r) names.
Proof. intros H. apply names_in. exists 0. apply in_map, H. Qed.
Lemma names_closed a b : In a names -> depends repo a b -> In b names.
Proof. intros H D. apply names_in in H as [k H]. apply names_in. exists (S k). cbn [tier]. apply in_flat_map. exists a. split; [exact H|apply depends_names, D]. Qed.
Lemma names_nodup : NoDup names.
Proof. apply NoDup_nodup. Qed.
Definition packages : list package := flat_map offered names.

(** ** the measure *)
Definition demands (st : state) : list requirement := filter positive reqs ++ concat (map snd (s_reqs st)).
Definition content_with (st : state) (n : text) (x : resolved) : bool := forallb (fun r => negb (text_eqb (rq_name r) n) || fits_b r (rs_package x)) (demands st).
Definition blame (rej : list (text * list version)) (p : package) : nat := match p_version p with None => 1 | Some _ => if is_rejected p rej then 2 else 0 end.
Definition chosen (st : state) (n : text) : option resolved := find (fun x => text_eqb (rs_name x) n) (s_resolved st).
Definition status (st : state) (n : text) : nat :=
  match chosen st n with None => 6 | Some x => (if content_with st n x then 0 else 3) + blame (s_rejected st) (rs_package x) end.
Definition base : nat := S (6 * length names).
Definition weigh (f : text -> nat) (l : list text) : nat := fold_right (fun n m => f n * base ^ level n + m) 0 l.
Definition weight (st : state) : nat := weigh (status st) names.
Definition allowed (st : state) : nat := length (filter (fun p => negb (is_rejected p (s_rejected st))) packages).

Lemma status_bound st n : status st n <= 6.
Proof. unfold status, blame. destruct (chosen st n) as [x|]; [|lia]. destruct (content_with st n x), (p_version (rs_package x)); try destruct (is_rejected (rs_package x) (s_rejected st)); lia. Qed.
Lemma status_present st n x : chosen st n = Some x -> status st n <= 5.
Proof. unfold status, blame. intros ->. destruct (content_with st n x), (p_version (rs_package x)); try destruct (is_rejected (rs_package x) (s_rejected st)); lia. Qed.
Lemma weigh_app f a b : weigh f (a ++ b) = weigh f a + weigh f b.
Proof. unfold weigh. induction a as [|x a IH]; [reflexivity|]. cbn [app fold_right]. rewrite IH. lia. Qed.
Lemma weigh_ext f g l : (forall n, In n l -> f n = g n) -> weigh f l = weigh g l.
Proof. induction l as [|x l IH]; intros H; [reflexivity|]. unfold weigh in *. cbn [fold_right]. rewrite IH, (H x) by auto with datatypes. reflexivity. Qed.
Lemma weigh_part f g n l : ~ In n l -> (forall m, f m <= 6) -> (forall m, In m l -> m <> n -> level n <= level m -> f m = g m) ->
  weigh f l <= weigh g l + length l * match level n with O => 0 | S k => 6 * base ^ k end.
Proof.
  intros N B E. induction l as [|m l IH]; [unfold weigh; cbn; lia|]. assert (IH' := IH (fun H => N (or_intror H)) (fun x X => E x (or_intror X))). clear IH.
  unfold weigh in *. cbn [fold_right length]. assert (m <> n) as D by (intros ->; apply N; left; reflexivity).
  destruct (le_lt_dec (level n) (level m)) as [L|L]; [rewrite (E m (or_introl eq_refl) D L); lia|]. destruct (level n) as [|k] eqn:Ek; [lia|].
  assert (base ^ level m <= base ^ k) as P by (apply Nat.pow_le_mono_r; [unfold base; lia|lia]). specialize (B m). nia.
Qed.
Lemma weigh_less f g n : In n names -> (forall m, f m <= 6) -> f n < g n -> (forall m, In m names -> m <> n -> level n <= level m -> f m = g m) -> weigh f names < weigh g names.
Proof.
  intros H B L E. apply in_split in H as (a & b & H). assert (ND := names_nodup). rewrite H in ND. apply NoDup_remove_2 in ND. rewrite in_app_iff in ND.
  assert (Pa := weigh_part f g n a (fun X => ND (or_introl X)) B (fun m X => E m ltac:(rewrite H; apply in_or_app; left; exact X))).
  assert (Pb := weigh_part f g n b (fun X => ND (or_intror X)) B (fun m X => E m ltac:(rewrite H; apply in_or_app; right; right; exact X))).
  assert (Len : length a + length b < length names) by (rewrite H, app_length; cbn; lia).
  rewrite H, !weigh_app. change (weigh f (n :: b)) with (f n * base ^ level n + weigh f b). change (weigh g (n :: b)) with (g n * base ^ level n + weigh g b).
  assert (K : (length a + length b) * match level n with O => 0 | S k => 6 * base ^ k end < base ^ level n).
  { destruct (level n) as [|k]; [cbn; lia|]. change (base ^ S k) with (base * base ^ k). assert (0 < base ^ k) by (apply Nat.neq_0_lt_0, Nat.pow_nonzero; unfold base; lia). unfold base at 2. nia. }
  nia.
Qed.
(** ** what the state says about names *)
Definition queued (st : state) : Prop := forall r, In r (s_queue st) -> In r (demands st).
Definition active_play (st : state) : Prop := forall n l r, aget n (s_active st) = Some l -> In r l -> In r (demands st).
Definition good (st : state) : Prop := settled repo cfg reqs st /\ queued st /\ active_play st.

Lemma chosen_iff st n x : NoDup (map rs_name (s_resolved st)) -> chosen st n = Some x <-> In x (s_resolved st) /\ rs_name x = n.
Proof.
  intros N. unfold chosen. split.
  - intros H. apply find_some in H as [H1 H2]. apply text_eqb_eq in H2. auto.
  - intros [H1 H2]. destruct (find _ _) as [y|] eqn:E.
    + apply find_some in E as [E1 E2]. apply text_eqb_eq in E2. f_equal. revert N H1 E1. clear -H2 E2. induction (s_resolved st) as [|z l IH]; [intros _ []|]. cbn [map]. intros N. inversion N as [|? ? N1 N2]; subst.
      intros [->|H1] [->|E1]; [reflexivity| | |exact (IH N2 H1 E1)].
      * exfalso. apply N1. rewrite <- E2. apply in_map, E1.
      * exfalso. apply N1. rewrite E2. apply in_map, H1.
    + apply (find_none _ _ E) in H1. rewrite H2, text_eqb_refl in H1. discriminate.
Qed.
Lemma demand_cases st r : settled repo cfg reqs st -> In r (demands st) <-> (In r reqs /\ rq_conflict r = false) \/ exists x, In x (s_resolved st) /\ wants x r.
Proof.
  intros St. unfold demands. rewrite in_app_iff, filter_In. unfold positive. rewrite negb_true_iff. split; intros [H|H]; auto; right.
  - apply in_concat in H as (l & Hl & H). apply in_map_iff in Hl as ([n l'] & <- & Hl). cbn [snd] in H.
    pose proof (se_owner _ _ _ _ St n) as Ow. destruct (proj1 (in_map_iff rs_name (s_resolved st) n)) as (x & Hn & Hx). { apply Ow. apply in_map_iff. exists (n, l'). auto. }
    exists x. split; [exact Hx|]. destruct (settled_wants _ _ _ st x St Hx) as (ds & G & W). apply W. rewrite Hn in G. rewrite (aget_nodup n l' _ (se_rkeys _ _ _ _ St) Hl) in G. injection G as <-. exact H.
  - destruct H as (x & Hx & W). destruct (settled_wants _ _ _ st x St Hx) as (ds & G & Wd). apply in_concat. exists ds. split; [|apply Wd, W]. apply in_map_iff. exists (rs_name x, ds). split; [reflexivity|apply aget_in, G].
Qed.
Lemma resolved_depends st x r : settled repo cfg reqs st -> In x (s_resolved st) -> wants x r -> depends repo (rs_name x) (rq_name r).
Proof. intros St Hx W. destruct (se_each _ _ _ _ St x Hx) as (ds & cs & S & _). exists x, r. split; [reflexivity|]. split; [apply (sl_repo _ _ _ _ _ _ S)|]. split; [apply (sl_variant _ _ _ _ _ _ S)|]. auto. Qed.
Lemma demand_play st r : settled repo cfg reqs st -> In r (demands st) -> in_play repo reqs r.
Proof.
  intros St H. apply (demand_cases st r St) in H as [[H _]|(x & Hx & W)]; [left; exact H|right]. destruct (se_each _ _ _ _ St x Hx) as (ds & cs & S & _).
  exists x. split; [apply (sl_repo _ _ _ _ _ _ S)|]. split; [apply (sl_variant _ _ _ _ _ _ S)|exact W].
Qed.
(** an entry of the table of requirements is that of a resolved package *)
Lemma entry_owner st n l r : settled repo cfg reqs st -> aget n (s_reqs st) = Some l -> In r l -> exists x, In x (s_resolved st) /\ rs_name x = n /\ wants x r.
Proof.
  intros St G H. destruct (proj1 (in_map_iff rs_name (s_resolved st) n)) as (x & Hn & Hx). { apply (se_owner _ _ _ _ St). apply aget_some. exists l. exact G. }
  exists x. split; [exact Hx|]. split; [exact Hn|]. destruct (settled_wants _ _ _ st x St Hx) as (ds & G' & W). rewrite Hn, G in G'. injection G' as <-. apply W, H.
Qed.
Lemma reach_names st n : settled repo cfg reqs st -> reachable (hard_names (s_reqs st)) (root_names reqs) n -> In n names.
Proof.
  intros St H. induction H as [n H|a b Ha IH H].
  - apply in_map_iff in H as (r & <- & H). apply filter_In in H as [H _]. apply names_asked, H.
  - apply hard_names_in in H as (l & r & G & Hr & _ & ->). destruct (entry_owner st a l r St G Hr) as (x & Hx & <- & W). apply (names_closed (rs_name x)); [exact IH|]. apply (resolved_depends st x r St Hx W).
Qed.
Lemma resolved_named st x : settled repo cfg reqs st -> In x (s_resolved st) -> In (rs_name x) names.
Proof. intros St H. apply (reach_names st), (se_needed _ _ _ _ St x H). exact St. Qed.
Lemma resolved_offered st x : settled repo cfg reqs st -> In x (s_resolved st) -> In (rs_package x) packages.
Proof.
  intros St H. apply in_flat_map. exists (rs_name x). split; [apply (resolved_named st x St H)|]. destruct (se_each _ _ _ _ St x H) as (ds & cs & S & _). destruct (sl_repo _ _ _ _ _ _ S) as (ps & E & Hp). unfold offered. rewrite E. exact Hp.
Qed.
Lemma demand_named st r : settled repo cfg reqs st -> In r (demands st) -> In (rq_name r) names.
Proof.
  intros St H. apply (demand_cases st r St) in H as [[H _]|(x & Hx & W)]; [apply names_asked, H|]. apply (names_closed (rs_name x)); [apply (resolved_named st x St Hx)|apply (resolved_depends st x r St Hx W)].
Qed.
(** ** installing a package changes nothing above it *)
Lemma entry_level st n l r : settled repo cfg reqs st -> aget n (s_reqs st) = Some l -> In r l -> level (rq_name r) < level n.
Proof. intros St G H. destruct (entry_owner st n l r St G H) as (x & Hx & <- & W). apply Hlevel, (resolved_depends st x r St Hx W). Qed.
Lemma selectable_level x ds cs r : selectable repo cfg reqs x ds cs -> In r ds -> level (rq_name r) < level (rs_name x).
Proof.
  intros S H. apply Hlevel. exists x, r. split; [reflexivity|]. split; [apply (sl_repo _ _ _ _ _ _ S)|]. split; [apply (sl_variant _ _ _ _ _ _ S)|].
  split; [|reflexivity]. apply (wants_split x ds cs (sl_split _ _ _ _ _ _ S)), H.
Qed.
Section Install.
Context (o : order) (x : resolved) (ds cs : list requirement) (st : state).
Hypothesis Ho : any_orders o.
Hypothesis St : settled repo cfg reqs st.
Hypothesis Sx : selectable repo cfg reqs x ds cs.
Let n := rs_name x.
Let pr := aput n ds (s_reqs st).
Let st' := install o n x ds cs st.
Lemma edge_same a b : level n <= level b -> In b (hard_names pr a) <-> In b (hard_names (s_reqs st) a).
Proof.
  intros L. rewrite !hard_names_in. unfold pr. destruct (text_eq_dec a n) as [->|D].
  - rewrite aget_put_same. split; intros (l & r & G & Hr & _ & ->).
    + injection G as <-. pose proof (selectable_level x ds cs r Sx Hr). unfold n in L. lia.
    + pose proof (entry_level st n l r St G Hr). lia.
  - rewrite aget_put_other by exact D. reflexivity.
Qed.
Lemma reach_same m : level n <= level m -> reachable (hard_names pr) (root_names reqs) m <-> reachable (hard_names (s_reqs st)) (root_names reqs) m.
Proof.
  intros L. split; intros H; induction H as [m H|a b Ha IH H].
  - apply reach_root, H.
  - apply edge_same in H; [|exact L]. apply (reach_step _ _ a); [|exact H]. apply IH. apply hard_names_in in H as (l & r & G & Hr & _ & ->). pose proof (entry_level st a l r St G Hr). lia.
  - apply reach_root, H.
  - apply (reach_step _ _ a); [|apply edge_same; assumption]. apply IH. apply hard_names_in in H as (l & r & G & Hr & _ & ->). pose proof (entry_level st a l r St G Hr). lia.
Qed.
Lemma keep_iff m : mem_text m (needed (s_orig st) pr) = true <-> reachable (hard_names pr) (root_names reqs) m.
Proof. rewrite mem_text_In, (se_orig _ _ _ _ St). apply needed_exact. Qed.
Lemma resolved_same y : rs_name y <> n -> level n <= level (rs_name y) -> In y (s_resolved st') <-> In y (s_resolved st).
Proof.
  intros D L. unfold st', install, set_requirements. cbn [s_resolved s_orig s_reqs]. rewrite filter_In, add_resolved_in by apply (se_nodup _ _ _ _ St). fold pr. rewrite keep_iff, reach_same by exact L. split.
  - intros [[->|[H _]] _]; [destruct (D eq_refl)|exact H].
  - intros H. split; [right; auto|apply (se_needed _ _ _ _ St y H)].
Qed.
Lemma resolved_new : reachable (hard_names (s_reqs st)) (root_names reqs) n -> In x (s_resolved st').
Proof.
  intros R. unfold st', install, set_requirements. cbn [s_resolved s_orig s_reqs]. rewrite filter_In, add_resolved_in by apply (se_nodup _ _ _ _ St). fold pr. fold n. rewrite keep_iff, reach_same by apply le_n. auto.
Qed.
Lemma demand_same r : level n <= level (rq_name r) -> In r (demands st') <-> In r (demands st).
Proof.
  intros L. unfold demands. rewrite !in_app_iff. apply or_iff_compat_l. unfold st', install, set_requirements. cbn [s_reqs s_orig]. fold pr. rewrite !in_concat.
  assert (K : NoDup (akeys pr)) by apply nodup_put, (se_rkeys _ _ _ _ St).
  split; intros (l & Hl & Hr); apply in_map_iff in Hl as ([k l'] & <- & Hl); cbn [snd] in *.
  - apply aget_nodup in Hl; [|apply nodup_keep, K]. rewrite aget_keep in Hl. destruct (mem_text k _) eqn:Ek; [|discriminate]. unfold pr in Hl. destruct (text_eq_dec k n) as [->|D].
    + rewrite aget_put_same in Hl. injection Hl as <-. pose proof (selectable_level x ds cs r Sx Hr). unfold n in L. lia.
    + rewrite aget_put_other in Hl by exact D. exists l'. split; [|exact Hr]. apply in_map_iff. exists (k, l'). split; [reflexivity|apply aget_in, Hl].
  - apply aget_nodup in Hl; [|apply (se_rkeys _ _ _ _ St)]. pose proof (entry_level st k l' r St Hl Hr) as Lk. exists l'. split; [|exact Hr]. apply in_map_iff. exists (k, l'). split; [reflexivity|]. apply aget_in.
    rewrite aget_keep. replace (mem_text k _) with true.
    + unfold pr. rewrite aget_put_other; [exact Hl|]. intros ->. lia.
    + symmetry. apply keep_iff. apply reach_same; [lia|]. destruct (entry_owner st k l' r St Hl Hr) as (y & Hy & <- & _). apply (se_needed _ _ _ _ St y Hy).
Qed.
Lemma content_same m y : level n <= level m -> content_with st' m y = content_with st m y.
Proof.
  intros L. unfold content_with. apply eq_true_iff_eq. rewrite !forallb_forall. split; intros H r Hr; destruct (text_eqb_spec (rq_name r) m) as [E|E]; try reflexivity; subst m.
  - apply (proj2 (demand_same r L)) in Hr. specialize (H r Hr). rewrite text_eqb_refl in H. exact H.
  - apply (proj1 (demand_same r L)) in Hr. specialize (H r Hr). rewrite text_eqb_refl in H. exact H.
Qed.
Lemma chosen_same m : m <> n -> level n <= level m -> chosen st' m = chosen st m.
Proof.
  intros D L. assert (S' : settled repo cfg reqs st') by (apply settled_install; assumption).
  assert (K : forall y, chosen st' m = Some y <-> chosen st m = Some y).
  { intros y. rewrite (chosen_iff st' m y (se_nodup _ _ _ _ S')), (chosen_iff st m y (se_nodup _ _ _ _ St)). split; intros [H E]; subst m; (split; [|reflexivity]); apply resolved_same in H; assumption || (apply resolved_same; assumption). }
  destruct (chosen st' m) as [y|] eqn:E; [symmetry; apply K; reflexivity|]. destruct (chosen st m) as [y|] eqn:E2; [|reflexivity]. apply K; reflexivity.
Qed.
Lemma status_same m : m <> n -> level n <= level m -> status st' m = status st m.
Proof. intros D L. unfold status. rewrite chosen_same by assumption. destruct (chosen st m) as [y|]; [|reflexivity]. rewrite content_same by exact L. reflexivity. Qed.
Lemma status_new : reachable (hard_names (s_reqs st)) (root_names reqs) n -> status st' n = (if content_with st n x then 0 else 3) + blame (s_rejected st) (rs_package x).
Proof.
  intros R. assert (S' : settled repo cfg reqs st') by (apply settled_install; assumption). unfold status. replace (chosen st' n) with (Some x).
  - rewrite content_same by apply le_n. reflexivity.
  - symmetry. apply (chosen_iff st' n x (se_nodup _ _ _ _ S')). split; [apply resolved_new, R|reflexivity].
Qed.
Lemma install_less : reachable (hard_names (s_reqs st)) (root_names reqs) n -> (if content_with st n x then 0 else 3) + blame (s_rejected st) (rs_package x) < status st n ->
  weight st' < weight st.
Proof.
  intros R L. unfold weight. apply (weigh_less (status st') (status st) n).
  - apply (reach_names st n St R).
  - apply status_bound.
  - rewrite status_new by exact R. exact L.
  - intros m _ D Lm. apply status_same; assumption.
Qed.
Lemma active_install : active_play st'.
Proof.
  intros m l r G H. unfold st', install, set_requirements in *. cbn [s_active s_orig s_reqs] in *. fold pr in G. rewrite (se_orig _ _ _ _ St) in *. set (pk := akeep (fun m => mem_text m (needed reqs pr)) pr) in *.
  unfold demands. cbn [s_reqs]. unfold rebuild_active in G.
  assert (K : forall l0 a, (forall m l r, aget m a = Some l -> In r l -> In r (filter positive reqs ++ concat (map snd pk))) -> (forall r, In r l0 -> In r (filter positive reqs ++ concat (map snd pk))) ->
    forall m l r, aget m (fold_left insert_active l0 a) = Some l -> In r l -> In r (filter positive reqs ++ concat (map snd pk))).
  { induction l0 as [|q l0 IH]; intros a A Q; [exact A|]. cbn [fold_left]. apply IH; [|intros z Z; apply Q; right; exact Z]. intros m' l' r' G' H'. unfold insert_active in G'. destruct (text_eq_dec m' (rq_name q)) as [->|D].
    - rewrite aget_put_same in G'. injection G' as <-.
      assert (Old : In r' match aget (rq_name q) a with Some rs => rs | None => [] end -> In r' (filter positive reqs ++ concat (map snd pk))). { destruct (aget (rq_name q) a) as [l1|] eqn:E1; [apply (A _ _ _ E1)|intros []]. }
      destruct (has_req q _); [apply Old, H'|]. apply in_app_iff in H' as [H'|[<-|[]]]; [apply Old, H'|apply Q; left; reflexivity].
    - rewrite aget_put_other in G' by exact D. apply (A _ _ _ G' H'). }
  revert G H. apply K; [intros ? ? ? X; discriminate X|]. clear m l r K. intros r H. apply in_app_iff in H as [H|H]; apply in_app_iff; [left; exact H|right].
  apply in_concat in H as (l & Hl & H). apply in_concat. exists l. split; [|exact H]. destruct Ho as (Ho1 & _). apply (Permutation_in _ (Permutation_map snd (Ho1 pk))), Hl.
Qed.
Lemma queued_install : queued st'.
Proof.
  intros r H. unfold st', install, set_requirements in *. cbn [s_queue s_orig s_reqs s_resolved] in *. rewrite (se_orig _ _ _ _ St) in *. unfold demands. cbn [s_reqs]. apply in_app_iff in H as [H|H]; apply in_app_iff; [left; exact H|right].
  apply in_concat in H as (l & Hl & H). apply in_map_iff in Hl as (y & <- & _). destruct (aget (rs_name y) _) as [l|] eqn:E; [|destruct H]. apply in_concat. exists l. split; [|exact H]. apply in_map_iff. exists (rs_name y, l). split; [reflexivity|apply aget_in, E].
Qed.
Lemma good_install : good st'.
Proof. split; [apply settled_install; assumption|]. split; [apply queued_install|apply active_install]. Qed.
End Install.
(** ** rejections only grow *)
Definition grown (a b : list (text * list version)) : Prop := forall p, is_rejected p a = true -> is_rejected p b = true.
Lemma grown_reject p rej : grown rej (reject p rej).
Proof.
  intros q. unfold is_rejected, reject. destruct (p_version q) as [w|]; [|auto]. destruct (p_version p) as [v|]; [|auto]. destruct (text_eq_dec (p_name q) (p_name p)) as [E|E].
  - rewrite E, aget_put_same. destruct (aget (p_name p) rej) as [l|]; [|discriminate]. destruct (in_versions v l); [auto|]. unfold in_versions. cbn [existsb]. intros ->. apply orb_true_r.
  - rewrite aget_put_other by exact E. auto.
Qed.
Lemma reject_marks p rej v : p_version p = Some v -> is_rejected p (reject p rej) = true.
Proof.
  intros E. unfold is_rejected, reject. rewrite E, aget_put_same. destruct (aget (p_name p) rej) as [l|].
  - destruct (in_versions v l) eqn:Ei; [exact Ei|]. unfold in_versions. cbn [existsb]. rewrite text_eqb_refl, veq_refl. reflexivity.
  - unfold in_versions. cbn [existsb]. rewrite text_eqb_refl, veq_refl. reflexivity.
Qed.
Definition left_over (rej : list (text * list version)) : nat := length (filter (fun p => negb (is_rejected p rej)) packages).
Lemma left_over_grown a b : grown a b -> left_over b <= left_over a /\ (left_over b = left_over a -> forall p, In p packages -> is_rejected p b = is_rejected p a).
Proof.
  intros G. unfold left_over. induction packages as [|p l [IH1 IH2]]; cbn [filter]; [split; [lia|intros _ p []]|]. specialize (G p). destruct (is_rejected p a) eqn:Ea.
  - rewrite G by reflexivity. cbn [negb]. split; [exact IH1|]. intros E q [<-|Hq]; [rewrite G, Ea by reflexivity; reflexivity|apply IH2; assumption].
  - destruct (is_rejected p b) eqn:Eb; cbn [negb length].
    + split; [lia|]. intros E. exfalso. lia.
    + split; [lia|]. intros E q [<-|Hq]; [congruence|]. apply IH2; [lia|exact Hq].
Qed.
Lemma status_rejected rej st n : settled repo cfg reqs st -> (forall p, In p packages -> is_rejected p rej = is_rejected p (s_rejected st)) -> status (set_rejected rej st) n = status st n.
Proof.
  intros St H. unfold status. change (chosen (set_rejected rej st) n) with (chosen st n). destruct (chosen st n) as [x|] eqn:E; [|reflexivity]. f_equal. unfold blame. cbn [set_rejected s_rejected]. destruct (p_version (rs_package x)); [|reflexivity].
  rewrite H; [reflexivity|]. apply (chosen_iff st n x (se_nodup _ _ _ _ St)) in E as [E _]. apply (resolved_offered st x St E).
Qed.
(** fewer packages left, or as many and less to do *)
Definition less (a b : state) : Prop := left_over (s_rejected a) < left_over (s_rejected b) \/ (left_over (s_rejected a) = left_over (s_rejected b) /\ weight a < weight b).
Lemma less_rejected rej st st' : settled repo cfg reqs st -> grown (s_rejected st) rej -> less st' (set_rejected rej st) -> less st' st.
Proof.
  intros St G. destruct (left_over_grown _ _ G) as [G1 G2]. unfold less. cbn [set_rejected s_rejected]. intros [H|[H1 H2]]; [left; lia|].
  destruct (Nat.eq_dec (left_over rej) (left_over (s_rejected st))) as [E|E]; [|left; lia]. right. split; [lia|]. replace (weight st) with (weight (set_rejected rej st)); [exact H2|].
  apply weigh_ext. intros n _. apply status_rejected; [exact St|apply G2, E].
Qed.
(** what every active requirement accepts suits every demand *)
Lemma suits_all st n x l : good st -> rs_name x = n -> from_repo repo x -> aget n (s_active st) = Some l ->
  (forall v r, p_version (rs_package x) = Some v -> In r l -> r_satisfied r v = true) -> content_with st n x = true.
Proof.
  intros (St & _ & Ac) Hn (ps & Hr & Hp) G H. unfold content_with. apply forallb_forall. intros r Hd. destruct (text_eqb_spec (rq_name r) n) as [E|E]; [cbn [negb orb]|reflexivity].
  unfold fits_b. apply andb_true_iff. split; [apply text_eqb_eq; rewrite E; exact Hn|]. destruct (p_version (rs_package x)) as [v|] eqn:Ev; [|reflexivity].
  assert (A : is_active (s_active st) r = true).
  { apply (se_active _ _ _ _ St). unfold demands in Hd. apply in_app_iff in Hd as [Hd|Hd]; [left; exact Hd|right]. apply in_concat in Hd as (l' & Hl & Hd). apply in_map_iff in Hl as ([k l''] & <- & Hl). exists k, l''. auto. }
  unfold is_active in A. rewrite E, G in A. unfold has_req in A. apply existsb_exists in A as (r0 & H0 & E0).
  rewrite <- (Happ r0 r (rs_name x) ps (rs_package x) v); auto.
  - apply (demand_play st r0 St), (Ac n l r0 G H0).
  - apply (demand_play st r St Hd).
Qed.
Lemma good_rejected rej st : good st -> good (set_rejected rej st).
Proof. intros (St & Q & A). split; [apply settled_rejected, St|]. split; [exact Q|exact A]. Qed.
Lemma present_needed st n x : settled repo cfg reqs st -> chosen st n = Some x -> reachable (hard_names (s_reqs st)) (root_names reqs) n.
Proof. intros St H. apply (chosen_iff st n x (se_nodup _ _ _ _ St)) in H as [H <-]. apply (se_needed _ _ _ _ St x H). Qed.

Lemma backtrack_package_less o n st b st' : any_orders o -> good st -> backtrack_package repo cfg o n st = Some (b, st') ->
  if b then good st' /\ less st' st else exists rej, st' = set_rejected rej st /\ grown (s_rejected st) rej.
Proof.
  intros Ho Gd H. pose proof Gd as (St & _ & Ac). unfold backtrack_package in H.
  assert (exists rej, st = set_rejected rej st /\ grown (s_rejected st) rej) as Same by (exists (s_rejected st); split; [destruct st; reflexivity|intros p; auto]).
  destruct (find _ (s_resolved st)) as [cur|] eqn:Ef; [|injection H as <- <-; exact Same]. change (chosen st n = Some cur) in Ef.
  destruct (aget n (s_active st)) as [rs|] eqn:Ea; [|injection H as <- <-; exact Same].
  destruct rs as [|primary rs]; [injection H as <- <-; exact Same|].
  set (rej := reject (rs_package cur) (s_rejected st)) in *.
  destruct (find_candidates repo cfg primary) as [cs|] eqn:Ec; [|discriminate].
  destruct (replace_with _ cur (primary :: rs) primary cs) as [[[x ds] bs]|] eqn:Er.
  2: { injection H as <- <-. exists rej. split; [reflexivity|apply grown_reject]. }
  injection H as <- <-. apply find_candidates_spec in Ec as (ps & Hps & ->).
  apply replace_with_spec in Er as (c & r & Hc & Hrej & Hne & He & Hall & Ht).
  assert (rq_name primary = n) as Hn by (apply (se_keyed _ _ _ _ St _ _ _ Ea); left; reflexivity).
  destruct (candidate_selectable repo cfg reqs Hwell _ _ _ _ _ _ _ _ (settled_rejected _ _ _ rej _ St) Hps Hc He Ht) as (Sx & Hx & Hxc).
  rewrite Hn in Hx. rewrite <- Hx in *. clear n Hx Hn. split; [apply good_install; [exact Ho|apply settled_rejected, St|exact Sx]|].
  assert (Gr : grown (s_rejected st) rej) by apply grown_reject. destruct (left_over_grown _ _ Gr) as [G1 G2].
  destruct (Nat.eq_dec (left_over rej) (left_over (s_rejected st))) as [E|E]; [|left; unfold install, set_requirements; cbn [s_rejected set_rejected]; lia].
  apply (less_rejected rej); [exact St|exact Gr|]. right. split; [reflexivity|]. apply install_less; [exact Ho|apply settled_rejected, St|exact Sx|apply (present_needed st _ cur St Ef)|].
  assert (Cw : content_with (set_rejected rej st) (rs_name x) x = true).
  { apply (suits_all _ _ _ (primary :: rs)); [apply good_rejected, Gd|reflexivity|apply (sl_repo _ _ _ _ _ _ Sx)|exact Ea|]. intros v q Hv. rewrite Hxc in Hv. apply (Hall v q Hv). }
  rewrite Cw, Hxc. cbn [set_rejected s_rejected] in Hrej |- *. unfold status. change (chosen (set_rejected rej st) (rs_name x)) with (chosen st (rs_name x)). rewrite Ef. cbn [set_rejected s_rejected]. unfold blame. rewrite Hrej.
  destruct (p_version (rs_package cur)) as [w|] eqn:Ew.
  - rewrite (reject_marks _ _ w Ew : is_rejected (rs_package cur) rej = true). destruct (p_version c); lia.
  - destruct (p_version c) as [v|]; [lia|]. discriminate Hne.
Qed.
Lemma backtrack_first_less o ns : forall st b st', any_orders o -> good st -> backtrack_first repo cfg o ns st = Some (b, st') ->
  if b then good st' /\ less st' st else exists rej, st' = set_rejected rej st /\ grown (s_rejected st) rej.
Proof.
  induction ns as [|n ns IH]; intros st b st' Ho Gd H; cbn [backtrack_first] in H.
  - injection H as <- <-. exists (s_rejected st). split; [destruct st; reflexivity|intros p; auto].
  - destruct (backtrack_package repo cfg o n st) as [[b0 st0]|] eqn:E; [|discriminate].
    apply backtrack_package_less in E; [|exact Ho|exact Gd]. destruct b0.
    + injection H as <- <-. exact E.
    + destruct E as (rej & -> & G). apply IH in H; [|exact Ho|apply good_rejected, Gd]. destruct b.
      * destruct H as [H1 H2]. split; [exact H1|]. apply (less_rejected rej); [apply Gd|exact G|exact H2].
      * destruct H as (rej' & -> & G'). exists rej'. split; [reflexivity|]. intros p Hp. apply G', G, Hp.
Qed.
(** one round: less to do, or the same with a shorter queue *)
Definition shorter (a b : state) : Prop := left_over (s_rejected a) = left_over (s_rejected b) /\ weight a = weight b /\ length (s_queue a) < length (s_queue b).
Lemma step_less o st st' : any_orders o -> good st -> step repo cfg o st = Next st' -> good st' /\ (less st' st \/ shorter st' st).
Proof.
  intros Ho Gd H. pose proof Gd as (St & Qu & Ac). unfold step in H. destruct (next_active (s_active st) (s_queue st)) as [[r q]|] eqn:En; [|discriminate].
  apply next_active_spec in En as (pre & Eq & Hact & _).
  assert (Gq : good (set_queue q st)). { split; [apply settled_queue, St|]. split; [|exact Ac]. intros z Hz. apply Qu. rewrite Eq. apply in_or_app. right. right. exact Hz. }
  assert (Short : length q < length (s_queue st)) by (rewrite Eq, app_length; cbn; lia).
  assert (Hd : In r (demands st)) by (apply Qu; rewrite Eq; apply in_or_app; right; left; reflexivity).
  assert (Kf : forall f c rej, grown (s_rejected st) rej -> good (set_failed f (set_rejected rej (set_conflicts c (set_queue q st)))) /\
    (less (set_failed f (set_rejected rej (set_conflicts c (set_queue q st)))) st \/ shorter (set_failed f (set_rejected rej (set_conflicts c (set_queue q st)))) st)).
  { intros f c rej G. split.
    - destruct Gq as (Sq & Qq & Aq). split; [apply settled_failed, settled_rejected, settled_conflicts, Sq|]. split; [exact Qq|exact Aq].
    - destruct (left_over_grown _ _ G) as [G1 G2]. destruct (Nat.eq_dec (left_over rej) (left_over (s_rejected st))) as [E|E]; [|left; left; cbn [set_failed set_rejected s_rejected]; lia].
      right. split; [exact E|]. split; [|exact Short]. apply weigh_ext. intros n _. exact (status_rejected rej st n St (G2 E)). }
  assert (K0 : forall f c, good (set_failed f (set_conflicts c (set_queue q st))) /\ (less (set_failed f (set_conflicts c (set_queue q st))) st \/ shorter (set_failed f (set_conflicts c (set_queue q st))) st)).
  { intros f c. assert (X : set_failed f (set_conflicts c (set_queue q st)) = set_failed f (set_rejected (s_rejected st) (set_conflicts c (set_queue q st)))) by (destruct st; reflexivity). rewrite X. apply Kf. intros p; auto. }
  assert (K1 : good (set_queue q st) /\ (less (set_queue q st) st \/ shorter (set_queue q st) st)).
  { split; [exact Gq|]. right. split; [reflexivity|]. split; [|exact Short]. reflexivity. }
  destruct (find_satisfying (s_resolved (set_queue q st)) r) as [x|] eqn:Ef; [injection H as <-; exact K1|].
  destruct (rq_weak r && _) eqn:Ew; [injection H as <-; exact K1|].
  destruct (find_candidates repo cfg r) as [cs|] eqn:Ec; [|discriminate].
  destruct cs as [|c0 cs0]. { injection H as <-. specialize (K0 (s_failed st ++ [r]) (s_conflicts st)). destruct st. exact K0. }
  set (cs := c0 :: cs0) in *.
  apply find_candidates_spec in Ec as (ps & Hps & Ecs).
  set (t := try_all (set_queue q st) r cs None []) in *.
  set (st1 := set_conflicts (s_conflicts (set_queue q st) ++ t_conflicts t) (set_queue q st)) in *.
  assert (G1 : good st1). { destruct Gq as (Sq & Qq & Aq). split; [apply settled_conflicts, Sq|]. split; [exact Qq|exact Aq]. }
  assert (S1 : settled repo cfg reqs st1) by apply G1.
  (* the name asked for is needed *)
  assert (Nd : reachable (hard_names (s_reqs st)) (root_names reqs) (rq_name r)).
  { destruct (rq_weak r) eqn:Er.
    - cbn [andb] in Ew. apply negb_false_iff in Ew. change (present (s_resolved st) (rq_name r) = true) in Ew. apply present_iff in Ew as (y & Hy & <-). apply (se_needed _ _ _ _ St y Hy).
    - unfold demands in Hd. apply in_app_iff in Hd as [Hd|Hd].
      + apply filter_In in Hd as [Hd Hp]. apply reach_root. apply in_map, filter_In. rewrite Er, Hp. auto.
      + apply in_concat in Hd as (l & Hl & Hd). apply in_map_iff in Hl as ([k l'] & <- & Hl). cbn [snd] in Hd. pose proof (aget_nodup k l' _ (se_rkeys _ _ _ _ St) Hl) as Gk.
        destruct (entry_owner st k l' r St Gk Hd) as (y & Hy & Ey & _). apply (reach_step _ _ k); [rewrite <- Ey; apply (se_needed _ _ _ _ St y Hy)|]. apply hard_names_in. exists l', r. auto. }
  (* a package chosen for it does not meet it *)
  assert (Bad : forall y, chosen st (rq_name r) = Some y -> content_with st (rq_name r) y = false).
  { intros y Hy. apply (chosen_iff st _ y (se_nodup _ _ _ _ St)) in Hy as [Hy _]. apply (proj1 (find_none_iff _ _) Ef) in Hy. unfold content_with. apply not_true_is_false. intros X. rewrite forallb_forall in X. specialize (X r Hd). rewrite text_eqb_refl in X. cbn [negb orb] in X. congruence. }
  assert (Kin : forall x ds bs c q', In c cs -> explicit_conflict (s_barred st) c = None -> try_candidate st1 c q' = Some (x, ds, bs) ->
    (rs_name x = rq_name r -> rs_package x = c -> selectable repo cfg reqs x ds bs -> (if content_with st (rq_name r) x then 0 else 3) + blame (s_rejected st) c < status st (rq_name r)) ->
    good (install o (rs_name x) x ds bs st1) /\ (less (install o (rs_name x) x ds bs st1) st \/ shorter (install o (rs_name x) x ds bs st1) st)).
  { intros x ds bs c q' Hc He Ht L. rewrite Ecs in Hc. destruct (candidate_selectable repo cfg reqs Hwell st1 r ps c x ds bs q' S1 Hps Hc He Ht) as (Sx & Hn & Hxc).
    split; [apply good_install; assumption|]. left. right. split; [reflexivity|]. change (weight st) with (weight st1). apply install_less; try assumption; rewrite Hn, ?Hxc; [exact Nd|apply (L Hn Hxc Sx)]. }
  set (fb := if negb (cf_strict cfg) && negb (present (s_resolved st1) (rq_name r)) then
               match t_best t with Some c => try_candidate st1 c r | None => None end else None) in *.
  destruct (t_selected t) as [[[x ds] bs]|] eqn:Es.
  { injection H as <-. unfold t in Es. apply try_all_selected in Es as (c & Hc & Hrej & Hk & Ht). apply (Kin x ds bs c r); auto; [exact (check_none _ _ Hk)|]. intros Hn Hxc Sx.
    assert (Cw : content_with st (rq_name r) x = true).
    { unfold is_active in Hact. destruct (aget (rq_name r) (s_active st)) as [l|] eqn:Ea; [|discriminate Hact].
      apply (suits_all st (rq_name r) x l Gd Hn (sl_repo _ _ _ _ _ _ Sx) Ea). intros v z Hv Hz. unfold check_conflicts in Hk. destruct (explicit_conflict _ c); [discriminate|].
      rewrite Hxc in Hv. rewrite Hv in Hk. replace (p_name c) with (rq_name r) in Hk by (rewrite <- Hxc; symmetry; exact Hn). change (s_active (set_queue q st)) with (s_active st) in Hk. rewrite Ea in Hk.
      apply (proj1 (find_none_iff _ _) Hk) in Hz. apply negb_false_iff, Hz. }
    rewrite Cw. change (is_rejected c (s_rejected st) = false) in Hrej. unfold status. destruct (chosen st (rq_name r)) as [y|] eqn:Ey.
    - rewrite (Bad y eq_refl). unfold blame at 1. rewrite Hrej. destruct (p_version c); lia.
    - unfold blame. rewrite Hrej. destruct (p_version c); lia. }
  destruct fb as [[[x ds] bs]|] eqn:Efb.
  { injection H as <-. unfold fb in Efb. destruct (negb (cf_strict cfg) && negb _) eqn:Ep; [|discriminate]. apply andb_true_iff in Ep as [_ Ep]. apply negb_true_iff in Ep.
    destruct (t_best t) as [c|] eqn:Eb; [|discriminate]. unfold t in Eb. apply try_all_best in Eb as [Eb|(Hc & Hrej & He)]; [discriminate|].
    apply (Kin x ds bs c r); auto. intros Hn Hxc Sx. change (is_rejected c (s_rejected st) = false) in Hrej. unfold status. destruct (chosen st (rq_name r)) as [y|] eqn:Ey.
    - exfalso. apply (chosen_iff st _ y (se_nodup _ _ _ _ St)) in Ey as [Y1 Y2]. change (present (s_resolved st) (rq_name r) = false) in Ep. apply (proj1 (present_false _ _) Ep y Y1 Y2).
    - unfold blame. rewrite Hrej. destruct (p_version c), (content_with st (rq_name r) x); lia. }
  destruct (cf_strict cfg).
  - destruct (backtrack_first repo cfg o (sources st1 r cs) st1) as [[b st2]|] eqn:Eb; [|discriminate].
    apply backtrack_first_less in Eb; [|exact Ho|exact G1]. destruct b; injection H as <-.
    + destruct Eb as [E1 E2]. split; [exact E1|]. left. exact E2.
    + destruct Eb as (rej & -> & G). apply (Kf (s_failed st ++ [r]) (s_conflicts st ++ t_conflicts t) rej). exact G.
  - injection H as <-. apply (K0 (s_failed st ++ [r]) (s_conflicts st ++ t_conflicts t)).
Qed.
Lemma good_initial : good (initial reqs).
Proof.
  split; [apply settled_initial|]. split.
  - intros r H. apply in_or_app. left. exact H.
  - intros n l r G H. unfold demands. cbn [initial s_reqs s_active] in *. unfold rebuild_active in G. cbn [map concat] in *.
    assert (K : forall l0 a, (forall m l r, aget m a = Some l -> In r l -> In r (filter positive reqs ++ [])) -> (forall r, In r l0 -> In r (filter positive reqs ++ [])) ->
      forall m l r, aget m (fold_left insert_active l0 a) = Some l -> In r l -> In r (filter positive reqs ++ [])).
    { induction l0 as [|q l0 IH]; intros a A Q; [exact A|]. cbn [fold_left]. apply IH; [|intros z Z; apply Q; right; exact Z]. intros m' l' r' G' H'. unfold insert_active in G'. destruct (text_eq_dec m' (rq_name q)) as [->|D].
      - rewrite aget_put_same in G'. injection G' as <-.
        assert (Old : In r' match aget (rq_name q) a with Some rs => rs | None => [] end -> In r' (filter positive reqs ++ [])). { destruct (aget (rq_name q) a) as [l1|] eqn:E1; [apply (A _ _ _ E1)|intros []]. }
        destruct (has_req q _); [apply Old, H'|]. apply in_app_iff in H' as [H'|[<-|[]]]; [apply Old, H'|apply Q; left; reflexivity].
      - rewrite aget_put_other in G' by exact D. apply (A _ _ _ G' H'). }
    revert G H. apply K; [intros ? ? ? X; discriminate X|auto].
Qed.
Lemma loop_ends ords : (forall i, any_orders (ords i)) -> forall st n, good st -> exists fuel, forall u, loop repo cfg ords n fuel st <> Unfinished u.
Proof.
  intros Ho.
  enough (K : forall a, (fun _ => True) a -> forall b c st n, left_over (s_rejected st) = a -> weight st = b -> length (s_queue st) = c -> good st -> exists fuel, forall u, loop repo cfg ords n fuel st <> Unfinished u).
  { intros st n G. apply (K (left_over (s_rejected st)) I (weight st) (length (s_queue st)) st n eq_refl eq_refl eq_refl G). }
  intros a _. induction a as [a IHa] using lt_wf_ind. intros b. induction b as [b IHb] using lt_wf_ind. intros c. induction c as [c IHc] using lt_wf_ind.
  intros st n Ea Eb Ec G. destruct (step repo cfg (ords n) st) as [|st'|st'] eqn:E.
  - exists 1. intros u. cbn [loop]. rewrite E. discriminate.
  - destruct (step_less (ords n) st st' (Ho n) G E) as [G' L].
    assert (F : exists fuel, forall u, loop repo cfg ords (S n) fuel st' <> Unfinished u).
    { destruct L as [[L|[L1 L2]]|(L1 & L2 & L3)].
      - apply (IHa (left_over (s_rejected st')) ltac:(lia) (weight st') (length (s_queue st')) st' (S n)); auto.
      - apply (IHb (weight st') ltac:(lia) (length (s_queue st')) st' (S n)); auto. congruence.
      - apply (IHc (length (s_queue st')) ltac:(lia) st' (S n)); auto; congruence. }
    destruct F as [f F]. exists (S f). intros u. cbn [loop]. rewrite E. apply F.
  - exists 1. intros u. cbn [loop]. rewrite E. discriminate.
Qed.
Lemma resolve_ends ords o : (forall i, any_orders (ords i)) -> exists fuel, resolve repo cfg ords o fuel reqs <> Running.
Proof.
  intros Ho. destruct (loop_ends ords Ho (initial reqs) 0 good_initial) as [f F]. exists f. unfold resolve. destruct (loop repo cfg ords 0 f (initial reqs)) as [u| |st] eqn:E; [destruct (F u eq_refl)|discriminate|].
  destruct (detect_cycle o (s_deps st)); [discriminate| |]; destruct (cf_strict cfg && _); discriminate.
Qed.
End Ends.

(** ** the answer does not depend on the fuel *)
Lemma loop_more repo cfg ords : forall fuel n st, (forall u, loop repo cfg ords n fuel st <> Unfinished u) -> forall k, loop repo cfg ords n (fuel + k) st = loop repo cfg ords n fuel st.
Proof.
  induction fuel as [|f IH]; intros n st H k; [destruct (H st eq_refl)|]. cbn [loop Nat.add] in *. destruct (step repo cfg (ords n) st) as [|st'|st']; [reflexivity| |reflexivity]. apply IH, H.
Qed.
Lemma resolve_more repo cfg ords o fuel reqs : resolve repo cfg ords o fuel reqs <> Running -> forall k, resolve repo cfg ords o (fuel + k) reqs = resolve repo cfg ords o fuel reqs.
Proof.
  intros H k. unfold resolve in *. rewrite loop_more; [reflexivity|]. intros u E. rewrite E in H. apply H. reflexivity.
Qed.
Lemma no_layered_cycle repo level c : layered repo level -> ~ real_cycle repo c.
Proof.
  intros L (x & m & -> & H).
  assert (K : forall m x y, linked (depends repo) (x :: m ++ [y]) -> level y < level x).
  { clear -L. induction m as [|a m IH]; intros x y; cbn [app linked]; intros [H1 H2]; [apply (L _ _ H1)|]. specialize (IH a y H2). pose proof (L _ _ H1). lia. }
  specialize (K m x x H). lia.
Qed.
