(** Proofs about dependency resolution: the answers. *)
From Verif Require Import Base Base_lemmas Text_lemmas Version_model Version_order Range_model Requirement_model
  Maps Sorting Package_model Dfs Order_spec Solver_model Solver_spec Solver_proofs.

Lemma resolve_done repo cfg ords o fuel reqs rs failed conf : resolve repo cfg ords o fuel reqs = Resolved rs failed conf ->
  exists st, loop repo cfg ords 0 fuel (initial reqs) = LDone st /\ (forall c, detect_cycle o (s_deps st) <> Cycle c) /\
    rs = s_resolved st /\ (cf_strict cfg = true -> failed = []) /\
    forall r, In r failed <-> In r (s_failed st) /\ is_active (s_active st) r = true /\ ~ supported rs r.
Proof.
  unfold resolve. destruct (loop _ _ _ _ _ _) as [| |st] eqn:El; try discriminate.
  set (f := filter _ (s_failed st)).
  assert (forall r, In r f <-> In r (s_failed st) /\ is_active (s_active st) r = true /\ ~ supported (s_resolved st) r) as K.
  { intros r. unfold f. rewrite filter_In, andb_true_iff, <- supported_find.
    destruct (find_satisfying (s_resolved st) r); split; intros (H1 & H2 & H3); (split; [exact H1|split; [exact H2|]]); try discriminate; try reflexivity.
    - exfalso. apply H3. discriminate.
    - intros X. apply X. reflexivity. }
  intros H. exists st. split; [reflexivity|].
  destruct (detect_cycle o (s_deps st)) as [c|v|] eqn:Ed; [discriminate| |];
    (split; [intros c'; discriminate|]);
    (destruct (cf_strict cfg && negb (is_nil f)) eqn:Es; [discriminate|]); injection H as <- <- <-;
    (split; [reflexivity|]); (split; [|exact K]); intros Hs; rewrite Hs in Es; apply negb_false_iff, is_nil_true in Es; exact Es.
Qed.

Section Answers.
Context (repo : text -> option (list package)) (cfg : config) (ords : nat -> order) (o : order) (fuel : nat) (reqs : list requirement).
Hypothesis Hwell : well_named repo.
Hypothesis Hords : forall i, any_orders (ords i).
Hypothesis Ho : any_orders o.

Lemma done_sound st : loop repo cfg ords 0 fuel (initial reqs) = LDone st ->
  settled repo cfg reqs st /\ forall r, wanted reqs st r -> met (s_resolved st) r \/ In r (s_failed st).
Proof.
  intros H. destruct (loop_sound repo cfg reqs Hwell ords Hords fuel 0 (initial reqs) st (sound_initial repo cfg reqs) H) as [[S _] K]. auto.
Qed.

Lemma resolved_covers rs failed conf : resolve repo cfg ords o fuel reqs = Resolved rs failed conf ->
  forall r, (In r reqs /\ rq_conflict r = false) \/ (exists x, In x rs /\ wants x r) -> met rs r \/ In r failed.
Proof.
  intros H r Hr. apply resolve_done in H as (st & El & _ & -> & _ & Hf). apply done_sound in El as [S K].
  apply (wanted_iff repo cfg reqs st r S) in Hr. destruct (K r Hr) as [Hm|Hm]; [auto|].
  destruct (find_satisfying (s_resolved st) r) as [x|] eqn:E.
  - left. left. apply supported_find. rewrite E. discriminate.
  - right. apply Hf. split; [exact Hm|]. split; [apply (wanted_active repo cfg reqs st r S Hr)|].
    rewrite <- supported_find, E. intros X. apply X. reflexivity.
Qed.
Lemma resolved_failed rs failed conf : resolve repo cfg ords o fuel reqs = Resolved rs failed conf -> forall r, In r failed -> ~ supported rs r.
Proof. intros H r Hr. apply resolve_done in H as (st & _ & _ & _ & _ & Hf). apply Hf in Hr. tauto. Qed.
Lemma resolved_strict rs failed conf : resolve repo cfg ords o fuel reqs = Resolved rs failed conf -> cf_strict cfg = true ->
  failed = [] /\ forall r, (In r reqs /\ rq_conflict r = false) \/ (exists x, In x rs /\ wants x r) -> met rs r.
Proof.
  intros H Hs. pose proof (resolved_covers _ _ _ H) as K. apply resolve_done in H as (st & _ & _ & _ & Hn & _). rewrite (Hn Hs) in *.
  split; [reflexivity|]. intros r Hr. destruct (K r Hr) as [Hm|[]]. exact Hm.
Qed.
Lemma resolved_nodup rs failed conf : resolve repo cfg ords o fuel reqs = Resolved rs failed conf -> NoDup (map rs_name rs).
Proof. intros H. apply resolve_done in H as (st & El & _ & -> & _). apply done_sound in El as [S _]. apply (se_nodup _ _ _ _ S). Qed.
Lemma resolved_request_conflicts rs failed conf : resolve repo cfg ords o fuel reqs = Resolved rs failed conf ->
  forall x r, In x rs -> In r reqs -> rq_conflict r = true -> ~ fits r (rs_package x).
Proof.
  intros H x r Hx. apply resolve_done in H as (st & El & _ & -> & _). apply done_sound in El as [S _].
  destruct (se_each _ _ _ _ S x Hx) as (ds & cs & Sx & _). apply (sl_clean _ _ _ _ _ _ Sx).
Qed.
Lemma resolved_origin rs failed conf : resolve repo cfg ords o fuel reqs = Resolved rs failed conf ->
  forall x, In x rs -> from_repo repo x /\ admitted cfg (rs_package x) /\ variant_ok x /\ readable x.
Proof.
  intros H x Hx. apply resolve_done in H as (st & El & _ & -> & _). apply done_sound in El as [S _].
  destruct (se_each _ _ _ _ S x Hx) as (ds & cs & Sx & _). split; [|split; [|split]]; try apply (sl_repo _ _ _ _ _ _ Sx);
    try apply (sl_admitted _ _ _ _ _ _ Sx); try apply (sl_variant _ _ _ _ _ _ Sx).
  intros t Ht. apply effective_texts in Ht. pose proof (sl_split _ _ _ _ _ _ Sx) as Hs. apply split_deps_in in Hs as (_ & _ & Hs).
  specialize (Hs t Ht). destruct (parse_dep t) as [[[|] r]|] eqn:E; [| |congruence].
  - right. apply parse_dep_negative in E as (s & E). exists s, r. exact E.
  - left. apply parse_dep_positive in E. exists r. exact E.
Qed.
Lemma resolved_required rs failed conf : resolve repo cfg ords o fuel reqs = Resolved rs failed conf ->
  forall x, In x rs -> required reqs rs (rs_name x).
Proof.
  intros H x Hx. apply resolve_done in H as (st & El & _ & -> & _). apply done_sound in El as [S _]. apply (settled_required repo cfg reqs st x S Hx).
Qed.
Lemma resolved_solution rs failed conf : resolve repo cfg ords o fuel reqs = Resolved rs failed conf -> cf_strict cfg = true ->
  solution repo cfg reqs rs.
Proof.
  intros H Hs. destruct (resolved_strict _ _ _ H Hs) as [_ Hm]. constructor.
  - apply (resolved_nodup _ _ _ H).
  - apply (resolved_origin _ _ _ H).
  - intros r Hr Hc. apply Hm. auto.
  - intros x r Hx Hr Hc. apply (resolved_request_conflicts _ _ _ H); assumption.
  - intros x r Hx Hw. apply Hm. right. eauto.
Qed.

Lemma edges_nodes deps x y : In y (dep_edges deps x) -> In y (dep_nodes deps).
Proof.
  unfold dep_edges, dep_nodes. destruct (aget x deps) as [l|] eqn:E; [|intros []]. intros H. apply in_app_iff. right. apply in_concat. exists l.
  split; [|exact H]. apply aget_in in E. change l with (snd (x, l)). apply in_map, E.
Qed.
Lemma detect_not_out deps : detect_cycle o deps <> Out.
Proof.
  unfold detect_cycle. apply (search_fuel (dep_edges deps) (dep_nodes deps)).
  - intros x y _ H. apply (edges_nodes deps x y H).
  - intros n Hn. apply in_app_iff. left. destruct Ho as (_ & _ & Hk). apply (Permutation_in _ (Hk (akeys deps))), Hn.
  - apply le_n.
Qed.
Lemma resolved_acyclic rs failed conf : resolve repo cfg ords o fuel reqs = Resolved rs failed conf -> forall n, ~ mentions_plus rs n n.
Proof.
  intros H. apply resolve_done in H as (st & El & Hc & -> & _). apply done_sound in El as [S _].
  destruct (detect_cycle o (s_deps st)) as [c|v|] eqn:Ed; [destruct (Hc c eq_refl)| |destruct (detect_not_out _ Ed)].
  assert (acyclic (dep_edges (s_deps st))) as Ha.
  { apply (search_acyclic _ _ _ v) in Ed; [exact Ed|]. intros x Hx. destruct Ho as (_ & _ & Hk).
    apply (Permutation_in _ (Permutation_sym (Hk (akeys (s_deps st))))). unfold dep_edges in Hx. apply aget_some.
    destruct (aget x (s_deps st)); [eauto|congruence]. }
  assert (forall a b, mentions_plus (s_resolved st) a b -> path_to (dep_edges (s_deps st)) a b) as Hp.
  { intros a b Hm. induction Hm as [b Hb|b c Hb IH Hb2].
    - apply path_edge, (settled_mentions repo cfg reqs st a b S), Hb.
    - eapply path_step; [exact IH|]. apply (settled_mentions repo cfg reqs st b c S), Hb2. }
  intros n Hn. apply (Ha n), Hp, Hn.
Qed.
Lemma reported_cycle c : resolve repo cfg ords o fuel reqs = CycleError c -> real_cycle repo c.
Proof.
  unfold resolve. destruct (loop _ _ _ _ _ _) as [| |st] eqn:El; try discriminate. apply done_sound in El as [S _].
  destruct (detect_cycle o (s_deps st)) as [c'|v|] eqn:Ed.
  - intros [= <-]. apply search_cycle_sound in Ed as (x & m & E & Hw). exists x, m. split; [exact E|]. clear E.
    induction c' as [|a l IH]; [exact I|]. destruct l as [|b l]; [exact I|]. destruct Hw as [Hw1 Hw2]. split; [|apply IH, Hw2].
    apply (settled_mentions repo cfg reqs st a b S) in Hw1 as (y & r & Hy & Hn & Hwant & Hr).
    destruct (se_each _ _ _ _ S y Hy) as (ds & cs & Sy & _). exists y, r. split; [exact Hn|]. split; [apply (sl_repo _ _ _ _ _ _ Sy)|].
    split; [apply (sl_variant _ _ _ _ _ _ Sy)|auto].
  - destruct (cf_strict cfg && _); discriminate.
  - destruct (cf_strict cfg && _); discriminate.
Qed.
End Answers.

(** ** a newly selected package is not refused by the packages already selected *)
Lemma req_eqb_name a b : req_eqb a b = true -> rq_name a = rq_name b.
Proof. unfold req_eqb. rewrite !andb_true_iff, text_eqb_eq. tauto. Qed.
Lemma visited_sound repo cfg reqs st : well_named repo -> visited_state repo cfg reqs st -> sound repo cfg reqs st.
Proof. intros Hw H. induction H as [|o st st' Ho H IH Hs]; [apply sound_initial|apply (sound_step repo cfg reqs Hw o st st' Ho IH Hs)]. Qed.
Lemma fresh_not_refused repo cfg reqs o st st' : well_named repo -> any_orders o ->
  visited_state repo cfg reqs st -> step repo cfg o st = Next st' ->
  forall x y r, In x (s_resolved st) -> refuses x r -> In y (s_resolved st') -> ~ In y (s_resolved st) ->
  (forall c v, In c (s_barred st) -> req_eqb c r = true -> r_satisfied c v = r_satisfied r v) -> ~ fits r (rs_package y).
Proof.
  intros Hw Ho Hvis H x y r Hx Hr Hy Hny Law Hf. destruct (visited_sound repo cfg reqs st Hw Hvis) as [St _].
  destruct (step_next repo cfg reqs Hw o st st' Ho St H) as (q & qs & _ & P). destruct P as [?|?|st' M]; [contradiction|contradiction|].
  destruct M as [st'' z ds cs S2 E2 Sz He Eb Ebs].
  unfold install, set_requirements in Hy. cbn [s_resolved s_orig] in Hy. apply filter_In in Hy as [Hy _].
  apply add_resolved_in in Hy; [|apply (se_nodup _ _ _ _ S2)]. destruct Hy as [->|[Hy _]]; [|rewrite E2 in Hy; contradiction].
  destruct (se_each _ _ _ _ St x Hx) as (dx & cx & Sx & _ & Hbx). apply (wants_split x dx cx (sl_split _ _ _ _ _ _ Sx)) in Hr.
  apply aget_in in Hbx. pose proof (se_refused _ _ _ _ St _ _ _ Hbx Hr) as K. unfold has_req in K. apply existsb_exists in K as (c & Hc & Ec).
  apply (explicit_none _ _ He c Hc). destruct Hf as [Hn Hv]. split; [rewrite (req_eqb_name _ _ Ec); exact Hn|].
  destruct (p_version (rs_package z)) as [v|]; [|exact I]. rewrite (Law c v Hc Ec). exact Hv.
Qed.

(** ** a single request for packages without dependencies *)
Lemma resolve_single repo cfg ords o r ps c cs n : repo (rq_name r) = Some ps -> (forall p, In p ps -> p_name p = rq_name r /\ p_requires p = [] /\ p_variants p = []) ->
  rq_conflict r = false -> rq_weak r = false -> candidates cfg r ps = c :: cs -> any_orders (ords 0) -> any_orders o ->
  exists x, resolve repo cfg ords o (3 + n) [r] = Resolved [x] [] [] /\ rs_package x = c.
Proof.
  intros Hr Hps Hc Hw Hcs Ho Hoo.
  assert (In c ps /\ candidate_ok cfg r c = true) as [Hin Hok] by (apply candidates_in; rewrite Hcs; left; reflexivity).
  destruct (Hps c Hin) as (Hn & Hreq & Hvar).
  assert (Hsat : forall v, p_version c = Some v -> r_satisfied r v = true).
  { intros v Hv. unfold candidate_ok in Hok. rewrite Hv in Hok. destruct (negb _ && _); [discriminate|exact Hok]. }
  set (k := rq_name r) in *.
  assert (Hinit : initial [r] = mkState [r] [r] [] [] [] [] [(k, [r])] [] [] [] []).
  { unfold initial, rebuild_barred, rebuild_active, positive. cbn [filter]. rewrite Hc. reflexivity. }
  assert (Hact : is_active [(k, [r])] r = true).
  { unfold is_active. cbn [aget]. fold k. rewrite text_eqb_refl. cbn. rewrite req_eqb_refl. reflexivity. }
  set (x := mkResolved c None true [k] (Some r)).
  assert (Htry : forall st, s_orig st = [r] -> s_resolved st = [] -> try_candidate st c r = Some (x, [], [])).
  { intros st E1 E2. unfold try_candidate, select_variant. rewrite Hvar. cbn [enumerate filter fold_left is_nil negb andb effective_requires].
    rewrite Hreq. cbn [split_deps]. rewrite E1. cbn [existsb]. rewrite text_eqb_refl. reflexivity. }
  set (st0 := mkState [r] [] [] [] [] [] [(k, [r])] [] [] [] []).
  assert (Htried : try_all st0 r (c :: cs) None [] = mkTried [] (Some c) (Some (x, [], []))).
  { cbn [try_all]. assert (is_rejected c (s_rejected st0) = false) as -> by (unfold is_rejected; destruct (p_version c); reflexivity).
    change (explicit_conflict (s_barred st0) c) with (@None requirement).
    assert (check_conflicts st0 c = None) as ->.
    { unfold check_conflicts. cbn [s_barred st0 explicit_conflict find]. destruct (p_version c) as [v|]; [|reflexivity].
      cbn [s_active st0 aget]. rewrite Hn. unfold k. rewrite text_eqb_refl. cbn [find]. rewrite (Hsat v eq_refl). reflexivity. }
    rewrite Htry by reflexivity. reflexivity. }
  set (st1 := mkState [r] [r] [x] [] [] [] [(k, [r])] [(k, [])] [(k, [])] [] []).
  assert (Hstep1 : step repo cfg (ords 0) (initial [r]) = Next st1).
  { rewrite Hinit. unfold step. cbn [s_active s_queue next_active]. rewrite Hact. cbn [set_queue s_resolved find_satisfying find present existsb s_orig s_failed s_conflicts s_barred s_active s_reqs s_bars s_rejected s_deps].
    rewrite Hw. cbn [andb]. unfold find_candidates. fold k. rewrite Hr. rewrite Hcs. match goal with |- context [try_all ?s r (c :: cs) None []] => change s with st0 end. rewrite Htried. cbn [t_selected t_conflicts]. f_equal.
    unfold install, set_requirements. cbn [set_conflicts s_orig s_resolved s_reqs s_bars s_failed s_conflicts s_rejected add_resolved st0 aput].
    change (rs_name x) with (p_name c). rewrite Hn.
    assert (mem_text k (needed [r] [(k, [])]) = true) as Hk.
    { apply mem_text_In, needed_exact, reach_root. unfold root_names, positive. cbn [filter]. rewrite Hw, Hc. left. reflexivity. }
    cbn [filter akeep fst]. rewrite Hk. change (rs_name x) with (p_name c). rewrite Hn, Hk. destruct Ho as (Ho1 & Ho2 & _).
    rewrite (Permutation_length_1_inv (Permutation_sym (Ho1 [(k, [])]))), (Permutation_length_1_inv (Permutation_sym (Ho2 [(k, [])]))).
    unfold requeue, rebuild_active, rebuild_barred, rebuild_deps, positive. cbn [filter]. rewrite Hc. cbn [negb map concat app snd fold_left fst aget insert_active aput has_req existsb].
    change (rs_name x) with (p_name c). rewrite Hn, text_eqb_refl. reflexivity. }
  assert (Hstep2 : step repo cfg (ords 1) st1 = Next (set_queue [] st1)).
  { unfold step. cbn [st1 s_active s_queue next_active]. rewrite Hact. fold st1.
    assert (find_satisfying (s_resolved (set_queue [] st1)) r = Some x) as ->; [|reflexivity].
    unfold find_satisfying. cbn [set_queue st1 s_resolved find]. assert (fits_b r (rs_package x) = true) as ->; [|reflexivity].
    apply fits_b_iff. split; [exact Hn|]. cbn [x rs_package]. destruct (p_version c) as [v|]; [apply Hsat; reflexivity|exact I]. }
  assert (Hstep3 : step repo cfg (ords 2) (set_queue [] st1) = Stop (set_queue [] st1)) by reflexivity.
  exists x. split; [|reflexivity]. unfold resolve. cbn [Nat.add loop]. rewrite Hstep1, Hstep2, Hstep3.
  assert (detect_cycle o (s_deps (set_queue [] st1)) = Fin []) as ->.
  { unfold detect_cycle. cbn [set_queue st1 s_deps akeys map]. destruct Hoo as (_ & _ & Hk). rewrite (Permutation_nil (Permutation_sym (Hk []))). reflexivity. }
  cbn [set_queue st1 s_failed filter is_nil negb]. rewrite andb_false_r. reflexivity.
Qed.

Lemma latest_TPO (b : bool) S : transitive_versions S ->
  TPO (fun p => forall v, p_version p = Some v -> S v) (if b then latest_first else oldest_first).
Proof.
  intros Ht. destruct b; constructor; unfold latest_first, oldest_first.
  - intros x Hx. destruct (p_version x); [apply vcmp_refl|reflexivity].
  - intros x y Hx Hy. destruct (p_version x), (p_version y); try reflexivity. apply vcmp_anti.
  - intros x y z Hx Hy Hz. destruct (p_version x), (p_version y), (p_version z); try discriminate; try congruence.
    intros H1 H2. eapply Ht; [..|exact H2|exact H1]; auto.
  - intros x Hx. destruct (p_version x); [apply vcmp_refl|reflexivity].
  - intros x y Hx Hy. destruct (p_version x), (p_version y); try reflexivity. apply vcmp_anti.
  - intros x y z Hx Hy Hz. destruct (p_version x), (p_version y), (p_version z); try discriminate; try congruence. eauto.
Qed.
Lemma candidate_ok_iff cfg r p : p_name p = rq_name r -> candidate_ok cfg r p = true <-> acceptable cfg r p.
Proof.
  intros Hn. unfold candidate_ok, acceptable, fits, admitted. destruct (p_version p) as [v|]; [|intuition].
  destruct (cf_allow_prerelease cfg); cbn [negb andb]; [intuition discriminate|]. destruct (is_prerelease v); intuition congruence.
Qed.
Lemma resolve_single_best repo cfg ords o r ps S n : transitive_versions S -> versions_in S ps ->
  repo (rq_name r) = Some ps -> (forall p, In p ps -> p_name p = rq_name r /\ independent p) ->
  rq_conflict r = false -> rq_weak r = false -> any_orders (ords 0) -> any_orders o ->
  (exists p, In p ps /\ acceptable cfg r p) ->
  exists x, resolve repo cfg ords o (3 + n) [r] = Resolved [x] [] [] /\ In (rs_package x) ps /\ acceptable cfg r (rs_package x) /\
    best (cf_prefer_latest cfg) ps (acceptable cfg r) (rs_package x).
Proof.
  intros Ht Hv Hr Hps Hc Hw Ho Hoo (p & Hp & Hacc).
  assert (forall q, In q (candidates cfg r ps) <-> In q ps /\ acceptable cfg r q) as Hcand.
  { intros q. rewrite candidates_in. split; intros [H1 H2]; (split; [exact H1|]); destruct (Hps q H1) as [Hn _]; apply (candidate_ok_iff cfg r q Hn); exact H2. }
  destruct (candidates cfg r ps) as [|c cs] eqn:Ec.
  { destruct (proj2 (Hcand p) (conj Hp Hacc)). }
  destruct (resolve_single repo cfg ords o r ps c cs n) as (x & Hres & Hx); auto.
  exists x. rewrite Hx. split; [exact Hres|]. destruct (proj1 (Hcand c) (or_introl eq_refl)) as [Hc1 Hc2]. split; [exact Hc1|]. split; [exact Hc2|].
  intros q v w Hq Hqa Hcv Hqw.
  assert (chain (if cf_prefer_latest cfg then latest_first else oldest_first) (c :: cs)) as Hch.
  { rewrite <- Ec. unfold candidates. apply (sort_chain _ _ (latest_TPO _ S Ht)). apply Forall_forall. intros z Hz z' Ez. apply filter_In in Hz as [Hz _]. apply (Hv z z' Hz Ez). }
  pose proof (proj2 (Hcand q) (conj Hq Hqa)) as [->|Hin].
  - rewrite Hcv in Hqw. injection Hqw as <-. rewrite vcmp_refl. destruct (cf_prefer_latest cfg); discriminate.
  - inversion Hch as [|? ? Hall _]; subst. rewrite Forall_forall in Hall. specialize (Hall q Hin).
    destruct (cf_prefer_latest cfg); unfold latest_first, oldest_first in Hall; rewrite Hcv, Hqw in Hall; exact Hall.
Qed.

(** ** an endless run *)
Fixpoint iterate repo cfg o (k : nat) (st : state) : option state :=
  match k with
  | O => Some st
  | S k' => match step repo cfg o st with Next st' => iterate repo cfg o k' st' | _ => None end
  end.
Lemma iterate_add repo cfg o a : forall b st, iterate repo cfg o (a + b) st = match iterate repo cfg o a st with Some st' => iterate repo cfg o b st' | None => None end.
Proof. induction a as [|a IH]; intros b st; [reflexivity|]. cbn [iterate Nat.add]. destruct (step repo cfg o st); [reflexivity| |reflexivity]. apply IH. Qed.
Lemma iterate_cycle repo cfg o p st : iterate repo cfg o p st = Some st -> forall k, iterate repo cfg o (k * p) st = Some st.
Proof. intros H. induction k as [|k IH]; [reflexivity|]. cbn [Nat.mul]. rewrite iterate_add, H. exact IH. Qed.
Lemma iterate_prefix repo cfg o a : forall b st, iterate repo cfg o (a + b) st <> None -> iterate repo cfg o a st <> None.
Proof. intros b st. rewrite iterate_add. destruct (iterate repo cfg o a st); [discriminate|auto]. Qed.
Lemma loop_iterate repo cfg o : forall fuel n st, iterate repo cfg o fuel st <> None -> exists st', loop repo cfg (fun _ => o) n fuel st = Unfinished st'.
Proof.
  induction fuel as [|f IH]; intros n st H; [eexists; reflexivity|]. cbn [loop iterate] in *.
  destruct (step repo cfg o st) as [|st1|st1]; [congruence| |congruence]. apply IH, H.
Qed.
Lemma endless repo cfg o k p st st1 : 0 < p -> iterate repo cfg o k st = Some st1 -> iterate repo cfg o p st1 = Some st1 ->
  forall fuel n, exists st', loop repo cfg (fun _ => o) n fuel st = Unfinished st'.
Proof.
  intros Hp Hk Hc fuel n. apply loop_iterate. apply (iterate_prefix _ _ _ fuel (k + fuel * p - fuel)).
  replace (fuel + (k + fuel * p - fuel)) with (k + fuel * p) by nia. rewrite iterate_add, Hk, iterate_cycle by exact Hc. discriminate.
Qed.
