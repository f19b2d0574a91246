(** Proofs about dependency resolution: what a finished resolution guarantees. *)
From Verif Require Import Base Base_lemmas Text_lemmas Version_model Version_order Range_model Requirement_model Requirement_proofs Requirement_text
  Maps Sorting Package_model Dfs Order_spec Solver_model Solver_spec.

(** ** equality of requirements is reflexive *)
Lemma list_eqb_refl {A} (eqb : A -> A -> bool) l : (forall x, In x l -> eqb x x = true) -> list_eqb eqb l l = true.
Proof.
  induction l as [|x l IH]; intros H; [reflexivity|]. cbn [list_eqb]. rewrite (H x (or_introl eq_refl)), IH; [reflexivity|].
  intros y Hy. apply H. right. exact Hy.
Qed.
Lemma veq_refl v : veq v v = true.
Proof. unfold veq. rewrite vcmp_refl. reflexivity. Qed.
Lemma c_eqb_refl c : c_eqb c c = true.
Proof.
  induction c as [cs IH|cs IH|c Hc] using vconstraint_tree_ind.
  - cbn [c_eqb]. induction IH as [|c cs Hc Hcs IHl]; [reflexivity|]. rewrite Hc. exact IHl.
  - cbn [c_eqb]. induction IH as [|c cs Hc Hcs IHl]; [reflexivity|]. rewrite Hc. exact IHl.
  - destruct c; try contradiction; cbn [c_eqb]; rewrite ?veq_refl, ?text_eqb_refl; try reflexivity.
    apply list_eqb_refl. intros v _. apply veq_refl.
Qed.
Lemma opt_eqb_refl {A} (eqb : A -> A -> bool) o : (forall x, eqb x x = true) -> opt_eqb eqb o o = true.
Proof. intros H. destruct o; [apply H|reflexivity]. Qed.
Lemma req_eqb_refl r : req_eqb r r = true.
Proof.
  unfold req_eqb. rewrite text_eqb_refl, (opt_eqb_refl _ _ c_eqb_refl), !Bool.eqb_reflx, (opt_eqb_refl _ _ text_eqb_refl).
  rewrite !list_eqb_refl; [reflexivity| |].
  - intros e _. unfold env_eqb. rewrite text_eqb_refl, (opt_eqb_refl _ _ text_eqb_refl), Bool.eqb_reflx. reflexivity.
  - intros p _. unfold platform_eqb. rewrite text_eqb_refl, (opt_eqb_refl _ _ text_eqb_refl), Bool.eqb_reflx. reflexivity.
Qed.
Lemma has_req_in r l : In r l -> has_req r l = true.
Proof. intros H. apply existsb_exists. exists r. split; [exact H|apply req_eqb_refl]. Qed.
Lemma has_req_app r a b : has_req r (a ++ b) = has_req r a || has_req r b.
Proof. apply existsb_app. Qed.

(** ** rebuilt constraint tables *)
Lemma insert_active_has m r : is_active (insert_active m r) r = true.
Proof.
  unfold is_active, insert_active. rewrite aget_put_same.
  destruct (has_req r (match aget (rq_name r) m with Some rs => rs | None => [] end)) eqn:E; [exact E|].
  rewrite has_req_app, E. cbn. rewrite req_eqb_refl. reflexivity.
Qed.
Lemma insert_active_keeps m r q : is_active m q = true -> is_active (insert_active m r) q = true.
Proof.
  unfold is_active, insert_active. intros H. destruct (text_eqb_spec (rq_name q) (rq_name r)) as [E|E].
  - rewrite E in *. rewrite aget_put_same. destruct (aget (rq_name r) m) as [rs|]; [|discriminate].
    destruct (has_req r rs); [exact H|]. rewrite has_req_app, H. reflexivity.
  - rewrite aget_put_other by exact E. exact H.
Qed.
Lemma fold_active_keeps l : forall m q, is_active m q = true -> is_active (fold_left insert_active l m) q = true.
Proof. induction l as [|r l IH]; intros m q H; [exact H|]. apply IH, insert_active_keeps, H. Qed.
Lemma fold_active_has l : forall m q, In q l -> is_active (fold_left insert_active l m) q = true.
Proof.
  induction l as [|r l IH]; intros m q H; [destruct H|]. cbn [fold_left]. destruct H as [<-|H]; [|apply IH, H].
  apply fold_active_keeps, insert_active_has.
Qed.
Lemma rebuild_active_has orig pr q : In q (filter positive orig) \/ (exists n l, In (n, l) pr /\ In q l) ->
  is_active (rebuild_active orig pr) q = true.
Proof.
  intros H. apply fold_active_has, in_app_iff. destruct H as [H|(n & l & H & Hq)]; [auto|]. right. apply in_concat. exists l.
  split; [|exact Hq]. change l with (snd (n, l)). apply in_map, H.
Qed.
Lemma fold_barred_keeps l : forall acc (q : requirement), In q acc ->
  In q (fold_left (fun l r => if has_req r l then l else l ++ [r]) l acc).
Proof.
  induction l as [|r l IH]; intros acc q H; [exact H|]. cbn [fold_left]. apply IH. destruct (has_req r acc); [exact H|].
  apply in_app_iff. auto.
Qed.
Lemma rebuild_barred_has orig pc q : In q orig -> rq_conflict q = true -> In q (rebuild_barred orig pc).
Proof. intros H E. apply fold_barred_keeps, filter_In. auto. Qed.
Lemma fold_barred_has l : forall acc q, In q l -> has_req q (fold_left (fun l r => if has_req r l then l else l ++ [r]) l acc) = true.
Proof.
  assert (forall l acc q, has_req q acc = true -> has_req q (fold_left (fun l r => if has_req r l then l else l ++ [r]) l acc) = true) as K.
  { clear. induction l as [|r l IH]; intros acc q H; [exact H|]. cbn [fold_left]. apply IH. destruct (has_req r acc); [exact H|].
    rewrite has_req_app, H. reflexivity. }
  induction l as [|r l IH]; intros acc q H; [destruct H|]. cbn [fold_left]. destruct H as [<-|H]; [|apply IH, H].
  apply K. destruct (has_req r acc) eqn:E; [exact E|]. rewrite has_req_app, E. cbn. rewrite req_eqb_refl. reflexivity.
Qed.
Lemma record_dep_get from to m n : dep_edges (record_dep from to m) n = if text_eqb n from then dep_edges m n ++ [to] else dep_edges m n.
Proof.
  unfold dep_edges, record_dep. destruct (text_eqb_spec n from) as [->|E].
  - rewrite aget_put_same. reflexivity.
  - rewrite aget_put_other by exact E. reflexivity.
Qed.
Lemma fold_deps_one s rs : forall m n, dep_edges (fold_left (fun m r => record_dep s (rq_name r) m) rs m) n =
  if text_eqb n s then dep_edges m n ++ map rq_name rs else dep_edges m n.
Proof.
  induction rs as [|r rs IH]; intros m n; cbn [fold_left map].
  - destruct (text_eqb n s); [rewrite app_nil_r|]; reflexivity.
  - rewrite IH, record_dep_get. destruct (text_eqb n s); [rewrite <- app_assoc|]; reflexivity.
Qed.
Lemma fold_deps_all pr : forall m n b, In b (dep_edges (fold_left (fun m sr => fold_left (fun m r => record_dep (fst sr) (rq_name r) m) (snd sr) m) pr m) n)
  <-> In b (dep_edges m n) \/ exists rs r, In (n, rs) pr /\ In r rs /\ b = rq_name r.
Proof.
  induction pr as [|[s rs] pr IH]; intros m n b; cbn [fold_left fst snd].
  - split; [auto|]. intros [H|(rs & r & [] & _)]. exact H.
  - rewrite IH, fold_deps_one. destruct (text_eqb_spec n s) as [->|E].
    + rewrite in_app_iff, in_map_iff. split.
      * intros [[H|(r & <- & H)]|(rs' & r & H1 & H2 & H3)]; [auto|right; exists rs, r; cbn [In]; auto|right; exists rs', r; cbn [In]; auto].
      * intros [H|(rs' & r & [[= <-]|H1] & H2 & H3)]; [auto|left; right; exists r; auto|right; exists rs', r; auto].
    + split.
      * intros [H|(rs' & r & H1 & H2 & H3)]; [auto|right; exists rs', r; cbn [In]; auto].
      * intros [H|(rs' & r & [[= <- <-]|H1] & H2 & H3)]; [auto|congruence|right; exists rs', r; auto].
Qed.
Lemma rebuild_deps_edges pr n b : In b (dep_edges (rebuild_deps pr) n) <-> exists rs r, In (n, rs) pr /\ In r rs /\ b = rq_name r.
Proof. unfold rebuild_deps. rewrite fold_deps_all. cbn. tauto. Qed.

(** ** dependency texts *)
Lemma fold_append_texts vs : forall l t, In t (fold_left (fun l t => if mem_text t l then l else l ++ [t]) vs l) <-> In t l \/ In t vs.
Proof.
  induction vs as [|v vs IH]; intros l t; cbn [fold_left In]; [tauto|]. rewrite IH. destruct (mem_text v l) eqn:E.
  - apply mem_text_In in E. split; [tauto|]. intros [?|[<-|?]]; auto.
  - rewrite in_app_iff. cbn [In]. tauto.
Qed.
Lemma effective_texts x t : In t (effective_requires (rs_package x) (rs_variant x)) <-> requires_text x t.
Proof.
  unfold effective_requires, requires_text. destruct (rs_variant x) as [i|].
  - destruct (nth_error (p_variants (rs_package x)) i) as [vs|] eqn:E.
    + rewrite fold_append_texts. split; intros [H|H]; auto.
      * right. exists i, vs. auto.
      * destruct H as (j & vs' & [= <-] & H & Ht). rewrite E in H. injection H as <-. auto.
    + split; [auto|]. intros [H|(j & vs' & [= <-] & H & _)]; [exact H|congruence].
  - split; [auto|]. intros [H|(j & vs' & H & _)]; [exact H|discriminate].
Qed.
Lemma split_deps_in ts : forall ds cs, split_deps ts = Some (ds, cs) ->
  (forall r, In r ds <-> exists t, In t ts /\ parse_dep t = Some (false, r)) /\
  (forall r, In r cs <-> exists t, In t ts /\ parse_dep t = Some (true, r)) /\
  (forall t, In t ts -> parse_dep t <> None).
Proof.
  induction ts as [|t ts IH]; intros ds cs H; cbn [split_deps] in H.
  - injection H as <- <-. split; [|split]; [intros r; split; [intros []|intros (? & [] & _)]|intros r; split; [intros []|intros (? & [] & _)]|intros t []].
  - destruct (parse_dep t) as [[b r0]|] eqn:Ep; [|discriminate]. destruct (split_deps ts) as [[ds' cs']|]; [|discriminate].
    destruct (IH ds' cs' eq_refl) as (H1 & H2 & H3). destruct b; injection H as <- <-; (split; [|split]).
    + intros r. rewrite H1. split; intros (t' & Ht & Hp); exists t'; cbn [In]; [auto|].
      destruct Ht as [<-|Ht]; [congruence|auto].
    + intros r. cbn [In]. rewrite H2. split.
      * intros [<-|(t' & Ht & Hp)]; [exists t; auto|exists t'; auto].
      * intros (t' & [<-|Ht] & Hp); [left; congruence|right; exists t'; auto].
    + intros t' [<-|Ht]; [congruence|apply H3, Ht].
    + intros r. cbn [In]. rewrite H1. split.
      * intros [<-|(t' & Ht & Hp)]; [exists t; auto|exists t'; auto].
      * intros (t' & [<-|Ht] & Hp); [left; congruence|right; exists t'; auto].
    + intros r. rewrite H2. split; intros (t' & Ht & Hp); exists t'; cbn [In]; [auto|].
      destruct Ht as [<-|Ht]; [congruence|auto].
    + intros t' [<-|Ht]; [congruence|apply H3, Ht].
Qed.
Lemma parse_dep_positive t r : parse_dep t = Some (false, r) <-> starts_with (T "!") t = false /\ parse_requirement t = Some r.
Proof.
  unfold parse_dep. destruct (strip_prefix (T "!") t) as [s|] eqn:E.
  - assert (starts_with (T "!") t = true) as H.
    { destruct (starts_with (T "!") t) eqn:E2; [reflexivity|]. apply strip_prefix_none in E2. congruence. }
    rewrite H. destruct (parse_requirement s); split; try discriminate; intros [? _]; discriminate.
  - apply strip_prefix_none in E. rewrite E. destruct (parse_requirement t) as [q|]; split; try discriminate.
    + intros [= <-]. auto.
    + intros [_ [= <-]]. reflexivity.
    + intros [_ H]. discriminate.
Qed.
Lemma parse_dep_negative t r : parse_dep t = Some (true, r) <-> exists s, t = "!"%char :: s /\ parse_requirement s = Some r.
Proof.
  unfold parse_dep. destruct (strip_prefix (T "!") t) as [s|] eqn:E.
  - apply strip_prefix_spec in E. change (T "!") with ["!"%char] in E. cbn [app] in E. subst t.
    destruct (parse_requirement s) as [q|] eqn:Eq; split; try discriminate.
    + intros [= <-]. exists s. auto.
    + intros (s' & [= <-] & H). congruence.
    + intros (s' & [= <-] & H). congruence.
  - destruct (parse_requirement t) as [q|]; (split; [discriminate|]); intros (s & -> & _); exfalso;
      change ("!"%char :: s) with (T "!" ++ s) in E; rewrite strip_prefix_app in E; discriminate.
Qed.

(** ** candidate facts *)
Lemma fits_b_iff r p : fits_b r p = true <-> fits r p.
Proof.
  unfold fits_b, fits. rewrite andb_true_iff, text_eqb_eq. destruct (p_version p); intuition.
Qed.
Lemma find_none_iff {A} (f : A -> bool) l : find f l = None <-> forall x, In x l -> f x = false.
Proof.
  induction l as [|y l IH]; cbn [find].
  - split; [intros _ x []|reflexivity].
  - destruct (f y) eqn:E.
    + split; [discriminate|]. intros H. specialize (H y (or_introl eq_refl)). congruence.
    + rewrite IH. split; [intros H x [<-|Hx]; auto|intros H x Hx; apply H; right; exact Hx].
Qed.
Lemma explicit_none barred p : explicit_conflict barred p = None -> forall c, In c barred -> ~ fits c p.
Proof.
  unfold explicit_conflict. rewrite find_none_iff. intros H c Hc Hf. apply fits_b_iff in Hf. rewrite (H c Hc) in Hf. discriminate.
Qed.
Lemma check_none st p : check_conflicts st p = None -> explicit_conflict (s_barred st) p = None.
Proof. unfold check_conflicts. destruct (explicit_conflict (s_barred st) p); [discriminate|reflexivity]. Qed.
Lemma supported_find rs r : find_satisfying rs r <> None <-> supported rs r.
Proof.
  unfold find_satisfying, supported. split.
  - intros H. destruct (find _ rs) as [x|] eqn:E; [|congruence]. apply find_some in E as [Hx E]. exists x. rewrite <- fits_b_iff. auto.
  - intros (x & Hx & Hf). apply fits_b_iff in Hf. intros E. rewrite find_none_iff in E. rewrite (E x Hx) in Hf. discriminate.
Qed.
Lemma present_iff rs n : present rs n = true <-> exists x, In x rs /\ rs_name x = n.
Proof. unfold present. rewrite existsb_exists. split; intros (x & H1 & H2); exists x; rewrite text_eqb_eq in *; auto. Qed.
Lemma present_false rs n : present rs n = false <-> absent rs n.
Proof.
  unfold absent. split.
  - intros H x Hx E. assert (present rs n = true) by (apply present_iff; eauto). congruence.
  - intros H. destruct (present rs n) eqn:E; [|reflexivity]. apply present_iff in E as (x & Hx & Hn). destruct (H x Hx Hn).
Qed.

Lemma enumerate_nth {A} (l : list A) : forall k i x, In (i, x) (enumerate k l) -> k <= i /\ nth_error l (i - k) = Some x.
Proof.
  induction l as [|y l IH]; intros k i x H; [destruct H|]. cbn [enumerate In] in H. destruct H as [[= <- <-]|H].
  - rewrite Nat.sub_diag. split; [lia|reflexivity].
  - apply IH in H as [H1 H2]. split; [lia|]. replace (i - k) with (S (i - S k)) by lia. exact H2.
Qed.
Lemma select_variant_valid st p i : select_variant st p = Some i -> exists vs, nth_error (p_variants p) i = Some vs /\
  variant_compatible (s_resolved st) vs = true.
Proof.
  unfold select_variant. set (ok := filter _ (enumerate 0 (p_variants p))).
  assert (forall l acc, (forall k, acc = Some k -> exists ts, In (k_index k, ts) ok) -> (forall x, In x l -> In x ok) ->
    forall k, fold_left (fun acc iv => let k := variant_key st (fst iv) (snd iv) in
      match acc with None => Some k | Some a => Some (if is_gt (vkey_cmp a k) then a else k) end) l acc = Some k -> exists ts, In (k_index k, ts) ok) as K.
  { induction l as [|[j ts] l IH]; intros acc Ha Hl k Hk; [apply Ha, Hk|]. cbn [fold_left] in Hk. eapply IH; [| |exact Hk].
    - intros k' E. destruct acc as [a|].
      + destruct (is_gt (vkey_cmp a _)); injection E as <-; [apply Ha; reflexivity|]. exists ts. apply Hl. left. reflexivity.
      + injection E as <-. exists ts. apply Hl. left. reflexivity.
    - intros x Hx. apply Hl. right. exact Hx. }
  destruct (fold_left _ ok None) as [k|] eqn:E; [|discriminate]. intros [= <-].
  destruct (K ok None) with (k := k) as [ts Hts]; auto; [discriminate|]. unfold ok in Hts. apply filter_In in Hts as [Hin Hc].
  apply enumerate_nth in Hin as [_ Hin]. rewrite Nat.sub_0_r in Hin. exists ts. auto.
Qed.
Lemma try_candidate_spec st p r x ds cs : try_candidate st p r = Some (x, ds, cs) ->
  rs_package x = p /\ variant_ok x /\ split_deps (effective_requires (rs_package x) (rs_variant x)) = Some (ds, cs).
Proof.
  unfold try_candidate. destruct (negb (is_nil (p_variants p)) && _) eqn:E; [discriminate|].
  destruct (split_deps _) as [[ds' cs']|] eqn:Es; [|discriminate]. intros [= <- <- <-]. split; [reflexivity|]. split.
  - unfold variant_ok. cbn. destruct (select_variant st p) as [i|] eqn:Ev.
    + apply select_variant_valid in Ev as (vs & Hv & _). apply nth_error_Some. congruence.
    + rewrite andb_true_r in E. apply negb_false_iff, is_nil_true in E. exact E.
  - exact Es.
Qed.
Lemma candidates_in cfg r ps p : In p (candidates cfg r ps) <-> In p ps /\ candidate_ok cfg r p = true.
Proof. unfold candidates. rewrite sort_in, filter_In. reflexivity. Qed.
Lemma candidate_admitted cfg r p : candidate_ok cfg r p = true -> admitted cfg p.
Proof.
  unfold candidate_ok, admitted. destruct (p_version p) as [v|]; [|auto]. destruct (cf_allow_prerelease cfg); [discriminate|].
  cbn [negb andb]. intros H _. destruct (is_prerelease v); congruence.
Qed.
Lemma try_all_selected st r : forall cs best conf x ds bs, t_selected (try_all st r cs best conf) = Some (x, ds, bs) ->
  exists c, In c cs /\ is_rejected c (s_rejected st) = false /\ check_conflicts st c = None /\ try_candidate st c r = Some (x, ds, bs).
Proof.
  induction cs as [|c cs IH]; intros best conf x ds bs H; [discriminate|]. cbn [try_all] in H.
  destruct (is_rejected c (s_rejected st)) eqn:Er; [|destruct (check_conflicts st c) eqn:Ec; [|destruct (try_candidate st c r) as [s|] eqn:Et]].
  - apply IH in H as (c' & H & H'). exists c'. cbn [In]. auto.
  - apply IH in H as (c' & H & H'). exists c'. cbn [In]. auto.
  - cbn [t_selected] in H. injection H as ->. exists c. cbn [In]. auto.
  - apply IH in H as (c' & H & H'). exists c'. cbn [In]. auto.
Qed.
Lemma try_all_best st r : forall cs best conf b, t_best (try_all st r cs best conf) = Some b ->
  best = Some b \/ (In b cs /\ is_rejected b (s_rejected st) = false /\ explicit_conflict (s_barred st) b = None).
Proof.
  induction cs as [|c cs IH]; intros best conf b H; [left; exact H|]. cbn [try_all] in H.
  assert (forall best', (best' = best \/ (best' = Some c /\ is_rejected c (s_rejected st) = false /\ explicit_conflict (s_barred st) c = None)) ->
    best' = Some b \/ (In b cs /\ is_rejected b (s_rejected st) = false /\ explicit_conflict (s_barred st) b = None) ->
    best = Some b \/ (In b (c :: cs) /\ is_rejected b (s_rejected st) = false /\ explicit_conflict (s_barred st) b = None)) as K.
  { intros best' Hb [E|(Hin & H1 & H2)].
    - destruct Hb as [->|(-> & H1 & H2)]; [auto|]. injection E as <-. right. cbn [In]. auto.
    - right. cbn [In]. auto. }
  destruct (is_rejected c (s_rejected st)) eqn:Er; [apply (K best); [auto|]; eapply IH, H|].
  set (best' := match best with Some b => Some b | None => match explicit_conflict (s_barred st) c with None => Some c | Some _ => None end end) in *.
  assert (best' = best \/ (best' = Some c /\ false = false /\ explicit_conflict (s_barred st) c = None)) as Hb'.
  { unfold best'. destruct best; [auto|]. destruct (explicit_conflict (s_barred st) c); auto. }
  apply (K best' Hb').
  destruct (check_conflicts st c) eqn:Ec; [|destruct (try_candidate st c r) as [s|] eqn:Et].
  - eapply IH, H.
  - left. exact H.
  - eapply IH, H.
Qed.
Lemma replace_with_spec st cur rs primary : forall cs x ds bs, replace_with st cur rs primary cs = Some (x, ds, bs) ->
  exists c r, In c cs /\ is_rejected c (s_rejected st) = false /\ opt_eqb veq (p_version c) (p_version (rs_package cur)) = false /\
    explicit_conflict (s_barred st) c = None /\
    (forall v q, p_version c = Some v -> In q rs -> r_satisfied q v = true) /\ try_candidate st c r = Some (x, ds, bs).
Proof.
  induction cs as [|c cs IH]; intros x ds bs H; [discriminate|]. cbn [replace_with] in H.
  match type of H with (if ?b then _ else _) = _ => destruct b eqn:E end.
  - apply IH in H as (c' & r & H & H'). exists c', r. cbn [In]. auto.
  - destruct (try_candidate st c _) as [s|] eqn:Et.
    + injection H as ->. apply orb_false_iff in E as [E E4]. apply orb_false_iff in E as [E E3]. apply orb_false_iff in E as [E1 E2].
      exists c, (match rs_for cur with Some r => r | None => primary end). cbn [In]. split; [auto|]. split; [exact E1|]. split; [exact E2|]. split.
      { destruct (explicit_conflict (s_barred st) c); [discriminate|reflexivity]. }
      split; [|exact Et]. intros v q Hv Hq. rewrite Hv in E3.
      destruct (r_satisfied q v) eqn:Es; [reflexivity|]. exfalso.
      assert (existsb (fun r => negb (r_satisfied r v)) rs = true) as K by (apply existsb_exists; exists q; rewrite Es; auto). congruence.
    + apply IH in H as (c' & r & H & H'). exists c', r. cbn [In]. auto.
Qed.

(** ** the resolved list *)
Lemma add_resolved_in x l y : NoDup (map rs_name l) -> In y (add_resolved x l) <-> y = x \/ (In y l /\ rs_name y <> rs_name x).
Proof.
  induction l as [|z l IH]; intros Hn; cbn [add_resolved].
  - cbn [In]. split; [intros [<-|[]]; auto|intros [->|[[] _]]; auto].
  - inversion Hn as [|? ? Hz Hn']; subst. destruct (text_eqb_spec (rs_name z) (rs_name x)) as [E|E]; cbn [In].
    + split.
      * intros [<-|H]; [auto|]. right. split; [auto|]. intros E2. apply Hz. rewrite E, <- E2. apply in_map, H.
      * intros [->|[[<-|H] H2]]; auto. congruence.
    + rewrite (IH Hn'). split; [intros [<-|[->|[H1 H2]]]; auto|intros [->|[[<-|H] H2]]; auto].
Qed.
Lemma add_resolved_names x l n : In n (map rs_name (add_resolved x l)) <-> n = rs_name x \/ In n (map rs_name l).
Proof.
  induction l as [|z l IH]; cbn [add_resolved map In]; [split; [intros [<-|[]]; auto|intros [->|[]]; auto]|].
  destruct (text_eqb_spec (rs_name z) (rs_name x)) as [E|E]; cbn [map In].
  - rewrite E. split; [intros [<-|H]; auto|intros [->|[<-|H]]; auto].
  - rewrite IH. split; [intros [<-|[->|H]]; auto|intros [->|[<-|H]]; auto].
Qed.
Lemma add_resolved_nodup x l : NoDup (map rs_name l) -> NoDup (map rs_name (add_resolved x l)).
Proof.
  induction l as [|z l IH]; intros H; cbn [add_resolved map].
  - constructor; [intros []|constructor].
  - inversion H as [|? ? Hz Hl]; subst. destruct (text_eqb_spec (rs_name z) (rs_name x)) as [E|E]; cbn [map].
    + constructor; [rewrite <- E; exact Hz|exact Hl].
    + constructor; [|apply IH, Hl]. rewrite add_resolved_names. intros [H1|H1]; [congruence|contradiction].
Qed.
Lemma nodup_map_filter {A B} (f : A -> B) g l : NoDup (map f l) -> NoDup (map f (filter g l)).
Proof.
  induction l as [|x l IH]; intros H; [constructor|]. inversion H as [|? ? Hx Hl]; subst. cbn [filter].
  destruct (g x); [|apply IH, Hl]. cbn [map]. constructor; [|apply IH, Hl]. intros Hin. apply Hx.
  apply in_map_iff in Hin as (y & E & Hy). apply filter_In in Hy as [Hy _]. rewrite <- E. apply in_map, Hy.
Qed.

(** ** reachability of the selected packages *)
Lemma hard_names_in pr n b : In b (hard_names pr n) <-> exists l r, aget n pr = Some l /\ In r l /\ rq_weak r = false /\ b = rq_name r.
Proof.
  unfold hard_names. destruct (aget n pr) as [l|].
  - rewrite in_map_iff. split.
    + intros (r & <- & H). apply filter_In in H as [H1 H2]. exists l, r. destruct (rq_weak r); [discriminate|auto].
    + intros (l' & r & [= <-] & H & Hw & ->). exists r. split; [reflexivity|]. apply filter_In. rewrite Hw. auto.
  - split; [intros []|]. intros (l & r & H & _). discriminate.
Qed.
Lemma needed_exact orig pr n : In n (needed orig pr) <-> reachable (hard_names pr) (root_names orig) n.
Proof.
  unfold needed. apply (reach_exact (hard_names pr) (map rq_name (concat (map snd pr)))).
  - intros x y H. apply hard_names_in in H as (l & r & H & Hr & _ & ->). apply in_map, in_concat. exists l. split; [|exact Hr].
    apply aget_in in H. change l with (snd (x, l)). apply in_map, H.
  - rewrite map_length. unfold root_names. rewrite map_length.
    assert (forall (f : requirement -> bool) l, length (filter f l) <= length l) as K.
    { intros f l. induction l as [|a l IH]; cbn [filter length]; [lia|]. destruct (f a); cbn [length]; lia. }
    specialize (K (fun r => negb (rq_weak r) && positive r) orig). lia.
Qed.
Lemma reachable_kept orig pr keep n : (forall x, keep x = true <-> reachable (hard_names pr) (root_names orig) x) ->
  reachable (hard_names pr) (root_names orig) n -> reachable (hard_names (akeep keep pr)) (root_names orig) n.
Proof.
  intros Hk H. induction H as [x Hx|x y Hx IH Hy]; [apply reach_root, Hx|].
  eapply reach_step; [exact IH|]. apply hard_names_in. apply hard_names_in in Hy as (l & r & H1 & H2). exists l, r. split; [|exact H2].
  rewrite aget_keep. apply Hk in Hx. rewrite Hx. exact H1.
Qed.

(** ** the invariant *)
Section Invariant.
Context (repo : text -> option (list package)) (cfg : config) (reqs : list requirement).
Hypothesis Hwell : well_named repo.

Record selectable (x : resolved) (ds cs : list requirement) : Prop := {
  sl_split : split_deps (effective_requires (rs_package x) (rs_variant x)) = Some (ds, cs);
  sl_repo : from_repo repo x;
  sl_admitted : admitted cfg (rs_package x);
  sl_variant : variant_ok x;
  sl_clean : forall r, In r reqs -> rq_conflict r = true -> ~ fits r (rs_package x)
}.
Record settled (st : state) : Prop := {
  se_orig : s_orig st = reqs;
  se_nodup : NoDup (map rs_name (s_resolved st));
  se_rkeys : NoDup (akeys (s_reqs st));
  se_bkeys : NoDup (akeys (s_bars st));
  se_each : forall x, In x (s_resolved st) -> exists ds cs, selectable x ds cs /\
    aget (rs_name x) (s_reqs st) = Some ds /\ aget (rs_name x) (s_bars st) = Some cs;
  se_owner : forall n, In n (akeys (s_reqs st)) -> In n (map rs_name (s_resolved st));
  se_active : forall r, In r (filter positive reqs) \/ (exists n l, In (n, l) (s_reqs st) /\ In r l) -> is_active (s_active st) r = true;
  se_keyed : forall n l r, aget n (s_active st) = Some l -> In r l -> rq_name r = n;
  se_barred : forall r, In r reqs -> rq_conflict r = true -> In r (s_barred st);
  se_refused : forall n l r, In (n, l) (s_bars st) -> In r l -> has_req r (s_barred st) = true;
  se_deps : forall a b, In b (dep_edges (s_deps st) a) <-> exists l r, In (a, l) (s_reqs st) /\ In r l /\ b = rq_name r;
  se_needed : forall x, In x (s_resolved st) -> reachable (hard_names (s_reqs st)) (root_names reqs) (rs_name x)
}.

Lemma fold_active_keyed l : forall m, (forall n l r, aget n m = Some l -> In r l -> rq_name r = n) ->
  forall n l' r, aget n (fold_left insert_active l m) = Some l' -> In r l' -> rq_name r = n.
Proof.
  induction l as [|q l IH]; intros m Hm; [exact Hm|]. cbn [fold_left]. apply IH. intros n l' r Hg Hr. unfold insert_active in Hg.
  destruct (text_eqb_spec n (rq_name q)) as [->|E].
  - rewrite aget_put_same in Hg. injection Hg as <-. set (old := match aget (rq_name q) m with Some rs => rs | None => [] end) in *.
    assert (forall r, In r old -> rq_name r = rq_name q) as Ho.
    { unfold old. intros z Hz. destruct (aget (rq_name q) m) as [l0|] eqn:E0; [apply (Hm _ _ _ E0 Hz)|destruct Hz]. }
    destruct (has_req q old); [apply Ho, Hr|]. apply in_app_iff in Hr as [Hr|[<-|[]]]; [apply Ho, Hr|reflexivity].
  - rewrite aget_put_other in Hg by exact E. apply (Hm _ _ _ Hg Hr).
Qed.
Lemma settled_initial : settled (initial reqs).
Proof.
  constructor; cbn [initial s_orig s_resolved s_reqs s_bars s_active s_barred s_deps map akeys].
  - reflexivity.
  - constructor.
  - constructor.
  - constructor.
  - intros x [].
  - intros n [].
  - intros r [H|(n & l & [] & _)]. apply rebuild_active_has. auto.
  - apply fold_active_keyed. intros n l r H. discriminate.
  - apply rebuild_barred_has.
  - intros n l r [].
  - intros a b. split; [intros H; cbn in H; destruct H|intros (l & r & [] & _)].
  - intros x [].
Qed.
Lemma settled_queue q st : settled st -> settled (set_queue q st).
Proof. intros []. constructor; assumption. Qed.
Lemma settled_failed q st : settled st -> settled (set_failed q st).
Proof. intros []. constructor; assumption. Qed.
Lemma settled_conflicts q st : settled st -> settled (set_conflicts q st).
Proof. intros []. constructor; assumption. Qed.
Lemma settled_rejected q st : settled st -> settled (set_rejected q st).
Proof. intros []. constructor; assumption. Qed.

Lemma settled_install o x ds cs st : any_orders o -> settled st -> selectable x ds cs -> settled (install o (rs_name x) x ds cs st).
Proof.
  intros (Ho1 & Ho2 & Ho3) St Sx. unfold install, set_requirements. cbn [s_orig s_resolved s_reqs s_bars].
  rewrite (se_orig _ St). set (pr := aput (rs_name x) ds (s_reqs st)). set (pc := aput (rs_name x) cs (s_bars st)).
  set (keep := fun n => mem_text n (needed reqs pr)).
  assert (forall n, keep n = true <-> reachable (hard_names pr) (root_names reqs) n) as Hkeep.
  { intros n. unfold keep. rewrite mem_text_In. apply needed_exact. }
  assert (NoDup (akeys pr)) as Npr by apply nodup_put, (se_rkeys _ St).
  assert (NoDup (akeys pc)) as Npc by apply nodup_put, (se_bkeys _ St).
  assert (forall n l, In (n, l) (akeep keep pr) <-> In (n, l) (o_reqs o (akeep keep pr))) as Hperm.
  { intros n l. specialize (Ho1 (akeep keep pr)). split; apply Permutation_in; [apply Permutation_sym|]; exact Ho1. }
  constructor; cbn [s_orig s_resolved s_reqs s_bars s_active s_barred s_deps].
  - reflexivity.
  - apply nodup_map_filter, add_resolved_nodup, (se_nodup _ St).
  - apply nodup_keep, Npr.
  - apply nodup_keep, Npc.
  - intros y Hy. apply filter_In in Hy as [Hy Hk]. apply add_resolved_in in Hy; [|apply (se_nodup _ St)]. change (keep (rs_name y) = true) in Hk. rewrite !aget_keep, Hk.
    destruct Hy as [->|[Hy Hne]].
    + exists ds, cs. split; [exact Sx|]. unfold pr, pc. rewrite !aget_put_same. auto.
    + unfold pr, pc. rewrite !aget_put_other by exact Hne. apply (se_each _ St y Hy).
  - intros n Hn. apply akeys_keep in Hn as [Hn Hk]. apply akeys_put in Hn.
    assert (In n (map rs_name (add_resolved x (s_resolved st)))) as K.
    { apply add_resolved_names. destruct Hn as [->|Hn]; [auto|]. right. apply (se_owner _ St), Hn. }
    apply in_map_iff in K as (y & <- & Hy). apply in_map. apply filter_In. auto.
  - intros r H. apply rebuild_active_has. destruct H as [H|(n & l & H & Hr)]; [auto|]. right. exists n, l. rewrite <- Hperm. auto.
  - apply fold_active_keyed. intros n l r H. discriminate.
  - apply rebuild_barred_has.
  - intros n l r H Hr. apply fold_barred_has, in_concat. exists l. split; [|exact Hr]. change l with (snd (n, l)). apply in_map.
    apply (Permutation_in _ (Permutation_sym (Ho2 (akeep keep pc)))), H.
  - intros a b. rewrite rebuild_deps_edges. split; intros (l & r & H & H'); exists l, r; [rewrite Hperm|rewrite <- Hperm]; auto.
  - intros y Hy. apply filter_In in Hy as [_ Hk]. apply reachable_kept; [exact Hkeep|]. apply Hkeep, Hk.
Qed.

(** candidates are selectable *)
Lemma candidate_selectable st r ps c x ds cs q : settled st -> repo (rq_name r) = Some ps -> In c (candidates cfg r ps) ->
  explicit_conflict (s_barred st) c = None -> try_candidate st c q = Some (x, ds, cs) ->
  selectable x ds cs /\ rs_name x = rq_name r /\ rs_package x = c.
Proof.
  intros St Hr Hc He Ht. apply candidates_in in Hc as [Hc Hok]. apply try_candidate_spec in Ht as (Hp & Hv & Hs).
  assert (rs_name x = rq_name r) as Hn by (unfold rs_name; rewrite Hp; apply (Hwell _ _ _ Hr Hc)).
  split; [|auto]. constructor; auto.
  - exists ps. rewrite Hn, Hp. auto.
  - rewrite Hp. apply (candidate_admitted cfg r), Hok.
  - intros z Hz Hzc. rewrite Hp. apply (explicit_none _ _ He). apply (se_barred _ St z Hz Hzc).
Qed.
Lemma find_candidates_spec r cs : find_candidates repo cfg r = Some cs -> exists ps, repo (rq_name r) = Some ps /\ cs = candidates cfg r ps.
Proof. unfold find_candidates. destruct (repo (rq_name r)) as [ps|]; [|discriminate]. intros [= <-]. eauto. Qed.

(** every change of the selection is an installation of a selectable package *)
Inductive moved (o : order) (st : state) : state -> Prop :=
| moved_install st' x ds cs : settled st' -> s_resolved st' = s_resolved st -> selectable x ds cs -> explicit_conflict (s_barred st) (rs_package x) = None ->
    s_barred st' = s_barred st -> s_bars st' = s_bars st -> moved o st (install o (rs_name x) x ds cs st').

Lemma backtrack_package_spec o n st b st' : any_orders o -> settled st -> backtrack_package repo cfg o n st = Some (b, st') ->
  if b then moved o st st'
  else exists rej, st' = set_rejected rej st.
Proof.
  intros Ho St H. unfold backtrack_package in H.
  assert (exists rej, st = set_rejected rej st) as Same by (exists (s_rejected st); destruct st; reflexivity).
  destruct (find _ (s_resolved st)) as [cur|] eqn:Ef; [|injection H as <- <-; exact Same].
  destruct (aget n (s_active st)) as [rs|] eqn:Ea; [|injection H as <- <-; exact Same].
  destruct rs as [|primary rs]; [injection H as <- <-; exact Same|].
  set (rej := reject (rs_package cur) (s_rejected st)) in *.
  destruct (find_candidates repo cfg primary) as [cs|] eqn:Ec; [|discriminate].
  destruct (replace_with _ cur (primary :: rs) primary cs) as [[[x ds] bs]|] eqn:Er.
  - injection H as <- <-. apply find_candidates_spec in Ec as (ps & Hps & ->).
    apply replace_with_spec in Er as (c & r & Hc & _ & _ & He & _ & Ht).
    assert (rq_name primary = n) as Hn by (apply (se_keyed _ St _ _ _ Ea); left; reflexivity).
    destruct (candidate_selectable _ _ _ _ _ _ _ _ (settled_rejected rej _ St) Hps Hc He Ht) as (Sx & Hx & Hxc).
    rewrite Hn in Hx. rewrite <- Hx. apply moved_install; auto.
    + apply settled_rejected, St.
    + rewrite Hxc. exact He.
  - injection H as <- <-. exists rej. reflexivity.
Qed.
Lemma moved_rejected o rej st st' : moved o (set_rejected rej st) st' -> moved o st st'.
Proof. intros [st'' x ds cs H1 H2 H3 H4 H5 H6]. apply moved_install; assumption. Qed.
Lemma backtrack_first_spec o ns : forall st b st', any_orders o -> settled st -> backtrack_first repo cfg o ns st = Some (b, st') ->
  if b then moved o st st' else exists rej, st' = set_rejected rej st.
Proof.
  induction ns as [|n ns IH]; intros st b st' Ho St H; cbn [backtrack_first] in H.
  - injection H as <- <-. exists (s_rejected st). destruct st. reflexivity.
  - destruct (backtrack_package repo cfg o n st) as [[b0 st0]|] eqn:E; [|discriminate].
    apply backtrack_package_spec in E; [|exact Ho|exact St]. destruct b0.
    + injection H as <- <-. exact E.
    + destruct E as [rej ->]. apply IH in H; [|exact Ho|apply settled_rejected, St]. destruct b.
      * apply (moved_rejected _ rej), H.
      * destruct H as [rej' ->]. exists rej'. reflexivity.
Qed.

(** one round: the requirement taken is met, recorded as failed, or the selection changed *)
Inductive progress (o : order) (st : state) (r : requirement) (q : list requirement) : state -> Prop :=
| pr_met : met (s_resolved st) r -> progress o st r q (set_queue q st)
| pr_failed conf rej : progress o st r q (set_failed (s_failed st ++ [r]) (set_rejected rej (set_conflicts conf (set_queue q st))))
| pr_moved st' : moved o st st' -> progress o st r q st'.

Lemma step_next o st st' : any_orders o -> settled st -> step repo cfg o st = Next st' ->
  exists r q, next_active (s_active st) (s_queue st) = Some (r, q) /\ progress o st r q st'.
Proof.
  intros Ho St H. unfold step in H. destruct (next_active (s_active st) (s_queue st)) as [[r q]|] eqn:En; [|discriminate].
  exists r, q. split; [reflexivity|].
  assert (settled (set_queue q st)) as Sq by apply settled_queue, St.
  destruct (find_satisfying (s_resolved (set_queue q st)) r) as [x|] eqn:Ef.
  { injection H as <-. apply pr_met. left. apply supported_find. change (find_satisfying (s_resolved st) r = Some x) in Ef. rewrite Ef. discriminate. }
  destruct (rq_weak r && _) eqn:Ew.
  { injection H as <-. apply pr_met. right. apply andb_true_iff in Ew as [Ew1 Ew2]. apply negb_true_iff in Ew2.
    split; [exact Ew1|]. apply present_false. exact Ew2. }
  destruct (find_candidates repo cfg r) as [cs|] eqn:Ec; [|discriminate].
  assert (forall conf rej st2, st2 = set_failed (s_failed st ++ [r]) (set_rejected rej (set_conflicts conf (set_queue q st))) -> progress o st r q st2) as Kf.
  { intros conf rej st2 ->. apply pr_failed. }
  destruct cs as [|c0 cs0].
  { injection H as <-. apply (Kf (s_conflicts st) (s_rejected st)). destruct st. reflexivity. }
  set (cs := c0 :: cs0) in *.
  apply find_candidates_spec in Ec as (ps & Hps & Ecs).
  set (t := try_all (set_queue q st) r cs None []) in *.
  set (st1 := set_conflicts (s_conflicts (set_queue q st) ++ t_conflicts t) (set_queue q st)) in *.
  assert (settled st1) as S1 by apply settled_conflicts, Sq.
  set (fb := if negb (cf_strict cfg) && negb (present (s_resolved st1) (rq_name r)) then
               match t_best t with Some c => try_candidate st1 c r | None => None end else None) in *.
  assert (forall x ds bs c q', In c cs -> explicit_conflict (s_barred st) c = None -> try_candidate st1 c q' = Some (x, ds, bs) ->
            moved o st (install o (rs_name x) x ds bs st1)) as Kin.
  { intros x ds bs c q' Hc He Ht. rewrite Ecs in Hc. destruct (candidate_selectable st1 r ps c x ds bs q' S1 Hps Hc He Ht) as (Sx & _ & Hxc).
    apply moved_install; auto. rewrite Hxc. exact He. }
  destruct (t_selected t) as [[[x ds] bs]|] eqn:Es.
  { injection H as <-. unfold t in Es. apply try_all_selected in Es as (c & Hc & _ & Hk & Ht). apply pr_moved, (Kin x ds bs c r); auto.
    apply check_none in Hk. exact Hk. }
  destruct fb as [[[x ds] bs]|] eqn:Efb.
  { injection H as <-. unfold fb in Efb. destruct (negb (cf_strict cfg) && _); [|discriminate].
    destruct (t_best t) as [c|] eqn:Eb; [|discriminate]. unfold t in Eb. apply try_all_best in Eb as [Eb|(Hc & _ & He)]; [discriminate|].
    apply pr_moved, (Kin x ds bs c r); auto. }
  destruct (cf_strict cfg).
  - destruct (backtrack_first repo cfg o (sources st1 r cs) st1) as [[b st2]|] eqn:Eb; [|discriminate].
    apply backtrack_first_spec in Eb; [|exact Ho|exact S1]. destruct b; injection H as <-.
    + apply pr_moved. destruct Eb as [st'' x ds bs H1 H2 H3 H4 H5 H6]. apply moved_install; assumption.
    + destruct Eb as [rej ->]. apply (Kf (s_conflicts st ++ t_conflicts t) rej). destruct st. reflexivity.
  - injection H as <-. apply (Kf (s_conflicts st ++ t_conflicts t) (s_rejected st)). destruct st. reflexivity.
Qed.

(** coverage: everything wanted is queued, met or recorded as failed *)
Definition wanted (st : state) (r : requirement) : Prop :=
  In r (filter positive reqs) \/ exists x l, In x (s_resolved st) /\ aget (rs_name x) (s_reqs st) = Some l /\ In r l.
Definition covered (st : state) : Prop := forall r, wanted st r -> In r (s_queue st) \/ met (s_resolved st) r \/ In r (s_failed st).

Lemma covered_initial : covered (initial reqs).
Proof. intros r [H|(x & l & [] & _)]. left. exact H. Qed.
Lemma covered_install o n x ds cs st : s_orig st = reqs -> covered (install o n x ds cs st).
Proof.
  intros E r H. left. unfold install, set_requirements in *. unfold wanted in H. cbn [s_orig s_resolved s_reqs s_queue] in *.
  rewrite E in *. unfold requeue. apply in_app_iff. destruct H as [H|(y & l & Hy & Hl & Hr)]; [auto|]. right. apply in_concat. exists l. split; [|exact Hr].
  apply in_map_iff. exists y. rewrite Hl. auto.
Qed.
Lemma next_active_spec a q r q' : next_active a q = Some (r, q') -> exists pre, q = pre ++ r :: q' /\ is_active a r = true /\ forall z, In z pre -> is_active a z = false.
Proof.
  induction q as [|z q IH]; cbn [next_active]; [discriminate|]. destruct (is_active a z) eqn:E.
  - intros [= <- <-]. exists []. split; [reflexivity|]. split; [exact E|intros ? []].
  - intros H. destruct (IH H) as (pre & -> & Hr & Hp). exists (z :: pre). split; [reflexivity|]. split; [exact Hr|].
    intros y [<-|Hy]; auto.
Qed.
Lemma next_active_none a q : next_active a q = None -> forall z, In z q -> is_active a z = false.
Proof.
  induction q as [|z q IH]; cbn [next_active]; [intros _ y []|]. destruct (is_active a z) eqn:E; [discriminate|].
  intros H y [<-|Hy]; auto.
Qed.
Lemma wanted_active st r : settled st -> wanted st r -> is_active (s_active st) r = true.
Proof.
  intros St H. apply (se_active _ St). destruct H as [H|(x & l & Hx & Hl & Hr)]; [auto|]. right. exists (rs_name x), l. split; [|exact Hr]. apply aget_in, Hl.
Qed.

Definition sound (st : state) : Prop := settled st /\ covered st.
Lemma sound_initial : sound (initial reqs).
Proof. split; [apply settled_initial|apply covered_initial]. Qed.
Lemma sound_step o st st' : any_orders o -> sound st -> step repo cfg o st = Next st' -> sound st'.
Proof.
  intros Ho [St Cv] H. destruct (step_next o st st' Ho St H) as (r & q & En & P).
  apply next_active_spec in En as (pre & Eq & Hr & Hpre).
  assert (forall z, wanted st z -> In z (s_queue st) -> z = r \/ In z q) as K.
  { intros z Hz Hin. rewrite Eq in Hin. apply in_app_iff in Hin as [Hin|[<-|Hin]]; auto. apply Hpre in Hin. rewrite (wanted_active st z St Hz) in Hin. discriminate. }
  destruct P as [Hm|conf rej|st' M].
  - split; [apply settled_queue, St|]. intros z Hz. cbn. destruct (Cv z Hz) as [Hq|Hq]; [|auto]. destruct (K z Hz Hq) as [->|Hq']; auto.
  - split; [apply settled_failed, settled_rejected, settled_conflicts, settled_queue, St|]. intros z Hz. cbn [set_failed set_rejected set_conflicts set_queue s_queue s_resolved s_failed].
    rewrite in_app_iff. destruct (Cv z Hz) as [Hq|[Hq|Hq]]; [|auto|auto]. destruct (K z Hz Hq) as [->|Hq']; cbn [In]; auto.
  - destruct M as [st'' x ds cs S2 E2 Sx He _ _]. split; [apply settled_install; assumption|]. apply covered_install, (se_orig _ S2).
Qed.
Lemma step_stop o st st' : sound st -> step repo cfg o st = Stop st' ->
  sound st' /\ forall r, wanted st' r -> met (s_resolved st') r \/ In r (s_failed st').
Proof.
  intros [St Cv] H. unfold step in H. destruct (next_active (s_active st) (s_queue st)) as [[r q]|] eqn:En.
  - exfalso.
    repeat match type of H with
    | context [match find_satisfying ?a ?b with _ => _ end] => destruct (find_satisfying a b); [discriminate|]
    | context [if rq_weak ?a && ?b then _ else _] => destruct (rq_weak a && b); [discriminate|]
    | context [match find_candidates ?a ?b ?c with _ => _ end] => destruct (find_candidates a b c) as [[|c0 cs]|]; try discriminate
    end.
    destruct (t_selected _) as [[[? ?] ?]|]; [discriminate|].
    match type of H with match ?f with _ => _ end = _ => destruct f as [[[? ?] ?]|]; [discriminate|] end.
    destruct (cf_strict cfg); [|discriminate]. destruct (backtrack_first _ _ _ _ _) as [[[|] ?]|]; discriminate.
  - injection H as <-.
    assert (forall r, wanted st r -> met (s_resolved st) r \/ In r (s_failed st)) as K.
    { intros r Hr. destruct (Cv r Hr) as [Hq|Hq]; [|exact Hq]. pose proof (next_active_none _ _ En r Hq) as E. rewrite (wanted_active st r St Hr) in E. discriminate. }
    split; [split; [apply settled_queue, St|]|exact K]. intros r Hr. cbn. right. apply K, Hr.
Qed.
Lemma loop_sound ords : (forall i, any_orders (ords i)) -> forall fuel n st st', sound st -> loop repo cfg ords n fuel st = LDone st' ->
  sound st' /\ forall r, wanted st' r -> met (s_resolved st') r \/ In r (s_failed st').
Proof.
  intros Ho. induction fuel as [|f IH]; intros n st st' Sd H; cbn [loop] in H; [discriminate|].
  destruct (step repo cfg (ords n) st) as [|st1|st1] eqn:E; [discriminate| |].
  - apply (IH (S n) st1); [|exact H]. apply (sound_step (ords n) st); auto.
  - injection H as <-. apply (step_stop (ords n) st); auto.
Qed.

(** ** what a finished resolution means *)
Lemma wants_split x ds cs : split_deps (effective_requires (rs_package x) (rs_variant x)) = Some (ds, cs) ->
  (forall r, In r ds <-> wants x r) /\ (forall r, In r cs <-> refuses x r).
Proof.
  intros H. apply split_deps_in in H as (H1 & H2 & H3). split; intros r.
  - rewrite H1. unfold wants. split; intros (t & Ht & Hp); exists t; rewrite effective_texts in *; [apply parse_dep_positive in Hp; tauto|split; [exact Ht|apply parse_dep_positive; tauto]].
  - rewrite H2. unfold refuses. split.
    + intros (t & Ht & Hp). apply parse_dep_negative in Hp as (s & -> & Hs). exists s. rewrite effective_texts in Ht. auto.
    + intros (s & Ht & Hs). exists ("!"%char :: s). rewrite effective_texts. split; [exact Ht|]. apply parse_dep_negative. eauto.
Qed.
Lemma settled_wants st x : settled st -> In x (s_resolved st) -> exists ds, aget (rs_name x) (s_reqs st) = Some ds /\ forall r, In r ds <-> wants x r.
Proof.
  intros St Hx. destruct (se_each _ St x Hx) as (ds & cs & Sx & Hd & _). exists ds. split; [exact Hd|]. apply (wants_split x ds cs), (sl_split _ _ _ Sx).
Qed.
Lemma wanted_iff st r : settled st -> wanted st r <-> (In r reqs /\ rq_conflict r = false) \/ exists x, In x (s_resolved st) /\ wants x r.
Proof.
  intros St. unfold wanted. rewrite filter_In. unfold positive. rewrite negb_true_iff. split; (intros [H|H]; [auto|right]).
  - destruct H as (x & l & Hx & Hl & Hr). exists x. split; [exact Hx|]. destruct (settled_wants st x St Hx) as (ds & Hd & Hw). apply Hw. congruence.
  - destruct H as (x & Hx & Hw). destruct (settled_wants st x St Hx) as (ds & Hd & Hw'). exists x, ds. rewrite Hw'. auto.
Qed.
Lemma settled_mentions st a b : settled st -> In b (dep_edges (s_deps st) a) <-> mentions (s_resolved st) a b.
Proof.
  intros St. rewrite (se_deps _ St). unfold mentions. split.
  - intros (l & r & Hl & Hr & ->). assert (In a (map rs_name (s_resolved st))) as Ha.
    { apply (se_owner _ St). change a with (fst (a, l)). apply in_map, Hl. }
    apply in_map_iff in Ha as (x & Hx & Hin). destruct (settled_wants st x St Hin) as (ds & Hd & Hw).
    exists x, r. apply (aget_nodup _ _ _ (se_rkeys _ St)) in Hl. rewrite Hx, Hl in Hd. injection Hd as <-. rewrite <- Hw. auto.
  - intros (x & r & Hin & <- & Hw & <-). destruct (settled_wants st x St Hin) as (ds & Hd & Hw'). exists ds, r. rewrite Hw'. split; [apply aget_in, Hd|auto].
Qed.
Lemma settled_required st x : settled st -> In x (s_resolved st) -> required reqs (s_resolved st) (rs_name x).
Proof.
  intros St Hx. pose proof (se_needed _ St x Hx) as H. induction H as [n Hn|n m Hn IH Hm].
  - unfold root_names in Hn. apply in_map_iff in Hn as (r & <- & Hr). apply filter_In in Hr as [Hr Hp]. apply andb_true_iff in Hp as [Hw Hp].
    apply negb_true_iff in Hw. unfold positive in Hp. apply negb_true_iff in Hp. apply req_asked; assumption.
  - apply hard_names_in in Hm as (l & r & Hl & Hr & Hw & ->).
    assert (In n (map rs_name (s_resolved st))) as Ha by (apply (se_owner _ St), aget_some; eauto).
    apply in_map_iff in Ha as (y & <- & Hy). destruct (settled_wants st y St Hy) as (ds & Hd & Hds).
    apply (req_dep _ _ y); auto. apply Hds. congruence.
Qed.
End Invariant.
