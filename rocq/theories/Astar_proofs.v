(** The A* search. *)
From Verif Require Import Base Base_lemmas Maps Sorting Version_model Range_model Requirement_model Package_model Astar_model Astar_spec.
From Coq Require Import Lia Permutation.

Lemma filter_le {A} (f : A -> bool) l : length (filter f l) <= length l.
Proof. induction l as [|a l IH]; cbn; [lia|]. destruct (f a); cbn; lia. Qed.
Section Search.
Context (repo : text -> option (list package)) (pre : bool).
Notation successors := (successors repo pre).

(** ** States *)
Lemma fits_in r p : out_of_range r p = false <-> fits r p.
Proof.
  unfold out_of_range, fits. destruct (pr_spec r) as [t|]; [|split; [intros _ t v g E; discriminate|reflexivity]]. destruct (p_version p) as [v|]; [|split; [intros _ t' v g _ E; discriminate|reflexivity]].
  destruct (parse_range t) as [g|] eqn:G.
  - split; [intros H t' v' g' [= <-] [= <-] E; rewrite G in E; injection E as <-; now apply negb_false_iff|]. intros H. apply negb_false_iff. now apply (H t v g).
  - split; [intros _ t' v' g' [= <-] _ E; congruence|reflexivity].
Qed.
Lemma tried_spec r p : tried pre r p = true <-> fits r p /\ allowed pre p.
Proof.
  unfold tried. rewrite andb_true_iff, negb_true_iff, fits_in. apply and_iff_compat_l. rewrite orb_true_iff. unfold allowed. destruct (p_version p) as [v|].
  - rewrite negb_true_iff. split; intros [H|H]; auto. right. intros v' [= <-]. exact H.
  - split; [intros [H|_]; [auto|right; intros v E; discriminate]|auto].
Qed.
Lemma successors_in s t l : successors s = Some l -> In t l -> exists r rs p, ss_pending s = r :: rs /\ offered repo (pr_name r) p /\ fits r p /\ allowed pre p /\ t = successor s r p.
Proof.
  unfold Astar_model.successors. destruct (ss_pending s) as [|r rs] eqn:E; [intros [= <-] []|]. destruct (repo (pr_name r)) as [ps|] eqn:R; [|discriminate]. intros [= <-] H. apply in_map_iff in H. destruct H as (p & <- & Hp). apply filter_In in Hp. destruct Hp as [Hp Ht]. apply tried_spec in Ht.
  exists r, rs, p. split; [reflexivity|]. split; [exists ps; now split|]. now split; [|split].
Qed.
Lemma new_requirements_in s p r : In r (new_requirements s p) <-> requires p r /\ ahas (pr_name r) (ss_resolved s) = false.
Proof.
  unfold new_requirements. rewrite in_flat_map. split.
  - intros (t & Ht & H). destruct (parse_package_req t) as [q|] eqn:E; [|destruct H]. destruct (ahas (pr_name q) (ss_resolved s)) eqn:A; [destruct H|]. destruct H as [<-|[]]. split; [exists t; now split|exact A].
  - intros [(t & Ht & E) A]. exists t. split; [exact Ht|]. rewrite E, A. now left.
Qed.
(** what holds of the states of a search *)
Record well (rs : list package_req) (s : sstate) : Prop := mkWell {
  w_nodup : NoDup (akeys (ss_resolved s));
  w_offered : forall n p, aget n (ss_resolved s) = Some p -> offered repo n p /\ allowed pre p;
  w_relevant : forall r, In r (ss_pending s) -> relevant repo rs r;
  w_apart : forall r, In r (ss_pending s) -> aget (pr_name r) (ss_resolved s) = None;
  w_clean : ss_conflicts s = [];
  w_closed : closed_for (fun r => names (ss_resolved s) r \/ In r (ss_pending s)) rs (ss_resolved s);
  w_wanted : wanted rs (ss_resolved s);
  w_asked : forall r, In r (ss_pending s) -> In r rs \/ exists m q, aget m (ss_resolved s) = Some q /\ requires q r;
  w_cost : ss_cost s = total package_cost (ss_resolved s) }.
Lemma total_cons k (v : package) m : total package_cost ((k, v) :: m) = package_cost v + total package_cost m.
Proof. reflexivity. Qed.
Lemma total_put n (p : package) m : aget n m = None -> total package_cost (aput n p m) = total package_cost m + package_cost p.
Proof.
  induction m as [|[k v] m IH]; cbn [aget aput]; [intros _; rewrite total_cons; apply Nat.add_comm|]. intros H. destruct (text_eqb n k) eqn:E; [discriminate|]. rewrite !total_cons, (IH H). lia.
Qed.
Lemma well_initial rs : well rs (initial_state rs).
Proof.
  split; cbn; try (intros; discriminate); auto.
  - constructor.
  - intros r H. now left.
  - split; [intros r H; now right|intros n p r H; discriminate].
Qed.
Lemma ahas_none n (m : list (text * package)) : ahas n m = false <-> aget n m = None.
Proof. rewrite aget_none, <- ahas_in. destruct (ahas n m); split; congruence. Qed.
Lemma no_version_conflicts s : (forall r, In r (ss_pending s) -> aget (pr_name r) (ss_resolved s) = None) -> version_conflicts s = [] /\ circular_conflicts s = [].
Proof.
  intros H. unfold version_conflicts, circular_conflicts. split; induction (ss_pending s) as [|r l IH]; cbn [flat_map]; try reflexivity; rewrite (H r) by (now left); apply IH; intros q Hq; apply H; now right.
Qed.
Lemma well_successor rs s r q p : proper repo -> well rs s -> ss_pending s = r :: q -> offered repo (pr_name r) p -> fits r p -> allowed pre p -> well rs (successor s r p).
Proof.
  intros Pr W E O F A. pose proof (Pr _ _ O) as Np. assert (Hr : In r (ss_pending s)) by (rewrite E; now left). pose proof (w_apart _ _ W r Hr) as Ar.
  assert (Pend : forall x, In x (filter (fun y => negb (text_eqb (pr_name y) (pr_name r))) (ss_pending s ++ new_requirements s p)) <-> pr_name x <> pr_name r /\ (In x (ss_pending s) \/ (requires p x /\ aget (pr_name x) (ss_resolved s) = None))).
  { intros x. rewrite filter_In, in_app_iff, new_requirements_in, ahas_none, negb_true_iff, text_eqb_neq. tauto. }
  assert (Apart : forall x, In x (filter (fun y => negb (text_eqb (pr_name y) (pr_name r))) (ss_pending s ++ new_requirements s p)) -> aget (pr_name x) (aput (p_name p) p (ss_resolved s)) = None).
  { intros x Hx. apply Pend in Hx. destruct Hx as [N Hx]. rewrite aget_put_other by (rewrite Np; exact N). destruct Hx as [Hx|[_ Hx]]; [apply (w_apart _ _ W x Hx)|exact Hx]. }
  assert (Old : forall n x, aget n (ss_resolved s) = Some x -> aget n (aput (p_name p) p (ss_resolved s)) = Some x).
  { intros n x Hx. rewrite aget_put_other; [exact Hx|]. rewrite Np. intros ->. congruence. }
  unfold successor. split; cbn [ss_resolved ss_pending ss_conflicts ss_cost].
  - apply nodup_put, (w_nodup _ _ W).
  - intros n x H. destruct (list_eq_dec ascii_dec n (p_name p)) as [->|N]; [rewrite aget_put_same in H; injection H as <-; rewrite Np; now split|]. rewrite aget_put_other in H by exact N. apply (w_offered _ _ W n x H).
  - intros x Hx. apply Pend in Hx. destruct Hx as [_ [Hx|[Hx _]]]; [apply (w_relevant _ _ W x Hx)|]. right. exists (pr_name r), p. now split.
  - exact Apart.
  - rewrite (w_clean _ _ W). destruct (no_version_conflicts (mkSstate (aput (p_name p) p (ss_resolved s)) (filter (fun q0 : package_req => negb (text_eqb (pr_name q0) (pr_name r))) (ss_pending s ++ new_requirements s p)) [] (ss_cost s + package_cost p)) Apart) as [-> ->]. reflexivity.
  - assert (Step : forall x, names (ss_resolved s) x \/ In x (ss_pending s) -> names (aput (p_name p) p (ss_resolved s)) x \/ In x (filter (fun y => negb (text_eqb (pr_name y) (pr_name r))) (ss_pending s ++ new_requirements s p))).
    { intros x [[y Hy]|Hx]; [left; exists y; apply Old, Hy|]. destruct (list_eq_dec ascii_dec (pr_name x) (pr_name r)) as [N|N]; [left; exists p; rewrite N, <- Np; apply aget_put_same|right; apply Pend; now split; [|left]]. }
    destruct (w_closed _ _ W) as [C1 C2]. split; [intros x Hx; apply Step, C1, Hx|]. intros n y x Hy Hx. destruct (list_eq_dec ascii_dec n (p_name p)) as [->|N].
    + rewrite aget_put_same in Hy. injection Hy as <-. destruct (list_eq_dec ascii_dec (pr_name x) (pr_name r)) as [N|N]; [left; exists p; rewrite N, <- Np; apply aget_put_same|]. destruct (aget (pr_name x) (ss_resolved s)) as [z|] eqn:Z; [left; exists z; apply Old, Z|].
      right. apply Pend. split; [exact N|right; now split].
    + rewrite aget_put_other in Hy by exact N. apply Step, (C2 n y x Hy Hx).
  - intros n x H. destruct (list_eq_dec ascii_dec n (p_name p)) as [->|N].
    + rewrite aget_put_same in H. injection H as <-. exists r. split; [symmetry; exact Np|]. split; [exact F|]. destruct (w_asked _ _ W r Hr) as [I|(m & z & Hm & Hz)]; [now left|right; exists m, z; split; [apply Old, Hm|exact Hz]].
    + rewrite aget_put_other in H by exact N. destruct (w_wanted _ _ W n x H) as (y & Y1 & Y2 & [Y3|(m & z & Hm & Hz)]); exists y; (split; [exact Y1|]); (split; [exact Y2|]); [now left|right; exists m, z; split; [apply Old, Hm|exact Hz]].
  - intros x Hx. apply Pend in Hx. destruct Hx as [_ [Hx|[Hx _]]].
    + destruct (w_asked _ _ W x Hx) as [I|(m & z & Hm & Hz)]; [now left|right; exists m, z; split; [apply Old, Hm|exact Hz]].
    + right. exists (p_name p), p. split; [apply aget_put_same|exact Hx].
  - rewrite (w_cost _ _ W), total_put; [reflexivity|]. rewrite Np. exact Ar.
Qed.
Lemma well_successors rs s l t : proper repo -> well rs s -> successors s = Some l -> In t l -> well rs t.
Proof. intros Pr W S H. destruct (successors_in _ _ _ S H) as (r & q & p & E & O & F & A & ->). eapply well_successor; eassumption. Qed.
Context (digest : list token -> N) (pick : list sstate -> option (sstate * list sstate)) (late : nat -> bool) (max_states : nat).
Definition picks : Prop := forall l, match pick l with Some (s, rest) => Permutation l (s :: rest) | None => l = [] end.
Notation run := (run repo pre digest pick late max_states).
(** a search from good states finds good states *)
Lemma picks_in l s rest : picks -> pick l = Some (s, rest) -> forall x, In x l <-> x = s \/ In x rest.
Proof. intros P E x. pose proof (P l) as K. rewrite E in K. split; intros H; [apply (Permutation_in x K) in H; destruct H; auto|apply (Permutation_in x (Permutation_sym K)); destruct H; [now left|now right]]. Qed.
Lemma run_found (Q : sstate -> Prop) : picks -> (forall s l t, Q s -> successors s = Some l -> In t l -> Q t) ->
  forall fuel i explored open closed s rest, (forall x, In x open -> Q x) -> run fuel i explored open closed = (Found s, rest) -> Q s /\ is_goal s = true.
Proof.
  intros P St. induction fuel as [|f IH]; intros i explored open closed s rest H R; cbn [Astar_model.run] in R; [discriminate|]. destruct (pick open) as [[x l]|] eqn:E; [|discriminate]. pose proof (picks_in _ _ _ P E) as In'.
  assert (Hx : Q x) by (apply H, In'; now left). assert (Hl : forall y, In y l -> Q y) by (intros y Hy; apply H, In'; now right).
  destruct (late i); [discriminate|]. destruct (Nat.leb max_states explored); [discriminate|]. destruct (in_closed digest closed x); [exact (IH _ _ _ _ _ _ Hl R)|]. destruct (is_goal x) eqn:G; [injection R as <- _; now split|].
  destruct (negb (is_valid x)); [exact (IH _ _ _ _ _ _ Hl R)|]. destruct (successors x) as [ss|] eqn:S; [|discriminate]. apply (IH _ _ _ _ _ _) with (2 := R). intros y Hy. apply in_app_iff in Hy. destruct Hy as [Hy|Hy]; [apply Hl, Hy|]. apply filter_In in Hy. apply (St x ss y Hx S), Hy.
Qed.
Lemma found_sound fuel rs s rest : picks -> proper repo -> search repo pre digest pick late max_states fuel rs ([], []) = (Found s, rest) ->
  NoDup (akeys (ss_resolved s)) /\ from_repo repo pre (ss_resolved s) /\ closed_for (names (ss_resolved s)) rs (ss_resolved s) /\ wanted rs (ss_resolved s).
Proof.
  intros P Pr H. unfold search in H. cbn in H. destruct (run_found (well rs) P (fun s l t W S I => well_successors rs s l t Pr W S I) _ _ _ _ _ _ _ (fun x (Hx : In x [initial_state rs]) => match Hx with or_introl e => eq_ind _ _ (well_initial rs) _ e | or_intror f => False_ind _ f end) H) as [W G].
  unfold is_goal in G. apply andb_true_iff in G. destruct G as [G _]. destruct (ss_pending s) as [|? ?] eqn:E; [|discriminate]. split; [apply (w_nodup _ _ W)|]. split; [intros n p K; apply (w_offered _ _ W n p K)|]. split; [|apply (w_wanted _ _ W)].
  destruct (w_closed _ _ W) as [C1 C2]. rewrite E in C1, C2. split; [intros r Hr; destruct (C1 r Hr) as [K|[]]; exact K|intros n p r Hp Hr; destruct (C2 n p r Hp Hr) as [K|[]]; exact K].
Qed.
Lemma uniform_solution rs sel : from_repo repo pre sel -> closed_for (names sel) rs sel -> wanted rs sel -> uniform repo rs -> solution repo pre rs sel.
Proof.
  intros F [C1 C2] W U. split; [exact F|].
  assert (K : forall r, relevant repo rs r -> names sel r -> meets sel r).
  { intros r Rr [p Hp]. exists p. split; [exact Hp|]. destruct (W _ _ Hp) as (r' & N' & F' & R'). apply (U r' r p); [|exact Rr|exact N'|rewrite N'; apply (F _ _ Hp)|exact F']. destruct R' as [R'|(m & q & Hm & Hq)]; [now left|right; exists m, q; split; [apply (F _ _ Hm)|exact Hq]]. }
  split; [intros r Hr; apply K; [now left|apply C1, Hr]|intros n p r Hp Hr; apply K; [right; exists n, p; split; [apply (F _ _ Hp)|exact Hr]|apply (C2 n p r Hp Hr)]].
Qed.

(** ** The search ends *)
Lemma pick_length l s rest : picks -> pick l = Some (s, rest) -> length l = S (length rest).
Proof. intros P E. pose proof (P l) as K. rewrite E in K. apply Permutation_length in K. exact K. Qed.
Lemma run_ends b : picks -> (forall n ps, repo n = Some ps -> (length ps <= b)%nat) -> forall fuel i explored open closed, (length open + (max_states - explored) * b < fuel)%nat -> fst (run fuel i explored open closed) <> FuelOut.
Proof.
  intros P B. induction fuel as [|f IH]; intros i explored open closed L; [destruct (Nat.nlt_0_r _ L)|]. cbn [Astar_model.run]. destruct (pick open) as [[s rest]|] eqn:E; [|discriminate]. pose proof (pick_length _ _ _ P E) as LE.
  destruct (late i); [discriminate|]. destruct (Nat.leb max_states explored) eqn:M; [discriminate|]. apply Nat.leb_gt in M.
  assert (D : max_states - explored = S (max_states - S explored)) by lia. assert (D2 : (max_states - explored) * b = b + (max_states - S explored) * b) by (rewrite D; reflexivity).
  destruct (in_closed digest closed s); [apply IH; lia|]. destruct (is_goal s); [discriminate|]. destruct (negb (is_valid s)); [apply IH; lia|]. destruct (successors s) as [l|] eqn:S; [|discriminate]. apply IH. rewrite app_length.
  assert (Ll : length l <= b).
  { unfold Astar_model.successors in S. destruct (ss_pending s) as [|r q]; [injection S as <-; cbn; lia|]. destruct (repo (pr_name r)) as [ps|] eqn:R; [|discriminate]. injection S as <-. rewrite map_length. pose proof (filter_le (tried pre r) ps). pose proof (B _ _ R). lia. }
  pose proof (filter_le (fun t => negb (in_closed digest (digest (key s) :: closed) t)) l). lia.
Qed.
End Search.

(** ** What is left costs something *)
Lemma cost_least p : (900 <= package_cost p)%nat.
Proof. unfold package_cost. destruct (p_version p) as [v|]; [|lia]. pose proof (N.le_min_r (first_number (split_on "."%char (v_str v))) 100). lia. Qed.
Lemma del_cons n k (v : package) m : adel n ((k, v) :: m) = if text_eqb n k then adel n m else (k, v) :: adel n m.
Proof. unfold adel. cbn [filter fst]. now destruct (text_eqb n k). Qed.
Lemma del_absent n (m : list (text * package)) : ~ In n (akeys m) -> adel n m = m.
Proof.
  induction m as [|[k v] m IH]; intros H; [reflexivity|]. cbn [akeys map fst In] in H. rewrite del_cons. destruct (text_eqb n k) eqn:E; [apply text_eqb_eq in E; destruct H; now left|]. f_equal. apply IH. intros K. apply H. now right.
Qed.
Lemma total_del n (p : package) m : NoDup (akeys m) -> aget n m = Some p -> total package_cost m = package_cost p + total package_cost (adel n m).
Proof.
  induction m as [|[k v] m IH]; cbn [aget akeys map fst]; [discriminate|]. intros D H. inversion D as [|? ? D1 D2]; subst. rewrite total_cons. destruct (text_eqb n k) eqn:E.
  - injection H as ->. apply text_eqb_eq in E. subst k. rewrite del_cons, text_eqb_refl, (del_absent n m D1). reflexivity.
  - rewrite del_cons, E, total_cons, (IH D2 H). lia.
Qed.
Lemma total_names ns : forall sel, NoDup ns -> NoDup (akeys sel) -> (forall n, In n ns -> exists p, aget n sel = Some p) -> (900 * length ns <= total package_cost sel)%nat.
Proof.
  induction ns as [|n ns IH]; intros sel D1 D2 H; [cbn; lia|]. inversion D1 as [|? ? N D]; subst. destruct (H n (or_introl eq_refl)) as [p Hp]. rewrite (total_del n p sel D2 Hp). pose proof (cost_least p).
  assert (K : (900 * length ns <= total package_cost (adel n sel))%nat). { apply IH; [exact D|apply nodup_del, D2|]. intros m Hm. rewrite aget_del_other; [apply H; now right|]. intros ->. contradiction. }
  cbn [length]. lia.
Qed.
Lemma total_part m : forall ns sel, NoDup ns -> NoDup (akeys m) -> NoDup (akeys sel) -> (forall n p, aget n m = Some p -> aget n sel = Some p) -> (forall n, In n ns -> aget n m = None) -> (forall n, In n ns -> exists p, aget n sel = Some p) ->
  (total package_cost m + 900 * length ns <= total package_cost sel)%nat.
Proof.
  induction m as [|[k v] m IH]; intros ns sel D1 D2 D3 H1 H2 H3; [cbn [total map list_sum fold_right]; apply (total_names ns sel D1 D3 H3)|]. cbn in D2. inversion D2 as [|? ? N D]; subst. assert (Hk : aget k sel = Some v) by (apply H1; cbn; now rewrite text_eqb_refl). rewrite (total_del k v sel D3 Hk). change (total package_cost ((k, v) :: m)) with (package_cost v + total package_cost m)%nat.
  assert (Nk : forall n, aget n ((k, v) :: m) = None -> n <> k). { intros n Hn ->. cbn in Hn. now rewrite text_eqb_refl in Hn. }
  assert (K : (total package_cost m + 900 * length ns <= total package_cost (adel k sel))%nat).
  { apply IH; [exact D1|exact D|apply nodup_del, D3| | |].
    - intros n p Hp. assert (n <> k) by (intros ->; apply N, aget_some; now exists p). rewrite aget_del_other by assumption. apply H1. cbn. destruct (text_eqb n k) eqn:E; [apply text_eqb_eq in E; contradiction|exact Hp].
    - intros n Hn. pose proof (H2 n Hn) as K. cbn in K. destruct (text_eqb n k); [discriminate|exact K].
    - intros n Hn. rewrite aget_del_other; [apply H3, Hn|apply Nk, H2, Hn]. }
  lia.
Qed.
(** the names that are still needed, once each *)
Definition names_left (s : sstate) : list text := nodup (list_eq_dec ascii_dec) (map pr_name (ss_pending s)).
Definition distinct_left (s : sstate) : nat := 900 * length (names_left s).
Lemma names_left_in s n : In n (names_left s) <-> exists r, pr_name r = n /\ In r (ss_pending s).
Proof. unfold names_left. rewrite nodup_In, in_map_iff. reflexivity. Qed.
Lemma left_least repo pre rs s sel : well repo pre rs s -> NoDup (akeys sel) -> (forall n p, aget n (ss_resolved s) = Some p -> aget n sel = Some p) -> (forall r, In r (ss_pending s) -> names sel r) -> (ss_cost s + distinct_left s <= total package_cost sel)%nat.
Proof.
  intros W D H1 H2. rewrite (w_cost _ _ _ _ W). apply total_part; [apply NoDup_nodup|apply (w_nodup _ _ _ _ W)|exact D|exact H1| |].
  - intros n Hn. apply names_left_in in Hn. destruct Hn as (r & <- & Hr). apply (w_apart _ _ _ _ W r Hr).
  - intros n Hn. apply names_left_in in Hn. destruct Hn as (r & <- & Hr). apply (H2 r Hr).
Qed.
(** one step and many steps of the search *)
Inductive reaches (repo : text -> option (list package)) (pre : bool) : sstate -> sstate -> Prop :=
| R_here s : reaches repo pre s s
| R_step s l t u : successors repo pre s = Some l -> In t l -> reaches repo pre t u -> reaches repo pre s u.
Lemma reaches_keeps repo pre rs s u : proper repo -> reaches repo pre s u -> well repo pre rs s -> well repo pre rs u /\ (forall n p, aget n (ss_resolved s) = Some p -> aget n (ss_resolved u) = Some p) /\ (forall r, In r (ss_pending s) -> names (ss_resolved u) r \/ In r (ss_pending u)).
Proof.
  intros Pr R. induction R as [s|s l t u S I R IH]; intros W; [split; [exact W|]; split; [auto|now right]|].
  pose proof (well_successors _ _ _ _ _ _ Pr W S I) as Wt. destruct (IH Wt) as (Wu & K1 & K2). destruct (successors_in _ _ _ _ _ S I) as (r & q & p & E & O & F & A & ->). pose proof (Pr _ _ O) as Np.
  split; [exact Wu|]. split.
  - intros n x Hx. apply K1. unfold successor. cbn [ss_resolved]. rewrite aget_put_other; [exact Hx|]. rewrite Np. intros ->. rewrite (w_apart _ _ _ _ W r) in Hx; [discriminate|rewrite E; now left].
  - intros x Hx. destruct (list_eq_dec ascii_dec (pr_name x) (pr_name r)) as [N|N].
    + left. exists p. apply K1. unfold successor. cbn [ss_resolved]. rewrite N, <- Np. apply aget_put_same.
    + apply K2. unfold successor. cbn [ss_pending]. apply filter_In. split; [apply in_app_iff; now left|]. now apply negb_true_iff, text_eqb_neq.
Qed.
Lemma path_least repo pre rs s u : proper repo -> reaches repo pre (initial_state rs) s -> reaches repo pre s u -> is_goal u = true -> (ss_cost s + distinct_left s <= ss_cost u)%nat.
Proof.
  intros Pr R1 R2 G. destruct (reaches_keeps _ _ rs _ _ Pr R1 (well_initial repo pre rs)) as (Ws & _). destruct (reaches_keeps _ _ rs _ _ Pr R2 Ws) as (Wu & K1 & K2). rewrite (w_cost _ _ _ _ Wu). eapply left_least; [exact Ws|apply (w_nodup _ _ _ _ Wu)|exact K1|].
  intros r Hr. destruct (K2 r Hr) as [N|I]; [exact N|]. unfold is_goal in G. apply andb_true_iff in G. destruct G as [G _]. destruct (ss_pending u); [destruct I|discriminate].
Qed.
(** the first of the least *)
Lemma least_spec f l : match least f l with Some (s, r) => Permutation l (s :: r) /\ forall t, In t l -> (f s <= f t)%nat | None => l = [] end.
Proof.
  induction l as [|x l IH]; cbn [least]; [reflexivity|]. destruct (least f l) as [[t q]|].
  - destruct IH as [P M]. destruct (Nat.leb (f x) (f t)) eqn:E.
    + apply Nat.leb_le in E. split; [reflexivity|]. intros y [<-|Hy]; [lia|]. pose proof (M y Hy). lia.
    + apply Nat.leb_gt in E. split; [rewrite P; apply perm_swap|]. intros y [<-|Hy]; [lia|apply M, Hy].
  - subst l. split; [reflexivity|]. intros y [<-|[]]. lia.
Qed.
Lemma least_picks f : picks (least f).
Proof. intros l. pose proof (least_spec f l) as H. destruct (least f l) as [[s r]|]; [apply H|exact H]. Qed.
Lemma closed_bound repo pre digest pick late max_states : forall fuel i explored open closed, (length (snd (snd (run repo pre digest pick late max_states fuel i explored open closed))) <= length closed + (max_states - explored))%nat.
Proof.
  induction fuel as [|f IH]; intros i explored open closed; cbn [run]; [cbn; lia|]. destruct (pick open) as [[s rest]|]; [|cbn; lia]. destruct (late i); [cbn; lia|]. destruct (Nat.leb max_states explored) eqn:M; [cbn; lia|]. apply Nat.leb_gt in M. destruct (in_closed digest closed s); [apply IH|]. destruct (is_goal s); [cbn; lia|].
  destruct (negb (is_valid s)); [etransitivity; [apply IH|cbn [length]; lia]|]. destruct (successors repo pre s) as [l|]; [etransitivity; [apply IH|cbn [length]; lia]|cbn; lia].
Qed.

(** ** The checks for conflicts and the cost of a package *)
Lemma out_of_range_spec r p : out_of_range r p = true <-> ~ fits r p.
Proof.
  unfold out_of_range, fits. destruct (pr_spec r) as [t|]; [|split; [discriminate|intros H; exfalso; apply H; discriminate]].
  destruct (p_version p) as [v|]; [|split; [discriminate|intros H; exfalso; apply H; discriminate]].
  destruct (parse_range t) as [g|] eqn:E; [|split; [discriminate|intros H; exfalso; apply H; intros t' v' g' [= <-] _; congruence]].
  split.
  - intros H K. specialize (K t v g eq_refl eq_refl E). rewrite K in H. discriminate H.
  - intros H. destruct (contains g v) eqn:C; [|reflexivity]. exfalso. apply H. intros t' v' g' [= <-] [= <-] E'. congruence.
Qed.
Lemma version_conflicts_spec s n k : In (n, k) (version_conflicts s) <-> k = CVersion /\ exists r p, In r (ss_pending s) /\ pr_name r = n /\ aget n (ss_resolved s) = Some p /\ ~ fits r p.
Proof.
  unfold version_conflicts. rewrite in_flat_map. split.
  - intros (r & I & H). destruct (aget (pr_name r) (ss_resolved s)) as [p|] eqn:E; [|destruct H]. destruct (out_of_range r p) eqn:O; [|destruct H]. destruct H as [[= <- <-]|[]].
    split; [reflexivity|]. exists r, p. split; [exact I|]. split; [reflexivity|]. split; [exact E|]. apply out_of_range_spec, O.
  - intros (-> & r & p & I & <- & E & O). exists r. split; [exact I|]. rewrite E. apply out_of_range_spec in O. rewrite O. now left.
Qed.
Lemma before_dash_spec t : hd_error (split_on "-"%char t) = Some (before_dash t).
Proof. unfold before_dash. destruct t; cbn; [reflexivity|]. destruct (split_on "-"%char t); destruct (Ascii.eqb a "-"%char); reflexivity. Qed.
Lemma circular_conflicts_spec s n k : In (n, k) (circular_conflicts s) <-> k = CCircular /\ exists r p m d, In r (ss_pending s) /\ pr_name r = n /\ aget n (ss_resolved s) = Some p /\ dashed p m /\ aget m (ss_resolved s) = Some d /\ dashed d n.
Proof.
  unfold circular_conflicts, dashed. rewrite in_flat_map. split.
  - intros (r & I & H). destruct (aget (pr_name r) (ss_resolved s)) as [p|] eqn:E; [|destruct H]. apply in_flat_map in H. destruct H as (t & It & H).
    destruct (aget (before_dash t) (ss_resolved s)) as [d|] eqn:Ed; [|destruct H]. destruct (existsb _ (p_requires d)) eqn:X; [|destruct H]. destruct H as [[= <- <-]|[]].
    split; [reflexivity|]. apply existsb_exists in X. destruct X as (x & Ix & Ex). apply text_eqb_eq in Ex. exists r, p, (before_dash t), d. split; [exact I|]. split; [reflexivity|]. split; [exact E|].
    split; [exists t; split; [exact It|apply before_dash_spec]|]. split; [exact Ed|]. exists x. split; [exact Ix|]. rewrite before_dash_spec. congruence.
  - intros (-> & r & p & m & d & I & <- & E & (t & It & Et) & Ed & (x & Ix & Ex)). rewrite before_dash_spec in Et, Ex. injection Et as <-. injection Ex as Ex.
    exists r. split; [exact I|]. rewrite E. apply in_flat_map. exists t. split; [exact It|]. rewrite Ed.
    assert (X : existsb (fun x => text_eqb (before_dash x) (pr_name r)) (p_requires d) = true) by (apply existsb_exists; exists x; split; [exact Ix|apply text_eqb_eq, Ex]). rewrite X. now left.
Qed.
Lemma first_number_spec l : leads l (first_number l).
Proof.
  induction l as [|t l IH]; cbn [first_number]; [apply leads_none; intros t []|]. destruct (parse_u64 t) as [n|] eqn:E; [apply (leads_at [] t l n); [intros u []|exact E]|].
  inversion IH as [l' H|a u b n H Hu]; subst.
  - apply leads_none. intros u [<-|I]; [exact E|apply H, I].
  - apply (leads_at (t :: a) u b); [intros v [<-|I]; [exact E|apply H, I]|congruence].
Qed.
Lemma package_cost_spec p : exists n, match p_version p with Some v => leads (split_on "."%char (v_str v)) n | None => n = 0%N end /\ package_cost p + N.to_nat (N.min n 100) = 1000 + 100 * length (p_requires p).
Proof.
  unfold package_cost. destruct (p_version p) as [v|]; [|exists 0%N; split; [reflexivity|cbn; lia]]. exists (first_number (split_on "."%char (v_str v))). split; [apply first_number_spec|].
  assert (N.to_nat (N.min (first_number (split_on "."%char (v_str v))) 100) <= 100) by (rewrite N2Nat.inj_min; change (N.to_nat 100) with 100; lia). lia.
Qed.
