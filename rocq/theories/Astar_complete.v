(** The A* search finds a resolution where there is one, and a cheapest one if it is not misled. *)
From Verif Require Import Base Base_lemmas Maps Sorting Version_model Range_model Requirement_model Package_model Astar_model Astar_spec Astar_proofs.

(** ** States are told apart by what is hashed *)
Definition pairs (l : list (text * text)) : list token := flat_map (fun e => [TText (fst e); TText (snd e)]) l.
Lemma pairs_app A : forall A' R R', pairs A ++ map TText R = pairs A' ++ map TText R' ->
  (forall e r, In e A -> In r R' -> r <> snd e) -> (forall e r, In e A' -> In r R -> r <> snd e) -> A = A' /\ R = R'.
Proof.
  assert (Inj : forall a b : list text, map TText a = map TText b -> a = b).
  { induction a as [|x a IH]; intros [|y b] E; try discriminate; [reflexivity|]. cbn in E. injection E as -> E. f_equal. apply IH, E. }
  induction A as [|[n v] A IH]; intros [|[n' v'] A'] R R' E H H'.
  - split; [reflexivity|apply Inj, E].
  - cbn in E. destruct R as [|r1 [|r2 R]]; cbn in E; try discriminate. injection E as _ E2 _. exfalso. apply (H' (n', v') r2); [now left|right; now left|cbn; congruence].
  - cbn in E. destruct R' as [|r1 [|r2 R']]; cbn in E; try discriminate. injection E as _ E2 _. exfalso. apply (H (n, v) r2); [now left|right; now left|cbn; congruence].
  - cbn in E. injection E as -> -> E. destruct (IH A' R R' E) as [-> ->]; [intros e r He; apply H; now right|intros e r He; apply H'; now right|now split].
Qed.
Section Key.
Context (repo : text -> option (list package)) (pre : bool) (rs : list package_req).
Hypothesis Ve : versioned repo.
Hypothesis Le : legible repo rs.
Notation well := (well repo pre rs).
Definition ver (s : sstate) (n : text) : text := match aget n (ss_resolved s) with Some p => match p_version p with Some v => v_str v | None => [] end | None => [] end.
Definition rows (s : sstate) : list (text * text) := map (fun n => (n, ver s n)) (sort_by text_cmp (akeys (ss_resolved s))).
Lemma key_rows s : well s -> key s = pairs (rows s) ++ map TText (sort_by text_cmp (map show_package_req (ss_pending s))).
Proof.
  intros W. unfold key. rewrite (w_clean _ _ _ _ W). cbn [flat_map]. rewrite app_nil_r. f_equal. unfold rows, pairs. rewrite flat_map_concat_map, flat_map_concat_map, map_map. f_equal. apply map_ext_in. intros n Hn. apply (proj1 (sort_in _ _ _)) in Hn. apply (proj2 (aget_some _ _)) in Hn. destruct Hn as [p Hp]. cbn [fst snd]. unfold ver. rewrite Hp.
  destruct (Ve n p (proj1 (w_offered _ _ _ _ W n p Hp))) as (v & -> & _). reflexivity.
Qed.
Lemma rows_ver s e : well s -> In e (rows s) -> exists p v, offered repo (fst e) p /\ p_version p = Some v /\ snd e = v_str v /\ aget (fst e) (ss_resolved s) = Some p.
Proof.
  intros W H. unfold rows in H. apply in_map_iff in H. destruct H as (n & <- & Hn). apply (proj1 (sort_in _ _ _)) in Hn. apply (proj2 (aget_some _ _)) in Hn. destruct Hn as [p Hp]. destruct (Ve n p (proj1 (w_offered _ _ _ _ W n p Hp))) as (v & Hv & _). exists p, v. cbn [fst snd]. split; [apply (w_offered _ _ _ _ W n p Hp)|]. split; [exact Hv|]. split; [|exact Hp]. unfold ver. now rewrite Hp, Hv.
Qed.
Lemma shown_in s r : In r (sort_by text_cmp (map show_package_req (ss_pending s))) <-> exists q, show_package_req q = r /\ In q (ss_pending s).
Proof. rewrite sort_in, in_map_iff. reflexivity. Qed.
Lemma key_half s t : well s -> well t -> key s = key t -> (forall n p, aget n (ss_resolved s) = Some p -> aget n (ss_resolved t) = Some p) /\ (forall r, In r (ss_pending s) -> In r (ss_pending t)) /\ length (ss_resolved s) = length (ss_resolved t).
Proof.
  intros Ws Wt E. rewrite (key_rows s Ws), (key_rows t Wt) in E. apply pairs_app in E.
  - destruct E as [E1 E2]. split.
    + intros n p Hp. assert (I : In (n, ver s n) (rows s)) by (apply in_map_iff; exists n; split; [reflexivity|]; apply sort_in, aget_some; now exists p). pose proof (eq_ind _ (fun l => In (n, ver s n) l) I _ E1) as J. cbv beta in J. destruct (rows_ver t _ Wt J) as (q & v & O & V & Ev & Hq). destruct (rows_ver s _ Ws I) as (p' & v' & O' & V' & Ev' & Hp'). cbn [fst snd] in *. assert (p' = p) by congruence. subst p'. destruct (Ve n p O') as (v'' & V'' & U). rewrite Hq. f_equal. apply (U q v O V). congruence.
    + split.
      * intros r Hr. assert (I : In (show_package_req r) (sort_by text_cmp (map show_package_req (ss_pending s)))) by (apply shown_in; now exists r). rewrite E2 in I. apply shown_in in I. destruct I as (q & Eq & Hq). replace r with q; [exact Hq|]. apply (proj1 Le); [apply (w_relevant _ _ _ _ Wt q Hq)|apply (w_relevant _ _ _ _ Ws r Hr)|exact Eq].
      * assert (L : length (rows s) = length (rows t)) by (now rewrite E1). unfold rows in L. rewrite !map_length, !sort_length in L. unfold akeys in L. now rewrite !map_length in L.
  - intros e r He Hr. apply shown_in in Hr. destruct Hr as (q & <- & Hq). destruct (rows_ver s e Ws He) as (p & v & O & V & -> & _). apply (proj2 Le q (fst e) p v); [apply (w_relevant _ _ _ _ Wt q Hq)|exact O|exact V].
  - intros e r He Hr. apply shown_in in Hr. destruct Hr as (q & <- & Hq). destruct (rows_ver t e Wt He) as (p & v & O & V & -> & _). apply (proj2 Le q (fst e) p v); [apply (w_relevant _ _ _ _ Ws q Hq)|exact O|exact V].
Qed.
End Key.

(** ** A solution is never lost *)
Section Complete.
Context (repo : text -> option (list package)) (pre : bool) (digest : list token -> N) (pick : list sstate -> option (sstate * list sstate)) (late : nat -> bool) (max_states : nat) (rs : list package_req) (sel : list (text * package)).
Hypothesis Ve : versioned repo.
Hypothesis Le : legible repo rs.
Hypothesis Pr : proper repo.
Hypothesis Inj : forall a b, digest a = digest b -> a = b.
Hypothesis Pk : picks pick.
Hypothesis Sol : solution repo pre rs sel.
Notation well := (well repo pre rs).
Notation successors := (successors repo pre).
Notation run := (run repo pre digest pick late max_states).
Definition good (s : sstate) : Prop := well s /\ part_of (ss_resolved s) (ss_pending s) sel.
Definition size (s : sstate) : nat := length (ss_resolved s).
Lemma size_bound s : good s -> (size s <= length sel)%nat.
Proof.
  intros [W [P _]]. unfold size. replace (length (ss_resolved s)) with (length (akeys (ss_resolved s))) by apply map_length. replace (length sel) with (length (akeys sel)) by apply map_length. apply NoDup_incl_length; [apply (w_nodup _ _ _ _ W)|]. intros n Hn. apply aget_some in Hn. destruct Hn as [p Hp]. apply aget_some. exists p. apply P, Hp.
Qed.
Lemma good_initial : good (initial_state rs).
Proof. split; [apply well_initial|]. split; cbn; [intros n p H; discriminate|]. apply Sol. Qed.
Lemma good_key s t : good s -> well t -> key s = key t -> good t /\ size s = size t.
Proof.
  intros [W [P1 P2]] Wt E. destruct (key_half repo pre rs Ve Le t s Wt W (eq_sym E)) as (K1 & K2 & K3). split; [|symmetry; exact K3]. split; [exact Wt|]. split; [intros n p H; apply P1, K1, H|intros r H; apply P2, K2, H].
Qed.
Lemma length_put n (p : package) m : aget n m = None -> length (aput n p m) = S (length m).
Proof. induction m as [|[k v] m IH]; cbn; [reflexivity|]. intros H. destruct (text_eqb n k) eqn:E; [discriminate|]. cbn. f_equal. apply IH, H. Qed.
Lemma good_step s l : good s -> is_goal s = false -> successors s = Some l -> exists t, good t /\ In t l /\ size t = S (size s).
Proof.
  intros [W [P1 P2]] G S. unfold Astar_model.successors in S. unfold is_goal in G. rewrite (w_clean _ _ _ _ W), andb_true_r in G. destruct (ss_pending s) as [|r q] eqn:E; [discriminate|].
  destruct (P2 r (or_introl eq_refl)) as (p & Hp & Fp). destruct Sol as [F [C1 C2]]. destruct (F _ _ Hp) as [O A]. pose proof O as (ps & R & I). rewrite R in S. injection S as <-. pose proof (Pr _ _ O) as Np.
  exists (successor s r p). split; [split|split].
  - eapply well_successor; eassumption.
  - split.
    + intros n x. unfold successor. cbn [ss_resolved]. destruct (list_eq_dec ascii_dec n (p_name p)) as [->|N]; [rewrite aget_put_same, Np; intros [= <-]; exact Hp|rewrite aget_put_other by exact N; apply P1].
    + intros x Hx. unfold successor in Hx. cbn [ss_pending] in Hx. apply filter_In in Hx. destruct Hx as [Hx _]. rewrite in_app_iff, E in Hx. destruct Hx as [Hx|Hx]; [apply P2, Hx|]. apply new_requirements_in in Hx. apply (C2 _ p x Hp), Hx.
  - apply in_map, filter_In. split; [exact I|]. apply tried_spec. now split.
  - unfold size, successor. cbn [ss_resolved]. apply length_put. rewrite Np. apply (w_apart _ _ _ _ W). rewrite E. now left.
Qed.
(** the state is open or done *)
Definition seen (open : list sstate) (closed : list N) (t : sstate) : Prop := In t open \/ In (digest (key t)) closed.
Definition inv (open : list sstate) (closed : list N) : Prop :=
  (forall s, In s open -> well s) /\ (exists t, good t /\ seen open closed t) /\
  (forall u, good u -> In (digest (key u)) closed -> exists t, good t /\ size t = S (size u) /\ seen open closed t).
Lemma inv_open open closed : inv open closed -> exists t, good t /\ In t open.
Proof.
  intros (_ & (t0 & G0 & S0) & H). remember (length sel - size t0) as k eqn:Ek. revert t0 G0 S0 Ek. induction k as [|k IH]; intros t0 G0 [S0|S0] Ek; try (exists t0; split; assumption); destruct (H t0 G0 S0) as (t & G & Z & St); pose proof (size_bound t G) as B.
  - lia.
  - apply (IH t G St). lia.
Qed.
Lemma in_closed_spec closed s : in_closed digest closed s = true <-> In (digest (key s)) closed.
Proof. unfold in_closed. rewrite existsb_exists. split; [intros (d & I & E); apply N.eqb_eq in E; now subst d|intros I; exists (digest (key s)); split; [exact I|apply N.eqb_refl]]. Qed.
Lemma inv_skip open closed s rest : inv open closed -> pick open = Some (s, rest) -> In (digest (key s)) closed -> inv rest closed.
Proof.
  intros (H1 & (t0 & G0 & S0) & H3) E C. pose proof (picks_in pick _ _ _ Pk E) as J.
  assert (K : forall t, seen open closed t -> seen rest closed t) by (intros t [I|I]; [apply J in I; destruct I as [->|I]; [now right|now left]|now right]).
  split; [intros x Hx; apply H1, J; now right|]. split; [exists t0; split; [exact G0|apply K, S0]|]. intros u G U. destruct (H3 u G U) as (t & Gt & Z & St). exists t. split; [exact Gt|]. split; [exact Z|apply K, St].
Qed.
Lemma inv_step open closed s rest l : inv open closed -> pick open = Some (s, rest) -> is_goal s = false -> successors s = Some l ->
  inv (rest ++ filter (fun t => negb (in_closed digest (digest (key s) :: closed) t)) l) (digest (key s) :: closed).
Proof.
  intros (H1 & (t0 & G0 & S0) & H3) E NG Sl. pose proof (picks_in pick _ _ _ Pk E) as J. set (closed' := digest (key s) :: closed). set (open' := rest ++ filter (fun t => negb (in_closed digest closed' t)) l). assert (Ws : well s) by (apply H1, J; now left).
  assert (K : forall t, seen open closed t -> seen open' closed' t) by (intros t [I|I]; [apply J in I; destruct I as [->|I]; [right; now left|left; apply in_app_iff; now left]|right; now right]).
  split; [|split].
  - intros x Hx. apply in_app_iff in Hx. destruct Hx as [Hx|Hx]; [apply H1, J; now right|]. apply filter_In in Hx. eapply well_successors; [exact Pr|exact Ws|exact Sl|apply Hx].
  - exists t0. split; [exact G0|apply K, S0].
  - intros u G [U|U].
    + apply Inj in U. destruct (good_key u s G Ws (eq_sym U)) as [Gs Z]. destruct (good_step s l Gs NG Sl) as (t & Gt & It & Zt). exists t. split; [exact Gt|]. split; [now rewrite Z|]. destruct (in_closed digest closed' t) eqn:C; [right; now apply in_closed_spec|left; apply in_app_iff; right; apply filter_In; split; [exact It|now rewrite C]].
    + destruct (H3 u G U) as (t & Gt & Z & St). exists t. split; [exact Gt|]. split; [exact Z|apply K, St].
Qed.
Lemma inv_invalid open closed s rest : inv open closed -> pick open = Some (s, rest) -> is_valid s = true.
Proof. intros (H1 & _) E. assert (W : well s) by (apply H1, (picks_in pick _ _ _ Pk E); now left). unfold is_valid. now rewrite (w_clean _ _ _ _ W). Qed.
Lemma run_complete : forall fuel i explored open closed, inv open closed -> fst (run fuel i explored open closed) <> NoSolution.
Proof.
  induction fuel as [|f IH]; intros i explored open closed H; cbn [Astar_model.run]; [discriminate|]. destruct (pick open) as [[s rest]|] eqn:E.
  - destruct (late i); [discriminate|]. destruct (Nat.leb max_states explored); [discriminate|]. destruct (in_closed digest closed s) eqn:C; [apply IH; eapply inv_skip; [exact H|exact E|now apply in_closed_spec]|]. destruct (is_goal s) eqn:G; [discriminate|]. rewrite (inv_invalid _ _ _ _ H E). cbn [negb]. destruct (successors s) as [l|] eqn:S; [|discriminate]. apply IH. now apply (inv_step open closed s rest l).
  - intros _. destruct (inv_open _ _ H) as (t & _ & I). pose proof (Pk open) as K. rewrite E in K. rewrite K in I. destruct I.
Qed.
Lemma inv_initial : inv [initial_state rs] [].
Proof.
  split; [intros s [<-|[]]; apply well_initial|]. split; [exists (initial_state rs); split; [apply good_initial|left; now left]|intros u _ []].
Qed.
Lemma search_complete fuel : fst (search repo pre digest pick late max_states fuel rs ([], [])) <> NoSolution.
Proof. apply run_complete, inv_initial. Qed.

(** ** A cheapest one *)
Context (h : sstate -> nat).
Hypothesis Least : forall l s rest, pick l = Some (s, rest) -> forall t, In t l -> (ss_cost s + h s <= ss_cost t + h t)%nat.
Hypothesis Adm : forall u, good u -> (ss_cost u + h u <= total package_cost sel)%nat.
Lemma run_cheap : forall fuel i explored open closed s rest, inv open closed -> run fuel i explored open closed = (Found s, rest) -> (ss_cost s <= total package_cost sel)%nat.
Proof.
  induction fuel as [|f IH]; intros i explored open closed s0 rest0 H R; cbn [Astar_model.run] in R; [discriminate|]. destruct (pick open) as [[s rest]|] eqn:E; [|discriminate].
  destruct (late i); [discriminate|]. destruct (Nat.leb max_states explored); [discriminate|]. destruct (in_closed digest closed s) eqn:C; [eapply IH; [eapply inv_skip; [exact H|exact E|now apply in_closed_spec]|exact R]|].
  destruct (is_goal s) eqn:G.
  - injection R as <- _. destruct (inv_open _ _ H) as (t & Gt & It). pose proof (Least _ _ _ E t It). pose proof (Adm t Gt). lia.
  - rewrite (inv_invalid _ _ _ _ H E) in R. cbn [negb] in R. destruct (successors s) as [l|] eqn:S; [|discriminate]. eapply IH; [|exact R]. now apply (inv_step open closed s rest l).
Qed.
Lemma search_cheap fuel s rest : search repo pre digest pick late max_states fuel rs ([], []) = (Found s, rest) -> (ss_cost s <= total package_cost sel)%nat.
Proof. apply run_cheap, inv_initial. Qed.
End Complete.
