(** C117-C122: the A* search for a resolution. *)
From Verif Require Import Base Base_lemmas Maps Sorting Version_model Version_spec Version_order Range_model Requirement_model Package_model P_Version Range_spec P_Range Order_spec Order_proofs P_Order Astar_model Astar_spec Astar_proofs Astar_complete.
Open Scope string_scope. Open Scope list_scope.

(** ** A hash without collisions *)
Fixpoint weigh (l : list N) : N := match l with [] => 0 | d :: l => d + 300 * weigh l end%N.
Definition spell_token (t : token) : list N := match t with TText t => map (fun c => N_of_ascii c + 1)%N t ++ [257%N] | TKind CVersion => [258%N] | TKind CCircular => [259%N] end.
Definition spell (l : list token) : N := weigh (flat_map spell_token l).
Lemma weigh_inj a : forall b, Forall (fun d => 0 < d < 300)%N a -> Forall (fun d => 0 < d < 300)%N b -> weigh a = weigh b -> a = b.
Proof.
  induction a as [|x a IH]; intros [|y b] A B E; cbn in E; [reflexivity|inversion B; subst; lia|inversion A; subst; lia|]. inversion A as [|? ? A1 A2]; subst. inversion B as [|? ? B1 B2]; subst. assert (x = y /\ weigh a = weigh b) as [-> E2].
  { split; [|]; [replace x with ((x + 300 * weigh a) mod 300)%N; [replace y with ((y + 300 * weigh b) mod 300)%N; [now rewrite E|]|]; rewrite N.mul_comm, N.mod_add by lia; apply N.mod_small; lia|]. replace (weigh a) with ((x + 300 * weigh a) / 300)%N; [replace (weigh b) with ((y + 300 * weigh b) / 300)%N; [now rewrite E|]|]; rewrite N.mul_comm, N.div_add by lia; rewrite N.div_small by lia; reflexivity. }
  f_equal. now apply IH.
Qed.
Lemma byte_bound c : (N_of_ascii c < 256)%N.
Proof. apply N_ascii_bounded. Qed.
Lemma spell_digits l : Forall (fun d => 0 < d < 300)%N (flat_map spell_token l).
Proof.
  apply Forall_forall. intros d H. apply in_flat_map in H. destruct H as ([t|[]] & _ & H); cbn in H; [|destruct H as [<-|[]]; lia|destruct H as [<-|[]]; lia]. apply in_app_iff in H. destruct H as [H|[<-|[]]]; [|lia]. apply in_map_iff in H. destruct H as (c & <- & _). pose proof (byte_bound c). lia.
Qed.
Lemma spell_inj a b : spell a = spell b -> a = b.
Proof.
  intros E. apply weigh_inj in E; try apply spell_digits. revert b E. induction a as [|x a IH]; intros [|y b] E; [reflexivity|destruct y as [[|]|[]]; discriminate|destruct x as [[|]|[]]; discriminate|].
  assert (T2 : forall s t (ra rb : list N), map (fun c => N_of_ascii c + 1)%N s ++ 257%N :: ra = map (fun c => N_of_ascii c + 1)%N t ++ 257%N :: rb -> s = t /\ ra = rb).
  { induction s as [|c s IHs]; intros [|d t] ra rb Q; pose proof (f_equal (hd 0%N) Q) as Q1; pose proof (f_equal (@tl N) Q) as Q2; cbn [hd tl map app] in Q1, Q2; [split; [reflexivity|exact Q2]|pose proof (byte_bound d); lia|pose proof (byte_bound c); lia|]. destruct (IHs _ _ _ Q2) as [-> ->]. split; [|reflexivity]. f_equal. rewrite <- (ascii_N_embedding c), <- (ascii_N_embedding d). f_equal. lia. }
  cbn [flat_map spell_token] in E. destruct x as [s|k], y as [t|k']; cbn [spell_token] in E.
  - rewrite <- !app_assoc in E. cbn [app] in E. destruct (T2 _ _ _ _ E) as [-> E2]. f_equal. apply IH, E2.
  - rewrite <- !app_assoc in E. exfalso. destruct s as [|c s], k'; pose proof (f_equal (hd 0%N) E) as E1; cbn [hd map app] in E1; try discriminate; pose proof (byte_bound c); lia.
  - rewrite <- !app_assoc in E. exfalso. destruct t as [|c t], k; pose proof (f_equal (hd 0%N) E) as E1; cbn [hd map app] in E1; try discriminate; pose proof (byte_bound c); lia.
  - destruct k, k'; cbn [app] in E; try discriminate; f_equal; apply IH; now injection E.
Qed.

(** ** Some repositories *)
(** a package with requirements *)
Definition pkr (n v : string) (rs : list string) : package := mkPackage (T n) (Some (V v)) (map T rs) [] None [] 0.
Definition shelf (l : list package) (n : text) : option (list package) := Some (filter (fun p => text_eqb (p_name p) n) l).
Definition rq (s : string) : package_req := match parse_package_req (T s) with Some r => r | None => mkPkgReq [] None false false end.
Lemma shelf_offered l n p : offered (shelf l) n p <-> In p l /\ p_name p = n.
Proof. unfold offered, shelf. split; [intros (ps & [= <-] & H); apply filter_In in H; destruct H as [H E]; split; [exact H|now apply text_eqb_eq]|intros [H <-]; eexists; split; [reflexivity|]; apply filter_In; split; [exact H|apply text_eqb_refl]]. Qed.
Lemma shelf_proper l : proper (shelf l).
Proof. intros n p H. now apply shelf_offered in H. Qed.
Lemma shelf_length l n ps : shelf l n = Some ps -> length ps <= length l.
Proof. intros H. injection H as H. subst ps. apply filter_le. Qed.
(** the search with a heuristic, no end of time and room for a thousand states *)
Definition astar (h : sstate -> nat) (l : list package) (rs : list package_req) : outcome := fst (search (shelf l) true spell (least (fun s => ss_cost s + h s)) (fun _ => false) 1000 2000 rs ([], [])).
Definition none (s : sstate) : nat := 0.
Definition found (o : outcome) : list package := match o with Found s => map snd (ss_resolved s) | _ => [] end.
Definition state_of (o : outcome) : sstate := match o with Found s => s | _ => initial_state [] end.
Lemma found_in o n p : In (n, p) (ss_resolved (state_of o)) -> In p (found o).
Proof. destruct o; cbn [state_of found]; try (intros []). intros H. apply in_map_iff. exists (n, p). now split. Qed.

(** ** C117: what is found is a resolution *)
(** the requirement of b on a newer a is dropped because a is already chosen *)
Definition late_need : list package := [pkr "a" "1" []; pkr "b" "1" ["a>=2"]].
Theorem C117_refuted : ~ (forall repo pre digest pick late max_states fuel rs s rest, picks pick -> proper repo -> search repo pre digest pick late max_states fuel rs ([], []) = (Found s, rest) -> solution repo pre rs (ss_resolved s)).
Proof.
  intros H. pose (o := search (shelf late_need) true spell (least (fun s => ss_cost s + none s)) (fun _ => false) 1000 2000 [rq "a"; rq "b"] ([], [])).
  destruct (H (shelf late_need) true spell (least (fun s => ss_cost s + none s)) (fun _ => false) 1000 2000 [rq "a"; rq "b"] (state_of (fst o)) (snd o) (least_picks _) (shelf_proper _) ltac:(vm_compute; reflexivity)) as [_ [_ K]].
  destruct (K (T "b") (pkr "b" "1" ["a>=2"]) (rq "a>=2") ltac:(vm_compute; reflexivity) ltac:(exists (T "a>=2"); split; [now left|vm_compute; reflexivity])) as (p & G & F). vm_compute in G. injection G as <-. pose proof (F (T ">=2") (V "1") (match parse_range (T ">=2") with Some g => g | None => mkRange [] [] true [] end) ltac:(vm_compute; reflexivity) ltac:(vm_compute; reflexivity) ltac:(vm_compute; reflexivity)) as Z. vm_compute in Z. discriminate Z.
Qed.
Print Assumptions C117_refuted.
(** of two requirements on a package the first decides *)
Theorem C117_second_refuted : found (astar none [pkr "a" "3" []; pkr "a" "1" []] [rq "a>=2"; rq "a<2"]) = [pkr "a" "3" []].
Proof. vm_compute. reflexivity. Qed.
Print Assumptions C117_second_refuted.
(** a conflict and a weak requirement are met by choosing the package *)
Theorem C117_conflict_refuted : pr_conflict (rq "!a") = true /\ found (astar none [pkr "a" "1" []] [rq "!a"]) = [pkr "a" "1" []].
Proof. split; vm_compute; reflexivity. Qed.
Print Assumptions C117_conflict_refuted.
Theorem C117_weak_refuted : pr_weak (rq "~a") = true /\ found (astar none [pkr "a" "1" []] [rq "~a"]) = [pkr "a" "1" []] /\ astar none [] [rq "~a"] = NoSolution.
Proof. repeat split; vm_compute; reflexivity. Qed.
Print Assumptions C117_weak_refuted.
(** whatever the heuristic, the clock and the hash: all chosen packages are offered and allowed, there is one for each name that is asked for by the caller or by a chosen package,
    and each was asked for by a requirement that accepts it *)
Theorem C117_found_partial : forall repo pre digest pick late max_states fuel rs s rest, picks pick -> proper repo -> search repo pre digest pick late max_states fuel rs ([], []) = (Found s, rest) ->
  NoDup (akeys (ss_resolved s)) /\ from_repo repo pre (ss_resolved s) /\ closed_for (names (ss_resolved s)) rs (ss_resolved s) /\ wanted rs (ss_resolved s).
Proof. intros. eapply found_sound; eassumption. Qed.
Print Assumptions C117_found_partial.
(** it is a resolution if the requirements on a name agree *)
Theorem C117_uniform_partial : forall repo pre digest pick late max_states fuel rs s rest, picks pick -> proper repo -> uniform repo rs -> search repo pre digest pick late max_states fuel rs ([], []) = (Found s, rest) ->
  solution repo pre rs (ss_resolved s).
Proof. intros repo pre digest pick late max_states fuel rs s rest P Pr U H. destruct (found_sound _ _ _ _ _ _ _ _ _ _ P Pr H) as (_ & F & C & W). now apply uniform_solution. Qed.
Print Assumptions C117_uniform_partial.
(** the conflicts that the search looks for never come up *)
Theorem C117_clean_partial : forall repo pre rs s, proper repo -> reaches repo pre (initial_state rs) s -> ss_conflicts s = [] /\ forall r, In r (ss_pending s) -> aget (pr_name r) (ss_resolved s) = None.
Proof. intros repo pre rs s Pr R. destruct (reaches_keeps _ _ rs _ _ Pr R (well_initial repo pre rs)) as (W & _). split; [apply (w_clean _ _ _ _ W)|apply (w_apart _ _ _ _ W)]. Qed.
Print Assumptions C117_clean_partial.
(** what the checks find in any state, also in those no search comes to *)
Theorem C117_version_conflicts : forall s n k, In (n, k) (version_conflicts s) <-> k = CVersion /\ exists r p, In r (ss_pending s) /\ pr_name r = n /\ aget n (ss_resolved s) = Some p /\ ~ fits r p.
Proof. exact version_conflicts_spec. Qed.
Print Assumptions C117_version_conflicts.
Theorem C117_circular_conflicts : forall s n k, In (n, k) (circular_conflicts s) <-> k = CCircular /\ exists r p m d, In r (ss_pending s) /\ pr_name r = n /\ aget n (ss_resolved s) = Some p /\ dashed p m /\ aget m (ss_resolved s) = Some d /\ dashed d n.
Proof. exact circular_conflicts_spec. Qed.
Print Assumptions C117_circular_conflicts.
Example C117_conflicts_example : let s := mkSstate [(T "a", pkr "a" "1" ["b"]); (T "b", pkr "b" "1" ["a-1"])] [rq "a>=2"; rq "b"] [] 0 in
  version_conflicts s = [(T "a", CVersion)] /\ circular_conflicts s = [(T "a", CCircular); (T "b", CCircular)].
Proof. split; vm_compute; reflexivity. Qed.
Definition tools : list package := [pkr "maya" "2024" ["python>=3"]; pkr "maya" "2023" ["python<3"]; pkr "python" "2.7" []; pkr "python" "3.9" []; pkr "app" "1" ["maya"; "python"]].
Example C117_example : found (astar none tools [rq "app"]) = [pkr "app" "1" ["maya"; "python"]; pkr "maya" "2024" ["python>=3"]; pkr "python" "3.9" []].
Proof. vm_compute. reflexivity. Qed.
(** requirements without versions agree *)
Lemma bare_uniform l rs : (forall r, relevant (shelf l) rs r -> pr_spec r = None) -> uniform (shelf l) rs.
Proof. intros H r r' p _ R' _ _ _ t v g E. rewrite (H r' R') in E. discriminate. Qed.
Example C117_uniform_example : uniform (shelf [pkr "a" "1" ["b"]; pkr "b" "2" []]) [rq "a"] /\ found (astar none [pkr "a" "1" ["b"]; pkr "b" "2" []] [rq "a"]) = [pkr "a" "1" ["b"]; pkr "b" "2" []].
Proof.
  split; [|vm_compute; reflexivity]. apply bare_uniform. intros r [[<-|[]]|(n & p & O & (t & It & Et))]; [reflexivity|]. apply shelf_offered in O. destruct O as [[<-|[<-|[]]] _]; [|destruct It]. destruct It as [<-|[]]. vm_compute in Et. injection Et as <-. reflexivity.
Qed.

(** ** C118: what can be resolved is resolved *)
(** a package without version looks like the requirement on it: whatever the hash and the order, the search ends without a resolution *)
Lemma pick_one pick s : picks pick -> pick [s] = Some (s, []).
Proof. intros P. pose proof (P [s]) as H. destruct (pick [s]) as [[t r]|]; [|discriminate]. apply Permutation_length_1_inv in H. now injection H as -> ->. Qed.
Lemma pick_none pick : picks pick -> pick [] = None.
Proof. intros P. pose proof (P []) as H. destruct (pick []) as [[t r]|]; [|reflexivity]. now apply Permutation_nil in H. Qed.
Theorem C118_versionless_refuted : forall digest pick, picks pick ->
  solution (shelf [pk0 "a"]) true [rq "a"] [(T "a", pk0 "a")] /\ fst (search (shelf [pk0 "a"]) true digest pick (fun _ => false) 1000 2000 [rq "a"] ([], [])) = NoSolution.
Proof.
  intros digest pick P. split.
  - split.
    + intros n p H. unfold aget in H. destruct (text_eqb n (T "a")) eqn:E; [|discriminate]. injection H as <-. apply text_eqb_eq in E. subst n. split; [apply shelf_offered; split; [now left|reflexivity]|now left].
    + split; [intros r [<-|[]]; exists (pk0 "a"); split; [vm_compute; reflexivity|intros t v g E; vm_compute in E; discriminate E]|]. intros n p r H (t & It & _). unfold aget in H. destruct (text_eqb n (T "a")); [injection H as <-; destruct It|discriminate].
  - unfold search. change (fst ([], []) ++ [initial_state [rq "a"]]) with [initial_state [rq "a"]]. change (snd (@nil sstate, @nil N)) with (@nil N). change 2000 with (S (S 1998)). generalize 1998. intros f. cbn [run]. rewrite (pick_one pick _ P). replace (Nat.leb 1000 0) with false by reflexivity. change (in_closed digest [] (initial_state [rq "a"])) with false. cbv iota.
    replace (is_goal (initial_state [rq "a"])) with false by (vm_compute; reflexivity). replace (is_valid (initial_state [rq "a"])) with true by (vm_compute; reflexivity). cbn [negb].
    replace (successors (shelf [pk0 "a"]) true (initial_state [rq "a"])) with (Some [successor (initial_state [rq "a"]) (rq "a") (pk0 "a")]) by (vm_compute; reflexivity). cbn [filter]. unfold in_closed at 1. cbn [existsb].
    replace (key (successor (initial_state [rq "a"]) (rq "a") (pk0 "a"))) with (key (initial_state [rq "a"])) by (vm_compute; reflexivity). rewrite N.eqb_refl. cbn [negb orb app]. rewrite (pick_none pick P). reflexivity.
Qed.
Print Assumptions C118_versionless_refuted.
(** the second search with the same object finds nothing, as it skips all that the first has seen *)
Theorem C118_again_refuted : exists s rest, search (shelf [pkr "a" "1" []]) true spell (least ss_cost) (fun _ => false) 1000 2000 [rq "a"] ([], []) = (Found s, rest) /\
  fst (search (shelf [pkr "a" "1" []]) true spell (least ss_cost) (fun _ => false) 1000 2000 [rq "a"] rest) = NoSolution.
Proof.
  pose (o := search (shelf [pkr "a" "1" []]) true spell (least ss_cost) (fun _ => false) 1000 2000 [rq "a"] ([], [])). exists (state_of (fst o)), (snd o). split; vm_compute; reflexivity.
Qed.
Print Assumptions C118_again_refuted.
(** if all packages have versions, requirements and states are told apart by what is hashed, and there is a resolution, then a new search does not answer that there is none, whatever the heuristic and the clock *)
Theorem C118_complete_partial : forall repo pre digest pick late max_states fuel rs sel, versioned repo -> legible repo rs -> proper repo -> (forall a b, digest a = digest b -> a = b) -> picks pick ->
  solution repo pre rs sel -> fst (search repo pre digest pick late max_states fuel rs ([], [])) <> NoSolution.
Proof. intros. eapply search_complete; eassumption. Qed.
Print Assumptions C118_complete_partial.
Definition tools_sel : list (text * package) := [(T "app", pkr "app" "1" ["maya"; "python"]); (T "maya", pkr "maya" "2023" ["python<3"]); (T "python", pkr "python" "2.7" [])].
Lemma tools_relevant r : relevant (shelf tools) [rq "app"] r -> In r [rq "app"; rq "maya"; rq "python"; rq "python>=3"; rq "python<3"].
Proof.
  intros [[<-|[]]|(n & p & O & (t & It & Et))]; [now left|]. apply shelf_offered in O. destruct O as [O _]. cbn in O. decompose [or] O; try contradiction; subst p; cbn in It; decompose [or] It; try contradiction; subst t; vm_compute in Et; injection Et as <-; vm_compute; tauto.
Qed.
Lemma tools_versioned : versioned (shelf tools).
Proof.
  intros n p O. apply shelf_offered in O. destruct O as [O N]. cbn in O. decompose [or] O; try contradiction; subst p; (eexists; split; [reflexivity|]); intros p' v' O' V' E; apply shelf_offered in O'; destruct O' as [O' N']; cbn in O'; subst n; decompose [or] O'; try contradiction; subst p'; try reflexivity; exfalso; vm_compute in N'; try discriminate N'; vm_compute in V'; injection V' as <-; vm_compute in E; discriminate E.
Qed.
Lemma tools_legible : legible (shelf tools) [rq "app"].
Proof.
  split.
  - intros r r' R R' E. apply tools_relevant in R. apply tools_relevant in R'. cbn [In] in R, R'. decompose [or] R; try contradiction; decompose [or] R'; try contradiction; subst r r'; try reflexivity; exfalso; vm_compute in E; discriminate E.
  - intros r n p v R O V' E. apply tools_relevant in R. apply shelf_offered in O. destruct O as [O _]. cbn [In] in R. cbn in O. decompose [or] R; try contradiction; decompose [or] O; try contradiction; subst r p; vm_compute in V'; injection V' as <-; vm_compute in E; discriminate E.
Qed.
Lemma tools_solution : solution (shelf tools) true [rq "app"] tools_sel.
Proof.
  assert (C : forall n p, aget n tools_sel = Some p -> In (n, p) tools_sel) by (intros n p H; apply aget_in, H).
  assert (M : forall x, In x [rq "app"; rq "maya"; rq "python"; rq "python<3"] -> meets tools_sel x).
  { intros x H. cbn [In] in H. decompose [or] H; try contradiction; subst x; (eexists; split; [vm_compute; reflexivity|]); apply fits_in; vm_compute; reflexivity. }
  split; [|split].
  - intros n p H. apply C in H. split; [|now left]. cbn in H. decompose [or] H; try contradiction; match goal with E : _ = (n, p) |- _ => injection E as <- <- end; apply shelf_offered; (split; [cbn; tauto|reflexivity]).
  - intros r [<-|[]]. apply M. now left.
  - intros n p r H (t & It & Et). apply C in H. apply M. cbn in H. decompose [or] H; try contradiction; match goal with E : _ = (n, p) |- _ => injection E as <- <- end; cbn in It; decompose [or] It; try contradiction; subst t; vm_compute in Et; injection Et as <-; vm_compute; tauto.
Qed.
Example C118_example : versioned (shelf tools) /\ legible (shelf tools) [rq "app"] /\ proper (shelf tools) /\ (forall a b, spell a = spell b -> a = b) /\ solution (shelf tools) true [rq "app"] tools_sel.
Proof. split; [exact tools_versioned|]. split; [exact tools_legible|]. split; [apply shelf_proper|]. split; [exact spell_inj|exact tools_solution]. Qed.

(** ** C119: the search ends *)
(** whatever the heuristic, the clock and what earlier searches left, as long as no name has more than [b] packages *)
Theorem C119_ends : forall repo pre digest pick late max_states b fuel rs before, picks pick -> (forall n ps, repo n = Some ps -> length ps <= b) -> length (fst before) + 1 + max_states * b < fuel ->
  fst (search repo pre digest pick late max_states fuel rs before) <> FuelOut.
Proof. intros repo pre digest pick late max_states b fuel rs before P B L. apply (run_ends repo pre digest pick late max_states b P B). rewrite app_length, Nat.sub_0_r. exact L. Qed.
Print Assumptions C119_ends.
(** it looks at no more states than it may *)
Theorem C119_bounded : forall repo pre digest pick late max_states fuel rs before, length (snd (snd (search repo pre digest pick late max_states fuel rs before))) <= length (snd before) + max_states.
Proof. intros. pose proof (closed_bound repo pre digest pick late max_states fuel 0 0 (fst before ++ [initial_state rs]) (snd before)) as H. rewrite Nat.sub_0_r in H. exact H. Qed.
Print Assumptions C119_bounded.
(** a package that needs itself or one that needs it is no trouble *)
Example C119_example : (forall n ps, shelf tools n = Some ps -> length ps <= 5) /\ fst (search (shelf tools) true spell (least ss_cost) (fun _ => false) 2 20 [rq "app"] ([], [])) = StateLimit /\ fst (search (shelf tools) true spell (least ss_cost) (fun i => Nat.leb 1 i) 9 50 [rq "app"] ([], [])) = TimeLimit /\
  found (astar none [pkr "a" "1" ["a"; "b"]; pkr "b" "1" ["a"]] [rq "a"]) = [pkr "a" "1" ["a"; "b"]; pkr "b" "1" ["a"]].
Proof. split; [|repeat split; vm_compute; reflexivity]. exact (shelf_length tools). Qed.

(** ** C120: a heuristic that is declared admissible never overestimates *)
Definition admissible (h : sstate -> nat) : Prop := forall repo pre rs s u, proper repo -> reaches repo pre (initial_state rs) s -> reaches repo pre s u -> is_goal u = true -> ss_cost s + h s <= ss_cost u.
Lemma one_step l r q p : ss_pending q = r :: tl (ss_pending q) -> In p l -> p_name p = pr_name r -> tried true r p = true -> reaches (shelf l) true q (successor q r p).
Proof.
  intros E I N T'. eapply R_step; [|apply in_map, filter_In; split; [|exact T']|apply R_here]; [unfold successors; rewrite E; unfold shelf; reflexivity|]. apply filter_In. split; [exact I|]. apply text_eqb_eq, N.
Qed.
(** a requirement may be met for less than one, and requirements on one package are met at once *)
Theorem C120_remaining_refuted : ~ admissible remaining.
Proof.
  intros H. specialize (H (shelf [pkr "a" "2" []]) true [rq "a"; rq "a<3"] (initial_state [rq "a"; rq "a<3"]) (successor (initial_state [rq "a"; rq "a<3"]) (rq "a") (pkr "a" "2" [])) (shelf_proper _) (R_here _ _ _) (one_step [pkr "a" "2" []] (rq "a") (initial_state [rq "a"; rq "a<3"]) (pkr "a" "2" []) eq_refl (or_introl eq_refl) ltac:(vm_compute; reflexivity) ltac:(vm_compute; reflexivity)) ltac:(vm_compute; reflexivity)).
  apply Nat.leb_le in H. vm_compute in H. discriminate H.
Qed.
Print Assumptions C120_remaining_refuted.
(** the estimate of depth goes by parts of the name *)
Theorem C120_depth_refuted : ~ admissible depth_cost.
Proof.
  intros H. specialize (H (shelf [pkr "app" "1" []]) true [rq "app"] (initial_state [rq "app"]) (successor (initial_state [rq "app"]) (rq "app") (pkr "app" "1" [])) (shelf_proper _) (R_here _ _ _) (one_step [pkr "app" "1" []] (rq "app") (initial_state [rq "app"]) (pkr "app" "1" []) eq_refl (or_introl eq_refl) ltac:(vm_compute; reflexivity) ltac:(vm_compute; reflexivity)) ltac:(vm_compute; reflexivity)).
  apply Nat.leb_le in H. vm_compute in H. discriminate H.
Qed.
Print Assumptions C120_depth_refuted.
(** the preference for versions adds to finished states *)
Theorem C120_preference_refuted : ~ admissible preference.
Proof.
  intros H. pose (s := successor (initial_state [rq "a"]) (rq "a") (pkr "a" "1" [])). assert (R : reaches (shelf [pkr "a" "1" []]) true (initial_state [rq "a"]) s) by (exact (one_step [pkr "a" "1" []] (rq "a") (initial_state [rq "a"]) (pkr "a" "1" []) eq_refl (or_introl eq_refl) ltac:(vm_compute; reflexivity) ltac:(vm_compute; reflexivity))).
  specialize (H (shelf [pkr "a" "1" []]) true [rq "a"] s s (shelf_proper _) R (R_here _ _ _) ltac:(vm_compute; reflexivity)). apply Nat.leb_le in H. vm_compute in H. discriminate H.
Qed.
Print Assumptions C120_preference_refuted.
(** nine tenths for each different name that is still needed is never too much *)
Theorem C120_names_partial : admissible distinct_left.
Proof. intros repo pre rs s u Pr R1 R2 G. eapply path_least; eassumption. Qed.
Print Assumptions C120_names_partial.
Example C120_example : distinct_left (initial_state [rq "a"; rq "a<3"; rq "b"]) = 1800 /\ remaining (initial_state [rq "a"; rq "a<3"; rq "b"]) = 3000 /\ depth_cost (initial_state [rq "app"; rq "core"]) = 3000 /\ preference (state_of (astar none tools [rq "app"])) = 75 /\ preference (mkSstate [(T "a", mkPackage (T "a") None [] [] None [] 0%N); (T "b", mkPackage (T "b") None [] [] None [] 0%N)] [] [] 0) = 200.
Proof. repeat split; vm_compute; reflexivity. Qed.

(** ** C121: the cheapest resolution is found *)
(** with the estimate by the number of requirements a dearer resolution is found *)
Definition menu : list package := [pkr "a" "1" ["b>=1"; "b<9"; "b>=2"]; pkr "a" "2" ["b"; "c"]; pkr "b" "3" []; pkr "c" "1" []].
Definition menu_sel : list (text * package) := [(T "a", pkr "a" "1" ["b>=1"; "b<9"; "b>=2"]); (T "b", pkr "b" "3" [])].
Lemma menu_solution : solution (shelf menu) true [rq "a"] menu_sel.
Proof.
  assert (C : forall n p, aget n menu_sel = Some p -> In (n, p) menu_sel) by (intros n p H; apply aget_in, H).
  assert (M : forall x, In x [rq "a"; rq "b>=1"; rq "b<9"; rq "b>=2"] -> meets menu_sel x).
  { intros x H. cbn [In] in H. decompose [or] H; try contradiction; subst x; (eexists; split; [vm_compute; reflexivity|]); apply fits_in; vm_compute; reflexivity. }
  split; [|split].
  - intros n p H. apply C in H. split; [|now left]. cbn in H. decompose [or] H; try contradiction; match goal with E : _ = (n, p) |- _ => injection E as <- <- end; apply shelf_offered; (split; [cbn; tauto|reflexivity]).
  - intros r [<-|[]]. apply M. now left.
  - intros n p r H (t & It & Et). apply C in H. apply M. cbn in H. decompose [or] H; try contradiction; match goal with E : _ = (n, p) |- _ => injection E as <- <- end; cbn in It; decompose [or] It; try contradiction; subst t; vm_compute in Et; injection Et as <-; vm_compute; tauto.
Qed.
Theorem C121_refuted : solution (shelf menu) true [rq "a"] menu_sel /\ found (astar remaining menu [rq "a"]) = [pkr "a" "2" ["b"; "c"]; pkr "b" "3" []; pkr "c" "1" []] /\ total package_cost menu_sel = 2296 /\ ss_cost (state_of (astar remaining menu [rq "a"])) = 3194.
Proof. split; [exact menu_solution|]. repeat split; vm_compute; reflexivity. Qed.
Print Assumptions C121_refuted.
(** with an estimate of at most nine tenths for each different name, none costs less than the one that is found *)
Theorem C121_cheapest_partial : forall repo pre digest pick late max_states fuel rs sel h s rest, versioned repo -> legible repo rs -> proper repo -> (forall a b, digest a = digest b -> a = b) -> picks pick ->
  (forall l s rest, pick l = Some (s, rest) -> forall t, In t l -> ss_cost s + h s <= ss_cost t + h t) -> (forall u, h u <= distinct_left u) ->
  search repo pre digest pick late max_states fuel rs ([], []) = (Found s, rest) -> solution repo pre rs sel -> NoDup (akeys sel) -> ss_cost s = total package_cost (ss_resolved s) /\ ss_cost s <= total package_cost sel.
Proof.
  intros repo pre digest pick late max_states fuel rs sel h s rest Ve Le Pr Inj Pk Least Hh R Sol D. split.
  - unfold search in R. cbn [fst snd app] in R. destruct (run_found repo pre digest pick late max_states (well repo pre rs) Pk (fun s l t W S I => well_successors repo pre rs s l t Pr W S I) _ _ _ _ _ _ _ (fun x (Hx : In x [initial_state rs]) => match Hx with or_introl e => eq_ind _ _ (well_initial repo pre rs) _ e | or_intror f => False_ind _ f end) R) as [W _]. apply (w_cost _ _ _ _ W).
  - eapply (search_cheap repo pre digest pick late max_states rs sel Ve Le Pr Inj Pk Sol h Least); [|exact R]. intros u [W [P1 P2]]. pose proof (Hh u). assert (ss_cost u + distinct_left u <= total package_cost sel); [|lia]. eapply left_least; [exact W|exact D|exact P1|]. intros r Hr. destruct (P2 r Hr) as (p & Hp & _). now exists p.
Qed.
Print Assumptions C121_cheapest_partial.
(** the cost of one package *)
Theorem C121_cost : forall p, exists n, match p_version p with Some v => leads (split_on "."%char (v_str v)) n | None => n = 0%N end /\ package_cost p + N.to_nat (N.min n 100) = 1000 + 100 * length (p_requires p).
Proof. exact package_cost_spec. Qed.
Print Assumptions C121_cost.
Example C121_cost_example : package_cost (pkr "a" "x.7" ["b"]) = 1093 /\ leads (split_on "."%char (T "x.7")) 7.
Proof. split; [vm_compute; reflexivity|]. apply (leads_at [T "x"] (T "7") [] 7%N); [intros u [<-|[]]; reflexivity|reflexivity]. Qed.
Example C121_example : found (astar distinct_left menu [rq "a"]) = map snd menu_sel /\ found (astar none menu [rq "a"]) = map snd menu_sel /\ NoDup (akeys menu_sel) /\
  (forall l s rest, least (fun s => ss_cost s + distinct_left s) l = Some (s, rest) -> forall t, In t l -> ss_cost s + distinct_left s <= ss_cost t + distinct_left t).
Proof.
  split; [vm_compute; reflexivity|]. split; [vm_compute; reflexivity|]. split; [repeat constructor; cbn; intuition discriminate|]. intros l s rest E t I. pose proof (least_spec (fun s => ss_cost s + distinct_left s) l) as H. rewrite E in H. apply H, I.
Qed.

(** ** C122: the packages of a found resolution *)
Lemma path_TPO S : transitive_versions S -> TPO (fun p => forall v, p_version p = Some v -> S v) path_cmp.
Proof.
  intros Ht. unfold path_cmp. constructor.
  - intros x Hx. destruct (p_version x); [apply vcmp_refl|apply (tpo_refl _ _ TPO_text); exact I].
  - intros x y Hx Hy. destruct (p_version x), (p_version y); auto; [apply vcmp_anti|apply (tpo_anti _ _ TPO_text); exact I].
  - intros x y z Hx Hy Hz. destruct (p_version x), (p_version y), (p_version z); try discriminate; try congruence; [intros H1 H2; eapply Ht; [| | |exact H2|exact H1]; auto|apply (tpo_trans _ _ TPO_text); exact I].
Qed.
Theorem C122_all : forall ord s, any_order ord -> Permutation (reconstruct ord s) (map snd (ss_resolved s)).
Proof. intros ord s O. unfold reconstruct. rewrite sort_perm. apply Permutation_map, O. Qed.
Print Assumptions C122_all.
(** packages of equal version come in the order of the map *)
Theorem C122_deterministic_refuted : exists o1 o2 : list (text * package) -> list (text * package), any_order o1 /\ any_order o2 /\ exists s, state_of (astar none [pkr "a" "1" []; pkr "b" "1" []] [rq "a"; rq "b"]) = s /\ ss_pending s = [] /\ reconstruct o1 s <> reconstruct o2 s.
Proof.
  exists (fun l => l), (@rev _). split; [intros l; reflexivity|]. split; [intros l; symmetry; apply Permutation_rev|]. eexists. split; [vm_compute; reflexivity|]. split; [vm_compute; reflexivity|]. intros E. vm_compute in E. discriminate E.
Qed.
Print Assumptions C122_deterministic_refuted.
(** the order does not follow the requirements: neither is what is required always before what requires it, nor always after *)
Theorem C122_dependencies_refuted : reconstruct (fun l => l) (state_of (astar none [pkr "a" "1" ["b"]; pkr "b" "2" []] [rq "a"])) = [pkr "b" "2" []; pkr "a" "1" ["b"]] /\
  reconstruct (fun l => l) (state_of (astar none [pkr "a" "2" ["b"]; pkr "b" "1" []] [rq "a"])) = [pkr "a" "2" ["b"]; pkr "b" "1" []].
Proof. split; vm_compute; reflexivity. Qed.
Print Assumptions C122_dependencies_refuted.
(** where versions are in order, newer packages come first, after those without version *)
Theorem C122_newest_partial : forall S ord s, transitive_versions S -> any_order ord -> (forall n p v, In (n, p) (ss_resolved s) -> p_version p = Some v -> S v) ->
  forall l1 x l2 y l3, reconstruct ord s = l1 ++ x :: l2 ++ y :: l3 ->
  match p_version x, p_version y with Some a, Some b => vcmp a b <> Lt | None, Some _ => True | Some _, None => False | None, None => text_cmp (p_name x) (p_name y) <> Gt end.
Proof.
  intros S ord s Tr O V' l1 x l2 y l3 E. pose proof (sort_sorted path_cmp _ (path_TPO S Tr) (map snd (ord (ss_resolved s)))) as H. unfold reconstruct in E. assert (path_cmp x y <> Gt).
  { apply (H ltac:(apply Forall_forall; intros p Hp; apply in_map_iff in Hp; destruct Hp as ([n q] & <- & Hq); intros v Ev; apply (Permutation_in _ (O _)) in Hq; apply (V' n q v Hq Ev)) l1 x l2 y l3 E). }
  unfold path_cmp in H0. destruct (p_version x) as [a|], (p_version y) as [b|]; try exact H0; auto. intros L. rewrite vcmp_anti, L in H0. now apply H0.
Qed.
Print Assumptions C122_newest_partial.
(** and if no two packages have equal versions the order of the map does not matter *)
Theorem C122_unique_partial : forall S o1 o2 s, transitive_versions S -> any_order o1 -> any_order o2 -> (forall n p v, In (n, p) (ss_resolved s) -> p_version p = Some v -> S v) ->
  (forall n p m q, In (n, p) (ss_resolved s) -> In (m, q) (ss_resolved s) -> path_cmp p q = Eq -> p = q) -> reconstruct o1 s = reconstruct o2 s.
Proof.
  intros S o1 o2 s Tr O1 O2 V' U. pose (P := fun p => (forall v, p_version p = Some v -> S v) /\ exists n, In (n, p) (ss_resolved s)).
  assert (TP : TPO P path_cmp) by (apply (TPO_weaken (fun p => forall v, p_version p = Some v -> S v)); [intros x Hx; apply Hx|apply path_TPO, Tr]).
  assert (F : forall o, any_order o -> Forall P (map snd (o (ss_resolved s)))).
  { intros o O. apply Forall_forall. intros p Hp. apply in_map_iff in Hp. destruct Hp as ([n q] & <- & Hq). apply (Permutation_in _ (O _)) in Hq. split; [intros v Ev; apply (V' n q v Hq Ev)|now exists n]. }
  assert (F' : forall o, any_order o -> Forall P (sort_by path_cmp (map snd (o (ss_resolved s))))).
  { intros o O. apply Forall_forall. intros p Hp. apply (proj1 (sort_in _ _ _)) in Hp. pose proof (F o O) as K. rewrite Forall_forall in K. apply K, Hp. }
  unfold reconstruct. assert (Pm : Permutation (map snd (o1 (ss_resolved s))) (map snd (o2 (ss_resolved s)))) by (apply Permutation_map; rewrite (O1 _), (O2 _); reflexivity).
  assert (Pm' : Permutation (sort_by path_cmp (map snd (o1 (ss_resolved s)))) (sort_by path_cmp (map snd (o2 (ss_resolved s))))) by (rewrite !sort_perm; exact Pm).
  apply (stable_sorted_unique path_cmp P TP); try (apply F'; assumption); try (apply (sort_chain path_cmp P TP), F; assumption); [exact Pm'|].
  intros a [_ [n Ha]]. pose proof (F' o1 O1) as K1. pose proof (F' o2 O2) as K2. revert Pm' K1 K2. generalize (sort_by path_cmp (map snd (o1 (ss_resolved s)))) (sort_by path_cmp (map snd (o2 (ss_resolved s)))). intros x y Pm' K1 K2.
  assert (Z : forall z, Forall P z -> filter (fun p => is_eq (path_cmp a p)) z = repeat a (length (filter (fun p => is_eq (path_cmp a p)) z))).
  { intros z Kz. induction Kz as [|p z [_ [m Hp]] _ IH]; [reflexivity|]. cbn [filter]. destruct (is_eq (path_cmp a p)) eqn:E; [|exact IH]. cbn [length repeat]. rewrite <- IH. f_equal. symmetry. apply (U n a m p Ha Hp). destruct (path_cmp a p); try discriminate; reflexivity. }
  rewrite (Z x K1), (Z y K2). f_equal. clear - Pm'. induction Pm'; cbn; try reflexivity; try congruence; repeat match goal with |- context [if ?b then _ else _] => destruct b end; cbn; congruence.
Qed.
Print Assumptions C122_unique_partial.
Example C122_example : reconstruct (@rev _) (state_of (astar none tools [rq "app"])) = [pkr "maya" "2024" ["python>=3"]; pkr "python" "3.9" []; pkr "app" "1" ["maya"; "python"]] /\
  transitive_versions orderly /\ (forall n p v, In (n, p) (ss_resolved (state_of (astar none tools [rq "app"]))) -> p_version p = Some v -> orderly v).
Proof.
  split; [vm_compute; reflexivity|]. split; [exact orderly_transitive|]. intros n p v H E.
  apply found_in in H. rename H into I.
  rewrite C117_example in I. repeat (destruct I as [<-|I]; [cbn in E; injection E as <-; is_orderly|]). destruct I.
Qed.
