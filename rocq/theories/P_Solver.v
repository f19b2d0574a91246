(** Properties C20-C24, C56-C61: dependency resolution. *)
From Verif Require Import Base Base_lemmas Version_model Version_spec Version_order P_Version Range_model Range_spec P_Range Requirement_model P_Requirement
  Maps Sorting Package_model Dfs Order_spec Solver_model Solver_spec Solver_proofs Solver_result Solver_ends.
Open Scope string_scope. Open Scope list_scope.

(** ** Concrete repositories *)
Definition pkg (n v : string) (rs : list string) : package := mkPackage (T n) (Some (V v)) (map T rs) [] None [] 0.
Definition repo_of (ps : list package) (n : text) : option (list package) := Some (filter (fun p => text_eqb (p_name p) n) ps).
Definition plain : order := mkOrder (fun l => l) (fun l => l) (fun l => l).
Definition strict := mkConfig true false true.
Definition lenient := mkConfig true false false.
Definition run cfg ps reqs := resolve (repo_of ps) cfg (fun _ => plain) plain 100 (map Q reqs).
Definition label (x : resolved) : text * text := (rs_name x, match p_version (rs_package x) with Some v => v_str v | None => [] end).
Definition answer (o : outcome) : option (list (text * text) * list text) :=
  match o with Resolved rs failed _ => Some (map label rs, map rq_name failed) | _ => None end.
Definition nv (n v : string) : text * text := (T n, T v).
Lemma plain_any : any_orders plain.
Proof. repeat split; intros l; apply Permutation_refl. Qed.
Lemma repo_of_named ps : well_named (repo_of ps).
Proof. intros n l p [= <-] H. apply filter_In in H as [_ H]. apply text_eqb_eq, H. Qed.
(** two packages force different versions of a third one; the older version of the first gives way *)
Definition clash := [pkg "x" "2" ["c==1"]; pkg "x" "1" ["c==2"]; pkg "z" "1" ["c==2"; "~w-3"]; pkg "c" "1" []; pkg "c" "2" []; pkg "w" "1" []].

(** ** C20 *)
(** After a successful strict resolution every request and every requirement of every selected package (and of its
    selected variant) is met, and nothing is reported as failed. *)
Theorem C20_strict : forall repo cfg ords o fuel reqs rs failed conf,
  well_named repo -> (forall i, any_orders (ords i)) -> cf_strict cfg = true ->
  resolve repo cfg ords o fuel reqs = Resolved rs failed conf ->
  failed = [] /\
  (forall r, In r reqs -> rq_conflict r = false -> met rs r) /\
  (forall x r, In x rs -> wants x r -> met rs r).
Proof.
  intros repo cfg ords o fuel reqs rs failed conf Hw Ho Hs H.
  destruct (resolved_strict repo cfg ords o fuel reqs Hw Ho rs failed conf H Hs) as [H1 H2]. split; [exact H1|]. split.
  - intros r Hr Hc. apply H2. auto.
  - intros x r Hx Hr. apply H2. right. eauto.
Qed.
Print Assumptions C20_strict.
(** Without the strict mode whatever is not met is reported as failed, and nothing that is supported is reported. *)
Theorem C20_lenient : forall repo cfg ords o fuel reqs rs failed conf,
  well_named repo -> (forall i, any_orders (ords i)) ->
  resolve repo cfg ords o fuel reqs = Resolved rs failed conf ->
  (forall r, In r reqs -> rq_conflict r = false -> met rs r \/ In r failed) /\
  (forall x r, In x rs -> wants x r -> met rs r \/ In r failed) /\
  (forall r, In r failed -> ~ supported rs r).
Proof.
  intros repo cfg ords o fuel reqs rs failed conf Hw Ho H. pose proof (resolved_covers repo cfg ords o fuel reqs Hw Ho rs failed conf H) as K.
  split; [|split].
  - intros r Hr Hc. apply K. auto.
  - intros x r Hx Hr. apply K. right. eauto.
  - apply (resolved_failed repo cfg ords o fuel reqs rs failed conf H).
Qed.
Print Assumptions C20_lenient.
Example C20_example : answer (run strict clash ["x"; "z"]) = Some ([nv "x" "1"; nv "z" "1"; nv "c" "2"], []).
Proof. vm_compute. reflexivity. Qed.
Example C20_example_lenient : answer (run lenient clash ["x-2"; "z"]) = Some ([nv "x" "2"; nv "z" "1"; nv "c" "1"], [T "c"]).
Proof. vm_compute. reflexivity. Qed.

(** ** C21 *)
(** One package per name, in both modes. *)
Theorem C21_one_version : forall repo cfg ords o fuel reqs rs failed conf,
  well_named repo -> (forall i, any_orders (ords i)) ->
  resolve repo cfg ords o fuel reqs = Resolved rs failed conf -> NoDup (map rs_name rs).
Proof. exact (fun repo cfg ords o fuel reqs rs failed conf Hw Ho => resolved_nodup repo cfg ords o fuel reqs Hw Ho rs failed conf). Qed.
Print Assumptions C21_one_version.
Example C21_example : (forall i, any_orders ((fun _ : nat => plain) i)) /\ well_named (repo_of clash) /\
  answer (run strict clash ["c"; "x"; "z"]) = Some ([nv "c" "2"; nv "x" "1"; nv "z" "1"], []).
Proof. split; [intros _; apply plain_any|]. split; [apply repo_of_named|]. vm_compute. reflexivity. Qed.

(** ** C22 *)
(** No selected package is one that a conflict of the request forbids. *)
Theorem C22_request_conflicts : forall repo cfg ords o fuel reqs rs failed conf,
  well_named repo -> (forall i, any_orders (ords i)) ->
  resolve repo cfg ords o fuel reqs = Resolved rs failed conf ->
  forall x r, In x rs -> In r reqs -> rq_conflict r = true -> ~ fits r (rs_package x).
Proof. exact (fun repo cfg ords o fuel reqs rs failed conf Hw Ho => resolved_request_conflicts repo cfg ords o fuel reqs Hw Ho rs failed conf). Qed.
Print Assumptions C22_request_conflicts.
Example C22_example : rq_conflict (Q "!c-2") = true /\ r_satisfied (Q "!c-2") (V "2") = true /\
  answer (run strict clash ["c"; "!c-2"]) = Some ([nv "c" "1"], []).
Proof. vm_compute. auto. Qed.

(** ** C23 *)
(** Refuted: [foo] is selected first, then [bar] although [bar] conflicts with [foo]; nothing is reported. *)
Definition quarrel := [pkg "foo" "1" []; pkg "bar" "1" ["!foo"]].
Theorem C23_refuted : exists repo cfg ords o fuel reqs rs,
  well_named repo /\ (forall i, any_orders (ords i)) /\ any_orders o /\ cf_strict cfg = true /\
  resolve repo cfg ords o fuel reqs = Resolved rs [] [] /\ ~ peaceful rs.
Proof.
  exists (repo_of quarrel), strict, (fun _ => plain), plain, 100, [Q "foo"; Q "bar"],
    [mkResolved (pkg "foo" "1" []) None true [T "foo"] (Some (Q "foo")); mkResolved (pkg "bar" "1" ["!foo"]) None true [T "bar"] (Some (Q "bar"))].
  split; [apply repo_of_named|]. split; [intros _; apply plain_any|]. split; [apply plain_any|]. split; [reflexivity|]. split; [vm_compute; reflexivity|].
  intros H. eapply (H _ _ (Q "foo") (or_intror (or_introl eq_refl)) (or_introl eq_refl)).
  - exists (T "foo"). split; [left; left; reflexivity|vm_compute; reflexivity].
  - split; vm_compute; reflexivity.
Qed.
Print Assumptions C23_refuted.
(** What does hold: a package is never newly selected while a package already selected refuses it.  The side
    condition asks that requirements the resolver considers equal accept the same versions.
    Missing: a package that refuses an already selected one. *)
Theorem C23_newcomers_partial : forall repo cfg reqs o st st',
  well_named repo -> any_orders o -> visited_state repo cfg reqs st -> step repo cfg o st = Next st' ->
  forall x y r, In x (s_resolved st) -> refuses x r -> In y (s_resolved st') -> ~ In y (s_resolved st) ->
  (forall c v, In c (s_barred st) -> req_eqb c r = true -> r_satisfied c v = r_satisfied r v) -> ~ fits r (rs_package y).
Proof. exact fresh_not_refused. Qed.
Print Assumptions C23_newcomers_partial.
(** requested the other way round the conflict is honoured *)
Example C23_example : run strict quarrel ["bar"; "foo"] = StrictError [Q "foo"] /\
  answer (run lenient quarrel ["bar"; "foo"]) = Some ([nv "bar" "1"], [T "foo"]).
Proof. split; vm_compute; reflexivity. Qed.

(** ** C24 *)
(** Refuted: four packages on which the resolver runs forever, in both modes. *)
Definition carousel := [pkg "A" "2" ["B==1"]; pkg "A" "1" ["B==2"]; pkg "B" "1" ["A==1"]; pkg "B" "2" ["A==2"]].
Fixpoint steps cfg ps (k : nat) (st : state) : state :=
  match k with O => st | S k' => match step (repo_of ps) cfg plain st with Next st' => steps cfg ps k' st' | _ => st end end.
Theorem C24_refuted : forall s, exists repo reqs o, well_named repo /\ any_orders o /\
  forall fuel, resolve repo (mkConfig true false s) (fun _ => o) o fuel reqs = Running.
Proof.
  intros s. exists (repo_of carousel), [Q "A"], plain. split; [apply repo_of_named|]. split; [apply plain_any|]. intros fuel.
  assert (exists st', loop (repo_of carousel) (mkConfig true false s) (fun _ => plain) 0 fuel (initial [Q "A"]) = Unfinished st') as [st' E].
  { destruct s.
    - apply (endless _ _ _ 30 10 (initial [Q "A"]) (steps strict carousel 30 (initial [Q "A"]))); [lia|vm_compute; reflexivity|vm_compute; reflexivity].
    - apply (endless _ _ _ 30 10 (initial [Q "A"]) (steps lenient carousel 30 (initial [Q "A"]))); [lia|vm_compute; reflexivity|vm_compute; reflexivity]. }
  unfold resolve. rewrite E. reflexivity.
Qed.
Print Assumptions C24_refuted.
(** Refuted also without any dependency: three requests for one package, equal in the eyes of the resolver but accepting different versions. *)
Definition swing := [pkg "foo" "1.5" []; pkg "foo" "2.5" []].
Definition swing_reqs := map Q ["foo>1.0,<=2"; "foo>1,<=2"; "foo>1.0,<=2.0"].
Theorem C24_no_dependencies_refuted : forall s, exists ps reqs o, (forall p, In p ps -> p_requires p = [] /\ p_variants p = []) /\ any_orders o /\
  forall fuel, resolve (repo_of ps) (mkConfig true false s) (fun _ => o) o fuel reqs = Running.
Proof.
  intros s. exists swing, swing_reqs, plain. split; [intros p [<-|[<-|[]]]; split; reflexivity|]. split; [apply plain_any|]. intros fuel.
  assert (exists st', loop (repo_of swing) (mkConfig true false s) (fun _ => plain) 0 fuel (initial swing_reqs) = Unfinished st') as [st' E].
  { destruct s.
    - apply (endless _ _ _ 10 5 (initial swing_reqs) (steps strict swing 10 (initial swing_reqs))); [lia|vm_compute; reflexivity|vm_compute; reflexivity].
    - apply (endless _ _ _ 10 5 (initial swing_reqs) (steps lenient swing 10 (initial swing_reqs))); [lia|vm_compute; reflexivity|vm_compute; reflexivity]. }
  unfold resolve. rewrite E. reflexivity.
Qed.
Print Assumptions C24_no_dependencies_refuted.
(** What does hold, in both modes and for every hash map order: when the package families can be put on levels so that dependencies lead downwards, and requirements the resolver considers
    equal accept the same versions, the search ends with an answer that more rounds would not change.  Missing: repositories with dependency cycles between families. *)
Theorem C24_layered_partial : forall repo cfg reqs ords o level, well_named repo -> layered repo level -> told_apart repo reqs -> (forall i, any_orders (ords i)) ->
  exists fuel out, out <> Running /\ forall k, resolve repo cfg ords o (fuel + k) reqs = out.
Proof.
  intros repo cfg reqs ords o level Hw Hl Ht Ho. destruct (resolve_ends repo cfg reqs level Hw Hl Ht ords o Ho) as [f F]. exists f, (resolve repo cfg ords o f reqs). split; [exact F|]. apply resolve_more, F.
Qed.
Print Assumptions C24_layered_partial.
(** and the answer is never the report of a cycle *)
Theorem C24_no_cycle_partial : forall repo cfg reqs ords o level fuel c, well_named repo -> layered repo level -> (forall i, any_orders (ords i)) -> resolve repo cfg ords o fuel reqs <> CycleError c.
Proof. intros repo cfg reqs ords o level fuel c Hw Hl Ho H. apply (no_layered_cycle repo level c Hl), (reported_cycle repo cfg ords o fuel reqs Hw Ho c H). Qed.
Print Assumptions C24_no_cycle_partial.
(** both conditions can be checked on a concrete repository *)
Definition asks (p : package) : list requirement := concat (map (fun t => match parse_dep t with Some (false, r) => [r] | _ => [] end) (p_requires p ++ concat (p_variants p))).
Lemma asks_wants ps x r : from_repo (repo_of ps) x -> wants x r -> In (rs_package x) ps /\ In r (asks (rs_package x)).
Proof.
  intros (l & [= <-] & Hp) (t & Ht & N & P). apply filter_In in Hp as [Hp _]. split; [exact Hp|]. unfold asks. apply in_concat. exists [r]. split; [|left; reflexivity]. apply in_map_iff. exists t.
  assert (E : parse_dep t = Some (false, r)) by (apply parse_dep_positive; auto). rewrite E. split; [reflexivity|].
  apply in_app_iff. destruct Ht as [Ht|(i & vs & _ & Hi & Ht)]; [left; exact Ht|right]. apply in_concat. exists vs. split; [apply nth_error_In in Hi; exact Hi|exact Ht].
Qed.
Lemma layered_check ps level : forallb (fun p => forallb (fun r => Nat.ltb (level (rq_name r)) (level (p_name p))) (asks p)) ps = true -> layered (repo_of ps) level.
Proof.
  intros H a b (x & r & <- & F & _ & W & <-). destruct (asks_wants ps x r F W) as [H1 H2]. rewrite forallb_forall in H. specialize (H _ H1). rewrite forallb_forall in H. apply Nat.ltb_lt, (H _ H2).
Qed.
Lemma told_check ps reqs : (let rs := reqs ++ flat_map asks ps in forallb (fun a => forallb (fun b => negb (req_eqb a b) ||
    forallb (fun p => match p_version p with Some v => Bool.eqb (r_satisfied a v) (r_satisfied b v) | None => true end) ps) rs) rs) = true -> told_apart (repo_of ps) reqs.
Proof.
  intros H a b n l p v Ha Hb E [= <-] Hp Hv. apply filter_In in Hp as [Hp _].
  assert (K : forall r, in_play (repo_of ps) reqs r -> In r (reqs ++ flat_map asks ps)).
  { intros r [Hr|(x & F & _ & W)]; apply in_app_iff; [left; exact Hr|right]. destruct (asks_wants ps x r F W) as [H1 H2]. apply in_flat_map. exists (rs_package x). auto. }
  cbv zeta in H. rewrite forallb_forall in H. specialize (H a (K a Ha)). rewrite forallb_forall in H. specialize (H b (K b Hb)). rewrite E in H. cbn [negb orb] in H. rewrite forallb_forall in H. specialize (H p Hp). rewrite Hv in H. apply eqb_prop, H.
Qed.
(** a repository with a clash, where the strict mode has to give up a choice *)
Definition clash_level (n : text) : nat := if mem_text n [T "x"; T "z"] then 1 else 0.
Example C24_example : layered (repo_of clash) clash_level /\ told_apart (repo_of clash) (map Q ["x"; "z"]) /\
  answer (run strict clash ["x"; "z"]) = Some ([nv "x" "1"; nv "z" "1"; nv "c" "2"], []).
Proof. split; [apply layered_check; vm_compute; reflexivity|]. split; [apply told_check; vm_compute; reflexivity|]. vm_compute. reflexivity. Qed.
(** the three requests above are layered; only the second condition fails *)
Example C24_example_swing : layered (repo_of swing) (fun _ => 0) /\ ~ told_apart (repo_of swing) swing_reqs.
Proof.
  split; [apply layered_check; vm_compute; reflexivity|]. intros H.
  specialize (H (Q "foo>1,<=2") (Q "foo>1.0,<=2.0") (T "foo") swing (pkg "foo" "1.5" []) (V "1.5") (or_introl (or_intror (or_introl eq_refl))) (or_introl (or_intror (or_intror (or_introl eq_refl))))).
  vm_compute in H. specialize (H eq_refl eq_refl (or_introl eq_refl) eq_refl). discriminate H.
Qed.

(** ** C56 *)
(** Every selected package is one the repository offers under its name, pre-releases are not selected unless the
    configuration admits them, a package with variants is used through one of its variants, and all its requirement
    texts (and those of the variant) can be read. *)
Theorem C56_origin : forall repo cfg ords o fuel reqs rs failed conf,
  well_named repo -> (forall i, any_orders (ords i)) ->
  resolve repo cfg ords o fuel reqs = Resolved rs failed conf ->
  forall x, In x rs -> from_repo repo x /\ admitted cfg (rs_package x) /\ variant_ok x /\ readable x.
Proof. exact (fun repo cfg ords o fuel reqs rs failed conf Hw Ho => resolved_origin repo cfg ords o fuel reqs Hw Ho rs failed conf). Qed.
Print Assumptions C56_origin.
Definition variants_repo :=
  [mkPackage (T "app") (Some (V "1")) [T "c"] [[T "c-1"]; [T "c-2"; T "x-2"]] None [] 0; pkg "c" "1" []; pkg "c" "2" []; pkg "c" "3.alpha" []; pkg "x" "2" []].
Example C56_example : answer (run strict variants_repo ["c-2"; "app"]) = Some ([nv "c" "2"; nv "app" "1"; nv "x" "2"], []) /\
  is_prerelease (V "3.alpha") = true.
Proof. split; vm_compute; reflexivity. Qed.

(** ** C57 *)
(** A successful answer contains no dependency cycle ... *)
Theorem C57_acyclic : forall repo cfg ords o fuel reqs rs failed conf,
  well_named repo -> (forall i, any_orders (ords i)) -> any_orders o ->
  resolve repo cfg ords o fuel reqs = Resolved rs failed conf -> forall n, ~ mentions_plus rs n n.
Proof. exact (fun repo cfg ords o fuel reqs rs failed conf Hw Ho Hk => resolved_acyclic repo cfg ords o fuel reqs Hw Ho Hk rs failed conf). Qed.
Print Assumptions C57_acyclic.
(** ... and a reported cycle is one: it starts and ends with the same name and each name is mentioned by a package of
    the one before. *)
Theorem C57_reported : forall repo cfg ords o fuel reqs c,
  well_named repo -> (forall i, any_orders (ords i)) ->
  resolve repo cfg ords o fuel reqs = CycleError c -> real_cycle repo c.
Proof. exact (fun repo cfg ords o fuel reqs c Hw Ho => reported_cycle repo cfg ords o fuel reqs Hw Ho c). Qed.
Print Assumptions C57_reported.
Example C57_example : run strict [pkg "a" "1" ["b"]; pkg "b" "1" ["c"]; pkg "c" "1" ["b"]] ["a"] = CycleError [T "b"; T "c"; T "b"].
Proof. vm_compute. reflexivity. Qed.

(** ** C58 *)
(** Nothing superfluous: every selected package is requested, or a non-weak requirement of a selected package that is
    itself needed. *)
Theorem C58_no_orphans : forall repo cfg ords o fuel reqs rs failed conf,
  well_named repo -> (forall i, any_orders (ords i)) ->
  resolve repo cfg ords o fuel reqs = Resolved rs failed conf -> forall x, In x rs -> required reqs rs (rs_name x).
Proof. exact (fun repo cfg ords o fuel reqs rs failed conf Hw Ho => resolved_required repo cfg ords o fuel reqs Hw Ho rs failed conf). Qed.
Print Assumptions C58_no_orphans.
(** the dependency of an abandoned version is dropped again *)
Example C58_example : answer (run strict [pkg "x" "2" ["d"; "c==1"]; pkg "x" "1" ["c==2"]; pkg "z" "1" ["c==2"]; pkg "c" "1" []; pkg "c" "2" []; pkg "d" "1" []] ["x"; "z"]) =
  Some ([nv "x" "1"; nv "z" "1"; nv "c" "2"], []).
Proof. vm_compute. reflexivity. Qed.

(** ** C59 *)
(** Refuted: strict resolution fails although a valid selection exists.  The version to give up is not one of the
    direct sources of the clash. *)
Definition maze := [pkg "x" "2" ["y==1"]; pkg "x" "1" ["y==2"]; pkg "y" "1" ["c==1"]; pkg "y" "2" ["c==2"]; pkg "z" "1" ["c==2"];
  pkg "c" "1" []; pkg "c" "2" []].
Definition sel (n v : string) (rs : list string) : resolved := mkResolved (pkg n v rs) None false [] None.
Theorem C59_refuted : exists repo cfg ords o fuel reqs failed rs,
  well_named repo /\ (forall i, any_orders (ords i)) /\ any_orders o /\ cf_strict cfg = true /\
  resolve repo cfg ords o fuel reqs = StrictError failed /\ solution repo cfg reqs rs /\ peaceful rs.
Proof.
  exists (repo_of maze), strict, (fun _ => plain), plain, 100, [Q "x"; Q "z"], [Q "c==2"; Q "c==1"],
    [sel "x" "1" ["y==2"]; sel "y" "2" ["c==2"]; sel "z" "1" ["c==2"]; sel "c" "2" []].
  split; [apply repo_of_named|]. split; [intros _; apply plain_any|]. split; [apply plain_any|]. split; [reflexivity|]. split; [vm_compute; reflexivity|].
  assert (forall x t, In x [sel "x" "1" ["y==2"]; sel "y" "2" ["c==2"]; sel "z" "1" ["c==2"]; sel "c" "2" []] -> requires_text x t ->
            (t = T "y==2" \/ t = T "c==2")) as Ht.
  { intros x t [<-|[<-|[<-|[<-|[]]]]] [H|(i & vs & H & _)]; try discriminate; cbn in H; intuition. }
  assert (parse_requirement (T "y==2") = Some (Q "y==2") /\ parse_requirement (T "c==2") = Some (Q "c==2")) as [Py Pc] by (split; vm_compute; reflexivity).
  assert (forall r, In r [Q "x"; Q "z"; Q "y==2"; Q "c==2"] -> met [sel "x" "1" ["y==2"]; sel "y" "2" ["c==2"]; sel "z" "1" ["c==2"]; sel "c" "2" []] r) as Hm.
  { intros r [<-|[<-|[<-|[<-|[]]]]]; left.
    - exists (sel "x" "1" ["y==2"]). split; [cbn; auto|]. split; vm_compute; reflexivity.
    - exists (sel "z" "1" ["c==2"]). split; [cbn; auto|]. split; vm_compute; reflexivity.
    - exists (sel "y" "2" ["c==2"]). split; [cbn; auto|]. split; vm_compute; reflexivity.
    - exists (sel "c" "2" []). split; [cbn; auto 6|]. split; vm_compute; reflexivity. }
  split; [constructor|].
  - cbn. repeat (constructor; [cbn; intuition discriminate|]). constructor.
  - intros x Hx. split; [|split; [|split]].
    + destruct Hx as [<-|[<-|[<-|[<-|[]]]]]; (eexists; split; [reflexivity|vm_compute; auto 10]).
    + destruct Hx as [<-|[<-|[<-|[<-|[]]]]]; vm_compute; auto.
    + destruct Hx as [<-|[<-|[<-|[<-|[]]]]]; reflexivity.
    + intros t Hr. left. destruct (Ht x t Hx Hr) as [-> | ->]; [exists (Q "y==2")|exists (Q "c==2")]; split; auto; vm_compute; reflexivity.
  - intros r Hr _. apply Hm. cbn [In] in *. tauto.
  - intros x r _ [<-|[<-|[]]]; vm_compute; discriminate.
  - intros x r Hx (t & Hr & _ & Hp). apply Hm. destruct (Ht x t Hx Hr) as [-> | ->]; [rewrite Py in Hp|rewrite Pc in Hp]; injection Hp as <-; cbn; tauto.
  - intros x y r Hx _ (t & Hr & _). destruct (Ht x _ Hx Hr) as [H|H]; discriminate.
Qed.
Print Assumptions C59_refuted.
(** What does hold: strict success is always a valid selection (so the answer is sound, just not complete). *)
Theorem C59_sound_partial : forall repo cfg ords o fuel reqs rs failed conf,
  well_named repo -> (forall i, any_orders (ords i)) ->
  resolve repo cfg ords o fuel reqs = Resolved rs failed conf -> cf_strict cfg = true -> solution repo cfg reqs rs.
Proof. exact (fun repo cfg ords o fuel reqs rs failed conf Hw Ho => resolved_solution repo cfg ords o fuel reqs Hw Ho rs failed conf). Qed.
Print Assumptions C59_sound_partial.
(** when the direct source of the clash can be replaced, the resolver finds the answer *)
Example C59_example : answer (run strict (pkg "y" "2.1" ["c==2"] :: maze) ["x-1"; "z"]) = Some ([nv "x" "1"; nv "z" "1"; nv "y" "2"; nv "c" "2"], []).
Proof. vm_compute. reflexivity. Qed.

(** ** C60 *)
(** A single request for packages without dependencies succeeds when some version is acceptable, with the newest
    (oldest, if so configured) acceptable version. *)
Theorem C60_single_best : forall repo cfg ords o r ps S n,
  transitive_versions S -> versions_in S ps ->
  repo (rq_name r) = Some ps -> (forall p, In p ps -> p_name p = rq_name r /\ independent p) ->
  rq_conflict r = false -> rq_weak r = false -> any_orders (ords 0) -> any_orders o ->
  (exists p, In p ps /\ acceptable cfg r p) ->
  exists x, resolve repo cfg ords o (3 + n) [r] = Resolved [x] [] [] /\ In (rs_package x) ps /\ acceptable cfg r (rs_package x) /\
    best (cf_prefer_latest cfg) ps (acceptable cfg r) (rs_package x).
Proof. exact resolve_single_best. Qed.
Print Assumptions C60_single_best.
Definition shelf := [pkg "c" "1.5" []; pkg "c" "4.alpha" []; pkg "c" "3.1" []; pkg "c" "2.2" []].
Example C60_example : transitive_versions orderly /\ versions_in orderly shelf /\
  answer (run strict shelf ["c>=1.2,<3"]) = Some ([nv "c" "2.2"], []) /\
  answer (run (mkConfig false false true) shelf ["c"]) = Some ([nv "c" "1.5"], []).
Proof.
  split; [exact orderly_transitive|]. split.
  { intros p v [<-|[<-|[<-|[<-|[]]]]] [= <-]; is_orderly. }
  split; vm_compute; reflexivity.
Qed.

(** ** C61 *)
(** Refuted: a package excluded in the request, or outside the constraints of the request, is selected all the same. *)
Theorem C61_refuted : exists repo cfg ords o fuel q x failed conf,
  well_named repo /\ (forall i, any_orders (ords i)) /\ any_orders o /\
  solver_resolve (Some repo) cfg ords o fuel q = Resolved [x] failed conf /\
  In (rs_name x) (rqs_excludes q) /\ exists c, In c (rqs_constraints q) /\ pr_name c = rs_name x /\
  match p_version (rs_package x) with Some v => pkg_satisfied c v = false | None => False end.
Proof.
  exists (repo_of shelf), strict, (fun _ => plain), plain, 100, (mkRequest [PR "c"] [PR "c-1"] [T "c"] None None),
    (mkResolved (pkg "c" "3.1" []) None true [T "c"] (Some (Q "c"))), [], [].
  split; [apply repo_of_named|]. split; [intros _; apply plain_any|]. split; [apply plain_any|]. split; [vm_compute; reflexivity|].
  split; [left; reflexivity|]. exists (PR "c-1"). split; [left; reflexivity|]. split; vm_compute; reflexivity.
Qed.
Print Assumptions C61_refuted.
(** What does hold: the answer depends on the requirements alone. *)
Theorem C61_requirements_only_partial : forall repo cfg ords o fuel q q',
  rqs_requirements q = rqs_requirements q' -> solver_resolve repo cfg ords o fuel q = solver_resolve repo cfg ords o fuel q'.
Proof. intros repo cfg ords o fuel q q' E. unfold solver_resolve. rewrite E. reflexivity. Qed.
Print Assumptions C61_requirements_only_partial.
