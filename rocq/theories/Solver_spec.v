(** Specification vocabulary for dependency resolution. *)
From Verif Require Import Base Version_model Range_model Requirement_model Maps Sorting Package_model Dfs Order_spec Solver_model.

(** the hash maps may be visited in any order *)
Definition any_orders (o : order) : Prop := any_order (o_reqs o) /\ any_order (o_bars o) /\ any_order (o_keys o).
(** packages are filed under their name *)
Definition well_named (repo : text -> option (list package)) : Prop :=
  forall n ps p, repo n = Some ps -> In p ps -> p_name p = n.
(** the package has the name and a version (if any) the requirement accepts *)
Definition fits (r : requirement) (p : package) : Prop :=
  p_name p = rq_name r /\ match p_version p with Some v => r_satisfied r v = true | None => True end.
(** some resolved package fits *)
Definition supported (rs : list resolved) (r : requirement) : Prop := exists x, In x rs /\ fits r (rs_package x).
Definition absent (rs : list resolved) (n : text) : Prop := forall x, In x rs -> rs_name x <> n.
(** a weak requirement only speaks when its package is there *)
Definition met (rs : list resolved) (r : requirement) : Prop :=
  supported rs r \/ (rq_weak r = true /\ absent rs (rq_name r)).
(** a requirement text of the package or of the chosen variant *)
Definition requires_text (x : resolved) (t : text) : Prop :=
  In t (p_requires (rs_package x)) \/
  exists i vs, rs_variant x = Some i /\ nth_error (p_variants (rs_package x)) i = Some vs /\ In t vs.
(** a requirement of a resolved package *)
Definition wants (x : resolved) (r : requirement) : Prop :=
  exists t, requires_text x t /\ starts_with (T "!") t = false /\ parse_requirement t = Some r.
(** something a resolved package refuses *)
Definition refuses (x : resolved) (r : requirement) : Prop :=
  exists t, requires_text x ("!"%char :: t) /\ parse_requirement t = Some r.
(** non-weak reachability from the request *)
Inductive required (reqs : list requirement) (rs : list resolved) : text -> Prop :=
| req_asked r : In r reqs -> rq_conflict r = false -> rq_weak r = false -> required reqs rs (rq_name r)
| req_dep x r : required reqs rs (rs_name x) -> In x rs -> wants x r -> rq_weak r = false -> required reqs rs (rq_name r).
(** the edge relation between resolved packages and the names they mention *)
Definition mentions (rs : list resolved) (a b : text) : Prop :=
  exists x r, In x rs /\ rs_name x = a /\ wants x r /\ rq_name r = b.
Inductive mentions_plus (rs : list resolved) (a : text) : text -> Prop :=
| mentions_one b : mentions rs a b -> mentions_plus rs a b
| mentions_more b c : mentions_plus rs a b -> mentions rs b c -> mentions_plus rs a c.
(** versions the configuration admits *)
Definition admitted (cfg : config) (p : package) : Prop :=
  match p_version p with
  | Some v => cf_allow_prerelease cfg = false -> is_prerelease v = false
  | None => True
  end.

(** ** a valid answer, stated without reference to the search *)
(** the package comes from the repository, under its name *)
Definition from_repo (repo : text -> option (list package)) (x : resolved) : Prop :=
  exists ps, repo (rs_name x) = Some ps /\ In (rs_package x) ps.
(** a package with variants is used through one of them, a package without variants is used as it is *)
Definition variant_ok (x : resolved) : Prop :=
  match rs_variant x with
  | Some i => i < length (p_variants (rs_package x))
  | None => p_variants (rs_package x) = []
  end.
(** every text of the package and of the chosen variant can be read *)
Definition readable (x : resolved) : Prop :=
  forall t, requires_text x t -> (exists r, starts_with (T "!") t = false /\ parse_requirement t = Some r) \/
    exists s r, t = "!"%char :: s /\ parse_requirement s = Some r.
Record solution (repo : text -> option (list package)) (cfg : config) (reqs : list requirement) (rs : list resolved) : Prop := {
  so_names : NoDup (map rs_name rs);
  so_repo : forall x, In x rs -> from_repo repo x /\ admitted cfg (rs_package x) /\ variant_ok x /\ readable x;
  so_asked : forall r, In r reqs -> rq_conflict r = false -> met rs r;
  so_refused : forall x r, In x rs -> In r reqs -> rq_conflict r = true -> ~ fits r (rs_package x);
  so_wants : forall x r, In x rs -> wants x r -> met rs r
}.
(** additionally no selected package refuses another one *)
Definition peaceful (rs : list resolved) : Prop := forall x y r, In x rs -> In y rs -> refuses x r -> ~ fits r (rs_package y).

(** consecutive elements are related *)
Fixpoint linked (R : text -> text -> Prop) (l : list text) : Prop :=
  match l with
  | x :: ((y :: _) as l') => R x y /\ linked R l'
  | _ => True
  end.
(** some package [a] of the repository mentions [b] *)
Definition depends (repo : text -> option (list package)) (a b : text) : Prop :=
  exists x r, rs_name x = a /\ from_repo repo x /\ variant_ok x /\ wants x r /\ rq_name r = b.
Definition real_cycle (repo : text -> option (list package)) (c : list text) : Prop :=
  exists x m, c = x :: m ++ [x] /\ linked (depends repo) c.

(** the states the resolver passes through *)
Inductive visited_state (repo : text -> option (list package)) (cfg : config) (reqs : list requirement) : state -> Prop :=
| vs_start : visited_state repo cfg reqs (initial reqs)
| vs_step o st st' : any_orders o -> visited_state repo cfg reqs st -> step repo cfg o st = Next st' -> visited_state repo cfg reqs st'.
(** packages without requirements and variants *)
Definition independent (p : package) : Prop := p_requires p = [] /\ p_variants p = [].
(** the version the configuration and the requirement accept *)
Definition acceptable (cfg : config) (r : requirement) (p : package) : Prop := fits r p /\ admitted cfg p.
(** nothing acceptable is newer (older) *)
Definition best (latest : bool) (ps : list package) (ok : package -> Prop) (p : package) : Prop :=
  forall q v w, In q ps -> ok q -> p_version p = Some v -> p_version q = Some w -> if latest then vcmp w v <> Gt else vcmp v w <> Gt.

(** ** what makes the search end *)
(** families can be put on levels so that dependencies go down *)
Definition layered (repo : text -> option (list package)) (level : text -> nat) : Prop := forall a b, depends repo a b -> level b < level a.
(** a requirement of the request or of an offered package *)
Definition in_play (repo : text -> option (list package)) (reqs : list requirement) (r : requirement) : Prop :=
  In r reqs \/ exists x, from_repo repo x /\ variant_ok x /\ wants x r.
(** requirements that compare equal accept the same of the offered versions *)
Definition told_apart (repo : text -> option (list package)) (reqs : list requirement) : Prop :=
  forall a b n ps p v, in_play repo reqs a -> in_play repo reqs b -> req_eqb a b = true -> repo n = Some ps -> In p ps -> p_version p = Some v ->
    r_satisfied a v = r_satisfied b v.
