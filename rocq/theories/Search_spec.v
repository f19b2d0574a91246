(** What a search should find, and distances along dependencies. Of the model only the types are used, and the reading of ranges. *)
From Verif Require Import Base Version_model Range_model Package_model Search_model.
From Coq Require Import Sorted.

(** ** Search *)
(** a name passes the pattern; case is ignored but in regular expressions *)
Definition lower (s : text) : text := map to_lower s.
Definition name_ok (re : text -> option (text -> bool)) (o : soptions) (n : text) : Prop :=
  so_pattern o = [] \/
  match so_mode o with
  | FExact => lower n = lower (so_pattern o)
  | FPrefix => exists r, lower n = lower (so_pattern o) ++ r
  | FContains => exists a b, lower n = a ++ lower (so_pattern o) ++ b
  | FRegex => exists f, re (so_pattern o) = Some f /\ f n = true
  end.
(** a version passes the range, if there is a range that parses; a package without version passes *)
Definition version_ok (o : soptions) (p : package) : Prop :=
  forall t r v, so_range o = Some t -> parse_range t = Some r -> p_version p = Some v -> contains r v = true.
Definition wanted (re : text -> option (text -> bool)) (o : soptions) (p : package) : Prop := name_ok re o (p_name p) /\ version_ok o p.
(** the text of a version *)
Definition shown (p : package) (t : text) : Prop := match p_version p with Some v => t = v_str v | None => t = T "unknown" end.
(** [t] is the greatest text of a list *)
Definition greatest (t : text) (l : list text) : Prop := In t l /\ forall u, In u l -> text_cmp u t <> Gt.
(** [vs] has the versions of the wanted packages of a family, each once, in the order of their texts *)
Definition versions_of (re : text -> option (text -> bool)) (o : soptions) (ps : list package) (n : text) (vs : list text) : Prop :=
  StronglySorted (fun a b => text_cmp a b = Lt) vs /\
  forall t, In t vs <-> exists p, In p ps /\ p_name p = n /\ wanted re o p /\ shown p t.
(** the result for a family of a repository *)
Definition describes (re : text -> option (text -> bool)) (o : soptions) (repo : text) (ps : list package) (n : text) (r : sresult) : Prop :=
  exists vs, versions_of re o ps n vs /\ vs <> [] /\ sr_name r = n /\ sr_repo r = repo /\
    (exists t, greatest t vs /\ sr_latest r = Some t /\ sr_versions r = if so_latest o then [t] else vs).
(** the results for a family, repository by repository *)
Inductive results_for (re : text -> option (text -> bool)) (o : soptions) (n : text) : list (text * list package) -> list sresult -> Prop :=
| results_nil : results_for re o n [] []
| results_none repo ps rs l : (forall p, In p ps -> p_name p = n -> ~ wanted re o p) -> results_for re o n rs l -> results_for re o n ((repo, ps) :: rs) l
| results_some repo ps rs r l : describes re o repo ps n r -> results_for re o n rs l -> results_for re o n ((repo, ps) :: rs) (r :: l).

(** ** Distances *)
(** [walk f a n b]: [b] is reached from [a] in [n] steps *)
Inductive walk (f : text -> list text) (a : text) : nat -> text -> Prop :=
| walk_here : walk f a 0 a
| walk_on n b c : walk f a n b -> In c (f b) -> walk f a (S n) c.
(** the shortest way has [n] steps *)
Definition distance (f : text -> list text) (a : text) (n : nat) (b : text) : Prop := walk f a n b /\ forall m, m < n -> ~ walk f a m b.
(** the children of a node *)
Definition edge (graph : list (text * list text)) (x y : text) : Prop := exists l, In (x, l) graph /\ In y l.
(** the first version directory that is listed has a package with the property *)
Definition first_has (P : spack -> Prop) (paths : list families) (n : text) : Prop :=
  exists fs p vs, In fs paths /\ In (n, Some p :: vs) fs /\ P p.
(** some version has it *)
Definition some_has (P : spack -> Prop) (paths : list families) (n : text) : Prop :=
  exists fs p vs, In fs paths /\ In (n, vs) fs /\ In (Some p) vs /\ P p.
(** a requirement has the text of a name in it *)
Definition mentions (n : text) (build : bool) (p : spack) : Prop :=
  exists r a b, (In r (sk_requires p) \/ (build = true /\ In r (sk_build p))) /\ r = a ++ n ++ b.
