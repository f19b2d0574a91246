(** What a resolution is, for the A* search. Of the model only the types and the parsers are used. *)
From Verif Require Import Base Maps Version_model Range_model Requirement_model Package_model.

(** the version of the package is in the range of the requirement *)
Definition fits (r : package_req) (p : package) : Prop :=
  forall t v g, pr_spec r = Some t -> p_version p = Some v -> parse_range t = Some g -> contains g v = true.
(** the package may be used at all *)
Definition allowed (pre : bool) (p : package) : Prop := pre = true \/ forall v, p_version p = Some v -> is_prerelease v = false.
(** the requirements written in a package *)
Definition requires (p : package) (r : package_req) : Prop := exists t, In t (p_requires p) /\ parse_package_req t = Some r.
(** a package that the repositories offer for a name *)
Definition offered (repo : text -> option (list package)) (n : text) (p : package) : Prop := exists ps, repo n = Some ps /\ In p ps.
(** a requirement that can come up *)
Definition relevant (repo : text -> option (list package)) (rs : list package_req) (r : package_req) : Prop := In r rs \/ exists n p, offered repo n p /\ requires p r.
(** a choice of packages by name: from the repositories, and with all that is required *)
Definition from_repo (repo : text -> option (list package)) (pre : bool) (sel : list (text * package)) : Prop := forall n p, aget n sel = Some p -> offered repo n p /\ allowed pre p.
Definition meets (sel : list (text * package)) (r : package_req) : Prop := exists p, aget (pr_name r) sel = Some p /\ fits r p.
Definition names (sel : list (text * package)) (r : package_req) : Prop := exists p, aget (pr_name r) sel = Some p.
(** every requirement asked for or written in a chosen package has the property *)
Definition closed_for (P : package_req -> Prop) (rs : list package_req) (sel : list (text * package)) : Prop :=
  (forall r, In r rs -> P r) /\ (forall n p r, aget n sel = Some p -> requires p r -> P r).
Definition solution (repo : text -> option (list package)) (pre : bool) (rs : list package_req) (sel : list (text * package)) : Prop :=
  from_repo repo pre sel /\ closed_for (meets sel) rs sel.
(** nothing is chosen without being asked for *)
Definition wanted (rs : list package_req) (sel : list (text * package)) : Prop :=
  forall n p, aget n sel = Some p -> exists r, pr_name r = n /\ fits r p /\ (In r rs \/ exists m q, aget m sel = Some q /\ requires q r).
(** packages are offered under their own name *)
Definition proper (repo : text -> option (list package)) : Prop := forall n p, offered repo n p -> p_name p = n.
(** all requirements on a name accept the same packages *)
Definition uniform (repo : text -> option (list package)) (rs : list package_req) : Prop :=
  forall r r' p, relevant repo rs r -> relevant repo rs r' -> pr_name r = pr_name r' -> offered repo (pr_name r) p -> fits r p -> fits r' p.
(** every package has a version, and is the only one of its name and version *)
Definition versioned (repo : text -> option (list package)) : Prop :=
  forall n p, offered repo n p -> exists v, p_version p = Some v /\ forall p' v', offered repo n p' -> p_version p' = Some v' -> v_str v' = v_str v -> p' = p.
(** requirements are told apart by their text, which is not the text of a version *)
Definition legible (repo : text -> option (list package)) (rs : list package_req) : Prop :=
  (forall r r', relevant repo rs r -> relevant repo rs r' -> show_package_req r = show_package_req r' -> r = r') /\
  (forall r n p v, relevant repo rs r -> offered repo n p -> p_version p = Some v -> show_package_req r <> v_str v).
(** the cost of a choice *)
Definition total (cost : package -> nat) (sel : list (text * package)) : nat := list_sum (map (fun e => cost (snd e)) sel).
(** [u] agrees with the choice [sel], and [sel] meets what [u] still needs *)
Definition part_of (resolved : list (text * package)) (pending : list package_req) (sel : list (text * package)) : Prop :=
  (forall n p, aget n resolved = Some p -> aget n sel = Some p) /\ (forall r, In r pending -> meets sel r).

(** the number that lowers the cost of a version: the first part of its text that is a number *)
Inductive leads : list text -> N -> Prop :=
| leads_none l : (forall t, In t l -> parse_u64 t = None) -> leads l 0
| leads_at a t b n : (forall u, In u a -> parse_u64 u = None) -> parse_u64 t = Some n -> leads (a ++ t :: b) n.
(** a package requires another by the part of a requirement before the first dash *)
Definition dashed (p : package) (n : text) : Prop := exists t, In t (p_requires p) /\ hd_error (split_on "-"%char t) = Some n.
