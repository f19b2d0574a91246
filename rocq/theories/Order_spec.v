(** Specification vocabulary for package orderers. *)
From Verif Require Import Base Version_model Version_spec Maps Sorting Package_model Order_model.

(** iteration orders a hash map may choose *)
Definition any_order {A} (ord : list A -> list A) : Prop := forall l, Permutation (ord l) l.
(** the packages of one family *)
Definition family (f : text) (ps : list package) : list package := filter (fun p => text_eqb f (p_name p)) ps.
(** all packages carry a version *)
Definition versioned (ps : list package) : Prop := forall p, In p ps -> p_version p <> None.
(** the versions that occur *)
Definition versions_in (S : version -> Prop) (ps : list package) : Prop :=
  forall p v, In p ps -> p_version p = Some v -> S v.
(** comparison is transitive on [S] *)
Definition transitive_versions (S : version -> Prop) : Prop :=
  forall a b c, S a -> S b -> S c -> vcmp a b <> Gt -> vcmp b c <> Gt -> vcmp a c <> Gt.
(** what an orderer makes of a list: its answer, or the list as it is when it declines *)
Definition applied (r : result (option (list package))) (ps : list package) (out : list package) : Prop :=
  r = Ret (Some out) \/ (r = Ret None /\ out = ps).
(** the orderer responsible for a family *)
Definition responsible (dict : list (text * orderer)) (def : option orderer) (f : text) : option orderer :=
  match aget f dict with Some o => Some o | None => def end.
(** no family table inside *)
Definition flat (o : orderer) : Prop := match o with OFamily _ _ => False | _ => True end.
(** values an orderer can hold *)
Definition holdable (o : orderer) : Prop :=
  match o with
  | OSplit v _ => parsed v
  | OTime ts r _ => (-9223372036854775808 <= ts <= 9223372036854775807)%Z /\ (-2147483648 <= r <= 2147483647)%Z
  | _ => True
  end.
(** each element stands in the relation to every later one *)
Definition pairwise {A} (R : A -> A -> Prop) (l : list A) : Prop :=
  forall l1 x l2 y l3, l = l1 ++ x :: l2 ++ y :: l3 -> R x y.
(** [p] may stand before [q] in ascending (descending) version order, versionless packages last *)
Definition goes_before (desc : bool) (p q : package) : Prop :=
  match p_version p, p_version q with
  | Some x, Some y => if desc then vcmp y x <> Gt else vcmp x y <> Gt
  | None, Some _ => False
  | _, None => True
  end.
(** equal versions, or both versionless *)
Definition same_version (p q : package) : bool :=
  match p_version p, p_version q with
  | Some x, Some y => match vcmp x y with Eq => true | _ => false end
  | None, None => true
  | _, _ => false
  end.
(** a version at or below [v] *)
Definition at_most (v : version) (p : package) : Prop := exists x, p_version p = Some x /\ vcmp x v <> Gt.
(** publication time, 0 when unknown *)
Definition published (p : package) : Z := match p_timestamp p with Some t => t | None => 0 end.
