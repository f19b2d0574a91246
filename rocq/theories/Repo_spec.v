(** What a repository holds. *)
From Verif Require Import Base Version_model Package_model Order_model Order_spec Repo_model.

(** All directories that have to be listed can be listed. *)
Fixpoint listable (d : rdir) : bool :=
  match d with
  | RDir _ readable subs =>
    readable && forallb (fun e => match e with (_, RDir (Some _) _ _) => true | (_, x) => listable x end) subs
  end.
(** The packages below a directory, in the order of the directories. *)
Fixpoint packages_of (d : rdir) : list package :=
  match d with
  | RDir _ _ subs =>
    flat_map (fun e => match e with (_, RDir (Some (Some p)) _ _) => [p] | (_, RDir (Some None) _ _) => [] | (_, x) => packages_of x end) subs
  end.
(** Some descriptor below a directory does not load. *)
Fixpoint broken (d : rdir) : bool :=
  match d with
  | RDir _ _ subs => existsb (fun e => match e with (_, RDir (Some None) _ _) => true | (_, RDir (Some _) _ _) => false | (_, x) => broken x end) subs
  end.
(** The directory [n] of the repository has a descriptor that does not load. *)
Definition family_broken (root : rdir) (n : text) : Prop :=
  match root with
  | RDir _ _ subs => exists x, In (n, x) subs /\ (d_descr x = Some None \/ (d_descr x = None /\ broken x = true))
  end.
(** The packages of a name. *)
Definition named (n : text) (ps : list package) : list package := filter (fun p => text_eqb n (p_name p)) ps.
Definition held (root : rdir) (n : text) : list package := named n (packages_of root).
(** Loaded and broken packages of a name side by side. *)
Definition mixed (root : rdir) (n : text) : Prop := held root n <> [] /\ family_broken root n.
(** A repository without faults as far as [n] goes. *)
Definition sound (root : rdir) (n : text) : Prop := listable root = true /\ ~ family_broken root n.
(** The version of [p] is not lower than that of [q]; a package without version is the lowest. *)
Definition not_lower (p q : package) : Prop := goes_before true p q.
