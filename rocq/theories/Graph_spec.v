(** Specification vocabulary for the dependency graph. *)
From Verif Require Import Base Version_model Range_model Range_spec Requirement_model Maps Package_model Order_spec Graph_model.

Definition any_gorder (o : gorder) : Prop := any_order (go_keys o) /\ forall k, any_order (go_deps o k).
(** [a] is recorded as depending on [b] *)
Definition edge (g : graph) (a b : text) : Prop := exists n, aget a (g_nodes g) = Some n /\ In b (n_deps n).
(** [b] records that [a] depends on it *)
Definition back_edge (g : graph) (b a : text) : Prop := exists n, aget b (g_nodes g) = Some n /\ In a (n_dependents n).
Definition is_node (g : graph) (k : text) : Prop := In k (akeys (g_nodes g)).
(** nodes and sets without duplicates *)
Record well_formed (g : graph) : Prop := {
  wf_keys : NoDup (akeys (g_nodes g));
  wf_sets : forall k n, aget k (g_nodes g) = Some n -> NoDup (n_deps n) /\ NoDup (n_dependents n)
}.
(** every edge joins nodes, and both ends record it *)
Record consistent (g : graph) : Prop := {
  co_wf : well_formed g;
  co_mirror : forall a b, edge g a b <-> back_edge g b a;
  co_nodes : forall a b, edge g a b -> is_node g b
}.
(** edit operations *)
Inductive op := AddPackage (p : package) | AddEdge (from to : text) | Remove (k : text) | Exclude (n : text) | Require (r : package_req).
Definition apply_op (x : op) (g : graph) : graph :=
  match x with
  | AddPackage p => snd (add_package p g)
  | AddEdge a b => snd (add_edge a b g)
  | Remove k => remove_package k g
  | Exclude n => add_exclusion n g
  | Require r => add_requirement r g
  end.
(** packages are new, edges join existing nodes *)
Definition careful (x : op) (g : graph) : Prop :=
  match x with
  | AddPackage p => ~ is_node g (pkg_key p)
  | AddEdge a b => is_node g a -> is_node g b
  | _ => True
  end.
Fixpoint all_careful (xs : list op) (g : graph) : Prop :=
  match xs with [] => True | x :: xs' => careful x g /\ all_careful xs' (apply_op x g) end.
Definition apply_ops (xs : list op) (g : graph) : graph := fold_left (fun g x => apply_op x g) xs g.

(** at least one edge *)
Inductive leads (g : graph) (a : text) : text -> Prop :=
| leads_edge b : edge g a b -> leads g a b
| leads_step b c : leads g a b -> edge g b c -> leads g a c.
Definition loop_free (g : graph) : Prop := forall k, ~ leads g k k.
(** a closed walk, the first node not repeated at the end *)
Definition closed_walk (g : graph) (c : list text) : Prop :=
  c <> [] /\ (forall l1 a b l2, c = l1 ++ a :: b :: l2 -> edge g a b) /\
  (forall a m, c = a :: m -> edge g (last c a) a).
(** [a] stands before [b] *)
Definition before (l : list text) (a b : text) : Prop := exists l1 l2 l3, l = l1 ++ a :: l2 ++ b :: l3.
(** a chain of [n] nodes, each depending on the next *)
Inductive chain_of (g : graph) : text -> nat -> Prop :=
| chain_one k : is_node g k -> chain_of g k 1
| chain_more k d n : edge g k d -> is_node g k -> chain_of g d n -> chain_of g k (S n).
(** every node is filed under the key of its package *)
Definition filed (g : graph) : Prop := forall k n, aget k (g_nodes g) = Some n -> pkg_key (n_package n) = k.
(** the version is allowed by the text of the requirement (a missing or empty text allows everything) *)
Definition spec_allows (r : package_req) (v : version) : Prop :=
  match pr_spec r with
  | None => True
  | Some s => s = [] \/ exists x, parse_range s = Some x /\ contains x v = true
  end.
(** the versions its text mentions are in the set *)
Definition spec_in (S : version -> Prop) (r : package_req) : Prop :=
  forall s x, pr_spec r = Some s -> parse_range s = Some x -> range_in S x.
