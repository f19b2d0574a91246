(** Specification vocabulary for release hooks. *)
From Verif Require Import Base Maps Order_spec Hook_model.
Open Scope char_scope.

(** the registry after registrations one after another, and the latest registration of a name *)
Definition after {A} (l : list (text * factory A)) : registry A := fold_left (fun r nf => register (fst nf) (snd nf) r) l new_registry.
Definition latest {A} (l : list (text * factory A)) (n : text) (f : factory A) : Prop := exists u v, l = u ++ (n, f) :: v /\ ~ In n (map fst v).
(** the hooks for the names, in their order, without those for which [make] gives none *)
Inductive picked {A B} (make : A -> option B) : list A -> list B -> Prop :=
| picked_nil : picked make [] []
| picked_take x y l m : make x = Some y -> picked make l m -> picked make (x :: l) (y :: m)
| picked_skip x l m : make x = None -> picked make l m -> picked make (x :: l) m.
(** the name of a JSON file: something other than the end of a directory comes before the extension *)
Definition json_name (p : text) : Prop := exists u c, p = u ++ c :: T ".json" /\ c <> "/".
(** the text of a configuration at a path, read by the library its name asks for *)
Definition configured {C} (json toml : text -> option C) (fs : text -> at_path) (p : text) (c : C) : Prop :=
  exists t, fs p = Content t /\ (json_name p -> json t = Some c) /\ (~ json_name p -> toml t = Some c).
