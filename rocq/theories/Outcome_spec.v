(** What the results of a resolution should mean, stated without the functions that compute them. *)
From Verif Require Import Base Maps Outcome_model.
Open Scope string_scope. Open Scope list_scope.

(** the first and the last package with a name *)
Definition first_with (n : text) (ps : list package) (p : package) : Prop := exists a b, ps = a ++ p :: b /\ p_name p = n /\ ~ In n (map p_name a).
Definition last_with (n : text) (ps : list package) (p : package) : Prop := exists a b, ps = a ++ p :: b /\ p_name p = n /\ ~ In n (map p_name b).
(** a package that can be used *)
Record usable (p : package) : Prop := {
  u_name : p_name p <> [];
  u_chars : forall c, In c (p_name p) -> is_alnum c = true \/ c = "_"%char \/ c = "-"%char;
  u_version : p_version p <> Some [];
  u_requires : ~ In [] (p_requires p);
  u_build : ~ In [] (p_build p);
  u_private : ~ In [] (p_private p);
  u_variants : forall v, In v (p_variants p) -> ~ In [] v }.
(** names that are the same but for capital letters *)
Definition same_name (a b : text) : Prop := map to_upper a = map to_upper b.

(** what is done with a list of requirements *)
Inductive change := Add (n r : text) | Remove (n : text).
(** the requirements of a name: those added since it was removed last; the latest change comes first *)
Fixpoint since (n : text) (h : list change) : list text :=
  match h with
  | [] => []
  | Add m r :: t => if text_eqb m n then since n t ++ [r] else since n t
  | Remove m :: t => if text_eqb m n then [] else since n t
  end.
(** what is done with a cache *)
Inductive use := Get (n : text) | Put (n : text) (vs : list text) | Drop (n : text) | Clear.
(** what is there for a name, and the lookups that found something and those that did not, since all was cleared; the latest use comes first *)
Fixpoint there (n : text) (h : list use) : option (list text) :=
  match h with
  | [] | Clear :: _ => None
  | Get _ :: t => there n t
  | Put m vs :: t => if text_eqb m n then Some vs else there n t
  | Drop m :: t => if text_eqb m n then None else there n t
  end.
Fixpoint found (b : bool) (h : list use) : nat :=
  match h with
  | [] | Clear :: _ => 0
  | Get n :: t => (if Bool.eqb b (match there n t with Some _ => true | None => false end) then 1 else 0) + found b t
  | _ :: t => found b t
  end.
