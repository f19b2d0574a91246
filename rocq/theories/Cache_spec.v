(** Specification vocabulary for the two-level cache. *)
From Verif Require Import Base Maps Cache_model.

(** the priorities order the keys of a level somehow *)
Definition ranks (r : ranking) : Prop := forall m, Permutation (r m) (akeys m).
Definition op_ranks (o : cop) : Prop := match o with OGet r _ _ _ => ranks r | OPut r _ _ _ => ranks r | _ => True end.
(** the value was stored at that time, and the key was not removed and the cache not cleared since *)
Definition put_since (os : list cop) (k : text) (t : Z) (v : text) : Prop :=
  exists u r w, os = u ++ OPut r t k v :: w /\ ~ In (ORemove k) w /\ ~ In OClear w.
(** it is the value stored last *)
Definition latest (os : list cop) (k : text) (t : Z) (v : text) : Prop :=
  exists u r w, os = u ++ OPut r t k v :: w /\ ~ In (ORemove k) w /\ ~ In OClear w /\ forall r' t' v', ~ In (OPut r' t' k v') w.
(** a value stored at [t] with lifetime [ttl] in seconds may be served at [now] *)
Definition alive (ttl now t : Z) : Prop := (ttl = 0 \/ (t <= now /\ now < t + ttl * NS))%Z.
(** the lookups since the cache was last cleared *)
Fixpoint lookups (ros : list cop) : nat :=
  match ros with
  | [] => 0
  | OClear :: _ => 0
  | OGet _ _ _ _ :: ros' => S (lookups ros')
  | _ :: ros' => lookups ros'
  end.

(** ** Tasks *)
(** a task about to call the cache *)
Definition fresh (x : task) : Prop := match x with TPut _ _ _ | TGet _ _ _ | TRemove1 _ | TClear1 => True | _ => False end.
Definition start (xs : list task) : system := mkSystem xs [] [].
