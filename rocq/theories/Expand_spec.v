(** Words for the expansion of requirements. *)
From Verif Require Import Base.
Open Scope string_scope. Open Scope list_scope.

(** A request without operators and conditions, up to its wildcard: letters, digits, underscores, dashes and dots. *)
Definition simple_request (a : text) : Prop := a <> [] /\ forall c, In c a -> is_alnum c = true \/ c = "_"%char \/ c = "-"%char \/ c = "."%char.
(** A placeholder of the library: an underscore, letters and digits, an underscore. *)
Definition placeholder (u : text) : Prop := exists h, u = "_"%char :: h ++ ["_"%char] /\ forall c, In c h -> is_alnum c = true.
(** The text holds no wildcard. *)
Definition no_star (s : text) : Prop := ~ In "*"%char s.
(** The callback knows packages by their names: it has no answer for a name that ends with a placeholder. *)
Definition knows_names (uid : nat -> text) (q : text -> option text -> option text) : Prop := forall n a v, q (a ++ uid n) v = None.
