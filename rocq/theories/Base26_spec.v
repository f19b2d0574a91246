(** Specification vocabulary for base-26 names. *)
From Verif Require Import Base Maps Order_spec Base26_model.
(** lower-case letters only (possibly empty) *)
Definition lowercase (s : text) : Prop := forall c, In c s -> is_lower c = true.
(** shorter first, then alphabetical *)
Definition shortlex (a b : text) : Prop := length a < length b \/ (length a = length b /\ text_cmp a b = Lt).
(** the sequence obtained by repeated successor *)
Fixpoint nth_name (n : nat) : option text :=
  match n with
  | O => next_base26 None
  | S k => match nth_name k with Some s => next_base26 (Some s) | None => None end
  end.
(** nobody else touches the directory *)
Definition quiet : nat -> dir -> dir := fun _ d => d.
(** other processes only add entries *)
Definition additive (world : nat -> dir -> dir) : Prop := forall i d, exists l, world i d = d ++ l.
(** no lower-case name in the directory is longer than the alphabetically last one *)
Definition even_names (d : dir) : Prop :=
  forall m, In m (akeys d) -> lowercase m -> (forall n, In n (akeys d) -> lowercase n -> text_cmp n m <> Gt) ->
  forall n, In n (akeys d) -> lowercase n -> length n <= length m.
(** linking the sources one after the other, nobody interfering *)
Fixpoint link_all (ord1 ord2 : dir -> dir) (sources : list text) (d : dir) : option dir :=
  match sources with
  | [] => Some d
  | s :: ss => match create_link ord1 ord2 quiet s d with
               | Created _ d' => link_all ord1 ord2 ss d'
               | Existing _ => link_all ord1 ord2 ss d
               | Exhausted => None
               end
  end.
