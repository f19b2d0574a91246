(** Specification vocabulary for version ranges. *)
From Verif Require Import Base Version_model Range_model.

(** Every range a user can obtain through the public constructors and set operations. *)
Inductive built : range -> Prop :=
| built_any : built range_any
| built_none : built range_none
| built_parse s r : parse_range s = Some r -> built r
| built_intersect a b r : built a -> built b -> intersect a b = Some r -> built r
| built_union a b : built a -> built b -> built (union a b)
| built_subtract a b r : built a -> built b -> subtract a b = Some r -> built r.

(** Ranges obtained without ever subtracting. *)
Inductive plain : range -> Prop :=
| plain_any : plain range_any
| plain_none : plain range_none
| plain_parse s r : parse_range s = Some r -> plain r
| plain_intersect a b r : plain a -> plain b -> intersect a b = Some r -> plain r
| plain_union a b : plain a -> plain b -> plain (union a b).

(** [is_any] answers truthfully for this range. *)
Definition honest_any (r : range) : Prop :=
  is_any r = true -> forall v, contains r v = true.

(** the comparison is transitive on the set [S] of versions *)
Definition transitive_on (S : version -> Prop) : Prop :=
  forall a b c, S a -> S b -> S c -> vcmp a b <> Gt -> vcmp b c <> Gt -> vcmp a c <> Gt.

(** the version a bound mentions *)
Definition mentions (b : bound) (v : version) : Prop :=
  match b with
  | BGe w | BGt w | BLe w | BLt w | BEq w | BNe w | BCompat w => w = v
  | BAny | BNone => False
  end.
(** [v] is written somewhere in the alternatives of [r] *)
Definition range_mentions (r : range) (v : version) : Prop :=
  exists bs b, In bs (r_sets r) /\ In b bs /\ mentions b v.
(** all versions written in [r] belong to [S] *)
Definition range_in (S : version -> Prop) (r : range) : Prop :=
  forall v, range_mentions r v -> S v.

(** [>=x] and [<y] bounds only *)
Definition half_open_bound (b : bound) : Prop :=
  match b with BGe _ | BLt _ => True | _ => False end.
Definition half_open (r : range) : Prop :=
  forall bs b, In bs (r_sets r) -> In b bs -> half_open_bound b.
(** every alternative has a [>=x] bound *)
Definition bounded_below (r : range) : Prop :=
  forall bs, In bs (r_sets r) -> exists w, In (BGe w) bs.

(** the text does not contain the given character / the two-dot sign *)
Definition no_char (c : ascii) (s : text) : Prop := ~ In c s.
Definition no_dotdot (s : text) : Prop := forall a b, s <> a ++ T ".." ++ b.
(** the two spellings of the empty range *)
Definition spells_empty (s : text) : Prop := trim s = T "empty" \/ trim s = T "!*".

(** numbers written in decimal, separated by dots *)
Definition dotted (l : list N) : text := join (T ".") (map show_N l).
