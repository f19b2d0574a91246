(** What the search command should show, and how times and lists of paths should be read. *)
From Verif Require Import Base Version_model Package_model Order_spec Pyfile_model Query_model.
Open Scope string_scope.
Open Scope list_scope.

(** [q] occurs in [s] *)
Definition occurs (q s : text) : Prop := exists u v, s = u ++ q ++ v.
(** the text with the letters the search compares *)
Definition seen (a : qargs) (s : text) : text := if q_case a then s else map to_lower s.
(** a text is found by the query *)
Definition finds (re : text -> option (text -> bool)) (a : qargs) (s : text) : Prop :=
  if q_regex a then exists m, re (seen a (q_query a)) = Some m /\ m (seen a s) = true
  else occurs (seen a (q_query a)) (seen a s).
(** a package is found by the query *)
Definition found_by (re : text -> option (text -> bool)) (description : N -> option text) (a : qargs) (p : package) : Prop :=
  finds re a (p_name p) \/
  (q_description a = true /\ exists d, description (p_rest p) = Some d /\ finds re a d) \/
  (q_tools a = true /\ exists t, In t (p_tools p) /\ finds re a t) \/
  (q_requirements a = true /\ exists r, In r (p_requires p) /\ finds re a r) \/
  (q_description a = false /\ q_tools a = false /\ q_requirements a = false /\
    ((exists d, description (p_rest p) = Some d /\ occurs (seen a (q_query a)) (seen a d)) \/
     (exists t, In t (p_tools p) /\ occurs (seen a (q_query a)) (seen a t)))).

(** the time of a package, the beginning of 1970 when it has none *)
Definition stamped (p : package) (t : Z) : Prop := p_timestamp p = Some t \/ (p_timestamp p = None /\ t = 0%Z).
(** the package lies in the asked times *)
Definition in_time (newer older : option Z) (p : package) : Prop :=
  exists t, stamped p t /\ (forall n, newer = Some n -> (n < t)%Z) /\ (forall o, older = Some o -> (t < o)%Z).
(** a variant of the package mentions the text *)
Definition variant_mentions (r : text) (p : package) : Prop := exists v x, In v (p_variants p) /\ In x v /\ occurs (map to_lower r) (map to_lower x).
(** the package has the asked kind and variant *)
Definition of_kind (a : qargs) (p : package) : Prop :=
  q_type a = T "family" \/
  (q_type a <> T "family" /\ (q_type a = T "variant" -> p_variants p <> []) /\ forall r, q_variant a = Some r -> variant_mentions r p).

(** the order of the results *)
Definition shown_before (a : qargs) (x y : hit) : Prop :=
  if text_eqb (q_sort a) (T "version") then goes_before true (h_package x) (h_package y)
  else if text_eqb (q_sort a) (T "score") then h_score y <= h_score x
  else text_cmp (p_name (h_package x)) (p_name (h_package y)) <> Gt.
(** [l] is the beginning of [m], at most [k] long *)
Definition first_of {A} (k : nat) (l m : list A) : Prop := exists r, m = l ++ r /\ length l <= k /\ (length l < k -> r = []).
(** [p] is not older than [q] *)
Definition not_older (p q : package) : Prop :=
  match p_version p, p_version q with
  | Some x, Some y => vcmp y x <> Gt
  | None, Some _ => False
  | _, None => True
  end.

(** a number with one of the letters d w m y, and its seconds *)
Inductive unit_of : ascii -> Z -> Prop :=
| u_d : unit_of "d"%char 86400%Z | u_D : unit_of "D"%char 86400%Z
| u_w : unit_of "w"%char 604800%Z | u_W : unit_of "W"%char 604800%Z
| u_m : unit_of "m"%char 2592000%Z | u_M : unit_of "M"%char 2592000%Z
| u_y : unit_of "y"%char 31536000%Z | u_Y : unit_of "Y"%char 31536000%Z.

(** the list of texts between separators *)
Inductive separated (sep : ascii) : list text -> text -> Prop :=
| sep_one p : ~ In sep p -> separated sep [p] p
| sep_more p l s : ~ In sep p -> separated sep l s -> separated sep (p :: l) (p ++ sep :: s).
(** a path that is written without blanks around it and without the separator *)
Definition tidy_path (sep : ascii) (p : text) : Prop := p <> [] /\ ~ In sep p /\ trim p = p.

(** [n] is [k] points when [P] holds and none otherwise *)
Definition worth (P : Prop) (k n : nat) : Prop := (P /\ n = k) \/ (~ P /\ n = 0).
(** no field is asked for *)
Definition no_field (a : qargs) : Prop := q_description a = false /\ q_tools a = false /\ q_requirements a = false.
(** the points of a package *)
Definition points (re : text -> option (text -> bool)) (description : N -> option text) (a : qargs) (p : package) (n : nat) : Prop :=
  exists n1 n2 n3 n4 n5 n6, n = n1 + n2 + n3 + n4 + n5 + n6 /\
  ((finds re a (p_name p) /\ (q_regex a = true \/ seen a (p_name p) = seen a (q_query a)) /\ n1 = 10) \/
   (finds re a (p_name p) /\ q_regex a = false /\ seen a (p_name p) <> seen a (q_query a) /\ n1 = 5) \/
   (~ finds re a (p_name p) /\ n1 = 0)) /\
  worth (q_description a = true /\ exists d, description (p_rest p) = Some d /\ finds re a d) 3 n2 /\
  worth (q_tools a = true /\ exists t, In t (p_tools p) /\ finds re a t) 2 n3 /\
  worth (q_requirements a = true /\ exists r, In r (p_requires p) /\ finds re a r) 1 n4 /\
  worth (no_field a /\ exists d, description (p_rest p) = Some d /\ occurs (seen a (q_query a)) (seen a d)) 2 n5 /\
  worth (no_field a /\ exists t, In t (p_tools p) /\ occurs (seen a (q_query a)) (seen a t)) 1 n6.
(** the field is one by which the package was found *)
Definition found_in (re : text -> option (text -> bool)) (description : N -> option text) (a : qargs) (p : package) (f : field) : Prop :=
  match f with
  | FName => finds re a (p_name p)
  | FDescription => (q_description a = true /\ exists d, description (p_rest p) = Some d /\ finds re a d) \/
                    (no_field a /\ exists d, description (p_rest p) = Some d /\ occurs (seen a (q_query a)) (seen a d))
  | FTools => (q_tools a = true /\ exists t, In t (p_tools p) /\ finds re a t) \/
              (no_field a /\ exists t, In t (p_tools p) /\ occurs (seen a (q_query a)) (seen a t))
  | FRequirements => q_requirements a = true /\ exists r, In r (p_requires p) /\ finds re a r
  end.
