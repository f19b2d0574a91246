(** What a comparison of two lists of packages, and of two packages, should say. *)
From Verif Require Import Base Version_model Sorting Requirement_model Requirement_spec Package_model Order_spec Diff_model.
Open Scope string_scope.
Open Scope list_scope.

(** no package of this name has a version *)
Definition absent (l : list package) (n : text) : Prop := forall q, In q l -> p_name q = n -> p_version q = None.
(** the last package of this name that has a version has this one *)
Definition current (l : list package) (n : text) (v : version) : Prop :=
  exists l1 p l2, l = l1 ++ p :: l2 /\ p_name p = n /\ p_version p = Some v /\ absent l2 n.

(** the entries a comparison must have *)
Inductive entry (old new : list package) : pdiff -> Prop :=
| e_added n v : absent old n -> current new n v -> entry old new (mkDiff n None (Some (v_str v)) Added)
| e_removed n v : current old n v -> absent new n -> entry old new (mkDiff n (Some (v_str v)) None Removed)
| e_same n a b : current old n a -> current new n b -> v_str a = v_str b ->
    entry old new (mkDiff n (Some (v_str a)) (Some (v_str b)) Unchanged)
| e_up n a b : current old n a -> current new n b -> v_str a <> v_str b -> vcmp a b = Lt ->
    entry old new (mkDiff n (Some (v_str a)) (Some (v_str b)) Upgraded)
| e_down n a b : current old n a -> current new n b -> v_str a <> v_str b -> vcmp a b <> Lt ->
    entry old new (mkDiff n (Some (v_str a)) (Some (v_str b)) Downgraded).

(** added, removed, upgraded, downgraded, unchanged *)
Definition place (c : change) : nat := match c with Added => 1 | Removed => 2 | Upgraded => 3 | Downgraded => 4 | Unchanged => 5 end.
(** [a] is listed before [b] *)
Definition listed_before (a b : pdiff) : Prop :=
  place (d_change a) < place (d_change b) \/ (d_change a = d_change b /\ text_cmp (d_name a) (d_name b) = Lt).

(** the number of members with a property *)
Inductive counted {A} (P : A -> Prop) : list A -> nat -> Prop :=
| k_nil : counted P [] 0
| k_yes x l k : P x -> counted P l k -> counted P (x :: l) (S k)
| k_no x l k : ~ P x -> counted P l k -> counted P (x :: l) k.

(** all packages have versions and names are not repeated *)
Definition usual_list (l : list package) : Prop := NoDup (map p_name l) /\ forall p, In p l -> p_version p <> None.
(** the pairs of names and version texts *)
Definition shown_in (l : list package) (n s : text) : Prop := exists p v, In p l /\ p_name p = n /\ p_version p = Some v /\ v_str v = s.

(** the same difference seen from the other side *)
Definition turned_change (c : change) : change :=
  match c with Added => Removed | Removed => Added | Upgraded => Downgraded | Downgraded => Upgraded | Unchanged => Unchanged end.
(** the same for an entry *)
Definition turned (d : pdiff) : pdiff := mkDiff (d_name d) (d_new d) (d_old d) (turned_change (d_change d)).
(** versions of one name that compare equal are written alike *)
Definition written_alike (old new : list package) : Prop :=
  forall p q a b, In p old -> In q new -> p_name p = p_name q -> p_version p = Some a -> p_version q = Some b ->
    vcmp a b = Eq -> v_str a = v_str b.

(** a text of the form name, dash, version *)
Definition request_text (n : text) (v : version) : text := n ++ T "-" ++ v_str v.
(** a name without dashes and a version with a text *)
Definition plain_request (n : text) (v : version) : Prop := name_text n /\ ~ In "-"%char n /\ written v.

(** ** the command *)

(** a version text without a dash that begins with a digit *)
Definition dashless (v : text) : Prop := ~ In "-"%char v /\ exists c r, v = c :: r /\ is_digit c = true.
(** [q] is an earlier version of [p], and none lies between *)
Definition just_before (l : list package) (p q : package) : Prop :=
  exists a b, p_version p = Some a /\ p_version q = Some b /\ In q l /\ vcmp b a = Lt /\
    forall r c, In r l -> p_version r = Some c -> vcmp c a = Lt -> vcmp c b <> Gt.
(** [p] has the greatest version of the list *)
Definition newest (l : list package) (p : package) : Prop :=
  exists a, p_version p = Some a /\ In p l /\ forall r c, In r l -> p_version r = Some c -> vcmp c a <> Gt.
(** the same members *)
Definition same_members {A} (a b : list A) : Prop := forall x, In x a <-> In x b.
(** the line for an entry *)
Inductive line_says : pdiff -> text -> Prop :=
| l_added n v : line_says (mkDiff n None (Some v) Added) (T "  + " ++ n ++ T " " ++ v)
| l_removed n v : line_says (mkDiff n (Some v) None Removed) (T "  - " ++ n ++ T " " ++ v)
| l_up n v w : line_says (mkDiff n (Some v) (Some w) Upgraded) (T "  ^ " ++ n ++ T " " ++ v ++ T " -> " ++ w)
| l_down n v w : line_says (mkDiff n (Some v) (Some w) Downgraded) (T "  v " ++ n ++ T " " ++ v ++ T " -> " ++ w).
