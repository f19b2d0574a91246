(** What a resolver of conflicts should choose, and what a collection of conflicts holds. *)
From Verif Require Import Base Version_model Requirement_model Clash_model.
Open Scope list_scope.

(** the requirement writes the version *)
Definition writes (r : package_req) (v : version) : Prop := exists s, pr_spec r = Some s /\ parse_version s = Some v.
(** the greatest written version *)
Definition greatest_written (rs : list package_req) (v : version) : Prop :=
  (exists r, In r rs /\ writes r v) /\ forall r w, In r rs -> writes r w -> vcmp w v <> Gt.
(** the least written version *)
Definition least_written (rs : list package_req) (v : version) : Prop :=
  (exists r, In r rs /\ writes r v) /\ forall r w, In r rs -> writes r w -> vcmp v w <> Gt.
(** no requirement writes a version *)
Definition none_written (rs : list package_req) : Prop := forall r v, In r rs -> ~ writes r v.
(** versions written by the requirements lie in S *)
Definition written_in (S : version -> Prop) (rs : list package_req) : Prop := forall r v, In r rs -> writes r v -> S v.

(** the conflicts of a name that were added and not removed since, in the order of the calls *)
Inductive recorded (n : text) : list call -> list clash -> Prop :=
| rec_none : recorded n [] []
| rec_add ks l c : recorded n ks l -> k_name c = n -> recorded n (ks ++ [Add c]) (l ++ [c])
| rec_other ks l c : recorded n ks l -> k_name c <> n -> recorded n (ks ++ [Add c]) l
| rec_remove ks l : recorded n ks l -> recorded n (ks ++ [Remove n]) []
| rec_keep ks l m : recorded n ks l -> m <> n -> recorded n (ks ++ [Remove m]) l.
