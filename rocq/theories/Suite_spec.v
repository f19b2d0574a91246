(** Specification vocabulary for suites. *)
From Verif Require Import Base Maps Order_spec Suite_model.
Open Scope char_scope.

(** the editing methods of a suite, and changes through a mutable reference that keep the name and a proper alias map *)
Inductive edit : suite -> suite -> Prop :=
| edit_add n rs s s' : add_context n rs s = Some s' -> edit s s'
| edit_remove n s s' : remove_context n s = Some s' -> edit s s'
| edit_alias n a t s s' : alias_tool n a t s = Some s' -> edit s s'
| edit_hide n t s s' : hide_tool n t s = Some s' -> edit s s'
| edit_modify n f s s' : (forall c, sc_name (f c) = sc_name c /\ NoDup (akeys (sc_aliases (f c)))) -> modify_context n f s = Some s' -> edit s s'
| edit_mode s m : edit s (mkSuite (su_contexts s) (su_desc s) m)
| edit_desc s d : edit s (mkSuite (su_contexts s) d (su_mode s)).
Inductive history : suite -> Prop :=
| history_new : history new_suite
| history_edit s s' : history s -> edit s s' -> history s'.
(** letters, digits, dashes and underscores, at least one *)
Definition good_name (n : text) : Prop := n <> [] /\ forall c, In c n -> is_alnum c = true \/ c = "-" \/ c = "_".

(** the context exposes the tool [o] under the name [a] *)
Definition provides (c : sctx) (a o : text) : Prop :=
  sc_disabled c = false /\ aget a (sc_aliases c) = Some o /\ ~ In o (sc_hidden c).
(** what the table says about it under the name [n] *)
Definition entry (n o : text) (c : sctx) (t : stool) : Prop :=
  st_name t = n /\ st_original t = o /\ st_context t = sc_name c /\ st_package t = hd [] (sc_requests c) /\
  (st_alias t = true <-> n <> o) /\ st_hidden t = false.
(** the first and the last context exposing a name *)
Definition first_of (cs : list sctx) (a o : text) (c : sctx) : Prop :=
  exists u v, cs = u ++ c :: v /\ provides c a o /\ forall c' o', In c' u -> ~ provides c' a o'.
Definition last_of (cs : list sctx) (a o : text) (c : sctx) : Prop :=
  exists u v, cs = u ++ c :: v /\ provides c a o /\ forall c' o', In c' v -> ~ provides c' a o'.
(** two contexts expose the name *)
Definition clash (cs : list sctx) (a : text) (c c' : sctx) : Prop :=
  exists u v w o o', cs = u ++ c :: v ++ c' :: w /\ provides c a o /\ provides c' a o'.
(** proper suites: alias maps have distinct keys *)
Definition proper (cs : list sctx) : Prop := forall c, In c cs -> NoDup (akeys (sc_aliases c)).
Definition every_order (ord : nat -> list (text * text) -> list (text * text)) : Prop := forall i, any_order (ord i).
(** the names made for clashes are new and distinct *)
Definition apart (cs : list sctx) : Prop :=
  (forall c a o c' a' o', In c cs -> In c' cs -> provides c a o -> provides c' a' o' -> a' <> sc_name c ++ T "_" ++ a) /\
  (forall c a o c' a' o', In c cs -> In c' cs -> provides c a o -> provides c' a' o' ->
     sc_name c ++ T "_" ++ a = sc_name c' ++ T "_" ++ a' -> sc_name c = sc_name c' /\ a = a').

(** ** Files *)
(** equal up to the order of the alias maps *)
Definition same_ctx (c c' : sctx) : Prop :=
  sc_name c = sc_name c' /\ sc_requests c = sc_requests c' /\ Permutation (sc_aliases c) (sc_aliases c') /\ sc_hidden c = sc_hidden c' /\
  sc_prefix c = sc_prefix c' /\ sc_priority c = sc_priority c' /\ sc_disabled c = sc_disabled c'.
Definition same_suite (s s' : suite) : Prop :=
  Forall2 same_ctx (su_contexts s) (su_contexts s') /\ su_desc s = su_desc s' /\ su_mode s = su_mode s'.
(** the YAML library reads what it wrote, and reads nothing from an empty text *)
Definition faithful (write : suite_file -> text) (read : text -> option suite_file) : Prop :=
  read [] = None /\
  forall f, exists g, read (write f) = Some g /\ Forall2 same_ctx (sf_contexts f) (sf_contexts g) /\ sf_desc f = sf_desc g /\ sf_mode f = sf_mode g.
(** equal except for priority and prefix *)
Definition same_but_rank (c c' : sctx) : Prop :=
  sc_name c = sc_name c' /\ sc_requests c = sc_requests c' /\ sc_aliases c = sc_aliases c' /\ sc_hidden c = sc_hidden c' /\ sc_disabled c = sc_disabled c'.

(** ** Edits *)
(** one context is put in the place of another *)
Definition swapped (n : text) (s s' : suite) (c c' : sctx) : Prop :=
  exists u v, su_contexts s = u ++ c :: v /\ su_contexts s' = u ++ c' :: v /\ sc_name c = n /\ (forall x, In x u -> sc_name x <> n) /\ su_desc s' = su_desc s /\ su_mode s' = su_mode s.
(** nothing but the aliases and hidden tools differs *)
Definition same_outside (c c' : sctx) : Prop :=
  sc_name c' = sc_name c /\ sc_requests c' = sc_requests c /\ sc_prefix c' = sc_prefix c /\ sc_priority c' = sc_priority c /\ sc_disabled c' = sc_disabled c.
Definition has_context (n : text) (s : suite) : Prop := exists c, In c (su_contexts s) /\ sc_name c = n.

