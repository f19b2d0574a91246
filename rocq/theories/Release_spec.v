(** What a release may touch, and what its success should mean. *)
From Verif Require Import Base Maps Release_model.
Open Scope string_scope.
Open Scope list_scope.

(** nothing outside of the paths that start with root is made, changed or removed *)
Definition only_below (root : text) (d d' : disk) : Prop :=
  forall p, starts_with root p = false -> content d' p = content d p /\ (In p (d_dirs d') <-> In p (d_dirs d)).
(** every tag that was there is there with its message, and at most the given one is new *)
Definition tags_grow (t : text) (ts ts' : tags) : Prop :=
  (forall n m, aget n ts = Some m -> aget n ts' = Some m) /\ (forall n, n <> t -> aget n ts' = aget n ts).
(** the system refuses nothing *)
Definition nothing_refused (f : refusals) : Prop := (forall p, no_dir f p = false) /\ (forall p, no_write f p = false).
(** the package file in a directory: package.py where it is there, otherwise package.yaml *)
Definition package_file (d : disk) (source file name : text) : Prop :=
  (file = source ++ T "/package.py" /\ name = T "package.py" /\ exists c, content d file = Some c) \/
  (file = source ++ T "/package.yaml" /\ name = T "package.yaml" /\ content d (source ++ T "/package.py") = None /\ ~ In (source ++ T "/package.py") (d_dirs d) /\ exists c, content d file = Some c).
(** a directory as it is usually written: not empty, without a slash at the end *)
Definition usual (p : text) : Prop := exists a c, p = a ++ [c] /\ c <> "/"%char.
(** the package file of the directory can be read as a package with a name and a version *)
Definition readable (o : around) (d : disk) (source : text) (p : rpkg) : Prop :=
  exists file name c, package_file d source file name /\ content d file = Some c /\ o_load o file c = Some p /\ k_name p <> [] /\ k_version p <> None.
(** the first occurrences of the elements of a list *)
Inductive firsts {A} : list A -> list A -> Prop :=
| firsts_nil : firsts [] []
| firsts_old xs l x : firsts xs l -> In x l -> firsts (xs ++ [x]) l
| firsts_new xs l x : firsts xs l -> ~ In x l -> firsts (xs ++ [x]) (l ++ [x]).
(** the state a release leaves *)
Definition after (x : outcome) : st := match x with Failed s => s | Done _ _ s => s end.
(** the system the release uses *)
Definition used (o : around) (m : manager) (source : text) (d : disk) : option kind :=
  if m_skip_vcs m then None else match detect d source with Some k => if valid_state k (o_repo o k) then Some k else None | None => None end.
(** it found a repository that it does not accept *)
Definition rejected (o : around) (m : manager) (source : text) (d : disk) : Prop :=
  m_skip_vcs m = false /\ exists k, detect d source = Some k /\ valid_state k (o_repo o k) = false.
(** the message of the tag *)
Definition message_of (a : rargs) (e : meets) (p : rpkg) : text :=
  match a_message a with Some m => m | None => match (match a_file a with Some f => e_file e f | None => None end) with Some m => m | None => T "Release " ++ tag_name p end end.
(** the checks before the builds *)
Definition checks_pass (a : rargs) (e : meets) (w : repos) (p : rpkg) : Prop :=
  e_package e = Some p /\ match a_vcs a with Some v => v = T "git" | None => e_marks e Git = true end /\
  (a_skip_errors a = true \/ exists b, e_status e = Some (b, [])) /\ (a_ignore_tag a = true \/ ahas (tag_name p) (r_tags w) = false).
