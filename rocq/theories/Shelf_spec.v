(** What a repository on disk shows, and what its operations may touch. Of the model only the type of the disk is used. *)
From Verif Require Import Base Maps Version_model Files_model Files_spec Shelf_model.
Open Scope string_scope. Open Scope list_scope.

(** what is at a path below the location *)
Definition look (s : shelf) (p : path) : option node := match s with Some es => get p (Dir es) | None => None end.
(** directories have one entry of a name *)
Definition tidy_shelf (s : shelf) : Prop := match s with Some es => tidy (Dir es) | None => True end.
(** a name of one directory *)
Definition plain_name (n : text) : Prop := n <> [] /\ n <> T "." /\ n <> T ".." /\ ~ In "/"%char n.
(** texts that std::path reads as a single name: the name, then separators with nothing or a dot behind them *)
Definition reads_as (value n : text) : Prop := plain_name n /\ exists bs : list bool, value = n ++ concat (map (fun b : bool => if b then T "/." else T "/") bs).
(** the file that hides a version *)
Definition ignore_file (v : text) : text := T ".ignore" ++ v.
Definition unlisted_name (n : text) : Prop := exists r, n = "."%char :: r \/ n = "_"%char :: r.
(** a version directory is shown *)
Definition hidden (s : shelf) (n v : text) : Prop := exists c, look s [n; ignore_file v] = Some (File c).
Definition has_version (s : shelf) (n v : text) : Prop := exists es, look s [n; v] = Some (Dir es).
Definition shown (s : shelf) (n v : text) : Prop := has_version s n v /\ ~ unlisted_name v /\ ~ hidden s n v.
(** nothing but a file has the name of the marker *)
Definition marker_free (s : shelf) (n v : text) : Prop := forall x, look s [n; ignore_file v] = Some x -> exists c, x = File c.
(** a family is missing or a directory *)
Definition family_free (s : shelf) (n : text) : Prop := forall x, look s [n] = Some x -> exists es, x = Dir es.
(** only what is at or below one of these paths may differ, and the directories above them *)
Definition touches (ps : list path) (s s' : shelf) : Prop := forall q, (forall p, In p ps -> apart p q) -> look s' q = look s q.
(** every version shown is one that was shown, with everything in it *)
Definition whole (s s' : shelf) : Prop := forall n v, shown s' n v -> shown s n v /\ forall p, look s' (n :: v :: p) = look s (n :: v :: p).
(** a version hidden for at least that many seconds *)
Definition long_hidden (age : text -> text -> option N) (least : N) (s : shelf) (n v : text) : Prop :=
  v <> [] /\ hidden s n v /\ exists a, age n v = Some a /\ (least <= a)%N.
Definition no_failure (k : nat) : bool := false.
(** names as a disk has them *)
Definition proper (s : shelf) : Prop := (forall n, look s [n] <> None -> plain_name n) /\ (forall n v, look s [n; v] <> None -> plain_name v).
