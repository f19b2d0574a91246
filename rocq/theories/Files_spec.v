(** Trees on disk, and what operations may do to them. Of the model only the types and [get] are used. *)
From Verif Require Import Base Maps Files_model.

(** [q] is [p] or below it *)
Definition under (p q : path) : Prop := exists r, q = p ++ r.
Definition apart (p q : path) : Prop := ~ under p q /\ ~ under q p.
(** what can be seen at a path *)
Inductive kind := KFile (c : text) | KLink (t : text) | KSpecial | KDir.
Definition kind_of (y : node) : kind := match y with File c => KFile c | Link t => KLink t | Special => KSpecial | Dir _ => KDir end.
Definition seen (r : path) (y : node) : option kind := match get r y with Some z => Some (kind_of z) | None => None end.
(** directories do not have two entries of a name *)
Fixpoint tidy (y : node) : Prop :=
  match y with
  | Dir es => NoDup (akeys es) /\ (fix all (l : list (text * node)) : Prop := match l with [] => True | (_, z) :: r => tidy z /\ all r end) es
  | _ => True
  end.
(** [b] has what [a] has except special files *)
Definition filtered (k : option kind) : option kind := match k with Some KSpecial => None | _ => k end.
Definition same_tree (a b : node) : Prop := forall r, seen r b = filtered (seen r a).
(** the files and links below a node, and the bytes of the files *)
Fixpoint count_files (y : node) : nat :=
  match y with File _ | Link _ => 1 | Special => 0 | Dir es => (fix sum (l : list (text * node)) := match l with [] => 0 | (_, z) :: r => count_files z + sum r end) es end.
Fixpoint count_bytes (y : node) : nat :=
  match y with File c => length c | Link _ | Special => 0 | Dir es => (fix sum (l : list (text * node)) := match l with [] => 0 | (_, z) :: r => count_bytes z + sum r end) es end.
(** everything apart from [p] is as before *)
Definition only_at (p : path) (x x' : node) : Prop := forall q, apart p q -> get q x' = get q x.
(** everything apart from all of these is as before *)
Definition only_among (ps : list path) (x x' : node) : Prop := forall q, (forall p, In p ps -> apart p q) -> get q x' = get q x.
(** there is a directory at a path *)
Definition dir_at (p : path) (x : node) : Prop := exists es, get p x = Some (Dir es).
Definition absent (p : path) (x : node) : Prop := get p x = None.
(** calls that do not fail *)
Definition never (n : nat) : option (option node) := None.
(** where the version of a package is kept, in the usual layout and in the other one *)
Definition vdir (name version : text) (b : path) : path := b ++ [name; version].
Definition odir (name version : text) (b : path) : path := b ++ [name; name ++ T "-" ++ version].
(** the package is taken from the first path that has it, the usual layout first *)
Definition located (name version : text) (bases : list path) (x : node) (p : path) : Prop :=
  exists l b r, bases = l ++ b :: r /\ (forall a, In a l -> ~ dir_at (vdir name version a) x /\ ~ dir_at (odir name version a) x) /\
    dir_at p x /\ (p = vdir name version b \/ (p = odir name version b /\ ~ dir_at (vdir name version b) x)).
(** no path is below another *)
Definition scattered (bases : list path) : Prop := ForallOrdPairs apart bases.
(** there are only files, and they are not in directories *)
Definition flat (y : node) : Prop := match y with Dir es => Forall (fun e => match snd e with File _ => True | _ => False end) es | _ => True end.
(** there are no links *)
Fixpoint linkless (y : node) : Prop :=
  match y with
  | Link _ => False
  | Dir es => (fix all (l : list (text * node)) : Prop := match l with [] => True | (_, z) :: r => linkless z /\ all r end) es
  | _ => True
  end.
(** the bytes at these paths *)
Fixpoint total (ps : list path) (x : node) : nat := match ps with [] => 0 | p :: r => match get p x with Some y => count_bytes y | None => 0 end + total r x end.
