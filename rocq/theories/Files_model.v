(** Model of copying, moving and removing packages on disk.
    Sources: crates/rez-next-package/src/package_copy.rs (PC), package_move.rs (PM), package_remove.rs (PR), and the commands
    src/cli/commands/cp.rs (CP), mv.rs (MV), rm.rs (RM).
    Simplifications: the disk is a finite tree; a path is the list of its components, so names and versions do not contain separators or
    dots that lead elsewhere; links are met only inside packages, so paths are their own canonical form; permissions and times are left out; a call of the
    operating system succeeds, or fails and leaves something at the path it works on, as given by [io]; a failure while creating parents leaves none. *)
From Verif Require Import Base Maps.

(** PC:176-217: what a directory entry can be: a file with its bytes, a link with its target, something special, a directory *)
Inductive node := File (c : text) | Link (t : text) | Special | Dir (es : list (text * node)).
(** PC:99, 129-152: paths, by their components *)
Definition path := list text.
(** PC:142 [exists]: what is at a path *)
Fixpoint get (p : path) (x : node) : option node :=
  match p, x with
  | [], _ => Some x
  | c :: p', Dir es => match aget c es with Some y => get p' y | None => None end
  | _, _ => None
  end.
(** PC:113-115, 172-174 [create_dir_all] and 205, 213 with the parents made: something is put at a path; [None] if a parent is not a directory *)
Fixpoint put (p : path) (y x : node) : option node :=
  match p, x with
  | [], _ => Some y
  | c :: p', Dir es =>
    match put p' y (match aget c es with Some z => z | None => Dir [] end) with
    | Some z => Some (Dir (aput c z es))
    | None => None
    end
  | _, _ => None
  end.
(** PC:104, PR:99, 116: what is at a path is removed *)
Fixpoint del (p : path) (x : node) : node :=
  match p, x with
  | [c], Dir es => Dir (adel c es)
  | c :: p', Dir es => match aget c es with Some z => Dir (aput c (del p' z) es) | None => x end
  | _, _ => x
  end.
(** PC:142, PR:89: [is_dir] *)
Definition is_dir (p : path) (x : node) : bool := match get p x with Some (Dir _) => true | _ => false end.
(** PC:102, PR:89, 171: [exists] *)
Definition exists_at (p : path) (x : node) : bool := match get p x with Some _ => true | None => false end.

(** PC:90-95, PR:79-83: the outcome of a sequence of calls: a value with the disk and the number of calls so far, an error with the disk, or a directory that is copied into itself *)
Inductive res (A : Type) := Good (a : A) (x : node) (n : nat) | Bad (x : node) | Stuck.
Arguments Good {A}. Arguments Bad {A}. Arguments Stuck {A}.
(** PC:104-118, PR:99, 116: the calls run one after another; the question mark of Rust *)
Definition bind {A B} (r : res A) (f : A -> node -> nat -> res B) : res B :=
  match r with Good a x n => f a x n | Bad x => Bad x | Stuck => Stuck end.

Section Io.
(** the fate of call number n: it succeeds, or it fails and leaves this at its path *)
Variable io : nat -> option (option node).
(** PC:104, 173, 205, 213: what a failed call leaves *)
Definition leave (p : path) (j : option node) (x : node) : node :=
  match j with Some z => match put p z x with Some x' => x' | None => x end | None => del p x end.
(** PC:113-115, 172-174, 205, 213: a call that creates something *)
Definition create (p : path) (y x : node) (n : nat) : res unit :=
  match io n with
  | Some j => Bad (leave p j x)
  | None => match put p y x with Some x' => Good tt x' (S n) | None => Bad x end
  end.
(** PC:104, PR:99, 116: [remove_dir_all] and [remove_dir] *)
Definition remove (p : path) (x : node) (n : nat) : res unit :=
  match io n with
  | Some j => Bad (leave p j x)
  | None => if is_dir p x then Good tt (del p x) (S n) else Bad x
  end.
(** PC:176-217: the copy of an entry with all below it, with the number of files and bytes; special files are skipped *)
Fixpoint write_tree (p : path) (y x : node) (n : nat) : res (nat * nat) :=
  match y with
  | File c => bind (create p y x n) (fun _ x n => Good (1, length c) x n)
  | Link t => bind (create p y x n) (fun _ x n => Good (1, 0) x n)
  | Special => Good (0, 0) x n
  | Dir es =>
    bind (create p (Dir []) x n) (fun _ =>
      (fix loop (l : list (text * node)) (acc : nat * nat) (x : node) (n : nat) : res (nat * nat) :=
         match l with
         | [] => Good acc x n
         | (c, z) :: r => bind (write_tree (p ++ [c]) z x n) (fun s => loop r (fst acc + fst s, snd acc + snd s))
         end) es (0, 0))
  end.
(** PC:169: the source and the destination as paths: [p] leads to [q] or to a directory above it *)
Fixpoint leads (p q : path) : bool :=
  match p, q with [], _ => true | c :: p', d :: q' => text_eqb c d && leads p' q' | _, [] => false end.
(** PC:169-220 [copy_dir_recursive]: the destination does not exist, and is made before the source is listed *)
Definition copy_dir (src dest : path) (x : node) (n : nat) : res (nat * nat) :=
  match get src x with
  | Some (Dir es) => if leads src dest then Stuck else write_tree dest (Dir es) x n
  | _ =>
    if leads src dest then bind (create dest (Dir []) x n) (fun _ x n => if is_dir src x && leads dest src then Good (0, 0) x n else Stuck)
    else bind (create dest (Dir []) x n) (fun _ x _ => Bad x)
  end.
(** PC:129-152 [find_package_dir] *)
Fixpoint find_package_dir (name version : text) (bases : list path) (x : node) : option path :=
  match bases with
  | [] => None
  | b :: bs =>
    if is_dir (b ++ [name; version]) x then Some (b ++ [name; version])
    else if is_dir (b ++ [name; name ++ T "-" ++ version]) x then Some (b ++ [name; name ++ T "-" ++ version])
    else find_package_dir name version bs x
  end.
(** PC:40-50: the result of a copy *)
Record copied := mkCopied { co_source : path; co_dest : path; co_files : nat; co_bytes : nat }.
(** PC:90-126 [copy_package] *)
Definition copy_package (name version : text) (base : path) (bases : list path) (force : bool) (x : node) (n : nat) : res copied :=
  match find_package_dir name version bases x with
  | None => Bad x
  | Some src =>
    let dest := base ++ [name; version] in
    let go x n := bind (copy_dir src dest x n) (fun s x n => Good (mkCopied src dest (fst s) (snd s)) x n) in
    if exists_at dest x then if force then bind (remove dest x n) (fun _ => go) else Bad x
    else go x n
  end.

(** PR:91-97: the length of the metadata of an entry; [dlen] is the length of a directory *)
Definition meta_len (dlen : nat) (y : node) : nat := match y with File c => length c | Link t => length t | Special => 0 | Dir _ => dlen end.
(** PR:87-102: the version directories are removed, one path after the other *)
Fixpoint remove_each (dlen : nat) (name version : text) (bases : list path) (acc : list path * nat) (x : node) (n : nat) : res (list path * nat) :=
  match bases with
  | [] => Good acc x n
  | b :: bs =>
    let d := b ++ [name; version] in
    match get d x with
    | Some (Dir es) =>
      bind (remove d x n) (fun _ => remove_each dlen name version bs (fst acc ++ [d], snd acc + fold_right plus 0 (map (fun e => meta_len dlen (snd e)) es)))
    | _ => remove_each dlen name version bs acc x n
    end
  end.
(** PR:108-119: empty family directories are removed *)
Fixpoint prune (name : text) (bases : list path) (x : node) (n : nat) : res unit :=
  match bases with
  | [] => Good tt x n
  | b :: bs =>
    match get (b ++ [name]) x with
    | Some (Dir []) => bind (remove (b ++ [name]) x n) (fun _ => prune name bs)
    | _ => prune name bs x n
    end
  end.
(** PR:36-44: the result of a removal *)
Record removed := mkRemoved { rm_paths : list path; rm_count : nat; rm_bytes : nat }.
(** PR:79-126 [remove_package_version]; the option [force] is not read *)
Definition remove_package_version (dlen : nat) (name version : text) (bases : list path) (force prune_empty : bool) (x : node) (n : nat) : res removed :=
  bind (remove_each dlen name version bases ([], 0) x n) (fun acc x n =>
    if is_nil (fst acc) then Good (mkRemoved [] 0 0) x n
    else
      let fin := fun (_ : unit) x n => Good (mkRemoved (fst acc) (length (fst acc)) (snd acc)) x n in
      if prune_empty then bind (prune name bases x n) fin else fin tt x n).
(** PR:161-183 [preview_removal] *)
Definition preview_removal (name : text) (version : option text) (bases : list path) (x : node) : list path :=
  filter (fun p => exists_at p x) (map (fun b => match version with Some v => b ++ [name; v] | None => b ++ [name] end) bases).
(** PC:223-237 [dir_size] *)
Fixpoint dir_size (y : node) : nat :=
  match y with
  | Dir es => fold_right plus 0 (map (fun e => match e with (_, z) => match z with Dir _ => dir_size z | _ => meta_len 0 z end end) es)
  | _ => 0
  end.
(** PR:138-147: the family directories are removed, one path after the other *)
Fixpoint remove_families (name : text) (bases : list path) (acc : list path * nat) (x : node) (n : nat) : res (list path * nat) :=
  match bases with
  | [] => Good acc x n
  | b :: bs =>
    match get (b ++ [name]) x with
    | Some (Dir es) => bind (remove (b ++ [name]) x n) (fun _ => remove_families name bs (fst acc ++ [b ++ [name]], snd acc + dir_size (Dir es)))
    | _ => remove_families name bs acc x n
    end
  end.
(** PR:131-158 [remove_package_family]: the result *)
Definition remove_package_family (name : text) (bases : list path) (x : node) (n : nat) : res removed :=
  bind (remove_families name bases ([], 0) x n) (fun acc x n => Good (mkRemoved (fst acc) (length (fst acc)) (snd acc)) x n).

(** PM:116-157 [move_package]; the flag of the result tells that the source was removed *)
Definition move_package (dlen : nat) (name version : text) (base : path) (bases : list path) (force keep : bool) (x : node) (n : nat) : res (copied * bool) :=
  match find_package_dir name version bases x with
  | None => Bad x
  | Some src =>
    if leads src (base ++ [name; version]) && leads (base ++ [name; version]) src then Bad x
    else
      bind (copy_package name version base bases force x n) (fun r x n =>
        if keep then Good (r, false) x n
        else bind (remove_package_version dlen name version bases true true x n) (fun _ x n => Good (r, true) x n))
  end.

(** CP:259-286 [copy_package_directory] and MV:279-291: the commands on a package found at [src], in the part that changes the disk; the two recursive copies are read as
    [copy_dir], which differs for links *)
Definition cp_directory (src dest : path) (force : bool) (x : node) (n : nat) : res unit :=
  let go x n := bind (copy_dir src dest x n) (fun _ x n => Good tt x n) in
  if exists_at dest x then if force then bind (remove dest x n) (fun _ => go) else Bad x else go x n.
(** MV:279-304 [move_package_directory] *)
Definition mv_directory (src dest : path) (force keep : bool) (x : node) (n : nat) : res unit :=
  bind (cp_directory src dest force x n) (fun _ x n => if keep then Good tt x n else remove src x n).
(** RM:447-453: the first path that has the version *)
Fixpoint first_path (name version : text) (bases : list path) (x : node) : option path :=
  match bases with [] => None | b :: bs => if exists_at (b ++ [name; version]) x then Some (b ++ [name; version]) else first_path name version bs x end.
(** RM:425-496 [remove_single_package]; the flag tells success *)
Definition remove_single (name version : text) (bases : list path) (x : node) (n : nat) : res bool :=
  match first_path name version bases x with
  | None => Good false x n
  | Some p => bind (remove p x n) (fun _ x n => Good true x n)
  end.
(** RM:155-185: the packages found, one for each repository that has the version, are removed one after the other; the value is the number printed.
    An error is printed and the loop goes on, which is not modelled *)
Fixpoint remove_listed (k : nat) (name version : text) (bases : list path) (x : node) (n : nat) : res nat :=
  match k with
  | 0 => Good 0 x n
  | S k' => bind (remove_single name version bases x n) (fun ok x n => bind (remove_listed k' name version bases x n) (fun m x n => Good (if ok then S m else m) x n))
  end.
End Io.
