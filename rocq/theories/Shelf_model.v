(** Model of the filesystem package repository: listing, hiding and removing packages.
    Sources: crates/rez-next-repository/src/package_repository/filesystem.rs (FR) and package_repository/mod.rs (PR), reached from Python through
    crates/rez-next-python/src/package_repository_bindings.rs.
    Simplifications: the directory of the repository is a tree as in Files_model.v, in the order read_dir gives; links are not followed; calls that only read succeed, except the age of a marker;
    a call that writes fails where [io] says so: a failed removal of a tree leaves any directory in its place, other failed calls leave the disk as it was. *)
From Verif Require Import Base Maps Version_model Range_model Files_model.
Open Scope string_scope. Open Scope list_scope.

(** FR:103: the parts of a text read as a path that std::path keeps *)
Definition kept_part (c : text) : bool := negb (is_nil c) && negb (text_eqb c (T ".")).
(** FR:102-112 [validate_component]: the single normal component of a text *)
Definition component (value : text) : option text :=
  if starts_with (T "/") value then None
  else if text_eqb (hd [] (split_on "/" value)) (T ".") then None
  else match filter kept_part (split_on "/" value) with
       | [c] => if text_eqb c (T "..") then None else Some c
       | _ => None
       end.
(** FR:146, 268: the name of the marker that hides a version *)
Definition marker (v : text) : text := T ".ignore" ++ v.
(** FR:350-363: a marker whose name ends with a separator cannot be opened *)
Definition has_slash (v : text) : bool := existsb (Ascii.eqb "/") v.

(** FR:28: the directory of the repository: [None] if it is missing *)
Definition shelf := option (list (text * node)).
(** FR:184, 476: its entries *)
Definition rows (s : shelf) : list (text * node) := match s with Some es => es | None => [] end.
(** FR:163-165, 232-240: what the directory of a family holds *)
Definition family (s : shelf) (n : text) : option (list (text * node)) := match aget n (rows s) with Some (Dir fs) => Some fs | _ => None end.
(** FR:255, 339: [is_dir] *)
Definition dir_in (n : text) (es : list (text * node)) : bool := match aget n es with Some (Dir _) => true | _ => false end.
(** FR:268: [is_file] *)
Definition file_in (n : text) (es : list (text * node)) : bool := match aget n es with Some (File _) => true | _ => false end.
(** FR:339, 384 [is_dir] on the directory of a version *)
Definition version_dir (s : shelf) (n v : text) : bool := match family s n with Some fs => dir_in v fs | None => false end.
(** FR:351-354, 373, 402: the directory of a family with other contents *)
Definition with_family (s : shelf) (n : text) (fs : list (text * node)) : shelf := Some (aput n (Dir fs) (rows s)).

(** ** Listing *)
(** FR:199, 437: [is_dir] of an entry *)
Definition is_directory (x : node) : bool := match x with Dir _ => true | _ => false end.
(** FR:497: [is_file] of an entry *)
Definition is_file (x : node) : bool := match x with File _ => true | _ => false end.
(** FR:207, 263 *)
Definition hidden_name (n : text) : bool := starts_with (T ".") n || starts_with (T "_") n.
(** FR:179-223 [iter_package_families]: an error if the directory cannot be read *)
Definition iter_families (s : shelf) : option (list text) :=
  match s with
  | Some es => Some (map fst (filter (fun e => is_directory (snd e) && negb (hidden_name (fst e))) es))
  | None => None
  end.
(** FR:252-270: the directories of a family that count as versions *)
Definition version_names (fs : list (text * node)) : list text :=
  map fst (filter (fun e => is_directory (snd e) && negb (hidden_name (fst e)) && negb (file_in (marker (fst e)) fs)) fs).
(** FR:225-291 [iter_packages]: the versions of the packages, [None] for a name that is no version *)
Definition iter_packages (s : shelf) (n : text) : list (option version) :=
  match family s n with Some fs => map parse_version (version_names fs) | None => [] end.
(** PR:168-171 [is_empty] *)
Definition is_empty_shelf (s : shelf) : option bool := match iter_families s with Some l => Some (is_nil l) | None => None end.
(** FR:158-177 [get_package_family] joins the text of the name with the location and asks whether a directory is there: the tree is walked from the root, with the way back on a stack *)
Fixpoint walk (up : list node) (here : node) (ps : list text) : option node :=
  match ps with
  | [] => Some here
  | c :: ps' =>
    if negb (kept_part c) then walk up here ps'
    else if text_eqb c (T "..") then match up with x :: up' => walk up' x ps' | [] => walk up here ps' end
    else match here with Dir es => match aget c es with Some y => walk (here :: up) y ps' | None => None end | _ => None end
  end.
(** FR:163-167: whether [get_package_family] finds something *)
Definition has_family (root : node) (location : list text) (name : text) : bool :=
  match walk [] root ((if starts_with (T "/") name then [] else location) ++ split_on "/" name) with Some (Dir _) => true | _ => false end.
(** PR:174-198 [get_package]: the first package with the version text asked for, or the first one *)
Definition get_package (s : shelf) (n : text) (v : option text) : option (option version) :=
  match v with
  | Some t => find (fun p => match p with Some x => text_eqb (v_str x) t | None => false end) (iter_packages s n)
  | None => match iter_packages s n with p :: _ => Some p | [] => None end
  end.

(** ** Writing *)
(** FR:335: [Result] *)
Inductive outcome (A : Type) := Done (a : A) | Failed.
Arguments Done {A}. Arguments Failed {A}.
Section Io.
(** the writing calls are numbered; whether one fails, and what a failed removal of a tree leaves *)
Variable io : nat -> bool.
Variable junk : nat -> list (text * node).
(** FR:344-349 [create_dir_all]: the family with its contents afterwards *)
Definition make_family (s : shelf) (n : text) (k : nat) : option (shelf * list (text * node)) :=
  if io k then None
  else match aget n (rows s) with
       | Some (Dir fs) => Some (s, fs)
       | Some _ => None
       | None => Some (with_family s n [], [])
       end.
(** FR:336-362 [ignore_package], after the validation of the version *)
Definition ignore_at (s : shelf) (name version : text) (allow_missing : bool) (k : nat) : outcome Z * shelf :=
  match component version, component name with
  | Some v, Some n =>
    if negb allow_missing && negb (version_dir s n v) then (Done (-1)%Z, s)
    else match make_family s n k with
         | None => (Failed, s)
         | Some (s', fs) =>
           if has_slash version then (Failed, s')
           else match aget (marker version) fs with
                | Some _ => (Done 0%Z, s')
                | None => if io (S k) then (Failed, s') else (Done 1%Z, with_family s' n (aput (marker version) (File []) fs))
                end
         end
  | _, _ => (Failed, s)
  end.
(** FR:330-363 [ignore_package] *)
Definition ignore_package (read_only : bool) (name : text) (version : option text) (allow_missing : bool) (s : shelf) (k : nat) : outcome Z * shelf :=
  if read_only then (Failed, s)
  else match version with Some v => ignore_at s name v allow_missing k | None => (Failed, s) end.
(** FR:373-382, 410-417: a marker is removed: whether it was there; [None] on an error *)
Definition drop_marker (s : shelf) (n version : text) (k : nat) : option (bool * shelf) :=
  match family s n with
  | None => Some (false, s)
  | Some fs =>
    match component version with
    | None => None
    | Some v =>
      match aget (marker v) fs with
      | None => Some (false, s)
      | Some (Dir _) => None
      | Some _ => if has_slash version || io k then None else Some (true, with_family s n (adel (marker v) fs))
      end
    end
  end.
(** FR:365-388 [unignore_package] *)
Definition unignore_package (read_only : bool) (name : text) (version : option text) (s : shelf) (k : nat) : outcome Z * shelf :=
  if read_only then (Failed, s)
  else match version with
       | None => (Failed, s)
       | Some version =>
         match component version, component name with
         | Some v, Some n =>
           match drop_marker s n version k with
           | None => (Failed, s)
           | Some (removed, s') => (Done (if version_dir s' n v then if removed then 1 else 0 else -1)%Z, s')
           end
         | _, _ => (Failed, s)
         end
       end.
(** FR:390-418 [remove_package] *)
Definition remove_package (read_only : bool) (name : text) (version : option text) (s : shelf) (k : nat) : outcome bool * shelf :=
  if read_only then (Failed, s)
  else match version with
       | None => (Failed, s)
       | Some version =>
         match component version, component name with
         | Some v, Some n =>
           match ignore_at s name version false k with
           | (Failed, s1) => (Failed, s1)
           | (Done z, s1) =>
             if Z.eqb z (-1) then (Done false, s1)
             else match family s1 n with
                  | None => (Failed, s1)
                  | Some fs =>
                    if io (2 + k) then (Failed, with_family s1 n (aput v (Dir (junk (2 + k))) fs))
                    else let s2 := with_family s1 n (adel v fs) in
                         match drop_marker s2 n version (3 + k) with
                         | None => (Failed, s2)
                         | Some (_, s3) => (Done true, s3)
                         end
                  end
           end
         | _, _ => (Failed, s)
         end
       end.
(** FR:420-453 [remove_package_family] *)
Definition remove_family (read_only : bool) (name : text) (force : bool) (s : shelf) (k : nat) : outcome bool * shelf :=
  if read_only then (Failed, s)
  else match component name with
       | None => (Failed, s)
       | Some n =>
         match family s n with
         | None => (Done false, s)
         | Some fs =>
           if negb force && existsb (fun e => is_directory (snd e) && negb (starts_with (T ".") (fst e))) fs then (Failed, s)
           else if io k then (Failed, with_family s n (junk k))
           else (Done true, Some (adel n (rows s)))
         end
       end.
(** FR:486-518: the markers that are old enough, with the age of the marker of a version in seconds; [None] if an age cannot be read *)
Fixpoint old_markers (age : text -> text -> option N) (least : N) (n : text) (fs : list (text * node)) : option (list (text * text)) :=
  match fs with
  | [] => Some []
  | (f, x) :: fs' =>
    match strip_prefix (T ".ignore") f with
    | Some v =>
      if is_nil v || negb (is_file x) then old_markers age least n fs'
      else match age n v, old_markers age least n fs' with
           | Some a, Some l => Some (if N.leb least a then (n, v) :: l else l)
           | _, _ => None
           end
    | None => old_markers age least n fs'
    end
  end.
(** FR:475-519: those of all families *)
Fixpoint old_ignored (age : text -> text -> option N) (least : N) (es : list (text * node)) : option (list (text * text)) :=
  match es with
  | [] => Some []
  | (n, Dir fs) :: es' =>
    match old_markers age least n fs, old_ignored age least es' with Some a, Some b => Some (a ++ b) | _, _ => None end
  | _ :: es' => old_ignored age least es'
  end.
(** FR:522-534: they are removed one after another; every removal makes at most four calls *)
Fixpoint remove_each_old (cs : list (text * text)) (removed : Z) (s : shelf) (k : nat) : outcome Z * shelf :=
  match cs with
  | [] => (Done removed, s)
  | (n, v) :: cs' =>
    match remove_package false n (Some v) s k with
    | (Failed, s') => (Failed, s')
    | (Done b, s') => remove_each_old cs' (if b then removed + 1 else removed)%Z s' (4 + k)
    end
  end.
(** FR:455-536 [remove_ignored_since] *)
Definition remove_ignored_since (read_only : bool) (age : text -> text -> option N) (days : Z) (dry_run : bool) (s : shelf) (k : nat) : outcome Z * shelf :=
  if read_only || (days <? 0)%Z then (Failed, s)
  else match s with
       | None => (Done 0%Z, s)
       | Some es =>
         match old_ignored age (Z.to_N days * 86400) es with
         | None => (Failed, s)
         | Some cs => if dry_run then (Done (Z.of_nat (length cs)), s) else remove_each_old cs 0 s k
         end
       end.
End Io.
