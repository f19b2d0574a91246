(** Model of base-26 names and unique links.
    Source: crates/rez-next-util/src/base26.rs (abbreviated B26) and crates/rez-next-package/src/package_cache.rs:849-870.
    Not modelled: I/O errors other than a name already in use, file names that are not ASCII. *)
From Verif Require Import Base Maps.

(** B26:81-101: the first letter *)
Definition letter_a : ascii := "a"%char.
(** B26:81-101: the last letter *)
Definition letter_z : ascii := "z"%char.
(** B26:81-101: the carry loop, on the characters from the last to the first *)
Fixpoint bump (r : text) : text :=
  match r with
  | [] => [letter_a]
  | c :: r' => if Ascii.eqb c letter_z then letter_a :: bump r' else ascii_of_N (code c + 1) :: r'
  end.
(** B26:69-103 [get_next_base26]; [None] is the error for an invalid name *)
Definition next_base26 (prev : option text) : option text :=
  match prev with
  | None => Some [letter_a]
  | Some s => if forallb is_lower s then Some (rev (bump (rev s))) else None
  end.
(** package_cache.rs:849-870 [increment_string]: no validation; [None] is the panic of [chars.len() - 1] on an empty text.
    Characters are taken to be below 255 (the [u8] addition). *)
Definition increment_string (s : text) : option text :=
  match s with [] => None | _ => Some (rev (bump (rev s))) end.

(** ** Links *)
(** a directory entry: a symbolic link and its target, or anything else; link targets are compared as texts
    (the code compares paths, which ignores repeated separators) *)
Inductive entry := Link (target : text) | Other.
(** B26:187-206: the directory that is read *)
Definition dir := list (text * entry).
(** B26:146-148, 166, 179-182: the results of [create_unique_base26_symlink] *)
Inductive linked := Existing (name : text) | Created (name : text) (d : dir) | Exhausted.
(** B26:187-206 [find_matching_symlink]; the entries come in the order in which the directory is read *)
Definition find_match (ord : dir -> dir) (d : dir) (source : text) : option text :=
  match find (fun ne => match snd ne with Link t => text_eqb t source | Other => false end) (ord d) with
  | Some (n, _) => Some n
  | None => None
  end.
(** B26:216-235: the running maximum *)
Definition max_step (acc : option text) (name : text) : option text :=
  if forallb is_lower name then
    match acc with
    | None => Some name
    | Some current => if is_gt (text_cmp name current) then Some name else acc
    end
  else acc.
(** B26:211-236 [get_max_base26_name] *)
Definition max_name (ord : dir -> dir) (d : dir) : option text := fold_left max_step (akeys (ord d)) None.
(** B26:155-177: the attempts.  [world i] is what other processes do to the directory before attempt [i]; the check and the
    creation act as one step because [symlink] fails on an existing name. *)
Fixpoint attempts (world : nat -> dir -> dir) (tries i : nat) (source name : text) (d : dir) : linked :=
  match tries with
  | O => Exhausted
  | S t =>
      let d := world i d in
      if mem_text name (akeys d) then
        match next_base26 (Some name) with
        | Some n => attempts world t (S i) source n d
        | None => Exhausted
        end
      else Created name (d ++ [(name, Link source)])
  end.
(** B26:130-183 [create_unique_base26_symlink]; the directory is read twice *)
Definition create_link (ord1 ord2 : dir -> dir) (world : nat -> dir -> dir) (source : text) (d : dir) : linked :=
  match find_match ord1 d source with
  | Some n => Existing n
  | None =>
      let d := world 0 d in
      match next_base26 (max_name ord2 d) with
      | Some n => attempts world 10 1 source n d
      | None => Exhausted
      end
  end.
