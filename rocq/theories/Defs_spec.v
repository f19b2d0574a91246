(** What the cache of package definitions is meant to do, in terms of files, times and answers. *)
From Verif Require Import Base Defs_model.

(** Two times less than a second apart. *)
Definition close (a b : Z) : Prop := (Z.abs (a - b) < 1000000000)%Z.
(** An entry has not outlived its time. *)
Definition alive (now : Z) (e : dentry) : Prop :=
  match d_ttl e with None => True | Some ttl => (d_cached e <= now <= d_cached e + ttl)%Z end.
(** The file of a package is there and has, to the second, the time that an entry recorded, and the entry is alive. *)
Definition current (w : dworld) (p : text) (e : dentry) : Prop :=
  exists m c, dw_file w p = Some (m, c) /\ close m (d_mtime e) /\ alive (dw_now w) e.

(** The surroundings in which an operation ran. *)
Definition world_of (o : dop) : option dworld :=
  match o with
  | DGet w _ | DPut w _ _ | DPutPackage w _ _ _ _ | DRemove w _ | DClear w | DInvalidate w => Some w
  | DRestart => None
  end.
(** A file whose time of change moved by less than a second has the same content: no file was written twice within a second. *)
Definition spaced (os : list dop) : Prop := forall o o' w w' p m m' c c', In o os -> In o' os -> world_of o = Some w -> world_of o' = Some w' ->
  dw_file w p = Some (m, c) -> dw_file w' p = Some (m', c') -> close m m' -> c = c'.
(** What is stored for a path is the definition [def] in its file at that moment, with the time of the file. *)
Definition honest (def : text -> text) (o : dop) : Prop :=
  match o with
  | DPut w p e => exists c, dw_file w p = Some (d_mtime e, c) /\ d_data e = def c
  | DPutPackage w p _ _ data => exists m c, dw_file w p = Some (m, c) /\ data = def c
  | _ => True
  end.
(** The JSON library reads back what it wrote and rejects what was cut short. *)
Definition reads_back (write : dentry -> option text) (read : text -> option dentry) : Prop :=
  forall e t, write e = Some t -> read t = Some e.
Definition rejects_cut (write : dentry -> option text) (read : text -> option dentry) : Prop :=
  forall e t n, write e = Some t -> n < length t -> read (firstn n t) = None.
(** The hash is a 64-bit number. *)
Definition hash64 (hash : text -> N) : Prop := forall p, (hash p < 2 ^ 64)%N.
(** No two paths in use have the same hash. *)
Definition no_collision (hash : text -> N) (used : text -> Prop) : Prop := forall p q, used p -> used q -> hash p = hash q -> p = q.
(** The paths that operations name. *)
Definition path_of (o : dop) : option text :=
  match o with DGet _ p | DPut _ p _ | DPutPackage _ p _ _ _ | DRemove _ p => Some p | DClear _ | DInvalidate _ | DRestart => None end.
Definition uses (os : list dop) (p : text) : Prop := exists o, In o os /\ path_of o = Some p.

(** Every call on the cache directory succeeds during an operation, and it is listed in some order. *)
Definition smooth (o : dop) : Prop :=
  forall w, world_of o = Some w -> dw_read w = true /\ (forall n, dw_remove w n = true) /\ dw_write w = WDone /\ exists ord, dw_order w = Some ord /\ forall l, Permutation (ord l) l.
(** What is stored can be written. *)
Definition writable (write : dentry -> option text) (ttl : option Z) (o : dop) : Prop :=
  match o with
  | DPut w p e => write (mkDentry (d_name e) (d_version e) (d_path e) (d_mtime e) (d_data e) (d_cached e) (match d_ttl e with Some t => Some t | None => ttl end)) <> None
  | DPutPackage w p n v d => write (mkDentry n v p (match dw_file w p with Some (m, _) => m | None => dw_now w end) d (dw_now w) ttl) <> None
  | _ => True
  end.

(** An operation leaves what is known about a path: it is about another path, or it is a lookup at a time at which the entry is current. *)
Definition leaves (p : text) (e : dentry) (o : dop) : Prop :=
  match o with
  | DGet w q => q = p -> current w p e
  | DPut _ q _ | DPutPackage _ q _ _ _ | DRemove _ q => q <> p
  | DClear _ | DInvalidate _ | DRestart => False
  end.

(** Counting lookups by what they returned. *)
Definition found (r : dres) : bool := match r with RFound (Some _) => true | _ => false end.
Definition missed (r : dres) : bool := match r with RFound None => true | _ => false end.
Definition count {A} (f : A -> bool) (l : list A) : nat := length (filter f l).
Definition is_get (o : dop) : bool := match o with DGet _ _ => true | _ => false end.
Definition is_put (o : dop) : bool := match o with DPut _ _ _ | DPutPackage _ _ _ _ _ => true | _ => false end.
Definition is_remove (o : dop) : bool := match o with DRemove _ _ => true | _ => false end.
Definition is_clear (o : dop) : bool := match o with DClear _ | DInvalidate _ => true | _ => false end.
Definition is_restart (o : dop) : bool := match o with DRestart => true | _ => false end.

(** The entries that threads store, by path. *)
Definition thread_puts (ts : list (list tact)) (p : text) (e : dentry) : Prop := exists t, In t ts /\ In (TPut p e) t.
(** A step takes no good entry of a path away: it is about another path, stores a good entry, or looks up where good entries are current. *)
Definition harmless (p : text) (good : dentry -> Prop) (a : tact) : Prop :=
  match a with
  | TGet w q => q = p -> forall e, good e -> current w p e
  | TPut q e => q = p -> good e
  | TDrop q | TRemove q => q <> p
  | TClear => False
  end.
