(** Model of crates/rez-next-package/src/package_order.rs: package orderers. *)
From Verif Require Import Base Version_model Maps Sorting Json Package_model.

(** The orderer types: package_order.rs:58-61 NullPackageOrder, 95-99 SortedOrder, 164-168
    VersionSplitPackageOrder, 230-234 PerFamilyOrder, 307-312 TimestampPackageOrder *)
Inductive orderer :=
| ONull (families : option (list text))
| OSorted (descending : bool) (families : option (list text))
| OSplit (first_version : version) (families : option (list text))
| OFamily (order_dict : list (text * orderer)) (default_order : option orderer)
| OTime (timestamp rank : Z) (families : option (list text)).

(** a call returns or panics *)
Inductive result (A : Type) := Ret (a : A) | Panic.
Arguments Ret {A}. Arguments Panic {A}.

(** package_order.rs:126-131 and 139-144: versions decide, packages without version come last *)
Definition by_version (vc : version -> version -> comparison) (a b : package) : comparison :=
  match p_version a, p_version b with
  | Some x, Some y => vc x y
  | Some _, None => Lt
  | None, Some _ => Gt
  | None, None => Eq
  end.
(** package_order.rs:126-131 and 139-144, with the above *)
Definition ascending (a b : package) : comparison := by_version vcmp a b.
(** package_order.rs:126-131 and 139-144, with the above *)
Definition descending (a b : package) : comparison := by_version (fun x y => vcmp y x) a b.

(** package_order.rs:191-201: at or before the split version *)
Definition before_split (v : version) (p : package) : bool :=
  match p_version p with Some x => is_le (vcmp x v) | None => false end.
(** package_order.rs:203-204 [sort_by] with [unwrap] on both versions.  With at least two elements every element
    is compared at least once. *)
Definition sort_unwrap (l : list package) : result (list package) :=
  if (2 <=? length l) && existsb (fun p => match p_version p with None => true | Some _ => false end) l
  then Panic
  else Ret (sort_by ascending l).

(** package_order.rs:341-353 *)
Definition time_of (p : package) : Z := match p_timestamp p with Some t => t | None => 0 end.
(** package_order.rs:341-353, with the above *)
Definition by_time (ts : Z) (a b : package) : comparison :=
  match (time_of a <=? ts)%Z, (time_of b <=? ts)%Z with
  | true, false => Lt
  | false, true => Gt
  | _, _ => Z.compare (time_of b) (time_of a)
  end.

(** package_order.rs:255-261: packages grouped by name, each group in input order *)
Definition grouped (ps : list package) : list (text * list package) :=
  fold_left (fun m p => aput (p_name p) (match aget (p_name p) m with Some l => l | None => [] end ++ [p]) m) ps [].

(** package_order.rs:255-261, with the above *)
Definition bind_results (rs : list (result (list package))) : result (list package) :=
  fold_right (fun r acc => match r, acc with Ret x, Ret y => Ret (x ++ y) | _, _ => Panic end) (Ret []) rs.

(** package_order.rs:78-81, 120-147, 187-209, 253-281, 335-356 [reorder].  [ord] is the iteration order of the
    group map (package_order.rs:264). *)
Fixpoint reorder (ord : list (text * list package) -> list (text * list package)) (o : orderer) (ps : list package)
  : result (option (list package)) :=
  match o with
  | ONull _ => Ret None
  | OSorted d _ => Ret (Some (sort_by (if d then descending else ascending) ps))
  | OSplit v _ =>
      match sort_unwrap (filter (before_split v) ps), sort_unwrap (filter (fun p => negb (before_split v p)) ps) with
      | Ret b, Ret a => Ret (Some (b ++ a))
      | _, _ => Panic
      end
  | OFamily dict def =>
      let own (x : orderer) (pkgs : list package) :=
        match reorder ord x pkgs with
        | Ret (Some l) => Ret l
        | Ret None => Ret pkgs
        | Panic => Panic
        end in
      let pick := fix pick (d : list (text * orderer)) (family : text) (pkgs : list package) :=
        match d with
        | (k, x) :: d' => if text_eqb family k then own x pkgs else pick d' family pkgs
        | [] => match def with Some x => own x pkgs | None => Ret pkgs end
        end in
      match bind_results (map (fun g => pick dict (fst g) (snd g)) (ord (grouped ps))) with
      | Ret l => Ret (Some l)
      | Panic => Panic
      end
  | OTime ts _ _ => Ret (Some (sort_by (by_time ts) ps))
  end.

(** package_order.rs:74-76, 116-118, 183-185, 248-251, 331-333 [packages] *)
Definition families_of (o : orderer) : option (list text) :=
  match o with
  | ONull f | OSorted _ f | OSplit _ f | OTime _ _ f => f
  | OFamily _ _ => None
  end.
(** package_order.rs:399-411 [PackageOrderList::get] *)
Definition order_list_get (l : list orderer) (name : text) : option orderer :=
  find (fun o => match families_of o with Some fs => mem_text name fs | None => true end) l.
(** package_order.rs:484-496 [get_orderer] *)
Definition get_orderer (name : text) (l : option (list orderer)) : orderer :=
  match l with
  | Some l => match order_list_get l name with Some o => o | None => ONull None end
  | None => ONull None
  end.

(** package_order.rs:83-88, 149-155, 211-217, 283-294, 358-365 [to_pod] *)
Definition families_pod (f : option (list text)) : json :=
  match f with Some l => JArr (map JStr l) | None => JNull end.
(** package_order.rs:83-88, 149-155, 211-217, 283-294, 358-365, with the above *)
Fixpoint order_to_pod (o : orderer) : json :=
  match o with
  | ONull f => JObj [(T "type", JStr (T "no_order")); (T "packages", families_pod f)]
  | OSorted d f => JObj [(T "type", JStr (T "sorted")); (T "descending", JBool d); (T "packages", families_pod f)]
  | OSplit v f => JObj [(T "type", JStr (T "version_split")); (T "first_version", JStr (v_str v)); (T "packages", families_pod f)]
  | OFamily dict def =>
      JObj [(T "type", JStr (T "per_family"));
            (T "order_dict", JObj (map (fun kv => (fst kv, order_to_pod (snd kv))) dict));
            (T "default_order", match def with Some x => order_to_pod x | None => JNull end)]
  | OTime ts r f => JObj [(T "type", JStr (T "soft_timestamp")); (T "timestamp", JNum ts); (T "rank", JNum r);
                          (T "packages", families_pod f)]
  end.

(** [as i32] *)
Definition wrap_i32 (z : Z) : Z := ((z + 2147483648) mod 4294967296 - 2147483648)%Z.
(** package_order.rs:435-439 and the three repetitions of it *)
Definition families_from (j : json) : option (list text) :=
  match jget (T "packages") j with
  | Some p => match as_array p with Some arr => Some (filter_map as_str arr) | None => None end
  | None => None
  end.
(** package_order.rs:430-482 [from_pod] *)
Definition order_from_pod (j : json) : option orderer :=
  match jget (T "type") j with
  | Some (JStr t) =>
      if text_eqb t (T "no_order") then Some (ONull (families_from j))
      else if text_eqb t (T "sorted") then
        match jget (T "descending") j with
        | Some (JBool d) => Some (OSorted d (families_from j))
        | _ => None
        end
      else if text_eqb t (T "version_split") then
        match jget (T "first_version") j with
        | Some (JStr s) => match parse_version s with Some v => Some (OSplit v (families_from j)) | None => None end
        | _ => None
        end
      else if text_eqb t (T "soft_timestamp") then
        match jget (T "timestamp") j with
        | Some n =>
            match as_i64 n with
            | Some ts =>
                let r := match jget (T "rank") j with
                         | Some r => match as_i64 r with Some r => r | None => 0%Z end
                         | None => 0%Z
                         end in
                Some (OTime ts (wrap_i32 r) (families_from j))
            | None => None
            end
        | None => None
        end
      else None
  | _ => None
  end.
(** package_order.rs:385-397 [PackageOrderList::from_pod] and [to_pod] *)
Definition order_list_from_pod (l : list json) : list orderer := filter_map order_from_pod l.
(** package_order.rs:385-397, with the above *)
Definition order_list_to_pod (l : list orderer) : list json := map order_to_pod l.
