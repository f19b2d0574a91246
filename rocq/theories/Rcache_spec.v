(** What the repository cache may answer. *)
From Verif Require Import Base Order_spec Rcache_model.

(** whole seconds *)
Definition second (ns : Z) : Z := (ns / 1000000000)%Z.
(** The operation stores [v] for [k] from the source [path], at second [t], while the source was last changed in second [m] and held [x]. *)
Definition stores (o : rop) (k v path : text) (t m : Z) (x : text) : Prop :=
  match o with
  | RPut w _ _ _ _ k' v' path' => k' = k /\ v' = v /\ path' = path /\ w_write w = true /\ (0 <= w_now w)%Z /\ t = second (w_now w) /\
    exists ns, (0 <= ns)%Z /\ w_file w path = Some (ns, x) /\ m = second ns
  | _ => False
  end.
(** The operation discards [k]. *)
Definition discards (o : rop) (k : text) : Prop := match o with RRemove _ k' => k' = k | RClear _ => True | _ => False end.
(** The newest value of [k] in a history. *)
Definition newest (os : list rop) (k v path : text) (t m : Z) (x : text) : Prop :=
  exists u o r, os = u ++ o :: r /\ stores o k v path t m x /\
  forall o', In o' r -> ~ discards o' k /\ forall v' path' t' m' x', ~ stores o' k v' path' t' m' x'.
(** The lifetime is not over, and the source is not seen with a later second of change. *)
Definition in_time (ttl : Z) (w : world) (t : Z) : Prop := (second (w_now w) <= t + ttl)%Z.
Definition not_later (w : world) (path : text) (m : Z) : Prop :=
  forall ns x, w_file w path = Some (ns, x) -> (0 <= ns)%Z -> (second ns <= m)%Z.
(** The source is as it was. *)
Definition unchanged (w : world) (path x : text) : Prop := exists ns, w_file w path = Some (ns, x).
(** The surroundings in which an operation looks at the key. *)
Definition looks (o : rop) (k : text) (w : world) : Prop :=
  match o with RGet w' k' => k' = k /\ w = w' | RPut _ _ _ wv _ _ _ _ => w = wv k | RCleanup _ wv _ => w = wv k | _ => False end.
(** Maps may be walked in any order. *)
Definition any_orders (o : rop) : Prop := match o with RPut _ _ ord _ _ _ _ _ | RCleanup ord _ _ => any_order ord | _ => True end.
(** Lookups since the last successful clear. *)
Fixpoint gets_rev (os : list rop) : nat :=
  match os with
  | [] => 0
  | RGet _ _ :: r => S (gets_rev r)
  | RClear w :: r => if w_remove w then 0 else gets_rev r
  | _ :: r => gets_rev r
  end.
(** The files of the cache can be removed. *)
Definition removable (o : rop) : Prop :=
  match o with RGet w _ => w_remove w = true | _ => True end.
(** A history stores something under the key. *)
Definition written (os : list rop) (k : text) : Prop := exists w wc ord wv we v path, In (RPut w wc ord wv we k v path) os.
