(** Specification vocabulary for the payload cache. *)
From Verif Require Import Base Maps Order_spec Base26_model Base26_spec Payload_model.

(** the payload directory of an entry *)
Definition payload (c : cache) (b i : text) : option files := s_load (slot_of c b i).
(** the metadata file of an entry exists *)
Definition has_entry (c : cache) (b i : text) : Prop := s_meta (slot_of c b i) <> None.
(** whatever could be found is complete: [truth] gives the files of each variant *)
Definition complete (truth : text -> files) (c : cache) : Prop :=
  forall b i h t z, s_meta (slot_of c b i) = Some (Meta h t z) -> s_flag (slot_of c b i) = None -> payload c b i = Some (truth (hrepr h)).
(** no payload directory without metadata file *)
Definition no_stray (c : cache) : Prop := forall b i, s_meta (slot_of c b i) = None -> payload c b i = None.
(** the entries of a directory have distinct names *)
Definition tidy (c : cache) : Prop := forall b, NoDup (akeys (bucket_of c b)).
(** the entries of a hash directory are named by single letters, so there are at most 26 *)
Definition short_names (c : cache) (b : text) : Prop := forall i, has_entry c b i -> lowercase i /\ length i = 1.
(** each variant is cached from its own files *)
Definition honest (truth : text -> files) (o : op) : Prop :=
  match o with OAdd h src _ => src = truth (hrepr h) /\ NoDup (akeys src) | _ => True end.
Definition removal (o : op) : bool := match o with ORemove _ => true | _ => false end.
(** at most one readable entry per variant in each hash directory *)
Definition unique_entries (c : cache) : Prop :=
  forall b i j h h' t z t' z', s_meta (slot_of c b i) = Some (Meta h t z) -> s_meta (slot_of c b j) = Some (Meta h' t' z') ->
  hrepr h = hrepr h' -> i = j.
(** an answer that says the variant is there *)
Definition finds (l : lookup) (i : text) : Prop := exists h z, l = LFound i h z.

(** ** Runs *)
(** the process is adding to the hash directory [b]: it has looked for its variant and has not finished *)
Definition adding (hash : text -> text) (b : text) (s : stage) : Prop :=
  match s with
  | Chosen h _ => hpath hash h = b
  | Acting b' _ _ (CreatedNow, _) => b' = b
  | _ => False
  end.
(** nobody but process [n] is adding to [b] *)
Definition alone (hash : text -> text) (b : text) (n : nat) (ss : list stage) : Prop :=
  forall m s, m <> n -> nth_error ss m = Some s -> ~ adding hash b s.
(** Runs of any number of processes that add and look up, in any interleaving, with crashes at any point; additions to the
    same hash directory do not overlap, and there are at most 26 entries when an addition chooses its name. *)
Inductive run (hash : text -> text) (truth : text -> files) (st0 : system) : system -> Prop :=
| run_start : run hash truth st0 st0
| run_spawn st o : run hash truth st0 st -> honest truth o -> removal o = false -> run hash truth st0 (fst st, snd st ++ [Start o])
| run_crash st n a : run hash truth st0 st -> run hash truth st0 (fst st, set_nth n (Finished a) (snd st))
| run_step st n ord now : run hash truth st0 st -> any_order ord ->
    (forall h src f, nth_error (snd st) n = Some (Start (OAdd h src f)) -> alone hash (hpath hash h) n (snd st)) ->
    (forall h src, nth_error (snd st) n = Some (Chosen h src) -> short_names (fst st) (hpath hash h)) ->
    run hash truth st0 (sys_step hash ord now n st).

(** ** Histories: operations one after the other, each cut off after any number of steps *)
Record cut := mkCut { k_op : op; k_order : bucket -> bucket; k_now : N; k_steps : nat }.
Fixpoint history (hash : text -> text) (ks : list cut) (c : cache) : cache :=
  match ks with
  | [] => c
  | k :: ks' => history hash ks' (fst (steps hash (k_order k) (k_now k) (k_steps k) (c, Start (k_op k))))
  end.
(** all additions fit *)
Fixpoint roomy (hash : text -> text) (ks : list cut) (c : cache) : Prop :=
  match ks with
  | [] => True
  | k :: ks' => match k_op k with OAdd h _ _ => short_names c (hpath hash h) | _ => True end
                /\ roomy hash ks' (fst (steps hash (k_order k) (k_now k) (k_steps k) (c, Start (k_op k))))
  end.
(** enough steps to finish an operation *)
Definition enough (o : op) : nat := match o with OAdd _ src _ => 10 + 2 * length src | _ => 8 end.
Definition done (hash : text -> text) (ord : bucket -> bucket) (now : N) (o : op) (c : cache) : cache * stage :=
  steps hash ord now (enough o) (c, Start o).

(** a handle without extra attributes whose name and version are plain directory names *)
Definition plain_handle (h : handle) : Prop :=
  h_attrs h = [] /\ ~ In "/"%char (h_name h) /\ forall v, h_version h = Some v -> ~ In "/"%char v.
(** entries are filed under their own hash path *)
Definition filed (hash : text -> text) (c : cache) : Prop :=
  forall b i h t z, s_meta (slot_of c b i) = Some (Meta h t z) -> hpath hash h = b.
(** each hash directory exists once *)
Definition proper (c : cache) : Prop := NoDup (akeys (ca_buckets c)).
(** the clock has not gone back *)
Definition past_access (now : N) (c : cache) : Prop := forall b i h t z, s_meta (slot_of c b i) = Some (Meta h t z) -> (t <= now)%N.
(** an entry the cleaning may remove: fully copied and not used for longer than [max] *)
Definition stale (max now : N) (s : slot) : bool :=
  match s_meta s, s_flag s, s_load s with
  | Some (Meta _ t _), None, Some _ => (max <? now - t)%N
  | _, _, _ => false
  end.
(** every file of the variant is there with its content *)
Definition holds_all (src : files) (p : option files) : Prop := exists l, p = Some l /\ forall f x, In (f, x) src -> aget f l = Some x.
(** whatever could be found contains all files of its variant *)
Definition covering (truth : text -> files) (c : cache) : Prop :=
  forall b i h t z, s_meta (slot_of c b i) = Some (Meta h t z) -> s_flag (slot_of c b i) = None -> holds_all (truth (hrepr h)) (payload c b i).
(** the variant an operation is about *)
Definition op_handle (o : op) : handle := match o with OGet h | OAdd h _ _ | ORemove h => h end.
(** an addition finds a free single-letter name or the next one after it *)
Definition short_op (hash : text -> text) (c : cache) (o : op) : Prop := match o with OAdd h _ _ => short_names c (hpath hash h) | _ => True end.
