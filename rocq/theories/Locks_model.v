(** Model of tasks that share the two read-write locks of the repository cache.
    Source: crates/rez-next-repository/src/cache.rs (RC). The locks are those of tokio: a request joins a queue, requests for a lock are
    granted in the order of the queue, a writer needs the lock for itself and readers share it.
    Simplifications: what a task does between two lock steps is one step that always ends; a task that fails releases what it holds, as
    the guards do when they are dropped. *)
From Verif Require Import Base.

(** RC:174-175, 206, 212-214, 227-233, 243, 264, 273, 279, 297, 312, 344: [write().await] and [read().await], the drops of the guards, and the work between *)
Inductive lact := Acq (l : nat) (w : bool) | Rel (l : nat) | Work.
(** a task: what it still has to do and whether its next request is in the queue (the await points of RC:173-375) *)
Definition ltask : Type := list lact * bool.
(** the tasks, the queue of requests and the locks held, each with task, lock and mode (RC:119-127, the two [RwLock]s) *)
Record lsys := mkLsys { ls_tasks : list ltask; ls_queue : list (nat * nat * bool); ls_held : list (nat * nat * bool) }.
(** RC:147-153: the locks are free at first *)
Definition lstart (ps : list (list lact)) : lsys := mkLsys (map (fun p => (p, false)) ps) [] [].

(** tokio's RwLock, as used by RC: a lock is free for a mode *)
Definition lfree (l : nat) (w : bool) (h : list (nat * nat * bool)) : bool :=
  forallb (fun e => let '(_, m, v) := e in negb (Nat.eqb m l) || (negb w && negb v)) h.
(** tokio's RwLock, as used by RC: the next request to be served *)
Definition lnext (l : nat) (q : list (nat * nat * bool)) : option (nat * nat * bool) := find (fun e => let '(_, m, _) := e in Nat.eqb m l) q.
(** the task at a place is replaced (RC:173-375: a task runs to its next lock step) *)
Fixpoint lset (i : nat) (t : ltask) (ts : list ltask) : list ltask :=
  match ts, i with
  | [], _ => []
  | _ :: ts', 0 => t :: ts'
  | u :: ts', S j => u :: lset j t ts'
  end.
(** one step of one task, if it can take one (RC:173-375) *)
Definition lstep (i : nat) (s : lsys) : option lsys :=
  match nth_error (ls_tasks s) i with
  | None => None
  | Some ([], _) => None
  | Some (Work :: p, _) => Some (mkLsys (lset i (p, false) (ls_tasks s)) (ls_queue s) (ls_held s))
  | Some (Rel l :: p, _) =>
    Some (mkLsys (lset i (p, false) (ls_tasks s)) (ls_queue s)
      (filter (fun e => let '(j, m, _) := e in negb (Nat.eqb j i && Nat.eqb m l)) (ls_held s)))
  | Some (Acq l w :: p, false) => Some (mkLsys (lset i (Acq l w :: p, true) (ls_tasks s)) (ls_queue s ++ [(i, l, w)]) (ls_held s))
  | Some (Acq l w :: p, true) =>
    match lnext l (ls_queue s) with
    | Some (j, _, _) =>
      if Nat.eqb j i && lfree l w (ls_held s)
      then Some (mkLsys (lset i (p, false) (ls_tasks s)) (filter (fun e => let '(k, _, _) := e in negb (Nat.eqb k i)) (ls_queue s)) ((i, l, w) :: ls_held s))
      else None
    | None => None
    end
  end.
(** a schedule names the tasks that take steps (RC:173-375 under the scheduler of tokio) *)
Fixpoint lrun (l : list nat) (s : lsys) : option lsys :=
  match l with
  | [] => Some s
  | i :: l' => match lstep i s with Some s' => lrun l' s' | None => None end
  end.

(** ** The operations of the cache *)
(** RC:124-126: the index and the statistics *)
Definition index_lock : nat := 0.
(** RC:124-126, with the above *)
Definition stats_lock : nat := 1.
(** RC:173-190 [get]: both guards live to the end; the file of a bad entry is removed while both are held *)
Definition prog_get : list lact := [Acq index_lock true; Acq stats_lock true; Work; Rel stats_lock; Rel index_lock].
(** RC:226-238 [remove] of a present or an absent key *)
Definition prog_remove (found : bool) : list lact :=
  if found then [Acq index_lock true; Work; Acq stats_lock true; Work; Rel stats_lock; Rel index_lock]
  else [Acq index_lock true; Work; Rel index_lock].
(** RC:241-269 [clear] *)
Definition prog_clear : list lact := [Acq index_lock true; Work; Rel index_lock; Work; Acq stats_lock true; Work; Rel stats_lock].
(** RC:272-275 [get_stats] *)
Definition prog_stats : list lact := [Acq stats_lock false; Work; Rel stats_lock].
(** RC:278-308 [cleanup] *)
Definition prog_cleanup : list lact := [Acq index_lock true; Work; Acq stats_lock true; Work; Rel stats_lock; Rel index_lock].
(** RC:311-330 [cleanup_if_needed] *)
Definition prog_cleanup_if (due : bool) : list lact := [Acq stats_lock false; Work; Rel stats_lock] ++ (if due then prog_cleanup else []).
(** RC:193-223 [put]: the length of the index is taken while the statistics are locked *)
Definition prog_put (due : bool) : list lact :=
  [Work; Acq index_lock true; Work; Rel index_lock; Acq stats_lock true; Acq index_lock false; Work; Rel index_lock; Work; Rel stats_lock] ++ prog_cleanup_if due.
(** RC:156-170, 334-350 [initialize] with and without an index file *)
Definition prog_init (file : bool) : list lact := if file then [Work; Acq index_lock true; Work; Rel index_lock] else [Work].
