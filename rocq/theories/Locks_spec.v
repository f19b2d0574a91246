(** What it means for tasks with locks to get on. *)
From Verif Require Import Base Locks_model.

(** All tasks are done. *)
Definition all_done (s : lsys) : Prop := forall p b, In (p, b) (ls_tasks s) -> p = [].
(** Some task can take a step. *)
Definition can_step (s : lsys) : Prop := exists i s', lstep i s = Some s'.
(** A deadlock: work is left and no task can take a step. *)
Definition deadlock (s : lsys) : Prop := ~ all_done s /\ ~ can_step s.
(** A state that some schedule leads to. *)
Definition reached (ps : list (list lact)) (s : lsys) : Prop := exists l, lrun l (lstart ps) = Some s.
(** The tasks cannot come to a deadlock, cannot run for ever, and can always be brought to their ends. *)
Definition gets_on (ps : list (list lact)) : Prop :=
  (forall s, reached ps s -> ~ deadlock s) /\
  (forall l s, lrun l (lstart ps) = Some s -> length l <= 2 * length (concat ps)) /\
  (forall l s, lrun l (lstart ps) = Some s -> exists l' s', lrun (l ++ l') (lstart ps) = Some s' /\ all_done s').
(** No two tasks hold a lock that one of them holds for writing. *)
Definition exclusive (s : lsys) : Prop :=
  forall i j l v, In (i, l, true) (ls_held s) -> In (j, l, v) (ls_held s) -> i = j.
(** A program asks for locks in the order of their ranks only, releases what it holds, and holds nothing at the end. *)
Fixpoint orderly (rank : nat -> nat) (held : list nat) (p : list lact) : Prop :=
  match p with
  | [] => held = []
  | Work :: p' => orderly rank held p'
  | Acq l _ :: p' => (forall m, In m held -> rank m < rank l) /\ orderly rank (l :: held) p'
  | Rel l :: p' => In l held /\ orderly rank (filter (fun m => negb (Nat.eqb m l)) held) p'
  end.
