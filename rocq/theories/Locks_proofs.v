(** Tasks that take locks in an order cannot block each other. *)
From Verif Require Import Base Locks_model Locks_spec.
From Coq Require Import Lia.

Lemma lset_same i t ts u : nth_error ts i = Some u -> nth_error (lset i t ts) i = Some t.
Proof. revert i. induction ts as [|x ts IH]; intros [|i] H; cbn in *; try discriminate; [reflexivity|exact (IH i H)]. Qed.
Lemma lset_other i j t ts : j <> i -> nth_error (lset i t ts) j = nth_error ts j.
Proof. revert i j. induction ts as [|x ts IH]; intros [|i] [|j] H; cbn; try reflexivity; try congruence. apply IH. congruence. Qed.

(** the work left *)
Fixpoint left (ts : list ltask) : nat := match ts with [] => 0 | (p, b) :: r => 2 * length p - (if b : bool then 1 else 0) + left r end.
Lemma left_set i p b p' b' ts : nth_error ts i = Some (p, b) -> 2 * length p' - (if b' : bool then 1 else 0) < 2 * length p - (if b : bool then 1 else 0) ->
  left (lset i (p', b') ts) < left ts.
Proof. revert i. induction ts as [|[q c] ts IH]; intros [|i] H L; cbn in *; try discriminate; [injection H as -> ->; lia|specialize (IH i H L); lia]. Qed.

Section Order.
Variable rank : nat -> nat.
Definition locks_of (i : nat) (h : list (nat * nat * bool)) : list nat := map (fun e => snd (fst e)) (filter (fun e => Nat.eqb (fst (fst e)) i) h).
Record inv (s : lsys) : Prop := {
  inv_order : forall i p b, nth_error (ls_tasks s) i = Some (p, b) -> orderly rank (locks_of i (ls_held s)) p;
  inv_owner : forall i l w, In (i, l, w) (ls_held s) -> exists t, nth_error (ls_tasks s) i = Some t;
  inv_queue : forall i l w, In (i, l, w) (ls_queue s) <-> exists p, nth_error (ls_tasks s) i = Some (Acq l w :: p, true);
  inv_wait : forall i p b, nth_error (ls_tasks s) i = Some (p, b) -> b = true -> exists l w q, p = Acq l w :: q;
  inv_excl : exclusive s }.

Lemma locks_of_in i l w h : In (i, l, w) h -> In l (locks_of i h).
Proof. intros H. apply in_map_iff. exists (i, l, w). split; [reflexivity|]. apply filter_In. split; [exact H|apply Nat.eqb_refl]. Qed.
Lemma locks_of_drop i j l h : locks_of j (filter (fun e => let '(k, m, _) := e in negb (Nat.eqb k i && Nat.eqb m l)) h) =
  if Nat.eqb j i then filter (fun m => negb (Nat.eqb m l)) (locks_of j h) else locks_of j h.
Proof.
  induction h as [|[[k m] v] h IH]; unfold locks_of in *; cbn; [destruct (Nat.eqb j i); reflexivity|].
  destruct (Nat.eqb k i) eqn:A; cbn.
  - destruct (Nat.eqb m l) eqn:B; cbn.
    + rewrite IH. destruct (Nat.eqb j i) eqn:C.
      * destruct (Nat.eqb k j); cbn; [rewrite B; reflexivity|reflexivity].
      * destruct (Nat.eqb k j) eqn:D; [|reflexivity]. apply Nat.eqb_eq in A, D. apply Nat.eqb_neq in C. congruence.
    + destruct (Nat.eqb k j) eqn:D; cbn; rewrite IH; destruct (Nat.eqb j i); cbn; rewrite ?B; reflexivity.
  - destruct (Nat.eqb k j) eqn:D; cbn; rewrite IH; destruct (Nat.eqb j i) eqn:C; cbn; try reflexivity.
    apply Nat.eqb_eq in D, C. apply Nat.eqb_neq in A. congruence.
Qed.
Lemma lnext_some l q e : lnext l q = Some e -> exists i w, e = (i, l, w) /\ In e q.
Proof. unfold lnext. intros H. apply find_some in H. destruct e as [[i m] w]. destruct H as [A B]. apply Nat.eqb_eq in B. subst m. exists i, w. split; [reflexivity|exact A]. Qed.
Lemma lnext_ex l i w q : In (i, l, w) q -> exists j v, lnext l q = Some (j, l, v).
Proof.
  intros H. destruct (lnext l q) as [e|] eqn:E.
  - destruct (lnext_some _ _ _ E) as (j & v & -> & _). exists j, v. reflexivity.
  - unfold lnext in E. apply find_none with (2 := H) in E. rewrite Nat.eqb_refl in E. discriminate E.
Qed.
Lemma lfree_false l w h : lfree l w h = false -> exists j v, In (j, l, v) h.
Proof.
  induction h as [|[[j m] v] h IH]; cbn; [discriminate|]. destruct (Nat.eqb m l) eqn:A; cbn.
  - intros _. apply Nat.eqb_eq in A. subst m. exists j, v. now left.
  - intros H. destruct (IH H) as (j' & v' & K). exists j', v'. now right.
Qed.
Lemma lfree_true l w h j v : lfree l w h = true -> In (j, l, v) h -> w = false /\ v = false.
Proof.
  intros H I. unfold lfree in H. rewrite forallb_forall in H. specialize (H _ I). cbn in H. rewrite Nat.eqb_refl in H. cbn in H.
  apply andb_true_iff in H. destruct H as [A B]. destruct w, v; cbn in *; try discriminate; split; reflexivity.
Qed.

Lemma step_inv i s s' : inv s -> lstep i s = Some s' -> inv s' /\ left (ls_tasks s') < left (ls_tasks s).
Proof.
  intros [O W Q B X] H. unfold lstep in H. destruct (nth_error (ls_tasks s) i) as [[p b]|] eqn:E; [|discriminate].
  assert (NB : forall l p', p = Rel l :: p' \/ p = Work :: p' -> b = false).
  { intros l p' D. destruct b; [|reflexivity]. destruct (B _ _ _ E eq_refl) as (l' & w' & q & F). destruct D; congruence. }
  destruct p as [|[l w|l|] p]; [discriminate| | |].
  - destruct b.
    + destruct (lnext l (ls_queue s)) as [[[j l'] w']|] eqn:N; [|discriminate].
      destruct (Nat.eqb j i && lfree l w (ls_held s)) eqn:G; [|discriminate]. injection H as <-. apply andb_true_iff in G. destruct G as [G F]. apply Nat.eqb_eq in G. subst j.
      split; [|cbn; eapply left_set; [exact E|cbn; lia]]. constructor; unfold exclusive; cbn [ls_tasks ls_queue ls_held].
      * intros j p' b' H. destruct (Nat.eq_dec j i) as [->|D].
        -- rewrite (lset_same _ _ _ _ E) in H. injection H as <- <-. unfold locks_of. cbn. rewrite Nat.eqb_refl. cbn. exact (proj2 (O _ _ _ E)).
        -- rewrite lset_other in H by exact D. unfold locks_of. cbn. destruct (Nat.eqb_spec i j); [congruence|]. exact (O _ _ _ H).
      * intros j m v [H|H].
        -- injection H as <- <- <-. eexists. exact (lset_same _ _ _ _ E).
        -- destruct (Nat.eq_dec j i) as [->|D]; [eexists; exact (lset_same _ _ _ _ E)|]. rewrite lset_other by exact D. exact (W _ _ _ H).
      * intros j m v. rewrite filter_In. destruct (Nat.eq_dec j i) as [->|D].
        -- rewrite (lset_same _ _ _ _ E), Nat.eqb_refl. cbn. split; [intros [_ H]; discriminate|intros (q & H); discriminate].
        -- rewrite lset_other by exact D. destruct (Nat.eqb_spec j i); [congruence|]. cbn. rewrite <- Q. tauto.
      * intros j p' b' H T. destruct (Nat.eq_dec j i) as [->|D].
        -- rewrite (lset_same _ _ _ _ E) in H. injection H as <- <-. discriminate.
        -- rewrite lset_other in H by exact D. exact (B _ _ _ H T).
      * intros j k m v [H|H] [K|K].
        -- congruence.
        -- injection H as <- <- ->. destruct (lfree_true _ _ _ _ _ F K) as [A _]. discriminate A.
        -- injection K as <- <- <-. destruct (lfree_true _ _ _ _ _ F H) as [_ A]. discriminate A.
        -- exact (X _ _ _ _ H K).
    + injection H as <-. split; [|cbn; eapply left_set; [exact E|cbn; lia]]. constructor; unfold exclusive; cbn [ls_tasks ls_queue ls_held].
      * intros j p' b' H. destruct (Nat.eq_dec j i) as [->|D].
        -- rewrite (lset_same _ _ _ _ E) in H. injection H as <- <-. exact (O _ _ _ E).
        -- rewrite lset_other in H by exact D. exact (O _ _ _ H).
      * intros j m v H. destruct (Nat.eq_dec j i) as [->|D]; [eexists; exact (lset_same _ _ _ _ E)|]. rewrite lset_other by exact D. exact (W _ _ _ H).
      * intros j m v. rewrite in_app_iff. cbn. destruct (Nat.eq_dec j i) as [->|D].
        -- rewrite (lset_same _ _ _ _ E). split.
           ++ intros [H|[H|[]]]; [|injection H as <- <-; eexists; reflexivity]. apply Q in H. destruct H as (q & H). congruence.
           ++ intros (q & H). injection H as <- <- _. right. now left.
        -- rewrite lset_other by exact D. rewrite <- Q. split; [intros [H|[H|[]]]; [exact H|congruence]|tauto].
      * intros j p' b' H T. destruct (Nat.eq_dec j i) as [->|D].
        -- rewrite (lset_same _ _ _ _ E) in H. injection H as <- <-. do 3 eexists. reflexivity.
        -- rewrite lset_other in H by exact D. exact (B _ _ _ H T).
      * exact X.
  - injection H as <-. rewrite (NB l p (or_introl eq_refl)) in E. split; [|cbn; eapply left_set; [exact E|cbn; lia]]. constructor; unfold exclusive; cbn [ls_tasks ls_queue ls_held].
    + intros j p' b' H. rewrite locks_of_drop. destruct (Nat.eq_dec j i) as [->|D].
      * rewrite (lset_same _ _ _ _ E) in H. injection H as <- <-. rewrite Nat.eqb_refl. exact (proj2 (O _ _ _ E)).
      * rewrite lset_other in H by exact D. destruct (Nat.eqb_spec j i); [congruence|]. exact (O _ _ _ H).
    + intros j m v H. apply filter_In in H. destruct H as [H _]. destruct (Nat.eq_dec j i) as [->|D]; [eexists; exact (lset_same _ _ _ _ E)|]. rewrite lset_other by exact D. exact (W _ _ _ H).
    + intros j m v. destruct (Nat.eq_dec j i) as [->|D].
      * rewrite (lset_same _ _ _ _ E). split; [intros H; apply Q in H; destruct H as (q & H); congruence|intros (q & H); discriminate].
      * rewrite lset_other by exact D. apply Q.
    + intros j p' b' H T. destruct (Nat.eq_dec j i) as [->|D].
      * rewrite (lset_same _ _ _ _ E) in H. injection H as <- <-. discriminate.
      * rewrite lset_other in H by exact D. exact (B _ _ _ H T).
    + intros j k m v H K. apply filter_In in H, K. exact (X _ _ _ _ (proj1 H) (proj1 K)).
  - injection H as <-. rewrite (NB 0 p (or_intror eq_refl)) in E. split; [|cbn; eapply left_set; [exact E|cbn; lia]]. constructor; unfold exclusive; cbn [ls_tasks ls_queue ls_held].
    + intros j p' b' H. destruct (Nat.eq_dec j i) as [->|D].
      * rewrite (lset_same _ _ _ _ E) in H. injection H as <- <-. exact (O _ _ _ E).
      * rewrite lset_other in H by exact D. exact (O _ _ _ H).
    + intros j m v H. destruct (Nat.eq_dec j i) as [->|D]; [eexists; exact (lset_same _ _ _ _ E)|]. rewrite lset_other by exact D. exact (W _ _ _ H).
    + intros j m v. destruct (Nat.eq_dec j i) as [->|D].
      * rewrite (lset_same _ _ _ _ E). split; [intros H; apply Q in H; destruct H as (q & H); congruence|intros (q & H); discriminate].
      * rewrite lset_other by exact D. apply Q.
    + intros j p' b' H T. destruct (Nat.eq_dec j i) as [->|D].
      * rewrite (lset_same _ _ _ _ E) in H. injection H as <- <-. discriminate.
      * rewrite lset_other in H by exact D. exact (B _ _ _ H T).
    + exact X.
Qed.

Lemma highest (q : list (nat * nat * bool)) : q <> [] -> exists i l w, In (i, l, w) q /\ forall j m v, In (j, m, v) q -> rank m <= rank l.
Proof.
  induction q as [|[[i l] w] q IH]; [congruence|]. intros _. destruct q as [|e q].
  - exists i, l, w. split; [now left|]. intros j m v [H|[]]. injection H as <- <- <-. lia.
  - destruct IH as (j & m & v & A & B); [discriminate|]. destruct (le_lt_dec (rank m) (rank l)) as [L|L].
    + exists i, l, w. split; [now left|]. intros j' m' v' [H|H]; [injection H as <- <- <-; lia|]. specialize (B _ _ _ H). lia.
    + exists j, m, v. split; [now right|]. intros j' m' v' [H|H]; [injection H as <- <- <-; lia|]. exact (B _ _ _ H).
Qed.
Lemma running_step i s a p b : inv s -> nth_error (ls_tasks s) i = Some (a :: p, b) -> (forall l w, a = Acq l w -> ~ In (i, l, w) (ls_queue s)) -> can_step s.
Proof.
  intros V E N. exists i. unfold lstep. rewrite E. destruct a as [l w|l|].
  - destruct b; [|eexists; reflexivity]. exfalso. apply (N l w eq_refl). apply (inv_queue s V). exists p. exact E.
  - eexists. reflexivity.
  - eexists. reflexivity.
Qed.
Lemma progress s : inv s -> all_done s \/ can_step s.
Proof.
  intros V. destruct (ls_queue s) as [|e q] eqn:EQ.
  - destruct (existsb (fun t : ltask => match fst t with [] => false | _ => true end) (ls_tasks s)) eqn:U.
    + right. apply existsb_exists in U. destruct U as ([p b] & I & U). cbn in U. destruct p as [|a p]; [discriminate|]. apply In_nth_error in I. destruct I as [i I].
      apply (running_step i s a p b V I). intros l w _. rewrite EQ. intros [].
    + left. intros p b I. destruct p as [|a p]; [reflexivity|]. exfalso. assert (K : existsb (fun t : ltask => match fst t with [] => false | _ => true end) (ls_tasks s) = true) by (apply existsb_exists; exists (a :: p, b); split; [exact I|reflexivity]). congruence.
  - right. destruct (highest (ls_queue s)) as (i0 & l & w0 & A & M); [rewrite EQ; discriminate|].
    destruct (lnext_ex _ _ _ _ A) as (i & w & N). destruct (lnext_some _ _ _ N) as (i' & w' & Y & I). injection Y as <- <-.
    destruct (proj1 (inv_queue s V i l w) I) as (p & E).
    destruct (lfree l w (ls_held s)) eqn:F.
    + exists i. unfold lstep. rewrite E, N, Nat.eqb_refl, F. eexists. reflexivity.
    + destruct (lfree_false _ _ _ F) as (j & v & H). destruct (inv_owner s V _ _ _ H) as ([pj bj] & Ej). pose proof (inv_order s V _ _ _ Ej) as O. apply locks_of_in in H.
      destruct pj as [|a pj]; [cbn in O; rewrite O in H; destruct H|]. apply (running_step j s a pj bj V Ej). intros m u -> K. specialize (M _ _ _ K). pose proof (proj1 O _ H). lia.
Qed.

Lemma start_inv ps : Forall (orderly rank []) ps -> inv (lstart ps).
Proof.
  intros H. rewrite Forall_forall in H. constructor; unfold exclusive; cbn [ls_tasks ls_queue ls_held].
  - intros i p b E. apply nth_error_In in E. apply in_map_iff in E. destruct E as (q & E & I). injection E as <- <-. exact (H _ I).
  - intros i l w [].
  - intros i l w. split; [intros []|]. intros (p & E). apply nth_error_In in E. apply in_map_iff in E. destruct E as (q & E & I). discriminate.
  - intros i p b E T. apply nth_error_In in E. apply in_map_iff in E. destruct E as (q & E & I). congruence.
  - intros i j l v [].
Qed.
Lemma left_start ps : left (map (fun p => (p, false)) ps) = 2 * length (concat ps).
Proof. induction ps as [|p ps IH]; [reflexivity|]. cbn [map left concat]. rewrite IH, app_length. lia. Qed.
Lemma run_inv l : forall s s', inv s -> lrun l s = Some s' -> inv s' /\ length l + left (ls_tasks s') <= left (ls_tasks s).
Proof.
  induction l as [|i l IH]; intros s s' V R; cbn in *; [injection R as <-; split; [exact V|lia]|].
  destruct (lstep i s) as [t|] eqn:E; [|discriminate]. destruct (step_inv _ _ _ V E) as [V' L]. destruct (IH _ _ V' R) as [A B]. split; [exact A|lia].
Qed.
Lemma run_app l : forall l' s t, lrun l s = Some t -> lrun (l ++ l') s = lrun l' t.
Proof. induction l as [|i l IH]; intros l' s t R; cbn in *; [injection R as <-; reflexivity|]. destruct (lstep i s); [|discriminate]. exact (IH _ _ _ R). Qed.
Lemma finish n : forall s, left (ls_tasks s) <= n -> inv s -> exists l s', lrun l s = Some s' /\ all_done s'.
Proof.
  induction n as [n IH] using lt_wf_ind. intros s L V. destruct (progress s V) as [D|(i & t & E)]; [exists [], s; split; [reflexivity|exact D]|].
  destruct (step_inv _ _ _ V E) as [V' L']. destruct (IH (left (ls_tasks t))) with (s := t) as (l & s' & R & D); [lia|lia|exact V'|].
  exists (i :: l), s'. split; [cbn; rewrite E; exact R|exact D].
Qed.
Theorem ordered_gets_on ps : Forall (orderly rank []) ps -> gets_on ps.
Proof.
  intros H. pose proof (start_inv ps H) as V. split; [|split].
  - intros s (l & R) [A B]. destruct (run_inv _ _ _ V R) as [V' _]. destruct (progress s V'); tauto.
  - intros l s R. destruct (run_inv _ _ _ V R) as [_ L]. cbn in L. rewrite left_start in L. lia.
  - intros l s R. destruct (run_inv _ _ _ V R) as [V' _]. destruct (finish (left (ls_tasks s)) s) as (l' & s' & R' & D); [lia|exact V'|]. exists l', s'. split; [rewrite (run_app _ _ _ _ R); exact R'|exact D].
Qed.
End Order.
