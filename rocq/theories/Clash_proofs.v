(** Facts about the conflict resolver and the collection of conflicts. *)
From Verif Require Import Base Base_lemmas Version_model Version_order Maps Requirement_model Order_spec Clash_model Clash_spec.
Open Scope list_scope.

Lemma spec_version_iff r v : spec_version r = Some v <-> writes r v.
Proof.
  unfold spec_version, writes. destruct (pr_spec r) as [s|]; split.
  - intros H. exists s. split; [reflexivity|exact H].
  - intros (t & E & H). injection E as <-. exact H.
  - discriminate.
  - intros (t & E & _). discriminate E.
Qed.

Section Best.
(** [better v c]: v replaces c *)
Context (wanted : comparison) (S : version -> Prop).
Definition best_step (acc : option version) (r : package_req) : option version :=
  match spec_version r with
  | Some v => match acc with Some c => if match vcmp v c, wanted with Gt, Gt | Lt, Lt => true | _, _ => false end then Some v else Some c | None => Some v end
  | None => acc end.
Definition beats (v w : version) : Prop := match wanted with Gt => vcmp w v <> Gt | _ => vcmp v w <> Gt end.
Hypothesis W : wanted = Gt \/ wanted = Lt.
Hypothesis TV : transitive_versions S.
Lemma beats_refl v : beats v v.
Proof. unfold beats. rewrite vcmp_refl. destruct wanted; discriminate. Qed.
Lemma beats_trans a b c : S a -> S b -> S c -> beats a b -> beats b c -> beats a c.
Proof. unfold beats. intros A B C. destruct W as [-> | ->]; intros H K; [exact (TV c b a C B A K H)|exact (TV a b c A B C H K)]. Qed.
Lemma best_inv rs : forall acc, (forall c, acc = Some c -> S c) -> written_in S rs ->
  match fold_left best_step rs acc with
  | Some v => S v /\ (acc = Some v \/ exists r, In r rs /\ writes r v) /\ (forall c, acc = Some c -> beats v c) /\ (forall r w, In r rs -> writes r w -> beats v w)
  | None => acc = None /\ none_written rs
  end.
Proof.
  induction rs as [|r rs IH]; intros acc SA WI; cbn [fold_left].
  - destruct acc as [c|]; [|split; [reflexivity|intros r v []]]. split; [apply SA; reflexivity|]. split; [left; reflexivity|]. split; [intros d E; injection E as <-; apply beats_refl|intros r w []].
  - assert (WI' : written_in S rs) by (intros x v J; apply (WI x v); right; exact J).
    destruct (spec_version r) as [v|] eqn:E.
    + assert (Wr : writes r v) by (apply spec_version_iff, E). assert (Sv : S v) by (apply (WI r v); [left; reflexivity|exact Wr]).
      assert (Q : exists u, best_step acc r = Some u /\ (u = v \/ acc = Some u) /\ beats u v /\ (forall c, acc = Some c -> beats u c) /\ S u).
      { unfold best_step. rewrite E. destruct acc as [c|].
        - assert (Sc : S c) by (apply SA; reflexivity). pose proof (vcmp_anti v c) as A. unfold beats.
          destruct W as [-> | ->]; destruct (vcmp v c) eqn:C; cbn in A; (eexists; split; [reflexivity|]); (split; [tauto|]); rewrite ?vcmp_refl; repeat split;
            try (intros d X; injection X as <-); rewrite ?vcmp_refl, ?C, ?A; try discriminate; assumption.
        - exists v. split; [reflexivity|]. split; [tauto|]. split; [apply beats_refl|]. split; [intros c X; discriminate X|exact Sv]. }
      destruct Q as (u & -> & Or & Bv & Bc & Su). specialize (IH (Some u) (fun c X => match X in _ = y return match y with Some z => S z | None => True end with eq_refl => Su end) WI').
      destruct (fold_left best_step rs (Some u)) as [b|]; [|destruct IH as [X _]; discriminate X]. destruct IH as (Sb & Ob & Bb & Br). assert (Bbu : beats b u) by (apply Bb; reflexivity).
      split; [exact Sb|]. split; [|split].
      * destruct Ob as [X|(x & J & X)]; [|right; exists x; split; [right; exact J|exact X]]. injection X as <-. destruct Or as [->|Or]; [right; exists r; split; [left; reflexivity|exact Wr]|left; exact Or].
      * intros c X. apply (beats_trans b u c); try assumption; [apply SA, X|apply Bc, X].
      * intros x w [<-|J] X; [|apply (Br x w J X)]. assert (w = v) by (apply spec_version_iff in X; congruence). subst w. apply (beats_trans b u v); assumption.
    + assert (Q : best_step acc r = acc) by (unfold best_step; rewrite E; reflexivity). rewrite Q. specialize (IH acc SA WI'). destruct (fold_left best_step rs acc) as [b|].
      * destruct IH as (Sb & Ob & Bb & Br). split; [exact Sb|]. split; [destruct Ob as [X|(x & J & X)]; [left; exact X|right; exists x; split; [right; exact J|exact X]]|].
        split; [exact Bb|]. intros x w [<-|J] X; [apply spec_version_iff in X; congruence|apply (Br x w J X)].
      * destruct IH as [X N]. split; [exact X|]. intros x v [<-|J] K; [apply spec_version_iff in K; congruence|apply (N x v J K)].
Qed.
End Best.
Lemma fold_ext {A B} (f g : A -> B -> A) (l : list B) : (forall a b, f a b = g a b) -> forall a, fold_left f l a = fold_left g l a.
Proof. intros H. induction l as [|b l IH]; intros a; [reflexivity|]. cbn [fold_left]. rewrite H. apply IH. Qed.
Lemma latest_spec S rs : transitive_versions S -> written_in S rs -> match latest_of rs with Some v => greatest_written rs v | None => none_written rs end.
Proof.
  intros TV WI. assert (E : latest_of rs = fold_left (best_step Gt) rs None).
  { apply fold_ext. intros acc r. unfold best_step. destruct (spec_version r) as [v|]; [|reflexivity]. destruct acc as [c|]; [|reflexivity]. destruct (vcmp v c); reflexivity. }
  rewrite E. pose proof (best_inv Gt S (or_introl eq_refl) TV rs None (fun c X => match X in _ = y return match y with Some z => S z | None => True end with eq_refl => I end) WI) as H.
  destruct (fold_left (best_step Gt) rs None) as [v|]; [|exact (proj2 H)]. destruct H as (_ & [X|X] & _ & B); [discriminate X|]. split; [exact X|exact B].
Qed.
Lemma earliest_spec S rs : transitive_versions S -> written_in S rs -> match earliest_of rs with Some v => least_written rs v | None => none_written rs end.
Proof.
  intros TV WI. assert (E : earliest_of rs = fold_left (best_step Lt) rs None).
  { apply fold_ext. intros acc r. unfold best_step. destruct (spec_version r) as [v|]; [|reflexivity]. destruct acc as [c|]; [|reflexivity]. destruct (vcmp v c); reflexivity. }
  rewrite E. pose proof (best_inv Lt S (or_intror eq_refl) TV rs None (fun c X => match X in _ = y return match y with Some z => S z | None => True end with eq_refl => I end) WI) as H.
  destruct (fold_left (best_step Lt) rs None) as [v|]; [|exact (proj2 H)]. destruct H as (_ & [X|X] & _ & B); [discriminate X|]. split; [exact X|exact B].
Qed.
Lemma agrees_iff rs s : agrees rs s = true <-> forall o t, In o rs -> pr_spec o = Some t -> t = s \/ t = [].
Proof.
  unfold agrees. rewrite forallb_forall. split.
  - intros H o t J E. specialize (H o J). rewrite E in H. apply orb_true_iff in H as [H|H]; [left; apply text_eqb_eq, H|right; destruct t; [reflexivity|discriminate H]].
  - intros H o J. destruct (pr_spec o) as [t|] eqn:E; [|reflexivity]. apply orb_true_iff. destruct (H o t J E) as [->| ->]; [left; apply text_eqb_eq; reflexivity|right; reflexivity].
Qed.
Lemma candidate_some all rs v : candidate_of all rs = Some v -> exists r s, In r rs /\ pr_spec r = Some s /\ parse_version s = Some v /\ forall o t, In o all -> pr_spec o = Some t -> t = s \/ t = [].
Proof.
  induction rs as [|r rs IH]; [discriminate|]. cbn [candidate_of]. intros H.
  assert (K : candidate_of all rs = Some v -> exists r' s, In r' (r :: rs) /\ pr_spec r' = Some s /\ parse_version s = Some v /\ forall o t, In o all -> pr_spec o = Some t -> t = s \/ t = []).
  { intros X. destruct (IH X) as (x & s & J & R). exists x, s. split; [right; exact J|exact R]. }
  destruct (pr_spec r) as [s|] eqn:E; [|apply K, H]. destruct (parse_version s) as [w|] eqn:P; [|apply K, H]. destruct (agrees all s) eqn:G; [|apply K, H].
  injection H as ->. exists r, s. split; [left; reflexivity|]. split; [exact E|]. split; [exact P|]. apply agrees_iff, G.
Qed.
Lemma candidate_none all rs : candidate_of all rs = None -> forall r s v, In r rs -> pr_spec r = Some s -> parse_version s = Some v -> ~ forall o t, In o all -> pr_spec o = Some t -> t = s \/ t = [].
Proof.
  induction rs as [|r rs IH]; [intros _ r s v []|]. cbn [candidate_of]. intros H x s v [<-|J] E P G.
  - rewrite E, P in H. apply agrees_iff in G. rewrite G in H. discriminate H.
  - assert (K : candidate_of all rs = None) by (destruct (pr_spec r) as [s'|]; [|exact H]; destruct (parse_version s'); [|exact H]; destruct (agrees all s'); [discriminate H|exact H]).
    exact (IH K x s v J E P G).
Qed.
Lemma resolve_all s cs rs : resolve_conflicts s cs = Some rs <-> Forall2 (fun c r => resolve_one s c = Some r) cs rs.
Proof.
  revert rs. induction cs as [|c cs IH]; intros rs; cbn [resolve_conflicts].
  - split; [intros E; injection E as <-; constructor|intros H; inversion H; reflexivity].
  - destruct (resolve_one s c) as [r|] eqn:R; [|split; [discriminate|intros H; inversion H; congruence]]. destruct (resolve_conflicts s cs) as [l|] eqn:L.
    + split; [intros E; injection E as <-; constructor; [exact R|apply IH; reflexivity]|]. intros H. inversion H as [|? x ? y A B]; subst. apply IH in B. congruence.
    + split; [discriminate|]. intros H. inversion H as [|? x ? y A B]; subst. apply IH in B. discriminate B.
Qed.

(** ** the collection *)
Lemma run_snoc ks k : run (ks ++ [k]) = step (run ks) k.
Proof. unfold run. rewrite fold_left_app. reflexivity. Qed.
Lemma run_nodup ks : NoDup (akeys (run ks)).
Proof.
  induction ks as [|k ks IH] using rev_ind; [constructor|]. rewrite run_snoc. destruct k as [c|n]; cbn [step]; [apply nodup_put, IH|apply nodup_del, IH].
Qed.
Lemma recorded_get n ks : recorded n ks (get_conflicts (run ks) n).
Proof.
  induction ks as [|k ks IH] using rev_ind; [constructor|]. rewrite run_snoc. destruct k as [c|m]; cbn [step].
  - unfold add_conflict. destruct (list_eq_dec ascii_dec (k_name c) n) as [E|E].
    + unfold get_conflicts at 1. subst n. rewrite aget_put_same. unfold get_conflicts in IH. destruct (aget (k_name c) (run ks)) as [l|]; [apply rec_add; [exact IH|reflexivity]|].
      apply (rec_add (k_name c) ks [] c IH eq_refl).
    + unfold get_conflicts at 1. rewrite aget_put_other by congruence. apply rec_other; assumption.
  - unfold remove_conflicts. destruct (list_eq_dec ascii_dec m n) as [E|E].
    + subst m. unfold get_conflicts. rewrite aget_del_same. apply (rec_remove n ks (get_conflicts (run ks) n)), IH.
    + unfold get_conflicts. rewrite aget_del_other by congruence. apply rec_keep; assumption.
Qed.
Lemma run_nonempty ks n : In n (akeys (run ks)) <-> get_conflicts (run ks) n <> [].
Proof.
  assert (V : forall k l, In (k, l) (run ks) -> l <> [] /\ forall c, In c l -> k_name c = k).
  { induction ks as [|k ks IH] using rev_ind; [intros k l []|]. rewrite run_snoc. intros x l J. pose proof (run_nodup ks) as N. destruct k as [c|m]; cbn [step] in J.
    - unfold add_conflict in J. apply aput_in in J as [[-> ->]|[_ J]]; [|apply IH, J|exact N]. destruct (aget (k_name c) (run ks)) as [l'|] eqn:G.
      + split; [destruct l'; discriminate|]. intros d K. apply in_app_iff in K as [K|[<-|[]]]; [|reflexivity]. apply (IH (k_name c) l'); [apply aget_in, G|exact K].
      + split; [discriminate|]. intros d [<-|[]]. reflexivity.
    - unfold remove_conflicts, adel in J. apply filter_In in J as [J _]. apply IH, J. }
  rewrite <- aget_some. unfold get_conflicts. split.
  - intros (l & G). rewrite G. apply (V n l), aget_in, G.
  - intros H. destruct (aget n (run ks)) as [l|]; [exists l; reflexivity|contradiction].
Qed.
Lemma all_iff ord ks c : (forall l, Permutation (ord l) l) -> (In c (all_conflicts ord (run ks)) <-> In c (get_conflicts (run ks) (k_name c))).
Proof.
  intros P.
  assert (V : forall k l, In (k, l) (run ks) -> forall c, In c l -> k_name c = k).
  { induction ks as [|k ks IH] using rev_ind; [intros k l []|]. rewrite run_snoc. intros x l J. pose proof (run_nodup ks) as N. destruct k as [d|m]; cbn [step] in J.
    - unfold add_conflict in J. apply aput_in in J as [[-> ->]|[_ J]]; [|apply IH, J|exact N]. destruct (aget (k_name d) (run ks)) as [l'|] eqn:G.
      + intros e K. apply in_app_iff in K as [K|[<-|[]]]; [|reflexivity]. apply (IH (k_name d) l'); [apply aget_in, G|exact K].
      + intros e [<-|[]]. reflexivity.
    - unfold remove_conflicts, adel in J. apply filter_In in J as [J _]. apply IH, J. }
  unfold all_conflicts. rewrite in_concat. split.
  - intros (l & J & K). apply (Permutation_in _ (P _)) in J. apply in_map_iff in J as ((k, l') & E & J). cbn in E. subst l'. pose proof (V k l J c K) as Ek. subst k.
    unfold get_conflicts. rewrite (aget_nodup _ _ _ (run_nodup ks) J). exact K.
  - unfold get_conflicts. destruct (aget (k_name c) (run ks)) as [l|] eqn:G; [|intros []]. intros K. exists l. split; [|exact K].
    apply (Permutation_in _ (Permutation_sym (P _))). apply in_map_iff. exists (k_name c, l). split; [reflexivity|apply aget_in, G].
Qed.
