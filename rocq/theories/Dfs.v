(** Depth-first cycle search and worklist reachability over graphs with text nodes. *)
From Verif Require Import Base Base_lemmas Maps.

(** how many elements of [u] are not in [vis] *)
Fixpoint unseen (u vis : list text) : nat :=
  match u with [] => 0 | x :: u' => (if mem_text x vis then 0 else 1) + unseen u' vis end.
Lemma unseen_mono u vis vis' : (forall x, In x vis -> In x vis') -> unseen u vis' <= unseen u vis.
Proof.
  intros H. induction u as [|x u IH]; cbn [unseen]; [lia|].
  destruct (mem_text x vis') eqn:E1, (mem_text x vis) eqn:E2; try lia.
  exfalso. apply mem_text_In, H, mem_text_In in E2. congruence.
Qed.
Lemma unseen_cons u vis n : In n u -> ~ In n vis -> unseen u (n :: vis) < unseen u vis.
Proof.
  induction u as [|x u IH]; intros Hu Hv; [destruct Hu|]. cbn [unseen].
  destruct (text_eq_dec x n) as [->|E].
  - replace (mem_text n vis) with false by (symmetry; destruct (mem_text n vis) eqn:E; [apply mem_text_In in E; contradiction|reflexivity]).
    replace (mem_text n (n :: vis)) with true by (symmetry; apply mem_text_In; left; reflexivity).
    pose proof (unseen_mono u vis (n :: vis) (fun x Hx => or_intror Hx)). lia.
  - destruct Hu as [Hu|Hu]; [congruence|]. specialize (IH Hu Hv).
    replace (mem_text x (n :: vis)) with (mem_text x vis); [lia|].
    unfold mem_text. cbn [existsb]. destruct (text_eqb_spec x n); [congruence|reflexivity].
Qed.
Lemma unseen_length u vis : unseen u vis <= length u.
Proof. induction u as [|x l IH]; cbn [unseen length]; [lia|]. destruct (mem_text x vis); lia. Qed.

(** ** vocabulary *)
Section Graph.
Context (g : text -> list text).
(** consecutive nodes are joined by edges *)
Fixpoint walk (l : list text) : Prop :=
  match l with
  | x :: ((y :: _) as l') => In y (g x) /\ walk l'
  | _ => True
  end.
(** a closed walk with at least one edge *)
Definition cycle (l : list text) : Prop := exists x m, l = x :: m ++ [x] /\ walk l.
(** at least one edge from [x] to [y] *)
Inductive path_to (x : text) : text -> Prop :=
| path_edge y : In y (g x) -> path_to x y
| path_step y z : path_to x y -> In z (g y) -> path_to x z.
Definition acyclic : Prop := forall x, ~ path_to x x.

(** ** the search *)
Inductive found := Cycle (c : list text) | Fin (visited : list text) | Out.
(** [path[position..]] *)
Fixpoint from_first (n : text) (l : list text) : list text :=
  match l with
  | [] => []
  | x :: l' => if text_eqb x n then l else from_first n l'
  end.
(** crates/rez-next-solver/src/resolution_state.rs:111-141 [dfs_cycle].  [on_stack] holds the elements of [path].
    Running out of [fuel] is a value of its own. *)
Fixpoint dfs (fuel : nat) (node : text) (visited path : list text) : found :=
  match fuel with
  | O => Out
  | S fuel' =>
      let path' := path ++ [node] in
      let fix loop (ns : list text) (vis : list text) :=
        match ns with
        | [] => Fin vis
        | n :: ns' =>
            if negb (mem_text n vis) then
              match dfs fuel' n vis path' with
              | Fin vis' => loop ns' vis'
              | r => r
              end
            else if mem_text n path' then Cycle (from_first n path' ++ [n])
            else loop ns' vis
        end in
      loop (g node) (node :: visited)
  end.
(** resolution_state.rs:96-109 [detect_cycle], over the keys in the given order *)
Fixpoint search (fuel : nat) (nodes visited : list text) : found :=
  match nodes with
  | [] => Fin visited
  | n :: ns =>
      if negb (mem_text n visited) then
        match dfs fuel n visited [] with
        | Fin vis => search fuel ns vis
        | r => r
        end
      else search fuel ns visited
  end.

(** the loop of [dfs], named *)
Definition dloop fuel' path' := fix loop (ns : list text) (vis : list text) :=
        match ns with
        | [] => Fin vis
        | n :: ns' =>
            if negb (mem_text n vis) then
              match dfs fuel' n vis path' with
              | Fin vis' => loop ns' vis'
              | r => r
              end
            else if mem_text n path' then Cycle (from_first n path' ++ [n])
            else loop ns' vis
        end.
Lemma dfs_unfold fuel node visited path : dfs (S fuel) node visited path = dloop fuel (path ++ [node]) (g node) (node :: visited).
Proof. reflexivity. Qed.
Lemma dloop_cons fuel p n ns vis : dloop fuel p (n :: ns) vis =
  if negb (mem_text n vis) then match dfs fuel n vis p with Fin v => dloop fuel p ns v | r => r end
  else if mem_text n p then Cycle (from_first n p ++ [n]) else dloop fuel p ns vis.
Proof. reflexivity. Qed.

(** ** a reported cycle is one *)
Lemma walk_app_edge l x y : walk (l ++ [x]) -> In y (g x) -> walk (l ++ [x] ++ [y]).
Proof.
  induction l as [|a l IH]; intros H Hy; cbn [app walk] in *.
  - auto.
  - destruct l as [|b l]; cbn [app walk] in *; [tauto|]. destruct H as [H1 H2]. split; [exact H1|]. apply IH; assumption.
Qed.
Lemma from_first_split n l : In n l -> exists m, from_first n l = n :: m.
Proof.
  induction l as [|x l IH]; intros H; [destruct H|]. cbn [from_first]. destruct (text_eqb_spec x n) as [->|E]; [eauto|].
  destruct H as [H|H]; [congruence|]. apply IH, H.
Qed.
Lemma from_first_walk n l r : walk (l ++ r) -> walk (from_first n l ++ r).
Proof.
  induction l as [|x l IH]; intros H; cbn [from_first]; [exact H|]. destruct (text_eqb x n); [exact H|]. apply IH.
  cbn [app] in H. destruct (l ++ r); cbn [walk] in *; tauto.
Qed.
Lemma back_edge_cycle p x n : walk (p ++ [x]) -> In n (g x) -> In n (p ++ [x]) -> cycle (from_first n (p ++ [x]) ++ [n]).
Proof.
  intros Hw Hg Hn. destruct (from_first_split n _ Hn) as [m E]. exists n, m. rewrite E. split; [reflexivity|].
  rewrite <- E. apply from_first_walk. rewrite <- app_assoc. apply walk_app_edge; assumption.
Qed.
Lemma dfs_cycle_sound : forall fuel node visited path c,
  walk (path ++ [node]) -> dfs fuel node visited path = Cycle c -> cycle c.
Proof.
  induction fuel as [|fuel IH]; intros node visited path c Hw H; [discriminate|]. rewrite dfs_unfold in H.
  assert (forall ns vis, (forall n, In n ns -> In n (g node)) -> dloop fuel (path ++ [node]) ns vis = Cycle c -> cycle c) as K.
  { induction ns as [|n ns IHns]; intros vis Hns Hl; [discriminate|]. rewrite dloop_cons in Hl.
    assert (In n (g node)) as Hn by (apply Hns; left; reflexivity).
    destruct (negb (mem_text n vis)).
    - destruct (dfs fuel n vis (path ++ [node])) as [c'|v|] eqn:E; try discriminate.
      + injection Hl as ->. eapply IH; [|exact E]. rewrite <- app_assoc. apply walk_app_edge; assumption.
      + eapply IHns; [|exact Hl]. intros x Hx. apply Hns. right. exact Hx.
    - destruct (mem_text n (path ++ [node])) eqn:Em.
      + injection Hl as <-. apply mem_text_In in Em. apply back_edge_cycle; assumption.
      + eapply IHns; [|exact Hl]. intros x Hx. apply Hns. right. exact Hx. }
  eapply K; [|exact H]. auto.
Qed.
Lemma search_cycle_sound fuel nodes : forall visited c, search fuel nodes visited = Cycle c -> cycle c.
Proof.
  induction nodes as [|n ns IH]; intros visited c H; [discriminate|]. cbn [search] in H.
  destruct (negb (mem_text n visited)); [|eapply IH, H].
  destruct (dfs fuel n visited []) as [c'|v|] eqn:E; try discriminate; [|eapply IH, H].
  injection H as ->. eapply dfs_cycle_sound; [|exact E]. exact I.
Qed.

(** ** no report, no cycle *)
(** nodes in finishing order: the neighbours of each come before it *)
Inductive finished : list text -> Prop :=
| fin_nil : finished []
| fin_cons x l : finished l -> (forall y, In y (g x) -> In y l) -> ~ In x l -> finished (x :: l).
Lemma finished_closed l : finished l -> forall x y, In x l -> In y (g x) -> In y l.
Proof.
  induction 1 as [|a l Hl IH Ha Hn]; intros x y Hx Hy; [destruct Hx|]. right. destruct Hx as [<-|Hx]; [apply Ha, Hy|eapply IH; eauto].
Qed.
Lemma finished_path l : finished l -> forall x y, In x l -> path_to x y -> In y l.
Proof. intros Hf x y Hx H. induction H as [y H|y z H IH Hz]; eapply finished_closed; eauto. Qed.
Lemma finished_acyclic l : finished l -> forall x, In x l -> ~ path_to x x.
Proof.
  induction 1 as [|a l Hl IH Ha Hn]; intros x Hx; [destruct Hx|]. destruct (text_eq_dec x a) as [->|E].
  - intros Hp. apply Hn.
    assert (forall y, path_to a y -> In y l) as K.
    { intros y H. induction H as [y H|y z H IHp Hz]; [apply Ha, H|eapply finished_closed; eauto]. }
    apply K, Hp.
  - destruct Hx as [Hx|Hx]; [congruence|]. apply IH, Hx.
Qed.

Definition split_visited (vis black path : list text) : Prop := forall x, In x vis <-> In x black \/ In x path.
Lemma dfs_finished : forall fuel node visited path black v,
  finished black -> split_visited visited black path -> ~ In node visited ->
  dfs fuel node visited path = Fin v ->
  exists black', finished black' /\ split_visited v black' path /\ (forall x, In x black -> In x black') /\ In node black' /\
    (forall x, In x black' -> In x black \/ ~ In x visited).
Proof.
  induction fuel as [|fuel IH]; intros node visited path black v Hf Hs Hn H; [discriminate|]. rewrite dfs_unfold in H.
  assert (forall ns vis black, finished black -> split_visited vis black (path ++ [node]) ->
    dloop fuel (path ++ [node]) ns vis = Fin v ->
    exists black', finished black' /\ split_visited v black' (path ++ [node]) /\ (forall x, In x black -> In x black') /\
                   (forall n, In n ns -> In n black') /\ (forall x, In x black' -> In x black \/ ~ In x vis)) as K.
  { induction ns as [|n ns IHns]; intros vis bl Hbl Hsv Hl.
    - injection Hl as <-. exists bl. split; [exact Hbl|]. split; [exact Hsv|]. split; [auto|]. split; [intros ? []|auto].
    - rewrite dloop_cons in Hl. destruct (mem_text n vis) eqn:Em; cbn [negb] in Hl.
      + destruct (mem_text n (path ++ [node])) eqn:Ep; [discriminate|].
        destruct (IHns vis bl Hbl Hsv Hl) as (b' & H1 & H2 & H3 & H4 & H5).
        exists b'. split; [exact H1|]. split; [exact H2|]. split; [exact H3|]. split; [|exact H5].
        intros x [<-|Hx]; [|auto]. apply H3. apply mem_text_In, Hsv in Em as [Em|Em]; [exact Em|].
        apply mem_text_In in Em. congruence.
      + destruct (dfs fuel n vis (path ++ [node])) as [c|v'|] eqn:Ed; try discriminate.
        assert (~ In n vis) as Hnv by (rewrite <- mem_text_In; congruence).
        destruct (IH n vis (path ++ [node]) bl v' Hbl Hsv Hnv Ed) as (b1 & F1 & S1 & I1 & N1 & D1).
        destruct (IHns v' b1 F1 S1 Hl) as (b' & H1 & H2 & H3 & H4 & H5).
        exists b'. split; [exact H1|]. split; [exact H2|]. split; [auto|]. split.
        * intros x [<-|Hx]; auto.
        * intros x Hx. destruct (H5 x Hx) as [Hx1|Hx1]; [auto|]. right. intros Hv. apply Hx1.
          apply Hsv in Hv as [Hv|Hv]; apply S1; auto. }
  assert (split_visited (node :: visited) black (path ++ [node])) as Hs'.
  { intros x. cbn [In]. rewrite in_app_iff. cbn [In]. rewrite (Hs x). tauto. }
  destruct (K (g node) (node :: visited) black Hf Hs' H) as (b & H1 & H2 & H3 & H4 & H5).
  assert (~ In node b) as Hnb.
  { intros Hin. destruct (H5 _ Hin) as [Hb|Hb]; [apply Hn, Hs; auto|apply Hb; left; reflexivity]. }
  exists (node :: b). split; [constructor; assumption|]. split.
  { intros x. rewrite (H2 x), in_app_iff. cbn [In]. tauto. }
  split; [intros x Hx; right; auto|]. split; [left; reflexivity|].
  intros x [<-|Hx]; [auto|]. destruct (H5 x Hx) as [?|Hx1]; [auto|]. right. intros Hv. apply Hx1. right. exact Hv.
Qed.
Lemma search_finished fuel nodes : forall visited v, finished visited -> search fuel nodes visited = Fin v ->
  exists black, finished black /\ (forall x, In x v <-> In x black) /\ (forall x, In x nodes -> In x black) /\
    (forall x, In x visited -> In x black).
Proof.
  assert (forall visited black v, finished black -> (forall x, In x visited <-> In x black) -> search fuel nodes visited = Fin v ->
    exists b, finished b /\ (forall x, In x v <-> In x b) /\ (forall x, In x nodes -> In x b) /\ (forall x, In x visited -> In x b)) as K.
  { induction nodes as [|n ns IH]; intros visited black v Hf Hs H; cbn [search] in H.
    - injection H as <-. exists black. split; [exact Hf|]. split; [exact Hs|]. split; [intros ? []|intros x Hx; apply Hs, Hx].
    - destruct (mem_text n visited) eqn:Em; cbn [negb] in H.
      + destruct (IH _ _ _ Hf Hs H) as (b & H1 & H2 & H3 & H4). exists b. split; [exact H1|]. split; [exact H2|]. split; [|exact H4].
        intros x [<-|Hx]; [|auto]. apply H4, mem_text_In, Em.
      + destruct (dfs fuel n visited []) as [c|v'|] eqn:Ed; try discriminate.
        destruct (dfs_finished fuel n visited [] black v' Hf) as (b & H1 & H2 & H3 & H4 & _); auto.
        { intros x. rewrite Hs. cbn [In]. tauto. }
        { rewrite <- mem_text_In. congruence. }
        destruct (IH v' b v H1) as (b2 & G1 & G2 & G3 & G4); auto.
        { intros x. rewrite (H2 x). cbn [In]. tauto. }
        exists b2. split; [exact G1|]. split; [exact G2|]. split.
        * intros x [<-|Hx]; [|auto]. apply G4, H2. auto.
        * intros x Hx. apply G4, H2. left. apply H3, Hs, Hx. }
  intros visited v Hf H. apply (K visited visited v Hf); [tauto|exact H].
Qed.
(** a search over all nodes that have edges proves the graph acyclic *)
Lemma search_acyclic fuel nodes v : (forall x, g x <> [] -> In x nodes) -> search fuel nodes [] = Fin v -> acyclic.
Proof.
  intros Hn H x Hp. destruct (search_finished fuel nodes [] v fin_nil H) as (b & Hf & _ & Hb & _).
  apply (finished_acyclic b Hf x); [|exact Hp]. apply Hb, Hn.
  assert (forall y, path_to x y -> g x <> []) as K.
  { intros y H1. induction H1 as [y H1|y z H1 IH Hz]; [|exact IH]. intros E. rewrite E in H1. destruct H1. }
  eapply K, Hp.
Qed.

(** ** enough fuel *)
Lemma dfs_mono : forall fuel node visited path v, dfs fuel node visited path = Fin v -> forall x, In x visited -> In x v.
Proof.
  induction fuel as [|fuel IH]; intros node visited path v H; [discriminate|]. rewrite dfs_unfold in H.
  assert (forall ns vis, dloop fuel (path ++ [node]) ns vis = Fin v -> forall x, In x vis -> In x v) as K.
  { induction ns as [|n ns IHns]; intros vis Hl x Hx; [injection Hl as <-; exact Hx|]. rewrite dloop_cons in Hl.
    destruct (negb (mem_text n vis)).
    - destruct (dfs fuel n vis (path ++ [node])) eqn:E; try discriminate. eapply IHns; [exact Hl|]. eapply IH; eauto.
    - destruct (mem_text n (path ++ [node])); [discriminate|]. eapply IHns; eauto. }
  intros x Hx. eapply K; [exact H|]. right. exact Hx.
Qed.
Context (u : list text) (Hu : forall x y, In x u -> In y (g x) -> In y u).
Lemma dfs_fuel : forall fuel node visited path, In node u -> ~ In node visited -> unseen u visited <= fuel ->
  dfs fuel node visited path <> Out.
Proof.
  induction fuel as [|fuel IH]; intros node visited path Hn Hv Hf.
  - exfalso. pose proof (unseen_cons u visited node Hn Hv). lia.
  - rewrite dfs_unfold.
    assert (unseen u (node :: visited) <= fuel) as Hf' by (pose proof (unseen_cons u visited node Hn Hv); lia).
    assert (forall ns vis, (forall n, In n ns -> In n u) -> unseen u vis <= fuel -> dloop fuel (path ++ [node]) ns vis <> Out) as K.
    { induction ns as [|n ns IHns]; intros vis Hns Hvis; [discriminate|]. rewrite dloop_cons.
      destruct (mem_text n vis) eqn:Em; cbn [negb].
      - destruct (mem_text n (path ++ [node])); [discriminate|]. apply IHns; [|exact Hvis]. intros x Hx. apply Hns. right. exact Hx.
      - assert (~ In n vis) as Hnv by (rewrite <- mem_text_In; congruence).
        destruct (dfs fuel n vis (path ++ [node])) as [c|v|] eqn:E; [discriminate| |].
        + apply IHns; [intros x Hx; apply Hns; right; exact Hx|].
          pose proof (unseen_mono u vis v (dfs_mono _ _ _ _ _ E)). lia.
        + intros _. eapply IH; [| | |exact E]; [apply Hns; left; reflexivity|exact Hnv|exact Hvis]. }
    apply K; [|exact Hf']. intros n Hng. eapply Hu; eauto.
Qed.
Lemma search_fuel fuel nodes : (forall x, In x nodes -> In x u) -> length u <= fuel -> forall visited, search fuel nodes visited <> Out.
Proof.
  intros Hn Hf. induction nodes as [|n ns IH]; intros visited; [discriminate|]. cbn [search].
  destruct (mem_text n visited) eqn:Em; cbn [negb].
  - apply IH. intros x Hx. apply Hn. right. exact Hx.
  - destruct (dfs fuel n visited []) as [c|v|] eqn:E; [discriminate| |].
    + apply IH. intros x Hx. apply Hn. right. exact Hx.
    + intros _. eapply dfs_fuel; [| | |exact E]; [apply Hn; left; reflexivity|rewrite <- mem_text_In; congruence|].
      pose proof (unseen_length u visited). lia.
Qed.
End Graph.

(** ** reachability by worklist *)
Section Reach.
Context (g : text -> list text).
(** adding the unseen neighbours to the seen set and the stack, resolution_state.rs:269-273 *)
Fixpoint push_new (ns pending seen : list text) : list text * list text :=
  match ns with
  | [] => (pending, seen)
  | n :: ns' => if mem_text n seen then push_new ns' pending seen else push_new ns' (n :: pending) (n :: seen)
  end.
(** resolution_state.rs:267-275: the [while let Some(..) = pending.pop()] loop *)
Fixpoint reach (fuel : nat) (pending seen : list text) : list text :=
  match fuel, pending with
  | _, [] => seen
  | O, _ => seen
  | S f, x :: p => let '(p', s') := push_new (g x) p seen in reach f p' s'
  end.
Inductive reachable (roots : list text) : text -> Prop :=
| reach_root x : In x roots -> reachable roots x
| reach_step x y : reachable roots x -> In y (g x) -> reachable roots y.

Lemma push_new_spec ns : forall pending seen p' s', push_new ns pending seen = (p', s') ->
  (forall x, In x s' <-> In x seen \/ In x ns) /\
  (forall x, In x p' <-> In x pending \/ (In x ns /\ ~ In x seen)) /\
  (forall x, In x seen -> In x s').
Proof.
  induction ns as [|n ns IH]; intros pending seen p' s' H; cbn [push_new] in H.
  - injection H as <- <-. cbn [In]. repeat split; try tauto; intuition.
  - destruct (mem_text n seen) eqn:E.
    + apply mem_text_In in E. destruct (IH _ _ _ _ H) as (H1 & H2 & H3). split; [|split; [|exact H3]].
      * intros x. rewrite (H1 x). cbn [In]. split; [tauto|]. intros [?|[<-|?]]; auto.
      * intros x. rewrite (H2 x). cbn [In]. split; [tauto|]. intros [?|[[<-|?] ?]]; [auto|contradiction|auto].
    + assert (~ In n seen) as Hn by (rewrite <- mem_text_In; congruence).
      destruct (IH _ _ _ _ H) as (H1 & H2 & H3). split; [|split].
      * intros x. rewrite (H1 x). cbn [In]. tauto.
      * intros x. rewrite (H2 x). cbn [In]. destruct (text_eq_dec n x) as [->|]; tauto.
      * intros x Hx. apply H3. right. exact Hx.
Qed.
Lemma reach_sound roots fuel : forall pending seen,
  (forall x, In x pending -> In x seen) -> (forall x, In x seen -> reachable roots x) ->
  forall x, In x (reach fuel pending seen) -> reachable roots x.
Proof.
  induction fuel as [|f IH]; intros pending seen Hp Hs x Hx.
  - destruct pending; apply Hs, Hx.
  - destruct pending as [|y p]; [apply Hs, Hx|]. cbn [reach] in Hx. destruct (push_new (g y) p seen) as [p' s'] eqn:E.
    destruct (push_new_spec _ _ _ _ _ E) as (H1 & H2 & H3). eapply IH; [| |exact Hx].
    + intros z Hz. apply H1. apply H2 in Hz as [Hz|[Hz _]]; [left; apply Hp; right; exact Hz|auto].
    + intros z Hz. apply H1 in Hz as [Hz|Hz]; [auto|]. apply (reach_step roots y); [apply Hs, Hp; left; reflexivity|exact Hz].
Qed.
(** potential: stack size plus unseen universe *)
Lemma push_new_fuel u ns : forall pending seen p' s', push_new ns pending seen = (p', s') ->
  (forall n, In n ns -> In n u) -> length p' + unseen u s' <= length pending + unseen u seen.
Proof.
  induction ns as [|n ns IH]; intros pending seen p' s' H Hu; cbn [push_new] in H; [injection H as <- <-; lia|].
  destruct (mem_text n seen) eqn:E.
  - apply (IH _ _ _ _ H). intros x Hx. apply Hu. right. exact Hx.
  - specialize (IH _ _ _ _ H (fun x Hx => Hu x (or_intror Hx))). cbn [length] in IH.
    pose proof (unseen_cons u seen n (Hu n (or_introl eq_refl))) as Hlt.
    assert (~ In n seen) by (rewrite <- mem_text_In; congruence). specialize (Hlt H0). lia.
Qed.
Lemma reach_closed u fuel : (forall x y, In y (g x) -> In y u) -> forall pending seen,
  (forall x, In x pending -> In x seen) ->
  (forall x, In x seen -> In x pending \/ forall y, In y (g x) -> In y seen) ->
  length pending + unseen u seen <= fuel ->
  (forall x, In x seen -> In x (reach fuel pending seen)) /\
  (forall x, In x (reach fuel pending seen) -> forall y, In y (g x) -> In y (reach fuel pending seen)).
Proof.
  intros Hu. induction fuel as [|f IH]; intros pending seen Hp Hs Hf.
  - destruct pending as [|y p]; [|simpl in Hf; lia]. cbn [reach]. split; [auto|]. intros x Hx. destruct (Hs x Hx) as [[]|H]. exact H.
  - destruct pending as [|y p]; cbn [reach].
    + split; [auto|]. intros x Hx. destruct (Hs x Hx) as [[]|H]. exact H.
    + destruct (push_new (g y) p seen) as [p' s'] eqn:E.
      destruct (push_new_spec _ _ _ _ _ E) as (H1 & H2 & H3).
      pose proof (push_new_fuel u _ _ _ _ _ E (fun n Hn => Hu y n Hn)) as H4. cbn [length] in Hf.
      destruct (IH p' s') as [I1 I2].
      * intros z Hz. apply H1. apply H2 in Hz as [Hz|[Hz _]]; [left; apply Hp; right; exact Hz|auto].
      * intros z Hz. destruct (mem_text z seen) eqn:Ez.
        -- apply mem_text_In in Ez. destruct (Hs z Ez) as [[<-|Hz']|Hz'].
           ++ right. intros w Hw. apply H1. auto.
           ++ left. apply H2. auto.
           ++ right. intros w Hw. apply H3. auto.
        -- assert (~ In z seen) by (rewrite <- mem_text_In; congruence). apply H1 in Hz as [Hz|Hz]; [contradiction|].
           left. apply H2. auto.
      * lia.
      * split; [|exact I2]. intros x Hx. apply I1, H3, Hx.
Qed.
Lemma reach_complete u roots fuel : (forall x y, In y (g x) -> In y u) -> length roots + length u <= fuel ->
  forall x, reachable roots x -> In x (reach fuel roots roots).
Proof.
  intros Hu Hf x Hx.
  destruct (reach_closed u fuel Hu roots roots) as [H1 H2]; auto.
  { pose proof (unseen_length u roots). lia. }
  induction Hx as [x Hx|x y Hx IH Hy]; [apply H1, Hx|eapply H2; eauto].
Qed.
Lemma reach_exact u roots fuel : (forall x y, In y (g x) -> In y u) -> length roots + length u <= fuel ->
  forall x, In x (reach fuel roots roots) <-> reachable roots x.
Proof.
  intros Hu Hf x. split; [|apply (reach_complete u); assumption].
  apply reach_sound; [auto|]. intros y Hy. apply reach_root, Hy.
Qed.
End Reach.
