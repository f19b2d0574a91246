(** The levels of the depends command are the packages by distance. *)
From Verif Require Import Base Base_lemmas Maps Package_model Repo_model Search_model Search_spec Search_tree.
From Verif Require Import Env_proofs.

Lemma note_at_nth d x : forall levels k, nth k (note_at d x levels) [] = if Nat.eqb k d then (if mem_text x (nth d levels []) then nth d levels [] else nth d levels [] ++ [x]) else nth k levels [].
Proof.
  induction d as [|d IH]; intros [|l ls] [|k]; cbn [note_at nth Nat.eqb]; try reflexivity; [now destruct k| |].
  - rewrite IH. destruct (Nat.eqb k d); [|now destruct k]. now destruct d.
  - apply IH.
Qed.
Lemma enqueue_all d ds : forall q seen levels, NoDup seen -> (forall y, In y (nth (S d) levels []) -> In y seen) ->
  exists added levels', fold_left (enqueue d) ds (q, seen, levels) = (q ++ map (fun y => (y, S d)) added, rev added ++ seen, levels') /\
  NoDup (rev added ++ seen) /\ (forall y, In y added -> In y ds) /\ (forall y, In y ds -> In y (rev added ++ seen)) /\
  (forall k, nth k levels' [] = if Nat.eqb k (S d) then nth k levels [] ++ added else nth k levels []).
Proof.
  induction ds as [|x ds IH]; intros q seen levels N L.
  - exists [], levels. cbn [map rev app fold_left]. rewrite app_nil_r. split; [reflexivity|]. split; [exact N|]. split; [intros y []|]. split; [intros y []|]. intros k. rewrite app_nil_r. now destruct (Nat.eqb k (S d)).
  - cbn [fold_left enqueue]. destruct (mem_text x seen) eqn:M.
    + destruct (IH q seen levels N L) as (a & l & E & N' & A1 & A2 & A3). exists a, l. split; [exact E|]. split; [exact N'|]. split; [intros y Hy; right; now apply A1|]. split; [|exact A3]. intros y [<-|Hy]; [apply in_app_iff; right; now apply mem_text_in|now apply A2].
    + assert (Nx : ~ In x seen) by (intros K; apply mem_text_in in K; congruence).
      assert (Mx : mem_text x (nth (S d) levels []) = false) by (apply not_true_is_false; intros K; apply mem_text_in in K; apply Nx, L, K).
      destruct (IH (q ++ [(x, S d)]) (x :: seen) (note_at (S d) x levels)) as (a & l & E & N' & A1 & A2 & A3); [now constructor| |].
      { intros y. rewrite note_at_nth, Nat.eqb_refl, Mx. intros Hy. apply in_app_iff in Hy. destruct Hy as [Hy|[<-|[]]]; [right; now apply L|now left]. }
      exists (x :: a), l. cbn [map rev]. rewrite <- !app_assoc in *. cbn [app] in *. split; [exact E|]. split; [exact N'|]. split; [intros y [<-|Hy]; [now left|right; now apply A1]|]. split.
      * intros y [<-|Hy]; [apply in_app_iff; right; now left|now apply A2].
      * intros k. rewrite A3, note_at_nth, Mx. destruct (Nat.eqb k (S d)) eqn:K; [|reflexivity]. apply Nat.eqb_eq in K. subst k. rewrite <- app_assoc. reflexivity.
Qed.

Lemma NoDup_app_intro {A} (a b : list A) : NoDup a -> NoDup b -> (forall x, In x a -> In x b -> False) -> NoDup (a ++ b).
Proof.
  induction 1 as [|x a N D IH]; intros Db H; [exact Db|]. cbn. constructor; [intros K; apply in_app_iff in K; destruct K as [K|K]; [contradiction|apply (H x); [now left|exact K]]|]. apply IH; [exact Db|]. intros y Hy. apply H. now right.
Qed.
Section Walk.
Context (deps : text -> list text) (a : text) (max : option nat).
Definition within (k : nat) : Prop := match max with Some d => k <= d | None => True end.
Definition stop (k : nat) : bool := match max with Some d => Nat.leb d k | None => false end.
(** the answer for a name does not depend on the state of the repositories *)
Definition plain (x : text) (m : manager) : answer (list text) * manager := (Ok (deps x), m).
Record qinv (queue : list (text * nat)) (seen : list text) (levels : list (list text)) : Prop := mkQinv {
  q_nodup : NoDup seen;
  q_start : In a seen;
  q_seen : forall x, In x seen -> exists k, distance deps a k x /\ within k;
  q_queue : forall x d, In (x, d) queue -> In x seen /\ distance deps a d x;
  q_sorted : forall x d q, queue = (x, d) :: q -> (forall y e, In (y, e) q -> d <= e <= S d) /\ (forall k y, k <= d -> distance deps a k y -> In y seen);
  q_asc : forall q1 x d q2 y e q3, queue = q1 ++ (x, d) :: q2 ++ (y, e) :: q3 -> d <= e;
  q_done : forall x k y, In x seen -> distance deps a k x -> ~ In x (map fst queue) -> stop k = false -> In y (deps x) -> In y seen;
  q_levels : forall k, NoDup (nth k levels []) /\ forall x, In x (nth k levels []) <-> k <> 0 /\ In x seen /\ distance deps a k x }.
Lemma stop_within k : stop k = false -> within (S k).
Proof. unfold stop, within. destruct max; [|auto]. intros H. apply Nat.leb_gt in H. lia. Qed.
Lemma within_stop k : within (S k) -> stop k = false.
Proof. unfold stop, within. destruct max; [|auto]. intros H. apply Nat.leb_gt. lia. Qed.
Lemma qinv_start : qinv [(a, 0)] [a] [].
Proof.
  split.
  - constructor; [intros []|constructor].
  - now left.
  - intros x [<-|[]]. exists 0. split; [now apply distance_zero|]. unfold within. destruct max; [lia|exact I].
  - intros x d [[= <- <-]|[]]. split; [now left|now apply distance_zero].
  - intros x d q [= <- <- <-]. split; [intros y e []|]. intros k y L D. assert (k = 0) by lia. subst k. left. symmetry. now apply (distance_zero deps).
  - intros [|? [|? ?]] x d q2 y e q3 E; try discriminate. cbn in E. injection E as _ _ E. now destruct q2.
  - intros x k y [<-|[]] _ N. destruct N. now left.
  - intros k. assert (Z : nth k (@nil (list text)) [] = []) by now destruct k. rewrite Z. split; [constructor|]. intros x. split; [intros []|]. intros (K & [<-|[]] & D). destruct K. apply (distance_unique deps a a k 0 D). now apply distance_zero.
Qed.
(** after the first of the queue is done, the next has all closer packages seen *)
Lemma next_closer x d rest seen levels : qinv ((x, d) :: rest) seen levels ->
  forall queue' seen', (forall y, In y seen -> In y seen') -> (forall y k z, In y seen' -> distance deps a k y -> ~ In y (map fst queue') -> stop k = false -> In z (deps y) -> In z seen') ->
  (forall y e, In (y, e) queue' -> In y seen' /\ distance deps a e y /\ within e /\ d <= e) ->
  forall y e q, queue' = (y, e) :: q -> (forall z f, In (z, f) q -> e <= f) -> e <= S d -> forall k z, k <= e -> distance deps a k z -> In z seen'.
Proof.
  intros Q queue' seen' Inc Done Que y e q E Asc Le k z Lk Dz. destruct (q_sorted _ _ _ Q x d rest eq_refl) as [_ Near].
  destruct (Nat.le_gt_cases k d) as [L|L]; [apply Inc, (Near k z L Dz)|]. assert (k = S d) by lia. assert (e = S d) by lia. subst k e. apply distance_back in Dz. destruct Dz as (w & Dw & Iw).
  apply (Done w d z); [apply Inc, (Near d w (le_n d) Dw)|exact Dw| | |exact Iw].
  - intros K. apply in_map_iff in K. destruct K as ([w' f] & Ew & Iq). cbn in Ew. subst w'. destruct (Que w f Iq) as (_ & Df & _ & _). pose proof (distance_unique _ _ _ _ _ Dw Df). subst f. rewrite E in Iq. destruct Iq as [Iq|Iq]; [injection Iq as _ Iq; lia|]. pose proof (Asc w d Iq). lia.
  - apply within_stop. destruct (Que y (S d)) as (_ & _ & W & _); [rewrite E; now left|exact W].
Qed.
Lemma asc_tail (x : text) (d : nat) (rest : list (text * nat)) : (forall q1 x' d' q2 y e q3, (x, d) :: rest = q1 ++ (x', d') :: q2 ++ (y, e) :: q3 -> d' <= e) -> forall q1 x' d' q2 y e q3, rest = q1 ++ (x', d') :: q2 ++ (y, e) :: q3 -> d' <= e.
Proof. intros H q1 x' d' q2 y e q3 E. apply (H ((x, d) :: q1) x' d' q2 y e q3). cbn. now rewrite E. Qed.
Lemma queue_within x d queue seen levels : qinv queue seen levels -> In (x, d) queue -> within d.
Proof. intros Q I. destruct (q_queue _ _ _ Q x d I) as [S D]. destruct (q_seen _ _ _ Q x S) as (k & Dk & W). now rewrite (distance_unique _ _ _ _ _ D Dk). Qed.
Lemma qinv_skip x d rest seen levels : qinv ((x, d) :: rest) seen levels -> stop d = true -> qinv rest seen levels.
Proof.
  intros Q St. pose proof (q_sorted _ _ _ Q x d rest eq_refl) as [Near Clos].
  assert (Dn : forall x0 k y, In x0 seen -> distance deps a k x0 -> ~ In x0 (map fst rest) -> stop k = false -> In y (deps x0) -> In y seen).
  { intros x0 k y Hs Hd Hn Hst Hy. apply (q_done _ _ _ Q x0 k y Hs Hd); auto. intros [K|K]; [|now apply Hn]. cbn in K. subst x0. destruct (q_queue _ _ _ Q x d (or_introl eq_refl)) as [_ Dx]. pose proof (distance_unique _ _ _ _ _ Dx Hd). subst k. congruence. }
  split; [apply (q_nodup _ _ _ Q)|apply (q_start _ _ _ Q)|apply (q_seen _ _ _ Q)|intros y e I; apply (q_queue _ _ _ Q); now right| |apply (asc_tail x d), (q_asc _ _ _ Q)|exact Dn|apply (q_levels _ _ _ Q)].
  intros y e q E. assert (A : forall z f, In (z, f) q -> e <= f) by (intros z f I; apply in_split in I; destruct I as (q2 & q3 & I); apply (asc_tail x d rest (q_asc _ _ _ Q) [] y e q2 z f q3); now rewrite E, I).
  destruct (Near y e) as [L1 L2]; [rewrite E; now left|]. split.
  - intros z f I. split; [apply (A z f I)|]. destruct (Near z f) as [_ K]; [rewrite E; now right|]. lia.
  - eapply (next_closer x d rest seen levels Q rest seen); [auto|exact Dn| |exact E|exact A|exact L2]. intros z f I. destruct (q_queue _ _ _ Q z f (or_intror I)) as [I1 I2]. split; [exact I1|]. split; [exact I2|]. split; [apply (queue_within z f _ _ _ Q); now right|apply (Near z f I)].
Qed.
Lemma qinv_step x d rest seen levels added levels' : qinv ((x, d) :: rest) seen levels -> stop d = false ->
  NoDup (rev added ++ seen) -> (forall y, In y added -> In y (deps x)) -> (forall y, In y (deps x) -> In y (rev added ++ seen)) -> (forall k, nth k levels' [] = if Nat.eqb k (S d) then nth k levels [] ++ added else nth k levels []) ->
  qinv (rest ++ map (fun y => (y, S d)) added) (rev added ++ seen) levels'.
Proof.
  intros Q St ND A1 A2 Lv. pose proof (q_sorted _ _ _ Q x d rest eq_refl) as [Near Clos]. destruct (q_queue _ _ _ Q x d (or_introl eq_refl)) as [Sx Dx].
  assert (Fresh : forall y, In y added -> ~ In y seen).
  { intros y Hy Hs. apply in_split in Hs. destruct Hs as (s1 & s2 & ->). rewrite app_assoc in ND. apply NoDup_remove_2 in ND. apply ND. apply in_app_iff. left. apply in_app_iff. left. now apply -> in_rev. }
  assert (Da : forall y, In y added -> distance deps a (S d) y).
  { intros y Hy. apply distance_step. split; [|exists x; split; [exact Dx|now apply A1]]. intros (k & L & Dk). apply (Fresh y Hy), (Clos k y L Dk). }
  assert (Inc : forall y, In y seen -> In y (rev added ++ seen)) by (intros y Hy; apply in_app_iff; now right).
  assert (InA : forall y, In y (rev added ++ seen) -> In y added \/ In y seen) by (intros y Hy; apply in_app_iff in Hy; rewrite <- in_rev in Hy; exact Hy).
  assert (Que : forall y e, In (y, e) (rest ++ map (fun y => (y, S d)) added) -> In y (rev added ++ seen) /\ distance deps a e y /\ within e /\ d <= e /\ e <= S d).
  { intros y e I. apply in_app_iff in I. destruct I as [I|I].
    - destruct (q_queue _ _ _ Q y e (or_intror I)) as [I1 I2]. split; [now apply Inc|]. split; [exact I2|]. split; [apply (queue_within y e _ _ _ Q); now right|apply (Near y e I)].
    - apply in_map_iff in I. destruct I as (z & [= <- <-] & Hz). split; [apply in_app_iff; left; now apply -> in_rev|]. split; [now apply Da|]. split; [now apply stop_within|lia]. }
  assert (Dn : forall x0 k y, In x0 (rev added ++ seen) -> distance deps a k x0 -> ~ In x0 (map fst (rest ++ map (fun y => (y, S d)) added)) -> stop k = false -> In y (deps x0) -> In y (rev added ++ seen)).
  { intros x0 k y Hs Hd Hn Hst Hy. rewrite map_app, in_app_iff, map_map in Hn. cbn [fst] in Hn. rewrite map_id in Hn. apply InA in Hs. destruct Hs as [Hs|Hs]; [destruct Hn; now right|]. destruct (list_eq_dec ascii_dec x0 x) as [->|N]; [now apply A2|]. apply Inc, (q_done _ _ _ Q x0 k y Hs Hd); auto. intros [K|K]; [apply N; symmetry; exact K|apply Hn; now left]. }
  assert (Asc : forall q1 x' d' q2 y e q3, rest ++ map (fun y => (y, S d)) added = q1 ++ (x', d') :: q2 ++ (y, e) :: q3 -> d' <= e).
  { intros q1 x' d' q2 y e q3 E. assert (Bx : In (x', d') (rest ++ map (fun y => (y, S d)) added)) by (rewrite E; apply in_app_iff; right; now left). destruct (Que x' d' Bx) as (_ & _ & _ & _ & Lx).
    (* either the later one is among the old ones, or it has the greatest depth *)
    assert (K : (exists q3', rest = q1 ++ (x', d') :: q2 ++ (y, e) :: q3') \/ e = S d).
    { clear - E. revert q1 E. induction rest as [|b rest IH]; intros q1 E.
      - right. cbn in E. assert (I : In (y, e) (map (fun y => (y, S d)) added)) by (rewrite E; apply in_app_iff; right; right; apply in_app_iff; right; now left). apply in_map_iff in I. destruct I as (z & [= _ <-] & _). reflexivity.
      - destruct q1 as [|b' q1]; cbn in E.
        + injection E as -> E. assert (K2 : (exists q3', rest = q2 ++ (y, e) :: q3') \/ e = S d).
          { clear - E. revert q2 E. induction rest as [|b rest IH]; intros q2 E.
            - right. cbn in E. assert (I : In (y, e) (map (fun y => (y, S d)) added)) by (rewrite E; apply in_app_iff; right; now left). apply in_map_iff in I. destruct I as (z & [= _ <-] & _). reflexivity.
            - destruct q2 as [|b' q2]; cbn in E; injection E as -> E; [left; exists rest; reflexivity|]. destruct (IH q2 E) as [[q3' ->]|K]; [left; exists q3'; reflexivity|now right]. }
          destruct K2 as [[q3' ->]|K2]; [left; exists q3'; reflexivity|now right].
        + injection E as -> E. destruct (IH q1 E) as [[q3' ->]|K]; [left; exists q3'; reflexivity|now right]. }
    destruct K as [[q3' K]| ->]; [exact (asc_tail x d rest (q_asc _ _ _ Q) q1 x' d' q2 y e q3' K)|exact Lx]. }
  split.
  - exact ND.
  - apply Inc, (q_start _ _ _ Q).
  - intros y Hy. apply InA in Hy. destruct Hy as [Hy|Hy]; [exists (S d); split; [now apply Da|now apply stop_within]|apply (q_seen _ _ _ Q y Hy)].
  - intros y e I. destruct (Que y e I) as (I1 & I2 & _). now split.
  - intros y e q E. assert (A : forall z f, In (z, f) q -> e <= f) by (intros z f I; apply in_split in I; destruct I as (q2 & q3 & I); apply (Asc [] y e q2 z f q3); now rewrite E, I).
    destruct (Que y e) as (_ & _ & _ & L1 & L2); [rewrite E; now left|]. split; [intros z f I; split; [apply (A z f I)|]; destruct (Que z f) as (_ & _ & _ & _ & L3); [rewrite E; now right|lia]|].
    eapply (next_closer x d rest seen levels Q); [exact Inc|exact Dn| |exact E|exact A|exact L2]. intros z f I. destruct (Que z f I) as (I1 & I2 & I3 & I4 & _). exact (conj I1 (conj I2 (conj I3 I4))).
  - exact Asc.
  - exact Dn.
  - intros k. destruct (q_levels _ _ _ Q k) as [L1 L2]. rewrite Lv. destruct (Nat.eqb k (S d)) eqn:K.
    + apply Nat.eqb_eq in K. subst k. split.
      * apply NoDup_app_intro; [exact L1| |]; [|intros y I1 I2; apply (Fresh y I2), (proj1 (L2 y) I1)]. clear - ND. apply NoDup_rev in ND. rewrite rev_app_distr, rev_involutive in ND. induction (rev seen) as [|b l IH]; [exact ND|]. inversion ND; subst. now apply IH.
      * intros y. rewrite in_app_iff, L2. split; [intros [(H1 & H2 & H3)|H]; [split; [exact H1|]; split; [now apply Inc|exact H3]|split; [lia|]; split; [apply in_app_iff; left; now apply -> in_rev|now apply Da]]|].
        intros (H1 & H2 & H3). apply InA in H2. destruct H2 as [H2|H2]; [now right|left; exact (conj H1 (conj H2 H3))].
    + apply Nat.eqb_neq in K. split; [exact L1|]. intros y. rewrite L2. split; intros (H1 & H2 & H3); (split; [exact H1|]); (split; [|exact H3]); [now apply Inc|]. apply InA in H2. destruct H2 as [H2|H2]; [|exact H2]. destruct K. apply (distance_unique _ _ _ _ _ H3 (Da y H2)).
Qed.
Lemma finished seen levels : qinv [] seen levels -> forall k, NoDup (nth k levels []) /\ forall x, In x (nth k levels []) <-> k <> 0 /\ within k /\ distance deps a k x.
Proof.
  intros Q. assert (All : forall k x, within k -> distance deps a k x -> In x seen).
  { induction k as [|k IH]; intros x W D; [apply distance_zero in D; subst x; apply (q_start _ _ _ Q)|]. apply distance_back in D. destruct D as (y & Dy & Iy). apply (q_done _ _ _ Q y k x); [|exact Dy|intros []|now apply within_stop|exact Iy]. apply IH; [|exact Dy]. unfold within in *. destruct max; [lia|exact I]. }
  intros k. destruct (q_levels _ _ _ Q k) as [L1 L2]. split; [exact L1|]. intros x. rewrite L2. split; intros (H1 & H2 & H3); (split; [exact H1|]); (split; [|exact H3]).
  - destruct (q_seen _ _ _ Q x H2) as (j & Dj & W). now rewrite (distance_unique _ _ _ _ _ H3 Dj).
  - now apply (All k).
Qed.
Lemma dequeue_ok U m : (forall x, incl (deps x) U) -> forall fuel queue seen levels, qinv queue seen levels -> (length queue + S (length U) - length seen <= fuel) -> incl seen (a :: U) ->
  exists levels', dequeue plain fuel max queue seen levels m = Some (Ok levels', m) /\
    forall k, NoDup (nth k levels' []) /\ forall x, In x (nth k levels' []) <-> k <> 0 /\ within k /\ distance deps a k x.
Proof.
  intros HU. induction fuel as [|f IH]; intros queue seen levels Q L I; assert (Ls : length seen <= S (length U)) by (change (S (length U)) with (length (a :: U)); apply NoDup_incl_length; [apply (q_nodup _ _ _ Q)|exact I]).
  - destruct queue as [|b q]; [|cbn [length] in L; lia]. exists levels. split; [reflexivity|]. apply (finished seen), Q.
  - destruct queue as [|[x d] rest].
    + exists levels. split; [reflexivity|]. apply (finished seen), Q.
    + cbn [dequeue]. fold (stop d). destruct (stop d) eqn:St.
      * apply IH; [now apply (qinv_skip x d)|cbn [length] in L; lia|exact I].
      * unfold plain at 1. destruct (enqueue_all d (deps x) rest seen levels (q_nodup _ _ _ Q)) as (ad & l & E & N & A1 & A2 & A3); [intros y Hy; apply (proj2 (q_levels _ _ _ Q (S d)) y), Hy|]. rewrite E. apply IH.
        -- now apply (qinv_step x d rest seen levels ad l).
        -- rewrite !app_length, map_length, rev_length. cbn [length] in L. lia.
        -- intros y Hy. apply in_app_iff in Hy. destruct Hy as [Hy|Hy]; [right; apply (HU x), A1; now apply in_rev|apply I, Hy].
Qed.
End Walk.
