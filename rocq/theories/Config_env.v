(** Proofs about the layers and the variables of [Config] (CF). *)
From Coq Require Import Permutation.
From Verif Require Import Base Base_lemmas Maps Json Config_model Config_spec Config_proofs.
Open Scope string_scope. Open Scope list_scope.

(** ** layers *)
Lemma empty_path p v : ~ table v -> ~ at_path (JObj []) p v.
Proof. intros N H. inversion H; subst; [destruct N; eexists; reflexivity|]. match goal with I : In _ [] |- _ => destruct I end. Qed.
Lemma tidy_empty : tidy (JObj []).
Proof. constructor; [constructor|intros k x []]. Qed.
(** merging one tree after the other *)
Lemma merges_leaf l : forall a p v, tidy a -> table a -> (forall j, In j l -> tidy j /\ table j) -> ~ table v ->
  at_path (fold_left (fun d j => merge j d) l a) p v <-> layered (a :: l) p v.
Proof.
  induction l as [|b l IH]; intros a p v TA BA AL NT.
  - cbn [fold_left layered In]. split; [intros H; right; split; [exact H|intros x []]|intros [[]|[H _]]; exact H].
  - destruct (AL b (or_introl eq_refl)) as [TB BB]. cbn [fold_left].
    rewrite IH; [|exact (tidy_merge b a TA TB)|exact (merge_table b a BB BA)|intros j I; apply AL; right; exact I|exact NT].
    cbn [layered]. rewrite (merge_leaf p a b v TA TB BA BB NT). split.
    + intros [H|[[H|[H NS]] F]]; [left; left; exact H|left; right; split; assumption|].
      right. split; [exact H|]. intros x [<-|I]; [exact NS|exact (F x I)].
    + intros [[H|[H F]]|[H F]]; [left; exact H|right; split; [left; exact H|exact F]|].
      right. split; [right; split; [exact H|apply F; left; reflexivity]|]. intros x I. apply F. right. exact I.
Qed.
Lemma merges_tidy l : forall a, tidy a -> table a -> (forall j, In j l -> tidy j /\ table j) ->
  tidy (fold_left (fun d j => merge j d) l a) /\ table (fold_left (fun d j => merge j d) l a).
Proof.
  induction l as [|b l IH]; intros a TA BA AL; [split; assumption|]. destruct (AL b (or_introl eq_refl)) as [TB BB]. cbn [fold_left].
  apply IH; [exact (tidy_merge b a TA TB)|exact (merge_table b a BB BA)|intros j I; apply AL; right; exact I].
Qed.

(** ** one variable *)
Lemma set_get p : forall v j, p <> [] -> (forall q w, begins q p -> q <> p -> walk q j = Some w -> is_object w = true) -> walk p (set_nested p v j) = Some v.
Proof.
  induction p as [|k p IH]; intros v j N O; [destruct N; reflexivity|].
  pose proof (O [] j (begins_nil _)) as OJ. destruct j as [| | | | |m]; try (discriminate OJ; [discriminate|reflexivity]).
  destruct p as [|k' p].
  - cbn [set_nested walk jget]. rewrite aget_put_same. reflexivity.
  - change (set_nested (k :: k' :: p) v (JObj m)) with (JObj (aput k (set_nested (k' :: p) v (match aget k m with Some e => e | None => JObj [] end)) m)).
    change (walk (k :: k' :: p) (JObj (aput k (set_nested (k' :: p) v (match aget k m with Some e => e | None => JObj [] end)) m)))
      with (match aget k (aput k (set_nested (k' :: p) v (match aget k m with Some e => e | None => JObj [] end)) m) with Some y => walk (k' :: p) y | None => None end).
    rewrite aget_put_same. apply IH; [discriminate|]. intros q w B NE W.
    destruct (aget k m) as [e|] eqn:E.
    + apply (O (k :: q) w (begins_cons k q _ B)); [intros X; injection X as X; exact (NE X)|]. cbn [walk jget]. rewrite E. exact W.
    + destruct q as [|k2 q]; [injection W as <-; reflexivity|discriminate W].
Qed.
Lemma set_walk k k' p v j : walk (k :: k' :: p) (set_nested (k :: k' :: p) v j) = walk (k' :: p) (set_nested (k' :: p) v (match jget k j with Some e => e | None => JObj [] end)).
Proof.
  change (set_nested (k :: k' :: p) v j) with (JObj (aput k (set_nested (k' :: p) v (match aget k (match j with JObj m => m | _ => [] end) with Some e => e | None => JObj [] end)) (match j with JObj m => m | _ => [] end))).
  cbn [walk jget]. rewrite aget_put_same. destruct j; reflexivity.
Qed.
Lemma set_step k k' p v j x q : walk (x :: q) (set_nested (k :: k' :: p) v j) =
  if text_eqb x k then walk q (set_nested (k' :: p) v (match jget k j with Some e => e | None => JObj [] end)) else walk (x :: q) j.
Proof.
  change (set_nested (k :: k' :: p) v j) with (JObj (aput k (set_nested (k' :: p) v (match aget k (match j with JObj m => m | _ => [] end) with Some e => e | None => JObj [] end)) (match j with JObj m => m | _ => [] end))).
  cbn [walk jget]. destruct (text_eqb x k) eqn:E.
  - apply text_eqb_eq in E. subst x. rewrite aget_put_same. destruct j; reflexivity.
  - rewrite aget_put_other by (intros ->; rewrite text_eqb_refl in E; discriminate E). destruct j; reflexivity.
Qed.
Lemma set_last k v j x q : walk (x :: q) (set_nested [k] v j) =
  if text_eqb x k && is_object j then walk q v else walk (x :: q) j.
Proof.
  destruct j as [| | | | |m]; try (rewrite andb_false_r; reflexivity). cbn [set_nested walk jget is_object]. rewrite andb_true_r.
  destruct (text_eqb x k) eqn:E.
  - apply text_eqb_eq in E. subst x. rewrite aget_put_same. reflexivity.
  - rewrite aget_put_other by (intros ->; rewrite text_eqb_refl in E; discriminate E). reflexivity.
Qed.
Lemma apart_cons k p q : apart (k :: p) (k :: q) -> apart p q.
Proof. intros [A B]. split; intros H; [apply A|apply B]; apply begins_cons; exact H. Qed.
Lemma walk_empty x q : walk (x :: q) (JObj []) = None.
Proof. reflexivity. Qed.
(** what is apart from the path stays *)
Lemma set_apart p : forall q v j, apart p q -> walk q (set_nested p v j) = walk q j.
Proof.
  induction p as [|k p IH]; intros q v j A; [reflexivity|]. destruct q as [|x q]; [destruct A as [_ A]; destruct A; apply begins_nil|].
  destruct p as [|k' p].
  - rewrite set_last. destruct (text_eqb x k) eqn:E; [|reflexivity]. apply text_eqb_eq in E. subst x. destruct A as [A _]. destruct A. apply begins_cons, begins_nil.
  - rewrite set_step. destruct (text_eqb x k) eqn:E; [|reflexivity]. apply text_eqb_eq in E. subst x. apply apart_cons in A.
    rewrite (IH q v _ A). cbn [walk]. destruct (jget k j) as [e|]; [reflexivity|].
    destruct q as [|y q]; [destruct A as [_ A]; destruct A; apply begins_nil|]. reflexivity.
Qed.
(** below the path is the value *)
Lemma walk_app p : forall q j, walk (p ++ q) j = match walk p j with Some x => walk q x | None => None end.
Proof. induction p as [|k p IH]; intros q j; [reflexivity|]. cbn [app walk]. destruct (jget k j) as [x|]; [apply IH|reflexivity]. Qed.
(** above it there are tables, where there were tables or nothing *)
Lemma set_above p : forall q v j w, begins q p -> q <> p -> walk q (set_nested p v j) = Some w ->
  is_object w = true \/ (walk q j = Some w).
Proof.
  induction p as [|k p IH]; intros q v j w B NE W; [apply begins_nil_inv in B; destruct NE; exact B|].
  destruct q as [|x q].
  - injection W as <-. destruct p as [|k' p]; [|left; reflexivity]. destruct j; try (right; reflexivity). left. reflexivity.
  - destruct (begins_inv _ _ _ B) as [q' [E B']]. injection E as <- <-. destruct p as [|k' p]; [apply begins_nil_inv in B'; subst q; destruct NE; reflexivity|].
    rewrite set_step, text_eqb_refl in W. apply IH in W; [|exact B'|intros ->; apply NE; reflexivity].
    destruct W as [W|W]; [left; exact W|]. cbn [walk]. destruct (jget k j) as [e|]; [right; exact W|].
    left. destruct q as [|y q]; [injection W as <-; reflexivity|discriminate W].
Qed.
Lemma set_tidy p : forall v j, tidy v -> tidy j -> tidy (set_nested p v j).
Proof.
  induction p as [|k p IH]; intros v j TV TJ; [exact TJ|]. destruct p as [|k' p].
  - destruct j as [| | | | |m]; try exact TJ. cbn [set_nested]. destruct (tidy_inv m TJ) as [N A].
    constructor; [apply nodup_put; exact N|]. intros x y I. apply (aput_in k v x y m N) in I. destruct I as [[-> ->]|[_ I]]; [exact TV|exact (A x y I)].
  - change (set_nested (k :: k' :: p) v j) with (JObj (aput k (set_nested (k' :: p) v (match aget k (match j with JObj m => m | _ => [] end) with Some e => e | None => JObj [] end)) (match j with JObj m => m | _ => [] end))).
    assert (TM : tidy (JObj (match j with JObj m => m | _ => [] end))) by (destruct j; try exact tidy_empty; exact TJ).
    revert TM. generalize (match j with JObj m => m | _ => [] end). intros m TM. destruct (tidy_inv m TM) as [N A].
    constructor; [apply nodup_put; exact N|]. intros x y I. apply (aput_in _ _ x y m N) in I. destruct I as [[-> ->]|[_ I]]; [|exact (A x y I)].
    apply IH; [exact TV|]. destruct (aget k m) as [e|] eqn:E; [exact (A k e (aget_in _ _ _ E))|exact tidy_empty].
Qed.
Lemma begins_dec (p q : list text) : {begins p q} + {~ begins p q}.
Proof.
  revert q. induction p as [|k p IH]; intros q; [left; apply begins_nil|]. destruct q as [|x q]; [right; intros H; apply begins_nil_inv in H; discriminate H|].
  destruct (text_eqb k x) eqn:E.
  - apply text_eqb_eq in E. subst x. destruct (IH q) as [B|B]; [left; apply begins_cons; exact B|right]. intros H. destruct (begins_inv _ _ _ H) as [q' [E' B']]. injection E' as <-. exact (B B').
  - right. intros H. destruct (begins_inv _ _ _ H) as [q' [E' B']]. injection E' as -> _. rewrite text_eqb_refl in E. discriminate E.
Qed.
Definition open_walk (j : json) (p : list text) : Prop := forall q w, begins q p -> q <> p -> walk q j = Some w -> is_object w = true.
Lemma open_iff j p : tidy j -> open_walk j p <-> open_way j p.
Proof.
  intros TJ. split; intros O q w B NE W.
  - apply is_object_table. apply (O q w B NE). apply walk_iff; assumption.
  - apply (walk_iff q j w TJ) in W. destruct (O q w B NE W) as [m ->]. reflexivity.
Qed.
Lemma begins_antisym p q : begins p q -> begins q p -> p = q.
Proof. intros [r ->] [s E]. rewrite <- app_assoc in E. rewrite <- (app_nil_r p) in E at 1. apply app_inv_head in E. symmetry in E. apply app_eq_nil in E. destruct E as [-> _]. rewrite app_nil_r. reflexivity. Qed.
Lemma begins_trans p q r : begins p q -> begins q r -> begins p r.
Proof. intros [a ->] [b ->]. exists (a ++ b). rewrite app_assoc. reflexivity. Qed.
Lemma begins_total p q r : begins p r -> begins q r -> begins p q \/ begins q p.
Proof.
  revert q r. induction p as [|k p IH]; intros q r A B; [left; apply begins_nil|]. destruct q as [|x q]; [right; apply begins_nil|].
  destruct (begins_inv _ _ _ A) as [r1 [E1 A']]. subst r. destruct (begins_inv _ _ _ B) as [r2 [E2 B']]. injection E2 as <- <-.
  destruct (IH q r1 A' B') as [H|H]; [left|right]; apply begins_cons; exact H.
Qed.
(** an open way stays open when something apart is set *)
Lemma open_kept p q v j : apart p q -> open_walk j q -> open_walk (set_nested p v j) q.
Proof.
  intros A O r w B NE W. destruct (begins_dec r p) as [BP|NP].
  - assert (r <> p) as NE' by (intros ->; destruct A as [A _]; exact (A B)).
    destruct (set_above p r v j w BP NE' W) as [H|H]; [exact H|exact (O r w B NE H)].
  - assert (apart p r) as AR by (split; [intros H; destruct A as [A _]; apply A; exact (begins_trans _ _ _ H B)|exact NP]).
    rewrite (set_apart p r v j AR) in W. exact (O r w B NE W).
Qed.
(** one setting, exactly *)
Lemma set_leaf p v j r x : p <> [] -> open_walk j p -> is_object x = false ->
  walk r (set_nested p v j) = Some x <-> (exists s, r = p ++ s /\ walk s v = Some x) \/ (~ begins p r /\ walk r j = Some x).
Proof.
  intros N O NX. destruct (begins_dec p r) as [B|NB].
  - destruct B as [s ->]. rewrite walk_app, (set_get p v j N O). split.
    + intros H. left. exists s. split; [reflexivity|exact H].
    + intros [[s' [E H]]|[NB _]]; [apply app_inv_head in E; subst s'; exact H|]. destruct NB. exists s. reflexivity.
  - assert (L : (exists s, r = p ++ s /\ walk s v = Some x) -> False) by (intros [s [E _]]; apply NB; exists s; exact E).
    destruct (begins_dec r p) as [BR|NR].
    + assert (NE : r <> p) by (intros ->; apply NB, begins_refl). split.
      * intros H. right. split; [exact NB|]. destruct (set_above p r v j x BR NE H) as [Y|Y]; [rewrite Y in NX; discriminate NX|exact Y].
      * intros [H|[_ H]]; [destruct (L H)|]. pose proof (O r x BR NE H) as Y. rewrite Y in NX. discriminate NX.
    + rewrite (set_apart p r v j (conj NB NR)). tauto.
Qed.

(** ** all variables *)
Lemma dotted_map s : map (fun c => if Ascii.eqb c "_" then "."%char else c) (map to_lower s) = map dotted_lower s.
Proof.
  rewrite map_map. apply map_ext. intros c. unfold dotted_lower.
  destruct c as [[] [] [] [] [] [] [] []]; reflexivity.
Qed.
Lemma env_key_spec n p : stands_for n p <-> p <> [] /\ exists d, env_key n = Some d /\ split_on "." d = p.
Proof.
  unfold env_key. split.
  - intros [s [-> [N [F E]]]]. split; [exact N|]. exists (spelled p). split; [|exact (spelled_split p N F)].
    change (starts_with (T "REZ_") (T "REZ_" ++ s)) with true. change (skipn 4 (T "REZ_" ++ s)) with s. cbv iota. rewrite dotted_map, E. reflexivity.
  - intros [N [d [E S]]]. destruct (starts_with (T "REZ_") n) eqn:SW; [|discriminate E]. apply starts_with_spec in SW. destruct SW as [s ->].
    change (skipn 4 (T "REZ_" ++ s)) with s in E. rewrite dotted_map in E. injection E as <-. exists s. repeat split; [exact N| |].
    + rewrite <- S. exact (split_on_pieces "." _).
    + rewrite <- S. exact (join_split "." _).
Qed.
Lemma env_key_none n : env_key n = None <-> forall p, ~ stands_for n p.
Proof.
  split.
  - intros E p H. apply env_key_spec in H. destruct H as [_ [d [E' _]]]. congruence.
  - intros H. destruct (env_key n) as [d|] eqn:E; [|reflexivity]. destruct (H (split_on "." d)). apply env_key_spec. split; [exact (split_on_nonnil "." d)|]. exists d. split; [exact E|reflexivity].
Qed.
Lemma step_cases parse j n s : (exists p, stands_for n p /\ env_step parse j (n, s) = set_nested p (env_value parse s) j) \/ ((forall p, ~ stands_for n p) /\ env_step parse j (n, s) = j).
Proof.
  unfold env_step. cbn [fst snd]. destruct (env_key n) as [d|] eqn:E.
  - left. exists (split_on "." d). split; [|reflexivity]. apply env_key_spec. split; [exact (split_on_nonnil "." d)|]. exists d. split; [exact E|reflexivity].
  - right. split; [exact (proj1 (env_key_none n) E)|reflexivity].
Qed.
Lemma stands_one n p q : stands_for n p -> stands_for n q -> p = q.
Proof. intros A B. apply env_key_spec in A. apply env_key_spec in B. destruct A as [_ [d [E S]]], B as [_ [d' [E' S']]]. congruence. Qed.
Lemma overrides_untouched parse vars : forall j q, (forall n s p, In (n, s) vars -> stands_for n p -> apart p q) -> walk q (env_overrides parse vars j) = walk q j.
Proof.
  unfold env_overrides. induction vars as [|[n s] vars IH]; intros j q A; [reflexivity|]. cbn [fold_left].
  rewrite IH by (intros n' s' p I; exact (A n' s' p (or_intror I))). destruct (step_cases parse j n s) as [[p [ST ->]]|[_ ->]]; [|reflexivity].
  apply set_apart. exact (A n s p (or_introl eq_refl) ST).
Qed.
Lemma overrides_leaf parse vars : forall j r x, all_apart vars -> (forall n s p, In (n, s) vars -> stands_for n p -> open_walk j p) -> is_object x = false ->
  walk r (env_overrides parse vars j) = Some x <->
  (exists n s p t, In (n, s) vars /\ stands_for n p /\ r = p ++ t /\ walk t (env_value parse s) = Some x) \/
  ((forall n s p, In (n, s) vars -> stands_for n p -> ~ begins p r) /\ walk r j = Some x).
Proof.
  unfold env_overrides. induction vars as [|[n s] vars IH]; intros j r x AA O NX.
  - cbn [fold_left]. split; [intros H; right; split; [intros n s p []|exact H]|intros [[n [s [p [t [[] _]]]]]|[_ H]]; exact H].
  - destruct AA as [A1 A2]. cbn [fold_left]. destruct (step_cases parse j n s) as [[p [ST ->]]|[NS ->]].
    + assert (N : p <> []) by (apply env_key_spec in ST; exact (proj1 ST)).
      rewrite (IH (set_nested p (env_value parse s) j) r x A2); [|intros n' s' q I SQ; apply open_kept; [exact (A1 n' s' p q I ST SQ)|exact (O n' s' q (or_intror I) SQ)]|exact NX].
      rewrite (set_leaf p _ j r x N (O n s p (or_introl eq_refl) ST) NX). split.
      * intros [[n' [s' [q [t [I [SQ [E W]]]]]]]|[F [[t [E W]]|[NB W]]]].
        -- left. exists n', s', q, t. repeat split; try assumption. right; exact I.
        -- left. exists n, s, p, t. repeat split; try assumption. left; reflexivity.
        -- right. split; [|exact W]. intros n' s' q [E|I] SQ; [injection E as <- <-; rewrite (stands_one n q p SQ ST); exact NB|exact (F n' s' q I SQ)].
      * intros [[n' [s' [q [t [[E|I] [SQ [E' W]]]]]]]|[F W]].
        -- injection E as <- <-. rewrite (stands_one n q p SQ ST) in E'. right. split; [|left; exists t; split; assumption].
           intros n' s' q' I SQ' B. subst r. destruct (A1 n' s' p q' I ST SQ') as [C1 C2].
           destruct (begins_total p q' (p ++ t) (ex_intro _ t eq_refl) B) as [H|H]; [exact (C1 H)|exact (C2 H)].
        -- left. exists n', s', q, t. repeat split; assumption.
        -- right. split; [intros n' s' q I SQ; exact (F n' s' q (or_intror I) SQ)|]. right. split; [exact (F n s p (or_introl eq_refl) ST)|exact W].
    + rewrite (IH j r x A2); [|intros n' s' q I SQ; exact (O n' s' q (or_intror I) SQ)|exact NX]. split.
      * intros [[n' [s' [q [t [I [SQ [E W]]]]]]]|[F W]].
        -- left. exists n', s', q, t. repeat split; try assumption. right; exact I.
        -- right. split; [|exact W]. intros n' s' q [E|I] SQ; [injection E as <- <-; destruct (NS q SQ)|exact (F n' s' q I SQ)].
      * intros [[n' [s' [q [t [[E|I] [SQ [E' W]]]]]]]|[F W]].
        -- injection E as <- <-. destruct (NS q SQ).
        -- left. exists n', s', q, t. repeat split; assumption.
        -- right. split; [intros n' s' q I SQ; exact (F n' s' q (or_intror I) SQ)|exact W].
Qed.
Lemma overrides_tidy parse vars : (forall s v, parse s = Some v -> tidy v) -> forall j, tidy j -> tidy (env_overrides parse vars j).
Proof.
  intros TP. unfold env_overrides. induction vars as [|[n s] vars IH]; intros j TJ; [exact TJ|]. cbn [fold_left]. apply IH.
  destruct (step_cases parse j n s) as [[p [_ ->]]|[_ ->]]; [|exact TJ]. apply set_tidy; [|exact TJ].
  unfold env_value. destruct (parse s) as [v|] eqn:E; [exact (TP s v E)|constructor].
Qed.
(** a value that is no table at the parent of the path: the variable is ignored *)
Lemma aput_same {A} k (v : A) m : aget k m = Some v -> aput k v m = m.
Proof.
  induction m as [|[k' v'] m IH]; [discriminate|]. cbn [aget aput]. destruct (text_eqb k k') eqn:E.
  - intros H. injection H as ->. apply text_eqb_eq in E. subst k'. reflexivity.
  - intros H. rewrite (IH H). reflexivity.
Qed.
Lemma set_blocked q : forall k v j w, walk q j = Some w -> is_object w = false -> set_nested (q ++ [k]) v j = j.
Proof.
  induction q as [|x q IH]; intros k v j w W NO.
  - injection W as ->. destruct w; try reflexivity. discriminate NO.
  - cbn [walk] in W. destruct j as [| | | | |m]; try discriminate W. cbn [jget] in W. destruct (aget x m) as [e|] eqn:E; [|discriminate W].
    assert (S : set_nested ((x :: q) ++ [k]) v (JObj m) = JObj (aput x (set_nested (q ++ [k]) v e) m)).
    { destruct q as [|y q]; cbn [app]; [change (set_nested [x; k] v (JObj m)) with (JObj (aput x (set_nested [k] v (match aget x m with Some e => e | None => JObj [] end)) m))|
        change (set_nested (x :: y :: q ++ [k]) v (JObj m)) with (JObj (aput x (set_nested (y :: q ++ [k]) v (match aget x m with Some e => e | None => JObj [] end)) m))];
      rewrite E; reflexivity. }
    rewrite S, (IH k v e w W NO), (aput_same x e m E). reflexivity.
Qed.
Lemma overrides_blocked parse n s q k j w : stands_for n (q ++ [k]) -> walk q j = Some w -> is_object w = false -> env_overrides parse [(n, s)] j = j.
Proof.
  intros ST W NO. unfold env_overrides. cbn [fold_left]. destruct (step_cases parse j n s) as [[p [SP ->]]|[NS _]]; [|destruct (NS _ ST)].
  rewrite (stands_one n p _ SP ST). exact (set_blocked q k _ j w W NO).
Qed.
(** the names on the path of a variable have no underscores and no capitals *)
Lemma lower_upper c : is_upper (dotted_lower c) = false /\ dotted_lower c <> "_"%char.
Proof. destruct c as [[] [] [] [] [] [] [] []]; split; (reflexivity || discriminate). Qed.
Lemma in_join (sep c : ascii) l : forall k, In k l -> In c k -> In c (join [sep] l).
Proof.
  induction l as [|x l IH]; intros k I C; [destruct I|]. destruct l as [|y l].
  - destruct I as [->|[]]. exact C.
  - change (join [sep] (x :: y :: l)) with (x ++ [sep] ++ join [sep] (y :: l)). apply in_or_app. destruct I as [->|I]; [left; exact C|right]. apply in_or_app. right. exact (IH k I C).
Qed.
Lemma stands_chars n p k c : stands_for n p -> In k p -> In c k -> is_upper c = false /\ c <> "_"%char.
Proof.
  intros [s [_ [_ [_ E]]]] I C. pose proof (in_join "." c p k I C) as H. change (join ["."%char] p) with (spelled p) in H. rewrite E in H.
  apply in_map_iff in H. destruct H as [d [<- _]]. exact (lower_upper d).
Qed.
Lemma never_reached parse vars j k q c : In c k -> (c = "_"%char \/ is_upper c = true) -> walk (k :: q) (env_overrides parse vars j) = walk (k :: q) j.
Proof.
  intros C U. apply overrides_untouched. intros n s p _ ST.
  assert (NK : ~ In k p) by (intros I; destruct (stands_chars n p k c ST I C) as [A B]; destruct U as [->|U]; [destruct B; reflexivity|congruence]).
  assert (N : p <> []) by (destruct ST as [s' [_ [N _]]]; exact N).
  split; intros B.
  - destruct p as [|x p]; [destruct N; reflexivity|]. destruct (begins_inv _ _ _ B) as [q' [E _]]. injection E as -> _. apply NK. left. reflexivity.
  - destruct (begins_inv _ _ _ B) as [q' [-> _]]. apply NK. left. reflexivity.
Qed.
Lemma variable_stands p : p <> [] -> (forall k, In k p -> simple_name k) -> stands_for (variable p) p.
Proof.
  intros N S. destruct p as [|k p]; [destruct N; reflexivity|]. unfold variable. cbn [map concat]. exists (map to_upper k ++ concat (map (fun k => "_"%char :: map to_upper k) p)).
  split; [reflexivity|]. split; [exact N|].
  assert (LC : forall c, is_lower c = true \/ is_digit c = true -> c <> "."%char /\ dotted_lower (to_upper c) = c).
  { intros c. destruct c as [[] [] [] [] [] [] [] []]; cbn; (intros [H|H]; try discriminate H; split; (discriminate || reflexivity)). }
  assert (LK : forall x, simple_name x -> map dotted_lower (map to_upper x) = x).
  { intros x [_ Sx]. rewrite map_map. rewrite <- (map_id x) at 2. apply map_ext_in. intros c I. exact (proj2 (LC c (Sx c I))). }
  split.
  - apply Forall_forall. intros x I H. destruct (S x I) as [_ Sx]. destruct (LC _ (Sx _ H)) as [Z _]. apply Z. reflexivity.
  - assert (G : forall p k, (forall x, In x (k :: p) -> simple_name x) -> spelled (k :: p) = map dotted_lower (map to_upper k ++ concat (map (fun k => "_"%char :: map to_upper k) p))).
    { clear - LK. induction p as [|y p IH]; intros k S.
      - cbn [map concat]. rewrite app_nil_r. rewrite (LK k (S k (or_introl eq_refl))). reflexivity.
      - change (spelled (k :: y :: p)) with (k ++ T "." ++ spelled (y :: p)). rewrite map_app, (LK k (S k (or_introl eq_refl))). f_equal.
        cbn [map concat]. rewrite (IH y) by (intros x I; apply S; right; exact I). reflexivity. }
    exact (G p k S).
Qed.
