(** Proofs about release hooks. *)
From Verif Require Import Base Base_lemmas Maps Text_lemmas Order_spec Env_model Env_context Hook_model Hook_spec.
Open Scope char_scope.

Lemma after_snoc {A} (l : list (text * factory A)) n f : after (l ++ [(n, f)]) = aput n f (after l).
Proof. unfold after. rewrite fold_left_app. reflexivity. Qed.
Lemma after_get {A} (l : list (text * factory A)) n f : aget n (after l) = Some f <-> latest l n f.
Proof.
  revert f. induction l as [|[x g] l IH] using rev_ind; intros f.
  - split; [discriminate|]. intros (u & v & E & _). destruct u; discriminate.
  - rewrite after_snoc. destruct (text_eqb_spec n x) as [->|N].
    + rewrite aget_put_same. split.
      * intros [= ->]. exists l, []. split; [reflexivity|intros []].
      * intros (u & v & E & H). destruct v as [|w v] using rev_ind; [apply app_inj_tail in E; destruct E as [_ [= ->]]; reflexivity|]. clear IHv.
        rewrite app_comm_cons, app_assoc in E. apply app_inj_tail in E. destruct E as [_ <-]. destruct H. rewrite map_app. apply in_app_iff. right. left. reflexivity.
    + rewrite aget_put_other by exact N. rewrite IH. split.
      * intros (u & v & -> & H). exists u, (v ++ [(x, g)]). split; [rewrite <- app_assoc; reflexivity|]. rewrite map_app, in_app_iff. cbn. intros [K|[K|[]]]; [exact (H K)|congruence].
      * intros (u & v & E & H). destruct v as [|w v] using rev_ind; [apply app_inj_tail in E; destruct E as [_ [= -> _]]; congruence|]. clear IHv.
        rewrite app_comm_cons, app_assoc in E. apply app_inj_tail in E. destruct E as [-> <-]. exists u, v. split; [reflexivity|]. intros K. apply H. rewrite map_app. apply in_app_iff. left. exact K.
Qed.
Lemma after_keys {A} (l : list (text * factory A)) n : In n (akeys (after l)) <-> In n (map fst l).
Proof.
  induction l as [|[x g] l IH] using rev_ind; [reflexivity|]. rewrite after_snoc, map_app, in_app_iff, <- IH. cbn [map fst In]. rewrite <- !aget_some.
  destruct (text_eqb_spec n x) as [->|N].
  - rewrite aget_put_same. split; [right; left; reflexivity|eauto].
  - rewrite aget_put_other by exact N. split; [left; assumption|]. intros [K|[K|[]]]; [exact K|congruence].
Qed.
Lemma after_nodup {A} (l : list (text * factory A)) : NoDup (akeys (after l)).
Proof. induction l as [|[x g] l IH] using rev_ind; [constructor|]. rewrite after_snoc. apply nodup_put, IH. Qed.
Lemma hooks_picked {A} (r : registry A) ns p : picked (fun n => create_hook r n p) ns (create_hooks r ns p).
Proof. induction ns as [|n ns IH]; cbn [create_hooks]; [constructor|]. destruct (create_hook r n p) as [h|] eqn:E; [apply picked_take|apply picked_skip]; assumption. Qed.
Lemma picked_same {A B} (make : A -> option B) l m m' : picked make l m -> picked make l m' -> m = m'.
Proof. intros H. revert m'. induction H as [|x y l m E _ IH|x l m E _ IH]; intros m' K; inversion K; subst; try congruence; [f_equal; [congruence|]|]; apply IH; assumption. Qed.

(** ** Configurations *)
Lemma join_end sep l x : l <> [] -> join [sep] (l ++ [x]) = join [sep] l ++ sep :: x.
Proof.
  induction l as [|y l IH]; intros N; [congruence|]. destruct l as [|z l]; [reflexivity|]. change ((y :: z :: l) ++ [x]) with (y :: z :: (l ++ [x])).
  change (join [sep] (y :: z :: (l ++ [x]))) with (y ++ [sep] ++ join [sep] ((z :: l) ++ [x])). rewrite IH by discriminate.
  change (join [sep] (y :: z :: l)) with (y ++ [sep] ++ join [sep] (z :: l)). rewrite <- !app_assoc. reflexivity.
Qed.
Lemma split_end sep s l x : split_on sep s = l ++ [x] -> l <> [] -> s = join [sep] l ++ sep :: x.
Proof. intros E N. rewrite <- (join_split sep s), E. apply join_end, N. Qed.
Lemma last_part_suffix s : exists a, s = a ++ last_part "/" s.
Proof.
  unfold last_part. destruct (split_on "/" s) as [|x l] eqn:E using rev_ind; [destruct (split_on_nonnil _ _ E)|]. clear IHl. rewrite last_last. destruct l as [|y l].
  - exists []. rewrite <- (join_split "/" s), E. reflexivity.
  - exists (join ["/"] (y :: l) ++ ["/"]). rewrite <- app_assoc. apply (split_end "/" s (y :: l) x E). discriminate.
Qed.
Lemma extension_suffix p e : extension p = Some e -> exists a, p = a ++ "." :: e.
Proof.
  unfold extension. destruct (last_part_suffix p) as [a E]. destruct (split_on "." (last_part "/" p)) as [|x [|y l]] eqn:X; [discriminate|destruct x; discriminate|].
  assert (K : exists l' z, x :: y :: l = l' ++ [z] /\ l' <> []).
  { exists (removelast (x :: y :: l)), (last (x :: y :: l) []). split; [apply app_removelast_last; discriminate|discriminate]. }
  destruct K as (l' & z & K & N). rewrite K in X. assert (Q := split_end _ _ _ _ X N). intros H.
  assert (Z : e = z). { assert (L : last (x :: y :: l) [] = z) by (rewrite K; apply last_last). destruct x as [|c x], l as [|w l]; congruence. }
  subst z. exists (a ++ join ["."] l'). rewrite E at 1. rewrite Q. rewrite <- app_assoc. reflexivity.
Qed.
Lemma json_recognised s : extension (s ++ T ".json") = Some (T "json") <-> last_part "/" s <> [].
Proof.
  unfold extension. rewrite last_part_app by (cbn; intuition discriminate). generalize (last_part "/" s). intros t.
  change (t ++ T ".json") with (t ++ "." :: T "json"). rewrite split_on_app_gen.
  change (split_on "." (T "json")) with [T "json"].
  destruct t as [|c t]; [cbn; split; [discriminate|congruence]|].
  assert (E : exists p ps, split_on "." (c :: t) = p :: ps /\ (ps = [] -> p <> [])).
  { destruct (split_on "." (c :: t)) as [|p ps] eqn:E; [destruct (split_on_nonnil _ _ E)|]. exists p, ps. split; [reflexivity|]. intros -> ->.
    pose proof (join_split "." (c :: t)) as J. rewrite E in J. discriminate J. }
  destruct E as (p & ps & -> & Hp). split; [discriminate|intros _].
  assert (L : forall l : list text, last (l ++ [T "json"]) [] = T "json") by (intros l; apply last_last).
  destruct ps as [|p' ps].
  - specialize (Hp eq_refl). destruct p as [|x p]; [congruence|]. reflexivity.
  - specialize (L (p :: p' :: ps)). cbn [app] in L |- *. destruct ps as [|p2 ps]; cbn [app] in L |- *; destruct p; rewrite L; reflexivity.
Qed.
Lemma json_extension p : extension p = Some (T "json") <-> json_name p.
Proof.
  split.
  - intros H. destruct (extension_suffix p _ H) as [a ->]. change (a ++ "." :: T "json") with (a ++ T ".json") in H. apply json_recognised in H. apply last_part_nonempty in H.
    destruct H as (u & c & -> & N). exists u, c. split; [|exact N]. rewrite <- app_assoc. reflexivity.
  - intros (u & c & -> & N). change (u ++ c :: T ".json") with (u ++ [c] ++ T ".json"). rewrite app_assoc. apply json_recognised, last_part_nonempty. eauto.
Qed.
Lemma config_read {C} (json toml : text -> option C) fs p c : read_config json toml fs p = Some c <-> configured json toml fs p c.
Proof.
  unfold read_config, configured. assert (D : json_name p \/ ~ json_name p).
  { rewrite <- json_extension. destruct (extension p) as [e|]; [|right; discriminate]. destruct (text_eqb_spec e (T "json")) as [->|N]; [left; reflexivity|right; congruence]. }
  destruct (fs p) as [| |t] eqn:F; try (split; [discriminate|intros (t & E & _); discriminate E]).
  assert (K : match extension p with Some e => if text_eqb e (T "json") then json t else toml t | None => toml t end = Some c <-> (json_name p -> json t = Some c) /\ (~ json_name p -> toml t = Some c)).
  { destruct D as [D|D].
    - rewrite (proj2 (json_extension p) D), text_eqb_refl. split; [intros H; split; [auto|contradiction]|intros [H _]; auto].
    - assert (E : match extension p with Some e => if text_eqb e (T "json") then json t else toml t | None => toml t end = toml t).
      { destruct (extension p) as [e|] eqn:E; [|reflexivity]. destruct (text_eqb_spec e (T "json")) as [->|N]; [|reflexivity]. destruct D. apply json_extension, E. }
      rewrite E. split; [intros H; split; [contradiction|auto]|intros [_ H]; auto]. }
  rewrite K. split; [intros [A B]; exists t; auto|intros (t' & [= <-] & H); exact H].
Qed.
