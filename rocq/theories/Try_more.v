(** More lemmas: words, paths, environments, shells, programs. *)
From Verif Require Import Base Base_lemmas Text_lemmas Maps Sorting Files_model Files_proofs Query_model Try_model Try_spec.
Open Scope string_scope. Open Scope list_scope.

(** ** Words *)
Lemma split_ws_take w : (forall c, In c w -> is_ws c = false) -> forall cur s, split_ws_from cur (w ++ s) = split_ws_from (rev w ++ cur) s.
Proof.
  induction w as [|c w IH]; intros H cur s; [reflexivity|]. cbn. rewrite (H c) by now left. rewrite IH by (intros d I; apply H; now right). now rewrite <- app_assoc.
Qed.
Lemma is_nil_rev_word w cur : is_word w -> is_nil (rev w ++ cur) = false.
Proof. intros [N _]. destruct (rev w ++ cur) eqn:E; [|reflexivity]. apply app_eq_nil in E. destruct E as [E _]. apply (f_equal (@rev ascii)) in E. rewrite rev_involutive in E. contradiction. Qed.
Lemma split_ws_word w s c : is_word w -> is_ws c = true -> split_ws (w ++ c :: s) = w :: split_ws s.
Proof.
  intros H C. unfold split_ws. rewrite split_ws_take by apply H. cbn. rewrite C, is_nil_rev_word by exact H. now rewrite app_nil_r, rev_involutive.
Qed.
Lemma split_ws_last w : is_word w -> split_ws w = [w].
Proof. intros H. unfold split_ws. rewrite <- (app_nil_r w) at 1. rewrite split_ws_take by apply H. cbn. rewrite is_nil_rev_word by exact H. now rewrite app_nil_r, rev_involutive. Qed.
Lemma split_ws_line ws : Forall is_word ws -> split_ws (line_of ws) = ws.
Proof.
  induction 1 as [|w ws H F IH]; [reflexivity|]. destruct ws as [|v ws]; [apply split_ws_last, H|].
  change (line_of (w :: v :: ws)) with (w ++ " "%char :: line_of (v :: ws)). rewrite split_ws_word by (exact H || reflexivity). now rewrite IH.
Qed.
Lemma split_ws_blank ws : Forall is_word ws -> split_ws (line_of ws ++ T " ") = ws.
Proof.
  induction 1 as [|w ws H F IH]; [reflexivity|]. destruct ws as [|v ws].
  - change (line_of [w] ++ T " ") with (w ++ " "%char :: []). rewrite split_ws_word by (exact H || reflexivity). reflexivity.
  - change (line_of (w :: v :: ws) ++ T " ") with ((w ++ " "%char :: line_of (v :: ws)) ++ T " "). rewrite <- app_assoc. cbn [app].
    rewrite split_ws_word by (exact H || reflexivity). now rewrite IH.
Qed.
Lemma starts_headed p t : starts_with p t = true <-> headed p t.
Proof.
  revert t. induction p as [|c p IH]; intros t; cbn; [split; [intros _; now exists t|auto]|]. destruct t as [|d t].
  - split; [discriminate|]. intros (b & E). discriminate.
  - rewrite andb_true_iff, IH. split.
    + intros [E (b & ->)]. apply Ascii.eqb_eq in E. subst. now exists b.
    + intros (b & E). cbn in E. injection E as <- ->. split; [apply Ascii.eqb_refl|now exists b].
Qed.

(** ** Environments *)
Lemma extend_get more : NoDup (akeys more) -> forall m k, aget k (extend m more) = match aget k more with Some v => Some v | None => aget k m end.
Proof.
  induction more as [|[k0 v0] more IH]; intros ND m k; [reflexivity|]. cbn in ND. inversion ND; subst. unfold extend in *. cbn [fold_left fst snd]. rewrite IH by assumption. cbn.
  destruct (text_eqb k k0) eqn:E.
  - apply text_eqb_eq in E. subst k0. rewrite (proj2 (aget_none k more)) by assumption. now rewrite aget_put_same.
  - destruct (aget k more); [reflexivity|]. apply aget_put_other. intros ->. rewrite text_eqb_refl in E. discriminate.
Qed.

(** ** Parts of texts *)
Lemma part_slash p a b : ~ In "/"%char p -> part_of p (a ++ "/"%char :: b) -> part_of p a \/ part_of p b.
Proof.
  intros N (u & v & E). destruct p as [|c p]; [left; now exists [], a|].
  apply app_eq_app in E. destruct E as (l & [[E1 E2]|[E1 E2]]).
  - destruct l as [|x l].
    + rewrite app_nil_r in E1. cbn in E2. injection E2 as -> _. exfalso. apply N. now left.
    + apply app_eq_app in E2. destruct E2 as (m & [[E3 E4]|[E3 E4]]).
      * destruct m as [|y m]; [left; exists u, []; rewrite E1, E3, !app_nil_r; reflexivity|]. cbn in E4. injection E4 as <- _. exfalso. apply N. rewrite E3. apply in_or_app. right. now left.
      * left. exists u, m. now rewrite E1, E3.
  - destruct l as [|x l]; [cbn in E2; injection E2 as <- _; exfalso; apply N; now left|]. cbn in E2. injection E2 as <- ->. right. now exists l, v.
Qed.
Lemma contains_part p t : contains_text p t = true <-> part_of p t.
Proof.
  destruct (contains_text p t) eqn:E; split; auto; try discriminate.
  - intros _. clear -E. induction t as [|c t IH]; cbn in E.
    + destruct p; [exists [], []; reflexivity|discriminate].
    + apply orb_true_iff in E. destruct E as [E|E]; [apply starts_headed in E; destruct E as (b & E); exists [], b; exact E|]. destruct (IH E) as (a & b & ->). exists (c :: a), b. reflexivity.
  - intros (a & b & ->). exfalso. exact (proj1 (contains_text_false_spec _ _) E a b eq_refl).
Qed.
Lemma last_split sep a b : last (split_on sep (a ++ sep :: b)) [] = last (split_on sep b) [].
Proof.
  rewrite split_on_app_gen. destruct (split_on_cons sep b) as (p & ps & E). rewrite E. clear E. revert p ps. induction (split_on sep a) as [|x l IH]; intros p ps; [reflexivity|].
  cbn [app]. rewrite <- (IH p ps). destruct l; reflexivity.
Qed.
Lemma split_none sep s : ~ In sep s -> split_on sep s = [s].
Proof. induction s as [|c s IH]; intros N; [reflexivity|]. cbn. rewrite IH by (intros I; apply N; now right). destruct (Ascii.eqb_spec c sep) as [->|]; [exfalso; apply N; now left|reflexivity]. Qed.
Lemma file_name_join d e : ~ In "/"%char e -> e <> [] -> file_name_of (path_join d e) = e.
Proof.
  intros N NE. unfold file_name_of, path_join. assert (S : starts_with (T "/") e = false). { destruct (starts_with (T "/") e) eqn:S; [|reflexivity]. apply starts_headed in S. destruct S as (b & ->). exfalso. apply N. now left. }
  rewrite S. destruct (is_nil d || ends_with (T "/") d) eqn:D.
  - apply orb_true_iff in D. destruct D as [D|D].
    + destruct d; [|discriminate]. cbn [app]. now rewrite split_none.
    + unfold ends_with in D. apply starts_headed in D. destruct D as (b & D). assert (E : d = rev b ++ T "/"). { rewrite <- (rev_involutive d), D. rewrite rev_app_distr. reflexivity. }
      rewrite E, <- app_assoc. change (T "/" ++ e) with ("/"%char :: e). rewrite last_split, split_none by exact N. reflexivity.
  - change (d ++ T "/" ++ e) with (d ++ "/"%char :: e). rewrite last_split, split_none by exact N. reflexivity.
Qed.
Lemma executable_name s : ~ In "/"%char (executable s) /\ executable s <> [].
Proof. destruct s; (split; [cbn; intuition discriminate|discriminate]). Qed.

(** ** Paths *)
Lemma leads_same p q : leads p q && leads q p = true <-> p = q.
Proof.
  revert q. induction p as [|c p IH]; intros [|d q]; cbn; try (split; congruence). split.
  - intros H. rewrite !andb_true_iff in H. destruct H as [[E H1] [_ H2]]. apply text_eqb_eq in E. subst d. f_equal. apply IH. now rewrite H1, H2.
  - intros E. injection E as <- ->. rewrite text_eqb_refl. cbn. apply IH. reflexivity.
Qed.
Lemma test_paths_in given config local no_local p : In p (test_paths given config local no_local) <-> In p given \/ (In p config /\ (no_local = true -> p <> local)).
Proof.
  unfold test_paths. revert given. induction config as [|q config IH]; intros given; cbn [fold_left]; [cbn; tauto|]. rewrite IH. clear IH.
  destruct (negb no_local || negb (leads q local && leads local q)) eqn:A; cbn [andb].
  - assert (A' : no_local = true -> q <> local). { intros -> ->. cbn in A. rewrite (proj2 (leads_same local local) eq_refl) in A. discriminate. }
    destruct (existsb (fun r => leads q r && leads r q) given) eqn:B; cbn [negb].
    + apply existsb_exists in B. destruct B as (r & I & B). apply leads_same in B. subst r. cbn. split; [tauto|]. intros [H|[[<-|H] H2]]; tauto.
    + rewrite in_app_iff. cbn. split; [intros [[H|[<-|[]]]|H]; tauto|]. intros [H|[[<-|H] H2]]; tauto.
  - apply orb_false_iff in A. destruct A as [A1 A2]. apply negb_false_iff in A1, A2. apply leads_same in A2. subst. cbn. split; [tauto|]. intros [H|[[<-|H] H2]]; [tauto| |tauto]. exfalso. now apply H2.
Qed.
Lemma test_paths_nodup given config local no_local : NoDup given -> NoDup (test_paths given config local no_local).
Proof.
  unfold test_paths. revert given. induction config as [|q config IH]; intros given ND; cbn [fold_left]; [exact ND|]. apply IH.
  destruct ((negb no_local || negb (leads q local && leads local q)) && negb (existsb (fun r => leads q r && leads r q) given)) eqn:A; [|exact ND].
  apply andb_true_iff in A. destruct A as [_ B]. apply negb_true_iff in B. apply (Permutation_NoDup (l := q :: given)); [apply Permutation_cons_append|]. constructor; [|exact ND].
  intros I. assert (existsb (fun r => leads q r && leads r q) given = true) by (apply existsb_exists; exists q; split; [exact I|now apply leads_same]). congruence.
Qed.
(** the directories of a family are its entries that are directories *)
Lemma version_dirs_in es v : In v (version_dirs (Dir es)) <-> exists fs, In (v, Dir fs) es.
Proof.
  unfold version_dirs. rewrite sort_in, in_map_iff. split.
  - intros ([n y] & E & I). cbn in E. subst n. apply filter_In in I. destruct I as [I D]. cbn in D. destruct y; try discriminate. eexists. exact I.
  - intros (fs & I). exists (v, Dir fs). split; [reflexivity|]. apply filter_In. auto.
Qed.
Lemma version_dirs_last es v r : rev (version_dirs (Dir es)) = v :: r -> forall u, In u (version_dirs (Dir es)) -> text_cmp u v <> Gt.
Proof.
  intros E u I. assert (E2 : version_dirs (Dir es) = rev r ++ [v]) by (rewrite <- (rev_involutive (version_dirs (Dir es))), E; reflexivity).
  rewrite E2 in I. apply in_app_or in I. destruct I as [I|[<-|[]]].
  - apply in_split in I. destruct I as (a & b & I). rewrite I in E2. rewrite <- app_assoc in E2. cbn in E2.
    refine (sort_sorted text_cmp (fun _ => True) TPO_text _ _ a u b v [] E2). apply Forall_forall. auto.
  - intros C. assert (X := proj2 (text_cmp_eq v v) eq_refl). congruence.
Qed.
Lemma locate_in_spec spec paths x d : locate_in spec paths x = Some d ->
  exists a p b v r es, paths = a ++ p :: b /\ d = p ++ [spec; v] /\ get (p ++ [spec]) x = Some (Dir es) /\ rev (version_dirs (Dir es)) = v :: r
    /\ exists_at (p ++ [spec; v; T "package.py"]) x = true /\ locate_in spec a x = None.
Proof.
  induction paths as [|p paths IH]; cbn [locate_in]; [discriminate|]. destruct (get (p ++ [spec]) x) as [y|] eqn:G.
  - destruct (rev (version_dirs y)) as [|v r] eqn:V.
    + intros H. destruct (IH H) as (a & q & b & v & r & es & -> & D & G2 & V2 & X & N). exists (p :: a), q, b, v, r, es. repeat split; auto. cbn [locate_in]. now rewrite G, V.
    + destruct (exists_at (p ++ [spec; v; T "package.py"]) x) eqn:X.
      * intros E. assert (d = p ++ [spec; v]) by congruence. subst d. destruct y; try discriminate. eexists [], p, paths, v, r, _. repeat split; eauto.
      * intros H. destruct (IH H) as (a & q & b & v' & r' & es & -> & D & G2 & V2 & X2 & N). exists (p :: a), q, b, v', r', es. repeat split; auto. cbn [locate_in]. now rewrite G, V, X.
  - intros H. destruct (IH H) as (a & q & b & v & r & es & -> & D & G2 & V2 & X & N). exists (p :: a), q, b, v, r, es. repeat split; auto. cbn [locate_in]. now rewrite G.
Qed.
Lemma locate_in_none spec paths x : (forall p, In p paths -> get (p ++ [spec]) x = None) -> locate_in spec paths x = None.
Proof. induction paths as [|p paths IH]; intros H; cbn [locate_in]; [reflexivity|]. rewrite H by now left. apply IH. intros q I. apply H. now right. Qed.
