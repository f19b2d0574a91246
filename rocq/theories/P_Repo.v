(** Properties C47, C48, C101 and C102: repositories on disk and the manager. *)
From Verif Require Import Base Base_lemmas Maps Sorting Version_model Version_spec Version_order P_Version P_Range Package_model Order_model Order_spec Order_proofs P_Order
  Repo_model Repo_spec Repo_proofs.

(** ** Concrete data *)
Definition ver (p : package) : text * rdir := (T "v", RDir (Some (Some p)) true []).
Definition bad : text * rdir := (T "bad", RDir (Some None) true []).
Definition fam (n : string) (l : list (text * rdir)) : text * rdir := (T n, RDir None true l).
Definition root (l : list (text * rdir)) : rdir := RDir None true l.
Definition maya1 : package := pk "maya" "1" 0. Definition maya2 : package := pk "maya" "2" 0. Definition nuke1 : package := pk "nuke" "1.5" 0.
Definition site : rdir := root [fam "maya" [ver maya1]]. Definition studio : rdir := root [fam "nuke" [ver nuke1]; fam "maya" [ver maya2; ver maya1]].
Ltac is_sound := split; [reflexivity|]; intros (y & I & K); repeat (destruct I as [I|I]; [apply (f_equal snd) in I; cbn [snd fam] in I; subst y; destruct K as [K|[_ K]]; discriminate K|]); destruct I.

(** ** C47 *)
(** The first repository that has the package answers, although a later one has a newer version. *)
Theorem C47_refuted : exists roots n p q r, (forall x, In x roots -> sound x n) /\ fst (get_first n None (fresh roots)) = Ok (Some p) /\ In r roots /\ In q (held r n) /\ ~ not_lower p q.
Proof.
  exists [site; studio], (T "maya"), maya1, maya2, studio. split; [|split; [vm_compute; reflexivity|split; [right; left; reflexivity|split; [vm_compute; auto|]]]].
  - intros x [<-|[<-|[]]]; is_sound.
  - unfold not_lower, goes_before. intros H. apply H. vm_compute. reflexivity.
Qed.
Print Assumptions C47_refuted.
(** The answer is the latest of the first repository that has the package, after any earlier questions. *)
Theorem C47_first_partial : forall S roots qs n p, (forall x, In x roots -> sound x n) -> transitive_versions S -> (forall x, In x roots -> versions_in S (held x n)) ->
  fst (get_first n None (history qs (fresh roots))) = Ok (Some p) ->
  exists a r b, roots = a ++ r :: b /\ (forall x, In x a -> held x n = []) /\ In p (held r n) /\ forall q, In q (held r n) -> not_lower p q.
Proof.
  intros S roots qs n p H TV V G. destruct (history_state qs (fresh roots) (fresh_usual roots)) as [U F]. rewrite fresh_fst in F.
  rewrite get_first_sound in G; [|exact U|rewrite F; exact H]. rewrite F in G. destruct (first_latest n roots p G) as (a & r & b & -> & A & B). exists a, r, b. split; [reflexivity|]. split; [exact A|].
  apply (choose_latest S); [exact TV|apply V; apply in_app_iff; right; now left|exact B].
Qed.
Print Assumptions C47_first_partial.
(** So it is the latest of all if one repository has the package. *)
Theorem C47_only_partial : forall S roots qs n p, (forall x, In x roots -> sound x n) -> transitive_versions S -> (forall x, In x roots -> versions_in S (held x n)) ->
  (forall a r b, roots = a ++ r :: b -> held r n <> [] -> forall x, In x b -> held x n = []) ->
  fst (get_first n None (history qs (fresh roots))) = Ok (Some p) -> forall r q, In r roots -> In q (held r n) -> not_lower p q.
Proof.
  intros S roots qs n p H TV V One G r q R Q. destruct (C47_first_partial S roots qs n p H TV V G) as (a & r' & b & E & A & B & L).
  rewrite E in R. apply in_app_iff in R. destruct R as [R|[<-|R]]; [rewrite (A _ R) in Q; destruct Q|exact (L _ Q)|].
  rewrite (One a r' b E) in Q; [destruct Q| |exact R]. intros K. rewrite K in B. destruct B.
Qed.
Print Assumptions C47_only_partial.
(** Nothing is returned exactly if no repository has the package. *)
Theorem C47_none : forall roots qs n, (forall x, In x roots -> sound x n) ->
  fst (get_first n None (history qs (fresh roots))) = Ok None <-> forall r, In r roots -> held r n = [].
Proof.
  intros roots qs n H. destruct (history_state qs (fresh roots) (fresh_usual roots)) as [U F]. rewrite fresh_fst in F.
  rewrite get_first_sound; [|exact U|rewrite F; exact H]. rewrite F. apply first_none.
Qed.
Print Assumptions C47_none.
(** Listing all versions gives all packages of the name of all repositories, newest first, equal versions in the order of the repositories. *)
Theorem C47_list : forall S roots qs n, (forall x, In x roots -> sound x n) -> transitive_versions S -> (forall x, In x roots -> versions_in S (held x n)) ->
  exists l, fst (find_all n (history qs (fresh roots))) = Ok l /\ Permutation l (flat_map (fun r => held r n) roots) /\ pairwise (goes_before true) l /\
  forall p, In p l -> filter (same_version p) l = filter (same_version p) (flat_map (fun r => held r n) roots).
Proof.
  intros S roots qs n H TV V. destruct (history_state qs (fresh roots) (fresh_usual roots)) as [U F]. rewrite fresh_fst in F.
  rewrite find_all_sound; [|exact U|rewrite F; exact H]. rewrite F. eexists. split; [reflexivity|]. split; [apply sort_perm|].
  assert (W : versions_in S (flat_map (fun r => held r n) roots)).
  { intros p v I E. apply in_flat_map in I. destruct I as (r & R & I). exact (V r R p v I E). }
  destruct (sorted_spec (fun l => l) true None S (flat_map (fun r => held r n) roots) _ TV W eq_refl) as [A B]. split; [exact A|].
  intros p I. apply B. apply (proj1 (sort_in _ _ _)) in I. exact I.
Qed.
Print Assumptions C47_list.
Example C47_example : fst (find_all (T "maya") (fresh [site; studio])) = Ok [maya2; maya1; maya1] /\ fst (get_first (T "maya") None (fresh [studio; site])) = Ok (Some maya2) /\
  (forall x, In x [site; studio] -> sound x (T "maya")) /\ transitive_versions orderly /\ (forall x, In x [site; studio] -> versions_in orderly (held x (T "maya"))).
Proof.
  split; [vm_compute; reflexivity|]. split; [vm_compute; reflexivity|]. split; [|split; [exact orderly_transitive|]].
  - intros x [<-|[<-|[]]]; is_sound.
  - intros x [<-|[<-|[]]] p v I E; vm_compute in I; repeat (destruct I as [<-|I]; [cbn in E; injection E as <-; is_orderly|]); destruct I.
Qed.

(** ** C48 *)
(** A repository with a loadable and a broken version of a package fails on the first question and answers the second. *)
Theorem C48_refuted : forall r n, listable r = true -> mixed r n ->
  fst (find_packages r n cold) = Err /\ fst (find_packages r n (snd (find_packages r n cold))) = Ok (held r n).
Proof.
  intros r n L M. destruct (find_mixed r n L M) as [A B]. split; [exact A|]. replace (snd (find_packages r n cold)) with (warm r); [exact B|].
  unfold find_packages. cbn [rs_cache rs_errors cold aget]. rewrite scan_warm, L. destruct (aget n (rs_errors (warm r))); reflexivity.
Qed.
Print Assumptions C48_refuted.
(** After a failed listing, later answers lack packages. *)
Theorem C48_unlistable_refuted : exists r n, let s := snd (find_packages r n cold) in
  fst (find_packages r n cold) = Err /\ fst (find_packages r n s) = Ok [maya1] /\ fst (find_packages r n (snd (find_packages r n s))) = Ok [maya1] /\ held r n = [maya1; maya2].
Proof. exists (root [fam "a" [ver maya1]; (T "b", RDir None false []); fam "c" [ver maya2]]), (T "maya"). vm_compute. repeat split. Qed.
Print Assumptions C48_unlistable_refuted.
(** Otherwise all answers of all repositories are always the same, whatever is asked in between. *)
Theorem C48_partial : forall roots qs n v, (forall r, In r roots -> listable r = true /\ ~ mixed r n) ->
  fst (find_all n (history qs (fresh roots))) = fst (find_all n (fresh roots)) /\ fst (get_first n v (history qs (fresh roots))) = fst (get_first n v (fresh roots)).
Proof.
  intros roots qs n v H. destruct (history_state qs (fresh roots) (fresh_usual roots)) as [U F]. rewrite fresh_fst in F. pose proof (fresh_usual roots) as U0. pose proof (fresh_fst roots) as F0.
  revert U F U0 F0 H. generalize (history qs (fresh roots)) as m. generalize (fresh roots) as m0. intros m0 m U F U0 F0 H.
  assert (K : forall r s s', In r roots -> usual r s -> usual r s' -> fst (find_packages r n s) = fst (find_packages r n s')).
  { intros r s s' R A B. destruct (H r R) as [L M]. destruct (held r n) as [|p l] eqn:E.
    - assert (D : (exists e, aget n (rs_errors (warm r)) = Some e) \/ aget n (rs_errors (warm r)) = None) by (destruct (aget n (rs_errors (warm r))) as [e|]; [left; exists e; reflexivity|now right]).
      destruct D as [(e & D)|D].
      + assert (FB : family_broken r n) by (apply (warm_errors r n L); congruence). rewrite !find_broken by assumption. reflexivity.
      + assert (FB : ~ family_broken r n) by (intros X; apply (warm_errors r n L) in X; congruence). rewrite !find_sound by (try assumption; split; assumption). reflexivity.
    - assert (FB : ~ family_broken r n) by (intros X; apply M; split; [rewrite E; discriminate|exact X]). rewrite !find_sound by (try assumption; split; assumption). reflexivity. }
  clear H. assert (C : fst (collect n m) = fst (collect n m0) /\ fst (get_first n v m) = fst (get_first n v m0)).
  { revert roots m0 F F0 U0 K. induction U as [|[r s] m Us U IH]; intros roots m0 F F0 U0 K.
    - destruct m0; [split; reflexivity|]. exfalso. cbn in F, F0. congruence.
    - destruct m0 as [|[r0 s0] m0]; [cbn in F, F0; congruence|]. cbn in F, F0. destruct roots as [|r1 roots]; [discriminate F|]. injection F as E1 F. injection F0 as E2 F0. subst r1. subst r0.
      inversion U0 as [|x y Us0 U0']; subst x y. destruct (IH roots m0 F F0 U0') as [A B]; [intros r' a b R; apply K; now right|].
      pose proof (K r s s0 (or_introl eq_refl) Us Us0) as E. cbn [collect get_first]. unfold get_package. destruct (find_packages r n s) as [x1 y1], (find_packages r n s0) as [x2 y2]. cbn [fst] in E. subst x2.
      destruct x1 as [l|]; [|split; reflexivity]. split.
      + destruct (collect n m) as [[?|] ?], (collect n m0) as [[?|] ?]; cbn in *; congruence.
      + destruct (choose v l) as [[p|]|]; [reflexivity| |reflexivity]. destruct (get_first n v m), (get_first n v m0). exact B. }
  destruct C as [A B]. split; [|exact B]. unfold find_all. destruct (collect n m) as [[?|] ?], (collect n m0) as [[?|] ?]; cbn in *; congruence.
Qed.
Print Assumptions C48_partial.
Definition faulty : rdir := root [fam "maya" [ver maya1; bad]; fam "nuke" [bad]].
Example C48_example : listable faulty = true /\ mixed faulty (T "maya") /\ ~ mixed faulty (T "nuke") /\ fst (find_packages faulty (T "nuke") cold) = Err.
Proof.
  split; [reflexivity|]. split; [split; [vm_compute; discriminate|]|split; [|vm_compute; reflexivity]].
  - exists (snd (fam "maya" [ver maya1; bad])). split; [left; reflexivity|]. right. split; reflexivity.
  - intros [H _]. apply H. vm_compute. reflexivity.
Qed.

(** ** C101 *)
(** A package with a given version is found exactly if some repository has one, and then the name and version are right. *)
Theorem C101_version : forall roots qs n t x, (forall r, In r roots -> sound r n) -> parse_version t = Some x ->
  match fst (get_first n (Some t) (history qs (fresh roots))) with
  | Ok (Some p) => p_name p = n /\ exists r y, In r roots /\ In p (packages_of r) /\ p_version p = Some y /\ vcmp y x = Eq
  | Ok None => forall r p y, In r roots -> In p (packages_of r) -> p_name p = n -> p_version p = Some y -> vcmp y x <> Eq
  | Err => False
  end.
Proof.
  intros roots qs n t x H P. destruct (history_state qs (fresh roots) (fresh_usual roots)) as [U F]. rewrite fresh_fst in F.
  rewrite get_first_sound; [|exact U|rewrite F; exact H]. rewrite F. pose proof (first_version t x n roots P) as K. destruct (first_answer (Some t) n roots) as [[p|]|]; [| |exact K].
  - destruct K as (r & y & A & B & C). apply held_in in B. split; [exact (proj2 B)|]. exists r, y. split; [exact A|]. split; [exact (proj1 B)|exact C].
  - intros r p y R I N. apply (K r p y R). apply held_in. auto.
Qed.
Print Assumptions C101_version.
(** A text that is no version is an error if there is a repository at all. *)
Theorem C101_bad : forall r roots qs n t, (forall x, In x (r :: roots) -> sound x n) -> parse_version t = None -> fst (get_first n (Some t) (history qs (fresh (r :: roots)))) = Err.
Proof.
  intros r roots qs n t H P. destruct (history_state qs (fresh (r :: roots)) (fresh_usual (r :: roots))) as [U F]. rewrite fresh_fst in F.
  rewrite get_first_sound; [|exact U|rewrite F; exact H]. rewrite F. cbn [first_answer]. unfold choose. rewrite P. reflexivity.
Qed.
Print Assumptions C101_bad.
Example C101_example : fst (get_first (T "maya") (Some (T "2.0")) (fresh [site; studio])) = Ok (Some maya2) /\ fst (get_first (T "maya") (Some (T "3")) (fresh [site; studio])) = Ok None /\
  parse_version (T "3..") = None.
Proof. vm_compute. repeat split. Qed.

(** ** C102 *)
(** The names are those of all packages of all repositories, in order, each once; whatever was asked before. *)
Theorem C102_names : forall ord roots qs, any_order ord -> (forall r, In r roots -> listable r = true) ->
  exists l, fst (list_all ord (history qs (fresh roots))) = Ok l /\ NoDup l /\ sorted_by text_cmp l /\
  forall n, In n l <-> exists r p, In r roots /\ In p (packages_of r) /\ p_name p = n.
Proof.
  intros ord roots qs O H. destruct (history_state qs (fresh roots) (fresh_usual roots)) as [U F]. rewrite fresh_fst in F. destruct (list_all_spec ord (history qs (fresh roots)) O) as (l & A & B & C & D); [rewrite F; exact H|]. rewrite F in D. exists l. auto.
Qed.
Print Assumptions C102_names.
(** A directory that cannot be listed fails the listing of all names. *)
Theorem C102_unlistable : forall ord r roots qs, listable r = false -> fst (list_all ord (history qs (fresh (r :: roots)))) = Err.
Proof.
  intros ord r roots qs L. destruct (history_state qs (fresh (r :: roots)) (fresh_usual (r :: roots))) as [U F]. rewrite (list_all_state ord _ (fresh (r :: roots)) F).
  unfold list_all. cbn [fresh map all_names]. unfold list_packages. rewrite scan_warm, L. reflexivity.
Qed.
Print Assumptions C102_unlistable.
Example C102_example : fst (list_all (fun l => rev l) (fresh [site; studio])) = Ok [T "maya"; T "nuke"].
Proof. vm_compute. reflexivity. Qed.
