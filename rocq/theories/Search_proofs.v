(** What the searcher returns. *)
From Verif Require Import Base Base_lemmas Maps Sorting Version_model Range_model Package_model Order_model Order_spec Repo_model Repo_spec Repo_proofs Env_model Env_context Search_model Search_spec.
From Coq Require Import Lia Sorted.

Section Search.
Context (re : text -> option (text -> bool)).
Lemma matches_name_ok o n : matches_name re o n = true <-> name_ok re o n.
Proof.
  unfold matches_name, name_ok. destruct (so_pattern o) as [|c p] eqn:E; cbn [is_nil]; [split; auto|]. rewrite <- E. unfold lower. split.
  - intros H. right. destruct (so_mode o).
    + apply text_eqb_eq, H.
    + apply starts_with_spec, H.
    + apply contains_text_spec, H.
    + destruct (re (so_pattern o)) as [f|]; [exists f; auto|discriminate].
  - intros [H|H]; [congruence|]. destruct (so_mode o).
    + apply text_eqb_eq, H.
    + apply starts_with_spec, H.
    + apply contains_text_spec, H.
    + destruct H as (f & -> & H). exact H.
Qed.
Lemma outside_ok o p : outside o p = false <-> version_ok o p.
Proof.
  unfold outside, version_ok. destruct (so_range o) as [t|]; [|split; [intros; congruence|auto]]. destruct (p_version p) as [v|]; [|split; [intros; congruence|auto]].
  destruct (parse_range t) as [r|] eqn:E.
  - rewrite negb_false_iff. split; [intros H t' r' v' A B C; congruence|intros H; eapply H; eauto].
  - split; [intros; congruence|auto].
Qed.
Definition accepted (o : soptions) (p : package) : bool := matches_name re o (p_name p) && negb (outside o p).
Lemma accepted_wanted o p : accepted o p = true <-> wanted re o p.
Proof. unfold accepted, wanted. rewrite andb_true_iff, negb_true_iff, matches_name_ok, outside_ok. reflexivity. Qed.
Lemma version_text_shown p t : shown p t <-> t = version_text p.
Proof. unfold shown, version_text. destruct (p_version p); reflexivity. Qed.

(** the versions of a family before sorting *)
Definition found (o : soptions) (n : text) (ps : list package) : list text := map version_text (filter (fun p => text_eqb n (p_name p) && accepted o p) ps).
Lemma add_package_accepted o m p : add_package re o m p = if accepted o p then aput (p_name p) (match aget (p_name p) m with Some l => l | None => [] end ++ [version_text p]) m else m.
Proof. unfold add_package, accepted. destruct (matches_name re o (p_name p)); [|reflexivity]. cbn. destruct (outside o p); reflexivity. Qed.
Lemma grouped_get o ps : forall c n, aget n (fold_left (add_package re o) ps c) = match found o n ps with [] => aget n c | l => Some (match aget n c with Some x => x | None => [] end ++ l) end.
Proof.
  induction ps as [|p ps IH]; intros c n; [reflexivity|]. cbn [fold_left]. rewrite IH, add_package_accepted. unfold found. cbn [filter]. fold (found o n ps). destruct (accepted o p) eqn:A.
  - destruct (text_eqb_spec n (p_name p)) as [->|N]; cbn [andb].
    + rewrite aget_put_same. cbn [map]. fold (found o (p_name p) ps). destruct (found o (p_name p) ps); [reflexivity|]. rewrite <- app_assoc. reflexivity.
    + rewrite aget_put_other by exact N. reflexivity.
  - rewrite andb_false_r. reflexivity.
Qed.
Lemma grouped_keys o ps : forall c, NoDup (akeys c) -> NoDup (akeys (fold_left (add_package re o) ps c)).
Proof. induction ps as [|p ps IH]; intros c N; [exact N|]. cbn [fold_left]. apply IH. rewrite add_package_accepted. destruct (accepted o p); [apply nodup_put, N|exact N]. Qed.
Definition grouped (o : soptions) (ps : list package) : list (text * list text) := fold_left (add_package re o) ps [].

(** one family of one repository, as a list of at most one result *)
Definition expected (o : soptions) (n : text) (r : text * list package) : list sresult :=
  match found o n (snd r) with [] => [] | vs => [family_entry o (fst r) (n, vs)] end.
Definition of_name (n : text) (r : sresult) : bool := text_eqb n (sr_name r).
Lemma entry_name o repo e : sr_name (family_entry o repo e) = fst e.
Proof. unfold family_entry. destruct (so_latest o); reflexivity. Qed.
Lemma filter_keys (n : text) (l : list (text * list text)) : NoDup (akeys l) -> filter (fun e => text_eqb n (fst e)) l = match aget n l with Some v => [(n, v)] | None => [] end.
Proof.
  induction l as [|[k v] l IH]; intros N; [reflexivity|]. cbn [filter aget fst]. inversion N as [|? ? N1 N2]; subst. destruct (text_eqb_spec n k) as [->|K]; [|apply IH, N2].
  f_equal. rewrite IH by exact N2. assert (E : aget k l = None) by (apply aget_none, N1). rewrite E. reflexivity.
Qed.
Lemma filter_map_name n o repo (l : list (text * list text)) : filter (of_name n) (map (family_entry o repo) l) = map (family_entry o repo) (filter (fun e => text_eqb n (fst e)) l).
Proof. induction l as [|e l IH]; [reflexivity|]. cbn [map filter]. unfold of_name at 1. rewrite entry_name. destruct (text_eqb n (fst e)); cbn [map]; rewrite IH; reflexivity. Qed.
Lemma repo_expected n o (ord : list (text * list text) -> list (text * list text)) repo ps : any_order ord -> filter (of_name n) (map (family_entry o repo) (ord (grouped o ps))) = expected o n (repo, ps).
Proof.
  intros H. rewrite filter_map_name. assert (N : NoDup (akeys (grouped o ps))) by (apply grouped_keys; constructor).
  assert (P : Permutation (ord (grouped o ps)) (grouped o ps)) by apply H.
  assert (N' : NoDup (akeys (ord (grouped o ps)))) by (eapply Permutation_NoDup; [apply Permutation_map; symmetry; exact P|exact N]).
  rewrite filter_keys by exact N'.
  assert (G : aget n (ord (grouped o ps)) = aget n (grouped o ps)).
  { destruct (aget n (ord (grouped o ps))) as [v|] eqn:E.
    - symmetry. apply aget_nodup; [exact N|]. apply (Permutation_in _ P), aget_in, E.
    - symmetry. apply aget_none. apply aget_none in E. intros K. apply E. eapply Permutation_in; [apply Permutation_map; symmetry; exact P|exact K]. }
  rewrite G. unfold grouped. rewrite grouped_get. cbn [aget]. unfold expected. cbn [fst snd]. destruct (found o n ps) as [|v vs]; reflexivity.
Qed.

(** all results, in the order they are made *)
Fixpoint everything (ord : nat -> list (text * list text) -> list (text * list text)) (o : soptions) (i : nat) (rs : list (text * list package)) : list sresult :=
  match rs with [] => [] | (repo, ps) :: rs' => map (family_entry o repo) (ord i (grouped o ps)) ++ everything ord o (S i) rs' end.
Lemma add_families_spec o repo l : forall acc, so_limit o = 0 \/ length acc < so_limit o ->
  (add_families o repo l acc = (false, acc ++ map (family_entry o repo) l) /\ (so_limit o = 0 \/ length (acc ++ map (family_entry o repo) l) < so_limit o)) \/
  (exists a b, l = a ++ b /\ add_families o repo l acc = (true, acc ++ map (family_entry o repo) a) /\ so_limit o <> 0 /\ length (acc ++ map (family_entry o repo) a) = so_limit o).
Proof.
  induction l as [|e l IH]; intros acc H.
  - left. cbn. rewrite app_nil_r. auto.
  - cbn [add_families]. destruct (negb (Nat.eqb (so_limit o) 0) && Nat.leb (so_limit o) (length (acc ++ [family_entry o repo e]))) eqn:E.
    + right. apply andb_true_iff in E. destruct E as [E1 E2]. apply negb_true_iff, Nat.eqb_neq in E1. apply Nat.leb_le in E2. exists [e], l. split; [reflexivity|]. split; [reflexivity|]. split; [exact E1|]. cbn [map]. rewrite app_length in *. cbn [length] in *. lia.
    + assert (H' : so_limit o = 0 \/ length (acc ++ [family_entry o repo e]) < so_limit o).
      { destruct (Nat.eq_dec (so_limit o) 0) as [Z|Z]; [now left|right]. apply Nat.eqb_neq in Z. rewrite Z in E. cbn in E. apply Nat.leb_gt, E. }
      destruct (IH _ H') as [[A B]|(a & b & A & B & C & D)].
      * left. rewrite A. rewrite <- app_assoc in B |- *. cbn [app] in *. auto.
      * right. exists (e :: a), b. subst l. split; [reflexivity|]. rewrite B. rewrite <- app_assoc in D |- *. cbn [app map] in *. auto.
Qed.
Lemma add_repos_spec ord o rs : forall i acc, so_limit o = 0 \/ length acc < so_limit o ->
  (add_repos re ord o i rs acc = (false, acc ++ everything ord o i rs) /\ (so_limit o = 0 \/ length (acc ++ everything ord o i rs) < so_limit o)) \/
  (exists a b, everything ord o i rs = a ++ b /\ add_repos re ord o i rs acc = (true, acc ++ a) /\ so_limit o <> 0 /\ length (acc ++ a) = so_limit o).
Proof.
  induction rs as [|[repo ps] rs IH]; intros i acc H.
  - left. cbn. rewrite app_nil_r. auto.
  - cbn [add_repos everything]. fold (grouped o ps). destruct (add_families_spec o repo (ord i (grouped o ps)) acc H) as [[A B]|(a & b & A & B & C & D)].
    + rewrite A. destruct (IH (S i) _ B) as [[A' B']|(a & b & A' & B' & C' & D')].
      * left. rewrite A'. rewrite <- app_assoc in B' |- *. auto.
      * right. exists (map (family_entry o repo) (ord i (grouped o ps)) ++ a), b. rewrite A', B'. rewrite <- app_assoc in D' |- *. rewrite <- app_assoc. auto.
    + right. exists (map (family_entry o repo) a), (map (family_entry o repo) b ++ everything ord o (S i) rs). rewrite B, A, map_app, <- app_assoc. auto.
Qed.
Definition by_name (a b : sresult) : comparison := text_cmp (sr_name a) (sr_name b).
Lemma search_cases ord o rs :
  (search_in re ord o rs = sort_by by_name (everything ord o 0 rs) /\ (so_limit o = 0 \/ length (everything ord o 0 rs) < so_limit o)) \/
  (exists b, everything ord o 0 rs = search_in re ord o rs ++ b /\ so_limit o <> 0 /\ length (search_in re ord o rs) = so_limit o).
Proof.
  unfold search_in. assert (H : so_limit o = 0 \/ length (@nil sresult) < so_limit o) by (cbn; lia). destruct (add_repos_spec ord o rs 0 [] H) as [[A B]|(a & b & A & B & C & D)].
  - left. rewrite A. cbn [app] in *. split; [reflexivity|exact B].
  - right. exists b. rewrite B. cbn [app] in *. auto.
Qed.
Lemma TPO_name : TPO (fun _ => True) by_name.
Proof.
  constructor; unfold by_name; intros.
  - apply (tpo_refl _ _ TPO_text). exact I.
  - apply (tpo_anti _ _ TPO_text); exact I.
  - eapply (tpo_trans _ _ TPO_text); eauto; exact I.
Qed.
Lemma all_true {A} (l : list A) : Forall (fun _ => True) l.
Proof. apply Forall_forall. auto. Qed.
Lemma everything_name n ord o rs : (forall i, any_order (ord i)) -> forall i, filter (of_name n) (everything ord o i rs) = flat_map (expected o n) rs.
Proof.
  intros H. induction rs as [|[repo ps] rs IH]; intros i; [reflexivity|]. cbn [everything flat_map]. rewrite filter_app, IH, (repo_expected n o (ord i) repo ps (H i)). reflexivity.
Qed.
Lemma of_name_eq n l : filter (of_name n) l = filter (fun y => is_eq (by_name (new_result n [] []) y)) l.
Proof.
  apply filter_ext. intros y. unfold of_name, by_name. cbn [new_result sr_name]. destruct (text_eqb_spec n (sr_name y)) as [->|N].
  - rewrite (tpo_refl _ _ TPO_text) by exact I. reflexivity.
  - destruct (text_cmp n (sr_name y)) eqn:E; try reflexivity. apply text_cmp_eq in E. congruence.
Qed.
Lemma sorted_name n l : filter (of_name n) (sort_by by_name l) = filter (of_name n) l.
Proof. rewrite !of_name_eq. apply (sort_stable _ _ TPO_name); [exact I|apply all_true]. Qed.

(** a family as it should be described *)
Lemma last_greatest vs : StronglySorted (fun a b => text_cmp a b = Lt) vs -> vs <> [] -> exists t, last_of vs = Some t /\ greatest t vs.
Proof.
  intros S NE. unfold last_of. destruct (rev vs) as [|t l] eqn:E; [apply (f_equal (@rev _)) in E; rewrite rev_involutive in E; contradiction|]. exists t. split; [reflexivity|].
  assert (V : vs = rev l ++ [t]) by (rewrite <- (rev_involutive vs), E; reflexivity). subst vs. split; [apply in_app_iff; right; now left|].
  intros u U. apply in_app_iff in U. destruct U as [U|[<-|[]]].
  - clear - S U. induction (rev l) as [|a r IH]; [destruct U|]. cbn in S. inversion S as [|? ? S1 S2]; subst. destruct U as [->|U]; [|auto]. rewrite Forall_forall in S2. rewrite (S2 t); [discriminate|]. apply in_app_iff. right. now left.
  - rewrite (tpo_refl _ _ TPO_text) by exact I. discriminate.
Qed.
Lemma found_in o n ps t : In t (found o n ps) <-> exists p, In p ps /\ p_name p = n /\ wanted re o p /\ shown p t.
Proof.
  unfold found. rewrite in_map_iff. split.
  - intros (p & E & F). apply filter_In in F. destruct F as [F G]. apply andb_true_iff in G. destruct G as [G1 G2]. exists p. split; [exact F|]. split; [apply text_eqb_eq in G1; congruence|]. split; [apply accepted_wanted, G2|]. apply version_text_shown. congruence.
  - intros (p & F & E & W & S). exists p. apply version_text_shown in S. split; [congruence|]. apply filter_In. split; [exact F|]. apply andb_true_iff. split; [apply text_eqb_eq; congruence|apply accepted_wanted, W].
Qed.
Lemma entry_describes o n repo ps : found o n ps <> [] -> describes re o repo ps n (family_entry o repo (n, found o n ps)).
Proof.
  intros NE. set (vs := dedup (sort_by text_cmp (found o n ps))). assert (I1 : forall t, In t vs <-> In t (found o n ps)) by (intros t; unfold vs; rewrite dedup_in, sort_in; reflexivity).
  assert (S : StronglySorted (fun a b => text_cmp a b = Lt) vs) by (apply dedup_sorted, (sort_chain _ _ TPO_text), all_true).
  assert (NV : vs <> []). { intros E. destruct (found o n ps) as [|v l]; [congruence|]. assert (K : In v vs) by (apply I1; now left). rewrite E in K. destruct K. }
  destruct (last_greatest vs S NV) as (t & L & G). exists vs. split; [split; [exact S|intros u; rewrite I1; apply found_in]|]. split; [exact NV|]. unfold family_entry. cbn [fst snd]. fold vs. rewrite L.
  destruct (so_latest o); cbn [new_result sr_name sr_repo sr_latest sr_versions]; (split; [reflexivity|]; split; [reflexivity|]); exists t; (split; [exact G|]); [split; reflexivity|]. split; [exact L|reflexivity].
Qed.
Lemma expected_results o n rs : results_for re o n rs (flat_map (expected o n) rs).
Proof.
  induction rs as [|[repo ps] rs IH]; [constructor|]. cbn [flat_map]. unfold expected at 1. cbn [fst snd]. destruct (found o n ps) as [|v l] eqn:E.
  - constructor 2; [|exact IH]. intros p P N W. assert (K : In (version_text p) (found o n ps)) by (apply found_in; exists p; repeat split; try apply W; auto; apply version_text_shown; reflexivity). rewrite E in K. destruct K.
  - cbn [app]. constructor 3; [|exact IH]. rewrite <- E. apply entry_describes. congruence.
Qed.

Lemma search_complete ord o rs : (forall i, any_order (ord i)) -> so_limit o = 0 ->
  StronglySorted (fun a b => text_cmp (sr_name a) (sr_name b) <> Gt) (search_in re ord o rs) /\ forall n, results_for re o n rs (filter (of_name n) (search_in re ord o rs)).
Proof.
  intros H L. destruct (search_cases ord o rs) as [[E _]|(b & _ & N & _)]; [|contradiction]. rewrite E. split.
  - assert (C : chain by_name (sort_by by_name (everything ord o 0 rs))) by (apply (sort_chain _ _ TPO_name), all_true). clear E. induction C as [|x l F C IH]; constructor; [exact IH|exact F].
  - intros n. rewrite sorted_name, (everything_name n ord o rs H). apply expected_results.
Qed.
Lemma everything_perm ord ord' o rs : (forall i, any_order (ord i)) -> (forall i, any_order (ord' i)) -> forall i, Permutation (everything ord o i rs) (everything ord' o i rs).
Proof.
  intros H H'. induction rs as [|[repo ps] rs IH]; intros i; [reflexivity|]. cbn [everything]. apply Permutation_app; [|apply IH]. apply Permutation_map. rewrite (H i). symmetry. apply H'.
Qed.
Lemma search_order ord ord' o rs : (forall i, any_order (ord i)) -> (forall i, any_order (ord' i)) -> so_limit o = 0 -> search_in re ord o rs = search_in re ord' o rs.
Proof.
  intros H H' L. destruct (search_cases ord o rs) as [[E _]|(b & _ & N & _)]; [|contradiction]. destruct (search_cases ord' o rs) as [[E' _]|(b & _ & N & _)]; [|contradiction]. rewrite E, E'.
  apply (stable_sorted_unique _ _ TPO_name); try apply all_true; try (apply (sort_chain _ _ TPO_name), all_true).
  - rewrite !sort_perm. apply everything_perm; assumption.
  - intros a _. assert (K : forall l, filter (fun y => is_eq (by_name a y)) l = filter (of_name (sr_name a)) l) by (intros l; rewrite of_name_eq; reflexivity). rewrite !K, !sorted_name, !everything_name by assumption. reflexivity.
Qed.
Definition unlimited (o : soptions) : soptions := mkSoptions (so_pattern o) (so_mode o) (so_range o) 0 (so_latest o).
Lemma everything_unlimited ord o rs : forall i, everything ord (unlimited o) i rs = everything ord o i rs.
Proof. induction rs as [|[repo ps] rs IH]; intros i; [reflexivity|]. cbn [everything]. rewrite IH. reflexivity. Qed.
Lemma search_limit ord o rs : so_limit o <> 0 ->
  length (search_in re ord o rs) = Nat.min (so_limit o) (length (search_in re ord (unlimited o) rs)) /\ incl (search_in re ord o rs) (search_in re ord (unlimited o) rs) /\
  (length (search_in re ord (unlimited o) rs) < so_limit o -> search_in re ord o rs = search_in re ord (unlimited o) rs).
Proof.
  intros N. destruct (search_cases ord (unlimited o) rs) as [[E _]|(b & _ & X & _)]; [|exfalso; apply X; reflexivity]. rewrite everything_unlimited in E. rewrite E, sort_length.
  destruct (search_cases ord o rs) as [[E' [L|L]]|(b & E' & _ & L)]; [contradiction| |].
  - rewrite E', sort_length. split; [lia|]. split; [apply incl_refl|reflexivity].
  - rewrite E' at 1. rewrite app_length. split; [lia|]. split; [intros x X; apply sort_in; rewrite E'; apply in_app_iff; now left|]. rewrite E' at 1. rewrite app_length. lia.
Qed.
Lemma search_bad_range ord o rs t : so_range o = Some t -> parse_range t = None -> search_in re ord o rs = search_in re ord (mkSoptions (so_pattern o) (so_mode o) None (so_limit o) (so_latest o)) rs.
Proof.
  intros R P. set (o' := mkSoptions _ _ None _ _).
  assert (A : forall m p, add_package re o m p = add_package re o' m p).
  { intros m p. unfold add_package, outside. rewrite R, P. cbn [o' so_range]. destruct (p_version p); reflexivity. }
  assert (G : forall ps m, fold_left (add_package re o) ps m = fold_left (add_package re o') ps m) by (induction ps as [|p ps IH]; intros m; [reflexivity|]; cbn [fold_left]; rewrite A; apply IH).
  assert (F : forall repo l acc, add_families o repo l acc = add_families o' repo l acc) by (intros repo l; induction l as [|e l IH]; intros acc; [reflexivity|]; cbn [add_families]; rewrite IH; reflexivity).
  assert (B : forall rs i acc, add_repos re ord o i rs acc = add_repos re ord o' i rs acc).
  { clear rs. intros rs. induction rs as [|[repo ps] rs IH]; intros i acc; [reflexivity|]. cbn [add_repos]. rewrite G, F. destruct (add_families o' repo _ acc) as [[|] acc']; [reflexivity|apply IH]. }
  unfold search_in. rewrite B. reflexivity.
Qed.

(** ** The question for the empty name *)
Lemma all_packages_none root : (forall p, In p (packages_of root) -> p_name p <> []) -> all_packages root = [].
Proof.
  intros H. unfold all_packages, find_all, fresh. cbn [map collect]. unfold find_packages. cbn [cold rs_cache rs_errors aget]. rewrite scan_warm. destruct (listable root) eqn:L; [|reflexivity].
  destruct (aget [] (rs_errors (warm root))); [reflexivity|]. rewrite warm_cache by exact L. assert (E : held root [] = []).
  { unfold held, named. destruct (filter _ (packages_of root)) as [|p l] eqn:E; [reflexivity|]. exfalso. assert (K : In p (p :: l)) by now left. rewrite <- E in K. apply filter_In in K. destruct K as [K1 K2]. apply text_eqb_eq in K2. apply (H p K1). congruence. }
  rewrite E. reflexivity.
Qed.
Lemma search_nothing ord o rs : (forall i, any_order (ord i)) -> (forall r p, In r rs -> In p (packages_of (snd r)) -> p_name p <> []) -> search re ord o rs = [].
Proof.
  intros HO H. unfold search. assert (E : everything ord o 0 (map (fun r => (fst r, all_packages (snd r))) rs) = []).
  { generalize 0. induction rs as [|r rs IH]; intros i; [reflexivity|]. cbn [map everything fst snd]. rewrite all_packages_none by (intros p P; apply (H r p); [now left|exact P]). cbn [grouped fold_left].
    rewrite IH by (intros x p X P; apply (H x p); [now right|exact P]). pose proof (HO i []) as K. symmetry in K. apply Permutation_nil in K. rewrite app_nil_r. unfold grouped. cbn [fold_left]. rewrite K. reflexivity. }
  destruct (search_cases ord o (map (fun r => (fst r, all_packages (snd r))) rs)) as [[K _]|(b & K & _ & _)]; rewrite E in K; [exact K|]. destruct (search_in re ord o _); [reflexivity|discriminate].
Qed.
End Search.

Lemma find_none roots : (forall root p, In root roots -> In p (packages_of root) -> p_name p <> []) -> fst (find_all [] (fresh roots)) = Ok [] \/ fst (find_all [] (fresh roots)) = Err.
Proof.
  intros H. unfold find_all. assert (K : fst (collect [] (fresh roots)) = Ok [] \/ fst (collect [] (fresh roots)) = Err).
  { induction roots as [|r roots IH]; [left; reflexivity|]. cbn [fresh map collect]. pose proof (all_packages_none r (fun p => H r p (or_introl eq_refl))) as A. unfold all_packages, find_all, fresh in A. cbn [map collect] in A.
    destruct (find_packages r [] cold) as [[l|] s] eqn:E; [|right; reflexivity]. cbn [app] in A. assert (L : l = []) by (rewrite app_nil_r in A; apply (sort_nil descending), A). subst l.
    specialize (IH (fun x p X => H x p (or_intror X))). unfold fresh in IH. destruct (collect [] (map (fun r => (r, cold)) roots)) as [[l|] m]; cbn [fst app] in *; [|right; reflexivity]. destruct IH as [IH|IH]; [injection IH as ->; left; reflexivity|discriminate]. }
  destruct (collect [] (fresh roots)) as [[l|] m]; cbn [fst] in *; [|now right]. destruct K as [K|K]; [injection K as ->; left; reflexivity|discriminate].
Qed.
Lemma depends_nothing fuel target max roots : (forall root p, In root roots -> In p (packages_of root) -> p_name p <> []) -> exists m, depends (S fuel) target max roots = Some (Ok [], m) \/ depends (S fuel) target max roots = Some (Err, m).
Proof.
  intros H. unfold depends. cbn [dequeue]. destruct (match max with Some d => Nat.leb d 0 | None => false end).
  - exists (fresh roots). left. destruct fuel; reflexivity.
  - unfold find_package_dependents. destruct (find_none roots H) as [K|K]; destruct (find_all [] (fresh roots)) as [a m]; cbn [fst] in K; subst a; exists m; [left|right; reflexivity]. cbn. destruct fuel; reflexivity.
Qed.
