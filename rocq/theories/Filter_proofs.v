(** Proofs about the package filters. *)
From Verif Require Import Base Base_lemmas Text_lemmas Version_model Range_model Range_compat Requirement_model Requirement_spec Requirement_text Order_spec Graph_proofs
  Filter_model Filter_spec.

(** ** Exclusion *)
Lemma pexcludes_loop_some re inc p : forall ex d, pexcludes_loop re inc ex p = Some d ->
  exists a b, ex = a ++ d :: b /\ pod_matches re d p = true /\ (forall i, In i inc -> pod_matches re i p = false) /\ forall x, In x a -> pod_matches re x p = false.
Proof.
  induction ex as [|x ex IH]; intros d H; cbn [pexcludes_loop] in H; [discriminate|].
  destruct (pod_matches re x p) eqn:Ex, (existsb (fun i => pod_matches re i p) inc) eqn:Ei; cbn [andb negb] in H.
  - destruct (IH d H) as (a & b & _ & _ & K & _). apply existsb_exists in Ei as (i & Hi & Ei). rewrite (K i Hi) in Ei. discriminate.
  - injection H as <-. exists [], ex. split; [reflexivity|]. split; [exact Ex|]. split; [|intros _ []]. intros i Hi.
    destruct (pod_matches re i p) eqn:E; [|reflexivity]. rewrite <- Ei. symmetry. apply existsb_exists. exists i. auto.
  - destruct (IH d H) as (a & b & -> & K1 & K2 & K3). exists (x :: a), b. repeat split; auto. intros y [<-|Hy]; auto.
  - destruct (IH d H) as (a & b & -> & K1 & K2 & K3). exists (x :: a), b. repeat split; auto. intros y [<-|Hy]; auto.
Qed.
Lemma pexcludes_loop_none re inc p : forall ex, pexcludes_loop re inc ex p = None ->
  (exists i, In i inc /\ pod_matches re i p = true) \/ forall x, In x ex -> pod_matches re x p = false.
Proof.
  induction ex as [|x ex IH]; cbn [pexcludes_loop]; [intros _; right; intros x []|]. intros H.
  destruct (pod_matches re x p) eqn:Ex, (existsb (fun i => pod_matches re i p) inc) eqn:Ei; cbn [andb negb] in H; try discriminate.
  - left. apply existsb_exists in Ei as (i & Hi & E). eauto.
  - left. apply existsb_exists in Ei as (i & Hi & E). eauto.
  - destruct (IH H) as [K|K]; [left; exact K|]. right. intros y [<-|Hy]; auto.
Qed.
Lemma pexcludes_iff re f p : (exists d, pexcludes re f p = Some d) <-> hides (fun d p => pod_matches re d p = true) (pf_ex f) (pf_in f) p.
Proof.
  unfold pexcludes. split.
  - intros [d H]. apply pexcludes_loop_some in H as (a & b & E & K1 & K2 & _). split; [exists d; rewrite E; auto using in_or_app, in_eq|].
    intros r Hr. rewrite (K2 r Hr). discriminate.
  - intros [(r & Hr & E) H]. destruct (pexcludes_loop re (pf_in f) (pf_ex f) p) as [d|] eqn:El; [eauto|]. exfalso.
    apply pexcludes_loop_none in El as [(i & Hi & Ei)|K]; [exact (H i Hi Ei)|]. rewrite (K r Hr) in E. discriminate.
Qed.
Lemma pincludes_iff re f p : pincludes re f p = true <-> ~ hides (fun d p => pod_matches re d p = true) (pf_ex f) (pf_in f) p.
Proof.
  unfold pincludes. rewrite <- pexcludes_iff. destruct (existsb _ (pf_in f)) eqn:Ei.
  - split; [|reflexivity]. intros _ H. apply pexcludes_iff in H as [_ H]. apply existsb_exists in Ei as (i & Hi & E). exact (H i Hi E).
  - destruct (pexcludes re f p) as [d|]; split; intros H; try discriminate; try reflexivity.
    + exfalso. apply H. eauto.
    + intros [d K]. discriminate.
Qed.

Lemma key_eqb_eq a b : key_eqb a b = true <-> a = b.
Proof.
  destruct a as [a|], b as [b|]; cbn; try (split; congruence). rewrite text_eqb_eq. split; congruence.
Qed.
Lemma rget_in m k r : proper_map m -> (In r (rget k m) <-> exists rs, In (k, rs) m /\ In r rs).
Proof.
  unfold proper_map. induction m as [|[k' rs] m IH]; cbn [rget map fst]; intros Hn.
  - split; [intros []|intros (rs & [] & _)].
  - inversion Hn as [|? ? Hx Hn']; subst. destruct (key_eqb k k') eqn:E.
    + apply key_eqb_eq in E as ->. split; [intros H; exists rs; auto using in_eq|]. intros (rs' & [[= <-]|Hi] & Hr); [exact Hr|].
      exfalso. apply Hx. apply (in_map fst) in Hi. exact Hi.
    + rewrite (IH Hn'). split; intros (rs' & Hi & Hr); exists rs'; (split; [|exact Hr]); [right; exact Hi|].
      destruct Hi as [[= -> ->]|Hi]; [|exact Hi]. assert (key_eqb k k = true) as K by (apply key_eqb_eq; reflexivity). congruence.
Qed.
Lemma concerned m name r : proper_map m -> (In r (rget (Some name) m ++ rget None m) <-> concerns m name r).
Proof.
  intros Hm. rewrite in_app_iff, !(rget_in m _ r Hm). split.
  - intros [(rs & H1 & H2)|(rs & H1 & H2)]; [exists (Some name), rs|exists None, rs]; auto.
  - intros (k & rs & H1 & H2 & [->| ->]); [right|left]; exists rs; auto.
Qed.
Lemma excludes_iff gl re f p : proper_map (f_ex f) -> proper_map (f_in f) ->
  (excludes gl re f p = true <->
   (exists r, concerns (f_ex f) (fp_name p) r /\ rmatches gl re r p = true) /\
   forall r, concerns (f_in f) (fp_name p) r -> rmatches gl re r p = false).
Proof.
  intros Hx Hi. unfold excludes.
  destruct (existsb _ (rget (Some (fp_name p)) (f_ex f) ++ _)) eqn:Ex; cbn [negb].
  - rewrite negb_true_iff. split.
    + intros H. split.
      * apply existsb_exists in Ex as (r & Hr & E). exists r. split; [apply concerned; auto|exact E].
      * intros r Hr. destruct (rmatches gl re r p) eqn:E; [|reflexivity]. rewrite <- H. symmetry. apply existsb_exists. exists r. split; [apply concerned; auto|exact E].
    + intros [_ H]. destruct (existsb _ (rget (Some (fp_name p)) (f_in f) ++ _)) eqn:E; [|reflexivity]. apply existsb_exists in E as (r & Hr & E). rewrite (H r) in E; [discriminate|]. apply concerned; auto.
  - split; [discriminate|]. intros [(r & Hr & E) _]. rewrite <- Ex. apply existsb_exists. exists r. split; [apply concerned; auto|exact E].
Qed.
Lemma rpush_keys k r m : map fst (rpush k r m) = map fst m \/ (map fst (rpush k r m) = map fst m ++ [k] /\ ~ In k (map fst m)).
Proof.
  induction m as [|[k' rs] m IH]; cbn [rpush map fst]; [right; auto|]. destruct (key_eqb k k') eqn:E; cbn [map fst]; [left; reflexivity|].
  destruct IH as [->|[-> H]]; [left; reflexivity|right]. split; [reflexivity|]. intros [->|K]; [|exact (H K)].
  assert (key_eqb k k = true) as K by (apply key_eqb_eq; reflexivity). congruence.
Qed.
Lemma rpush_proper k r m : proper_map m -> proper_map (rpush k r m).
Proof.
  unfold proper_map. intros H. destruct (rpush_keys k r m) as [->|[-> Hk]]; [exact H|]. apply nodup_snoc; assumption.
Qed.

(** ** Texts of the package-filter crate *)
Lemma strip_last_app c x : strip_last c (x ++ [c]) = Some x.
Proof. unfold strip_last. rewrite rev_app_distr. cbn. rewrite Ascii.eqb_refl, rev_involutive. reflexivity. Qed.
Lemma inside_app head x : inside head (head ++ x ++ T ")") = Some x.
Proof. unfold inside. rewrite strip_prefix_app. apply strip_last_app. Qed.
Lemma field_no_colon f : ~ In ":"%char (field_text f).
Proof. destruct f; cbn; intuition discriminate. Qed.
Lemma pod_read re r : kept_rule re r -> parse_prule re (pod_text (rule_pod r)) = Some r.
Proof.
  destruct r as [pat f|pat f|q [f|]|ts b]; cbn [kept_rule].
  - intros Hp.
    assert (parse_prule re (pod_text (rule_pod (PGlob pat f))) = parse_glob (T "glob(" ++ (field_text f ++ ":"%char :: pat) ++ T ")")) as -> by reflexivity.
    unfold parse_glob, split_field. rewrite inside_app, (find_char_app ":" _ _ (field_no_colon f)). destruct pat as [|c pat]; [congruence|].
    destruct f; cbn; reflexivity.
  - intros [Hp Hf].
    assert (parse_prule re (pod_text (rule_pod (PRegex pat f))) = parse_regex re (T "regex(" ++ (field_text f ++ ":"%char :: pat) ++ T ")")) as -> by reflexivity.
    unfold parse_regex, split_field. rewrite inside_app, (find_char_app ":" _ _ (field_no_colon f)). unfold new_regex.
    destruct (re pat); [|congruence]. destruct f; [reflexivity|congruence|reflexivity].
  - intros [Hp Hf].
    assert (parse_prule re (pod_text (rule_pod (PRange q (Some f)))) = parse_prange (T "range(" ++ ((f ++ T "-") ++ r_str q) ++ T ")")) as -> by reflexivity.
    unfold parse_prange. rewrite strip_prefix_app. change (T ")") with [")"%char]. rewrite strip_last_app.
    unfold parse_family_range. replace ((f ++ T "-") ++ r_str q) with (f ++ "-"%char :: r_str q) by (rewrite <- app_assoc; reflexivity).
    rewrite (find_char_app "-" f (r_str q) Hf), Hp. reflexivity.
  - intros [Hp Hf].
    assert (parse_prule re (pod_text (rule_pod (PRange q None))) = parse_prange (T "range(" ++ r_str q ++ T ")")) as -> by reflexivity.
    unfold parse_prange. rewrite strip_prefix_app. change (T ")") with [")"%char]. rewrite strip_last_app.
    unfold parse_family_range, new_range. rewrite Hp. destruct (find_char "-" (r_str q)) as [[f s]|] eqn:E; [|reflexivity].
    apply find_char_some in E as [E K]. rewrite (Hf f s E K). reflexivity.
  - intros Ht. pose proof (parse_i64_show ts) as K. apply N.leb_le in Ht. rewrite Ht in K.
    destruct b.
    + assert (parse_prule re (pod_text (rule_pod (PTime ts true))) = parse_ptime (T "before(" ++ show_N ts ++ T ")")) as -> by reflexivity.
      unfold parse_ptime. rewrite strip_prefix_app. change (T ")") with [")"%char]. rewrite strip_last_app. cbv beta iota. rewrite K.
      destruct (Z.ltb_spec (Z.of_N ts) 0); [lia|]. rewrite N2Z.id. reflexivity.
    + assert (parse_prule re (pod_text (rule_pod (PTime ts false))) = parse_ptime (T "after(" ++ show_N ts ++ T ")")) as -> by reflexivity.
      unfold parse_ptime. rewrite inside_app. assert (forall x, strip_prefix (T "before(") (T "after(" ++ x) = None) as -> by reflexivity. cbv beta iota. rewrite K.
      destruct (Z.ltb_spec (Z.of_N ts) 0); [lia|]. rewrite N2Z.id. reflexivity.
Qed.
Lemma new_glob_kept re pat f r : new_glob pat f = Some r -> kept_rule re r.
Proof. unfold new_glob. destruct pat; [discriminate|]. intros [= <-]. cbn. discriminate. Qed.
Lemma new_regex_kept re pat f r : f <> FVersion -> new_regex re pat f = Some r -> kept_rule re r.
Proof. unfold new_regex. intros Hf. destruct (re pat) eqn:E; [|discriminate]. intros [= <-]. cbn. split; [congruence|exact Hf]. Qed.
Lemma parse_range_str_text s r : parse_range s = Some r -> r_str r = s.
Proof. unfold parse_range. destruct (parse_range_str (trim s)); [|discriminate]. intros [= <-]. reflexivity. Qed.
Lemma family_range_kept re x r : parse_family_range x = Some r -> kept_rule re r.
Proof.
  unfold parse_family_range, new_range. destruct (find_char "-" x) as [[f s]|] eqn:E.
  - apply find_char_some in E as [-> Hf]. destruct (parse_range s) as [q|] eqn:Eq.
    + intros [= <-]. cbn. rewrite (parse_range_str_text s q Eq). auto.
    + destruct (parse_range (f ++ "-"%char :: s)) as [q|] eqn:Eq'; [|discriminate]. intros [= <-]. cbn. rewrite (parse_range_str_text _ q Eq').
      split; [exact Eq'|]. intros f' s' E' Hf'. assert (find_char "-" (f ++ "-"%char :: s) = Some (f', s')) as K by (rewrite E'; apply find_char_app; exact Hf').
      rewrite (find_char_app "-" f s Hf) in K. injection K as <- <-. exact Eq.
  - destruct (parse_range x) as [q|] eqn:Eq; [|discriminate]. intros [= <-]. cbn. rewrite (parse_range_str_text x q Eq). split; [exact Eq|].
    intros f s Hx Hf. assert (find_char "-" x = Some (f, s)) as K by (rewrite Hx; apply find_char_app; exact Hf). congruence.
Qed.
Lemma parse_i64_max t z : parse_i64 t = Some z -> (z <= Z.of_N I64_MAX)%Z.
Proof.
  unfold parse_i64. destruct (match t with [] => _ | c :: s' => _ end) as [neg d]. destruct (negb (is_nil d) && forallb is_digit d); [|discriminate].
  destruct neg.
  - destruct (_ <=? _)%N; [|discriminate]. intros [= <-]. unfold I64_MAX. lia.
  - destruct (N.leb_spec (digits_val d) I64_MAX); [|discriminate]. intros [= <-]. lia.
Qed.
Lemma parse_time_kept re s r : parse_ptime s = Some r -> kept_rule re r.
Proof.
  unfold parse_ptime. destruct (match strip_prefix _ s with Some x => _ | None => _ end) as [[b x]|]; [|discriminate].
  destruct (parse_i64 x) as [z|] eqn:E; [|discriminate]. apply parse_i64_max in E. destruct (Z.ltb_spec z 0); [discriminate|]. intros [= <-]. cbn [kept_rule]. lia.
Qed.
Lemma parse_range_kept re s r : parse_prange s = Some r -> kept_rule re r.
Proof. unfold parse_prange. destruct (match strip_prefix _ s with Some x => _ | None => _ end); [apply family_range_kept|discriminate]. Qed.
Lemma parse_kept re s r : parse_prule re s = Some r -> kept_rule re r.
Proof.
  unfold parse_prule.
  destruct (starts_with (T "glob(") s).
  { unfold parse_glob. destruct (inside _ s) as [x|]; [|discriminate]. destruct (split_field x) as [[f pat]|]; [|apply new_glob_kept].
    repeat match goal with |- context [if ?b then _ else _] => destruct b end; try apply new_glob_kept. discriminate. }
  destruct (starts_with (T "regex(") s).
  { unfold parse_regex. destruct (inside _ s) as [x|]; [|discriminate]. destruct (split_field x) as [[f pat]|]; [|apply new_regex_kept; discriminate].
    repeat match goal with |- context [if ?b then _ else _] => destruct b end; try (apply new_regex_kept; discriminate). discriminate. }
  destruct (starts_with (T "range(") s); [apply parse_range_kept|].
  destruct (starts_with (T "before(") s); [apply parse_time_kept|]. destruct (starts_with (T "after(") s); [apply parse_time_kept|].
  destruct (_ || _); [apply new_glob_kept|apply parse_range_kept].
Qed.
(** what a filter built from texts contains *)
Definition readable (re : text -> option (text -> bool)) (d : pod) : Prop := exists r, kept_rule re r /\ d = rule_pod r.
Lemma padd_ex_shape re ts : forall f f', padd_ex_texts re ts f = Some f' ->
  exists ds, pf_ex f' = pf_ex f ++ ds /\ pf_in f' = pf_in f /\ forall d, In d ds -> readable re d.
Proof.
  induction ts as [|t ts IH]; intros f f'; cbn [padd_ex_texts].
  - intros [= <-]. exists []. rewrite app_nil_r. repeat split; auto. intros d [].
  - destruct (parse_prule re t) as [r|] eqn:E; [|discriminate]. intros H. destruct (IH _ _ H) as (ds & E1 & E2 & E3). exists (rule_pod r :: ds).
    cbn [padd_ex pf_ex pf_in] in *. rewrite E1, <- app_assoc. repeat split; auto. intros d [<-|Hd]; [|auto]. exists r. split; [exact (parse_kept re t r E)|reflexivity].
Qed.
Lemma padd_in_shape re ts : forall f f', padd_in_texts re ts f = Some f' ->
  exists ds, pf_in f' = pf_in f ++ ds /\ pf_ex f' = pf_ex f /\ forall d, In d ds -> readable re d.
Proof.
  induction ts as [|t ts IH]; intros f f'; cbn [padd_in_texts].
  - intros [= <-]. exists []. rewrite app_nil_r. repeat split; auto. intros d [].
  - destruct (parse_prule re t) as [r|] eqn:E; [|discriminate]. intros H. destruct (IH _ _ H) as (ds & E1 & E2 & E3). exists (rule_pod r :: ds).
    cbn [padd_in pf_ex pf_in] in *. rewrite E1, <- app_assoc. repeat split; auto. intros d [<-|Hd]; [|auto]. exists r. split; [exact (parse_kept re t r E)|reflexivity].
Qed.
Lemma readd_ex re ds : (forall d, In d ds -> readable re d) -> forall f,
  padd_ex_texts re (map pod_text ds) f = Some (mkPfilter (pf_ex f ++ ds) (pf_in f)).
Proof.
  induction ds as [|d ds IH]; intros H f; cbn [map padd_ex_texts]; [rewrite app_nil_r; destruct f; reflexivity|].
  destruct (H d (or_introl eq_refl)) as (r & Hr & ->). rewrite (pod_read re r Hr), IH; [|intros x Hx; apply H; right; exact Hx].
  cbn [padd_ex pf_ex pf_in]. rewrite <- app_assoc. reflexivity.
Qed.
Lemma readd_in re ds : (forall d, In d ds -> readable re d) -> forall f,
  padd_in_texts re (map pod_text ds) f = Some (mkPfilter (pf_ex f) (pf_in f ++ ds)).
Proof.
  induction ds as [|d ds IH]; intros H f; cbn [map padd_in_texts]; [rewrite app_nil_r; destruct f; reflexivity|].
  destruct (H d (or_introl eq_refl)) as (r & Hr & ->). rewrite (pod_read re r Hr), IH; [|intros x Hx; apply H; right; exact Hx].
  cbn [padd_in pf_ex pf_in]. rewrite <- app_assoc. reflexivity.
Qed.
Lemma pods_roundtrip re f : (forall d, In d (pf_ex f ++ pf_in f) -> readable re d) -> pfrom_pod re (pto_pod f) = Some f.
Proof.
  intros H. unfold pfrom_pod, pto_pod. cbn [fst snd]. rewrite readd_ex by (intros d Hd; apply H, in_or_app; left; exact Hd).
  rewrite readd_in by (intros d Hd; apply H, in_or_app; right; exact Hd). destruct f. reflexivity.
Qed.
Lemma texts_roundtrip re ex inc f : pfrom_pod re (ex, inc) = Some f -> pfrom_pod re (pto_pod f) = Some f.
Proof.
  unfold pfrom_pod at 1. cbn [fst snd]. destruct (padd_ex_texts re ex no_pfilter) as [g|] eqn:E; [|discriminate]. intros H.
  destruct (padd_ex_shape re ex _ _ E) as (ds & E1 & E2 & E3). destruct (padd_in_shape re inc _ _ H) as (ds' & E4 & E5 & E6).
  apply pods_roundtrip. rewrite E4, E5, E1, E2. cbn. intros d Hd. apply in_app_or in Hd as [Hd|Hd]; auto.
Qed.
Lemma rules_roundtrip re (rs is : list prule) :
  (forall r, In r (rs ++ is) -> kept_rule re r) ->
  let f := fold_left (fun f r => padd_in r f) is (fold_left (fun f r => padd_ex r f) rs no_pfilter) in
  pfrom_pod re (pto_pod f) = Some f /\
  (forall p, (exists d, pexcludes re f p = Some d) <-> hides (fun r p => papply re r p = true) rs is p).
Proof.
  intros H. cbv zeta. set (f := fold_left _ is _).
  assert (f = mkPfilter (map rule_pod rs) (map rule_pod is)) as Ef.
  { unfold f. assert (forall l g, fold_left (fun f r => padd_ex r f) l g = mkPfilter (pf_ex g ++ map rule_pod l) (pf_in g)) as K1.
    { induction l as [|x l IH]; intros g; cbn [fold_left map]; [rewrite app_nil_r; destruct g; reflexivity|]. rewrite IH. cbn. rewrite <- app_assoc. reflexivity. }
    assert (forall l g, fold_left (fun f r => padd_in r f) l g = mkPfilter (pf_ex g) (pf_in g ++ map rule_pod l)) as K2.
    { induction l as [|x l IH]; intros g; cbn [fold_left map]; [rewrite app_nil_r; destruct g; reflexivity|]. rewrite IH. cbn. rewrite <- app_assoc. reflexivity. }
    rewrite K1, K2. reflexivity. }
  assert (forall r p, In r (rs ++ is) -> pod_matches re (rule_pod r) p = papply re r p) as Hm by (intros r p Hr; unfold pod_matches; rewrite (pod_read re r (H r Hr)); reflexivity).
  split.
  - apply pods_roundtrip. rewrite Ef. cbn [pf_ex pf_in]. intros d Hd. rewrite <- map_app in Hd. apply in_map_iff in Hd as (r & <- & Hr). exists r. auto.
  - intros p. rewrite pexcludes_iff, Ef. cbn [pf_ex pf_in]. unfold hides. split; intros [(x & Hx & E) K]; split.
    + apply in_map_iff in Hx as (r & <- & Hr). exists r. split; [exact Hr|]. rewrite <- E. symmetry. apply Hm, in_or_app. left. exact Hr.
    + intros r Hr E'. apply (K (rule_pod r)); [apply in_map, Hr|]. rewrite Hm; [exact E'|apply in_or_app; right; exact Hr].
    + exists (rule_pod x). split; [apply in_map, Hx|]. rewrite Hm; [exact E|apply in_or_app; left; exact Hx].
    + intros d Hd E'. apply in_map_iff in Hd as (r & <- & Hr). apply (K r Hr). rewrite <- E'. symmetry. apply Hm, in_or_app. right. exact Hr.
Qed.

(** ** Texts of the package crate *)
Lemma starts_with_app p s : starts_with p (p ++ s) = true.
Proof. induction p as [|c p IH]; cbn; [reflexivity|]. rewrite Ascii.eqb_refl. exact IH. Qed.
Lemma between_app head x : between head (head ++ x ++ T ")") = Some x.
Proof.
  unfold between, ends_with. rewrite starts_with_app. rewrite !rev_app_distr. cbn [T list_ascii_of_string rev app starts_with]. rewrite Ascii.eqb_refl. cbn [andb].
  rewrite !app_length. cbn [length]. rewrite skipn_app, skipn_all, Nat.sub_diag. cbn [skipn app].
  replace (length head + (length x + 1) - 1 - length head) with (length x) by lia. rewrite firstn_app, firstn_all, Nat.sub_diag. cbn [firstn]. rewrite app_nil_r. reflexivity.
Qed.
Lemma between_head head head' x : starts_with head (head' ++ x) = false -> between head (head' ++ x) = None.
Proof. intros H. unfold between. rewrite H. reflexivity. Qed.
Lemma trim_rule c head x : is_ws c = false -> trim ((c :: head) ++ x ++ T ")") = (c :: head) ++ x ++ T ")".
Proof. intros H. rewrite app_assoc. cbn [app]. apply trim_ends; [exact H|reflexivity]. Qed.
Lemma rule_read gl re r : keeps gl re r -> parse_rule gl re (rule_text r) = Some r.
Proof.
  destruct r as [pat|pat|q|ts i b]; cbn [keeps rule_text]; intros H; [| | |contradiction]; unfold parse_rule.
  - replace (trim (T "glob(" ++ pat ++ T ")")) with (T "glob(" ++ pat ++ T ")") by (symmetry; apply trim_rule; reflexivity).
    rewrite between_app. destruct (gl pat); [reflexivity|congruence].
  - replace (trim (T "regex(" ++ pat ++ T ")")) with (T "regex(" ++ pat ++ T ")") by (symmetry; apply trim_rule; reflexivity).
    rewrite between_head by reflexivity. rewrite between_app. destruct (re pat); [reflexivity|congruence].
  - replace (trim (T "range(" ++ show_requirement q ++ T ")")) with (T "range(" ++ show_requirement q ++ T ")") by (symmetry; apply trim_rule; reflexivity).
    rewrite between_head by reflexivity. rewrite between_head by reflexivity. rewrite between_app, (show_parse_printable q H). reflexivity.
Qed.
Lemma rpush_global r m : global m -> proper_map m -> rpush None r m = [(None, rget None m ++ [r])].
Proof.
  intros Hg Hp. destruct m as [|[k rs] m]; [reflexivity|]. pose proof (Hg k rs (or_introl eq_refl)) as ->. cbn [rpush rget key_eqb].
  destruct m as [|[k' rs'] m]; [reflexivity|]. pose proof (Hg k' rs' (or_intror (or_introl eq_refl))) as ->.
  unfold proper_map in Hp. cbn in Hp. inversion Hp as [|? ? Hx _]; subst. exfalso. apply Hx. left. reflexivity.
Qed.
Lemma global_shape m : global m -> proper_map m -> m = [] \/ exists rs, m = [(None, rs)].
Proof.
  intros Hg Hp. destruct m as [|[k rs] m]; [left; reflexivity|right]. pose proof (Hg k rs (or_introl eq_refl)) as ->.
  destruct m as [|[k' rs'] m]; [eauto|]. pose proof (Hg k' rs' (or_intror (or_introl eq_refl))) as ->.
  unfold proper_map in Hp. cbn in Hp. inversion Hp as [|? ? Hx _]; subst. exfalso. apply Hx. left. reflexivity.
Qed.
Lemma push_all (gl re : text -> option (text -> bool)) rs : forall m rs0, (m = [] /\ rs0 = [] \/ m = [(None, rs0)]) ->
  fold_left (fun m r => rpush None r m) rs m = match rs with [] => m | _ => [(None, rs0 ++ rs)] end.
Proof.
  induction rs as [|r rs IH]; intros m rs0 H; cbn [fold_left]; [reflexivity|].
  assert (rpush None r m = [(None, rs0 ++ [r])]) as -> by (destruct H as [[-> ->]| ->]; reflexivity).
  rewrite (IH _ (rs0 ++ [r])) by (right; reflexivity). destruct rs; [reflexivity|]. rewrite <- app_assoc. reflexivity.
Qed.
Lemma add_ex_texts gl re rs : (forall r, In r rs -> keeps gl re r) -> forall f,
  add_texts gl re (add_ex None) (map rule_text rs) f = Some (mkFilter (fold_left (fun m r => rpush None r m) rs (f_ex f)) (f_in f)).
Proof.
  induction rs as [|r rs IH]; intros H f; cbn [map add_texts fold_left]; [destruct f; reflexivity|]. rewrite (rule_read gl re r) by auto using in_eq.
  rewrite IH by auto using in_cons. reflexivity.
Qed.
Lemma add_in_texts gl re rs : (forall r, In r rs -> keeps gl re r) -> forall f,
  add_texts gl re (add_in None) (map rule_text rs) f = Some (mkFilter (f_ex f) (fold_left (fun m r => rpush None r m) rs (f_in f))).
Proof.
  induction rs as [|r rs IH]; intros H f; cbn [map add_texts fold_left]; [destruct f; reflexivity|]. rewrite (rule_read gl re r) by auto using in_eq.
  rewrite IH by auto using in_cons. reflexivity.
Qed.
Lemma flat_one ord (m : rmap) : any_order ord -> global m -> proper_map m -> flat_map snd (ord m) = rget None m.
Proof.
  intros Ho Hg Hp. pose proof (Ho m) as P. destruct (global_shape m Hg Hp) as [->|[rs ->]].
  - apply Permutation_sym, Permutation_nil in P. rewrite P. reflexivity.
  - apply Permutation_sym, Permutation_length_1_inv in P. rewrite P. cbn. rewrite app_nil_r. reflexivity.
Qed.
Lemma filter_roundtrip gl re ord f : any_order ord -> global (f_ex f) -> global (f_in f) -> proper_map (f_ex f) -> proper_map (f_in f) ->
  (forall r, In r (rget None (f_ex f) ++ rget None (f_in f)) -> keeps gl re r) ->
  exists f', from_pod gl re (to_pod ord f) = Some f' /\ forall p, excludes gl re f' p = excludes gl re f p.
Proof.
  intros Ho Hx Hi Px Pi H. unfold from_pod, to_pod. cbn [fst snd]. rewrite (flat_one ord _ Ho Hx Px), (flat_one ord _ Ho Hi Pi).
  rewrite (add_ex_texts gl re) by (intros r Hr; apply H, in_or_app; left; exact Hr). rewrite (add_in_texts gl re) by (intros r Hr; apply H, in_or_app; right; exact Hr).
  eexists. split; [reflexivity|]. intros p. unfold excludes. cbn [f_ex f_in no_filter].
  assert (forall m k, global m -> proper_map m -> rget k (fold_left (fun m r => rpush None r m) (rget None m) []) = rget k m) as K.
  { intros m k Hg Hp. destruct (global_shape m Hg Hp) as [->|[rs ->]]; [reflexivity|]. cbn [rget key_eqb]. rewrite (push_all gl re rs [] []) by auto.
    destruct rs as [|r rs]; [destruct k; reflexivity|reflexivity]. }
  rewrite !K by assumption. reflexivity.
Qed.

(** ** Globs *)
Lemma special_same c : c <> "*"%char -> c <> "?"%char -> c <> "\"%char ->
  re_special c = glob_special c /\ (glob_special c = false -> Ascii.eqb c "$" = false /\ Ascii.eqb c "." = false).
Proof.
  intros H1 H2 H3. unfold re_special, glob_special. cbn [existsb T list_ascii_of_string].
  destruct (Ascii.eqb_spec c "*"); [congruence|]. destruct (Ascii.eqb_spec c "?"); [congruence|]. destruct (Ascii.eqb_spec c "\"); [congruence|].
  cbn [orb]. rewrite !orb_false_r. split; [reflexivity|]. rewrite !orb_false_iff. intuition.
Qed.
Lemma glob_body pat : ~ In "\"%char pat -> exists l,
  re_fragment (glob_regex pat) = Some l /\ forall s, ~ In line_feed s -> (re_match l s <-> glob_match pat s).
Proof.
  unfold glob_regex, re_fragment. cbn [T list_ascii_of_string app].
  rewrite Ascii.eqb_refl. induction pat as [|c pat IH]; intros Hb; cbn [flat_map app].
  - exists []. split; [reflexivity|]. intros s _. split; intros H; inversion H; constructor.
  - destruct IH as (l & El & IH); [intros K; apply Hb; right; exact K|].
    assert (c <> "\"%char) as H3 by (intros ->; apply Hb; left; reflexivity).
    destruct (Ascii.eqb_spec c "*") as [->|H1]; [|destruct (Ascii.eqb_spec c "?") as [->|H2]].
    + exists (AAnys :: l). cbn [T list_ascii_of_string app]. split.
      { assert (forall x, re_body ("."%char :: "*"%char :: x) = match re_body x with Some l => Some (AAnys :: l) | None => None end) as -> by reflexivity. rewrite El. reflexivity. }
      intros s Hs. split; intros H; inversion H; subst; try congruence.
      * apply gm_star. apply IH; [|assumption]. intros K. apply Hs, in_or_app. right. exact K.
      * apply rm_anys; [intros K; apply Hs, in_or_app; left; exact K|]. apply IH; [|assumption]. intros K. apply Hs, in_or_app. right. exact K.
    + exists (AAny :: l). cbn [T list_ascii_of_string app]. split.
      * destruct (flat_map _ pat ++ ["$"%char]) as [|d r] eqn:Er; [destruct (flat_map _ pat); discriminate|].
        assert (d <> "*"%char) as Hd.
        { destruct pat as [|e pat]; cbn [flat_map app] in Er; [injection Er as <- _; discriminate|].
          destruct (Ascii.eqb_spec e "*"); [|destruct (Ascii.eqb_spec e "?"); [|destruct (glob_special e)]]; cbn [app] in Er; injection Er as <- _; try discriminate; assumption. }
        assert (forall x, re_body ("."%char :: d :: x) = match re_body (d :: x) with Some l => Some (AAny :: l) | None => None end) as ->.
        { intros x. cbn [re_body]. destruct (Ascii.eqb_spec d "*"); [congruence|]. reflexivity. }
        rewrite El. reflexivity.
      * intros s Hs. split; intros H; inversion H; subst; try congruence.
        -- apply gm_any, IH; [|assumption]. intros K. apply Hs. right. exact K.
        -- apply rm_any; [intros ->; apply Hs; left; reflexivity|]. apply IH; [|assumption]. intros K. apply Hs. right. exact K.
    + exists (ALit c :: l). destruct (special_same c H1 H2 H3) as [Es En]. split.
      * destruct (glob_special c) eqn:Eg; cbn [T list_ascii_of_string app re_body].
        -- change (Ascii.eqb "\" "$") with false. rewrite Ascii.eqb_refl, Es, El. reflexivity.
        -- destruct (En eq_refl) as [K1 K2]. apply Ascii.eqb_neq in H3. rewrite K1, H3, K2, Es, El. reflexivity.
      * intros s Hs. split; intros H; inversion H; subst; try congruence.
        -- apply gm_char; auto. apply IH; [|assumption]. intros K. apply Hs. right. exact K.
        -- apply rm_lit, IH; [|assumption]. intros K. apply Hs. right. exact K.
Qed.
Lemma glob_meaning re pat s : faithful re -> ~ In "\"%char pat -> ~ In line_feed s -> (matches_glob re pat s = true <-> glob_match pat s).
Proof.
  intros Hf Hb Hs. destruct (glob_body pat Hb) as (l & El & H). destruct (Hf _ _ El) as (m & Em & Hm). unfold matches_glob. rewrite Em, Hm. apply H, Hs.
Qed.
(** an implementation of the fragment *)
Fixpoint re_run (l : list atom) (s : text) {struct l} : bool :=
  match l with
  | [] => is_nil s
  | ALit c :: l' => match s with d :: s' => Ascii.eqb c d && re_run l' s' | [] => false end
  | AAny :: l' => match s with d :: s' => negb (Ascii.eqb d line_feed) && re_run l' s' | [] => false end
  | AAnys :: l' => (fix go (s : text) : bool := re_run l' s || match s with d :: s' => negb (Ascii.eqb d line_feed) && go s' | [] => false end) s
  end.
Definition small_regex (s : text) : option (text -> bool) := match re_fragment s with Some l => Some (re_run l) | None => None end.
Lemma re_run_ok l : forall s, re_run l s = true <-> re_match l s.
Proof.
  induction l as [|[c| |] l IH]; intros s.
  - destruct s; cbn; split; intros H; try discriminate; try constructor. inversion H.
  - destruct s as [|d s]; cbn [re_run]; [split; intros H; inversion H|]. rewrite andb_true_iff, IH, Ascii.eqb_eq. split.
    + intros [-> H]. constructor. exact H.
    + intros H. inversion H; subst. auto.
  - destruct s as [|d s]; cbn [re_run]; [split; intros H; inversion H|]. rewrite andb_true_iff, IH, negb_true_iff, Ascii.eqb_neq. split.
    + intros [H1 H]. constructor; assumption.
    + intros H. inversion H; subst. auto.
  - cbn [re_run]. induction s as [|d s IHs].
    + rewrite orb_false_r, IH. split; [intros H; apply (rm_anys l [] []); [intros []|exact H]|]. intros H. inversion H as [| | |? a b Ha Hb El Es]; subst.
      destruct a; [|discriminate]. cbn in Es. subst b. exact Hb.
    + rewrite orb_true_iff, IH, andb_true_iff, IHs, negb_true_iff, Ascii.eqb_neq. split.
      * intros [H|[H1 H]]; [apply (rm_anys l [] (d :: s)); [intros []|exact H]|]. inversion H as [| | |? a b Ha Hb El Es]; subst.
        apply (rm_anys l (d :: a) b); [|exact Hb]. intros [->|K]; [congruence|exact (Ha K)].
      * intros H. inversion H as [| | |? a b Ha Hb El Es]; subst. destruct a as [|e a]; cbn in Es.
        -- left. subst b. exact Hb.
        -- injection Es as -> <-. right. split; [intros ->; apply Ha; left; reflexivity|]. constructor; [|exact Hb]. intros K. apply Ha. right. exact K.
Qed.
Lemma small_faithful : faithful small_regex.
Proof. intros s l E. unfold small_regex. rewrite E. eexists. split; [reflexivity|]. intros t. apply re_run_ok. Qed.

(** ** The text that is digested *)
Lemma cut_at (c : ascii) a b a' b' : ~ In c a -> ~ In c a' -> a ++ c :: b = a' ++ c :: b' -> a = a' /\ b = b'.
Proof.
  intros Ha Ha' E. assert (find_char c (a ++ c :: b) = find_char c (a' ++ c :: b')) as K by (rewrite E; reflexivity).
  rewrite !find_char_app in K by assumption. injection K. auto.
Qed.
Lemma join_inj (ps : list text) : forall qs, ps <> [] -> qs <> [] -> (forall p, In p ps -> ~ In ","%char p) -> (forall q, In q qs -> ~ In ","%char q) ->
  join (T ", ") ps = join (T ", ") qs -> ps = qs.
Proof.
  induction ps as [|p ps IH]; intros qs Hp Hq Cp Cq E; [congruence|]. destruct qs as [|q qs]; [congruence|].
  destruct ps as [|p' ps], qs as [|q' qs]; cbn [join] in E.
  - rewrite E. reflexivity.
  - exfalso. apply (Cp p (or_introl eq_refl)). rewrite E. apply in_or_app. right. left. reflexivity.
  - exfalso. apply (Cq q (or_introl eq_refl)). rewrite <- E. apply in_or_app. right. left. reflexivity.
  - cbn [T list_ascii_of_string app] in E. apply cut_at in E as [-> E]; [|apply Cp; left; reflexivity|apply Cq; left; reflexivity].
    injection E as E. f_equal. apply IH; auto using in_cons; discriminate.
Qed.
Definition pod_piece (d : pod) : text := pd_type d ++ T ":" ++ pd_pattern d.
Lemma lower_not c l : (forall x, In x l -> is_lower x = true) -> is_lower c = false -> ~ In c l.
Proof. intros H E K. rewrite (H c K) in E. discriminate. Qed.
Lemma piece_inj d d' : simple_pod d -> simple_pod d' -> pod_piece d = pod_piece d' -> d = d'.
Proof.
  intros (H1 & _) (H2 & _) E. unfold pod_piece in E. cbn [T list_ascii_of_string app] in E.
  apply cut_at in E as [E1 E2]; [|apply (lower_not _ _ H1); reflexivity|apply (lower_not _ _ H2); reflexivity]. destruct d, d'. cbn in *. congruence.
Qed.
Lemma piece_no c d : is_lower c = false -> c <> ":"%char -> ~ In c (pd_pattern d) -> simple_pod d -> ~ In c (pod_piece d).
Proof.
  intros Hc Hn Hp (H1 & _) K. unfold pod_piece in K. apply in_app_or in K as [K|[K|K]]; [exact (lower_not c _ H1 Hc K)|congruence|exact (Hp K)].
Qed.
Lemma pods_inj ds ds' : ds <> [] -> ds' <> [] -> (forall d, In d ds -> simple_pod d) -> (forall d, In d ds' -> simple_pod d) ->
  pods_text ds = pods_text ds' -> ds = ds'.
Proof.
  intros Hn Hn' H H' E. unfold pods_text in E. apply join_inj in E.
  - revert ds' Hn' H' E. clear Hn. induction ds as [|d ds IH]; intros [|d' ds'] Hn' H' E; try discriminate; [reflexivity|]. cbn [map] in E. injection E as E1 E2.
    f_equal; [apply piece_inj; auto using in_eq|]. destruct ds' as [|x ds']; [destruct ds; [reflexivity|discriminate]|].
    apply IH; auto using in_cons. discriminate.
  - destruct ds; [congruence|discriminate].
  - destruct ds'; [congruence|discriminate].
  - intros p Hp. apply in_map_iff in Hp as (d & <- & Hd). apply (piece_no "," d eq_refl); [discriminate|apply (H d Hd)|apply H, Hd].
  - intros p Hp. apply in_map_iff in Hp as (d & <- & Hd). apply (piece_no "," d eq_refl); [discriminate|apply (H' d Hd)|apply H', Hd].
Qed.
Lemma join_no (c : ascii) sep ps : ~ In c sep -> (forall p, In p ps -> ~ In c p) -> ~ In c (join sep ps).
Proof.
  intros Hs. induction ps as [|p ps IH]; intros H; cbn [join]; [intros []|]. destruct ps as [|q ps]; [apply H; left; reflexivity|].
  rewrite !in_app_iff. intros [K|[K|K]]; [exact (H p (or_introl eq_refl) K)|exact (Hs K)|]. apply IH in K; [exact K|]. intros x Hx. apply H. right. exact Hx.
Qed.
Lemma pods_no_bracket ds : (forall d, In d ds -> simple_pod d) -> ~ In "]"%char (pods_text ds).
Proof.
  intros H. apply join_no; [cbn; intuition discriminate|]. intros p Hp. apply in_map_iff in Hp as (d & <- & Hd).
  apply (piece_no "]" d eq_refl); [discriminate|apply (H d Hd)|apply H, Hd].
Qed.
Lemma filter_text_inj f g : simple_filter f -> simple_filter g -> pfilter_text f = pfilter_text g -> f = g.
Proof.
  intros Hf Hg E. destruct f as [ex inc], g as [ex' inc']. unfold simple_filter in *. cbn [pf_ex pf_in] in *.
  assert (forall d, In d ex -> simple_pod d) as X1 by (intros d Hd; apply Hf, in_or_app; auto).
  assert (forall d, In d inc -> simple_pod d) as X2 by (intros d Hd; apply Hf, in_or_app; auto).
  assert (forall d, In d ex' -> simple_pod d) as X3 by (intros d Hd; apply Hg, in_or_app; auto).
  assert (forall d, In d inc' -> simple_pod d) as X4 by (intros d Hd; apply Hg, in_or_app; auto).
  unfold pfilter_text in E. cbn [pf_ex pf_in] in E. apply app_inv_head in E.
  assert (forall i i', (forall d, In d i -> simple_pod d) -> (forall d, In d i' -> simple_pod d) -> forall x : text,
    (if is_nil i then [] else x ++ T "inclusions=[" ++ pods_text i ++ T "]") ++ T ")" = (if is_nil i' then [] else x ++ T "inclusions=[" ++ pods_text i' ++ T "]") ++ T ")" ->
    x = [] \/ x = T ", " -> i = i') as Inc.
  { intros i i' H1 H2 x E' Hx. destruct i as [|d i], i' as [|d' i']; cbn [is_nil] in E'.
    - reflexivity.
    - exfalso. apply (f_equal (@length ascii)) in E'. rewrite !app_length in E'. cbn in E'. lia.
    - exfalso. apply (f_equal (@length ascii)) in E'. rewrite !app_length in E'. cbn in E'. lia.
    - rewrite <- !app_assoc in E'. apply app_inv_head in E'. apply app_inv_head in E'. cbn [T list_ascii_of_string app] in E'.
      apply cut_at in E' as [E' _]; [|apply pods_no_bracket; assumption|apply pods_no_bracket; assumption]. apply pods_inj; auto; discriminate. }
  destruct ex as [|e ex], ex' as [|e' ex']; cbn [is_nil app] in E.
  - rewrite (Inc inc inc' X2 X4 []); auto.
  - destruct inc; cbn in E; discriminate.
  - destruct inc'; cbn in E; discriminate.
  - rewrite <- !app_assoc in E. apply app_inv_head in E. cbn [T list_ascii_of_string app] in E.
    apply cut_at in E as [E1 E2]; [|apply pods_no_bracket; assumption|apply pods_no_bracket; assumption].
    apply pods_inj in E1; auto; try discriminate. rewrite E1. f_equal. apply (Inc inc inc' X2 X4 (T ", ")); auto.
Qed.
