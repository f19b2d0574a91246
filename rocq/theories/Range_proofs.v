(** Proofs about version ranges: algebra of contains / intersect / union / subtract. *)
From Verif Require Import Base Base_lemmas Version_model Version_spec Version_order Range_model Range_spec.

Lemma gt_dec (c : comparison) : {c = Gt} + {c <> Gt}.
Proof. decide equality. Qed.

(** ** trimming keeps visible characters *)
Lemma In_trim_start c s : In c s -> is_ws c = false -> In c (trim_start s).
Proof.
  induction s as [|d s IH]; simpl; auto. intros [->|H] Hw.
  - rewrite Hw. left. reflexivity.
  - destruct (is_ws d); auto. right. exact H.
Qed.
Lemma In_trim c s : In c s -> is_ws c = false -> In c (trim s).
Proof.
  intros H Hw. unfold trim, trim_end. apply -> in_rev. apply In_trim_start; auto.
  apply -> in_rev. apply In_trim_start; auto.
Qed.
Lemma trim_has c s t : In c s -> is_ws c = false -> ~ In c t -> text_eqb (trim s) t = false.
Proof. intros H Hw Ht. apply text_eqb_neq. intros E. apply Ht. rewrite <- E. apply In_trim; auto. Qed.

Definition special4 (s : text) : bool :=
  is_nil (trim s) || text_eqb (trim s) (T "*") || text_eqb (trim s) (T "empty") || text_eqb (trim s) (T "!*").
Lemma special4_has c s : In c s -> is_ws c = false ->
  existsb (Ascii.eqb c) (T "*empty!*") = false -> special4 s = false.
Proof.
  intros H Hw Hc.
  assert (forall t, incl t (T "*empty!*") -> ~ In c t) as Hn.
  { intros t Ht Hin. apply Ht in Hin. assert (existsb (Ascii.eqb c) (T "*empty!*") = true) as E; [|congruence].
    apply existsb_exists. exists c. split; auto. apply Ascii.eqb_refl. }
  assert (forall t, incl t (T "*empty!*") -> text_eqb (trim s) t = false) as Ht.
  { intros t Hi. apply (trim_has c); auto. }
  unfold special4. rewrite !Ht by (intros x Hx; vm_compute in Hx |- *; tauto).
  destruct (trim s) eqn:E; [|reflexivity]. exfalso.
  assert (In c (trim s)) as Hin by (apply In_trim; auto). rewrite E in Hin. destruct Hin.
Qed.

(** ** invariant of built ranges *)
Definition range_inv (r : range) : Prop :=
  r_parsed r = true /\ r_sets r <> [] /\
  (special4 (r_str r) = true ->
     (r_subs r = [] /\ r_sets r = [[BAny]] /\ (is_nil (trim (r_str r)) || text_eqb (trim (r_str r)) (T "*")) = true) \/
     (r_sets r = [[BNone]] /\ (is_nil (trim (r_str r)) || text_eqb (trim (r_str r)) (T "*")) = false)).

Lemma map_opt_nil {A B} (f : A -> option B) l : map_opt f l = Some [] -> l = [].
Proof. destruct l; simpl; auto. destruct (f a), (map_opt f l); discriminate. Qed.
Lemma parse_alternatives_nonnil s b : parse_alternatives s = Some b -> b <> [].
Proof.
  intros H ->. apply map_opt_nil in H. apply (split_on_nonnil "|" s). exact H.
Qed.
Lemma parse_range_str_nonnil s b : parse_range_str s = Some b -> b <> [].
Proof.
  unfold parse_range_str. destruct (is_nil s || _); [intros [= <-]; discriminate|].
  destruct (_ || _); [intros [= <-]; discriminate|].
  destruct (if starts_with _ s then _ else _) as [[l r]|]; [|apply parse_alternatives_nonnil].
  destruct (_ && _ && _); apply parse_alternatives_nonnil.
Qed.

Lemma inv_parse s r : parse_range s = Some r -> range_inv r.
Proof.
  unfold parse_range. destruct (parse_range_str (trim s)) as [b|] eqn:E; [|discriminate].
  intros [= <-]. unfold range_inv, special4. cbn [r_parsed r_sets r_str r_subs].
  split; [reflexivity|]. split; [eapply parse_range_str_nonnil; eauto|].
  intros Hs. unfold parse_range_str in E.
  destruct (is_nil (trim s) || text_eqb (trim s) (T "*")) eqn:E1.
  - injection E as <-. left. auto.
  - right. split; [|reflexivity]. cbn [orb] in Hs. rewrite Hs in E. injection E as <-. reflexivity.
Qed.

Lemma built_inv r : built r -> range_inv r.
Proof.
  intros H; induction H.
  - split; [reflexivity|]. split; [discriminate|]. intros _. left. vm_compute. auto.
  - split; [reflexivity|]. split; [discriminate|]. intros _. right. vm_compute. auto.
  - eapply inv_parse; eauto.
  - unfold intersect in H1. destruct (is_any a); [injection H1 as <-; auto|].
    destruct (is_any b); [injection H1 as <-; auto|].
    destruct (merge_sets _ _) eqn:E; [discriminate|]. injection H1 as <-.
    split; [reflexivity|]. split; [discriminate|]. cbn [r_str].
    rewrite (special4_has "("); [discriminate|left; reflexivity|reflexivity|reflexivity].
  - split; [reflexivity|]. destruct IHbuilt1 as (_ & Hn & _). split.
    + unfold union. cbn [r_sets]. destruct (r_sets a); [congruence|discriminate].
    + unfold union. cbn [r_str]. rewrite (special4_has "|"); [discriminate| |reflexivity|reflexivity].
      apply in_or_app. right. left. reflexivity.
  - unfold subtract in H1. destruct (is_any b); [discriminate|].
    destruct (range_is_empty b); [injection H1 as <-; auto|].
    destruct (range_is_empty a); [discriminate|].
    destruct (existsb _ _); [|discriminate]. injection H1 as <-.
    split; [reflexivity|]. split; [apply IHbuilt1|]. cbn [r_str].
    rewrite (special4_has "("); [discriminate|left; reflexivity|reflexivity|reflexivity].
Qed.

Lemma contains_eq r v : range_inv r ->
  contains r v = existsb (fun bs => bs_contains bs v) (r_sets r) && negb (existsb (fun s => contains s v) (r_subs r)).
Proof.
  destruct r as [s sets p subs]. intros (Hp & Hn & _). cbn [r_parsed r_sets r_subs] in *. subst p.
  destruct sets as [|x sets]; [congruence|]. cbn [contains negb orb is_nil].
  destruct (existsb _ (x :: sets)); reflexivity.
Qed.

Lemma built_contains r v : built r ->
  contains r v = existsb (fun bs => bs_contains bs v) (r_sets r) && negb (existsb (fun s => contains s v) (r_subs r)).
Proof. intros H. apply contains_eq, built_inv, H. Qed.

(** an all-Any set contains everything; [is_any] is honest for a range without subtraction *)
Lemma any_sets_contain r v : range_inv r -> is_any r = true -> existsb (fun bs => bs_contains bs v) (r_sets r) = true.
Proof.
  intros (Hp & Hn & Hs) Ha. unfold is_any in Ha.
  destruct (is_nil (trim (r_str r)) || text_eqb (trim (r_str r)) (T "*")) eqn:E.
  - destruct Hs as [(_ & -> & _)|(_ & H)]; [unfold special4; rewrite E; reflexivity|reflexivity|congruence].
  - destruct (r_sets r) as [|bs l]; [congruence|]. cbn [forallb existsb] in *.
    apply andb_true_iff in Ha as [Ha _]. replace (bs_contains bs v) with true; [reflexivity|]. symmetry.
    apply orb_true_iff in Ha as [Ha|Ha]; [apply is_nil_true in Ha; subst; reflexivity|].
    unfold bs_contains. rewrite forallb_forall in *. intros b Hb. apply Ha in Hb.
    destruct b; try discriminate. reflexivity.
Qed.
Lemma honest_no_subs r : built r -> r_subs r = [] -> honest_any r.
Proof.
  intros H Hs Ha v. rewrite built_contains, Hs by exact H.
  rewrite any_sets_contain by (auto using built_inv). reflexivity.
Qed.

Lemma plain_built r : plain r -> built r.
Proof. induction 1; eauto using built. Qed.
Lemma plain_no_subs r : plain r -> r_subs r = [].
Proof.
  induction 1; try reflexivity.
  - unfold parse_range in H. destruct (parse_range_str _); [|discriminate]. injection H as <-. reflexivity.
  - unfold intersect in H1. destruct (is_any a); [injection H1 as <-; auto|].
    destruct (is_any b); [injection H1 as <-; auto|].
    destruct (merge_sets _ _) eqn:E; [discriminate|]. injection H1 as <-. cbn [r_subs].
    rewrite IHplain1, IHplain2. reflexivity.
Qed.
Lemma plain_honest r : plain r -> honest_any r.
Proof. intros H. apply honest_no_subs; auto using plain_built, plain_no_subs. Qed.

(** [is_empty] is honest *)
Lemma empty_contains_nothing r v : built r -> range_is_empty r = true -> contains r v = false.
Proof.
  intros Hb He. rewrite built_contains by exact Hb.
  destruct (built_inv r Hb) as (Hp & Hn & Hs).
  replace (existsb (fun bs => bs_contains bs v) (r_sets r)) with false; [reflexivity|]. symmetry.
  unfold range_is_empty in He.
  destruct (text_eqb (trim (r_str r)) (T "empty") || text_eqb (trim (r_str r)) (T "!*")) eqn:E.
  - destruct Hs as [(_ & _ & H)|(-> & _)]; [|exfalso|reflexivity].
    + unfold special4. rewrite <- orb_assoc, E. apply orb_true_r.
    + apply orb_true_iff in E as [E|E]; apply text_eqb_eq in E; rewrite E in H; vm_compute in H; discriminate.
  - rewrite Hp in He. destruct (r_sets r) as [|x l]; [congruence|]. cbn [negb is_nil andb] in He.
    clear - He. induction (x :: l) as [|y k IH]; [reflexivity|]. cbn [forallb existsb] in *.
    apply andb_true_iff in He as [H1 H2]. rewrite IH by exact H2. rewrite orb_false_r.
    apply existsb_exists in H1 as (b & Hb & Hn). unfold bs_contains.
    destruct (forallb _ y) eqn:Ef; [|reflexivity]. rewrite forallb_forall in Ef. apply Ef in Hb.
    destruct b; discriminate.
Qed.

(** ** bounds and edges on a set of versions where the comparison is transitive *)
Lemma transitive_TPO S : transitive_on S -> TPO S vcmp.
Proof.
  intros H. constructor; [intros; apply vcmp_refl|intros; apply vcmp_anti|exact H].
Qed.

Definition lower_holds (e : edge) (v : version) : Prop :=
  match e with None => True | Some (l, inc) => if inc then vcmp l v <> Gt else vcmp l v = Lt end.
Definition upper_holds (e : edge) (v : version) : Prop :=
  match e with None => True | Some (u, inc) => if inc then vcmp v u <> Gt else vcmp v u = Lt end.
Definition edge_in (S : version -> Prop) (e : edge) : Prop :=
  match e with None => True | Some (w, _) => S w end.
Definition set_in (S : version -> Prop) (bs : bound_set) : Prop :=
  forall b w, In b bs -> mentions b w -> S w.

Lemma v_ge_iff a b : v_ge a b = true <-> vcmp b a <> Gt.
Proof. unfold v_ge, is_ge. rewrite (vcmp_anti a b). destruct (vcmp a b); simpl; split; congruence. Qed.
Lemma v_gt_iff a b : v_gt a b = true <-> vcmp b a = Lt.
Proof. unfold v_gt, is_gt. rewrite (vcmp_anti a b). destruct (vcmp a b); simpl; split; congruence. Qed.
Lemma v_le_iff a b : v_le a b = true <-> vcmp a b <> Gt.
Proof. unfold v_le, is_le. destruct (vcmp a b); simpl; split; congruence. Qed.
Lemma v_lt_iff a b : v_lt a b = true <-> vcmp a b = Lt.
Proof. unfold v_lt, is_lt. destruct (vcmp a b); simpl; split; congruence. Qed.

Lemma lower_ge_in S lo w : edge_in S lo -> S w -> edge_in S (lower_ge lo w).
Proof. destruct lo as [[l i]|]; simpl; auto. destruct (_ || _); simpl; auto. Qed.
Lemma lower_gt_in S lo w : edge_in S lo -> S w -> edge_in S (lower_gt lo w).
Proof. destruct lo as [[l i]|]; simpl; auto. destruct (v_ge _ _); simpl; auto. Qed.
Lemma upper_le_in S up w : edge_in S up -> S w -> edge_in S (upper_le up w).
Proof. destruct up as [[l i]|]; simpl; auto. destruct (_ || _); simpl; auto. Qed.
Lemma upper_lt_in S up w : edge_in S up -> S w -> edge_in S (upper_lt up w).
Proof. destruct up as [[l i]|]; simpl; auto. destruct (v_le _ _); simpl; auto. Qed.

Lemma lower_ge_holds lo w v : lower_holds lo v -> vcmp w v <> Gt -> lower_holds (lower_ge lo w) v.
Proof. destruct lo as [[l i]|]; simpl; auto. destruct (_ || _); simpl; auto. Qed.
Lemma lower_gt_holds lo w v : lower_holds lo v -> vcmp w v = Lt -> lower_holds (lower_gt lo w) v.
Proof. destruct lo as [[l i]|]; simpl; auto. destruct (v_ge _ _); simpl; auto. Qed.
Lemma upper_le_holds up w v : upper_holds up v -> vcmp v w <> Gt -> upper_holds (upper_le up w) v.
Proof. destruct up as [[l i]|]; simpl; auto. destruct (_ || _); simpl; auto. Qed.
Lemma upper_lt_holds up w v : upper_holds up v -> vcmp v w = Lt -> upper_holds (upper_lt up w) v.
Proof. destruct up as [[l i]|]; simpl; auto. destruct (v_le _ _); simpl; auto. Qed.

Lemma lower_holds_le e v : lower_holds e v -> match e with None => True | Some (l, _) => vcmp l v <> Gt end.
Proof. destruct e as [[l []]|]; simpl; congruence. Qed.
Lemma upper_holds_le e v : upper_holds e v -> match e with None => True | Some (l, _) => vcmp v l <> Gt end.
Proof. destruct e as [[l []]|]; simpl; congruence. Qed.

Section Trans.
  Variable S : version -> Prop.
  Hypothesis HS : transitive_on S.
  Let H := transitive_TPO S HS.

  Lemma edges_ok_holds lo up v : S v -> edge_in S lo -> edge_in S up ->
    lower_holds lo v -> upper_holds up v -> edges_ok lo up = true.
  Proof.
    intros Sv Sl Su Hl Hu. destruct lo as [[l li]|]; [|reflexivity]. destruct up as [[u ui]|]; [|reflexivity].
    simpl in *.
    assert (vcmp l u <> Gt) as Hle.
    { apply (HS l v u); auto; [destruct li|destruct ui]; congruence. }
    destruct (vcmp l u) eqn:E; try congruence. destruct li; [destruct ui; [reflexivity|]|].
    - assert (vcmp l u = Lt); [|congruence]. apply (tpo_le_lt_trans H l v u); auto.
    - assert (vcmp l u = Lt); [|congruence]. apply (tpo_lt_le_trans H l v u); auto.
      destruct ui; congruence.
  Qed.

  Lemma lower_eq_holds lo w v : S v -> S w -> edge_in S lo -> lower_holds lo v -> vcmp v w = Eq ->
    exists lo', lower_eq lo w = Some lo' /\ edge_in S lo' /\ lower_holds lo' v.
  Proof.
    intros Sv Sw Sl Hl E.
    assert (vcmp w v <> Gt) as Hwv by (rewrite vcmp_anti, E; discriminate).
    destruct lo as [[l li]|]; simpl.
    2:{ eexists. split; [reflexivity|]. simpl. auto. }
    destruct (_ || _). { eexists. split; [reflexivity|]. simpl. auto. }
    destruct (v_lt w l) eqn:E2. 2:{ eexists. split; [reflexivity|]. simpl in *. auto. }
    exfalso. apply v_lt_iff in E2. simpl in Hl, Sl.
    assert (vcmp l w <> Gt) as X.
    { apply (HS l v w); auto; [destruct li; congruence|congruence]. }
    rewrite vcmp_anti, E2 in X. apply X. reflexivity.
  Qed.
  Lemma upper_eq_holds up w v : S v -> S w -> edge_in S up -> upper_holds up v -> vcmp v w = Eq ->
    exists up', upper_eq up w = Some up' /\ edge_in S up' /\ upper_holds up' v.
  Proof.
    intros Sv Sw Sl Hl E.
    assert (vcmp w v <> Gt) as Hwv by (rewrite vcmp_anti, E; discriminate).
    destruct up as [[l li]|]; simpl.
    2:{ eexists. split; [reflexivity|]. simpl. split; [auto|congruence]. }
    destruct (_ || _). { eexists. split; [reflexivity|]. simpl. split; [auto|congruence]. }
    destruct (v_gt w l) eqn:E2. 2:{ eexists. split; [reflexivity|]. simpl in *. auto. }
    exfalso. apply v_gt_iff in E2. simpl in Hl, Sl.
    assert (vcmp w l <> Gt) as X.
    { apply (HS w v l); auto. destruct li; congruence. }
    rewrite vcmp_anti, E2 in X. apply X. reflexivity.
  Qed.

  Lemma sat_loop_holds v bs : S v -> set_in S bs -> bs_contains bs v = true -> forall lo up,
    edge_in S lo -> edge_in S up -> lower_holds lo v -> upper_holds up v ->
    exists lo' up', sat_loop bs lo up = Some (lo', up') /\ edges_ok lo' up' = true.
  Proof.
    intros Sv. induction bs as [|b bs IH]; intros Hs Hc lo up Sl Su Hl Hu.
    - exists lo, up. split; [reflexivity|]. apply (edges_ok_holds lo up v); auto.
    - cbn [bs_contains forallb] in Hc. apply andb_true_iff in Hc as [Hb Hc].
      assert (set_in S bs) as Hs' by (intros c w Hin; apply Hs; right; exact Hin).
      specialize (IH Hs' Hc).
      assert (forall w, mentions b w -> S w) as Hm by (intros w; apply Hs; left; reflexivity).
      destruct b as [w|w|w|w|w|w|w| |]; cbn [sat_loop]; cbn [mentions] in Hm; cbn [bound_matches] in Hb.
      + apply v_ge_iff in Hb. apply IH; auto using lower_ge_in, lower_ge_holds.
      + apply v_gt_iff in Hb. apply IH; auto using lower_gt_in, lower_gt_holds.
      + apply v_le_iff in Hb. apply IH; auto using upper_le_in, upper_le_holds.
      + apply v_lt_iff in Hb. apply IH; auto using upper_lt_in, upper_lt_holds.
      + apply veq_iff in Hb.
        destruct (lower_eq_holds lo w v) as (lo' & -> & A1 & A2); auto.
        destruct (upper_eq_holds up w v) as (up' & -> & B1 & B2); auto.
      + apply IH; auto.
      + apply IH; auto.
      + apply IH; auto.
      + discriminate.
  Qed.

  Lemma contained_no_none bs v : bs_contains bs v = true -> existsb is_bnone bs = false.
  Proof.
    intros Hc. destruct (existsb is_bnone bs) eqn:E; [|reflexivity]. apply existsb_exists in E as (b & Hb & E).
    unfold bs_contains in Hc. rewrite forallb_forall in Hc. apply Hc in Hb. destruct b; discriminate.
  Qed.

  Lemma satisfiable_complete bs v : S v -> set_in S bs -> bs_contains bs v = true -> satisfiable bs = true.
  Proof.
    intros Sv Hs Hc. unfold satisfiable. rewrite (contained_no_none bs v Hc).
    destruct (sat_loop_holds v bs Sv Hs Hc None None) as (lo & up & -> & E); simpl; auto.
  Qed.

  Lemma edge_loop_holds v bs : S v -> set_in S bs -> bs_contains bs v = true -> forall lo up,
    edge_in S lo -> edge_in S up -> lower_holds lo v -> upper_holds up v ->
    edges_ok (fst (edge_loop bs lo up)) (snd (edge_loop bs lo up)) = true.
  Proof.
    intros Sv. induction bs as [|b bs IH]; intros Hs Hc lo up Sl Su Hl Hu.
    - apply (edges_ok_holds lo up v); auto.
    - cbn [bs_contains forallb] in Hc. apply andb_true_iff in Hc as [Hb Hc].
      assert (set_in S bs) as Hs' by (intros c w Hin; apply Hs; right; exact Hin).
      specialize (IH Hs' Hc).
      assert (forall w, mentions b w -> S w) as Hm by (intros w; apply Hs; left; reflexivity).
      destruct b as [w|w|w|w|w|w|w| |]; cbn [edge_loop]; cbn [mentions] in Hm; cbn [bound_matches] in Hb.
      + apply v_ge_iff in Hb. apply IH; auto using lower_ge_in, lower_ge_holds.
      + apply v_gt_iff in Hb. apply IH; auto using lower_gt_in, lower_gt_holds.
      + apply v_le_iff in Hb. apply IH; auto using upper_le_in, upper_le_holds.
      + apply v_lt_iff in Hb. apply IH; auto using upper_lt_in, upper_lt_holds.
      + apply IH; auto.
      + apply IH; auto.
      + apply IH; auto.
      + apply IH; auto.
      + apply IH; auto.
  Qed.

  Lemma eq_versions_In bs w : In w (eq_versions bs) <-> In (BEq w) bs.
  Proof.
    unfold eq_versions. rewrite in_flat_map. split.
    - intros (b & Hb & Hw). destruct b; simpl in Hw; try contradiction. destruct Hw as [->|[]]. exact Hb.
    - intros Hb. exists (BEq w). split; [exact Hb|left; reflexivity].
  Qed.

  Lemma eq_conflict_no v w b : S v -> S w -> vcmp v w = Eq -> (forall x, mentions b x -> S x) ->
    bound_matches b v = true -> eq_conflict w b = false.
  Proof.
    intros Sv Sw E Hm Hb.
    assert (forall x, S x -> vcmp v x = vcmp w x) as Hx.
    { intros x Sx. apply (tpo_eq_l H); auto. }
    destruct b as [x|x|x|x|x|x|x| |]; cbn [eq_conflict bound_matches mentions] in *; auto;
      specialize (Hm x eq_refl); specialize (Hx x Hm).
    - unfold v_ge, v_lt, is_ge, is_lt in *. rewrite Hx in Hb. destruct (vcmp w x); auto; discriminate.
    - unfold v_gt, v_le, is_le, is_gt in *. rewrite Hx in Hb. destruct (vcmp w x); auto; discriminate.
    - unfold v_gt, v_le, is_le, is_gt in *. rewrite Hx in Hb. destruct (vcmp w x); auto; discriminate.
    - unfold v_lt, v_ge, is_ge, is_lt in *. rewrite Hx in Hb. destruct (vcmp w x); auto; discriminate.
  Qed.

  Lemma sets_intersect_complete a b v : S v -> set_in S a -> set_in S b ->
    bs_contains a v = true -> bs_contains b v = true -> sets_intersect a b = true.
  Proof.
    intros Sv Sa Sb Ha Hb. unfold sets_intersect.
    destruct (forallb is_bany a || forallb is_bany b); [reflexivity|].
    assert (bs_contains (a ++ b) v = true) as Hc by (unfold bs_contains; rewrite forallb_app; apply andb_true_iff; auto).
    assert (set_in S (a ++ b)) as Sc.
    { intros x w Hx. apply in_app_or in Hx as [Hx|Hx]; [apply Sa|apply Sb]; exact Hx. }
    set (c := a ++ b) in *.
    assert (forall w, In w (eq_versions c) -> S w /\ vcmp v w = Eq) as Hev.
    { intros w Hw. apply eq_versions_In in Hw. split; [apply (Sc _ _ Hw); reflexivity|].
      unfold bs_contains in Hc. rewrite forallb_forall in Hc. apply Hc in Hw. cbn in Hw. apply veq_iff, Hw. }
    assert (match eq_versions c with
       | first :: _ => (1 <? length (eq_versions c)) && existsb (fun v => negb (veq v first)) (eq_versions c)
       | [] => false end = false) as ->.
    { destruct (eq_versions c) as [|first l]; [reflexivity|].
      apply andb_false_iff. right. destruct (existsb _ (first :: l)) eqn:E; [|reflexivity].
      apply existsb_exists in E as (w & Hw & E). apply negb_true_iff in E.
      assert (veq w first = true); [|congruence]. apply veq_iff.
      destruct (Hev w Hw) as [Sw Ew]. destruct (Hev first (or_introl eq_refl)) as [Sf Ef].
      rewrite <- (tpo_eq_l H v w first); auto. }
    assert (existsb (fun ev => existsb (eq_conflict ev) c) (eq_versions c) = false) as ->.
    { destruct (existsb _ (eq_versions c)) eqn:E; [|reflexivity].
      apply existsb_exists in E as (w & Hw & E). apply existsb_exists in E as (x & Hx & E).
      destruct (Hev w Hw) as [Sw Ew]. 
      assert (eq_conflict w x = false); [|congruence]. apply (eq_conflict_no v w x); auto.
      - intros y Hy. apply (Sc _ _ Hx Hy).
      - unfold bs_contains in Hc. rewrite forallb_forall in Hc. apply Hc, Hx. }
    pose proof (edge_loop_holds v c Sv Sc Hc None None I I I I) as Hl.
    destruct (edge_loop c None None). exact Hl.
  Qed.
End Trans.

(** ** intersect *)
Lemma merge_contains_l A B v :
  existsb (fun bs => bs_contains bs v) (merge_sets A B) = true ->
  existsb (fun bs => bs_contains bs v) A = true /\ existsb (fun bs => bs_contains bs v) B = true.
Proof.
  intros H. apply existsb_exists in H as (m & Hm & Hc). unfold merge_sets in Hm.
  apply filter_In in Hm as [Hm _]. apply in_flat_map in Hm as (x & Hx & Hm). apply in_map_iff in Hm as (y & <- & Hy).
  unfold bs_contains in Hc. rewrite forallb_app in Hc. apply andb_true_iff in Hc as [H1 H2].
  split; apply existsb_exists; [exists x|exists y]; auto.
Qed.
Lemma range_set_in S r bs : range_in S r -> In bs (r_sets r) -> set_in S bs.
Proof. intros H Hin b w Hb Hm. apply H. exists bs, b. auto. Qed.

Lemma merge_contains_r S a b v : transitive_on S -> S v -> range_in S a -> range_in S b ->
  existsb (fun bs => bs_contains bs v) (r_sets a) = true -> existsb (fun bs => bs_contains bs v) (r_sets b) = true ->
  existsb (fun bs => bs_contains bs v) (merge_sets (r_sets a) (r_sets b)) = true.
Proof.
  intros HS Sv Sa Sb H1 H2. apply existsb_exists in H1 as (x & Hx & Hcx). apply existsb_exists in H2 as (y & Hy & Hcy).
  assert (bs_contains (x ++ y) v = true) as Hc by (unfold bs_contains; rewrite forallb_app; apply andb_true_iff; auto).
  apply existsb_exists. exists (x ++ y). split; [|exact Hc].
  apply filter_In. split.
  - apply in_flat_map. exists x. split; [exact Hx|]. apply in_map_iff. exists y. auto.
  - apply (satisfiable_complete S HS _ v); auto.
    intros c w Hin. apply in_app_or in Hin as [Hin|Hin]; [apply (range_set_in S a x Sa Hx)|apply (range_set_in S b y Sb Hy)]; auto.
Qed.

Lemma intersect_sound a b r v : built a -> built b -> honest_any a -> honest_any b ->
  intersect a b = Some r -> contains r v = true -> contains a v = true /\ contains b v = true.
Proof.
  intros Ba Bb Ha Hb Hi Hc.
  assert (built r) as Br by (eapply built_intersect; [exact Ba|exact Bb|exact Hi]).
  unfold intersect in Hi. destruct (is_any a) eqn:Ea.
  { injection Hi as <-. split; auto. }
  destruct (is_any b) eqn:Eb. { injection Hi as <-. split; auto. }
  destruct (merge_sets (r_sets a) (r_sets b)) as [|m ms] eqn:Em; [discriminate|].
  injection Hi as <-. rewrite built_contains in Hc by exact Br. cbn [r_sets r_subs] in Hc.
  apply andb_true_iff in Hc as [H1 H2]. rewrite <- Em in H1. apply merge_contains_l in H1 as [H1 H1'].
  rewrite existsb_app, negb_orb in H2. apply andb_true_iff in H2 as [H2 H2'].
  rewrite (built_contains a), (built_contains b) by assumption. rewrite H1, H1', H2, H2'. auto.
Qed.
Lemma intersect_complete S a b v : built a -> built b -> transitive_on S -> S v -> range_in S a -> range_in S b ->
  contains a v = true -> contains b v = true ->
  exists r, intersect a b = Some r /\ contains r v = true.
Proof.
  intros Ba Bb HS Sv Sa Sb Ca Cb. pose proof Ca as Ca0. pose proof Cb as Cb0.
  rewrite built_contains in Ca0, Cb0 by assumption.
  apply andb_true_iff in Ca0 as [A1 A2]. apply andb_true_iff in Cb0 as [B1 B2].
  destruct (intersect a b) as [r|] eqn:Hi.
  - exists r. split; [reflexivity|].
    assert (built r) as Br by (eapply built_intersect; [exact Ba|exact Bb|exact Hi]).
    unfold intersect in Hi. destruct (is_any a); [injection Hi as <-; exact Cb|].
    destruct (is_any b); [injection Hi as <-; exact Ca|].
    destruct (merge_sets (r_sets a) (r_sets b)) as [|m ms] eqn:Em; [discriminate|].
    injection Hi as <-. rewrite built_contains by exact Br. cbn [r_sets r_subs].
    rewrite existsb_app, negb_orb, A2, B2, <- Em. rewrite (merge_contains_r S); auto.
  - exfalso. unfold intersect in Hi. destruct (is_any a); [discriminate|]. destruct (is_any b); [discriminate|].
    pose proof (merge_contains_r S a b v HS Sv Sa Sb A1 B1) as Hm.
    destruct (merge_sets (r_sets a) (r_sets b)); discriminate.
Qed.

(** ** intersects *)
Lemma intersects_complete S a b v : built a -> built b -> transitive_on S -> S v -> range_in S a -> range_in S b ->
  contains a v = true -> contains b v = true -> intersects a b = true.
Proof.
  intros Ba Bb HS Sv Sa Sb Ca Cb.
  rewrite built_contains in Ca, Cb by assumption.
  apply andb_true_iff in Ca as [A1 _]. apply andb_true_iff in Cb as [B1 _].
  unfold intersects. destruct (is_any a || is_any b); [reflexivity|].
  apply existsb_exists in A1 as (x & Hx & A1). apply existsb_exists in B1 as (y & Hy & B1).
  apply existsb_exists. exists x. split; [exact Hx|]. apply existsb_exists. exists y. split; [exact Hy|].
  apply (sets_intersect_complete S HS x y v); auto; [apply (range_set_in S a)|apply (range_set_in S b)]; auto.
Qed.

(** ** union *)
Lemma union_contains a b v : plain a -> plain b -> contains (union a b) v = contains a v || contains b v.
Proof.
  intros Pa Pb. rewrite !built_contains by auto using plain_built, built_union.
  rewrite (plain_no_subs a), (plain_no_subs b) by assumption. cbn [union r_sets r_subs existsb negb].
  rewrite existsb_app, !andb_true_r. reflexivity.
Qed.
(** nothing is lost by union, subtraction or not *)
Lemma union_upper a b v : built a -> built b -> contains a v || contains b v = true -> contains (union a b) v = true.
Proof.
  intros Ba Bb. rewrite !built_contains by auto using built_union. cbn [union r_sets r_subs existsb negb].
  rewrite existsb_app, andb_true_r. intros H. apply orb_true_iff in H.
  apply orb_true_iff. destruct H as [H|H]; apply andb_true_iff in H as [H _]; auto.
Qed.

(** ** subtract *)
Lemma subtract_contains a b r v : built a -> built b -> subtract a b = Some r ->
  contains r v = contains a v && negb (contains b v).
Proof.
  intros Ba Bb Hs. assert (built r) as Br by (eapply built_subtract; [exact Ba|exact Bb|exact Hs]).
  unfold subtract in Hs. destruct (is_any b); [discriminate|].
  destruct (range_is_empty b) eqn:Eb.
  { injection Hs as <-. rewrite (empty_contains_nothing b v) by assumption. rewrite andb_true_r. reflexivity. }
  destruct (range_is_empty a); [discriminate|]. destruct (existsb _ (probes a b)); [|discriminate].
  injection Hs as <-. rewrite built_contains by exact Br. cbn [r_sets r_subs].
  rewrite (built_contains a) by exact Ba. rewrite existsb_app. cbn [existsb]. rewrite orb_false_r, negb_orb, andb_assoc.
  reflexivity.
Qed.

Lemma mentions_probe a b v : range_mentions a v \/ range_mentions b v -> In v (probes a b).
Proof.
  assert (forall l b, In b l -> forall v, mentions b v -> In v (flat_map bound_probes l)) as Hp.
  { intros l c Hc w Hm. apply in_flat_map. exists c. split; [exact Hc|].
    destruct c; cbn in Hm; try contradiction; subst; left; reflexivity. }
  intros [H|H]; destruct H as (bs & c & Hbs & Hc & Hm); unfold probes; apply in_or_app; [left|right; apply in_or_app; left];
    apply (Hp _ c); auto; apply in_concat; exists bs; auto.
Qed.

Lemma subtract_none a b v : built a -> built b -> honest_any b -> subtract a b = None ->
  range_mentions a v \/ range_mentions b v -> contains a v = true -> contains b v = true.
Proof.
  intros Ba Bb Hb Hs Hm Ca. unfold subtract in Hs. destruct (is_any b) eqn:Eb; [apply Hb, Eb|].
  destruct (range_is_empty b) eqn:Eb2; [discriminate|].
  destruct (range_is_empty a) eqn:Ea2. { rewrite (empty_contains_nothing a v) in Ca by assumption. discriminate. }
  destruct (existsb _ (probes a b)) eqn:Ex; [discriminate|].
  apply mentions_probe in Hm. destruct (contains b v) eqn:Cb; [reflexivity|].
  assert (existsb (contains (mkRange (T "(" ++ r_str a ++ T ")-(" ++ r_str b ++ T ")") (r_sets a) true (r_subs a ++ [b])))
     (probes a b) = true) as X; [|congruence].
  apply existsb_exists. exists v. split; [exact Hm|].
  destruct (built_inv a Ba) as (Pa & Na & Ha). rewrite contains_eq.
  - cbn [r_sets r_subs]. rewrite built_contains in Ca by exact Ba. apply andb_true_iff in Ca as [C1 C2].
    rewrite C1. rewrite existsb_app, negb_orb, C2. cbn [existsb]. rewrite Cb. reflexivity.
  - split; [reflexivity|]. split; [exact Na|]. cbn [r_str].
    rewrite (special4_has "("); [discriminate|left; reflexivity|reflexivity|reflexivity].
Qed.

(** ** is_subset_of *)
Lemma subset_false a b : is_any a = false -> is_subset_of a b = false ->
  exists v, contains a v = true /\ contains b v = false.
Proof.
  intros Ha. unfold is_subset_of. destruct (is_any b); [discriminate|]. rewrite Ha.
  destruct (range_is_empty a); [discriminate|]. rewrite negb_false_iff. intros H.
  apply existsb_exists in H as (v & _ & H). apply andb_true_iff in H as [H1 H2]. apply negb_true_iff in H2.
  exists v. auto.
Qed.
Lemma subset_mentioned a b v : built a -> built b -> honest_any b -> is_any a = false -> is_subset_of a b = true ->
  range_mentions a v \/ range_mentions b v -> contains a v = true -> contains b v = true.
Proof.
  intros Ba Bb Hb Ha Hs Hm Ca. unfold is_subset_of in Hs. destruct (is_any b) eqn:Eb; [apply Hb, Eb|].
  rewrite Ha in Hs. destruct (range_is_empty a) eqn:Ea2.
  { rewrite (empty_contains_nothing a v) in Ca by assumption. discriminate. }
  apply negb_true_iff in Hs. apply mentions_probe in Hm. destruct (contains b v) eqn:Cb; [reflexivity|].
  assert (existsb (fun v => contains a v && negb (contains b v)) (probes a b) = true) as X; [|congruence].
  apply existsb_exists. exists v. split; [exact Hm|]. rewrite Ca, Cb. reflexivity.
Qed.

(** ** half-open ranges: the mentioned versions decide inclusion *)
Section Half.
  Variable S : version -> Prop.
  Hypothesis HS : transitive_on S.
  Let H := transitive_TPO S HS.

  (** the largest element of a non-empty list below [v] *)
  Lemma max_below v l : S v -> (forall w, In w l -> S w) -> (exists w, In w l /\ vcmp w v <> Gt) ->
    exists p, In p l /\ vcmp p v <> Gt /\ forall w, In w l -> vcmp w v <> Gt -> vcmp w p <> Gt.
  Proof.
    intros Sv. induction l as [|x l IH]; intros Hl (w & Hw & Hwv); [destruct Hw|].
    assert (S x) as Sx by (apply Hl; left; reflexivity).
    assert (forall w, In w l -> S w) as Hl' by (intros y Hy; apply Hl; right; exact Hy).
    destruct (gt_dec (vcmp x v)) as [Ex|Ex].
    - destruct (IH Hl') as (p & P1 & P2 & P3).
      { destruct Hw as [->|Hw]; [congruence|]. exists w. auto. }
      exists p. split; [right; exact P1|]. split; [exact P2|]. intros y [->|Hy]; [congruence|auto].
    - destruct (existsb (fun y => negb (is_gt (vcmp y v))) l) eqn:El.
      + apply existsb_exists in El as (y & Hy & Ey). destruct (IH Hl') as (p & P1 & P2 & P3).
        { exists y. split; [exact Hy|]. destruct (vcmp y v); simpl in Ey; congruence. }
        destruct (gt_dec (vcmp x p)) as [Exp|Exp].
        * exists x. split; [left; reflexivity|]. split; [exact Ex|]. intros z [->|Hz] Hzv; [rewrite vcmp_refl; discriminate|].
          apply (HS z p x); auto. rewrite vcmp_anti, Exp. discriminate.
        * exists p. split; [right; exact P1|]. split; [exact P2|]. intros z [->|Hz] Hzv; auto.
      + exists x. split; [left; reflexivity|]. split; [exact Ex|]. intros z [->|Hz] Hzv; [rewrite vcmp_refl; discriminate|].
        exfalso. assert (existsb (fun y => negb (is_gt (vcmp y v))) l = true) as X; [|congruence].
        apply existsb_exists. exists z. split; [exact Hz|]. destruct (vcmp z v); simpl; congruence.
  Qed.

  Definition bound_version (b : bound) : list version :=
    match b with BGe w | BGt w | BLe w | BLt w | BEq w | BNe w | BCompat w => [w] | _ => [] end.
  Definition set_versions (sets : list bound_set) : list version := flat_map bound_version (concat sets).
  Lemma set_versions_In r w : In w (set_versions (r_sets r)) <-> range_mentions r w.
  Proof.
    unfold set_versions. rewrite in_flat_map. split.
    - intros (b & Hb & Hw). apply in_concat in Hb as (bs & Hbs & Hb). exists bs, b. split; [auto|split; [auto|]].
      destruct b; cbn in *; tauto.
    - intros (bs & b & Hbs & Hb & Hm). exists b. split; [apply in_concat; exists bs; auto|].
      destruct b; cbn in *; tauto.
  Qed.

  Lemma same_side r v p : S v -> S p -> range_in S r -> half_open r -> vcmp p v <> Gt ->
    (forall w, range_mentions r w -> vcmp w v <> Gt -> vcmp w p <> Gt) ->
    existsb (fun bs => bs_contains bs v) (r_sets r) = existsb (fun bs => bs_contains bs p) (r_sets r).
  Proof.
    intros Sv Sp Hr Hh Hpv Hmax.
    assert (forall bs, In bs (r_sets r) -> bs_contains bs v = bs_contains bs p) as Hbs.
    { intros bs Hbs. unfold bs_contains.
      assert (forall b, In b bs -> bound_matches b v = bound_matches b p) as Hb.
      { intros b Hb. pose proof (Hh bs b Hbs Hb) as Hho. destruct b as [w| | |w| | | | |]; cbn in Hho; try contradiction; cbn [bound_matches].
        - assert (range_mentions r w) as Hm by (exists bs, (BGe w); repeat split; auto).
          apply eq_true_iff_eq. rewrite !v_ge_iff. split; [auto|]. intros X. apply (HS w p v); auto.
        - assert (range_mentions r w) as Hm by (exists bs, (BLt w); repeat split; auto).
          apply eq_true_iff_eq. rewrite !v_lt_iff. split; intros X.
          + apply (tpo_le_lt_trans H p v w); auto.
          + destruct (vcmp v w) eqn:E; [|reflexivity|].
            * exfalso. apply (Hmax w Hm); [rewrite vcmp_anti, E; discriminate|rewrite vcmp_anti, X; reflexivity].
            * exfalso. apply (Hmax w Hm); [rewrite vcmp_anti, E; discriminate|rewrite vcmp_anti, X; reflexivity]. }
      clear - Hb. induction bs as [|b bs IH]; [reflexivity|]. cbn [forallb]. rewrite (Hb b) by (left; reflexivity).
      rewrite IH; [reflexivity|]. intros c Hc. apply Hb. right. exact Hc. }
    clear - Hbs. induction (r_sets r) as [|x l IH]; [reflexivity|]. cbn [existsb].
    rewrite (Hbs x) by (left; reflexivity). rewrite IH; [reflexivity|]. intros bs Hx. apply Hbs. right. exact Hx.
  Qed.

  Lemma half_open_reduce a b : plain a -> plain b -> range_in S a -> range_in S b ->
    half_open a -> half_open b -> bounded_below a ->
    (forall v, range_mentions a v \/ range_mentions b v -> contains a v = true -> contains b v = true) ->
    forall v, S v -> contains a v = true -> contains b v = true.
  Proof.
    intros Pa Pb Sa Sb Ha Hb Hbelow Hm v Sv Ca.
    assert (forall r, plain r -> forall v, contains r v = existsb (fun bs => bs_contains bs v) (r_sets r)) as Hc.
    { intros r Pr w. rewrite built_contains by (apply plain_built; exact Pr).
      rewrite (plain_no_subs r Pr). apply andb_true_r. }
    destruct (max_below v (set_versions (r_sets a) ++ set_versions (r_sets b))) as (p & P1 & P2 & P3); auto.
    - intros w Hw. apply in_app_or in Hw as [Hw|Hw]; apply set_versions_In in Hw; auto.
    - rewrite Hc in Ca by exact Pa. apply existsb_exists in Ca as (bs & Hbs & Ca).
      destruct (Hbelow bs Hbs) as (w & Hw). exists w. split.
      + apply in_or_app. left. apply set_versions_In. exists bs, (BGe w). cbn. auto.
      + unfold bs_contains in Ca. rewrite forallb_forall in Ca. apply Ca in Hw. apply v_ge_iff, Hw.
    - assert (S p) as Sp. { apply in_app_or in P1 as [P1|P1]; apply set_versions_In in P1; auto. }
      assert (range_mentions a p \/ range_mentions b p) as Hmp.
      { apply in_app_or in P1 as [P1|P1]; apply set_versions_In in P1; auto. }
      specialize (Hm p Hmp). rewrite !Hc in * by assumption.
      rewrite (same_side b v p); auto.
      + apply Hm. rewrite <- (same_side a v p); auto. intros w Hw. apply P3. apply in_or_app. left. apply set_versions_In, Hw.
      + intros w Hw. apply P3. apply in_or_app. right. apply set_versions_In, Hw.
  Qed.
End Half.

Lemma half_open_not_any r : built r -> half_open r -> bounded_below r -> is_any r = false.
Proof.
  intros Hb Hh Hbb. destruct (built_inv r Hb) as (_ & Hn & Hs).
  destruct (is_any r) eqn:E; [|reflexivity]. exfalso. unfold is_any in E.
  destruct (is_nil (trim (r_str r)) || text_eqb (trim (r_str r)) (T "*")) eqn:E1.
  - destruct Hs as [(_ & Hset & _)|(_ & X)]; [unfold special4; rewrite E1; reflexivity| |congruence].
    apply (Hh [BAny] BAny); [rewrite Hset; left; reflexivity|left; reflexivity].
  - destruct (r_sets r) as [|bs l] eqn:El; [congruence|]. cbn [forallb] in E. apply andb_true_iff in E as [E _].
    destruct (Hbb bs) as (w & Hw); [rewrite El; left; reflexivity|].
    apply orb_true_iff in E as [E|E]; [apply is_nil_true in E; subst; destruct Hw|].
    rewrite forallb_forall in E. apply E in Hw. discriminate.
Qed.

Lemma subset_half_open S a b : transitive_on S -> plain a -> plain b -> range_in S a -> range_in S b ->
  half_open a -> half_open b -> bounded_below a -> is_subset_of a b = true ->
  forall v, S v -> contains a v = true -> contains b v = true.
Proof.
  intros HS Pa Pb Sa Sb Ha Hb Hbb Hs. apply (half_open_reduce S HS); auto.
  intros v Hm Ca. apply (subset_mentioned a b v); auto using plain_built, plain_honest.
  apply half_open_not_any; auto using plain_built.
Qed.
Lemma subtract_none_half_open S a b : transitive_on S -> plain a -> plain b -> range_in S a -> range_in S b ->
  half_open a -> half_open b -> bounded_below a -> subtract a b = None ->
  forall v, S v -> contains a v = true -> contains b v = true.
Proof.
  intros HS Pa Pb Sa Sb Ha Hb Hbb Hs. apply (half_open_reduce S HS); auto.
  intros v Hm Ca. apply (subtract_none a b v); auto using plain_built, plain_honest.
Qed.
