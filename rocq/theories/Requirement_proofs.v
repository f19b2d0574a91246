(** Proofs about constraint satisfaction. *)
From Verif Require Import Base Base_lemmas Text_lemmas Version_model Version_spec Version_proofs Version_order
  Version_hash Range_model Requirement_model Requirement_spec.

(** ** numbers *)
Lemma parse_u64_number t n : parse_u64 t = Some n <-> number t n.
Proof.
  unfold parse_u64, number. split.
  - set (d := match t with [] => [] | c :: s' => if Ascii.eqb c "+" then s' else t end).
    destruct (negb (is_nil d) && forallb is_digit d) eqn:E; [|discriminate].
    apply andb_true_iff in E as [E1 E2]. apply negb_true_iff, is_nil_false in E1.
    destruct (digits_val d <=? U64_MAX)%N eqn:E3; [|discriminate]. intros [= <-].
    exists d. split; [|split; [exact E1|split; [|split; [reflexivity|]]]].
    + subst d. destruct t as [|c t]; [left; reflexivity|].
      destruct (Ascii.eqb_spec c "+"); [right; subst; reflexivity|left; reflexivity].
    + unfold digits_only. rewrite forallb_forall in E2. apply Forall_forall. exact E2.
    + lia.
  - intros (d & Ht & Hd & Dd & Hv & Hn).
    assert (match t with [] => [] | c :: s' => if Ascii.eqb c "+" then s' else t end = d) as ->.
    { destruct Ht as [->| ->]; [|reflexivity]. destruct d as [|c d]; [reflexivity|].
      destruct (Ascii.eqb_spec c "+"); [|reflexivity]. subst. inversion Dd; subst. discriminate. }
    assert (negb (is_nil d) && forallb is_digit d = true) as ->.
    { apply andb_true_iff. split; [apply negb_true_iff, is_nil_false; exact Hd|].
      apply forallb_forall. unfold digits_only in Dd. rewrite Forall_forall in Dd. exact Dd. }
    rewrite Hv. replace (n <=? U64_MAX)%N with true by lia. reflexivity.
Qed.
Lemma number_fun t m n : number t m -> number t n -> m = n.
Proof. rewrite <- !parse_u64_number. congruence. Qed.
Lemma not_number_iff t : not_number t <-> parse_u64 t = None.
Proof.
  unfold not_number. split.
  - intros H. destruct (parse_u64 t) eqn:E; [|reflexivity]. apply parse_u64_number in E. destruct (H _ E).
  - intros H n Hn. apply parse_u64_number in Hn. congruence.
Qed.

Lemma part_cmp_eq a b : part_cmp a b = Eq <-> part_same a b.
Proof.
  unfold part_cmp, part_same. destruct (parse_u64 a) as [m|] eqn:Ea, (parse_u64 b) as [n|] eqn:Eb.
  - rewrite N.compare_eq_iff. apply parse_u64_number in Ea, Eb. split.
    + intros ->. left. eauto.
    + intros [(k & Ha & Hb)| ->].
      * rewrite (number_fun _ _ _ Ea Ha), (number_fun _ _ _ Eb Hb). reflexivity.
      * eapply number_fun; eauto.
  - rewrite text_cmp_eq. split; [auto|]. intros [(k & _ & Hb)|]; auto. apply parse_u64_number in Hb. congruence.
  - rewrite text_cmp_eq. split; [auto|]. intros [(k & Ha & _)|]; auto. apply parse_u64_number in Ha. congruence.
  - rewrite text_cmp_eq. split; [auto|]. intros [(k & Ha & _)|]; auto. apply parse_u64_number in Ha. congruence.
Qed.
Lemma part_cmp_lt a b : part_cmp a b = Lt <-> part_below a b.
Proof.
  unfold part_cmp, part_below.
  destruct (parse_u64 a) as [m|] eqn:Ea, (parse_u64 b) as [n|] eqn:Eb.
  - rewrite N.compare_lt_iff. pose proof Ea as Ea'; pose proof Eb as Eb'. apply parse_u64_number in Ea', Eb'. split.
    + intros. left. eauto.
    + intros [(p & q & Ha & Hb & Hl)|[[H|H] _]].
      * rewrite (number_fun _ _ _ Ea' Ha), (number_fun _ _ _ Eb' Hb). exact Hl.
      * apply not_number_iff in H. congruence.
      * apply not_number_iff in H. congruence.
  - split; [intros H; right; split; [right; apply not_number_iff; exact Eb|exact H]|].
    intros [(p & q & _ & Hb & _)|[_ H]]; [apply parse_u64_number in Hb; congruence|exact H].
  - split; [intros H; right; split; [left; apply not_number_iff; exact Ea|exact H]|].
    intros [(p & q & Ha & _)|[_ H]]; [apply parse_u64_number in Ha; congruence|exact H].
  - split; [intros H; right; split; [left; apply not_number_iff; exact Ea|exact H]|].
    intros [(p & q & Ha & _)|[_ H]]; [apply parse_u64_number in Ha; congruence|exact H].
Qed.
Lemma text_cmp_anti a b : text_cmp b a = CompOpp (text_cmp a b).
Proof. apply (tpo_anti _ _ TPO_text); exact I. Qed.
Lemma part_cmp_anti a b : part_cmp b a = CompOpp (part_cmp a b).
Proof.
  unfold part_cmp. destruct (parse_u64 a), (parse_u64 b); try apply text_cmp_anti. apply N.compare_antisym.
Qed.
Lemma part_cmp_gt a b : part_cmp a b = Gt <-> part_below b a.
Proof. rewrite <- part_cmp_lt, (part_cmp_anti a b). destruct (part_cmp a b); simpl; split; congruence. Qed.
Lemma part_same_sym a b : part_same a b -> part_same b a.
Proof. intros [(n & A & B)| ->]; [left; eauto|right; reflexivity]. Qed.

Lemma parts_cmp_anti xs : forall ys, parts_cmp ys xs = CompOpp (parts_cmp xs ys).
Proof.
  induction xs as [|x xs IH]; intros [|y ys]; cbn [parts_cmp]; try reflexivity.
  rewrite (part_cmp_anti x y). destruct (part_cmp x y); simpl; auto.
Qed.
Lemma parts_cmp_eq xs : forall ys, parts_cmp xs ys = Eq <-> leads_same xs ys.
Proof.
  unfold leads_same. induction xs as [|x xs IH]; intros ys.
  - simpl. split; [|reflexivity]. intros _ [|i] a b; discriminate.
  - destruct ys as [|y ys]; [simpl; split; [|reflexivity]; intros _ [|i] a b ? H; discriminate|].
    cbn [parts_cmp]. split.
    + intros H. destruct (part_cmp x y) eqn:E; try discriminate. apply part_cmp_eq in E.
      intros [|i] a b Ha Hb; [injection Ha as <-; injection Hb as <-; exact E|].
      eapply IH; eauto.
    + intros H. assert (part_cmp x y = Eq) as ->.
      { apply part_cmp_eq. apply (H 0); reflexivity. }
      apply IH. intros i a b Ha Hb. apply (H (S i)); assumption.
Qed.
Lemma parts_cmp_lt xs : forall ys, parts_cmp xs ys = Lt <-> leads_below xs ys.
Proof.
  unfold leads_below. induction xs as [|x xs IH]; intros ys.
  - simpl. split; [discriminate|]. intros ([|i] & a & b & H & _); discriminate.
  - destruct ys as [|y ys]; [simpl; split; [discriminate|]; intros ([|i] & a & b & _ & H & _); discriminate|].
    cbn [parts_cmp]. destruct (part_cmp x y) eqn:E.
    + rewrite IH. apply part_cmp_eq in E. split.
      * intros (i & a & b & Ha & Hb & Hl & Hj). exists (S i), a, b. repeat split; auto.
        intros [|j] x' y' Hji Hx Hy; [injection Hx as <-; injection Hy as <-; exact E|].
        apply (Hj j); auto; lia.
      * intros ([|i] & a & b & Ha & Hb & Hl & Hj).
        { injection Ha as <-; injection Hb as <-. apply part_cmp_lt in Hl. apply part_cmp_eq in E. congruence. }
        exists i, a, b. repeat split; auto. intros j x' y' Hji Hx Hy. apply (Hj (S j)); auto; lia.
    + split; [|reflexivity]. intros _. exists 0, x, y. apply part_cmp_lt in E. repeat split; auto. intros j ? ? Hj. lia.
    + split; [discriminate|]. intros ([|i] & a & b & Ha & Hb & Hl & Hj).
      * injection Ha as <-; injection Hb as <-. apply part_cmp_lt in Hl. congruence.
      * assert (part_same x y) as Hs by (apply (Hj 0); auto; lia). apply part_cmp_eq in Hs. congruence.
Qed.
Lemma parts_cmp_gt xs ys : parts_cmp xs ys = Gt <-> leads_below ys xs.
Proof. rewrite <- parts_cmp_lt, (parts_cmp_anti xs ys). destruct (parts_cmp xs ys); simpl; split; congruence. Qed.

Lemma dot_parts_iff s ps : dot_parts s ps <-> ps = split_on "." s.
Proof.
  split.
  - intros (Hn & Hp & ->). change (T ".") with ["."%char]. rewrite split_join; auto.
  - intros ->. split; [apply split_on_nonnil|]. split; [apply split_on_pieces|].
    change (T ".") with ["."%char]. rewrite join_split. reflexivity.
Qed.

Lemma cmp_at_depth_spec ver con vs cs : dot_parts (v_str ver) vs -> dot_parts (v_str con) cs ->
  (cmp_at_depth ver con = Eq <-> leads_same vs cs) /\
  (cmp_at_depth ver con = Lt <-> leads_below vs cs) /\
  (cmp_at_depth ver con = Gt <-> leads_below cs vs).
Proof.
  intros Hv Hc. apply dot_parts_iff in Hv, Hc. subst. unfold cmp_at_depth.
  split; [apply parts_cmp_eq|]. split; [apply parts_cmp_lt|apply parts_cmp_gt].
Qed.

(** extra parts of the version never matter *)
Lemma parts_cmp_extend cs : forall xs ys, length cs <= length xs -> parts_cmp (xs ++ ys) cs = parts_cmp xs cs.
Proof.
  induction cs as [|c cs IH]; intros [|x xs] ys H; simpl in *; try lia; try (destruct ys; reflexivity); auto.
  destruct (part_cmp x c); auto. apply IH. lia.
Qed.
Lemma cmp_at_depth_extend ver ver' con extra vs cs :
  dot_parts (v_str ver) vs -> dot_parts (v_str con) cs -> dot_parts (v_str ver') (vs ++ extra) ->
  length cs <= length vs -> cmp_at_depth ver' con = cmp_at_depth ver con.
Proof.
  intros H1 H2 H3 Hl. apply dot_parts_iff in H1, H2, H3. unfold cmp_at_depth. rewrite <- H1, <- H2, <- H3.
  apply parts_cmp_extend, Hl.
Qed.

(** ** prefix *)
Lemma zip_all_eq_spec xs : forall ys, zip_all_eq xs ys = true <->
  forall i a b, nth_error xs i = Some a -> nth_error ys i = Some b -> compare_token a b = Eq.
Proof.
  induction xs as [|x xs IH]; intros ys.
  - simpl. split; [|reflexivity]. intros _ [|i]; discriminate.
  - destruct ys as [|y ys]; [simpl; split; [|reflexivity]; intros _ [|i] a b ? H; discriminate|].
    cbn [zip_all_eq]. rewrite andb_true_iff, IH. split.
    + intros [E H] [|i] a b Ha Hb; [|eauto]. injection Ha as <-; injection Hb as <-.
      destruct (compare_token x y); [reflexivity|discriminate|discriminate].
    + intros H. split; [|intros i; apply (H (S i))]. rewrite (H 0 x y); reflexivity.
Qed.
Lemma has_prefix_spec v p : has_prefix v p = true <->
  length (v_tokens p) <= length (v_tokens v) /\
  forall i a b, nth_error (v_tokens v) i = Some a -> nth_error (v_tokens p) i = Some b -> compare_token a b = Eq.
Proof. unfold has_prefix. rewrite andb_true_iff, Nat.leb_le, zip_all_eq_spec. reflexivity. Qed.

(** ** compatible and wildcard *)
Lemma compat_parts_spec cs : forall vs, cs <> [] -> compat_parts vs cs = true <->
  exists pre c x rest, cs = pre ++ [c] /\ vs = pre ++ x :: rest /\ (part_same x c \/ part_below c x).
Proof.
  induction cs as [|c cs IH]; intros vs Hn; [congruence|]. destruct cs as [|c2 cs].
  - destruct vs as [|v vs]; cbn [compat_parts].
    + split; [discriminate|]. intros (pre & ? & ? & ? & _ & H & _). destruct pre; discriminate.
    + unfold is_ge. rewrite negb_true_iff. split.
      * intros H. exists [], c, v, vs. repeat split.
        destruct (part_cmp v c) eqn:E; [left; apply part_cmp_eq, E|discriminate|right; apply part_cmp_gt, E].
      * intros (pre & c' & x & rest & Hc & Hv & Hs). destruct pre as [|? [|]]; try discriminate.
        injection Hc as <-. injection Hv as <- <-. destruct Hs as [Hs|Hs].
        -- apply part_cmp_eq in Hs. rewrite Hs. reflexivity.
        -- apply part_cmp_gt in Hs. rewrite Hs. reflexivity.
  - destruct vs as [|v vs].
    + split; [discriminate|]. intros (pre & ? & ? & ? & _ & H & _). destruct pre; discriminate.
    + change (compat_parts (v :: vs) (c :: c2 :: cs)) with (text_eqb v c && compat_parts vs (c2 :: cs)).
      rewrite andb_true_iff, text_eqb_eq, IH by discriminate. split.
      * intros [-> (pre & d & x & rest & Hc & -> & Hs)]. exists (c :: pre), d, x, rest. rewrite Hc. auto.
      * intros (pre & d & x & rest & Hc & Hv & Hs). destruct pre as [|p pre].
        { simpl in Hc. injection Hc as <- Hc. discriminate. }
        injection Hc as <- Hc. injection Hv as -> ->. split; [reflexivity|]. exists pre, d, x, rest. auto.
Qed.
Lemma wildcard_parts_spec ps : forall vs, wildcard_parts ps vs = true <->
  (ps = vs \/ exists pre post, ps = pre ++ T "*" :: post /\ exists rest, vs = pre ++ rest).
Proof.
  induction ps as [|p ps IH]; intros vs.
  - destruct vs as [|v vs]; simpl; split; auto; try discriminate.
    intros [H|([|] & ? & H & _)]; discriminate.
  - cbn [wildcard_parts]. destruct (text_eqb_spec p (T "*")) as [->|Hp].
    + split; [|reflexivity]. intros _. right. exists [], ps. split; [reflexivity|]. exists vs. reflexivity.
    + destruct vs as [|v vs].
      * split; [discriminate|]. intros [H|(pre & post & H & rest & H')]; [discriminate|].
        destruct pre; [injection H as E _; destruct (Hp E)|discriminate].
      * rewrite andb_true_iff, text_eqb_eq, IH. split.
        -- intros [-> [->|(pre & post & -> & rest & ->)]]; [left; reflexivity|].
           right. exists (v :: pre), post. split; [reflexivity|]. exists rest. reflexivity.
        -- intros [H|(pre & post & H & rest & H')].
           { injection H as -> ->. auto. }
           destruct pre as [|q pre]; [injection H as E _; destruct (Hp E)|].
           injection H as -> ->. injection H' as -> ->. split; [reflexivity|]. right. eauto 6.
Qed.

(** ** satisfaction *)
Section Vind.
  Variable P : vconstraint -> Prop.
  Hypothesis Hmul : forall cs, Forall P cs -> P (CMultiple cs).
  Hypothesis Halt : forall cs, Forall P cs -> P (CAlternative cs).
  Hypothesis Hleaf : forall c, match c with CMultiple _ | CAlternative _ => False | _ => True end -> P c.
  Fixpoint vconstraint_tree_ind (c : vconstraint) : P c :=
    match c with
    | CMultiple cs => Hmul cs ((fix go l : Forall P l := match l with
                       | [] => Forall_nil _ | x :: l' => Forall_cons _ (vconstraint_tree_ind x) (go l') end) cs)
    | CAlternative cs => Halt cs ((fix go l : Forall P l := match l with
                       | [] => Forall_nil _ | x :: l' => Forall_cons _ (vconstraint_tree_ind x) (go l') end) cs)
    | c => Hleaf c I
    end.
End Vind.

Lemma basic_satisfied c ver :
  match c with CMultiple _ | CAlternative _ | CExclude _ => False | _ => True end ->
  c_satisfied c ver = true <-> basic_reading c ver.
Proof.
  intros Hc. unfold basic_reading.
  set (vs := split_on "." (v_str ver)).
  assert (Hvs : dot_parts (v_str ver) vs) by (apply dot_parts_iff; reflexivity).
  assert (Hu : forall vs', dot_parts (v_str ver) vs' -> vs' = vs) by (intros ? H; apply dot_parts_iff in H; exact H).
  assert (Hsp : forall v, let cs := split_on "." (v_str v) in dot_parts (v_str v) cs /\
     (cmp_at_depth ver v = Eq <-> leads_same vs cs) /\
     (cmp_at_depth ver v = Lt <-> leads_below vs cs) /\ (cmp_at_depth ver v = Gt <-> leads_below cs vs)).
  { intros v cs. assert (dot_parts (v_str v) cs) as Hd by (apply dot_parts_iff; reflexivity).
    split; [exact Hd|]. apply cmp_at_depth_spec; assumption. }
  assert (Huc : forall v cs, dot_parts (v_str v) cs -> cs = split_on "." (v_str v))
    by (intros ? ? H; apply dot_parts_iff in H; exact H).
  destruct c; try contradiction; cbn [c_satisfied].
  - destruct (Hsp v) as (Hd & He & _). split.
    + intros H. exists vs. split; [exact Hvs|]. eexists; split; [exact Hd|]. apply He.
      destruct (cmp_at_depth ver v); try discriminate; reflexivity.
    + intros (vs' & H1 & cs & H2 & H3). apply Hu in H1. apply Huc in H2. subst. apply He in H3. rewrite H3. reflexivity.
  - destruct (Hsp v) as (Hd & _ & _ & Hg). split.
    + intros H. exists vs. split; [exact Hvs|]. eexists; split; [exact Hd|]. apply Hg.
      destruct (cmp_at_depth ver v); try discriminate; reflexivity.
    + intros (vs' & H1 & cs & H2 & H3). apply Hu in H1. apply Huc in H2. subst. apply Hg in H3. rewrite H3. reflexivity.
  - destruct (Hsp v) as (Hd & He & _ & Hg). split.
    + intros H. exists vs. split; [exact Hvs|]. eexists; split; [exact Hd|].
      destruct (cmp_at_depth ver v); try discriminate; [right; apply He|left; apply Hg]; reflexivity.
    + intros (vs' & H1 & cs & H2 & H3). apply Hu in H1. apply Huc in H2. subst.
      destruct H3 as [H3|H3]; [apply Hg in H3|apply He in H3]; rewrite H3; reflexivity.
  - destruct (Hsp v) as (Hd & _ & Hl & _). split.
    + intros H. exists vs. split; [exact Hvs|]. eexists; split; [exact Hd|]. apply Hl.
      destruct (cmp_at_depth ver v); try discriminate; reflexivity.
    + intros (vs' & H1 & cs & H2 & H3). apply Hu in H1. apply Huc in H2. subst. apply Hl in H3. rewrite H3. reflexivity.
  - destruct (Hsp v) as (Hd & He & Hl & _). split.
    + intros H. exists vs. split; [exact Hvs|]. eexists; split; [exact Hd|].
      destruct (cmp_at_depth ver v); try discriminate; [right; apply He|left; apply Hl]; reflexivity.
    + intros (vs' & H1 & cs & H2 & H3). apply Hu in H1. apply Huc in H2. subst.
      destruct H3 as [H3|H3]; [apply Hl in H3|apply He in H3]; rewrite H3; reflexivity.
  - destruct (Hsp v) as (Hd & _). rewrite compat_parts_spec by apply split_on_nonnil. split.
    + intros (pre & c & x & rest & Hc' & Hv & Hs). exists vs. split; [exact Hvs|].
      exists pre, c, x, rest. rewrite <- Hc'. auto.
    + intros (vs' & H1 & pre & c & x & rest & Hc' & Hv & Hs). apply Hu in H1. apply Huc in Hc'. subst vs'.
      exists pre, c, x, rest. auto.
  - unfold v_ge, v_lt, is_ge, is_lt. split.
    + intros H. exists vs. split; [exact Hvs|]. apply andb_true_iff in H as [H1 H2].
      destruct (vcmp ver lo), (vcmp ver hi); simpl in *; try discriminate; split; congruence.
    + intros (_ & _ & H1 & H2). rewrite H2. destruct (vcmp ver lo); [reflexivity|congruence|reflexivity].
  - rewrite wildcard_parts_spec. split.
    + intros H. exists vs. split; [exact Hvs|]. exists (split_on "." pattern).
      split; [apply dot_parts_iff; reflexivity|exact H].
    + intros (vs' & H1 & ps & H2 & H3). apply Hu in H1. apply dot_parts_iff in H2. subst. exact H3.
  - rewrite has_prefix_spec. split.
    + intros H. exists vs. split; [exact Hvs|exact H].
    + intros (_ & _ & H). exact H.
  - split; [|reflexivity]. intros _. exists vs. split; [exact Hvs|exact I].
Qed.

Lemma satisfied_meets c ver : c_satisfied c ver = true <-> meets basic_reading ver c.
Proof.
  induction c as [cs IH|cs IH|c Hc] using vconstraint_tree_ind.
  - cbn [c_satisfied]. rewrite forallb_forall. rewrite Forall_forall in IH. split.
    + intros H. constructor. intros c Hin. apply IH, H; exact Hin.
    + intros H. inversion H; subst; [|contradiction]. intros c Hin. apply IH; auto.
  - cbn [c_satisfied]. rewrite existsb_exists. rewrite Forall_forall in IH. split.
    + intros (c & Hin & H). econstructor; [exact Hin|]. apply IH; auto.
    + intros H. inversion H; subst; [|contradiction]. exists c. split; [assumption|]. apply IH; auto.
  - destruct c as [| | | | | | | | |vs| | |]; try contradiction;
      try (rewrite basic_satisfied by exact I; split; intros H;
           [apply meets_leaf; [exact I|exact H]|inversion H; subst; assumption]).
    cbn [c_satisfied]. rewrite negb_true_iff. split.
    + intros H. apply meets_exclude. intros v Hin E.
      rewrite <- not_true_iff_false, existsb_exists in H. apply H. exists v. split; [exact Hin|].
      unfold veq. rewrite E. reflexivity.
    + intros H. inversion H; subst; [|contradiction]. apply not_true_iff_false. rewrite existsb_exists.
      intros (v & Hin & E). unfold veq in E. apply (H1 v Hin). destruct (vcmp ver v); try discriminate; reflexivity.
Qed.

Lemma and_satisfied a b ver : c_satisfied (c_and a b) ver = c_satisfied a ver && c_satisfied b ver.
Proof.
  assert (forall cs o, c_satisfied (CMultiple (cs ++ [o])) ver = c_satisfied (CMultiple cs) ver && c_satisfied o ver) as H.
  { intros. cbn [c_satisfied]. rewrite forallb_app. simpl. rewrite andb_true_r. reflexivity. }
  destruct a; try apply H; destruct b; cbn [c_and c_satisfied forallb]; rewrite ?andb_true_r; reflexivity.
Qed.
Lemma or_satisfied a b ver : c_satisfied (c_or a b) ver = c_satisfied a ver || c_satisfied b ver.
Proof.
  assert (forall cs o, c_satisfied (CAlternative (cs ++ [o])) ver = c_satisfied (CAlternative cs) ver || c_satisfied o ver) as H.
  { intros. cbn [c_satisfied]. rewrite existsb_app. simpl. rewrite orb_false_r. reflexivity. }
  destruct a; try apply H; destruct b; cbn [c_or c_satisfied existsb]; rewrite ?orb_false_r; reflexivity.
Qed.

(** ** conditions *)
Lemma env_satisfied_spec cs env : env_satisfied cs env = true <->
  forall c, In c cs -> xorb (ec_negate c) (env_match env c) = true.
Proof.
  induction cs as [|c cs IH]; cbn [env_satisfied].
  - split; [intros _ ? []|reflexivity].
  - transitivity (xorb (ec_negate c) (env_match env c) = true /\ env_satisfied cs env = true).
    + destruct (ec_negate c), (env_match env c); simpl; intuition congruence.
    + rewrite IH. split; [intros [H1 H2] x [<-|Hx]; auto|]. intros H. split; [apply H; left; reflexivity|].
      intros x Hx. apply H. right. exact Hx.
Qed.
Lemma platform_loop_none p a cs : platform_loop p a cs = None <-> forall c, In c cs -> platform_match p a c = false.
Proof.
  induction cs as [|c cs IH]; cbn [platform_loop]; [split; [intros _ ? []|reflexivity]|].
  destruct (platform_match p a c) eqn:E.
  - split; [discriminate|]. intros H. rewrite H in E by (left; reflexivity). discriminate.
  - rewrite IH. split; [intros H x [<-|Hx]; auto|]. intros H x Hx. apply H. right. exact Hx.
Qed.
Lemma platform_loop_some p a cs b : platform_loop p a cs = Some b ->
  exists c, In c cs /\ platform_match p a c = true /\ b = negb (pc_negate c).
Proof.
  induction cs as [|c cs IH]; cbn [platform_loop]; [discriminate|].
  destruct (platform_match p a c) eqn:E.
  - intros [= <-]. exists c. auto using in_eq.
  - intros H. destruct (IH H) as (x & Hx & H'). exists x. split; [right; exact Hx|exact H'].
Qed.
Lemma platform_positive cs p a : cs <> [] -> (forall c, In c cs -> pc_negate c = false) ->
  platform_satisfied cs p a = true <-> exists c, In c cs /\ platform_match p a c = true.
Proof.
  intros Hn Hp. unfold platform_satisfied. destruct cs as [|c0 cs0] eqn:Ecs; [congruence|]. rewrite <- Ecs in *.
  assert (is_nil cs = false) as -> by (rewrite Ecs; reflexivity).
  destruct (platform_loop p a cs) eqn:E.
  - apply platform_loop_some in E as (c & Hin & Hm & ->). rewrite (Hp c Hin). simpl. split; eauto.
  - rewrite platform_loop_none in E. split.
    + intros H. rewrite forallb_forall in H. assert (In c0 cs) as H0 by (rewrite Ecs; left; reflexivity).
      specialize (Hp c0 H0). rewrite (H c0 H0) in Hp. discriminate.
    + intros (c & Hin & Hm). rewrite E in Hm by exact Hin. discriminate.
Qed.
Lemma platform_negative cs p a : (forall c, In c cs -> pc_negate c = true) ->
  platform_satisfied cs p a = true <-> forall c, In c cs -> platform_match p a c = false.
Proof.
  intros Hp. unfold platform_satisfied. destruct (is_nil cs) eqn:En.
  { apply is_nil_true in En. subst. split; [intros _ ? []|reflexivity]. }
  destruct (platform_loop p a cs) eqn:E.
  - apply platform_loop_some in E as (c & Hin & Hm & ->). rewrite (Hp c Hin). simpl. split; [discriminate|].
    intros H. rewrite (H c Hin) in Hm. discriminate.
  - rewrite platform_loop_none in E. split; [intros _; exact E|]. intros _. apply forallb_forall. exact Hp.
Qed.

(** ** prefixes of canonical versions *)
Lemma has_prefix_canonical v p : canonical_tokens v -> canonical_tokens p ->
  has_prefix v p = true <-> token_prefix p v.
Proof.
  intros (Pv & Sv & Cv) (Pp & Sp & Cp). rewrite has_prefix_spec.
  pose proof (parsed_ok_tokens v Pv Sv) as Ov. pose proof (parsed_ok_tokens p Pp Sp) as Op.
  unfold token_prefix. remember (v_tokens v) as xs eqn:E1. remember (v_tokens p) as ys eqn:E2.
  clear E1 E2 Pv Sv Pp Sp. revert xs Ov Cv. induction ys as [|y ys IH]; intros xs Ov Cv.
  - split; [intros _; exists xs; reflexivity|]. intros _. split; [simpl; lia|]. intros [|i] a b _ H; discriminate.
  - destruct xs as [|x xs].
    + split; [intros [H _]; simpl in H; lia|intros [rest H]; discriminate].
    + inversion Ov as [|? ? [? ?] ?]; inversion Op as [|? ? [? ?] ?]; inversion Cv; inversion Cp; subst.
      specialize (IH ltac:(assumption) ltac:(assumption) xs ltac:(assumption) ltac:(assumption)). split.
      * intros [Hl HH]. assert (x = y) as -> by (apply compare_token_eq; auto; apply (HH 0); reflexivity).
        destruct (proj1 IH) as [rest ->].
        { split; [simpl in Hl; lia|]. intros i. apply (HH (S i)). }
        exists rest. reflexivity.
      * intros [rest [= -> ->]]. destruct (proj2 IH) as [Hl HH]; [exists rest; reflexivity|].
        split; [simpl in *; lia|]. intros [|i] a b Ha Hb; [|eapply HH; eauto].
        injection Ha as <-; injection Hb as <-. apply compare_token_refl.
Qed.
