(** Proofs about the generated scripts: quoting, and what bash reads. *)
From Verif Require Import Base Base_lemmas Maps Sorting Order_spec Range_model Requirement_text Rex_model Rex_spec Rex_proofs.
Open Scope char_scope.

(** ** Scripts do not depend on the order of the maps *)
Lemma filter_perm {A} (f : A -> bool) l l' : Permutation l l' -> Permutation (filter f l) (filter f l').
Proof.
  induction 1 as [|x l l' H IH|x y l|l l' l'' H1 IH1 H2 IH2]; [constructor| | |eapply Permutation_trans; eassumption]; cbn [filter].
  - destruct (f x); [constructor|]; exact IH.
  - destruct (f x), (f y); try constructor; apply Permutation_refl.
Qed.
Definition key_cmp (a b : text * text) : comparison := text_cmp (fst a) (fst b).
Lemma TPO_key : TPO (fun _ => True) key_cmp.
Proof. exact (TPO_map fst (fun _ => True) text_cmp TPO_text). Qed.
Lemma same_key_one (a : text * text) l : NoDup (map fst l) -> length (filter (fun y => is_eq (key_cmp a y)) l) <= 1.
Proof.
  induction l as [|x l IH]; intros H; [cbn; lia|]. cbn [map] in H. inversion H as [|? ? Hx Hl]; subst. cbn [filter].
  destruct (is_eq (key_cmp a x)) eqn:E; [|apply IH, Hl].
  assert (K : fst a = fst x). { unfold key_cmp in E. destruct (text_cmp (fst a) (fst x)) eqn:E'; try discriminate. apply text_cmp_eq, E'. }
  assert (N : filter (fun y => is_eq (key_cmp a y)) l = []).
  { destruct (filter _ l) as [|y r] eqn:F; [reflexivity|]. assert (Hy : In y (filter (fun y => is_eq (key_cmp a y)) l)) by (rewrite F; left; reflexivity).
    apply filter_In in Hy as [Hy E']. unfold key_cmp in E'. destruct (text_cmp (fst a) (fst y)) eqn:E''; try discriminate. apply text_cmp_eq in E''.
    destruct Hx. rewrite <- K, E''. apply in_map, Hy. }
  rewrite N. cbn. lia.
Qed.
Lemma by_key_perm ord m : any_order ord -> Permutation (by_key ord m) m.
Proof. intros H. unfold by_key. eapply Permutation_trans; [apply sort_perm|apply H]. Qed.
Lemma Forall_true {A} (l : list A) : Forall (fun _ => True) l.
Proof. apply Forall_forall. auto. Qed.
Lemma by_key_order ord1 ord2 m : any_order ord1 -> any_order ord2 -> NoDup (map fst m) -> by_key ord1 m = by_key ord2 m.
Proof.
  intros H1 H2 Hn. apply (stable_sorted_unique key_cmp (fun _ => True) TPO_key).
  - apply Forall_true.
  - apply Forall_true.
  - apply (sort_chain _ _ TPO_key), Forall_true.
  - apply (sort_chain _ _ TPO_key), Forall_true.
  - eapply Permutation_trans; [apply by_key_perm, H1|apply Permutation_sym, by_key_perm, H2].
  - intros a _.
    assert (P1 := filter_perm (fun y => is_eq (key_cmp a y)) _ _ (by_key_perm ord1 m H1)).
    assert (P2 := filter_perm (fun y => is_eq (key_cmp a y)) _ _ (by_key_perm ord2 m H2)).
    assert (L := same_key_one a m Hn).
    destruct (filter _ m) as [|x [|y r]].
    + apply Permutation_sym, Permutation_nil in P1. apply Permutation_sym, Permutation_nil in P2. congruence.
    + apply Permutation_sym, Permutation_length_1_inv in P1. apply Permutation_sym, Permutation_length_1_inv in P2. congruence.
    + cbn in L. lia.
Qed.
Lemma by_key_sorted ord m : sorted_by key_cmp (by_key ord m).
Proof. apply (sort_sorted _ _ TPO_key), Forall_true. Qed.

Lemma scripts_order ord1 ord2 e : any_order ord1 -> any_order ord2 -> NoDup (map fst (e_vars e)) -> NoDup (map fst (e_aliases e)) ->
  bash_script ord1 e = bash_script ord2 e /\ fish_script ord1 e = fish_script ord2 e /\
  cmd_script ord1 e = cmd_script ord2 e /\ ps_script ord1 e = ps_script ord2 e.
Proof.
  intros H1 H2 Hv Ha. unfold bash_script, fish_script, cmd_script, ps_script.
  rewrite (by_key_order ord1 ord2 (e_vars e)), (by_key_order ord1 ord2 (e_aliases e)) by assumption. auto.
Qed.

(** ** Character by character *)
Lemma replace_char_app x v a b : replace_char x v (a ++ b) = replace_char x v a ++ replace_char x v b.
Proof. apply flat_map_app. Qed.
Definition esc_dq1 (c : ascii) : text := if Ascii.eqb c DQ then [BS; DQ] else if Ascii.eqb c BS then [BS; BS] else [c].
Ltac case_char c := match goal with |- context [Ascii.eqb c ?d] => destruct (Ascii.eqb_spec c d); [subst; cbn|] end.
Lemma esc_dq_cons c v : esc_dq (c :: v) = esc_dq1 c ++ esc_dq v.
Proof.
  unfold esc_dq. change (replace_char BS [BS; BS] (c :: v)) with ((if Ascii.eqb c BS then [BS; BS] else [c]) ++ replace_char BS [BS; BS] v).
  rewrite replace_char_app. f_equal. unfold esc_dq1.
  destruct (Ascii.eqb_spec c BS) as [->|N]; [reflexivity|]. cbn [replace_char flat_map]. rewrite app_nil_r.
  destruct (Ascii.eqb c DQ); reflexivity.
Qed.
Lemma ce_bash_cons c v : ce_bash (c :: v) = (if Ascii.eqb c DQ || Ascii.eqb c "$" || Ascii.eqb c BT then [BS; c] else [c]) ++ ce_bash v.
Proof.
  unfold ce_bash. change (replace_char DQ [BS; DQ] (c :: v)) with ((if Ascii.eqb c DQ then [BS; DQ] else [c]) ++ replace_char DQ [BS; DQ] v).
  rewrite !replace_char_app. f_equal.
  destruct (Ascii.eqb_spec c DQ) as [->|N1]; [reflexivity|]. destruct (Ascii.eqb_spec c "$") as [->|N2]; [reflexivity|].
  destruct (Ascii.eqb_spec c BT) as [->|N3]; [reflexivity|]. cbn [orb replace_char flat_map]. rewrite app_nil_r.
  destruct (Ascii.eqb_spec c "$"); [contradiction|]. cbn [flat_map]. rewrite app_nil_r.
  destruct (Ascii.eqb_spec c BT); [contradiction|reflexivity].
Qed.
Lemma ce_fish_cons c v : ce_fish (c :: v) = (if Ascii.eqb c DQ || Ascii.eqb c "$" then [BS; c] else [c]) ++ ce_fish v.
Proof.
  unfold ce_fish. change (replace_char DQ [BS; DQ] (c :: v)) with ((if Ascii.eqb c DQ then [BS; DQ] else [c]) ++ replace_char DQ [BS; DQ] v).
  rewrite !replace_char_app. f_equal.
  destruct (Ascii.eqb_spec c DQ) as [->|N1]; [reflexivity|]. destruct (Ascii.eqb_spec c "$") as [->|N2]; [reflexivity|].
  cbn [orb replace_char flat_map]. rewrite app_nil_r. destruct (Ascii.eqb_spec c "$"); [contradiction|reflexivity].
Qed.
Lemma ce_ps_cons c v : ce_ps (c :: v) = (if Ascii.eqb c DQ || Ascii.eqb c "$" then [BT; c] else [c]) ++ ce_ps v.
Proof.
  unfold ce_ps. change (replace_char DQ [BT; DQ] (c :: v)) with ((if Ascii.eqb c DQ then [BT; DQ] else [c]) ++ replace_char DQ [BT; DQ] v).
  rewrite !replace_char_app. f_equal.
  destruct (Ascii.eqb_spec c DQ) as [->|N1]; [reflexivity|]. destruct (Ascii.eqb_spec c "$") as [->|N2]; [reflexivity|].
  cbn [orb replace_char flat_map]. rewrite app_nil_r. destruct (Ascii.eqb_spec c "$"); [contradiction|reflexivity].
Qed.

(** ** Double quotes in bash *)
Lemma no_expansion_cons c v :
  no_expansion (c :: v) <-> c <> "`" /\ (c = "$" -> match v with d :: _ => starts_expansion d = false | [] => True end) /\ no_expansion v.
Proof.
  unfold no_expansion. split.
  - intros [H1 H2]. repeat split.
    + intros ->. apply H1. left. reflexivity.
    + intros ->. destruct v as [|d v]; [exact I|]. apply (H2 [] d v). reflexivity.
    + intros H. apply H1. right. exact H.
    + intros a d b ->. apply (H2 (c :: a) d b). reflexivity.
  - intros (H1 & H2 & H3 & H4). split.
    + intros [H|H]; [congruence|auto].
    + intros [|x a] d b E; cbn in E; injection E as -> E.
      * subst v. apply (H2 eq_refl).
      * apply (H4 a d b E).
Qed.
Lemma keep_ok {A} (o : option (text * A)) c v r :
  match o with Some (t, x) => Some (c :: t, x) | None => None end = Some (c :: v, r) <-> o = Some (v, r).
Proof. destruct o as [[t x]|]; split; intros H; try discriminate; injection H as -> ->; reflexivity. Qed.
(** one step of [bash_dq] on a character that is not special *)
Lemma bash_dq_plain c r : c <> """" -> c <> "`" -> c <> "$" -> c <> "\" ->
  bash_dq (c :: r) = match bash_dq r with Some (t, x) => Some (c :: t, x) | None => None end.
Proof.
  intros H1 H2 H3 H4. cbn [bash_dq].
  destruct (Ascii.eqb_spec c """"); [contradiction|]. destruct (Ascii.eqb_spec c "`"); [contradiction|].
  destruct (Ascii.eqb_spec c "$"); [contradiction|]. destruct (Ascii.eqb_spec c "\"); [contradiction|]. reflexivity.
Qed.
Lemma bash_dq_dollar d r : bash_dq ("$" :: d :: r) = if starts_expansion d then None else
  match bash_dq (d :: r) with Some (t, x) => Some ("$" :: t, x) | None => None end.
Proof. reflexivity. Qed.
Lemma bash_dq_esc d r : existsb (Ascii.eqb d) ["$"; "`"; """"; "\"] = true ->
  bash_dq ("\" :: d :: r) = match bash_dq r with Some (t, x) => Some (d :: t, x) | None => None end.
Proof.
  intros H. change (bash_dq ("\" :: d :: r)) with
    (if Ascii.eqb d "010" then bash_dq r else if existsb (Ascii.eqb d) ["$"; "`"; """"; "\"] then
       match bash_dq r with Some (t, x) => Some (d :: t, x) | None => None end
     else match bash_dq (d :: r) with Some (t, x) => Some ("\" :: t, x) | None => None end).
  destruct (Ascii.eqb_spec d "010") as [->|]; [discriminate|]. rewrite H. reflexivity.
Qed.
Lemma bash_dq_bs d r : bash_protects d = false ->
  bash_dq ("\" :: d :: r) = match bash_dq (d :: r) with Some (t, x) => Some ("\" :: t, x) | None => None end.
Proof.
  intros H. change (bash_dq ("\" :: d :: r)) with
    (if Ascii.eqb d "010" then bash_dq r else if existsb (Ascii.eqb d) ["$"; "`"; """"; "\"] then
       match bash_dq r with Some (t, x) => Some (d :: t, x) | None => None end
     else match bash_dq (d :: r) with Some (t, x) => Some ("\" :: t, x) | None => None end).
  unfold bash_protects in H. cbn [existsb] in *. rewrite !orb_false_iff in H. destruct H as (-> & -> & -> & -> & -> & _). reflexivity.
Qed.
Lemma esc_dq_head v rest : exists d x, esc_dq v ++ DQ :: rest = d :: x /\
  starts_expansion d = match v with c :: _ => starts_expansion c | [] => false end.
Proof.
  destruct v as [|c v]; [exists DQ, rest; auto|]. rewrite esc_dq_cons. unfold esc_dq1.
  destruct (Ascii.eqb_spec c DQ) as [->|_]; [eexists _, _; split; [reflexivity|reflexivity]|].
  destruct (Ascii.eqb_spec c BS) as [->|_]; eexists _, _; (split; [reflexivity|reflexivity]).
Qed.
Lemma rex_bash_value v rest : bash_dq (esc_dq v ++ DQ :: rest) = Some (v, rest) <-> no_expansion v.
Proof.
  induction v as [|c v IH].
  - split; [|reflexivity]. intros _. split; [intros []|]. intros [|x a] d b E; discriminate.
  - rewrite no_expansion_cons, <- IH. rewrite esc_dq_cons, <- app_assoc. unfold esc_dq1.
    destruct (Ascii.eqb_spec c DQ) as [->|N1].
    { cbn [app]. rewrite bash_dq_esc by reflexivity. rewrite keep_ok. unfold DQ. split; [intros H; repeat split; [discriminate|discriminate|exact H]|tauto]. }
    destruct (Ascii.eqb_spec c BS) as [->|N2].
    { cbn [app]. rewrite bash_dq_esc by reflexivity. rewrite keep_ok. unfold BS. split; [intros H; repeat split; [discriminate|discriminate|exact H]|tauto]. }
    cbn [app]. destruct (Ascii.eqb_spec c "`") as [->|N3].
    { cbn. split; [discriminate|intros [H _]; congruence]. }
    destruct (Ascii.eqb_spec c "$") as [->|N4].
    { destruct (esc_dq_head v rest) as (d & x & E & Hd). rewrite E, bash_dq_dollar, Hd. destruct v as [|c v].
      - rewrite keep_ok, <- E. tauto.
      - destruct (starts_expansion c).
        + split; [discriminate|]. intros (_ & H & _). specialize (H eq_refl). discriminate.
        + rewrite keep_ok, <- E. tauto. }
    rewrite bash_dq_plain by assumption. rewrite keep_ok. tauto.
Qed.
Lemma no_escape_cons p c v : no_escape p (c :: v) -> (c = "\" -> match v with d :: _ => p d = false | [] => False end) /\ no_escape p v.
Proof.
  intros [H1 H2]. split; [|split].
  - intros ->. destruct v as [|d v]; [apply (H1 []); reflexivity|]. apply (H2 [] d v). reflexivity.
  - intros a ->. apply (H1 (c :: a)). reflexivity.
  - intros a d b ->. apply (H2 (c :: a) d b). reflexivity.
Qed.
Lemma context_bash_value v rest : no_escape bash_protects v -> bash_dq (ce_bash v ++ DQ :: rest) = Some (v, rest).
Proof.
  induction v as [|c v IH]; intros H; [reflexivity|]. apply no_escape_cons in H as [H1 H2]. specialize (IH H2).
  rewrite ce_bash_cons, <- app_assoc.
  destruct (Ascii.eqb_spec c DQ) as [->|N1]; [cbn [orb app]; rewrite bash_dq_esc by reflexivity; rewrite IH; reflexivity|].
  destruct (Ascii.eqb_spec c "$") as [->|N2]; [cbn [orb app]; rewrite bash_dq_esc by reflexivity; rewrite IH; reflexivity|].
  destruct (Ascii.eqb_spec c BT) as [->|N3]; [cbn [orb app]; rewrite bash_dq_esc by reflexivity; rewrite IH; reflexivity|].
  cbn [orb app]. destruct (Ascii.eqb_spec c "\") as [->|N4].
  - specialize (H1 eq_refl). destruct v as [|d v]; [contradiction|].
    assert (E : exists x, ce_bash (d :: v) ++ DQ :: rest = d :: x).
    { rewrite ce_bash_cons. assert (K : Ascii.eqb d DQ || Ascii.eqb d "$" || Ascii.eqb d BT = false).
      { unfold bash_protects in H1. cbn [existsb] in H1. rewrite !orb_false_iff in H1. destruct H1 as (-> & K1 & K2 & _). unfold BT, DQ. rewrite K1, K2. reflexivity. }
      rewrite K. eexists. reflexivity. }
    destruct E as [x E]. rewrite E in *. rewrite bash_dq_bs by exact H1. rewrite IH. reflexivity.
  - rewrite bash_dq_plain by assumption. rewrite IH. reflexivity.
Qed.
Lemma esc_dq_only_cons c v : esc_dq_only (c :: v) = (if Ascii.eqb c DQ then [BS; DQ] else [c]) ++ esc_dq_only v.
Proof. reflexivity. Qed.
Lemma source_value v rest : no_escape bash_protects v -> no_expansion v -> bash_dq (esc_dq_only v ++ DQ :: rest) = Some (v, rest).
Proof.
  induction v as [|c v IH]; intros H G; [reflexivity|]. apply no_escape_cons in H as [H1 H2]. apply no_expansion_cons in G as (G1 & G2 & G3).
  specialize (IH H2 G3). rewrite esc_dq_only_cons, <- app_assoc.
  destruct (Ascii.eqb_spec c DQ) as [->|N1]; [cbn [app]; rewrite bash_dq_esc by reflexivity; rewrite IH; reflexivity|].
  cbn [app]. destruct (Ascii.eqb_spec c "$") as [->|N2].
  - assert (E : exists d x, esc_dq_only v ++ DQ :: rest = d :: x /\ starts_expansion d = false).
    { destruct v as [|d v]; [eexists _, _; split; [reflexivity|reflexivity]|]. specialize (G2 eq_refl). rewrite esc_dq_only_cons.
      destruct (Ascii.eqb_spec d DQ) as [->|N]; [eexists _, _; split; [reflexivity|reflexivity]|]. eexists _, _. split; [reflexivity|exact G2]. }
    destruct E as (d & x & E & Hd). rewrite E, bash_dq_dollar, Hd, <- E, IH. reflexivity.
  - destruct (Ascii.eqb_spec c "\") as [->|N4].
    + specialize (H1 eq_refl). destruct v as [|d v]; [contradiction|].
      assert (E : exists x, esc_dq_only (d :: v) ++ DQ :: rest = d :: x).
      { rewrite esc_dq_only_cons. destruct (Ascii.eqb_spec d DQ) as [->|N]; [discriminate|]. eexists. reflexivity. }
      destruct E as [x E]. rewrite E in *. rewrite bash_dq_bs by exact H1. rewrite IH. reflexivity.
    + rewrite bash_dq_plain by assumption. rewrite IH. reflexivity.
Qed.
(** ** Single quotes *)
Lemma alias_value v rest : (rest = [] \/ exists r, rest = NL :: r) -> bash_word false (SQ :: esc_sq v ++ SQ :: rest) = Some (v, rest).
Proof.
  intros H. change (bash_word true (esc_sq v ++ SQ :: rest) = Some (v, rest)). induction v as [|c v IH].
  - change (bash_word false rest = Some ([], rest)). destruct H as [->|[r ->]]; reflexivity.
  - change (esc_sq (c :: v)) with ((if Ascii.eqb c SQ then [SQ; BS; SQ; SQ] else [c]) ++ esc_sq v). rewrite <- app_assoc.
    destruct (Ascii.eqb_spec c SQ) as [->|N].
    + change (match bash_word true (esc_sq v ++ SQ :: rest) with Some (t, x) => Some (SQ :: t, x) | None => None end = Some (SQ :: v, rest)).
      rewrite IH. reflexivity.
    + cbn [app bash_word]. destruct (Ascii.eqb_spec c "'") as [E|_]; [contradiction|]. rewrite IH. reflexivity.
Qed.
Lemma powershell_value v rest : (forall r, rest <> SQ :: r) -> ps_sq (esc_ps v ++ SQ :: rest) = Some (v, rest).
Proof.
  intros H. induction v as [|c v IH].
  - cbn. destruct rest as [|d r]; [reflexivity|]. destruct (Ascii.eqb_spec d "'") as [->|]; [destruct (H r); reflexivity|reflexivity].
  - change (esc_ps (c :: v)) with ((if Ascii.eqb c SQ then [SQ; SQ] else [c]) ++ esc_ps v). rewrite <- app_assoc.
    destruct (Ascii.eqb_spec c SQ) as [->|N].
    + change (match ps_sq (esc_ps v ++ SQ :: rest) with Some (t, x) => Some (SQ :: t, x) | None => None end = Some (SQ :: v, rest)).
      rewrite IH. reflexivity.
    + cbn [app ps_sq]. destruct (Ascii.eqb_spec c "'") as [E|_]; [contradiction|]. rewrite IH. reflexivity.
Qed.
Lemma context_ps_value v rest : ~ In "`" v -> (forall r, rest <> DQ :: r) -> ps_dq (ce_ps v ++ DQ :: rest) = Some (v, rest).
Proof.
  intros H Hr. induction v as [|c v IH].
  - cbn. destruct rest as [|d r]; [reflexivity|]. destruct (Ascii.eqb_spec d """") as [->|]; [destruct (Hr r); reflexivity|reflexivity].
  - specialize (IH (fun K => H (or_intror K))). rewrite ce_ps_cons, <- app_assoc.
    destruct (Ascii.eqb_spec c DQ) as [->|N1].
    { cbn [orb app]. change (match ps_dq (ce_ps v ++ DQ :: rest) with Some (t, x) => Some (DQ :: t, x) | None => None end = Some (DQ :: v, rest)). rewrite IH. reflexivity. }
    destruct (Ascii.eqb_spec c "$") as [->|N2].
    { cbn [orb app]. change (match ps_dq (ce_ps v ++ DQ :: rest) with Some (t, x) => Some ("$" :: t, x) | None => None end = Some ("$" :: v, rest)). rewrite IH. reflexivity. }
    cbn [orb app ps_dq]. destruct (Ascii.eqb_spec c """") as [E|_]; [contradiction|].
    destruct (Ascii.eqb_spec c "`") as [->|_]; [destruct H; left; reflexivity|]. destruct (Ascii.eqb_spec c "$") as [E|_]; [contradiction|].
    rewrite IH. reflexivity.
Qed.
(** ** fish *)
Lemma fish_dq_esc d r : existsb (Ascii.eqb d) ["$"; """"; "\"] = true ->
  fish_dq ("\" :: d :: r) = match fish_dq r with Some (t, x) => Some (d :: t, x) | None => None end.
Proof.
  intros H. change (fish_dq ("\" :: d :: r)) with
    (if Ascii.eqb d "010" then fish_dq r else if existsb (Ascii.eqb d) ["$"; """"; "\"] then
       match fish_dq r with Some (t, x) => Some (d :: t, x) | None => None end
     else match fish_dq (d :: r) with Some (t, x) => Some ("\" :: t, x) | None => None end).
  destruct (Ascii.eqb_spec d "010") as [->|]; [discriminate|]. rewrite H. reflexivity.
Qed.
Lemma fish_dq_bs d r : fish_protects d = false ->
  fish_dq ("\" :: d :: r) = match fish_dq (d :: r) with Some (t, x) => Some ("\" :: t, x) | None => None end.
Proof.
  intros H. change (fish_dq ("\" :: d :: r)) with
    (if Ascii.eqb d "010" then fish_dq r else if existsb (Ascii.eqb d) ["$"; """"; "\"] then
       match fish_dq r with Some (t, x) => Some (d :: t, x) | None => None end
     else match fish_dq (d :: r) with Some (t, x) => Some ("\" :: t, x) | None => None end).
  unfold fish_protects in H. cbn [existsb] in *. rewrite !orb_false_iff in H. destruct H as (-> & -> & -> & -> & _). reflexivity.
Qed.
Lemma fish_dq_plain c r : c <> """" -> c <> "$" -> c <> "\" ->
  fish_dq (c :: r) = match fish_dq r with Some (t, x) => Some (c :: t, x) | None => None end.
Proof.
  intros H1 H3 H4. cbn [fish_dq].
  destruct (Ascii.eqb_spec c """"); [contradiction|].
  destruct (Ascii.eqb_spec c "$"); [contradiction|]. destruct (Ascii.eqb_spec c "\"); [contradiction|]. reflexivity.
Qed.
Lemma rex_fish_value v rest : fish_dq (esc_dq v ++ DQ :: rest) = Some (v, rest) <-> ~ In "$" v.
Proof.
  induction v as [|c v IH]; [split; [intros _ []|reflexivity]|]. rewrite esc_dq_cons, <- app_assoc. unfold esc_dq1. cbn [In].
  destruct (Ascii.eqb_spec c DQ) as [->|N1].
  { cbn [app]. rewrite fish_dq_esc by reflexivity. rewrite keep_ok, IH. unfold DQ. intuition discriminate. }
  destruct (Ascii.eqb_spec c BS) as [->|N2].
  { cbn [app]. rewrite fish_dq_esc by reflexivity. rewrite keep_ok, IH. unfold BS. intuition discriminate. }
  cbn [app]. destruct (Ascii.eqb_spec c "$") as [->|N4].
  { cbn. split; [discriminate|tauto]. }
  rewrite fish_dq_plain by assumption. rewrite keep_ok, IH. tauto.
Qed.
Lemma context_fish_value v rest : no_escape fish_protects v -> fish_dq (ce_fish v ++ DQ :: rest) = Some (v, rest).
Proof.
  induction v as [|c v IH]; intros H; [reflexivity|]. apply no_escape_cons in H as [H1 H2]. specialize (IH H2).
  rewrite ce_fish_cons, <- app_assoc.
  destruct (Ascii.eqb_spec c DQ) as [->|N1]; [cbn [orb app]; rewrite fish_dq_esc by reflexivity; rewrite IH; reflexivity|].
  destruct (Ascii.eqb_spec c "$") as [->|N2]; [cbn [orb app]; rewrite fish_dq_esc by reflexivity; rewrite IH; reflexivity|].
  cbn [orb app]. destruct (Ascii.eqb_spec c "\") as [->|N4].
  - specialize (H1 eq_refl). destruct v as [|d v]; [contradiction|].
    assert (E : exists x, ce_fish (d :: v) ++ DQ :: rest = d :: x).
    { rewrite ce_fish_cons. assert (K : Ascii.eqb d DQ || Ascii.eqb d "$" = false).
      { unfold fish_protects in H1. cbn [existsb] in H1. rewrite !orb_false_iff in H1. destruct H1 as (-> & K1 & _). unfold DQ. rewrite K1. reflexivity. }
      rewrite K. eexists. reflexivity. }
    destruct E as [x E]. rewrite E in *. rewrite fish_dq_bs by exact H1. rewrite IH. reflexivity.
  - rewrite fish_dq_plain by assumption. rewrite IH. reflexivity.
Qed.

(** ** Whole scripts in bash *)
Definition line_end (rest : text) : Prop := rest = [] \/ exists r, rest = NL :: r.
(** [L] is a line (or several) that reads as [ss], whatever follows *)
Definition ReadsAs (L : text) (ss : list stmt) : Prop :=
  forall rest out, line_end rest -> Reads (tl rest) out -> Reads (L ++ rest) (ss ++ out).
Lemma reads_nil : Reads [] [].
Proof. exists 1. intros [|f] H; [lia|reflexivity]. Qed.
Lemma reads_nil_inv out : Reads [] out -> out = [].
Proof. intros [n H]. specialize (H (S n) ltac:(lia)). injection H as <-. reflexivity. Qed.
Lemma as_blank : ReadsAs [] [].
Proof.
  intros rest out [->|[r ->]] H; cbn [app tl] in *; [exact H|].
  destruct H as [n H]. exists (S n). intros [|f] Hf; [lia|]. cbn. apply H. lia.
Qed.
Lemma skip_line_app a rest : ~ In NL a -> line_end rest -> skip_line (a ++ rest) = tl rest.
Proof.
  intros Ha Hr. induction a as [|c a IH].
  - destruct Hr as [->|[r ->]]; reflexivity.
  - cbn [app skip_line]. destruct (Ascii.eqb_spec c "010") as [->|_]; [destruct Ha; left; reflexivity|].
    apply IH. intros K. apply Ha. right. exact K.
Qed.
Lemma as_comment a : ~ In NL a -> ReadsAs ("#" :: a) [].
Proof.
  intros Ha rest out Hr [n H]. exists (S n). intros [|f] Hf; [lia|]. cbn [app].
  change (bash_reads f (skip_line (a ++ rest)) = Some out). rewrite skip_line_app by assumption. apply H. lia.
Qed.
Lemma name_until_ok n x : shell_word n -> name_until "=" (n ++ "=" :: x) = Some (n, x).
Proof.
  intros [_ H]. induction n as [|c n IH]; [reflexivity|]. cbn [forallb] in H. apply andb_true_iff in H as [Hc Hn]. cbn [app name_until].
  destruct (Ascii.eqb_spec c "=") as [->|_]; [discriminate|]. rewrite Hc, (IH Hn). reflexivity.
Qed.
Lemma end_ok rest : line_end rest -> end_of_line rest = Some (tl rest).
Proof. intros [->|[r ->]]; reflexivity. Qed.
Lemma as_export n v : shell_name n -> no_expansion v -> ReadsAs (T "export " ++ n ++ ["="; DQ] ++ esc_dq v ++ [DQ]) [Export n v].
Proof.
  intros Hn Hv rest out Hr [m H]. exists (S m). intros [|f] Hf; [lia|].
  replace ((T "export " ++ n ++ ["="; DQ] ++ esc_dq v ++ [DQ]) ++ rest) with (T "export " ++ (n ++ "=" :: DQ :: esc_dq v ++ DQ :: rest))
    by (rewrite <- !app_assoc; reflexivity).
  assert (E : forall x, bash_reads (S f) (T "export " ++ x) =
    match name_until "=" x with
    | Some (n, """" :: y) => if digit_first n then None else match bash_dq y with Some (v, z) =>
        match end_of_line z with Some x => match bash_reads f x with Some l => Some (Export n v :: l) | None => None end | None => None end | None => None end
    | _ => None end) by reflexivity.
  destruct Hn as [Hn Hf']. rewrite E, (name_until_ok _ _ Hn), Hf'. unfold DQ at 1. rewrite (proj2 (rex_bash_value v rest) Hv), (end_ok _ Hr), H by lia. reflexivity.
Qed.
Lemma as_alias n v : shell_word n -> ReadsAs (T "alias " ++ n ++ ["="; SQ] ++ esc_sq v ++ [SQ]) [Aliased n v].
Proof.
  intros Hn rest out Hr [m H]. exists (S m). intros [|f] Hf; [lia|].
  replace ((T "alias " ++ n ++ ["="; SQ] ++ esc_sq v ++ [SQ]) ++ rest) with (T "alias " ++ (n ++ "=" :: SQ :: esc_sq v ++ SQ :: rest))
    by (rewrite <- !app_assoc; reflexivity).
  assert (E : forall x, bash_reads (S f) (T "alias " ++ x) =
    match name_until "=" x with
    | Some (n, y) => match bash_word false y with Some (v, z) =>
        match end_of_line z with Some x => match bash_reads f x with Some l => Some (Aliased n v :: l) | None => None end | None => None end | None => None end
    | _ => None end) by reflexivity.
  rewrite E, (name_until_ok _ _ Hn), (alias_value v rest Hr), (end_ok _ Hr), H by lia. reflexivity.
Qed.
Lemma as_source p : no_escape bash_protects p -> no_expansion p -> ReadsAs (T "source " ++ [DQ] ++ esc_dq_only p ++ [DQ]) [Sourced p].
Proof.
  intros Hp Hv rest out Hr [m H]. exists (S m). intros [|f] Hf; [lia|].
  replace ((T "source " ++ [DQ] ++ esc_dq_only p ++ [DQ]) ++ rest) with (T "source """ ++ (esc_dq_only p ++ DQ :: rest))
    by (change (T "source """) with (T "source " ++ [DQ]); rewrite <- !app_assoc; reflexivity).
  assert (E : forall x, bash_reads (S f) (T "source """ ++ x) =
    match bash_dq x with Some (v, z) =>
        match end_of_line z with Some x => match bash_reads f x with Some l => Some (Sourced v :: l) | None => None end | None => None end | None => None end) by reflexivity.
  rewrite E, (source_value p rest Hp Hv), (end_ok _ Hr), H by lia. reflexivity.
Qed.
Lemma reads_join (ls : list (text * list stmt)) : (forall x, In x ls -> ReadsAs (fst x) (snd x)) ->
  Reads (join [NL] (map fst ls)) (flat_map snd ls).
Proof.
  induction ls as [|[L ss] ls IH]; intros H; [apply reads_nil|].
  assert (HL : ReadsAs L ss) by (apply (H (L, ss)); left; reflexivity).
  assert (Hls : forall x, In x ls -> ReadsAs (fst x) (snd x)) by (intros x Hx; apply H; right; exact Hx).
  specialize (IH Hls). cbn [map fst flat_map snd]. destruct ls as [|y ls].
  - cbn [map flat_map]. cbn [join]. rewrite <- (app_nil_r L). apply HL; [left; reflexivity|apply reads_nil].
  - rewrite join_cons by discriminate. apply HL; [right; eexists; reflexivity|exact IH].
Qed.
Definition as_lines (ls : list text) (ss : list (list stmt)) : list (text * list stmt) := combine ls ss.
Lemma esc_sq_no_nl m : ~ In NL m -> ~ In NL (esc_sq m).
Proof.
  intros H K. unfold esc_sq, replace_char in K. apply in_flat_map in K as (c & Hc & K). destruct (Ascii.eqb c SQ).
  - destruct K as [K|[K|[K|[K|[]]]]]; discriminate.
  - destruct K as [->|[]]. exact (H Hc).
Qed.
Lemma bash_script_reads ord e :
  any_order ord -> e_startup e = [] ->
  (forall k v, In (k, v) (e_vars e) -> shell_name k /\ no_expansion v) ->
  (forall k v, In (k, v) (e_aliases e) -> shell_word k) ->
  (forall p, In p (e_sourced e) -> no_escape bash_protects p /\ no_expansion p) ->
  (forall m, In m (e_infos e) -> ~ In NL m) ->
  Reads (bash_script ord e)
    (map (fun kv => Export (fst kv) (snd kv)) (by_key ord (e_vars e)) ++
     map (fun kv => Aliased (fst kv) (snd kv)) (by_key ord (e_aliases e)) ++ map Sourced (e_sourced e)).
Proof.
  intros Ho Hs Hv Ha Hp Hi. unfold bash_script. rewrite Hs. cbn [is_nil].
  set (vs := by_key ord (e_vars e)). set (als := by_key ord (e_aliases e)).
  set (pair_v := fun kv : text * text => (T "export " ++ fst kv ++ ["="; DQ] ++ esc_dq (snd kv) ++ [DQ], [Export (fst kv) (snd kv)])).
  set (pair_a := fun kv : text * text => (T "alias " ++ fst kv ++ ["="; SQ] ++ esc_sq (snd kv) ++ [SQ], [Aliased (fst kv) (snd kv)])).
  set (pair_s := fun p : text => (T "source " ++ [DQ] ++ esc_dq_only p ++ [DQ], [Sourced p])).
  set (pair_i := fun m : text => (T "# [info] " ++ esc_sq m, @nil stmt)).
  set (plain := fun l : text => (l, @nil stmt)).
  set (ls := map plain [T "# Generated by rez-next rex"; []]
     ++ map pair_v vs ++ map plain (blank_if (negb (is_nil (e_vars e)) && negb (is_nil (e_aliases e)))) ++ map pair_a als
     ++ (if is_nil (e_sourced e) then [] else map plain [[]; T "# Sourced scripts"] ++ map pair_s (e_sourced e))
     ++ (if is_nil (e_infos e) then [] else map plain [[]; T "# Info messages"] ++ map pair_i (e_infos e))).
  assert (E1 : map fst ls = [T "# Generated by rez-next rex"; []]
     ++ map (fun kv => T "export " ++ fst kv ++ ["="; DQ] ++ esc_dq (snd kv) ++ [DQ]) vs
     ++ blank_if (negb (is_nil (e_vars e)) && negb (is_nil (e_aliases e)))
     ++ map (fun kv => T "alias " ++ fst kv ++ ["="; SQ] ++ esc_sq (snd kv) ++ [SQ]) als
     ++ []
     ++ (if is_nil (e_sourced e) then [] else [[]; T "# Sourced scripts"] ++ map (fun p => T "source " ++ [DQ] ++ esc_dq_only p ++ [DQ]) (e_sourced e))
     ++ (if is_nil (e_infos e) then [] else [[]; T "# Info messages"] ++ map (fun m => T "# [info] " ++ esc_sq m) (e_infos e))).
  { unfold ls. rewrite !map_app, !map_map. cbn [app]. destruct (is_nil (e_sourced e)), (is_nil (e_infos e)); rewrite ?map_app, ?map_map, ?map_id; reflexivity. }
  assert (E2 : flat_map snd ls = map (fun kv => Export (fst kv) (snd kv)) vs ++ map (fun kv => Aliased (fst kv) (snd kv)) als ++ map Sourced (e_sourced e)).
  { assert (F : forall A (f : A -> text * list stmt) (g : A -> stmt) l, (forall x, snd (f x) = [g x]) -> flat_map snd (map f l) = map g l).
    { intros A f g l H. induction l as [|x l IH]; [reflexivity|]. cbn [map flat_map]. rewrite H, IH. reflexivity. }
    assert (G : forall A (f : A -> text * list stmt) l, (forall x, snd (f x) = []) -> flat_map snd (map f l) = []).
    { intros A f l H. induction l as [|x l IH]; [reflexivity|]. cbn [map flat_map]. rewrite H, IH. reflexivity. }
    unfold ls. rewrite !flat_map_app.
    rewrite (F _ pair_v (fun kv => Export (fst kv) (snd kv))) by reflexivity. rewrite (F _ pair_a (fun kv => Aliased (fst kv) (snd kv))) by reflexivity.
    rewrite !(G _ plain) by reflexivity. cbn [app]. f_equal. f_equal.
    destruct (e_sourced e) as [|p ps]; cbn [is_nil].
    - cbn [flat_map app map]. destruct (is_nil (e_infos e)); [reflexivity|]. apply (G _ pair_i). reflexivity.
    - rewrite flat_map_app, (G _ plain), (F _ pair_s Sourced) by reflexivity. cbn [app].
      destruct (is_nil (e_infos e)); [cbn [flat_map]; apply app_nil_r|]. rewrite flat_map_app, (G _ plain), (G _ pair_i) by reflexivity. apply app_nil_r. }
  change (if true then @nil (list ascii) else [[]; T "# Startup commands"] ++ []) with (@nil text).
  rewrite <- E1, <- E2. apply reads_join.
  assert (HC : forall a, ~ In NL a -> ReadsAs ("#" :: a) []) by apply as_comment.
  assert (NI : forall a, existsb (Ascii.eqb NL) a = false -> ~ In NL a).
  { intros a H K. apply not_true_iff_false in H. apply H. apply existsb_exists. exists NL. split; [exact K|apply Ascii.eqb_refl]. }
  intros x Hx. unfold ls in Hx. rewrite !in_app_iff in Hx.
  destruct Hx as [Hx|[Hx|[Hx|[Hx|[Hx|Hx]]]]].
  - destruct Hx as [<-|[<-|[]]]; [|apply as_blank]. apply (HC (T " Generated by rez-next rex")), NI. reflexivity.
  - apply in_map_iff in Hx as ([k v] & <- & Hx). unfold vs in Hx. apply (Permutation_in _ (by_key_perm ord _ Ho)) in Hx.
    apply Hv in Hx as [H1 H2]. apply as_export; assumption.
  - apply in_map_iff in Hx as (l & <- & Hx). destruct (negb _ && negb _); [|destruct Hx]. destruct Hx as [<-|[]]. apply as_blank.
  - apply in_map_iff in Hx as ([k v] & <- & Hx). unfold als in Hx. apply (Permutation_in _ (by_key_perm ord _ Ho)) in Hx.
    apply Ha in Hx. apply as_alias, Hx.
  - destruct (is_nil (e_sourced e)); [destruct Hx|]. apply in_app_iff in Hx as [[<-|[<-|[]]]|Hx].
    + apply as_blank.
    + apply (HC (T " Sourced scripts")), NI. reflexivity.
    + apply in_map_iff in Hx as (p & <- & Hx). apply Hp in Hx as [H1 H2]. apply as_source; assumption.
  - destruct (is_nil (e_infos e)); [destruct Hx|]. apply in_app_iff in Hx as [[<-|[<-|[]]]|Hx].
    + apply as_blank.
    + apply (HC (T " Info messages")), NI. reflexivity.
    + apply in_map_iff in Hx as (m & <- & Hx). apply (HC (T " [info] " ++ esc_sq m)). intros K. apply in_app_iff in K as [K|K].
      * apply (NI (T " [info] ")) in K; [exact K|reflexivity].
      * exact (esc_sq_no_nl m (Hi m Hx) K).
Qed.
Lemma exported_vars (vs als : list (text * text)) (ss : list text) x : NoDup (map fst vs) ->
  exported (map (fun kv => Export (fst kv) (snd kv)) vs ++ map (fun kv => Aliased (fst kv) (snd kv)) als ++ map Sourced ss) x = aget x vs.
Proof.
  intros Hn. unfold exported. rewrite !fold_left_app.
  assert (FA : forall l o, fold_left (fun o s => match s with Export n v => if text_eqb x n then Some v else o | _ => o end) (map (fun kv : text * text => Aliased (fst kv) (snd kv)) l) o = o)
    by (induction l; intros; [reflexivity|apply IHl]).
  assert (FS : forall l o, fold_left (fun o s => match s with Export n v => if text_eqb x n then Some v else o | _ => o end) (map Sourced l) o = o)
    by (induction l; intros; [reflexivity|apply IHl]).
  rewrite FS, FA.
  assert (FE : forall l o, NoDup (map fst l) -> fold_left (fun o s => match s with Export n v => if text_eqb x n then Some v else o | _ => o end) (map (fun kv : text * text => Export (fst kv) (snd kv)) l) o
     = match aget x l with Some v => Some v | None => o end).
  { induction l as [|[k v] l IH]; intros o H; [reflexivity|]. cbn [map fst snd fold_left aget] in *. inversion H as [|? ? Hk Hl]; subst. rewrite IH by exact Hl.
    destruct (text_eqb_spec x k) as [->|]; [|reflexivity]. apply aget_none in Hk. unfold akeys in Hk. rewrite Hk. reflexivity. }
  rewrite FE by exact Hn. destruct (aget x vs); reflexivity.
Qed.
