(** Proofs about the release command, and about a release whose build is skipped. *)
From Verif Require Import Base Base_lemmas Maps Range_model Query_model Release_model Release_spec Release_proofs Release_whole.
Open Scope string_scope.
Open Scope list_scope.

(** ** builds *)
Lemma build_all_spec e is : forall w, let (t, w') := build_all e is w in
  exists pre, r_installed w' = r_installed w ++ pre /\ r_tags w' = r_tags w /\ r_origin w' = r_origin w /\ Forall (fun i => e_build e i = true) pre /\
    match t with None => pre = is | Some u => exists i post, u = BuildFailed i /\ is = pre ++ i :: post /\ e_build e i = false end.
Proof.
  induction is as [|i is IH]; intros w; cbn [build_all]; [exists []; rewrite app_nil_r; repeat split; constructor|]. destruct (e_build e i) eqn:E.
  - specialize (IH (mkRepos (r_installed w ++ [i]) (r_tags w) (r_origin w))). destruct (build_all e is _) as [t w']. destruct IH as (pre & A & B & C & D & X). exists (i :: pre). cbn in A. rewrite <- app_assoc in A.
    split; [exact A|]. split; [exact B|]. split; [exact C|]. split; [constructor; assumption|]. destruct t as [u|]; [|congruence]. destruct X as (j & post & -> & -> & F). exists j, post. repeat split. exact F.
  - exists []. rewrite app_nil_r. repeat split; [constructor|]. exists i, is. repeat split. exact E.
Qed.
Lemma build_all_ok e is w : Forall (fun i => e_build e i = true) is -> build_all e is w = (None, mkRepos (r_installed w ++ is) (r_tags w) (r_origin w)).
Proof.
  intros H. revert w. induction H as [|i is A _ IH]; intros w; cbn [build_all]; [rewrite app_nil_r; destruct w; reflexivity|]. rewrite A, IH. cbn. rewrite <- app_assoc. reflexivity.
Qed.

(** ** the whole command *)
Lemma vcs_git a e : text_eqb (match a_vcs a with Some v => v | None => detect_cli (e_marks e) end) (T "git") = true <-> match a_vcs a with Some v => v = T "git" | None => e_marks e Git = true end.
Proof.
  destruct (a_vcs a) as [v|]; [apply text_eqb_eq|]. unfold detect_cli. destruct (e_marks e Git); [split; reflexivity|]. destruct (e_marks e Svn); [split; discriminate|]. destruct (e_marks e Hg); split; discriminate.
Qed.
Lemma checks a e w : match release_command a e w with (t, w') =>
  (exists p, checks_pass a e w p /\
     (t, w') = (if a_dry a then (None, w) else match variant_indices p (a_variants a) with
             | None => (Some BadVariants, w)
             | Some is => match build_all e is w with (Some t, w1) => (Some t, w1) | (None, w1) => create_git_tag e (tag_name p) (message_of a e p) w1 end end)) \/
  ((forall p, ~ checks_pass a e w p) /\ w' = w /\ exists u, t = Some u) end.
Proof.
  destruct (release_command a e w) as [t w'] eqn:R. unfold release_command in R. destruct (e_package e) as [p|] eqn:P.
  2: { injection R as <- <-. right. split; [intros q (X & _); congruence|]. split; [reflexivity|eexists; reflexivity]. }
  destruct (text_eqb _ (T "git")) eqn:V; cbn [negb] in R.
  2: { injection R as <- <-. right. split; [|split; [reflexivity|eexists; reflexivity]]. intros q (_ & X & _). apply vcs_git in X. congruence. }
  apply vcs_git in V.
  match type of R with context [match ?x with Some t => (Some t, w) | None => _ end] => set (c := x) in R end.
  assert (C : match c with None => a_skip_errors a = true \/ exists b, e_status e = Some (b, []) | Some _ => ~ (a_skip_errors a = true \/ exists b, e_status e = Some (b, [])) end).
  { unfold c. destruct (a_skip_errors a); [left; reflexivity|]. destruct (e_status e) as [[b s]|]; [|intros [X|[b X]]; discriminate X]. destruct s; cbn; [right; exists b; reflexivity|]. intros [X|[b' X]]; discriminate X. }
  destruct c as [u|].
  { injection R as <- <-. right. split; [|split; [reflexivity|eexists; reflexivity]]. intros q (_ & _ & X & _). contradiction. }
  destruct (negb (a_ignore_tag a) && ahas (tag_name p) (r_tags w)) eqn:G.
  { injection R as <- <-. apply andb_true_iff in G as [G1 G2]. right. split; [|split; [reflexivity|eexists; reflexivity]]. intros q (X & _ & _ & Y). rewrite P in X. injection X as <-. destruct Y as [Y|Y]; [rewrite Y in G1; discriminate G1|congruence]. }
  left. exists p. split; [|rewrite <- R; unfold message_of; reflexivity]. split; [exact P|]. split; [exact V|]. split; [exact C|].
  apply andb_false_iff in G as [G|G]; [left; destruct (a_ignore_tag a); [reflexivity|discriminate G]|right; exact G].
Qed.
Lemma checks_unique a e w p q : checks_pass a e w p -> checks_pass a e w q -> p = q.
Proof. intros (A & _) (B & _). congruence. Qed.

Lemma command_success a e w w' : a_dry a = false -> (release_command a e w = (None, w') <->
  exists p is, checks_pass a e w p /\ variant_indices p (a_variants a) = Some is /\ Forall (fun i => e_build e i = true) is /\ ahas (tag_name p) (r_tags w) = false /\ e_tag_ok e = true /\ e_push e = PushOk /\
    w' = mkRepos (r_installed w ++ is) (aput (tag_name p) (message_of a e p) (r_tags w)) (aput (tag_name p) (message_of a e p) (r_origin w))).
Proof.
  intros D. pose proof (checks a e w) as H. destruct (release_command a e w) as [t v] eqn:R. rewrite D in H. split.
  - intros [= -> ->]. destruct H as [(p & C & E)|(_ & _ & u & X)]; [|discriminate X]. destruct (variant_indices p (a_variants a)) as [is|] eqn:V; [|discriminate E].
    pose proof (build_all_spec e is w) as B. destruct (build_all e is w) as [[u|] w1]; [discriminate E|]. destruct B as (pre & B1 & B2 & B3 & B4 & ->). unfold create_git_tag in E. rewrite B2, B3 in E.
    destruct (e_tag_ok e) eqn:T1; [|discriminate E]. destruct (ahas (tag_name p) (r_tags w)) eqn:T2; [discriminate E|]. cbn in E. destruct (e_push e) eqn:P; try discriminate E. injection E as ->.
    exists p, is. split; [exact C|]. split; [exact V|]. split; [exact B4|]. split; [first [exact T2|reflexivity]|]. split; [first [exact T1|reflexivity]|]. split; [first [exact P|reflexivity]|]. rewrite B1. reflexivity.
  - intros (p & is & C & V & B & G & T1 & P & ->). destruct H as [(q & C' & E)|(N & _)]; [|destruct (N p C)]. rewrite <- (checks_unique a e w p q C C') in E. rewrite V, (build_all_ok e is w B) in E.
    unfold create_git_tag in E. cbn in E. rewrite T1, G, P in E. exact E.
Qed.
Lemma put_del t m (ts : tags) : ahas t ts = false -> forall n, aget n (adel t (aput t m ts)) = aget n ts.
Proof.
  intros H n. destruct (text_eqb n t) eqn:E.
  - apply text_eqb_eq in E as ->. rewrite aget_del_same. symmetry. apply aget_none. intros J. apply ahas_in in J. congruence.
  - assert (N : n <> t) by (intros ->; rewrite (proj2 (text_eqb_eq t t) eq_refl) in E; discriminate E). rewrite aget_del_other, aget_put_other by exact N. reflexivity.
Qed.
Lemma command_failure a e w u w' : release_command a e w = (Some u, w') -> r_origin w' = r_origin w /\ (e_delete_ok e = true -> forall n, aget n (r_tags w') = aget n (r_tags w)) /\
  exists pre, r_installed w' = r_installed w ++ pre /\ (pre = [] \/ exists p is, e_package e = Some p /\ variant_indices p (a_variants a) = Some is /\ exists post, is = pre ++ post).
Proof.
  intros R. pose proof (checks a e w) as H. rewrite R in H. destruct H as [(p & C & E)|(_ & -> & _)].
  2: { split; [reflexivity|]. split; [reflexivity|]. exists []. rewrite app_nil_r. split; [reflexivity|left; reflexivity]. }
  destruct (a_dry a); [discriminate E|]. destruct (variant_indices p (a_variants a)) as [is|] eqn:V.
  2: { injection E as -> ->. split; [reflexivity|]. split; [reflexivity|]. exists []. rewrite app_nil_r. split; [reflexivity|left; reflexivity]. }
  pose proof (build_all_spec e is w) as B. destruct (build_all e is w) as [[x|] w1].
  - injection E as -> ->. destruct B as (pre & B1 & B2 & B3 & _ & i & post & _ & Q & _). rewrite B2. split; [exact B3|]. split; [reflexivity|]. exists pre. split; [exact B1|]. right. exists p, is. split; [apply C|]. split; [exact V|]. exists (i :: post). exact Q.
  - destruct B as (pre & B1 & B2 & B3 & _ & ->). unfold create_git_tag in E. rewrite B2, B3 in E. destruct (negb (e_tag_ok e) || ahas (tag_name p) (r_tags w)) eqn:G.
    + injection E as -> ->. rewrite B2. split; [exact B3|]. split; [reflexivity|]. exists is. split; [exact B1|]. right. exists p, is. split; [apply C|]. split; [exact V|]. exists []. rewrite app_nil_r. reflexivity.
    + apply orb_false_iff in G as [_ G]. assert (Q : exists pre, r_installed w1 = r_installed w ++ pre /\ (pre = [] \/ exists p is, e_package e = Some p /\ variant_indices p (a_variants a) = Some is /\ exists post, is = pre ++ post)).
      { exists is. split; [exact B1|]. right. exists p, is. split; [apply C|]. split; [exact V|]. exists []. rewrite app_nil_r. reflexivity. }
      destruct (e_push e); [discriminate E| |]; (destruct (e_delete_ok e); injection E as -> ->; cbn; (split; [reflexivity|split; [intros Z; try discriminate Z; intros n; rewrite (put_del _ _ _ G); reflexivity|exact Q]])).
Qed.

(** ** indices of variants *)
Lemma existsb_some i (l : list nat) : existsb (fun j => match j, Some i with Some a, Some b => Nat.eqb a b | None, None => true | _, _ => false end) (map Some l) = true <-> In i l.
Proof.
  rewrite existsb_exists. split.
  - intros (x & J & E). apply in_map_iff in J as (y & <- & J). apply Nat.eqb_eq in E as ->. exact J.
  - intros J. exists (Some i). split; [apply in_map, J|]. apply Nat.eqb_refl.
Qed.
Lemma firsts_unique {A} (xs l : list A) : firsts xs l -> forall l', firsts xs l' -> l = l'.
Proof.
  induction 1 as [|xs l x H IH J|xs l x H IH J]; intros l' H'.
  - inversion H' as [|ys m y _ _ E|ys m y _ _ E]; [reflexivity| |]; destruct ys; discriminate E.
  - inversion H' as [E|ys m y H1 J1 E|ys m y H1 J1 E]; subst; [destruct xs; discriminate E| |]; apply app_inj_tail in E as [-> ->]; [exact (IH _ H1)|]. rewrite (IH _ H1) in J. contradiction.
  - inversion H' as [E|ys m y H1 J1 E|ys m y H1 J1 E]; subst; [destruct xs; discriminate E| |]; apply app_inj_tail in E as [-> ->]; [rewrite (IH _ H1) in J; contradiction|]. rewrite (IH _ H1). reflexivity.
Qed.
Lemma read_spec n vs : forall xs l0 r, firsts xs l0 -> (read_indices n vs (map Some l0) = Some r <->
  exists ns l, Forall2 (fun v k => parse_u64 v = Some (N.of_nat k)) vs ns /\ Forall (fun k => k < n) ns /\ firsts (xs ++ ns) l /\ r = map Some l).
Proof.
  induction vs as [|v vs IH]; intros xs l0 r F; cbn [read_indices].
  - split.
    + intros [= <-]. exists [], l0. rewrite app_nil_r. repeat split; try constructor. exact F.
    + intros (ns & l & A & _ & B & ->). inversion A; subst. rewrite app_nil_r in B. rewrite (firsts_unique _ _ F _ B). reflexivity.
  - destruct (parse_u64 v) as [k|] eqn:P.
    2: { split; [discriminate|]. intros (ns & l & A & _). inversion A; subst. congruence. }
    destruct (N.of_nat n <=? k)%N eqn:L.
    { apply N.leb_le in L. split; [discriminate|]. intros (ns & l & A & B & _). inversion A; subst. inversion B; subst. rewrite P in H1. injection H1 as ->. lia. }
    apply N.leb_gt in L. pose proof (existsb_some (N.to_nat k) l0) as X.
    assert (Y : exists l1, firsts (xs ++ [N.to_nat k]) l1 /\ map Some l1 = (if existsb (fun j => match j, Some (N.to_nat k) with Some a, Some b => Nat.eqb a b | None, None => true | _, _ => false end) (map Some l0) then map Some l0 else map Some l0 ++ [Some (N.to_nat k)])).
    { destruct (existsb _ (map Some l0)).
      - exists l0. split; [apply firsts_old; [exact F|apply X; reflexivity]|reflexivity].
      - exists (l0 ++ [N.to_nat k]). split; [|rewrite map_app; reflexivity]. apply firsts_new; [exact F|]. intros J. apply X in J. discriminate J. }
    destruct Y as (l1 & F1 & E). cbv zeta. rewrite <- E. rewrite (IH _ _ r F1). split.
    + intros (ns & l & A & B & C & D). exists (N.to_nat k :: ns), l. split; [constructor; [rewrite N2Nat.id; exact P|exact A]|]. split; [constructor; [lia|exact B]|]. split; [rewrite <- app_assoc in C; exact C|exact D].
    + intros (ns & l & A & B & C & D). inversion A as [|? i ? ms Q A']; subst. inversion B; subst. rewrite P in Q. injection Q as Q. exists ms, l. split; [exact A'|]. split; [assumption|]. split; [|reflexivity].
      rewrite <- app_assoc. cbn. rewrite Q, Nat2N.id. exact C.
Qed.
Lemma firsts_nonnil {A} (xs l : list A) : firsts xs l -> (l = [] <-> xs = []).
Proof.
  induction 1 as [|xs l x H IH J|xs l x H IH J]; [tauto| |]; split; intros E; try (destruct xs; discriminate E); try (destruct l; discriminate E). subst. destruct J.
Qed.
Lemma indices_spec p ps r : k_variants p <> [] -> ps <> [] -> Forall (fun t => ~ In ","%char t) ps ->
  (variant_indices p (Some (join [","%char] ps)) = Some r <->
   exists ns l, Forall2 (fun v k => parse_u64 v = Some (N.of_nat k)) (filter (fun t => negb (is_nil t)) (map trim ps)) ns /\ Forall (fun k => k < length (k_variants p)) ns /\ ns <> [] /\ firsts ns l /\ r = map Some l).
Proof.
  intros V N F. unfold variant_indices. destruct (k_variants p) as [|v vs] eqn:E; [contradiction|]. rewrite (split_join ","%char ps N F).
  match goal with |- context [read_indices _ ?x []] => set (vals := x) end. pose proof (read_spec (length (v :: vs)) vals [] [] ) as R. change (map Some (@nil nat)) with (@nil (option nat)) in R.
  destruct (read_indices (length (v :: vs)) vals []) as [q|] eqn:Q.
  - destruct (proj1 (R q firsts_nil) eq_refl) as (ns & l & A & B & C & ->). cbn in C. split.
    + intros H. destruct l as [|x l]; cbn in H; [discriminate H|]. injection H as <-. exists ns, (x :: l). split; [exact A|]. split; [exact B|]. split; [|split; [exact C|reflexivity]]. intros ->. apply (firsts_nonnil _ _) in C as [_ C]. discriminate (C eq_refl).
    + intros (ns' & l' & A' & B' & NN & C' & ->). assert (Z : Some (map Some l) = Some (map Some l')) by (apply (proj2 (R (map Some l') firsts_nil)); exists ns', l'; repeat split; assumption).
      injection Z as Z. rewrite Z. destruct l' as [|x l']; [|reflexivity]. apply (firsts_nonnil _ _) in C' as [C' _]. destruct (NN (C' eq_refl)).
  - split; [discriminate|]. intros (ns' & l' & A' & B' & NN & C' & ->). pose proof (proj2 (R (map Some l') firsts_nil)) as Z. assert (None = Some (map Some l')) by (apply Z; exists ns', l'; repeat split; assumption). discriminate.
Qed.

(** ** a release whose build is skipped *)
Section Skipped.
Context (o : around).
Lemma skipped m source message d ts p : usual source -> readable o d source p -> m_mode m <> DryRun -> m_skip_build m = true -> used o m source d = Some Git ->
  v_lookup (o_repo o Git) = true -> v_make (o_repo o Git) = true -> ahas (tag_name p) ts = false -> ~ In (install_path o (m_mode m) p) (d_dirs d) ->
  exists s, release o m source message d ts = Failed s /\ s_disk s = d /\ ahas (tag_name p) (s_tags s) = true.
Proof.
  intros U R N SB K L M TN TD. rewrite (release_parts o m source message d ts p U R N). cbn zeta. set (target := install_path o (m_mode m) p) in *.
  destruct (validated o m source d ts) as (s2 & -> & A2 & B2 & _). rewrite SB, K. cbn iota beta.
  match goal with |- context [create_vcs_tag o Git p message ?x] => set (s4 := x) end.
  assert (S4 : s_disk s4 = d /\ s_tags s4 = ts).
  { unfold s4. destruct (m_skip_tests m); [split; assumption|]. destruct (run_tests_spec o source target s2) as (_ & (X & _) & Y & _). split; congruence. }
  destruct S4 as [D4 T4].
  set (s5 := create_vcs_tag o Git p message s4).
  assert (S5 : s_disk s5 = d /\ ahas (tag_name p) (s_tags s5) = true).
  { unfold s5, create_vcs_tag, tag_exists. rewrite L. cbn [negb]. rewrite T4, TN. unfold create_tag. rewrite M. cbn [negb]. rewrite TN. cbn. split; [exact D4|]. apply ahas_in, akeys_put. left. reflexivity. }
  destruct S5 as [D5 T5].
  destruct (changelog_spec o target Git s5) as (_ & D6 & T6 & _). set (s6 := generate_changelog o Git s5) in *.
  assert (NM : mem_text target (d_dirs d) = false) by (destruct (mem_text target (d_dirs d)) eqn:E; [apply mem_in in E; contradiction|reflexivity]).
  assert (D6' : s_disk s6 = d) by congruence.
  assert (W : forall n c, write_in (o_refuse o) d target n c = None) by (intros; unfold write_in; rewrite NM; reflexivity).
  set (s7 := write_metadata o (Some Git) target s6).
  assert (S7 : s_disk s7 = d /\ s_tags s7 = s_tags s6).
  { unfold s7, write_metadata. destruct (v_meta (o_repo o Git)); [|split; [exact D6'|reflexivity]]. rewrite D6', W. split; [exact D6'|reflexivity]. }
  destruct S7 as [D7 T7]. unfold install_definition. rewrite D7, (usual_py source U), (usual_yaml source U).
  destruct R as (f & n & c & F & C & _).
  assert (Z : forall q, copy_in (o_refuse o) d (path_join source q) target q = None) by (intros q; unfold copy_in; destruct (content d (path_join source q)); [apply W|reflexivity]).
  destruct F as [(Ff & -> & _)|(Ff & -> & X & Y & _)]; subst f.
  - rewrite (exists_content _ _ _ C), Z. eexists. split; [reflexivity|]. cbn [err s_disk s_tags]. split; [exact D7|rewrite T7, T6; exact T5].
  - rewrite (not_exists _ _ X Y), (exists_content _ _ _ C), Z. eexists. split; [reflexivity|]. cbn [err s_disk s_tags]. split; [exact D7|rewrite T7, T6; exact T5].
Qed.
End Skipped.
