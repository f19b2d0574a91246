(** Proofs about contexts and the variables of the packages. *)
From Coq Require Import Sorted.
From Verif Require Import Base Base_lemmas Text_lemmas Maps Sorting Order_spec Version_model Package_model Requirement_model.
From Verif Require Import Rex_model Rex_spec Rex_proofs Rex_shell Rex_parse Env_model Env_spec Env_proofs Env_gen Env_path Env_misc.
Open Scope char_scope.

(** ** Variables of the packages *)
Lemma upper_idem s : upper (upper s) = upper s.
Proof. unfold upper. rewrite map_map. apply map_ext. intros [[] [] [] [] [] [] [] []]; reflexivity. Qed.
Lemma upper_app a b : upper (a ++ b) = upper a ++ upper b. Proof. apply map_app. Qed.
Lemma root_name_key win n : environment_key win (upper n ++ T "_ROOT") = upper n ++ T "_ROOT".
Proof. destruct win; [|reflexivity]. cbn [environment_key]. rewrite upper_app, upper_idem. reflexivity. Qed.
Lemma version_name_key win n : environment_key win (upper n ++ T "_VERSION") = upper n ++ T "_VERSION".
Proof. destruct win; [|reflexivity]. cbn [environment_key]. rewrite upper_app, upper_idem. reflexivity. Qed.
Lemma root_not_version a b : upper a ++ T "_ROOT" <> upper b ++ T "_VERSION".
Proof. intros H. apply (f_equal (@rev ascii)) in H. rewrite !rev_app_distr in H. discriminate H. Qed.
Lemma long_not_path a b : 4 < length b -> ~ pathlike (a ++ b).
Proof. unfold pathlike. intros H E. apply (f_equal (@length ascii)) in E. rewrite map_length, app_length in E. cbn in E. lia. Qed.
Lemma vars_assign ps : filter assigns (flat_map package_vars ps) = flat_map package_vars ps.
Proof.
  apply filter_id. intros a Ha. apply in_flat_map in Ha as [p [_ Ha]]. unfold package_vars in Ha.
  destruct Ha as [<-|Ha]; [reflexivity|]. destruct (ep_version p); [destruct Ha as [<-|[]]; reflexivity|destruct Ha].
Qed.
Lemma package_vars_eq p : package_vars p =
  Setenv (upper (ep_name p) ++ T "_ROOT") (package_root p) :: match ep_version p with Some v => [Setenv (upper (ep_name p) ++ T "_VERSION") v] | None => [] end.
Proof. reflexivity. Qed.
Lemma hits_root win n p : upper (ep_name p) <> upper n -> filter (hits (upper n ++ T "_ROOT")) (map (keyed win) (package_vars p)) = [].
Proof.
  intros H. rewrite package_vars_eq. cbn [map keyed]. fold (environment_key win (upper (ep_name p) ++ T "_ROOT")).
  change (if win then map to_upper (upper (ep_name p) ++ T "_ROOT") else upper (ep_name p) ++ T "_ROOT") with (environment_key win (upper (ep_name p) ++ T "_ROOT")).
  rewrite root_name_key. cbn [filter]. unfold hits at 1. cbn [writes].
  destruct (text_eqb_spec (upper (ep_name p) ++ T "_ROOT") (upper n ++ T "_ROOT")) as [E|_]; [apply app_inv_tail in E; contradiction|].
  destruct (ep_version p) as [v|]; [|reflexivity]. cbn [map keyed filter].
  change (if win then map to_upper (upper (ep_name p) ++ T "_VERSION") else upper (ep_name p) ++ T "_VERSION") with (environment_key win (upper (ep_name p) ++ T "_VERSION")).
  rewrite version_name_key. unfold hits. cbn [writes].
  destruct (text_eqb_spec (upper (ep_name p) ++ T "_VERSION") (upper n ++ T "_ROOT")) as [E|_]; [symmetry in E; destruct (root_not_version _ _ E)|reflexivity].
Qed.
Lemma hits_version win n p : upper (ep_name p) <> upper n -> filter (hits (upper n ++ T "_VERSION")) (map (keyed win) (package_vars p)) = [].
Proof.
  intros H. rewrite package_vars_eq. cbn [map keyed].
  change (if win then map to_upper (upper (ep_name p) ++ T "_ROOT") else upper (ep_name p) ++ T "_ROOT") with (environment_key win (upper (ep_name p) ++ T "_ROOT")).
  rewrite root_name_key. cbn [filter]. unfold hits at 1. cbn [writes].
  destruct (text_eqb_spec (upper (ep_name p) ++ T "_ROOT") (upper n ++ T "_VERSION")) as [E|_]; [destruct (root_not_version _ _ E)|].
  destruct (ep_version p) as [v|]; [|reflexivity]. cbn [map keyed filter].
  change (if win then map to_upper (upper (ep_name p) ++ T "_VERSION") else upper (ep_name p) ++ T "_VERSION") with (environment_key win (upper (ep_name p) ++ T "_VERSION")).
  rewrite version_name_key. unfold hits. cbn [writes].
  destruct (text_eqb_spec (upper (ep_name p) ++ T "_VERSION") (upper n ++ T "_VERSION")) as [E|_]; [apply app_inv_tail in E; contradiction|reflexivity].
Qed.
Lemma hits_self win p :
  filter (hits (upper (ep_name p) ++ T "_ROOT")) (map (keyed win) (package_vars p)) = [Setenv (upper (ep_name p) ++ T "_ROOT") (package_root p)] /\
  filter (hits (upper (ep_name p) ++ T "_VERSION")) (map (keyed win) (package_vars p)) =
    match ep_version p with Some v => [Setenv (upper (ep_name p) ++ T "_VERSION") v] | None => [] end.
Proof.
  rewrite package_vars_eq. cbn [map keyed].
  change (if win then map to_upper (upper (ep_name p) ++ T "_ROOT") else upper (ep_name p) ++ T "_ROOT") with (environment_key win (upper (ep_name p) ++ T "_ROOT")).
  rewrite root_name_key.
  assert (Q : forall v, map (keyed win) [Setenv (upper (ep_name p) ++ T "_VERSION") v] = [Setenv (upper (ep_name p) ++ T "_VERSION") v]).
  { intros v. cbn [map keyed].
    change (if win then map to_upper (upper (ep_name p) ++ T "_VERSION") else upper (ep_name p) ++ T "_VERSION") with (environment_key win (upper (ep_name p) ++ T "_VERSION")).
    rewrite version_name_key. reflexivity. }
  assert (A1 : text_eqb (upper (ep_name p) ++ T "_ROOT") (upper (ep_name p) ++ T "_VERSION") = false)
    by (destruct (text_eqb_spec (upper (ep_name p) ++ T "_ROOT") (upper (ep_name p) ++ T "_VERSION")) as [E|_]; [destruct (root_not_version _ _ E)|reflexivity]).
  assert (A2 : text_eqb (upper (ep_name p) ++ T "_VERSION") (upper (ep_name p) ++ T "_ROOT") = false)
    by (destruct (text_eqb_spec (upper (ep_name p) ++ T "_VERSION") (upper (ep_name p) ++ T "_ROOT")) as [E|_]; [symmetry in E; destruct (root_not_version _ _ E)|reflexivity]).
  destruct (ep_version p) as [v|]; [rewrite Q|]; cbn [map filter]; unfold hits; cbn [writes]; rewrite !text_eqb_refl, A1, ?A2; split; reflexivity.
Qed.
Lemma hits_all win x (g : epackage -> list action) ps p : In p ps -> NoDup (map (fun p => upper (ep_name p)) ps) ->
  (forall p', upper (ep_name p') <> upper (ep_name p) -> filter (hits x) (map (keyed win) (package_vars p')) = []) ->
  filter (hits x) (map (keyed win) (package_vars p)) = g p ->
  filter (hits x) (map (keyed win) (flat_map package_vars ps)) = g p.
Proof.
  intros Hp N Ho Hs.
  assert (Z : forall l, ~ In (upper (ep_name p)) (map (fun p => upper (ep_name p)) l) -> filter (hits x) (map (keyed win) (flat_map package_vars l)) = []).
  { induction l as [|p' l IH]; intros H; [reflexivity|]. cbn [flat_map]. rewrite map_app, filter_app, Ho, IH; [reflexivity| |]; cbn in H; intros E; apply H; auto. }
  induction ps as [|p' ps IH]; [destruct Hp|]. cbn in N. inversion N as [|? ? Hn N']; subst. cbn [flat_map]. rewrite map_app, filter_app.
  destruct Hp as [->|Hp].
  - rewrite Hs, (Z ps Hn), app_nil_r. reflexivity.
  - rewrite (IH Hp N'), Ho; [reflexivity|]. intros E. apply Hn. rewrite E. apply in_map_iff. exists p. auto.
Qed.
Lemma package_var w c base ps vars cmds extra e p x (v : option text) :
  any_order (w_keys w) -> script w c ps vars cmds extra -> generate w c base ps = Some e -> In p ps ->
  NoDup (map (fun p => upper (ep_name p)) ps) ->
  x = upper (ep_name p) ++ T "_ROOT" /\ v = Some (package_root p) \/ x = upper (ep_name p) ++ T "_VERSION" /\ v = ep_version p /\ v <> None ->
  (forall a, In a (cmds ++ extra) -> assigns a = true -> writes (keyed (w_win w) a) <> Some x) ->
  ~ In (Resetenv x) cmds -> ~ In x (map (environment_key (w_win w)) (c_unset c)) ->
  aget x (e_vars e) = v.
Proof.
  intros Ho Hs Hg Hp N Hx Hw Hr Hu. destruct (live_exists (others cmds)) as [r Hl].
  assert (Hq := on_var_filter x (map (keyed (w_win w)) (filter assigns (vars ++ cmds ++ extra)))).
  assert (Np : ~ pathlike x) by (destruct Hx as [[-> _]|[-> _]]; apply long_not_path; cbn; lia).
  destruct (env_var w c base ps vars cmds extra e x _ r Ho Hs Hg Hq Hl Np) as [_ E]. rewrite E.
  2: { intros K. apply (live_in _ _ Hl) in K. apply filter_In in K as [K _]. contradiction. }
  2: exact Hu.
  assert (Zc : filter (hits x) (map (keyed (w_win w)) (filter assigns (cmds ++ extra))) = []).
  { clear - Hw. induction (cmds ++ extra) as [|a l IH]; [reflexivity|]. cbn [filter]. destruct (assigns a) eqn:Ea.
    - cbn [map filter]. unfold hits at 1. destruct (writes (keyed (w_win w) a)) as [n|] eqn:En.
      + destruct (text_eqb_spec n x) as [->|]; [exfalso; exact (Hw a (or_introl eq_refl) Ea En)|]. apply IH. intros b Hb. apply Hw. right. exact Hb.
      + apply IH. intros b Hb. apply Hw. right. exact Hb.
    - apply IH. intros b Hb. apply Hw. right. exact Hb. }
  rewrite filter_app, map_app, filter_app, Zc, app_nil_r.
  assert (Ev : vars = flat_map package_vars ps) by apply Hs. rewrite Ev, vars_assign. destruct (hits_self (w_win w) p) as [S1 S2].
  destruct Hx as [[-> ->]|(-> & -> & Hv)].
  - rewrite (hits_all (w_win w) _ (fun p => [Setenv (upper (ep_name p) ++ T "_ROOT") (package_root p)]) ps p Hp N); [reflexivity| |exact S1].
    intros p' Hn. apply hits_root, Hn.
  - destruct (ep_version p) as [v|] eqn:Evp; [|congruence].
    rewrite (hits_all (w_win w) _ (fun p => [Setenv (upper (ep_name p) ++ T "_VERSION") v]) ps p Hp N); [reflexivity| |exact S2].
    intros p' Hn. apply hits_version, Hn.
Qed.

(** ** Validation *)
Lemma package_valid_spec p : package_valid p = true <-> well_formed p.
Proof.
  unfold package_valid, well_formed. rewrite !andb_true_iff, !forallb_forall.
  assert (N : forall l : list text, (forall x, In x l -> negb (is_nil x) = true) <-> ~ In [] l).
  { intros l. split; [intros H K; apply H in K; discriminate|intros H [|c x] Hx; [contradiction|reflexivity]]. }
  rewrite !N.
  assert (N1 : negb (is_nil (cp_name p)) = true <-> cp_name p <> []) by (destruct (cp_name p); split; [intros H; discriminate H|intros H; congruence|intros _ H; discriminate H|reflexivity]).
  assert (N2 : (forall c, In c (cp_name p) -> is_alnum c || Ascii.eqb c "_" || Ascii.eqb c "-" = true) <->
               (forall c, In c (cp_name p) -> is_alnum c = true \/ c = "_" \/ c = "-")).
  { split; intros H c Hc; specialize (H c Hc); rewrite ?orb_true_iff, ?Ascii.eqb_eq in *; tauto. }
  assert (N3 : (match p_version (cp_package p) with Some v => negb (is_nil (v_str v)) | None => true end = true) <->
               (forall v, p_version (cp_package p) = Some v -> v_str v <> [])).
  { destruct (p_version (cp_package p)) as [v|]; [|split; [discriminate|reflexivity]]. split.
    - intros H u [= <-]. destruct (v_str v); [discriminate|congruence].
    - intros H. specialize (H v eq_refl). destruct (v_str v); [congruence|reflexivity]. }
  assert (N4 : (forall x, In x (p_variants (cp_package p)) -> forallb (fun r => negb (is_nil r)) x = true) <->
               (forall v, In v (p_variants (cp_package p)) -> ~ In [] v)).
  { split; intros H x Hx; specialize (H x Hx); [apply N; rewrite forallb_forall in H; exact H|rewrite forallb_forall; apply N, H]. }
  rewrite N1, N2, N3, N4. tauto.
Qed.
Lemma satisfies_meets x r : one_each x -> positive r -> (satisfies x r = true <-> meets x r).
Proof.
  intros H1 [Hc Hw]. unfold satisfies, meets. rewrite Hc, Hw.
  assert (Fun : forall p q, In p (x_packages x) -> In q (x_packages x) -> cp_name p = cp_name q -> p = q).
  { unfold one_each in H1. clear - H1. induction (x_packages x) as [|a l IH]; [intros p q []|]. cbn in H1. inversion H1 as [|? ? Hn N]; subst.
    intros p q [->|Hp] [->|Hq] E; [reflexivity| | |apply IH; auto].
    - exfalso. apply Hn. rewrite E. apply in_map, Hq.
    - exfalso. apply Hn. rewrite <- E. apply in_map, Hp. }
  destruct (find _ (x_packages x)) as [p|] eqn:E.
  - apply find_some in E as [Hp E]. destruct (text_eqb_spec (cp_name p) (pr_name r)) as [En|]; [|discriminate]. split.
    + intros H. split; [intros _; exists p; auto|]. intros q v Hq Eq Hv. rewrite (Fun p q Hp Hq) in H by congruence. rewrite Hv in H. exact H.
    + intros [_ H]. destruct (p_version (cp_package p)) as [v|] eqn:Ev; [|reflexivity]. apply (H p v Hp En Ev).
  - split; [discriminate|]. intros [H _]. destruct (H eq_refl) as [p [Hp En]]. apply (find_none _ _ E) in Hp. rewrite En, text_eqb_refl in Hp. discriminate.
Qed.
Lemma validate_positive x : one_each x -> (forall r, In r (x_requirements x) -> positive r) ->
  (validate x = true <-> (forall r, In r (x_requirements x) -> meets x r) /\ (forall p, In p (x_packages x) -> well_formed p)).
Proof.
  intros H1 Hp. unfold validate. rewrite andb_true_iff, !forallb_forall. split; intros [A B]; split; intros y Hy.
  - apply satisfies_meets; auto.
  - apply package_valid_spec; auto.
  - apply satisfies_meets; auto.
  - apply package_valid_spec; auto.
Qed.

(** ** Tools *)
Lemma dedup_in l t : In t (dedup l) <-> In t l.
Proof.
  induction l as [|a l IH]; [reflexivity|]. destruct l as [|b l]; [reflexivity|]. cbn [dedup]. destruct (text_eqb_spec a b) as [->|].
  - rewrite IH. cbn. tauto.
  - cbn [In]. rewrite IH. reflexivity.
Qed.
Lemma dedup_sorted l : chain text_cmp l -> StronglySorted (fun a b => text_cmp a b = Lt) (dedup l).
Proof.
  induction l as [|a l IH]; intros H; [constructor|]. inversion H as [|? ? Ha Hl]; subst. destruct l as [|b l]; [repeat constructor|].
  cbn [dedup]. destruct (text_eqb_spec a b) as [->|Hn]; [apply IH, Hl|]. constructor; [apply IH, Hl|]. apply Forall_forall. intros y Hy.
  apply (dedup_in (b :: l)) in Hy. inversion Ha as [|? ? Hab _]; subst.
  assert (L : text_cmp a b = Lt). { destruct (text_cmp a b) eqn:E; [apply text_cmp_eq in E; contradiction|reflexivity|congruence]. }
  destruct Hy as [<-|Hy]; [exact L|]. apply (tpo_lt_le_trans TPO_text a b y I I I L). inversion Hl as [|? ? Hb _]; subst. rewrite Forall_forall in Hb. auto.
Qed.
Lemma all_tools x :
  (forall t, In t (get_all_tools x) <-> exists p, In p (x_packages x) /\ In t (p_tools (cp_package p))) /\
  StronglySorted (fun a b => text_cmp a b = Lt) (get_all_tools x).
Proof.
  split.
  - intros t. unfold get_all_tools. rewrite dedup_in, sort_in. apply in_flat_map.
  - apply dedup_sorted, (sort_chain _ _ TPO_text), Forall_forall. auto.
Qed.

(** ** Fingerprint *)
Lemma fingerprint_iff x y : fingerprint x = fingerprint y <->
  map show_package_req (x_requirements x) = map show_package_req (x_requirements y) /\
  x_platform x = x_platform y /\ x_arch x = x_arch y /\ c_inherit (x_config x) = c_inherit (x_config y).
Proof.
  unfold fingerprint. split.
  - intros H. apply app_inj_tail in H as [H E1] || idtac.
    assert (L : length (map (fun r => HText (show_package_req r)) (x_requirements x)) = length (map (fun r => HText (show_package_req r)) (x_requirements y))).
    { apply (f_equal (@length hashed)) in H. rewrite !app_length in H. cbn in H. lia. }
    assert (S : forall (a a' b b' : list hashed), length a = length a' -> a ++ b = a' ++ b' -> a = a' /\ b = b').
    { clear. induction a as [|u a IH]; intros [|u' a'] b b' Hl E; try discriminate Hl; [auto|]. injection E as -> E. injection Hl as Hl.
      destruct (IH a' b b' Hl E) as [-> ->]. auto. }
    apply (S _ _ _ _ L) in H as [H1 H2]. injection H2 as E1 E2 E3. split; [|auto].
    clear - H1. revert H1. generalize (x_requirements y). induction (x_requirements x) as [|r l IH]; intros [|r' l'] H; try discriminate; [reflexivity|].
    cbn in H. injection H as H H'. cbn. f_equal; auto.
  - intros (H & -> & -> & ->). f_equal. rewrite <- (map_map show_package_req HText), H, map_map. reflexivity.
Qed.

(** ** File names *)
Lemma split_snoc sep a c : c <> sep -> last (split_on sep (a ++ [c])) [] = last (split_on sep a) [] ++ [c].
Proof.
  intros Hc. induction a as [|x a IH]; cbn [app split_on].
  - destruct (Ascii.eqb_spec c sep); [contradiction|reflexivity].
  - destruct (Ascii.eqb x sep).
    + assert (N1 := split_on_nonnil sep (a ++ [c])). assert (N2 := split_on_nonnil sep a).
      destruct (split_on sep (a ++ [c])) as [|p ps] eqn:E1; [congruence|]. destruct (split_on sep a) as [|q qs] eqn:E2; [congruence|]. exact IH.
    + destruct (split_on sep (a ++ [c])) as [|p ps] eqn:E1; [destruct (split_on_nonnil _ _ E1)|].
      destruct (split_on sep a) as [|q qs] eqn:E2; [destruct (split_on_nonnil _ _ E2)|].
      destruct ps as [|p' ps], qs as [|q' qs]; cbn [last] in *; try (cbn; congruence).
      all: try exact IH.
      * exfalso. apply (f_equal (@length text)) in E1. revert E1.
        assert (Len : length (split_on sep (a ++ [c])) = length (split_on sep a)).
        { clear - Hc. induction a as [|y a IHa]; cbn [app split_on]; [destruct (Ascii.eqb_spec c sep); [contradiction|reflexivity]|].
          destruct (Ascii.eqb y sep); [cbn; congruence|]. destruct (split_on sep (a ++ [c])), (split_on sep a); cbn in *; congruence. }
        rewrite Len, E2. discriminate.
      * exfalso. apply (f_equal (@length text)) in E1. revert E1.
        assert (Len : length (split_on sep (a ++ [c])) = length (split_on sep a)).
        { clear - Hc. induction a as [|y a IHa]; cbn [app split_on]; [destruct (Ascii.eqb_spec c sep); [contradiction|reflexivity]|].
          destruct (Ascii.eqb y sep); [cbn; congruence|]. destruct (split_on sep (a ++ [c])), (split_on sep a); cbn in *; congruence. }
        rewrite Len, E2. discriminate.
Qed.
Lemma last_part_app s t : ~ In "/" t -> last_part "/" (s ++ t) = last_part "/" s ++ t.
Proof.
  revert s. induction t as [|c t IH]; intros s H; [rewrite !app_nil_r; reflexivity|].
  change (s ++ c :: t) with (s ++ [c] ++ t). rewrite app_assoc, IH by (intros K; apply H; right; exact K). unfold last_part.
  rewrite split_snoc by (intros ->; apply H; left; reflexivity). rewrite <- app_assoc. reflexivity.
Qed.
Lemma rxt_recognised s : is_context_file (s ++ T ".rxt") = true <-> last_part "/" s <> [].
Proof.
  unfold is_context_file, extension. rewrite last_part_app by (cbn; intuition discriminate). generalize (last_part "/" s). intros t.
  change (t ++ T ".rxt") with (t ++ "." :: T "rxt"). rewrite split_on_app_gen.
  change (split_on "." (T "rxt")) with [T "rxt"].
  destruct t as [|c t]; [cbn; split; [discriminate|congruence]|].
  assert (E : exists p ps, split_on "." (c :: t) = p :: ps /\ (ps = [] -> p <> [])).
  { destruct (split_on "." (c :: t)) as [|p ps] eqn:E; [destruct (split_on_nonnil _ _ E)|]. exists p, ps. split; [reflexivity|]. intros -> ->.
    pose proof (join_split "." (c :: t)) as J. rewrite E in J. discriminate J. }
  destruct E as (p & ps & -> & Hp). split; [discriminate|intros _].
  assert (L : forall l : list text, last (l ++ [T "rxt"]) [] = T "rxt") by (intros l; apply last_last).
  destruct ps as [|p' ps].
  - specialize (Hp eq_refl). destruct p as [|x p]; [congruence|]. reflexivity.
  - specialize (L (p :: p' :: ps)). cbn [app] in L |- *. destruct ps as [|p2 ps]; cbn [app] in L |- *; destruct p; rewrite L; reflexivity.
Qed.
Lemma last_part_nonempty s : last_part "/" s <> [] <-> exists a c, s = a ++ [c] /\ c <> "/".
Proof.
  split.
  - destruct (rev s) as [|c r] eqn:E.
    + apply (f_equal (@rev ascii)) in E. rewrite rev_involutive in E. subst s. cbn. congruence.
    + apply (f_equal (@rev ascii)) in E. rewrite rev_involutive in E. cbn in E. subst s. intros H. exists (rev r), c. split; [reflexivity|]. intros ->. apply H.
      unfold last_part. rewrite split_on_app_gen. cbn [split_on]. apply last_last.
  - intros (a & c & -> & Hc). unfold last_part. rewrite split_snoc by exact Hc. destruct (last _ _); discriminate.
Qed.
Definition lowered (n : text) : text := map to_lower (replace_char " " (T "_") n).
Lemma lowered_map n : lowered n = map (fun c => if Ascii.eqb c " " then "_" else to_lower c) n.
Proof.
  unfold lowered, replace_char. induction n as [|c n IH]; [reflexivity|]. cbn [flat_map map]. destruct (Ascii.eqb c " ").
  - etransitivity; [|apply f_equal, IH]. reflexivity.
  - cbn [app map]. f_equal. exact IH.
Qed.
Lemma default_recognised x n f : x_name x = Some n -> default_filename x = Some f ->
  (is_context_file f = true <-> exists a c, n = a ++ [c] /\ c <> "/").
Proof.
  intros Hn. unfold default_filename. rewrite Hn. intros H. assert (E : f = lowered n ++ T ".rxt") by (injection H; intros K; symmetry; exact K). rewrite E. clear H E. change (map to_lower (replace_char " " (T "_") n) ++ T ".rxt") with (lowered n ++ T ".rxt"). rewrite lowered_map, rxt_recognised, last_part_nonempty. split.
  - intros (a & c & E & Hc). destruct (rev n) as [|d r] eqn:En.
    + apply (f_equal (@rev ascii)) in En. rewrite rev_involutive in En. subst n. destruct a; discriminate E.
    + apply (f_equal (@rev ascii)) in En. rewrite rev_involutive in En. cbn in En. subst n. exists (rev r), d. split; [reflexivity|]. intros ->.
      rewrite map_app in E. cbn [map] in E. apply app_inj_tail in E as [_ E]. apply Hc. rewrite <- E. reflexivity.
  - intros (a & c & -> & Hc). rewrite map_app. eexists _, _. split; [reflexivity|].
    destruct (Ascii.eqb_spec c " ") as [|_]; [discriminate|]. intros E. apply Hc. revert E. destruct c as [[] [] [] [] [] [] [] []]; try discriminate; reflexivity.
Qed.
Lemma default_unnamed x f : x_name x = None -> default_filename x = Some f ->
  (is_context_file f = true <-> forall a, firstn 8 (x_id x) <> a ++ ["/"]).
Proof.
  intros Hn. unfold default_filename. rewrite Hn. destruct (length (x_id x) <? 8)%nat eqn:L; [discriminate|]. intros H.
  assert (E : f = (T "context_" ++ firstn 8 (x_id x)) ++ T ".rxt") by (injection H; intros K; symmetry; exact K). rewrite E. clear H E. rewrite rxt_recognised, last_part_nonempty. split.
  - intros (a & c & E & Hc) b Eb. rewrite Eb, app_assoc in E. apply app_inj_tail in E as [_ E]. congruence.
  - intros H. destruct (rev (firstn 8 (x_id x))) as [|d r] eqn:E.
    + apply (f_equal (@rev ascii)) in E. rewrite rev_involutive in E. cbn in E. apply Nat.ltb_ge in L. destruct (x_id x); [cbn in L; lia|discriminate E].
    + apply (f_equal (@rev ascii)) in E. rewrite rev_involutive in E. cbn [rev] in E. rewrite E. exists (T "context_" ++ rev r), d. rewrite app_assoc. split; [reflexivity|].
      intros ->. exact (H _ E).
Qed.

(** ** Environment files *)
Lemma split_line s r : ~ In NL s -> split_on NL (s ++ NL :: r) = s :: split_on NL r.
Proof. apply split_on_app. Qed.
Lemma env_file_read ord x vars : any_order ord -> ~ In NL (x_id x) -> (forall n, x_name x = Some n -> ~ In NL n) ->
  (forall k v, In (k, v) vars -> k <> [] /\ (forall r, k <> "#" :: r) /\ ~ In "=" k /\ ~ In NL k /\ ~ In NL v) ->
  env_lines (split_on NL (env_file ord x vars)) (ord vars).
Proof.
  intros Ho Hi Hn Hv. unfold env_file.
  assert (V : forall l, (forall kv, In kv l -> In kv vars) -> env_lines (split_on NL (flat_map (fun kv : text * text => fst kv ++ T "=" ++ snd kv ++ [NL]) l)) l).
  { induction l as [|[k v] l IH]; intros H; [constructor; [left; reflexivity|constructor]|]. destruct (Hv k v (H _ (or_introl eq_refl))) as (H1 & H2 & H3 & H4 & H5).
    cbn [flat_map fst snd].
    assert (E : (k ++ T "=" ++ v ++ [NL]) ++ flat_map (fun kv : text * text => fst kv ++ T "=" ++ snd kv ++ [NL]) l =
                (k ++ "=" :: v) ++ NL :: flat_map (fun kv : text * text => fst kv ++ T "=" ++ snd kv ++ [NL]) l).
    { change (T "=") with ["="]. cbn [app]. rewrite <- !app_assoc. cbn [app]. rewrite <- !app_assoc. reflexivity. }
    rewrite E, split_line.
    - apply el_var; auto. apply IH. intros kv Hkv. apply H. right. exact Hkv.
    - intros K. apply in_app_iff in K as [K|[K|K]]; [contradiction|discriminate|contradiction]. }
  assert (V' := V (ord vars) (fun kv Hkv => Permutation_in _ (Ho vars) Hkv)). clear V. revert V'.
  generalize (flat_map (fun kv : text * text => fst kv ++ T "=" ++ snd kv ++ [NL]) (ord vars)). intros tl V.
  change (T "# Generated by rez-core" ++ [NL] ++ T "# Context: " ++ x_id x ++ [NL] ++ match x_name x with Some n => T "# Name: " ++ n ++ [NL] | None => [] end ++ [NL] ++ tl)
    with (T "# Generated by rez-core" ++ NL :: ("#" :: T " Context: " ++ x_id x ++ NL :: (match x_name x with Some n => T "# Name: " ++ n ++ [NL] | None => [] end ++ [NL] ++ tl))).
  rewrite split_line by (cbn; intuition discriminate). apply el_skip; [right; eexists; reflexivity|].
  change ("#" :: T " Context: " ++ x_id x ++ NL :: (match x_name x with Some n => T "# Name: " ++ n ++ [NL] | None => [] end ++ [NL] ++ tl))
    with (("#" :: T " Context: ") ++ x_id x ++ NL :: (match x_name x with Some n => T "# Name: " ++ n ++ [NL] | None => [] end ++ [NL] ++ tl)).
  rewrite app_assoc, split_line.
  2: { intros K. apply in_app_iff in K as [K|K]; [cbn in K; intuition discriminate|contradiction]. }
  apply el_skip; [right; eexists; reflexivity|].
  assert (B : env_lines (split_on NL ([NL] ++ tl)) (ord vars)).
  { change ([NL] ++ tl) with ([] ++ NL :: tl). rewrite split_line by (intros []). apply el_skip; [left; reflexivity|exact V]. }
  destruct (x_name x) as [n|]; [|exact B]. rewrite <- !app_assoc.
  change (T "# Name: " ++ n ++ [NL] ++ [NL] ++ tl) with (T "# Name: " ++ n ++ NL :: ([NL] ++ tl)). rewrite app_assoc, split_line.
  - apply el_skip; [right; eexists; reflexivity|exact B].
  - intros K. apply in_app_iff in K as [K|K]; [cbn in K; intuition discriminate|exact (Hn n eq_refl K)].
Qed.
Lemma env_lines_unique ls m m' : env_lines ls m -> env_lines ls m' -> m = m'.
Proof.
  intros H. revert m'. induction H as [|l ls m Hl H IH|k v ls m H1 H2 H3 H IH]; intros m' H'.
  - inversion H'. reflexivity.
  - inversion H' as [|l0 ls0 m0 K K'|k v ls0 m0 K1 K2 K3 K']; subst; [apply IH, K'|]. exfalso. destruct Hl as [E|[r E]]; [destruct k; discriminate E|].
    destruct k as [|c k]; [congruence|]. injection E as -> _. exact (K2 k eq_refl).
  - inversion H' as [|l0 ls0 m0 K K'|k' v' ls0 m0 K1 K2 K3 K' E]; subst.
    + exfalso. destruct K as [E|[r E]]; [destruct k; discriminate E|]. destruct k as [|c k]; [congruence|]. injection E as -> _. exact (H2 k eq_refl).
    + assert (Q : k = k' /\ v = v').
      { clear - H3 K3 E. revert k' K3 E. induction k as [|c k IH]; intros [|c' k'] K E.
        - injection E. auto.
        - injection E as E _. destruct K. left. congruence.
        - injection E as E _. destruct H3. left. congruence.
        - injection E as -> E. destruct (IH (fun K => H3 (or_intror K)) k' (fun Q => K (or_intror Q)) E) as [-> ->]. auto. }
      destruct Q as [-> ->]. f_equal. apply IH, K'.
Qed.

(** ** Corollaries *)
Lemma env_var_plain w c base ps vars cmds extra e x q :
  any_order (w_keys w) -> script w c ps vars cmds extra -> generate w c base ps = Some e ->
  on_var x (map (keyed (w_win w)) (vars ++ cmds ++ extra)) q -> ~ pathlike x ->
  (forall n, ~ In (Resetenv n) cmds) -> ~ In x (map (environment_key (w_win w)) (c_unset c)) ->
  aget x (e_vars e) = fold_left (written (path_sep (w_win w))) q (aget x base).
Proof.
  intros Ho Hs Hg Hq Np Hr Hu. destruct (live_exists (others cmds)) as [r Hl].
  assert (Nr : forall a, In a (vars ++ cmds ++ extra) -> forall n, a <> Resetenv n).
  { intros a Ha n ->. apply in_app_iff in Ha as [Ha|Ha]; [|apply in_app_iff in Ha as [Ha|Ha]].
    - destruct Hs as [-> _]. rewrite <- vars_assign in Ha. apply filter_In in Ha as [_ Ha]. discriminate Ha.
    - exact (Hr n Ha).
    - destruct Hs as [_ [_ ->]]. apply in_map_iff in Ha as [kv [Ha _]]. discriminate Ha. }
  assert (E : filter (hits x) (map (keyed (w_win w)) (vars ++ cmds ++ extra)) = filter (hits x) (map (keyed (w_win w)) (filter assigns (vars ++ cmds ++ extra)))).
  { clear - Nr. induction (vars ++ cmds ++ extra) as [|a l IH]; [reflexivity|]. cbn [filter map].
    assert (IH' := IH (fun b Hb => Nr b (or_intror Hb))). destruct (assigns a) eqn:Ea.
    - cbn [map filter]. rewrite IH'. reflexivity.
    - assert (Z : hits x (keyed (w_win w) a) = false) by (specialize (Nr a (or_introl eq_refl)); destruct a; try discriminate Ea; try reflexivity; destruct (Nr _ eq_refl)).
      rewrite Z. exact IH'. }
  assert (Q : q = filter (hits x) (map (keyed (w_win w)) (filter assigns (vars ++ cmds ++ extra)))).
  { rewrite <- E. apply (on_var_unique x _ _ _ Hq). apply on_var_filter. }
  rewrite Q. apply (env_var w c base ps vars cmds extra e x _ r Ho Hs Hg (on_var_filter x _) Hl Np); [|exact Hu].
  intros K. apply (live_in _ _ Hl) in K. apply filter_In in K as [K _]. exact (Hr x K).
Qed.
Lemma env_lookup w c base ps vars cmds extra e q r ds P :
  any_order (w_keys w) -> script w c ps vars cmds extra -> generate w c base ps = Some e ->
  one_path (w_win w) base (vars ++ cmds ++ extra) -> tool_dirs w ps ds ->
  on_var (T "PATH") (map (keyed (w_win w)) (filter assigns (vars ++ cmds ++ extra))) q -> live (others cmds) r ->
  ~ In (Resetenv (T "PATH")) r -> ~ In (T "PATH") (map (environment_key (w_win w)) (c_unset c)) ->
  (forall a b, fold_entry (w_win w) a = fold_entry (w_win w) b -> P a = P b) ->
  c_strategy c = Prepend -> ds <> [] -> (forall d, In d ds -> ~ In (sep_char (w_win w)) d) ->
  exists v, aget (T "PATH") (e_vars e) = Some v /\
    find P (split_on (sep_char (w_win w)) v) =
    find P (ds ++ entries (sep_char (w_win w)) (fold_left (written (path_sep (w_win w))) q (aget (T "PATH") base))).
Proof.
  intros Ho Hs Hg Hone Hd Hq Hr Nr Nu HP Hst Hne Hsp.
  destruct (env_path w c base ps vars cmds extra e q r ds Ho Hs Hg Hone Hd Hq Hr Nr Nu) as [_ H].
  destruct H as [k [Hk E]]; [right; split; [exact Hne|rewrite Hst; discriminate]|].
  assert (F : flat_map (split_on (sep_char (w_win w))) ds = ds).
  { clear - Hsp. induction ds as [|d ds IH]; [reflexivity|]. cbn [flat_map]. rewrite IH by (intros x Hx; apply Hsp; right; exact Hx).
    rewrite split_on_none by (apply Hsp; left; reflexivity). reflexivity. }
  rewrite F, Hst in Hk. cbn [with_dirs] in Hk. exists (join [sep_char (w_win w)] k). split; [exact E|].
  assert (D : forall cur, match ds with [] => cur | _ => ds ++ cur end = ds ++ cur) by (destruct ds; [congruence|reflexivity]).
  assert (Hk' : firsts (fold_entry (w_win w)) (ds ++ entries (sep_char (w_win w)) (fold_left (written (path_sep (w_win w))) q (aget (T "PATH") base))) k).
  { rewrite <- D. destruct ds; [congruence|exact Hk]. }
  assert (S1 : split_on (sep_char (w_win w)) (join [sep_char (w_win w)] k) = k).
  { apply split_join.
    - destruct ds; [congruence|]. inversion Hk'. discriminate.
    - apply Forall_forall. intros x Hx. apply (firsts_in _ _ _ Hk') in Hx. apply in_app_iff in Hx as [Hx|Hx]; [apply Hsp, Hx|].
      unfold entries in Hx. destruct (fold_left _ q _) as [[|c0 v]|]; [destruct Hx| |destruct Hx].
      exact (proj1 (Forall_forall _ _) (split_on_pieces _ _) x Hx). }
  rewrite S1. exact (firsts_find _ _ _ P HP Hk').
Qed.
