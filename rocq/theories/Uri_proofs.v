(** Lemmas about getting packages by URI. *)
From Verif Require Import Base Base_lemmas Maps Sorting Version_model Package_model Order_model Order_spec Order_proofs Uri_model Uri_spec.
From Verif Require Scan_model Bind_model.
From Verif Require Text_lemmas Version_order.
From Coq Require Import Lia.
Open Scope string_scope. Open Scope list_scope.

Lemma below_fun d n f g : below d n f -> below d n g -> f = g.
Proof.
  intros A B. destruct A as [n|d n|d c n C].
  - inversion B as [m E1 E2 E3|e m E1 E2 E3|e b m C E1 E2 E3]; try reflexivity; destruct e; discriminate.
  - inversion B as [m E1 E2 E3|e m E1 E2 E3|e b m C E1 E2 E3].
    + destruct d; discriminate.
    + apply app_inj_tail in E1 as [-> _]. reflexivity.
    + apply app_inj_tail in E1 as [_ E1]. congruence.
  - inversion B as [m E1 E2 E3|e m E1 E2 E3|e b m C' E1 E2 E3].
    + destruct d; discriminate.
    + apply app_inj_tail in E1 as [_ E1]. congruence.
    + apply app_inj_tail in E1 as [-> ->]. reflexivity.
Qed.
Lemma ends_slash d c : ends_with (T "/") (d ++ [c]) = Ascii.eqb "/" c.
Proof. unfold ends_with. rewrite rev_app_distr. cbn [T rev app starts_with list_ascii_of_string]. now destruct (Ascii.eqb "/" c). Qed.
Lemma starts_slash n : starts_with (T "/") n = true <-> exists r, n = "/"%char :: r.
Proof.
  destruct n as [|c n]; cbn [T starts_with list_ascii_of_string]; [split; [discriminate|intros [r E]; discriminate]|].
  rewrite andb_true_r, Ascii.eqb_eq. split; [intros <-; eauto|intros [r E]; now injection E as -> _].
Qed.
Lemma push_below d n : relative n -> below d n (push d n).
Proof.
  intros R. unfold push. destruct (starts_with (T "/") n) eqn:S; [apply starts_slash in S as [r E]; now elim (R r)|]. cbn [orb].
  destruct d as [|c d] using rev_ind; [constructor|]. replace (is_nil (d ++ [c])) with false by now destruct d.
  rewrite ends_slash. destruct (Ascii.eqb_spec "/" c) as [<-|E].
  - rewrite <- app_assoc. constructor.
  - rewrite <- app_assoc. constructor. congruence.
Qed.
Lemma load_there_gives w f p : load_there w f = Some p <-> gives w f p.
Proof. unfold load_there, gives, there. destruct (w_kind w f); split; try (intros H; split; [discriminate|assumption]); try (intros [_ H]; assumption); [discriminate|intros [H _]; congruence]. Qed.
Lemma load_there_none w f : load_there w f = None <-> forall p, ~ gives w f p.
Proof.
  split.
  - intros H p G. apply load_there_gives in G. congruence.
  - intros H. destruct (load_there w f) as [p|] eqn:E; [|reflexivity]. apply load_there_gives in E. now elim (H p).
Qed.
Lemma rel_py : relative (T "package.py"). Proof. intros r; discriminate. Qed.
Lemma rel_json : relative (T "package.json"). Proof. intros r; discriminate. Qed.
Lemma in_dir_holds w d p : in_dir w d = Some p <-> holds w d p.
Proof.
  pose proof (push_below d _ rel_py) as A. pose proof (push_below d _ rel_json) as B.
  unfold in_dir. cbn [first_some]. destruct (load_there w (push d (T "package.py"))) as [q|] eqn:E.
  - split.
    + intros H. injection H as <-. apply load_there_gives in E. exact (h_py _ _ _ _ A E).
    + intros [f F G|f g F N _ _].
      * rewrite (below_fun _ _ _ _ F A) in G. apply load_there_gives in G. congruence.
      * apply load_there_gives in E. rewrite (below_fun _ _ _ _ F A) in N. now elim (N q).
  - split.
    + destruct (load_there w (push d (T "package.json"))) as [q|] eqn:F; [|discriminate]. intros H. injection H as <-.
      apply load_there_gives in F. apply (h_json _ _ _ _ _ A (proj1 (load_there_none _ _) E) B F).
    + intros [f F G|f g F N J G].
      * rewrite (below_fun _ _ _ _ F A) in G. apply load_there_gives in G. congruence.
      * rewrite (below_fun _ _ _ _ J B) in G. apply load_there_gives in G. now rewrite G.
Qed.
Lemma in_dir_none w d : in_dir w d = None <-> forall p, ~ holds w d p.
Proof.
  split.
  - intros H p G. apply in_dir_holds in G. congruence.
  - intros H. destruct (in_dir w d) as [p|] eqn:E; [|reflexivity]. apply in_dir_holds in E. now elim (H p).
Qed.
Lemma first_some_in {A} (l : list (option A)) x : first_some l = Some x -> In (Some x) l.
Proof. induction l as [|[y|] l IH]; cbn; intros H; [discriminate|left; assumption|right; auto]. Qed.
Lemma first_some_none {A} (l : list (option A)) : first_some l = None <-> Forall (fun o => o = None) l.
Proof.
  induction l as [|[y|] l IH]; cbn; split; intros H; try constructor; try discriminate; try (now inversion H); try reflexivity; try now apply IH.
  inversion H; now apply IH.
Qed.
Lemma first_some_skip {A} (a b : list (option A)) : Forall (fun o => o = None) a -> first_some (a ++ b) = first_some b.
Proof. induction 1 as [|o a E _ IH]; [reflexivity|]. subst o. exact IH. Qed.

(** the last part of a path *)
Lemma split_repeat k : filter (fun c : text => negb (is_nil c)) (split_on "/" (repeat "/"%char k)) = [].
Proof. induction k; [reflexivity|]. cbn [repeat split_on]. rewrite Ascii.eqb_refl. exact IHk. Qed.
Lemma split_tail f k : plain f -> f <> [] -> filter (fun c : text => negb (is_nil c)) (split_on "/" (f ++ repeat "/"%char k)) = [f].
Proof.
  intros P N. assert (negb (is_nil f) = true) as I by now destruct f. destruct k as [|k].
  - rewrite app_nil_r, split_on_none by assumption. cbn. now rewrite I.
  - cbn [repeat]. rewrite split_on_app by assumption. cbn [filter]. rewrite I. now rewrite split_repeat.
Qed.
Lemma last_part_ends p f : plain f -> f <> [] -> ends_in p f -> last_part p = f.
Proof.
  intros P N (k & [->|(d & ->)]); unfold last_part.
  - rewrite split_tail by assumption. reflexivity.
  - rewrite Text_lemmas.split_on_app_gen, filter_app, split_tail by assumption. now rewrite last_last.
Qed.
Lemma ends_last_part p : last_part p <> [] -> ends_in p (last_part p).
Proof.
  induction p as [|c p IH] using rev_ind; [intros H; now elim H|].
  destruct (Ascii.eqb_spec c "/") as [->|E].
  - assert (last_part (p ++ [ "/"%char ]) = last_part p) as L.
    { unfold last_part. rewrite Text_lemmas.split_on_app_gen, filter_app. cbn [split_on filter is_nil negb]. now rewrite app_nil_r. }
    rewrite L. intros H. destruct (IH H) as (k & [Q|(d & Q)]); exists (S k).
    + left. rewrite Q at 1. rewrite <- app_assoc. f_equal. now rewrite <- (repeat_cons k "/"%char).
    + right. exists d. rewrite Q at 1. rewrite <- app_assoc. cbn [app]. f_equal. f_equal. rewrite <- app_assoc. f_equal. now rewrite <- (repeat_cons k "/"%char).
  - intros _. assert (exists d f, p ++ [c] = d ++ f /\ plain f /\ f <> [] /\ (d = [] \/ exists e, d = e ++ [ "/"%char ])) as (d & f & Q & P & N & D).
    { clear IH. induction p as [|b p IH].
      - exists [], [c]. split; [reflexivity|]. split; [intros [H|[]]; congruence|]. split; [discriminate|now left].
      - destruct IH as (d & f & Q & P & N & D). cbn [app]. rewrite Q. destruct D as [->|(e & ->)].
        + destruct (Ascii.eqb_spec b "/") as [->|F].
          * exists [ "/"%char ], f. repeat split; [assumption|assumption|]. right. now exists [].
          * exists [], (b :: f). split; [reflexivity|]. split; [intros [H|H]; [congruence|now apply P]|]. split; [discriminate|now left].
        + exists (b :: e ++ [ "/"%char ]), f. repeat split; [assumption|assumption|]. right. now exists (b :: e). }
    assert (ends_in (p ++ [c]) f) as G.
    { exists 0%nat. cbn [repeat]. rewrite app_nil_r, Q. destruct D as [->|(e & ->)]; [now left|right; exists e; now rewrite <- app_assoc]. }
    rewrite (last_part_ends _ _ P N G). exact G.
Qed.
Lemma is_package_file_spec p : is_package_file p = true <-> exists f, package_name f /\ ends_in p f.
Proof.
  unfold is_package_file. rewrite mem_text_In. split.
  - intros H. exists (last_part p). split; [destruct H as [H|[H|[]]]; [left|right]; congruence|]. apply ends_last_part. intros E. rewrite E in H. destruct H as [H|[H|[]]]; discriminate.
  - intros (f & A & B). assert (plain f /\ f <> []) as [P N].
    { destruct A as [-> | ->]; (split; [|discriminate]); intros H; cbn in H; repeat (destruct H as [H|H]; [discriminate|]); exact H. }
    rewrite (last_part_ends _ _ P N B). destruct A as [-> | ->]; cbn; auto.
Qed.

(** the parts of a URI *)
Lemma drop_app f (r s : text) : Bind_model.drop_while f (r ++ s) = if forallb f r then Bind_model.drop_while f s else Bind_model.drop_while f r ++ s.
Proof. induction r as [|c r IH]; cbn [app forallb Bind_model.drop_while]; [reflexivity|]. destruct (f c); [exact IH|reflexivity]. Qed.
Lemma drop_relative s : relative (Bind_model.drop_while (Ascii.eqb "/") s).
Proof. induction s as [|c s IH]; [intros r; discriminate|]. cbn [Bind_model.drop_while]. destruct (Ascii.eqb_spec "/" c); [exact IH|]. intros r H. congruence. Qed.
Lemma relative_drop s : relative s -> Bind_model.drop_while (Ascii.eqb "/") s = s.
Proof. intros R. destruct s as [|c s]; [reflexivity|]. cbn [Bind_model.drop_while]. destruct (Ascii.eqb_spec "/" c) as [<-|]; [now elim (R s)|reflexivity]. Qed.
Lemma plain_relative n : plain n -> relative n.
Proof. intros P r ->. apply P. now left. Qed.
Lemma parts_after root s : relative s -> s <> [] -> exists r, uri_parts (root ++ "/"%char :: s) = r ++ split_on "/" s.
Proof.
  intros R N. unfold uri_parts. rewrite drop_app. destruct (forallb (Ascii.eqb "/") root).
  - exists []. cbn [Bind_model.drop_while]. now rewrite Ascii.eqb_refl, relative_drop.
  - rewrite Text_lemmas.split_on_app_gen. eauto.
Qed.
Lemma parts3 root n v f : plain n -> plain v -> plain f -> n <> [] -> exists r, rev (uri_parts (root ++ "/"%char :: n ++ "/"%char :: v ++ "/"%char :: f)) = f :: v :: n :: r.
Proof.
  intros A B C N. destruct (parts_after root (n ++ "/"%char :: v ++ "/"%char :: f)) as [r E].
  - intros x H. destruct n; [congruence|]. injection H as -> _. apply A. now left.
  - now destruct n.
  - rewrite E, !split_on_app, split_on_none by assumption. rewrite rev_app_distr. cbn. eauto.
Qed.
Lemma parts2 root n f : plain n -> plain f -> n <> [] -> exists r, rev (uri_parts (root ++ "/"%char :: n ++ "/"%char :: f)) = f :: n :: r.
Proof.
  intros A C N. destruct (parts_after root (n ++ "/"%char :: f)) as [r E].
  - intros x H. destruct n; [congruence|]. injection H as -> _. apply A. now left.
  - now destruct n.
  - rewrite E, !split_on_app, split_on_none by assumption. rewrite rev_app_distr. cbn. eauto.
Qed.
Lemma parts_plain uri : Forall plain (uri_parts uri).
Proof. apply split_on_pieces. Qed.
Lemma join_app_cons (a : list text) x b : a <> [] -> join [ "/"%char ] (a ++ x :: b) = join [ "/"%char ] a ++ "/"%char :: join [ "/"%char ] (x :: b).
Proof.
  induction a as [|y a IH]; intros N; [congruence|]. destruct a as [|z a]; [reflexivity|].
  cbn [app] in *. change (join [ "/"%char ] (y :: z :: a ++ x :: b)) with (y ++ [ "/"%char ] ++ join [ "/"%char ] (z :: a ++ x :: b)). rewrite IH by discriminate.
  change (join [ "/"%char ] (y :: z :: a)) with (y ++ [ "/"%char ] ++ join [ "/"%char ] (z :: a)). now rewrite <- !app_assoc.
Qed.
Lemma prefix_relative uri a x b : uri_parts uri = a ++ x :: b -> relative (join [ "/"%char ] a).
Proof.
  intros E r H. destruct a as [|y a]; [discriminate|].
  pose proof (join_split "/" (Bind_model.drop_while (Ascii.eqb "/") uri)) as J. fold (uri_parts uri) in J. rewrite E, join_app_cons, H in J by discriminate.
  eapply drop_relative. symmetry. exact J.
Qed.
Lemma below_relative d n f : relative d -> relative n -> below d n f -> relative f.
Proof.
  intros D N B. destruct B as [n|d n|d c n C]; intros r H.
  - now apply (N r).
  - destruct d as [|b d]; [now apply (D [])|]. injection H as -> _. now eapply D.
  - destruct d as [|b d]; [injection H as -> _; now elim C|]. injection H as -> _. now eapply D.
Qed.
Lemma push_relative d n : relative d -> relative n -> relative (push d n).
Proof. intros D N. eapply below_relative; [exact D|exact N|]. now apply push_below. Qed.
Lemma fold_relative ps : Forall plain ps -> forall d, relative d -> relative (fold_left push ps d).
Proof. induction 1 as [|n ps P _ IH]; intros d D; [exact D|]. cbn. apply IH. apply push_relative; [exact D|now apply plain_relative]. Qed.
Lemma find_in_path_relative w d ps p : relative d -> Forall plain ps -> find_in_path w d ps = Some p -> exists q, relative q /\ gives w q p.
Proof.
  intros D P H. unfold find_in_path in H. pose proof (fold_relative ps P d D) as R. set (q := fold_left push ps d) in *.
  apply first_some_in in H as [H|[H|[]]].
  - apply in_dir_holds in H as [f B G|f g _ _ B G]; [exists f|exists g]; (split; [|exact G]); eapply below_relative; [exact R| |exact B|exact R| |exact B]; [apply rel_py|apply rel_json].
  - exists q. split; [exact R|]. destruct (is_package_file q); [now apply load_there_gives|discriminate].
Qed.
Lemma push_join ps n : Forall (fun x => plain x /\ x <> []) ps -> plain n -> push (join [ "/"%char ] ps) n = join [ "/"%char ] (ps ++ [n]).
Proof.
  intros F P. unfold push. destruct (starts_with (T "/") n) eqn:S; [apply starts_slash in S as [r E]; elim P; rewrite E; now left|]. cbn [orb].
  destruct ps as [|x ps] using rev_ind; [reflexivity|]. clear IHps. apply Forall_app in F as [_ F]. inversion F as [|? ? [X N] _]; subst.
  rewrite (join_app_cons (ps ++ [x]) n []) by now destruct ps. change (join [ "/"%char ] [n]) with n.
  assert (exists d c, join [ "/"%char ] (ps ++ [x]) = d ++ [c] /\ c <> "/"%char) as (d & c & E & C).
  { destruct x as [|c x _] using rev_ind; [congruence|]. assert (c <> "/"%char) as C by (intros ->; apply X; apply in_or_app; right; now left).
    destruct ps as [|y ps]; [now exists x, c|]. rewrite join_app_cons by discriminate. change (join [ "/"%char ] [x ++ [c]]) with (x ++ [c]).
    exists (join [ "/"%char ] (y :: ps) ++ "/"%char :: x), c. split; [now rewrite <- app_assoc|exact C]. }
  rewrite E. replace (is_nil (d ++ [c])) with false by now destruct d. rewrite ends_slash. destruct (Ascii.eqb_spec "/" c); [congruence|reflexivity].
Qed.
Lemma fold_push_join ns : forall ps, Forall (fun x => plain x /\ x <> []) ps -> Forall (fun x => plain x /\ x <> []) ns -> fold_left push ns (join [ "/"%char ] ps) = join [ "/"%char ] (ps ++ ns).
Proof.
  induction ns as [|n ns IH]; intros ps P N; [now rewrite app_nil_r|]. inversion N as [|? ? [A B] N']; subst. cbn [fold_left]. rewrite push_join by assumption.
  rewrite IH; [now rewrite <- app_assoc|apply Forall_app; split; [exact P|repeat constructor; assumption]|exact N'].
Qed.
Lemma parts_join ps : ps <> [] -> Forall (fun x => plain x /\ x <> []) ps -> uri_parts (join [ "/"%char ] ps) = ps.
Proof.
  intros N F. unfold uri_parts. rewrite relative_drop, split_join; [reflexivity|exact N|eapply Forall_impl; [|exact F]; now intros ? []|].
  destruct ps as [|x ps]; [congruence|]. inversion F as [|? ? [A B] _]; subst. intros r H. destruct x as [|c x]; [congruence|].
  assert (c = "/"%char) as -> by (destruct ps; cbn in H; congruence). apply A. now left.
Qed.

(** what the repositories give *)
Lemma by_name_version_first w n v l a p b : w_find w n = Some l -> l = a ++ p :: b -> version_text p v -> (forall q, In q a -> ~ version_text q v) -> by_name_version w n v = Some p.
Proof.
  intros F -> (x & X & <-) N. unfold by_name_version. rewrite F. clear F. induction a as [|q a IH]; cbn [app find].
  - now rewrite X, text_eqb_refl.
  - destruct (p_version q) as [y|] eqn:Y.
    + destruct (text_eqb (v_str y) (v_str x)) eqn:E; [apply text_eqb_eq in E; elim (N q); [now left|now exists y]|]. apply IH. intros; apply N; now right.
    + apply IH. intros; apply N; now right.
Qed.
Lemma by_name_version_some w n v p : by_name_version w n v = Some p -> version_text p v /\ exists l, w_find w n = Some l /\ In p l.
Proof.
  unfold by_name_version. destruct (w_find w n) as [l|]; [|discriminate]. intros H. apply find_some in H as [H G]. split; [|eauto].
  destruct (p_version p) as [x|] eqn:E; [|discriminate]. apply text_eqb_eq in G. now exists x.
Qed.
Lemma latest_in w n p : latest_of w n = Some p -> exists l, w_find w n = Some l /\ In p l.
Proof.
  unfold latest_of. destruct (w_find w n) as [l|]; [|discriminate]. intros H. exists l. split; [reflexivity|]. apply (sort_in descending).
  destruct (sort_by descending l); [discriminate|]. injection H as ->. now left.
Qed.
Lemma latest_first w n l : w_find w n = Some l -> l <> [] -> transitive_versions (fun v => exists p, In p l /\ p_version p = Some v) ->
  exists p, latest_of w n = Some p /\ In p l /\ forall q, In q l -> descending p q <> Gt.
Proof.
  intros F N Tr. destruct (latest_of w n) as [p|] eqn:L.
  - exists p. split; [reflexivity|]. destruct (latest_in _ _ _ L) as (l' & F' & I). assert (l' = l) as -> by congruence. split; [exact I|].
    pose proof (sort_chain descending _ (descending_TPO _ Tr) l) as S. unfold latest_of in L. rewrite F in L.
    assert (Forall (fun p => forall v, p_version p = Some v -> exists p0, In p0 l /\ p_version p0 = Some v) l) as P by (apply Forall_forall; eauto).
    specialize (S P). intros q Q. apply (sort_in descending) in Q. destruct (sort_by descending l) as [|y t]; [destruct Q|]. injection L as ->.
    destruct Q as [->|Q].
    + unfold descending, by_version. destruct (p_version q); [|discriminate]. rewrite Version_order.vcmp_refl. discriminate.
    + inversion S as [|? ? S1 S2]; subst. rewrite Forall_forall in *. auto.
  - unfold latest_of in L. rewrite F in L. destruct (sort_by descending l) eqn:E; [|discriminate]. apply (proj1 (sort_nil _ _)) in E. congruence.
Qed.
