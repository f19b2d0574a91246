(** Proofs about what is in a bundle that was made, and about its script. *)
From Verif Require Import Base Base_lemmas Text_lemmas Maps Sorting Range_model Files_model Files_spec Files_proofs Query_model Env_model Rex_model Bundle_model Bundle_spec Bundle_text Bundle_proofs.
Open Scope string_scope. Open Scope list_scope.

Lemma find_source_spec name version bases x src : find_source name version bases x = Some src <-> source_of bases (name, version) x src.
Proof.
  unfold source_of, absent. cbn [fst snd]. split.
  - induction bases as [|b bs IH]; cbn [find_source]; [discriminate|]. destruct (exists_at (b ++ [name; version]) x) eqn:E.
    + intros H. injection H as <-. exists [], b, bs. split; [reflexivity|]. split; [reflexivity|]. split; [|intros a []]. unfold exists_at in E. intros C. rewrite C in E. discriminate.
    + intros H. destruct (IH H) as (l & c & r & -> & H2 & H3 & H4). exists (b :: l), c, r. split; [reflexivity|]. split; [exact H2|]. split; [exact H3|]. intros a [<-|Ha]; [|auto].
      apply exists_at_none, E.
  - intros (l & b & r & -> & -> & H2 & H3). induction l as [|a l IH]; cbn [app find_source].
    + replace (exists_at (b ++ [name; version]) x) with true; [reflexivity|]. unfold exists_at. destruct (get (b ++ [name; version]) x); [reflexivity|contradiction].
    + replace (exists_at (a ++ [name; version]) x) with false; [apply IH; intros c Hc; apply H3; right; exact Hc|]. symmetry. apply exists_at_none, H3. left. reflexivity.
Qed.
Lemma find_source_none name version bases x : find_source name version bases x = None <-> forall src, ~ source_of bases (name, version) x src.
Proof.
  split.
  - intros H src C. apply find_source_spec in C. congruence.
  - intros H. destruct (find_source name version bases x) as [src|] eqn:E; [|reflexivity]. exfalso. apply (H src). apply find_source_spec, E.
Qed.
Lemma find_source_same name version bases x y : (forall b, In b bases -> get (b ++ [name; version]) y = get (b ++ [name; version]) x) -> find_source name version bases y = find_source name version bases x.
Proof.
  induction bases as [|b bs IH]; intros H; [reflexivity|]. cbn [find_source]. unfold exists_at. rewrite (H b (or_introl eq_refl)), IH; [reflexivity|]. intros c Hc. apply H. right. exact Hc.
Qed.
Lemma ordinary_dir es : ordinary (Dir es) <-> Forall (fun e => ordinary (snd e)) es.
Proof. cbn. induction es as [|[c z] es IH]; [split; constructor|]. rewrite Forall_cons_iff. cbn [snd]. tauto. Qed.
Lemma dir_prefix q p x : dir_at p x -> under q p -> dir_at q x.
Proof.
  intros (es & H) (r & ->). rewrite get_app in H. unfold dir_at. destruct (get q x) as [[| | |fs]|]; [| | |eauto|discriminate]; destruct r; discriminate.
Qed.
Lemma under_snoc q (p : path) c : under q (p ++ [c]) -> q = p ++ [c] \/ under q p.
Proof.
  intros (r & H). destruct r as [|d r _] using rev_ind; [left; rewrite app_nil_r in H; auto|]. right. rewrite app_assoc in H. apply app_inj_tail in H. exists r. apply H.
Qed.

(** ** copies without failing calls *)
Lemma make_dir_calm p x n : get p x = None -> (forall q, under q p -> q <> p -> open_at q x) -> exists x', make_dir calm_calls p x n = Ran true x' (S n) /\ put p (Dir []) x = Some x'.
Proof. intros E H. unfold make_dir. cbn [calm_calls]. rewrite E. destruct (put_open p (Dir []) x H) as [x' Ex]. rewrite Ex. eauto. Qed.
Lemma make_dir_calm_there p x n : dir_at p x -> make_dir calm_calls p x n = Ran true x (S n).
Proof. intros (es & E). unfold make_dir. cbn [calm_calls]. rewrite E. reflexivity. Qed.
Lemma write_file_calm p c x n : get p x = None -> (forall q, under q p -> q <> p -> open_at q x) -> exists x', write_file calm_calls p c x n = Ran true x' (S n).
Proof. intros E H. unfold write_file. cbn [calm_calls]. rewrite E. destruct (put_open p (File c) x H) as [x' Ex]. rewrite Ex. eauto. Qed.
Lemma copy_over_calm y : forall p x n, ordinary y -> tidy y -> get p x = None -> (forall q, under q p -> q <> p -> open_at q x) -> exists x' n', copy_over calm_calls p y x n = Ran true x' n'.
Proof.
  induction y as [c|t| |es IH] using node_rect2; intros p x n Ho Ht E H; try contradiction.
  - destruct (write_file_calm p c x n E H) as [x' Ex]. exists x', (S n). exact Ex.
  - rewrite copy_over_dir. destruct (make_dir_calm p x n E H) as (x1 & -> & Hp). cbn [and_then].
    assert (D : dir_at p x1) by (exists []; eapply get_put_same, Hp).
    assert (A : forall c, get (p ++ [c]) x1 = None) by (intros c; rewrite (get_put_under _ _ _ _ _ Hp); reflexivity).
    apply ordinary_dir in Ho. apply tidy_dir in Ht. destruct Ht as [Hd Ht]. generalize (S n). clear E H Hp n.
    assert (A' : forall c, In c (akeys es) -> get (p ++ [c]) x1 = None) by auto. clear A. revert x1 D A'. induction es as [|[c z] es IHl]; intros x1 D A n; [cbn; eauto|].
    inversion Ho as [|? ? Ho1 Ho2]; subst. inversion Ht as [|? ? Ht1 Ht2]; subst. inversion IH as [|? ? IH1 IH2]; subst. cbn [akeys map fst snd] in *. apply NoDup_cons_iff in Hd. destruct Hd as [Hi Hd].
    cbn [copy_each]. destruct (IH1 (p ++ [c]) x1 n Ho1 Ht1 (A c (or_introl eq_refl))) as (x2 & n2 & E2).
    { intros q Hq Hn. apply under_snoc in Hq. destruct Hq as [->|Hq]; [congruence|]. right. eapply dir_prefix; eauto. }
    rewrite E2. cbn [and_then]. pose proof (copy_over_fills calm_calls z (p ++ [c]) x1 n) as F. rewrite E2 in F. cbn in F.
    apply IHl; auto.
    + eapply fills_above; [exact F|apply under_app|apply not_eq_sym, snoc_ne|exact D].
    + intros d Hdd. rewrite (fills_apart _ _ _ (p ++ [d]) F); [apply A; right; exact Hdd|]. rewrite <- (app_nil_r (p ++ [c])), <- (app_nil_r (p ++ [d])). apply apart_sibling. intros ->. contradiction.
Qed.

(** ** all the packages *)
Lemma slot_snoc out p : slot out p = (out ++ [T "packages"; fst p]) ++ [snd p].
Proof. unfold slot. rewrite <- app_assoc. reflexivity. Qed.
Lemma name_snoc out n : out ++ [T "packages"; n] = (out ++ [T "packages"]) ++ [n].
Proof. rewrite <- app_assoc. reflexivity. Qed.
Lemma slot_apart out p q : p <> q -> apart (slot out p) (slot out q).
Proof.
  intros H. destruct p as [n v], q as [m w]. unfold slot. cbn [fst snd]. destruct (text_eq_dec n m) as [->|Hn].
  - replace (out ++ [T "packages"; m; v]) with (((out ++ [T "packages"; m]) ++ [v]) ++ []) by (rewrite <- !app_assoc; reflexivity).
    replace (out ++ [T "packages"; m; w]) with (((out ++ [T "packages"; m]) ++ [w]) ++ []) by (rewrite <- !app_assoc; reflexivity). apply apart_sibling. congruence.
  - replace (out ++ [T "packages"; n; v]) with (((out ++ [T "packages"]) ++ [n]) ++ [v]) by (rewrite <- !app_assoc; reflexivity).
    replace (out ++ [T "packages"; m; w]) with (((out ++ [T "packages"]) ++ [m]) ++ [w]) by (rewrite <- !app_assoc; reflexivity). apply apart_sibling. exact Hn.
Qed.
Lemma named_slot out (p : text * option text) : slot out (named p) = out ++ [T "packages"; fst p; version_text (snd p)].
Proof. destruct p as [n [v|]]; reflexivity. Qed.
Lemma named_eq (p : text * option text) : named p = (fst p, version_text (snd p)).
Proof. destruct p as [n [v|]]; reflexivity. Qed.
(** the sources are apart from the bundle *)
Definition elsewhere (bases : list path) (out : path) : Prop := forall b, In b bases -> apart out b.
Lemma elsewhere_get bases out x x' b r : elsewhere bases out -> fills out x x' -> In b bases -> get (b ++ r) x' = get (b ++ r) x.
Proof. intros H F Hb. eapply fills_apart; [exact F|]. apply apart_sym. eapply apart_under; [apply apart_sym, H, Hb|apply under_app]. Qed.
Lemma elsewhere_source bases out x x' p src : elsewhere bases out -> fills out x x' -> source_of bases p x' src <-> source_of bases p x src.
Proof.
  intros H F. destruct p as [n v]. rewrite <- !find_source_spec. rewrite (find_source_same n v bases x x'); [reflexivity|]. intros b Hb. eapply elsewhere_get; eauto.
Qed.
Lemma source_base bases p x src : source_of bases p x src -> exists b, In b bases /\ src = b ++ [fst p; snd p].
Proof. intros (l & b & r & -> & E & _). exists b. split; [apply in_or_app; right; left; reflexivity|exact E]. Qed.
(** every source is a directory of files and directories *)
Definition good_sources (bases : list path) (ps : list (text * text)) (x : node) : Prop :=
  forall p src y, In p ps -> source_of bases p x src -> get src x = Some y -> dir_at src x /\ ordinary y /\ tidy y.
Lemma slot_in_out out p : under out (slot out p).
Proof. apply under_app. Qed.
Lemma apart_not_leads src dest : apart src dest -> leads src dest = false.
Proof. intros [H _]. destruct (leads src dest) eqn:E; [|reflexivity]. exfalso. apply H, leads_under, E. Qed.
Lemma copy_packages_calm bases out ps : elsewhere bases out -> NoDup (map named ps) -> forall x n,
  good_sources bases (map named ps) x -> dir_at (out ++ [T "packages"]) x ->
  (forall p, In p ps -> get (slot out (named p)) x = None /\ open_at (out ++ [T "packages"; fst p]) x) ->
  exists x' n', copy_packages calm_calls false bases out ps x n = Ran true x' n' /\ fills out x x' /\
    forall p, In p ps ->
      (forall src y, source_of bases (named p) x src -> get src x = Some y -> forall r, seen (slot out (named p) ++ r) x' = seen r y) /\
      ((forall src, ~ source_of bases (named p) x src) -> get (slot out (named p)) x' = None).
Proof.
  intros Hb. induction ps as [|p ps IH]; intros Hd x n Hg Dp Ha.
  { exists x, n. split; [reflexivity|]. split; [constructor|]. intros p []. }
  cbn [map] in Hd. apply NoDup_cons_iff in Hd. destruct Hd as [Hi Hd].
  assert (Hstep : forall x1 n1, fills (slot out (named p)) x x1 ->
    exists x' n', copy_packages calm_calls false bases out ps x1 n1 = Ran true x' n' /\ fills out x1 x' /\ get (slot out (named p)) x' = get (slot out (named p)) x1 /\ (forall r, seen (slot out (named p) ++ r) x' = seen (slot out (named p) ++ r) x1) /\
    forall q, In q ps ->
      (forall src y, source_of bases (named q) x src -> get src x = Some y -> forall r, seen (slot out (named q) ++ r) x' = seen r y) /\
      ((forall src, ~ source_of bases (named q) x src) -> get (slot out (named q)) x' = None)).
  { intros x1 n1 F. assert (Fo : fills out x x1) by (eapply fills_below; [apply slot_in_out|exact F]).
    destruct (IH Hd x1 n1) as (x' & n' & E & F' & S').
    - intros q src y Hq Hs Hy. apply (elsewhere_source bases out x x1) in Hs; auto. destruct (source_base _ _ _ _ Hs) as (b & Hbb & ->).
      rewrite (elsewhere_get bases out x x1 b) in Hy by auto. destruct (Hg q _ y (or_intror Hq) Hs Hy) as (D & H1 & H2). split; [|auto].
      destruct D as (es & D). exists es. rewrite (elsewhere_get bases out x x1 b) by auto. exact D.
    - eapply fills_above; [exact F| | |exact Dp]; [exists [fst (named p); snd (named p)]; unfold slot; rewrite <- app_assoc; reflexivity|].
      unfold slot. intros C. apply (f_equal (@length _)) in C. rewrite !app_length in C. cbn in C. lia.
    - intros q Hq. destruct (Ha q (or_intror Hq)) as [A1 A2]. assert (N : named p <> named q) by (intros C; apply Hi; rewrite C; apply in_map, Hq). split.
      + rewrite (fills_apart _ _ _ _ F); [exact A1|]. apply slot_apart, N.
      + destruct (text_eq_dec (fst p) (fst q)) as [En|Hn].
        * eapply fills_above; [exact F| | |exact A2]; [exists [snd (named p)]; rewrite slot_snoc, named_eq; cbn [fst snd]; rewrite En; reflexivity|].
          unfold slot. intros C. apply (f_equal (@length _)) in C. rewrite !app_length in C. cbn in C. lia.
        * unfold open_at, dir_at in *. rewrite (fills_apart _ _ _ (out ++ [T "packages"; fst q]) F); [exact A2|]. rewrite slot_snoc, named_eq. cbn [fst snd]. rewrite !name_snoc.
          rewrite <- (app_nil_r ((out ++ [T "packages"]) ++ [fst q])). apply apart_sibling. exact Hn.
    - exists x', n'. split; [exact E|]. split; [exact F'|].
      assert (K : forall r, get (slot out (named p) ++ r) x' = get (slot out (named p) ++ r) x1).
      { assert (G : forall qs x1 n1 x' n', copy_packages calm_calls false bases out qs x1 n1 = Ran true x' n' -> ~ In (named p) (map named qs) -> forall r, get (slot out (named p) ++ r) x' = get (slot out (named p) ++ r) x1).
        { clear. induction qs as [|[m w] qs IHq]; intros x1 n1 x' n' E Hi r; cbn [copy_packages] in E; [injection E as <- _; reflexivity|]. cbn [map] in Hi.
          destruct (find_source m (version_text w) bases x1) as [src|]; [|eapply IHq; [exact E|intros C; apply Hi; right; exact C]].
          pose proof (copy_source_fills calm_calls src (out ++ [T "packages"; m; version_text w]) x1 n1) as F. destruct (copy_source calm_calls src _ x1 n1) as [ok x2 n2|]; [|discriminate]. change (fills (slot out (m, version_text w)) x1 x2) in F.
          rewrite (IHq _ _ _ _ E) by (intros C; apply Hi; right; exact C). eapply fills_apart; [exact F|]. apply apart_sym. eapply apart_under; [|apply under_app].
          apply slot_apart. intros C. apply Hi. left. rewrite named_eq. cbn [fst snd]. symmetry. exact C. }
        eapply G; eauto. }
      split; [specialize (K []); rewrite !app_nil_r in K; exact K|]. split; [intros r; unfold seen; rewrite K; reflexivity|].
      intros q Hq. destruct (S' q Hq) as [S1 S2]. split.
      + intros src y Hs Hy r. apply (S1 src y); [apply (elsewhere_source bases out x x1); auto|]. destruct (source_base _ _ _ _ Hs) as (b & Hbb & ->). rewrite (elsewhere_get bases out x x1 b) by auto. exact Hy.
      + intros Hs. apply S2. intros src C. apply (Hs src). apply (elsewhere_source bases out x x1) in C; auto. }
  destruct p as [name v]. cbn [copy_packages]. rewrite named_eq in *. cbn [fst snd] in *.
  destruct (find_source name (version_text v) bases x) as [src|] eqn:Ef.
  - pose proof (proj1 (find_source_spec _ _ _ _ _) Ef) as Hs. destruct (source_base _ _ _ _ Hs) as (b & Hbb & Esrc). cbn [fst snd] in Esrc.
    assert (Hy : exists y, get src x = Some y) by (destruct Hs as (l & c & r & _ & _ & Hs & _); unfold absent in Hs; destruct (get src x); [eauto|contradiction]). destruct Hy as (y & Hy).
    assert (Hin : In (name, version_text v) (map named ((name, v) :: ps))) by (left; apply named_eq).
    destruct (Hg _ src y Hin Hs Hy) as ((es & D) & Ho & Ht). rewrite D in Hy. injection Hy as <-.
    assert (Ap : apart src (slot out (name, version_text v))).
    { subst src. eapply apart_under; [|apply under_app]. apply apart_sym. eapply apart_under; [apply Hb, Hbb|apply slot_in_out]. }
    destruct (Ha (name, v) (or_introl eq_refl)) as [A1 A2]. rewrite named_eq in A1. cbn [fst snd] in A1, A2.
    destruct (copy_over_calm (Dir es) (slot out (name, version_text v)) x n Ho Ht A1) as (x1 & n1 & E1).
    { intros q Hq Hn. rewrite slot_snoc in Hq, Hn. apply under_snoc in Hq. destruct Hq as [->|Hq]; [congruence|]. cbn [fst] in Hq. rewrite name_snoc in Hq. apply under_snoc in Hq. destruct Hq as [->|Hq].
      - rewrite <- name_snoc. exact A2.
      - right. eapply dir_prefix; eauto. }
    change (out ++ [T "packages"; name; version_text v]) with (slot out (name, version_text v)).
    assert (Ec : copy_source calm_calls src (slot out (name, version_text v)) x n = Ran true x1 n1) by (unfold copy_source; rewrite D, (apart_not_leads _ _ Ap); exact E1).
    rewrite Ec. pose proof (copy_over_fills calm_calls (Dir es) (slot out (name, version_text v)) x n) as F. rewrite E1 in F. cbn in F.
    destruct (Hstep x1 n1 F) as (x' & n' & E & F' & K1 & K2 & S'). exists x', n'. split; [exact E|]. split; [eapply fills_trans; [eapply fills_below; [apply slot_in_out|exact F]|exact F']|].
    intros q [<-|Hq]; [|apply S', Hq]. rewrite named_eq. cbn [fst snd]. split.
    + intros s y Hs' Hy r. apply find_source_spec in Hs'. rewrite Ef in Hs'. injection Hs' as <-. rewrite D in Hy. injection Hy as <-. rewrite K2, (copy_over_good calm_calls _ _ _ _ _ _ Ht E1).
      destruct (seen r (Dir es)); [reflexivity|]. cbn. unfold seen. rewrite get_app, A1. reflexivity.
    + intros C. exfalso. exact (C src Hs).
  - destruct (Hstep x n (fills_refl _ x)) as (x' & n' & E & F' & K1 & K2 & S'). exists x', n'. split; [exact E|]. split; [exact F'|].
    intros q [<-|Hq]; [|apply S', Hq]. rewrite named_eq. cbn [fst snd]. split.
    + intros s y Hs' _ r. apply find_source_spec in Hs'. congruence.
    + intros _. rewrite K1. destruct (Ha (name, v) (or_introl eq_refl)) as [A1 _]. rewrite named_eq in A1. exact A1.
Qed.

(** ** the files *)
Lemma write_files_apart io out fs q : (forall f c, In (f, c) fs -> apart (out ++ [f]) q) -> forall x n ok x' n', write_files io out fs x n = Ran ok x' n' -> get q x' = get q x.
Proof.
  induction fs as [|[f c] fs IH]; intros H x n ok x' n' E; cbn [write_files] in E; [injection E as _ <- _; reflexivity|].
  pose proof (write_file_fills io (out ++ [f]) c x n) as F. destruct (write_file io (out ++ [f]) c x n) as [[] x1 n1|]; cbn in E; try discriminate; cbn in F.
  - rewrite (IH (fun g d Hg => H g d (or_intror Hg)) _ _ _ _ _ E). eapply fills_apart; [exact F|]. eapply H. left. reflexivity.
  - injection E as _ <- _. eapply fills_apart; [exact F|]. eapply H. left. reflexivity.
Qed.
Lemma sibling (out : path) (f g : text) : f <> g -> apart (out ++ [f]) (out ++ [g]).
Proof. intros H. rewrite <- (app_nil_r (out ++ [f])), <- (app_nil_r (out ++ [g])). apply apart_sibling, H. Qed.
Lemma sibling_below (out : path) (f g : text) r : f <> g -> apart (out ++ [f]) (out ++ g :: r).
Proof. intros H. replace (out ++ g :: r) with ((out ++ [g]) ++ r) by (rewrite <- app_assoc; reflexivity). rewrite <- (app_nil_r (out ++ [f])). apply apart_sibling, H. Qed.
Lemma write_files_good io out fs : NoDup (map fst fs) -> forall x n x' n', write_files io out fs x n = Ran true x' n' -> forall f c, In (f, c) fs -> get (out ++ [f]) x' = Some (File c).
Proof.
  induction fs as [|[g d] fs IH]; intros Hd x n x' n' E f c Hi; [destruct Hi|]. cbn [write_files] in E. apply and_then_good in E. destruct E as (x1 & n1 & E1 & E2).
  cbn [map fst] in Hd. apply NoDup_cons_iff in Hd. destruct Hd as [Hg Hd]. destruct Hi as [Hi|Hi]; [|eapply IH; eauto]. injection Hi as -> ->.
  apply write_file_good in E1. destruct E1 as [E1 _]. rewrite (write_files_apart io out fs (out ++ [f])) with (x := x1) (n := n1) (ok := true) (x' := x') (n' := n'); [eapply get_put_same, E1| |exact E2].
  intros h e Hh. apply sibling. intros ->. apply Hg. apply (in_map fst) in Hh. exact Hh.
Qed.
Lemma script_env_ext f g o ps : (forall p, f p = g p) -> script_env f o ps = script_env g o ps.
Proof.
  intros H. unfold script_env. f_equal. generalize (@nil (text * text)). induction ps as [|p ps IH]; intros vs; [reflexivity|]. cbn [fold_left].
  replace (script_vars_with g o vs p) with (script_vars_with f o vs p) by (unfold script_vars_with; rewrite H; reflexivity). apply IH.
Qed.
Section Command.
Variable io : nat -> option (option text).
Variable resolve : list text -> option (list (text * option text)).
Variable place : text -> path.
Variable now : text.
Variable json rxt : list text -> list (text * option text) -> text.
Variable ord : list (text * text) -> list (text * text).
(** what a bundle that was made has *)
Lemma make_bundle_good a bases rs o x n x' n' : make_bundle io resolve place now json rxt ord a bases rs o x n = Ran true x' n' ->
  exists x1 n1 x2 n2 x3 n3, make_dir io (place o) x n = Ran true x1 n1 /\ make_dir io (place o ++ [T "packages"]) x1 n1 = Ran true x2 n2 /\
    copy_packages io (b_skip_copy a) bases (place o) (resolved resolve rs) x2 n2 = Ran true x3 n3 /\
    (forall r, get (place o ++ T "packages" :: r) x' = get (place o ++ T "packages" :: r) x3) /\
    get (place o ++ [T "bundle.json"]) x' = Some (File (json rs (resolved resolve rs))) /\
    get (place o ++ [T "bundle.yaml"]) x' = Some (File (bundle_yaml (bundle_name a rs) now rs (resolved resolve rs))) /\
    get (place o ++ [T "context.rxt"]) x' = Some (File (rxt rs (resolved resolve rs))) /\
    get (place o ++ [T "activate.sh"]) x' = Some (File (bash_script ord (script_env (bin_at (place o) x') o (resolved resolve rs)))).
Proof.
  unfold make_bundle. intros H. apply and_then_good in H. destruct H as (x1 & n1 & H1 & H). apply and_then_good in H. destruct H as (x2 & n2 & H2 & H).
  apply and_then_good in H. destruct H as (x3 & n3 & H3 & H). apply and_then_good in H. destruct H as (x4 & n4 & H4 & H5).
  exists x1, n1, x2, n2, x3, n3. split; [exact H1|]. split; [exact H2|]. split; [exact H3|].
  assert (P4 : forall r, get (place o ++ T "packages" :: r) x4 = get (place o ++ T "packages" :: r) x3).
  { intros r. eapply write_files_apart; [|exact H4]. intros f c Hf. apply sibling_below. intros ->. cbn in Hf. destruct Hf as [Hf|[Hf|[Hf|[]]]]; discriminate. }
  assert (P5 : forall g r, ~ In g [T "activate.sh"; T "activate.ps1"; T "activate.bat"] -> get (place o ++ g :: r) x' = get (place o ++ g :: r) x4).
  { intros g r Hg. eapply write_files_apart; [|exact H5]. intros f c Hf. apply sibling_below. intros ->. apply Hg. destruct Hf as [Hf|[Hf|[Hf|[]]]]; injection Hf as <- _; [left|right; left|right; right; left]; reflexivity. }
  split; [intros r; rewrite P5, P4; [reflexivity|]; cbn; intros [C|[C|[C|[]]]]; discriminate|].
  pose proof (fun N => write_files_good io (place o) _ N _ _ _ _ H4) as G4. specialize (G4 ltac:(cbn; repeat constructor; cbn; intuition discriminate)).
  pose proof (fun N => write_files_good io (place o) _ N _ _ _ _ H5) as G5. specialize (G5 ltac:(cbn; repeat constructor; cbn; intuition discriminate)).
  split; [rewrite P5; [apply G4; left; reflexivity|cbn; intros [C|[C|[C|[]]]]; discriminate]|].
  split; [rewrite P5; [apply G4; right; left; reflexivity|cbn; intros [C|[C|[C|[]]]]; discriminate]|].
  split; [rewrite P5; [apply G4; right; right; left; reflexivity|cbn; intros [C|[C|[C|[]]]]; discriminate]|].
  rewrite (G5 (T "activate.sh") _ (or_introl eq_refl)). do 3 f_equal. apply script_env_ext.
  intros p. unfold bin_at, exists_at. rewrite (P5 (T "packages") [fst p; version_text (snd p); T "bin"]); [reflexivity|]. cbn; intros [C|[C|[C|[]]]]; discriminate.
Qed.
Lemma bundle_good (parses : text -> bool) a bases x x' n : bundle io parses resolve place now json rxt ord a bases x = Ran true x' n ->
  exists rs o, bundle_request a = Some (rs, o) /\ make_bundle io resolve place now json rxt ord a bases rs (bundle_output (bundle_name a rs) o) x 0 = Ran true x' n.
Proof. unfold bundle. destruct (bundle_request a) as [[rs o]|]; [|discriminate]. destruct (forallb parses rs); [|discriminate]. intros H. exists rs, o. auto. Qed.
End Command.

(** ** the variables of the script *)
Section Vars.
Variable has_bin : text * option text -> bool.
Variable out : text.
Definition bins (ps : list (text * option text)) : list text := map (fun p => path_join (package_root out (fst p) (version_text (snd p))) (T "bin")) (filter has_bin ps).
Lemma path_join_bin r : path_join r (T "bin") <> [].
Proof. unfold path_join. cbn [starts_with T]. destruct (is_nil r || ends_with (T "/") r) eqn:E; cbn; destruct r; discriminate. Qed.
Lemma root_key_path n : upper n ++ T "_ROOT" <> T "PATH".
Proof. intros E. apply (f_equal (fun s => last s " "%char)) in E. change (T "_ROOT") with (T "_ROO" ++ ["T"%char]) in E. rewrite app_assoc, last_last in E. discriminate. Qed.
Lemma upper_root_inj n m : upper n ++ T "_ROOT" = upper m ++ T "_ROOT" -> upper n = upper m.
Proof. apply app_inv_tail. Qed.
Lemma script_path ps : aget (T "PATH") (fold_left (script_vars_with has_bin out) ps []) = match rev (bins ps) with [] => None | b :: r => Some (join (T ":") (b :: r)) end.
Proof.
  induction ps as [|p ps IH] using rev_ind; [reflexivity|]. rewrite fold_left_app. cbn [fold_left]. unfold script_vars_with at 1. unfold bins. rewrite filter_app, map_app, rev_app_distr. fold (bins ps). cbn [filter].
  destruct (has_bin p).
  - rewrite aget_put_same. cbn [map rev app]. rewrite aget_put_other by (intros C; symmetry in C; exact (root_key_path _ C)). rewrite IH. f_equal.
    destruct (rev (bins ps)) as [|b r] eqn:Er; cbn [or_empty is_nil]; [reflexivity|].
    assert (Hb : b <> []). { assert (In b (bins ps)) as Hi by (apply in_rev; rewrite Er; left; reflexivity). unfold bins in Hi. apply in_map_iff in Hi. destruct Hi as (q & <- & _). apply path_join_bin. }
    assert (join (T ":") (b :: r) <> []) as Hj by (destruct r; cbn; destruct b; discriminate || contradiction).
    destruct (join (T ":") (b :: r)) eqn:Ej; [contradiction|]. cbn [is_nil]. rewrite <- Ej. reflexivity.
  - cbn [map rev app]. rewrite aget_put_other by (intros C; symmetry in C; exact (root_key_path _ C)). exact IH.
Qed.
Lemma script_root p l r : (forall q, In q r -> upper (fst q) <> upper (fst p)) ->
  aget (upper (fst p) ++ T "_ROOT") (fold_left (script_vars_with has_bin out) (l ++ p :: r) []) = Some (package_root out (fst p) (version_text (snd p))).
Proof.
  assert (S1 : forall q vs k, k <> upper (fst q) ++ T "_ROOT" -> k <> T "PATH" -> aget k (script_vars_with has_bin out vs q) = aget k vs).
  { intros q vs k H1 H2. unfold script_vars_with. destruct (has_bin q); rewrite ?(aget_put_other (T "PATH")) by exact H2; apply aget_put_other, H1. }
  assert (S2 : forall q vs, aget (upper (fst q) ++ T "_ROOT") (script_vars_with has_bin out vs q) = Some (package_root out (fst q) (version_text (snd q)))).
  { intros q vs. unfold script_vars_with. destruct (has_bin q); rewrite ?(aget_put_other (T "PATH")) by apply root_key_path; apply aget_put_same. }
  rewrite fold_left_app. cbn [fold_left]. generalize (fold_left (script_vars_with has_bin out) l []). intros vs Hr.
  induction r as [|q r IH] using rev_ind; [apply S2|]. rewrite fold_left_app. cbn [fold_left]. rewrite S1.
  - apply IH. intros q' Hq. apply Hr, in_or_app. auto.
  - intros C. apply upper_root_inj in C. symmetry in C. revert C. apply Hr, in_or_app. right. left. reflexivity.
  - apply root_key_path.
Qed.
Lemma script_keys ps : NoDup (akeys (fold_left (script_vars_with has_bin out) ps [])) /\
  forall k v, In (k, v) (fold_left (script_vars_with has_bin out) ps []) -> (k = T "PATH" /\ rev (bins ps) <> [] /\ v = join (T ":") (rev (bins ps))) \/ exists p, In p ps /\ k = upper (fst p) ++ T "_ROOT" /\ v = package_root out (fst p) (version_text (snd p)).
Proof.
  assert (N : NoDup (akeys (fold_left (script_vars_with has_bin out) ps []))).
  { assert (G : forall vs, NoDup (akeys vs) -> NoDup (akeys (fold_left (script_vars_with has_bin out) ps vs))).
    { induction ps as [|p ps IH]; intros vs H; [exact H|]. cbn [fold_left]. apply IH. unfold script_vars_with. destruct (has_bin p); repeat apply nodup_put; exact H. }
    apply G. constructor. }
  split; [exact N|]. intros k v Hi. destruct (text_eq_dec k (T "PATH")) as [->|Hk].
  - left. apply (aget_nodup _ _ _ N) in Hi. rewrite script_path in Hi. destruct (rev (bins ps)); [discriminate|]. injection Hi as <-. split; [reflexivity|]. split; [discriminate|reflexivity].
  - right. revert Hi. clear N. assert (G : forall vs, NoDup (akeys vs) -> In (k, v) (fold_left (script_vars_with has_bin out) ps vs) -> In (k, v) vs \/ exists p, In p ps /\ k = upper (fst p) ++ T "_ROOT" /\ v = package_root out (fst p) (version_text (snd p))).
    { induction ps as [|p ps IH]; intros vs Hn Hi; [left; exact Hi|]. cbn [fold_left] in Hi. apply IH in Hi.
      - destruct Hi as [Hi|(q & Hq & E)]; [|right; exists q; split; [right; exact Hq|exact E]]. unfold script_vars_with in Hi.
        assert (Hi' : In (k, v) (aput (upper (fst p) ++ T "_ROOT") (package_root out (fst p) (version_text (snd p))) vs)).
        { destruct (has_bin p); [|exact Hi]. apply aput_in in Hi; [|apply nodup_put, Hn]. destruct Hi as [[C _]|[_ Hi]]; [contradiction|exact Hi]. }
        apply aput_in in Hi'; [|exact Hn]. destruct Hi' as [[-> ->]|[_ Hi']]; [|left; exact Hi']. right. exists p. split; [left; reflexivity|]. auto.
      - unfold script_vars_with. destruct (has_bin p); repeat apply nodup_put; exact Hn. }
    intros Hi. destruct (G [] ltac:(constructor) Hi) as [[]|H]. exact H.
Qed.
End Vars.
Lemma path_join_slash a b : dir_text a -> relative b -> path_join a b = a ++ T "/" ++ b.
Proof.
  intros [Ha He] Hb. unfold path_join. replace (starts_with (T "/") b) with false.
  - replace (is_nil a) with false by (symmetry; apply is_nil_false, Ha). replace (ends_with (T "/") a) with false; [reflexivity|].
    symmetry. destruct (ends_with (T "/") a) eqn:E; [|reflexivity]. apply ends_with_spec in E. destruct E as (r & E). exfalso. exact (He r E).
  - symmetry. destruct (starts_with (T "/") b) eqn:E; [|reflexivity]. apply starts_with_spec in E. destruct E as (r & E). exfalso. exact (Hb r E).
Qed.
Lemma dir_text_app a b : dir_text b -> dir_text (a ++ b).
Proof.
  intros [Hb He]. split; [destruct a; [exact Hb|discriminate]|]. intros r E. destruct b as [|c b _] using rev_ind; [congruence|]. rewrite app_assoc in E. change (T "/") with ["/"%char] in E.
  apply app_inj_tail in E. destruct E as [_ ->]. exact (He b eq_refl).
Qed.
Lemma package_root_text out name version : dir_text out -> dir_text name -> relative name -> relative version -> package_root out name version = root_text out name version.
Proof.
  intros Ho Hn Hr Hv. unfold package_root, root_text.
  assert (Hp : dir_text (T "packages")). { split; [discriminate|]. intros r E. change (T "packages") with (T "package" ++ ["s"%char]) in E. change (T "/") with ["/"%char] in E. apply app_inj_tail in E. destruct E as [_ E]. discriminate. }
  rewrite (path_join_slash out) by (try exact Ho; intros r E; discriminate). rewrite (path_join_slash (out ++ T "/" ++ T "packages")) by (try exact Hr; apply dir_text_app, dir_text_app, Hp).
  rewrite path_join_slash by (try exact Hv; apply dir_text_app, dir_text_app, Hn). rewrite <- !app_assoc. reflexivity.
Qed.
