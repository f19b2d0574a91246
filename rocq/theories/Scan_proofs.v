(** Proofs about scanned repositories: patterns, the repository in a file system, and duplicates. *)
From Verif Require Import Base Base_lemmas Maps Sorting Version_model Package_model Order_model Order_spec Order_proofs Scan_model Scan_spec.
Open Scope string_scope. Open Scope list_scope.

(** ** Patterns *)
Lemma star_iff r s : tmatch (TStar :: r) s = true <-> exists u v, s = u ++ v /\ forallb dot_char u = true /\ tmatch r v = true.
Proof.
  induction s as [|c s IH].
  - cbn [tmatch]. rewrite orb_false_r. split.
    + intros H. exists [], []. auto.
    + intros [u [v [E [_ H]]]]. symmetry in E. apply app_eq_nil in E. destruct E; subst. exact H.
  - change (tmatch (TStar :: r) (c :: s)) with (tmatch r (c :: s) || (dot_char c && tmatch (TStar :: r) s)). rewrite orb_true_iff, andb_true_iff, IH. split.
    + intros [H | [H1 [u [v [E [H2 H3]]]]]]; [exists [], (c :: s); auto|]. exists (c :: u), v. subst. cbn [forallb app]. rewrite H1, H2. auto.
    + intros [u [v [E [H1 H2]]]]. destruct u as [|x u]; cbn [app] in E; [subst; auto|]. injection E as <- ->. cbn [forallb] in H1. apply andb_true_iff in H1. destruct H1. right. split; [assumption|]. exists u, v. auto.
Qed.
Lemma seg_iff r s : tmatch (TSeg :: r) s = true <-> exists u v, s = u ++ v /\ ~ In "/"%char u /\ tmatch r v = true.
Proof.
  induction s as [|c s IH].
  - cbn [tmatch]. rewrite orb_false_r. split.
    + intros H. exists [], []. cbn. tauto.
    + intros [u [v [E [_ H]]]]. symmetry in E. apply app_eq_nil in E. destruct E; subst. exact H.
  - change (tmatch (TSeg :: r) (c :: s)) with (tmatch r (c :: s) || (negb (Ascii.eqb c "/") && tmatch (TSeg :: r) s)). rewrite orb_true_iff, andb_true_iff, IH, negb_true_iff, Ascii.eqb_neq. split.
    + intros [H | [H1 [u [v [E [H2 H3]]]]]]; [exists [], (c :: s); cbn; tauto|]. exists (c :: u), v. subst. cbn [In app]. split; [reflexivity|]. split; [|assumption]. intros [X|X]; [congruence|tauto].
    + intros [u [v [E [H1 H2]]]]. destruct u as [|x u]; cbn [app] in E; [subst; auto|]. injection E as <- ->. cbn [In] in H1. right. split; [intros X; apply H1; left; auto|]. exists u, v. tauto.
Qed.
Lemma one_line_app u v : one_line (u ++ v) <-> one_line u /\ one_line v.
Proof. unfold one_line. rewrite in_app_iff. tauto. Qed.
Lemma one_line_cons c v : one_line (c :: v) <-> c <> "010"%char /\ one_line v.
Proof. unfold one_line. cbn [In]. intuition congruence. Qed.
Lemma one_line_dots u : one_line u -> forallb dot_char u = true.
Proof. intros H. apply forallb_forall. intros x Hx. unfold dot_char. apply negb_true_iff, Ascii.eqb_neq. intros ->. exact (H Hx). Qed.
Lemma dot_ok c : c <> "010"%char -> dot_char c = true.
Proof. intros H. unfold dot_char. apply negb_true_iff, Ascii.eqb_neq, H. Qed.
Lemma dot_ok' c : dot_char c = true -> c <> "010"%char.
Proof. unfold dot_char. rewrite negb_true_iff, Ascii.eqb_neq. auto. Qed.
Lemma glob_char_inv c p s : c <> "*"%char -> c <> "?"%char -> glob (c :: p) s -> exists t, s = c :: t /\ glob p t.
Proof. intros H1 H2 H. inversion H; subst; try congruence. eauto. Qed.
Lemma glob_tokens_spec p : forall s, one_line s -> (tmatch (glob_tokens p) s = true <-> glob (loose p) s).
Proof.
  assert (G : forall n q, (length q <= n)%nat -> forall s, one_line s -> (tmatch (glob_tokens q) s = true <-> glob (loose q) s)); [|apply (G (length p) p), Nat.le_refl].
  induction n as [|n IH]; intros q Hn s Hs.
  - destruct q; [|cbn in Hn; lia]. cbn [glob_tokens loose map tmatch]. destruct s; cbn [is_nil]; split; try discriminate; try constructor. intros H; inversion H.
  - destruct q as [|c r]; [cbn [glob_tokens loose map tmatch]; destruct s; cbn [is_nil]; split; try discriminate; try constructor; intros H; inversion H|].
    cbn [length] in Hn. cbn [glob_tokens loose map].
    destruct (Ascii.eqb_spec c "*") as [->|Hc].
    + change (Ascii.eqb "*" ".") with false. cbv iota. destruct r as [|x r].
      * cbn [map]. rewrite seg_iff. split.
        -- intros [u [v [-> [H1 H2]]]]. destruct v; [|discriminate]. apply G_part; [assumption|discriminate|constructor].
        -- intros H. inversion H; subst; try congruence. exists u, s0. split; [reflexivity|]. split; [assumption|]. match goal with G : glob [] _ |- _ => inversion G end. reflexivity.
      * destruct (Ascii.eqb_spec x "*") as [->|Hx].
        -- cbn [map]. change (Ascii.eqb "*" ".") with false. cbv iota. rewrite star_iff. fold (loose r). split.
           ++ intros [u [v [-> [H1 H2]]]]. apply one_line_app in Hs. apply G_all, IH; [cbn in Hn; lia|tauto|assumption].
           ++ intros H. inversion H; subst; try congruence; [|match goal with G : hd_error _ <> _ |- _ => cbn in G; congruence end]. apply one_line_app in Hs. exists u, s0. split; [reflexivity|]. split; [apply one_line_dots; tauto|]. apply IH; [cbn in Hn; lia|tauto|assumption].
        -- rewrite seg_iff. assert (Hh : hd_error (loose (x :: r)) <> Some "*"%char) by (cbn; destruct (Ascii.eqb_spec x "."); congruence). split.
           ++ intros [u [v [-> [H1 H2]]]]. apply one_line_app in Hs. apply G_part; [assumption|exact Hh|]. apply (IH (x :: r)); [cbn in *; lia|tauto|assumption].
           ++ intros H. change (map _ (x :: r)) with (loose (x :: r)) in H. remember (loose (x :: r)) as q eqn:Eq. inversion H; subst q; subst; try congruence.
              ** exfalso. apply Hh. rewrite <- H0. reflexivity.
              ** apply one_line_app in Hs. exists u, s0. split; [reflexivity|]. split; [assumption|]. apply (IH (x :: r)); [cbn in *; lia|tauto|assumption].
    + destruct (Ascii.eqb_spec c "?") as [->|Hq]; [|destruct (Ascii.eqb_spec c ".") as [->|Hd]].
      * change (Ascii.eqb "?" ".") with false. cbn [orb tmatch]. cbv iota. fold (loose r). destruct s as [|x s]; [split; [discriminate|intros H; inversion H; congruence]|]. apply one_line_cons in Hs. rewrite andb_true_iff, IH by (first [lia|tauto]). split.
        -- intros [_ H]. apply G_one, H.
        -- intros H. inversion H; subst; [congruence|]. split; [apply dot_ok; tauto|assumption].
      * cbn [orb tmatch]. fold (loose r). destruct s as [|x s]; [split; [discriminate|intros H; inversion H; congruence]|]. apply one_line_cons in Hs. rewrite andb_true_iff, IH by (first [lia|tauto]). split.
        -- intros [_ H]. apply G_one, H.
        -- intros H. inversion H; subst; [congruence|]. split; [apply dot_ok; tauto|assumption].
      * cbn [orb tmatch]. fold (loose r). destruct s as [|x s]; [split; [discriminate|intros H; inversion H; congruence]|]. apply one_line_cons in Hs. rewrite andb_true_iff, IH by (first [lia|tauto]). rewrite Ascii.eqb_eq. split.
        -- intros [<- H]. apply G_char; assumption.
        -- intros H. apply glob_char_inv in H; [|assumption|assumption]. destruct H as [t [E H]]. injection E as <- ->. auto.
Qed.
Lemma loose_id p : ~ In "."%char p -> loose p = p.
Proof. induction p as [|c p IH]; intros H; [reflexivity|]. cbn [loose map] in *. fold (loose p). rewrite IH by (intros X; apply H; right; exact X). destruct (Ascii.eqb_spec c "."); [exfalso; apply H; left; auto|reflexivity]. Qed.
Lemma name_tokens_spec p : forall s, one_line s -> (tmatch (name_tokens p) s = true <-> wildcard (loose p) s).
Proof.
  induction p as [|c r IH]; intros s Hs.
  - cbn [name_tokens loose map tmatch]. destruct s; cbn [is_nil]; split; try discriminate; try constructor. intros H; inversion H.
  - cbn [name_tokens loose map]. fold (name_tokens r) (loose r). destruct (Ascii.eqb_spec c "*") as [->|Hc].
    + change (Ascii.eqb "*" ".") with false. cbv iota. rewrite star_iff. split.
      * intros [u [v [-> [H1 H2]]]]. apply one_line_app in Hs. apply W_all, IH; [tauto|assumption].
      * intros H. inversion H; subst; [congruence|]. apply one_line_app in Hs. exists u, s0. split; [reflexivity|]. split; [apply one_line_dots; tauto|]. apply IH; [tauto|assumption].
    + destruct (Ascii.eqb_spec c "?") as [->|Hq]; [|destruct (Ascii.eqb_spec c ".") as [->|Hd]].
      * change (Ascii.eqb "?" ".") with false. cbn [orb tmatch]. cbv iota. destruct s as [|x s]; [split; [discriminate|intros H; inversion H; congruence]|]. apply one_line_cons in Hs. rewrite andb_true_iff, IH by tauto. split.
        -- intros [_ H]. apply W_one, H.
        -- intros H. inversion H; subst; [congruence|]. split; [apply dot_ok; tauto|assumption].
      * cbn [orb tmatch]. destruct s as [|x s]; [split; [discriminate|intros H; inversion H; congruence]|]. apply one_line_cons in Hs. rewrite andb_true_iff, IH by tauto. split.
        -- intros [_ H]. apply W_one, H.
        -- intros H. inversion H; subst; [congruence|]. split; [apply dot_ok; tauto|assumption].
      * cbn [orb tmatch]. destruct s as [|x s]; [split; [discriminate|intros H; inversion H; congruence]|]. apply one_line_cons in Hs. rewrite andb_true_iff, IH by tauto. rewrite Ascii.eqb_eq. split.
        -- intros [<- H]. apply W_char; assumption.
        -- intros H. inversion H; subst; try congruence. auto.
Qed.
Lemma name_matches_spec n p : one_line n -> (name_matches n p = true <-> wildcard (loose p) n).
Proof.
  intros H. unfold name_matches. destruct (text_eqb_spec p (T "*")) as [->|_]; [|apply name_tokens_spec, H].
  split; [|reflexivity]. intros _. change (loose (T "*")) with ["*"%char]. rewrite <- (app_nil_r n). apply W_all. constructor.
Qed.
Lemma file_matches_spec n p : one_line n -> ~ In "/"%char n -> (file_matches n p = true <-> glob (loose p) n).
Proof.
  intros H Hn. unfold file_matches. destruct (text_eqb_spec p (T "*")) as [->|_]; [|apply glob_tokens_spec, H].
  split; [|reflexivity]. intros _. change (loose (T "*")) with ["*"%char]. rewrite <- (app_nil_r n). apply G_part; [assumption|discriminate|constructor].
Qed.
Lemma tails_in p q : In q (tails p) <-> exists a, p = a ++ "/"%char :: q /\ q <> [].
Proof.
  induction p as [|c p IH]; cbn [tails].
  - split; [intros []|]. intros [a [E _]]. destruct a; discriminate.
  - destruct (Ascii.eqb_spec c "/") as [->|Hc].
    + destruct p as [|x p]; cbn [is_nil].
      * split; [intros []|]. intros [a [E H]]. destruct a as [|y a]; [injection E as <-; congruence|]. injection E as _ E. destruct a; discriminate.
      * cbn [In]. rewrite IH. split.
        -- intros [<-|[a [E H]]]; [exists []; split; [reflexivity|discriminate]|]. exists ("/"%char :: a). rewrite E. auto.
        -- intros [a [E H]]. destruct a as [|y a]; [injection E as <-; auto|]. injection E as _ E. right. exists a. auto.
    + rewrite IH. split; intros [a [E H]].
      * exists (c :: a). rewrite E. auto.
      * destruct a as [|y a]; [injection E as E _; congruence|]. injection E as _ E. exists a. auto.
Qed.
Lemma excluded_spec g p : one_line p -> (excluded g p = true <-> exists pat q, In pat (g_exclude g) /\ end_of p q /\ glob (loose pat) q).
Proof.
  intros H. unfold excluded. rewrite existsb_exists. split.
  - intros [pat [H1 H2]]. apply existsb_exists in H2. destruct H2 as [q [[<-|Hq] Hm]].
    + exists pat, p. split; [assumption|]. split; [left; reflexivity|]. apply glob_tokens_spec; assumption.
    + apply tails_in in Hq. destruct Hq as [a [E Hq]]. exists pat, q. split; [assumption|]. split; [right; eauto|]. apply glob_tokens_spec; [|assumption]. rewrite E in H. apply one_line_app in H. destruct H as [_ H]. apply one_line_cons in H. tauto.
  - intros [pat [q [H1 [[<-|[a [E Hq]]] H2]]]]; exists pat; (split; [assumption|]); apply existsb_exists.
    + exists p. split; [left; reflexivity|]. apply glob_tokens_spec; assumption.
    + exists q. split; [right; apply tails_in; eauto|]. apply glob_tokens_spec; [|assumption]. rewrite E in H. apply one_line_app in H. destruct H as [_ H]. apply one_line_cons in H. tauto.
Qed.

(** ** The repository in a file system *)
Lemma child_spec p n : child p n = p ++ T "/" ++ n.
Proof. reflexivity. Qed.
Lemma called_key n v p : called n v p <-> p_name p = n /\ version_key p = v.
Proof. unfold called, version_key. destruct (p_version p); intuition congruence. Qed.
(** what is stored for a name and a version *)
Definition stored (c : list (text * list (text * package))) (n v : text) : option package := match aget n c with Some vs => aget v vs | None => None end.
Lemma stored_add p c n v : stored (add_package p c) n v = if text_eqb n (p_name p) && text_eqb v (version_key p) then Some p else stored c n v.
Proof.
  unfold stored, add_package. destruct (text_eqb_spec n (p_name p)) as [->|Hn].
  - rewrite aget_put_same. destruct (text_eqb_spec v (version_key p)) as [->|Hv]; cbn [andb].
    + apply aget_put_same.
    + rewrite aget_put_other by exact Hv. destruct (aget (p_name p) c); reflexivity.
  - rewrite aget_put_other by exact Hn. reflexivity.
Qed.
Definition add_all (ps : list package) (c : list (text * list (text * package))) := fold_left (fun c p => add_package p c) ps c.
Definition variants_all (ps : list package) (m : list (text * list text)) := fold_left (fun m p => add_variants p m) ps m.
Lemma stored_all ps : forall c n v, stored (add_all ps c) n v =
  match find (fun p => text_eqb n (p_name p) && text_eqb v (version_key p)) (rev ps) with Some p => Some p | None => stored c n v end.
Proof.
  induction ps as [|p ps IH] using rev_ind; intros c n v; [reflexivity|]. unfold add_all. rewrite fold_left_app. cbn [fold_left]. rewrite stored_add, rev_app_distr. cbn [rev app find].
  destruct (text_eqb n (p_name p) && text_eqb v (version_key p)); [reflexivity|]. apply IH.
Qed.
Lemma find_last {A} (f : A -> bool) (P : A -> Prop) l x : (forall y, f y = true <-> P y) -> (find f (rev l) = Some x <-> last_one P l x).
Proof.
  intros H. rewrite find_first. unfold last_one. split.
  - intros [a [b [E [H1 H2]]]]. exists (rev b), (rev a). split; [|split; [apply H; assumption|]].
    + rewrite <- (rev_involutive l), E, rev_app_distr. cbn [rev]. rewrite <- app_assoc. reflexivity.
    + intros y Hy X. apply H in X. rewrite (H2 y) in X by (apply in_rev; exact Hy). discriminate.
  - intros [a [b [E [H1 H2]]]]. exists (rev b), (rev a). split; [|split; [apply H; assumption|]].
    + rewrite E, rev_app_distr. cbn [rev]. rewrite <- app_assoc. reflexivity.
    + intros y Hy. apply in_rev in Hy. destruct (f y) eqn:E2; [exfalso; apply (H2 y Hy), H, E2|reflexivity].
Qed.
Lemma stored_last ps n v p : stored (add_all ps []) n v = Some p <-> last_one (called n v) ps p.
Proof.
  rewrite stored_all. change (stored [] n v) with (@None package). rewrite <- (find_last (fun p => text_eqb n (p_name p) && text_eqb v (version_key p)) (called n v)).
  - destruct (find _ (rev ps)); tauto.
  - intros y. rewrite andb_true_iff, !text_eqb_eq, called_key. intuition congruence.
Qed.
Lemma last_exists {A} (P : A -> Prop) (dec : forall x, {P x} + {~ P x}) l : (exists x, In x l /\ P x) <-> exists x, last_one P l x.
Proof.
  split.
  - induction l as [|y l IH] using rev_ind; [intros [x [[] _]]|]. intros [x [Hx Hp]]. destruct (dec y) as [H|H]; [exists y, l, []; split; [reflexivity|split; [assumption|intros z []]]|].
    apply in_app_iff in Hx. destruct Hx as [Hx|[<-|[]]]; [|tauto]. destruct IH as [z [a [b [E [H1 H2]]]]]; [eauto|]. exists z, a, (b ++ [y]). subst. rewrite <- app_assoc. split; [reflexivity|]. split; [assumption|].
    intros w Hw. apply in_app_iff in Hw. destruct Hw as [Hw|[<-|[]]]; auto.
  - intros [x [a [b [E [H _]]]]]. exists x. split; [rewrite E; apply in_elt|assumption].
Qed.
Section Files.
Variable load_file : text -> option package.
Variable d : disk.
Definition stats_all (dirs : list text) (t : stats) : stats :=
  fold_left (fun t dir => match (if is_there (d_kind d (child dir (T "package.py"))) then load_file (child dir (T "package.py")) else None) with
    | Some p => mkStats (S (t_packages t)) (S (t_versions t)) (t_variants t + length (p_variants p)) (t_size t + match d_stat d (child dir (T "package.py")) with Some (_, n) => n | None => 0 end)%N
    | None => t end) dirs t.
Lemma scan_one_spec dir c m t : scan_one load_file d dir (c, m, t) = (add_all (loaded load_file d [dir]) c, variants_all (loaded load_file d [dir]) m, stats_all [dir] t).
Proof.
  unfold scan_one, loaded, stats_all, add_all, variants_all. cbn [flat_map fold_left]. change (dir ++ T "/package.py") with (child dir (T "package.py")). rewrite app_nil_r.
  destruct (d_kind d (child dir (T "package.py"))); cbn [is_there]; try reflexivity; destruct (load_file (child dir (T "package.py"))); reflexivity.
Qed.
Lemma loaded_app a b : loaded load_file d (a ++ b) = loaded load_file d a ++ loaded load_file d b.
Proof. apply flat_map_app. Qed.
Lemma scan_ones dirs : forall c m t, fold_left (fun s dir => scan_one load_file d dir s) dirs (c, m, t) = (add_all (loaded load_file d dirs) c, variants_all (loaded load_file d dirs) m, stats_all dirs t).
Proof.
  induction dirs as [|x dirs IH]; intros c m t; [reflexivity|]. cbn [fold_left]. rewrite scan_one_spec, IH. change (x :: dirs) with ([x] ++ dirs). rewrite loaded_app. unfold add_all, variants_all, stats_all. rewrite !fold_left_app. reflexivity.
Qed.
Lemma fold_filter {A B} (f : A -> bool) (g : B -> A -> B) l : forall b, fold_left (fun s e => if f e then g s e else s) l b = fold_left g (filter f l) b.
Proof. induction l as [|x l IH]; intros b; [reflexivity|]. cbn [fold_left filter]. destruct (f x); cbn [fold_left]; apply IH. Qed.
Lemma fold_map {A B C} (h : C -> A) (g : B -> A -> B) l : forall b, fold_left g (map h l) b = fold_left (fun s e => g s (h e)) l b.
Proof. induction l as [|x l IH]; intros b; [reflexivity|]. cbn [fold_left map]. apply IH. Qed.
Lemma filter_map' {A B} (f : B -> bool) (h : A -> B) l : filter f (map h l) = map h (filter (fun x => f (h x)) l).
Proof. induction l as [|x l IH]; [reflexivity|]. cbn [map filter]. destruct (f (h x)); cbn [map]; rewrite IH; reflexivity. Qed.
Lemma scan_family_spec root f s : scan_family load_file d root s f = fold_left (fun s dir => scan_one load_file d dir s) (places d root [f]) s.
Proof.
  unfold scan_family, places. cbn [flat_map]. rewrite app_nil_r. change (root ++ T "/" ++ f) with (child root f). set (dir := child root f). cbv zeta. change (dir ++ T "/package.py") with (child dir (T "package.py")).
  destruct (d_kind d dir); cbn [is_dir]; try reflexivity. destruct (d_kind d (child dir (T "package.py"))); cbn [is_there]; try reflexivity.
  destruct (d_list d dir) as [es|]; [|reflexivity]. rewrite fold_filter, filter_map', fold_map. reflexivity.
Qed.
Lemma scan_families root es : forall s, fold_left (scan_family load_file d root) es s = fold_left (fun s dir => scan_one load_file d dir s) (places d root es) s.
Proof.
  induction es as [|f es IH]; intros s; [reflexivity|]. cbn [fold_left]. rewrite scan_family_spec, IH, <- fold_left_app. f_equal. change (f :: es) with ([f] ++ es). unfold places. rewrite flat_map_app. reflexivity.
Qed.
Lemma initialize_spec root r es : is_there (d_kind d root) = true -> d_list d root = Some es ->
  initialize load_file d root r = (true, mkRepo (add_all (loaded load_file d (places d root es)) []) (variants_all (loaded load_file d (places d root es)) []) (stats_all (places d root es) (mkStats 0 0 0 0)) true).
Proof. intros H1 H2. unfold initialize. rewrite H1, H2, scan_families, scan_ones. reflexivity. Qed.
Lemma initialize_ok root r r' : initialize load_file d root r = (true, r') -> exists es, is_there (d_kind d root) = true /\ d_list d root = Some es.
Proof. unfold initialize. destruct (is_there (d_kind d root)); [|discriminate]. destruct (d_list d root) as [es|]; [eauto|discriminate]. Qed.
End Files.
