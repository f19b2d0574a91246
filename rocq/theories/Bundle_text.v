(** Proofs about the texts of bundles. *)
From Verif Require Import Base Base_lemmas Text_lemmas Requirement_text Maps Sorting Range_model Files_model Files_spec Files_proofs Query_model Env_model Rex_model Bundle_model Bundle_spec.
Open Scope string_scope. Open Scope list_scope.

Lemma trim_end_blank a p : forallb is_ws p = true -> trim_end (a ++ p) = trim_end a.
Proof. intros H. unfold trim_end. rewrite rev_app_distr, trim_start_app_ws; [reflexivity|]. rewrite forallb_rev. exact H. Qed.
Lemma trim_end_vis a p : forallb is_ws p = false -> trim_end (a ++ p) = a ++ trim_end p.
Proof. intros H. unfold trim_end. rewrite rev_app_distr, trim_start_app_vis by (rewrite forallb_rev; exact H). rewrite rev_app_distr, rev_involutive. reflexivity. Qed.
Lemma trim_end_nil p : forallb is_ws p = true -> trim_end p = [].
Proof. intros H. apply (trim_end_blank [] p H). Qed.
Lemma trim_end_spec p : exists u, p = trim_end p ++ u /\ forallb is_ws u = true /\ (trim_end p = [] \/ ends_visibly (trim_end p)).
Proof.
  unfold trim_end. destruct (trim_start_spec (rev p)) as (u & Hu & E). exists (rev u). split; [rewrite <- rev_app_distr, <- E, rev_involutive; reflexivity|].
  split; [rewrite forallb_rev; exact Hu|]. destruct (trim_start (rev p)) as [|c r] eqn:Et; [left; reflexivity|right].
  exists (rev r), c. split; [reflexivity|]. exact (trim_start_head _ _ _ Et).
Qed.
Lemma blank_or p : forallb is_ws p = true \/ forallb is_ws p = false.
Proof. destruct (forallb is_ws p); auto. Qed.
Lemma trim_end_some p : forallb is_ws p = false -> trim_end p <> [].
Proof. intros H E. destruct (trim_end_spec p) as (u & E1 & Hu & _). rewrite E in E1. cbn in E1. subst p. congruence. Qed.
Lemma ends_visibly_fixed p : ends_visibly p -> trim_end p = p.
Proof. intros (r & c & -> & Hc). unfold trim_end. rewrite rev_app_distr. cbn. rewrite Hc. cbn. rewrite rev_involutive. reflexivity. Qed.
Lemma without_end_trim s t : without_end s t <-> t = trim_end s.
Proof.
  split.
  - intros (u & -> & Hu & Ht). rewrite trim_end_blank by (apply forallb_forall; rewrite Forall_forall in Hu; exact Hu).
    destruct Ht as [->|Ht]; [reflexivity|]. symmetry. apply ends_visibly_fixed, Ht.
  - intros ->. destruct (trim_end_spec s) as (u & E & Hu & Ht). exists u. split; [exact E|]. split; [|exact Ht]. apply Forall_forall. apply forallb_forall. exact Hu.
Qed.
Lemma shown_filter l : shown l (filter (fun t => negb (is_nil t)) (map trim_end l)).
Proof.
  induction l as [|s l IH]; cbn; [constructor|]. destruct (trim_end s) as [|c t] eqn:E; cbn.
  - apply shown_blank; [apply without_end_trim; congruence|exact IH].
  - apply shown_text; [discriminate|apply without_end_trim; congruence|exact IH].
Qed.
Lemma shown_det l r : shown l r -> r = filter (fun t => negb (is_nil t)) (map trim_end l).
Proof.
  induction 1 as [|s l r H1 _ IH|s t l r Hn H1 _ IH]; [reflexivity| |]; cbn; apply without_end_trim in H1; subst.
  - rewrite <- H1. cbn. reflexivity.
  - destruct (trim_end s); [congruence|]. reflexivity.
Qed.
Lemma shown_self l : shown l l <-> Forall ends_visibly l.
Proof.
  split.
  - intros H. apply shown_det in H. revert H. induction l as [|s l IH]; intros H; [constructor|]. cbn in H.
    assert (L : forall m, length (filter (fun t => negb (is_nil t)) (map trim_end m)) <= length m) by (intros m; induction m as [|a m IHm]; cbn; [lia|destruct (trim_end a); cbn; lia]).
    destruct (trim_end s) as [|c t] eqn:E; cbn in H.
    + exfalso. specialize (L l). rewrite <- H in L. cbn [length] in L. exact (Nat.nle_succ_diag_l _ L).
    + injection H as H1 H2. constructor; [|apply IH, H2]. rewrite H1, <- E. destruct (trim_end_spec s) as (u & _ & _ & [X|X]); [congruence|exact X].
  - induction 1 as [|s l H _ IH]; [constructor|]. apply shown_text; [| |exact IH].
    + destruct H as (r & c & -> & _). destruct r; discriminate.
    + apply without_end_trim. symmetry. apply ends_visibly_fixed, H.
Qed.

(** ** manifests *)
Lemma trim_chomp l : trim (chomp l) = trim l.
Proof.
  unfold chomp. destruct (rev l) as [|c r] eqn:E; [reflexivity|]. destruct (Ascii.eqb_spec c CR) as [->|_]; [|reflexivity].
  assert (l = rev r ++ [CR]) as -> by (rewrite <- (rev_involutive l), E; reflexivity). symmetry. apply trim_snoc_ws. reflexivity.
Qed.
Lemma read_chomp ls : forall b, read_manifest b (map chomp ls) = read_manifest b ls.
Proof. induction ls as [|l ls IH]; intros b; cbn [map read_manifest]; [reflexivity|]. rewrite trim_chomp, !IH. reflexivity. Qed.
Lemma file_lines_of a : file_lines (a ++ [NL]) = map chomp (split_on NL a).
Proof. unfold file_lines. rewrite split_on_app_gen. cbn [split_on]. rewrite last_last. cbn. rewrite removelast_last. reflexivity. Qed.
Lemma trim_item p : trim (T "  - " ++ p) = if forallb is_ws p then T "-" else T "- " ++ trim_end p.
Proof.
  unfold trim. change (trim_start (T "  - " ++ p)) with (T "- " ++ p). destruct (forallb is_ws p) eqn:E.
  - rewrite trim_end_blank by exact E. reflexivity.
  - apply trim_end_vis, E.
Qed.
Lemma read_items ps rest : read_manifest true (map (fun p => T "  - " ++ p) ps ++ rest) = filter (fun t => negb (is_nil t)) (map trim_end ps) ++ read_manifest true rest.
Proof.
  induction ps as [|p ps IH]; [reflexivity|]. cbn [map app read_manifest]. rewrite trim_item. destruct (forallb is_ws p) eqn:E.
  - rewrite (trim_end_nil p E). cbn -[read_manifest]. exact IH.
  - destruct (trim_end p) as [|c t] eqn:Et; [exfalso; exact (trim_end_some p E Et)|]. cbn -[read_manifest]. f_equal. exact IH.
Qed.
Lemma item_line p : one_line p -> ~ In NL (T "  - " ++ p).
Proof. intros H C. apply in_app_or in C. destruct C as [C|C]; [cbn in C; intuition discriminate|exact (H C)]. Qed.
Lemma manifest_read ps b : Forall one_line ps -> read_manifest false (file_lines (manifest ps b)) = filter (fun t => negb (is_nil t)) (map trim_end ps).
Proof.
  intros H. set (items := match ps with [] => [[]] | _ => map (fun p => T "  - " ++ p) ps end).
  assert (E : file_lines (manifest ps b) = map chomp ([T "# rez bundle manifest"; T "packages:"] ++ items ++ [T "skip_solve: " ++ (if b then T "true" else T "false")])).
  { unfold manifest.
    replace (T "# rez bundle manifest" ++ [NL] ++ T "packages:" ++ [NL] ++ join [NL] (map (fun p => T "  - " ++ p) ps) ++ [NL] ++ T "skip_solve: " ++ (if b then T "true" else T "false") ++ [NL])
      with ((T "# rez bundle manifest" ++ NL :: (T "packages:" ++ NL :: (join [NL] (map (fun p => T "  - " ++ p) ps) ++ NL :: (T "skip_solve: " ++ (if b then T "true" else T "false"))))) ++ [NL]) by (rewrite <- !app_assoc; cbn; rewrite <- !app_assoc; reflexivity).
    rewrite file_lines_of. f_equal. rewrite !split_on_app_gen. cbn [app]. 
    replace (split_on NL (T "# rez bundle manifest")) with [T "# rez bundle manifest"] by reflexivity.
    replace (split_on NL (T "packages:")) with [T "packages:"] by reflexivity.
    replace (split_on NL (T "skip_solve: " ++ (if b then T "true" else T "false"))) with [T "skip_solve: " ++ (if b then T "true" else T "false")] by (destruct b; reflexivity).
    cbn [app]. do 2 f_equal. f_equal. destruct ps as [|p ps]; [reflexivity|]. apply split_join; [discriminate|]. apply Forall_forall. intros l Hl. apply in_map_iff in Hl. destruct Hl as (q & <- & Hq). apply item_line. rewrite Forall_forall in H. auto. }
  rewrite E, read_chomp. change (read_manifest false ([T "# rez bundle manifest"; T "packages:"] ++ items ++ [T "skip_solve: " ++ (if b then T "true" else T "false")]))
    with (read_manifest true (items ++ [T "skip_solve: " ++ (if b then T "true" else T "false")])).
  unfold items. destruct ps as [|p ps]; [destruct b; reflexivity|]. rewrite read_items. destruct b; apply app_nil_r.
Qed.

(** ** the manifest of the command *)
Lemma read_no_packages ls rest : Forall (fun l => trim l <> T "packages:") ls -> read_manifest false (ls ++ rest) = read_manifest false rest.
Proof. induction 1 as [|l ls H _ IH]; [reflexivity|]. cbn [app read_manifest]. destruct (text_eqb_spec (trim l) (T "packages:")); [contradiction|]. exact IH. Qed.
Lemma trim_first c s : is_ws c = false -> exists r, trim (c :: s) = c :: r.
Proof.
  intros H. unfold trim. cbn [trim_start]. rewrite H. destruct (forallb is_ws s) eqn:E.
  - change (c :: s) with ([c] ++ s). rewrite trim_end_blank by exact E. exists []. unfold trim_end. cbn. rewrite H. reflexivity.
  - change (c :: s) with ([c] ++ s). rewrite trim_end_vis by exact E. exists (trim_end s). reflexivity.
Qed.
Lemma trim_not_packages c s : is_ws c = false -> c <> "p"%char -> trim (c :: s) <> T "packages:".
Proof. intros H Hc E. destruct (trim_first c s H) as (r & Er). rewrite Er in E. injection E as E. congruence. Qed.
Lemma item_not_packages p : trim (T "  - " ++ p) <> T "packages:".
Proof. change (trim (T "  - " ++ p)) with (trim ("-"%char :: " "%char :: p)). apply trim_not_packages; [reflexivity|discriminate]. Qed.
Lemma trim_name n : trim (T "  - name: " ++ n) = T "- " ++ trim_end (T "name: " ++ n).
Proof. exact (trim_end_vis (T "- ") (T "name: " ++ n) (eq_refl (forallb is_ws (T "name: " ++ n)))). Qed.
Lemma rest_ignored ps : Forall (fun l => trim l <> T "packages:") (flat_map (fun p : text * option text => [T "  - name: " ++ fst p; T "    version: " ++ version_text (snd p)]) ps).
Proof.
  apply Forall_forall. intros l Hl. apply in_flat_map in Hl. destruct Hl as (p & _ & [<-|[<-|[]]]).
  - apply (item_not_packages (T "name: " ++ fst p)).
  - change (trim (T "    version: " ++ version_text (snd p))) with (trim ("v"%char :: T "ersion: " ++ version_text (snd p))). apply trim_not_packages; [reflexivity|discriminate].
Qed.
Lemma one_line_app a s : ~ In NL a -> one_line s -> ~ In NL (a ++ s).
Proof. intros H1 H2 C. apply in_app_or in C. destruct C; [exact (H1 H)|exact (H2 H)]. Qed.
Lemma read_name n rest : read_manifest true ((T "  - name: " ++ n) :: rest) = trim_end (T "name: " ++ n) :: read_manifest true rest.
Proof.
  cbn [read_manifest]. rewrite trim_name. replace (text_eqb (T "- " ++ trim_end (T "name: " ++ n)) (T "packages:")) with false by (symmetry; apply text_eqb_neq; discriminate).
  rewrite strip_prefix_app. reflexivity.
Qed.
Lemma read_version v rest : read_manifest true ((T "    version: " ++ v) :: rest) = read_manifest false rest.
Proof.
  change (read_manifest true ((T "    version: " ++ v) :: rest)) with (read_manifest true (("v"%char :: T "ersion: " ++ v) :: rest)). cbn [read_manifest].
  destruct (trim_first "v"%char (T "ersion: " ++ v) eq_refl) as (t & Et). rewrite Et. reflexivity.
Qed.
Lemma yaml_read name now rs ps : one_line name -> one_line now -> Forall one_line rs -> Forall (fun p => one_line (fst p) /\ one_line (version_text (snd p))) ps ->
  read_manifest false (file_lines (bundle_yaml name now rs ps)) = match ps with [] => [] | p :: _ => [trim_end (T "name: " ++ fst p)] end.
Proof.
  intros Hn Hw Hr Hp. unfold bundle_yaml.
  set (ls := [T "name: " ++ name; T "version: " ++ T "1"; T "created_at: " ++ now; T "requests:"] ++ map (fun r => T "  - " ++ r) rs ++ [T "packages:"] ++ flat_map (fun p => [T "  - name: " ++ fst p; T "    version: " ++ version_text (snd p)]) ps).
  assert (L : Forall (fun l => ~ In NL l) ls).
  { unfold ls.
    apply Forall_app; split; [repeat constructor; try (apply one_line_app; [cbn; intuition discriminate|assumption]); cbn; intuition discriminate|].
    apply Forall_app; split; [apply Forall_forall; intros l Hl; apply in_map_iff in Hl; destruct Hl as (q & <- & Hq); apply item_line; rewrite Forall_forall in Hr; auto|].
    apply Forall_app; split; [repeat constructor; cbn; intuition discriminate|].
    apply Forall_forall. intros l Hl. apply in_flat_map in Hl. destruct Hl as (p & Hi & [<-|[<-|[]]]); rewrite Forall_forall in Hp; destruct (Hp p Hi); apply one_line_app; try assumption; cbn; intuition discriminate. }
  rewrite file_lines_of, split_join by (try exact L; discriminate). rewrite read_chomp. unfold ls.
  rewrite read_no_packages.
  2: { repeat constructor.
       - apply (trim_not_packages "n"%char (T "ame: " ++ name)); [reflexivity|discriminate].
       - discriminate.
       - apply (trim_not_packages "c"%char (T "reated_at: " ++ now)); [reflexivity|discriminate].
       - discriminate. }
  rewrite read_no_packages by (apply Forall_forall; intros l Hl; apply in_map_iff in Hl; destruct Hl as (q & <- & _); apply item_not_packages).
  change (read_manifest false ([T "packages:"] ++ ?l)) with (read_manifest true l).
  destruct ps as [|p ps]; [reflexivity|].
  change (flat_map ?f (p :: ps)) with ((T "  - name: " ++ fst p) :: (T "    version: " ++ version_text (snd p)) :: flat_map f ps).
  rewrite read_name, read_version. f_equal. pose proof (read_no_packages _ [] (rest_ignored ps)) as X. rewrite app_nil_r in X. exact X.
Qed.

(** ** requests and names *)
Lemma has_char_in c s : has_char c s = true <-> In c s.
Proof. unfold has_char. rewrite existsb_exists. split; [intros (d & H & E); apply Ascii.eqb_eq in E; subst; exact H|intros H; exists c; split; [exact H|apply Ascii.eqb_refl]]. Qed.
Lemma looks_pathlike s : looks_like_path s = true <-> pathlike s.
Proof.
  unfold looks_like_path, pathlike. rewrite !orb_true_iff, !has_char_in. change BS with "\"%char. split.
  - intros [[H|[H|H]]|[H|H]]; auto.
    + right. right. destruct s as [|a [|c [|b r]]]; try discriminate. apply Ascii.eqb_eq in H. subst c. eauto.
    + left. apply starts_with_spec in H. destruct H as (r & ->). left. reflexivity.
    + right. left. apply starts_with_spec in H. destruct H as (r & ->). left. reflexivity.
  - intros [H|[H|(a & b & r & ->)]]; auto.
Qed.
Lemma request_spec a rs o : bundle_request a = Some (rs, o) <->
  rs <> [] /\ ((exists d, b_output a = Some d /\ o = Some d /\ b_packages a = rs) \/
               (b_output a = None /\ exists d, o = Some d /\ b_packages a = rs ++ [d] /\ pathlike d) \/
               (b_output a = None /\ o = None /\ b_packages a = rs /\ ~ pathlike (last rs []))).
Proof.
  unfold bundle_request. destruct a as [ps out nm sk]. cbn. destruct ps as [|l r _] using rev_ind.
  { cbn. split; [discriminate|]. intros (H & [(d & _ & _ & E)|[(_ & d & _ & E & _)|(_ & _ & E & _)]]); try congruence. destruct rs; discriminate. }
  rewrite rev_app_distr. cbn [rev app]. destruct out as [o'|].
  { split.
    - intros E. injection E as <- <-. split; [destruct r; discriminate|]. left. eauto.
    - intros (_ & [(d & E1 & -> & ->)|[(E & _)|(E & _)]]); congruence. }
  destruct (looks_like_path l) eqn:El.
  - split.
    + intros E. destruct (rev r) as [|q r'] eqn:Er; [discriminate|]. injection E as <- <-. change (rev r' ++ [q]) with (rev (q :: r')). rewrite <- Er, rev_involutive.
      split; [intros ->; discriminate|]. right. left. split; [reflexivity|]. exists l. apply looks_pathlike in El. auto.
    + intros (Hn & [(d & E & _)|[(_ & d & -> & E & _)|(_ & -> & E & Hl)]]); [discriminate| |].
      * apply app_inj_tail in E. destruct E as [-> ->]. destruct (rev rs) as [|q r'] eqn:Er; [exfalso; apply Hn; rewrite <- (rev_involutive rs), Er; reflexivity|]. rewrite <- Er, rev_involutive. reflexivity.
      * exfalso. apply Hl. rewrite <- E, last_last. apply looks_pathlike, El.
  - split.
    + intros E. injection E as <- <-. split; [destruct r; discriminate|]. right. right. rewrite last_last. split; [reflexivity|]. split; [reflexivity|]. split; [reflexivity|].
      intros C. apply looks_pathlike in C. congruence.
    + intros (Hn & [(d & E & _)|[(_ & d & -> & E & Hl)|(_ & -> & E & Hl)]]); [discriminate| |].
      * apply app_inj_tail in E. destruct E as [_ <-]. apply looks_pathlike in Hl. congruence.
      * rewrite E. reflexivity.
Qed.
Definition settled (s : text) : Prop := forall c, In c s -> ~ separating c.
Lemma settled_same s : settled s -> map (fun c => if Ascii.eqb c "-" || Ascii.eqb c "." then "_"%char else c) s = s.
Proof.
  induction s as [|c s IH]; intros H; [reflexivity|]. cbn [map]. rewrite IH by (intros d Hd; apply H; right; exact Hd). f_equal.
  destruct (Ascii.eqb_spec c "-"%char) as [E|_]; [exfalso; apply (H c (or_introl eq_refl)); left; exact E|].
  destruct (Ascii.eqb_spec c "."%char) as [E|_]; [exfalso; apply (H c (or_introl eq_refl)); right; left; exact E|]. reflexivity.
Qed.
Lemma name_inj a b ps qs : b_name a = None -> b_name b = None -> ps <> [] -> qs <> [] -> Forall settled ps -> Forall settled qs -> bundle_name a ps = bundle_name b qs -> ps = qs.
Proof.
  intros Ha Hb Hp Hq Fp Fq. unfold bundle_name. rewrite Ha, Hb.
  assert (M : forall l, Forall settled l -> map (map (fun c => if Ascii.eqb c "-" || Ascii.eqb c "." then "_"%char else c)) l = l) by (intros l H; induction H as [|s l H _ IH]; cbn [map]; [reflexivity|rewrite (settled_same s H); f_equal; exact IH]).
  rewrite !M by assumption. intros E. change (T "_") with ["_"%char] in E.
  assert (N : forall l, Forall settled l -> Forall (fun p => ~ In "_"%char p) l) by (intros l H; eapply Forall_impl; [|exact H]; cbn; intros s Hs C; apply (Hs _ C); right; right; reflexivity).
  rewrite <- (split_join "_"%char ps), <- (split_join "_"%char qs), E by auto. reflexivity.
Qed.

(** ** lists of bundles *)
Lemma list_bundles_in base x n : In n (list_bundles base x) <-> exists es fs, get base x = Some (Dir es) /\ In (n, Dir fs) es /\ ahas (T "bundle.yaml") fs = true.
Proof.
  unfold list_bundles. destruct (get base x) as [[c|l| |es]|]; try (split; [intros []|intros (es' & fs & E & _); discriminate]).
  rewrite sort_in, in_map_iff. split.
  - intros ((k & y) & <- & H). apply filter_In in H. destruct H as [H1 H2]. cbn in *. destruct y as [| | |fs]; try discriminate. exists es, fs. auto.
  - intros (es' & fs & E & H1 & H2). injection E as <-. exists (n, Dir fs). split; [reflexivity|]. apply filter_In. auto.
Qed.
Lemma list_bundles_spec base x n : (forall y, get base x = Some y -> tidy y) -> In n (list_bundles base x) <-> has_bundle base n x.
Proof.
  intros Ht. rewrite list_bundles_in. unfold has_bundle, dir_at, absent. rewrite !get_app. split.
  - intros (es & fs & E & H1 & H2). specialize (Ht _ E). apply tidy_dir in Ht. destruct Ht as [Hd _]. rewrite E. cbn [get]. rewrite (aget_nodup _ _ _ Hd H1). cbn [get]. split; [eauto|].
    apply ahas_in, aget_some in H2. destruct H2 as (v & ->). discriminate.
  - intros [(fs & E1) E2]. destruct (get base x) as [y|] eqn:E; [|discriminate]. destruct y as [| | |es]; try discriminate. cbn [get] in *. destruct (aget n es) as [z|] eqn:Ea; [|discriminate].
    cbn [get] in *. injection E1 as ->. exists es, fs. split; [reflexivity|]. split; [apply aget_in, Ea|]. apply ahas_in, aget_some. destruct (aget (T "bundle.yaml") fs); [eauto|contradiction].
Qed.
Lemma list_bundles_sorted base x : sorted_by text_cmp (list_bundles base x).
Proof.
  unfold list_bundles. destruct (get base x) as [[c|l| |es]|]; try (intros [|? ?]; discriminate).
  apply (sort_sorted text_cmp (fun _ => True) TPO_text). apply Forall_forall. auto.
Qed.
Lemma list_bundles_nodup base x : (forall y, get base x = Some y -> tidy y) -> NoDup (list_bundles base x).
Proof.
  intros Ht. unfold list_bundles. destruct (get base x) as [[c|l| |es]|] eqn:E; try constructor. specialize (Ht _ eq_refl). apply tidy_dir in Ht. destruct Ht as [Hd _].
  eapply Permutation.Permutation_NoDup; [apply Permutation.Permutation_sym, sort_perm|]. apply (nodup_filter_keys (fun e => match snd e with Dir fs => ahas (T "bundle.yaml") fs | _ => false end) es Hd).
Qed.
