(** Proofs about versions: parsing. *)
From Verif Require Import Base Base_lemmas Version_model Version_spec.
From Coq Require Import ZifyBool ZifyNat ZifyN.

(** ** characters *)
Lemma is_token_char_iff c : is_token_char c = true <-> word_char c.
Proof.
  unfold is_token_char, word_char, is_alnum, is_alpha.
  rewrite !orb_true_iff, Ascii.eqb_eq. tauto.
Qed.
Lemma word_iff t : word t <-> t <> [] /\ forallb is_token_char t = true.
Proof.
  unfold word. rewrite forallb_forall, Forall_forall.
  split; intros [H1 H2]; split; auto; intros x Hx; apply is_token_char_iff; auto.
Qed.
Lemma sep_not_token c : sep_char c -> is_token_char c = false.
Proof. intros [->|[->| ->]]; reflexivity. Qed.
Lemma sep_ok_iff c : is_token_char c = false -> sep_ok [c] = true <-> sep_char c.
Proof.
  intros Hc. unfold sep_ok, sep_char. cbn [length].
  change (1 <? 1) with false. cbv iota.
  rewrite !orb_true_iff, !text_eqb_eq. unfold T; simpl.
  split.
  - intros [[[H|H]|H]|H]; injection H as ->; auto. discriminate Hc.
  - intros [->|[->| ->]]; auto.
Qed.

(** ** the scanner on well-shaped text *)
Lemma scan_tokens_word w cur rest :
  forallb is_token_char w = true -> scan_tokens cur (w ++ rest) = scan_tokens (rev w ++ cur) rest.
Proof.
  revert cur; induction w as [|c w IH]; intros cur H; simpl in *; [reflexivity|].
  apply andb_true_iff in H as [-> H]. rewrite IH by assumption.
  rewrite <- app_assoc. reflexivity.
Qed.
Lemma scan_split_word_true w rest :
  forallb is_token_char w = true -> scan_split true [] (w ++ rest) = scan_split true [] rest.
Proof.
  induction w as [|c w IH]; intros H; simpl in *; [reflexivity|].
  apply andb_true_iff in H as [-> H]. auto.
Qed.
Lemma scan_split_word w cur rest :
  w <> [] -> forallb is_token_char w = true ->
  scan_split false cur (w ++ rest) = rev cur :: scan_split true [] rest.
Proof.
  destruct w as [|c w]; intros Hn H; [congruence|]. simpl in *.
  apply andb_true_iff in H as [-> H]. rewrite scan_split_word_true by assumption. reflexivity.
Qed.

Definition single (c : ascii) : text := [c].

Lemma shape_scan s ts cs : shape s ts cs ->
  scan_tokens [] s = ts /\
  forall cur, scan_split false cur s = rev cur :: map single cs ++ [[]].
Proof.
  induction 1 as [t Ht | t c s ts cs Ht Hc Hs [IH1 IH2]].
  - apply word_iff in Ht as [Hn Ht]. split.
    + rewrite <- (app_nil_r t) at 1. rewrite scan_tokens_word by assumption. simpl.
      rewrite app_nil_r. destruct (rev t) eqn:E; simpl.
      * exfalso. apply Hn. rewrite <- (rev_involutive t), E. reflexivity.
      * change (rev l ++ [a]) with (rev (a :: l)). rewrite <- E, rev_involutive. reflexivity.
    + intros cur. rewrite <- (app_nil_r t). rewrite scan_split_word by assumption. reflexivity.
  - apply word_iff in Ht as [Hn Ht]. split.
    + rewrite scan_tokens_word by assumption. rewrite app_nil_r. simpl.
      rewrite sep_not_token by assumption.
      destruct (rev t) eqn:E; simpl.
      * exfalso. apply Hn. rewrite <- (rev_involutive t), E. reflexivity.
      * change (rev l ++ [a]) with (rev (a :: l)). rewrite <- E, rev_involutive, IH1. reflexivity.
    + intros cur. rewrite scan_split_word by assumption. simpl.
      rewrite sep_not_token by assumption. rewrite IH2. reflexivity.
Qed.

(** ** from the scanner's output back to a shape *)
Lemma scan_split_first_len s : forall cur p ps,
  scan_split false cur s = p :: ps -> length cur <= length p.
Proof.
  induction s as [|c s IH]; intros cur p ps H; simpl in H.
  - injection H as <- _. rewrite rev_length. lia.
  - destruct (is_token_char c).
    + injection H as <- _. rewrite rev_length. lia.
    + apply IH in H. simpl in H. lia.
Qed.
Lemma scan_split_nonnil s b cur : scan_split b cur s <> [].
Proof.
  revert b cur; induction s as [|c s IH]; intros b cur; simpl; [discriminate|].
  destruct (is_token_char c), b; try discriminate; apply IH.
Qed.

Lemma scan_shape_true : forall n s cur mid,
  length s <= n ->
  cur <> [] -> forallb is_token_char cur = true ->
  scan_split true [] s = mid ++ [[]] -> forallb sep_ok mid = true ->
  exists cs, mid = map single cs /\ shape (rev cur ++ s) (scan_tokens cur s) cs.
Proof.
  induction n as [|n IH]; intros s cur mid Hn Hc Ht Hs Ho.
  - destruct s; [|simpl in Hn; lia]. simpl in Hs.
    destruct mid as [|m mid]; [|destruct mid; simpl in Hs; discriminate].
    exists []. split; [reflexivity|]. rewrite app_nil_r. simpl.
    destruct (is_nil cur) eqn:E; [apply is_nil_true in E; congruence|].
    constructor. apply word_iff. split.
    + intros Er. apply Hc. rewrite <- (rev_involutive cur), Er. reflexivity.
    + rewrite forallb_forall in *. intros x Hx. apply Ht. apply in_rev. exact Hx.
  - destruct s as [|c s].
    + apply (IH [] cur mid); auto. simpl; lia.
    + simpl in Hn. simpl in Hs. destruct (is_token_char c) eqn:Ec.
      * destruct (IH s (c :: cur) mid) as (cs & Em & Hsh); auto; try discriminate; try lia.
        { simpl. rewrite Ec. exact Ht. }
        exists cs. split; [exact Em|]. simpl. rewrite Ec. simpl in Hsh.
        rewrite <- app_assoc in Hsh. exact Hsh.
      * destruct s as [|d s].
        { simpl in Hs. destruct mid as [|m [|m2 mid]]; simpl in Hs; discriminate. }
        simpl in Hs. destruct (is_token_char d) eqn:Ed.
        -- destruct mid as [|m mid].
           { simpl in Hs. injection Hs as Hs1 Hs2. discriminate. }
           simpl in Hs. injection Hs as <- Hs. simpl in Ho.
           apply andb_true_iff in Ho as [Ho1 Ho2].
           apply (sep_ok_iff c Ec) in Ho1.
           simpl in Hn.
           destruct (IH s [d] mid) as (cs & Em & Hsh); auto; try discriminate; try lia.
           { simpl. rewrite Ed. reflexivity. }
           exists (c :: cs). split; [rewrite Em; reflexivity|].
           simpl. rewrite Ec.
           destruct (is_nil cur) eqn:E; [apply is_nil_true in E; congruence|].
           rewrite Ed. constructor; [|exact Ho1|exact Hsh].
           apply word_iff. split.
           ++ intros Er. apply Hc. rewrite <- (rev_involutive cur), Er. reflexivity.
           ++ rewrite forallb_forall in *. intros x Hx. apply Ht. apply in_rev. exact Hx.
        -- exfalso. destruct mid as [|m mid].
           ++ apply scan_split_first_len in Hs. simpl in Hs. lia.
           ++ simpl in Hs. apply scan_split_first_len in Hs. simpl in Hs.
              simpl in Ho. apply andb_true_iff in Ho as [Ho _]. unfold sep_ok in Ho.
              destruct (1 <? length m) eqn:E; [discriminate|]. apply Nat.ltb_ge in E. lia.
Qed.

Lemma shape_of_scan s : scan_tokens [] s <> [] ->
  is_nil (hd [] (scan_split false [] s)) = true ->
  is_nil (last (scan_split false [] s) []) = true ->
  forallb sep_ok (middle (scan_split false [] s)) = true ->
  exists cs, middle (scan_split false [] s) = map single cs /\ shape s (scan_tokens [] s) cs.
Proof.
  intros Hn Hh Hl Ho. destruct s as [|c s]; [simpl in Hn; congruence|].
  simpl in *. destruct (is_token_char c) eqn:Ec.
  - unfold middle in *. simpl in *.
    pose proof (scan_split_nonnil s true []) as Nn.
    destruct (scan_split true [] s) as [|p ps] eqn:E; [congruence|].
    assert (last (p :: ps) [] = []) as Hl' by (apply is_nil_true; exact Hl).
    pose proof (app_removelast_last (l := p :: ps) [] ltac:(discriminate)) as Er.
    rewrite Hl' in Er. set (mid := removelast (p :: ps)) in *. rewrite Er in E.
    destruct (scan_shape_true (length s) s [c] mid) as (cs & E1 & E2); auto; try discriminate.
    { simpl. rewrite Ec. reflexivity. }
    exists cs. split; assumption.
  - exfalso. destruct (scan_split false [c] s) as [|p ps] eqn:E.
    + eapply scan_split_nonnil; eauto.
    + apply scan_split_first_len in E. simpl in *. apply is_nil_true in Hh. subst. simpl in E. lia.
Qed.

(** ** tokens *)
Lemma head_underscore t : starts_with (T "_") t = true <-> hd_error t = Some "_"%char.
Proof.
  destruct t as [|c t]; [split; discriminate|].
  unfold T. cbn [list_ascii_of_string starts_with hd_error].
  rewrite andb_true_r, Ascii.eqb_eq. split; congruence.
Qed.
Lemma head_char (a : ascii) t : starts_with [a] t = true <-> hd_error t = Some a.
Proof.
  destruct t as [|c t]; [split; discriminate|].
  cbn [starts_with hd_error]. rewrite andb_true_r, Ascii.eqb_eq. split; congruence.
Qed.
Lemma last_underscore t : ends_with (T "_") t = true <-> hd_error (rev t) = Some "_"%char.
Proof. unfold ends_with. change (rev (T "_")) with (T "_"). apply head_underscore. Qed.
Lemma all_letters_iff t :
  forallb is_alpha t = true <-> Forall (fun c => is_lower c = true \/ is_upper c = true) t.
Proof.
  rewrite forallb_forall, Forall_forall. unfold is_alpha.
  split; intros H x Hx; specialize (H x Hx); rewrite orb_true_iff in *; exact H.
Qed.
Lemma all_digit_iff t : all_digit t = true <-> digits_only t.
Proof. unfold all_digit, digits_only. rewrite forallb_forall, Forall_forall. tauto. Qed.

Lemma token_ok_iff t : word t -> token_ok t = true <-> good_word t.
Proof.
  intros Hw. apply word_iff in Hw as [_ Hw]. unfold token_ok, good_word.
  replace (forallb (fun c => is_alnum c || Ascii.eqb c "_") t) with true by (symmetry; exact Hw).
  cbn [negb].
  rewrite <- head_underscore, <- last_underscore, <- all_letters_iff.
  destruct (starts_with (T "_") t); cbn [orb]; [split; [discriminate|intros [H _]; congruence]|].
  destruct (ends_with (T "_") t); cbn [orb]; [split; [discriminate|intros (_ & H & _); congruence]|].
  destruct (forallb is_alpha t && (10 <? length t)) eqn:E.
  { apply andb_true_iff in E as [E1 E2]. apply Nat.ltb_lt in E2.
    split; [discriminate|]. intros (_ & _ & _ & _ & H). exfalso. apply H. split; assumption. }
  destruct (text_eqb t (T "not")) eqn:E1; cbn [orb].
  { apply text_eqb_eq in E1. split; [discriminate|]. intros (_ & _ & H & _). contradiction. }
  destruct (text_eqb t (T "version")) eqn:E2.
  { apply text_eqb_eq in E2. split; [discriminate|]. intros (_ & _ & _ & H & _). contradiction. }
  apply text_eqb_neq in E1. apply text_eqb_neq in E2.
  split; [|reflexivity]. intros _. repeat split; try assumption; try congruence.
  intros [H1 H2]. apply Nat.ltb_lt in H2. rewrite H1, H2 in E. discriminate.
Qed.

Lemma count_digit_words_filter ts : count_digit_words ts (length (filter all_digit ts)).
Proof.
  induction ts as [|t ts IH]; simpl; [constructor|].
  destruct (all_digit t) eqn:E; simpl.
  - constructor; [apply all_digit_iff; exact E|exact IH].
  - constructor; [|exact IH]. intros H. apply all_digit_iff in H. congruence.
Qed.
Lemma count_digit_words_fun ts n : count_digit_words ts n -> n = length (filter all_digit ts).
Proof.
  induction 1 as [|t ts n H1 H2 IH|t ts n H1 H2 IH]; simpl; [reflexivity| |].
  - apply all_digit_iff in H1. rewrite H1. simpl. congruence.
  - destruct (all_digit t) eqn:E; [apply all_digit_iff in E; contradiction|exact IH].
Qed.

Lemma shape_words s ts cs : shape s ts cs -> Forall word ts.
Proof. induction 1; constructor; auto. Qed.
Lemma shape_seps s ts cs : shape s ts cs -> Forall sep_char cs.
Proof. induction 1; constructor; auto. Qed.
Lemma shape_head s ts cs : shape s ts cs -> exists c r, s = c :: r /\ is_token_char c = true.
Proof.
  induction 1 as [t Ht|t c s ts cs Ht Hc Hs IH]; apply word_iff in Ht as [Hn Ht];
    destruct t as [|d t]; try congruence; simpl in *; apply andb_true_iff in Ht as [Hd _].
  - exists d, t; auto.
  - exists d, (t ++ c :: s); auto.
Qed.
Lemma word_last t : word t -> exists c r, rev t = c :: r /\ is_token_char c = true.
Proof.
  intros Ht. apply word_iff in Ht as [Hn Ht].
  destruct (rev t) as [|c r] eqn:E.
  - exfalso. apply Hn. rewrite <- (rev_involutive t), E. reflexivity.
  - exists c, r. split; [reflexivity|]. rewrite forallb_forall in Ht. apply Ht.
    apply in_rev. rewrite E. left. reflexivity.
Qed.
Lemma shape_last s ts cs : shape s ts cs -> exists c r, rev s = c :: r /\ is_token_char c = true.
Proof.
  induction 1 as [t Ht|t c s ts cs Ht Hc Hs IH].
  - apply word_last; assumption.
  - destruct IH as (d & r & E & Hd). rewrite rev_app_distr. simpl. rewrite E.
    exists d, ((r ++ [c]) ++ rev t). auto.
Qed.
(** a well-shaped text has no two adjacent separators *)
Lemma shape_no_dotdot s ts cs : shape s ts cs -> contains_text (T "..") s = false.
Proof.
  intros H. destruct (contains_text (T "..") s) eqn:E; [|reflexivity]. exfalso.
  apply contains_text_spec in E as (a & b & E). unfold T in E; simpl in E.
  revert a b E. induction H as [t Ht|t c s ts cs Ht Hc Hs IH]; intros a b E.
  - apply word_iff in Ht as [_ Ht]. rewrite forallb_forall in Ht.
    specialize (Ht "."%char). rewrite E in Ht.
    assert (In "."%char (a ++ "."%char :: "."%char :: b)) as I by (apply in_or_app; right; left; reflexivity).
    apply Ht in I. discriminate.
  - apply word_iff in Ht as [_ Ht]. revert a E. induction t as [|d t IHt]; intros a E; simpl in *.
    + destruct a as [|x a]; simpl in E; injection E as E1 E2.
      * destruct (shape_head _ _ _ Hs) as (y & r & Ey & Hy). rewrite Ey in E2. injection E2 as E2 _.
        subst y. discriminate.
      * eapply IH; eauto.
    + apply andb_true_iff in Ht as [Hd Ht].
      destruct a as [|x a]; simpl in E; injection E as E1 E2.
      * subst d. discriminate.
      * eapply IHt; eauto.
Qed.

Lemma middle_pieces (l : list text) : middle ([] :: l ++ [[]]) = l.
Proof. unfold middle. cbn [tl]. rewrite removelast_app by discriminate. simpl. apply app_nil_r. Qed.

Lemma parse_internal_iff s ts ss :
  parse_internal s = Some (ts, ss) <->
  exists cs, version_grammar s ts cs /\ ss = map single cs.
Proof.
  split.
  - unfold parse_internal.
    destruct (starts_with (T "v") s) eqn:Ev; [discriminate|].
    destruct (starts_with (T "V") s) eqn:EV; [discriminate|]. cbn [orb].
    destruct (contains_text (T "..") s || starts_with (T ".") s || ends_with (T ".") s); [discriminate|].
    destruct (is_nil (scan_tokens [] s)) eqn:En; [discriminate|].
    destruct (5 <? length (filter all_digit (scan_tokens [] s))) eqn:E5; [discriminate|].
    destruct (10 <? length (scan_tokens [] s)) eqn:E10; [discriminate|].
    destruct (is_nil (hd [] (scan_split false [] s))) eqn:Eh; [|discriminate].
    destruct (is_nil (last (scan_split false [] s) [])) eqn:El; [|discriminate]. cbn [negb orb].
    destruct (forallb sep_ok (middle (scan_split false [] s))) eqn:Es; [|discriminate].
    destruct (forallb token_ok (scan_tokens [] s)) eqn:Et; [|discriminate]. cbn [negb].
    intros H; injection H as <- <-.
    apply is_nil_false in En.
    destruct (shape_of_scan s En Eh El Es) as (cs & Em & Hsh).
    exists cs. split; [|exact Em]. unfold version_grammar.
    split; [exact Hsh|].
    split; [intros Hv; apply (head_char "v") in Hv; unfold T in Ev; simpl list_ascii_of_string in Ev; congruence|].
    split; [intros Hv; apply (head_char "V") in Hv; unfold T in EV; simpl list_ascii_of_string in EV; congruence|].
    split; [apply Nat.ltb_ge in E10; exact E10|].
    split.
    + exists (length (filter all_digit (scan_tokens [] s))). split.
      * apply count_digit_words_filter.
      * apply Nat.ltb_ge in E5; exact E5.
    + pose proof (shape_words _ _ _ Hsh) as Hw.
      rewrite Forall_forall in *. rewrite forallb_forall in Et.
      intros t Ht. apply token_ok_iff; auto.
  - intros (cs & (Hsh & Hv & HV & H10 & (n & Hc & H5) & Hg) & ->).
    destruct (shape_scan _ _ _ Hsh) as [E1 E2].
    unfold parse_internal.
    replace (starts_with (T "v") s) with false
      by (symmetry; apply not_true_is_false; intros E; apply (head_char "v") in E; contradiction).
    replace (starts_with (T "V") s) with false
      by (symmetry; apply not_true_is_false; intros E; apply (head_char "V") in E; contradiction).
    rewrite (shape_no_dotdot _ _ _ Hsh).
    replace (starts_with (T ".") s) with false.
    2:{ symmetry. apply not_true_is_false. intros E. apply (head_char ".") in E.
        destruct (shape_head _ _ _ Hsh) as (c & r & -> & Hc'). injection E as ->. discriminate. }
    replace (ends_with (T ".") s) with false.
    2:{ symmetry. apply not_true_is_false. intros E. unfold ends_with in E.
        apply (head_char ".") in E.
        destruct (shape_last _ _ _ Hsh) as (c & r & E' & Hc'). rewrite E' in E. injection E as ->. discriminate. }
    cbn [orb]. rewrite E1, E2. cbn [rev].
    assert (ts <> []) as Hn by (inversion Hsh; discriminate).
    replace (is_nil ts) with false by (destruct ts; [congruence|reflexivity]).
    apply count_digit_words_fun in Hc. subst n.
    replace (5 <? length (filter all_digit ts)) with false by (symmetry; apply Nat.ltb_ge; exact H5).
    replace (10 <? length ts) with false by (symmetry; apply Nat.ltb_ge; exact H10).
    rewrite middle_pieces. cbn [hd].
    rewrite app_comm_cons, last_last.
    cbn [is_nil negb orb].
    replace (forallb sep_ok (map single cs)) with true.
    2:{ symmetry. apply forallb_forall. intros x Hx. apply in_map_iff in Hx as (c & <- & Hx).
        pose proof (shape_seps _ _ _ Hsh) as Hs. rewrite Forall_forall in Hs. specialize (Hs c Hx).
        apply sep_ok_iff; [apply sep_not_token; exact Hs|exact Hs]. }
    replace (forallb token_ok ts) with true.
    2:{ symmetry. apply forallb_forall. intros x Hx.
        pose proof (shape_words _ _ _ Hsh) as Hw. rewrite Forall_forall in *.
        apply token_ok_iff; auto. }
    reflexivity.
Qed.

Lemma shape_fun s ts cs ts' cs' : shape s ts cs -> shape s ts' cs' -> ts = ts' /\ cs = cs'.
Proof.
  intros H1 H2. apply shape_scan in H1 as [E1 F1]. apply shape_scan in H2 as [E2 F2].
  split; [congruence|]. specialize (F1 []). rewrite (F2 []) in F1. simpl in F1.
  injection F1 as F. apply app_inv_tail in F.
  clear -F. revert cs F; induction cs' as [|c cs' IH]; intros [|d cs] F; simpl in F; try discriminate; auto.
  injection F as -> F. f_equal. auto.
Qed.

Lemma weave_shape s ts cs : shape s ts cs -> weave ts (map single cs) = s.
Proof.
  induction 1 as [t Ht|t c s ts cs Ht Hc Hs IH]; simpl.
  - apply app_nil_r.
  - rewrite IH. reflexivity.
Qed.

(** ** Version::parse *)
Lemma parse_version_cases s v : parse_version s = Some v ->
  (trim s = [] /\ v = v_empty) \/ (trim s = T "inf" /\ v = v_inf) \/
  (trim s = T "epsilon" /\ v = v_empty) \/
  (trim s <> [] /\ trim s <> T "inf" /\ trim s <> T "epsilon" /\ v_str v = trim s /\
   exists cs, version_grammar (trim s) (v_tokens v) cs /\ v_seps v = map single cs).
Proof.
  unfold parse_version. cbv zeta.
  destruct (is_nil (trim s)) eqn:E1.
  { intros H; injection H as <-. apply is_nil_true in E1. auto. }
  destruct (text_eqb_spec (trim s) (T "inf")) as [E2|E2].
  { intros H; injection H as <-. auto. }
  destruct (text_eqb_spec (trim s) (T "epsilon")) as [E3|E3].
  { intros H; injection H as <-. auto. }
  destruct (parse_internal (trim s)) as [[ts ss]|] eqn:E4; [|discriminate].
  intros H; injection H as <-. simpl. right; right; right.
  apply parse_internal_iff in E4 as (cs & Hg & Hs).
  apply is_nil_false in E1. repeat split; auto. exists cs. auto.
Qed.

Lemma parse_version_accepts s :
  (exists v, parse_version s = Some v) <->
  special (trim s) \/ exists ts cs, version_grammar (trim s) ts cs.
Proof.
  split.
  - intros [v Hv]. unfold special. apply parse_version_cases in Hv as [[H _]|[[H _]|[[H _]|H]]]; auto.
    destruct H as (_ & _ & _ & _ & cs & H & _). right. eauto.
  - intros H. unfold parse_version. cbv zeta.
    destruct (is_nil (trim s)) eqn:E1; [eauto|].
    destruct (text_eqb_spec (trim s) (T "inf")) as [E2|E2]; [eauto|].
    destruct (text_eqb_spec (trim s) (T "epsilon")) as [E3|E3]; [eauto|].
    destruct H as [[H|[H|H]]|(ts & cs & H)]; try contradiction.
    { rewrite H in E1. discriminate. }
    assert (parse_internal (trim s) = Some (ts, map single cs)) as ->
      by (apply parse_internal_iff; eauto).
    eauto.
Qed.

(** the grammar determines tokens and separators of the result *)
Lemma parse_version_result s ts cs :
  ~ special (trim s) -> version_grammar (trim s) ts cs ->
  parse_version s = Some (mkVersion ts (map single cs) (trim s)).
Proof.
  intros Hn Hg. unfold parse_version. cbv zeta.
  destruct (is_nil (trim s)) eqn:E1; [exfalso; apply Hn; left; apply is_nil_true; exact E1|].
  destruct (text_eqb_spec (trim s) (T "inf")) as [E2|E2]; [exfalso; apply Hn; right; left; exact E2|].
  destruct (text_eqb_spec (trim s) (T "epsilon")) as [E3|E3]; [exfalso; apply Hn; right; right; exact E3|].
  assert (parse_internal (trim s) = Some (ts, map single cs)) as ->
    by (apply parse_internal_iff; eauto).
  reflexivity.
Qed.

Lemma parse_version_roundtrip s v : parse_version s = Some v -> parse_version (v_str v) = Some v.
Proof.
  intros H. destruct (parse_version_cases _ _ H) as [[_ ->]|[[_ ->]|[[_ ->]|Hc]]]; try reflexivity.
  destruct Hc as (_ & _ & _ & Hs & _). rewrite Hs.
  unfold parse_version in *. rewrite trim_idem. exact H.
Qed.

Lemma parse_version_weave s v : parse_version s = Some v -> ~ special (trim s) ->
  weave (v_tokens v) (v_seps v) = v_str v /\ v_str v = trim s.
Proof.
  intros H Hn. destruct (parse_version_cases _ _ H) as [[E _]|[[E _]|[[E _]|Hc]]];
    try (exfalso; apply Hn; unfold special; tauto).
  destruct Hc as (_ & _ & _ & Hs & cs & Hg & Hss). split; [|exact Hs].
  rewrite Hss, Hs. apply weave_shape. apply Hg.
Qed.

(** ** the state-machine tokenizer *)
Definition sm_of (t : text) : sm_token :=
  if all_digit t then match parse_u64 t with Some n => Numeric n | None => Alphanumeric t end
  else Alphanumeric t.

Lemma sm_finalize_iff t r : word t -> sm_finalize t = Some r <-> good_word t /\ r = sm_of t.
Proof.
  intros Hw. rewrite <- token_ok_iff by assumption.
  apply word_iff in Hw as [Hn Hw]. unfold sm_finalize, token_ok, sm_of, all_digit.
  replace (forallb (fun c => is_alnum c || Ascii.eqb c "_") t) with true by (symmetry; exact Hw).
  replace (is_nil t) with false by (symmetry; apply is_nil_false; exact Hn).
  cbn [negb].
  destruct (starts_with (T "_") t || ends_with (T "_") t); [split; [discriminate|intros [H _]; discriminate]|].
  destruct (text_eqb t (T "not") || text_eqb t (T "version")).
  { destruct (forallb is_alpha t && (10 <? length t)); (split; [discriminate|intros [H _]; discriminate]). }
  destruct (forallb is_alpha t && (10 <? length t)); [split; [discriminate|intros [H _]; discriminate]|].
  destruct (forallb is_digit t); [destruct (parse_u64 t)|];
    (split; [intros H; injection H as <-; auto|intros [_ ->]; reflexivity]).
Qed.

Lemma sm_loop_word w cur rest :
  forallb is_token_char w = true -> sm_loop InToken cur (w ++ rest) = sm_loop InToken (rev w ++ cur) rest.
Proof.
  revert cur; induction w as [|c w IH]; intros cur H; simpl in *; [reflexivity|].
  apply andb_true_iff in H as [-> H]. rewrite IH by assumption.
  rewrite <- app_assoc. reflexivity.
Qed.
Lemma sm_sep_iff c : is_token_char c = false -> sm_sep c = true <-> sep_char c.
Proof.
  intros Hc. unfold sm_sep, sep_char. rewrite !orb_true_iff, !Ascii.eqb_eq.
  split; [|tauto]. intros [[[H|H]|H]|H]; auto. subst. discriminate.
Qed.

Lemma sm_shape s ts cs : shape s ts cs -> Forall good_word ts ->
  sm_loop Start [] s = Some (map sm_of ts, cs) /\ sm_loop InSeparator [] s = Some (map sm_of ts, cs).
Proof.
  induction 1 as [t Ht|t c s ts cs Ht Hc Hs IH]; intros Hg.
  - assert (sm_loop InToken [] t = Some ([sm_of t], [])) as E.
    { pose proof Ht as Hw. apply word_iff in Ht as [Hn Ht].
      rewrite <- (app_nil_r t) at 1. rewrite sm_loop_word by assumption. rewrite app_nil_r.
      cbn [sm_loop].
      destruct (is_nil (rev t)) eqn:En.
      { apply is_nil_true in En. exfalso. apply Hn. rewrite <- (rev_involutive t), En. reflexivity. }
      rewrite rev_involutive. inversion Hg; subst.
      assert (sm_finalize t = Some (sm_of t)) as -> by (apply sm_finalize_iff; auto).
      reflexivity. }
    apply word_iff in Ht as [Hn Ht]. destruct t as [|d t]; [congruence|].
    simpl in *. apply andb_true_iff in Ht as [Hd Ht]. rewrite Hd in *. auto.
  - assert (sm_loop InToken [] (t ++ c :: s) = Some (map sm_of (t :: ts), c :: cs)) as E.
    { inversion Hg; subst. destruct (IH H2) as [_ E2].
      pose proof Ht as Hw. apply word_iff in Ht as [Hn Ht].
      rewrite sm_loop_word by assumption. rewrite app_nil_r. cbn [sm_loop].
      rewrite (sep_not_token c Hc).
      assert (sm_sep c = true) as -> by (apply sm_sep_iff; [apply sep_not_token|]; exact Hc).
      rewrite rev_involutive.
      assert (sm_finalize t = Some (sm_of t)) as -> by (apply sm_finalize_iff; auto).
      rewrite E2. reflexivity. }
    apply word_iff in Ht as [Hn Ht]. destruct t as [|d t]; [congruence|].
    simpl in *. apply andb_true_iff in Ht as [Hd Ht]. rewrite Hd in *. auto.
Qed.

Lemma sm_loop_shape : forall n s cur r cs, length s <= n ->
  forallb is_token_char cur = true -> cur <> [] ->
  sm_loop InToken cur s = Some (r, cs) ->
  exists ts, shape (rev cur ++ s) ts cs /\ Forall good_word ts /\ r = map sm_of ts.
Proof.
  induction n as [|n IH]; intros s cur r cs Hn Hc Hne H.
  - destruct s; [|simpl in Hn; lia]. cbn [sm_loop] in H.
    destruct (is_nil cur) eqn:En; [apply is_nil_true in En; congruence|].
    assert (word (rev cur)) as Hw.
    { apply word_iff. split.
      - intros Er. apply Hne. rewrite <- (rev_involutive cur), Er. reflexivity.
      - rewrite forallb_forall in *. intros x Hx. apply Hc. apply in_rev. exact Hx. }
    destruct (sm_finalize (rev cur)) as [t|] eqn:Ef; [|discriminate].
    injection H as <- <-. apply sm_finalize_iff in Ef as [Hg ->]; [|exact Hw].
    exists [rev cur]. rewrite app_nil_r. repeat constructor; auto; apply Hw || apply Hg.
  - destruct s as [|c s]; [apply (IH [] cur r cs); auto; simpl; lia|].
    simpl in Hn. cbn [sm_loop] in H. destruct (is_token_char c) eqn:Ec.
    + destruct (IH s (c :: cur) r cs) as (ts & H1 & H2 & H3); auto; try lia; try discriminate.
      { simpl. rewrite Ec. exact Hc. }
      exists ts. simpl in H1. rewrite <- app_assoc in H1. auto.
    + destruct (sm_sep c) eqn:Es; [|discriminate].
      apply (sm_sep_iff c Ec) in Es.
      assert (word (rev cur)) as Hw.
      { apply word_iff. split.
        - intros Er. apply Hne. rewrite <- (rev_involutive cur), Er. reflexivity.
        - rewrite forallb_forall in *. intros x Hx. apply Hc. apply in_rev. exact Hx. }
      destruct (sm_finalize (rev cur)) as [t|] eqn:Ef; [|discriminate].
      apply sm_finalize_iff in Ef as [Hg ->]; [|exact Hw].
      destruct s as [|d s]; [discriminate|]. cbn [sm_loop] in H.
      destruct (is_token_char d) eqn:Ed; [|discriminate].
      destruct (sm_loop InToken [d] s) as [[r' cs']|] eqn:E; [|discriminate].
      injection H as <- <-. simpl in Hn.
      destruct (IH s [d] r' cs') as (ts & H1 & H2 & H3); auto; try lia; try discriminate.
      { simpl. rewrite Ed. reflexivity. }
      exists (rev cur :: ts). split; [constructor; auto|]. split; [constructor; auto|].
      simpl. congruence.
Qed.

Lemma sm_start_shape s r cs : s <> [] -> sm_loop Start [] s = Some (r, cs) ->
  exists ts, shape s ts cs /\ Forall good_word ts /\ r = map sm_of ts.
Proof.
  destruct s as [|c s]; intros Hn H; [congruence|]. cbn [sm_loop] in H.
  destruct (is_token_char c) eqn:Ec; [|discriminate].
  apply (sm_loop_shape (length s)) in H; [exact H|lia|simpl; rewrite Ec; reflexivity|discriminate].
Qed.

Lemma numeric_le ts : length (filter is_numeric_tok (map sm_of ts)) <= length (filter all_digit ts).
Proof.
  induction ts as [|t ts IH]; simpl; [lia|]. unfold sm_of at 1.
  destruct (all_digit t); [destruct (parse_u64 t)|]; simpl; lia.
Qed.
Lemma numeric_eq ts : (forall t, In t ts -> digits_only t -> (digits_val t <= U64_MAX)%N) ->
  Forall word ts ->
  length (filter is_numeric_tok (map sm_of ts)) = length (filter all_digit ts).
Proof.
  induction ts as [|t ts IH]; intros H Hw; simpl; [reflexivity|]. inversion Hw; subst.
  assert (length (filter is_numeric_tok (map sm_of ts)) = length (filter all_digit ts)) as IH'
    by (apply IH; auto; intros; apply H; [right|]; assumption).
  unfold sm_of at 1.
  destruct (all_digit t) eqn:Ed; [|exact IH'].
  assert (parse_u64 t = Some (digits_val t)) as ->; [|simpl; congruence].
  assert (digits_val t <= U64_MAX)%N as Hle.
  { apply H; [left; reflexivity|apply all_digit_iff; exact Ed]. }
  apply word_iff in H2 as [Hn _]. unfold parse_u64.
  destruct t as [|c t]; [congruence|]. pose proof Ed as Ed'.
  unfold all_digit in Ed. simpl in Ed. apply andb_true_iff in Ed as [E1 E2].
  destruct (Ascii.eqb_spec c "+") as [->|_]; [discriminate|].
  cbn [is_nil negb andb forallb]. rewrite E1, E2. cbn [andb].
  apply N.leb_le in Hle. rewrite Hle. reflexivity.
Qed.

(** every version the parser accepts is accepted by the tokenizer, with the same pieces *)
Lemma sm_of_parse s v : trim s = s -> ~ special s -> parse_version s = Some v ->
  sm_parse 10 5 s = Some (map sm_of (v_tokens v), concat (v_seps v)).
Proof.
  intros Ht Hsp H. apply parse_version_cases in H as [[E _]|[[E _]|[[E _]|H]]];
    try (exfalso; apply Hsp; unfold special; rewrite <- Ht; tauto).
  destruct H as (Hn & _ & _ & _ & cs & (Hsh & _ & _ & H10 & (n & Hc & H5) & Hg) & ->).
  rewrite Ht in *. unfold sm_parse.
  replace (is_nil s) with false by (symmetry; apply is_nil_false; exact Hn).
  destruct (sm_shape _ _ _ Hsh Hg) as [-> _]. rewrite map_length.
  replace (10 <? length (v_tokens v)) with false by (symmetry; apply Nat.ltb_ge; exact H10).
  pose proof (numeric_le (v_tokens v)) as Hl. apply count_digit_words_fun in Hc.
  replace (5 <? length (filter is_numeric_tok (map sm_of (v_tokens v)))) with false
    by (symmetry; apply Nat.ltb_ge; lia).
  f_equal. f_equal. clear. induction cs as [|c cs IH]; simpl; congruence.
Qed.

(** conversely, unless a digit token exceeds 64 bits or the text starts with v/V *)
Lemma parse_of_sm s r cs : trim s = s -> ~ special s ->
  hd_error s <> Some "v"%char -> hd_error s <> Some "V"%char ->
  sm_parse 10 5 s = Some (r, cs) ->
  (forall t, In (Alphanumeric t) r -> ~ digits_only t) ->
  exists v, parse_version s = Some v /\ r = map sm_of (v_tokens v) /\ cs = concat (v_seps v).
Proof.
  intros Ht Hsp Hv HV H Hbig. unfold sm_parse in H.
  destruct (is_nil s) eqn:En; [exfalso; apply Hsp; left; apply is_nil_true; exact En|].
  apply is_nil_false in En.
  destruct (sm_loop Start [] s) as [[r' cs']|] eqn:El; [|discriminate].
  destruct (10 <? length r') eqn:E10; [discriminate|].
  destruct (5 <? length (filter is_numeric_tok r')) eqn:E5; [discriminate|].
  injection H as -> ->.
  destruct (sm_start_shape _ _ _ En El) as (ts & Hsh & Hg & ->).
  assert (version_grammar (trim s) ts cs) as Hgr.
  { rewrite Ht. unfold version_grammar. rewrite map_length in E10.
    split; [exact Hsh|]. split; [exact Hv|]. split; [exact HV|].
    split; [apply Nat.ltb_ge; exact E10|]. split; [|exact Hg].
    exists (length (filter all_digit ts)). split; [apply count_digit_words_filter|].
    rewrite <- numeric_eq; [apply Nat.ltb_ge; exact E5| |eapply shape_words; eauto].
    intros t Hin Hd. destruct (N.le_gt_cases (digits_val t) U64_MAX) as [|Hgt]; [assumption|].
    exfalso. apply (Hbig t); [|exact Hd]. apply in_map_iff. exists t. split; [|exact Hin].
    unfold sm_of. assert (all_digit t = true) as -> by (apply all_digit_iff; exact Hd).
    destruct (parse_u64 t) eqn:Ep; [|reflexivity]. exfalso.
    unfold parse_u64 in Ep. destruct t as [|c t]; [discriminate|].
    destruct (Ascii.eqb_spec c "+") as [->|_].
    - inversion Hd; subst. discriminate.
    - destruct (negb (is_nil (c :: t)) && forallb is_digit (c :: t)); [|discriminate].
      apply N.leb_gt in Hgt. cbv zeta in Ep. rewrite Hgt in Ep. discriminate. }
  rewrite (parse_version_result s ts cs); [|rewrite Ht; exact Hsp|exact Hgr].
  eexists. split; [reflexivity|]. simpl. split; [reflexivity|].
  clear. induction cs as [|c cs IH]; simpl; congruence.
Qed.

Lemma sm_of_kind t : word t -> token_kind t (sm_of t).
Proof.
  intros Hw. apply word_iff in Hw as [Hn _]. unfold token_kind, sm_of.
  destruct (all_digit t) eqn:Ed.
  - pose proof Ed as Hd. apply all_digit_iff in Hd.
    destruct (N.le_gt_cases (digits_val t) U64_MAX) as [Hle|Hgt].
    + left. assert (parse_u64 t = Some (digits_val t)) as ->; [|auto].
      unfold parse_u64. destruct t as [|c t]; [congruence|].
      destruct (Ascii.eqb_spec c "+") as [->|_]; [discriminate|].
      unfold all_digit in Ed. rewrite Ed. cbn [is_nil negb andb].
      apply N.leb_le in Hle. rewrite Hle. reflexivity.
    + right. split; [lia|]. unfold parse_u64. destruct t as [|c t]; [congruence|].
      destruct (Ascii.eqb_spec c "+") as [->|_]; [discriminate|].
      unfold all_digit in Ed. rewrite Ed. cbn [is_nil negb andb].
      apply N.leb_gt in Hgt. rewrite Hgt. reflexivity.
  - right. split; [|reflexivity]. intros [Hd _]. apply all_digit_iff in Hd. congruence.
Qed.
Lemma sm_of_kinds ts : Forall word ts -> Forall2 token_kind ts (map sm_of ts).
Proof. induction 1; simpl; constructor; auto using sm_of_kind. Qed.

Lemma parsed_words s v : parse_version s = Some v -> Forall word (v_tokens v).
Proof.
  intros H. apply parse_version_cases in H as [[_ ->]|[[_ ->]|[[_ ->]|H]]]; try constructor.
  destruct H as (_ & _ & _ & _ & cs & (Hsh & _) & _). eapply shape_words; eauto.
Qed.
Lemma tokenizer_complete s v : trim s = s -> ~ special s -> parse_version s = Some v ->
  exists r, sm_parse 10 5 s = Some (r, concat (v_seps v)) /\ Forall2 token_kind (v_tokens v) r.
Proof.
  intros Ht Hs H. eexists. split; [apply sm_of_parse; assumption|].
  apply sm_of_kinds. eapply parsed_words; eauto.
Qed.
Lemma tokenizer_sound s r cs : trim s = s -> ~ special s ->
  hd_error s <> Some "v"%char -> hd_error s <> Some "V"%char ->
  sm_parse 10 5 s = Some (r, cs) ->
  (forall t, In (Alphanumeric t) r -> ~ digits_only t) ->
  exists v, parse_version s = Some v /\ cs = concat (v_seps v) /\ Forall2 token_kind (v_tokens v) r.
Proof.
  intros H1 H2 H3 H4 H5 H6. destruct (parse_of_sm s r cs H1 H2 H3 H4 H5 H6) as (v & E & -> & ->).
  exists v. split; [exact E|]. split; [reflexivity|]. apply sm_of_kinds. eapply parsed_words; eauto.
Qed.
