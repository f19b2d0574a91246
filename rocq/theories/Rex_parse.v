(** Proofs about the Rex parser: it accepts exactly the statements of the language. *)
From Verif Require Import Base Base_lemmas Text_lemmas Range_model Requirement_text Rex_model Rex_spec.
Open Scope char_scope.

Lemma blanks_forallb w : blanks w <-> forallb is_ws w = true.
Proof. unfold blanks. rewrite forallb_forall. tauto. Qed.
Lemma trim_start_iff x r : trim_start x = r <-> exists w, blanks w /\ x = w ++ r /\ visible r.
Proof.
  split.
  - intros <-. destruct (trim_start_spec x) as (u & Hu & E). exists u. split; [apply blanks_forallb, Hu|]. split; [exact E|].
    intros c y Ey. eapply trim_start_head. exact Ey.
  - intros (w & Hw & -> & Hv). rewrite trim_start_app_ws by (apply blanks_forallb, Hw). apply trim_start_id.
    destruct r as [|c r]; [exact I|]. apply (Hv c r). reflexivity.
Qed.
Lemma is_quote_iff c : is_quote c = true <-> quote c.
Proof. unfold is_quote, quote, SQ, DQ. rewrite orb_true_iff, !Ascii.eqb_eq. tauto. Qed.
Lemma quoteless_cons c a : quoteless (c :: a) <-> is_quote c = false /\ quoteless a.
Proof.
  unfold quoteless. split.
  - intros H. split; [|intros d Hd; apply H; right; exact Hd]. destruct (is_quote c) eqn:E; [|reflexivity].
    apply is_quote_iff in E. destruct (H c (or_introl eq_refl)). destruct E; contradiction.
  - intros [H1 H2] d [<-|Hd]; [|apply H2, Hd]. split; intros ->; discriminate.
Qed.
Lemma quoteless_nil : quoteless [].
Proof. intros c []. Qed.
Lemma unquoted_iff s a b : unquoted s = (a, b) <-> s = a ++ b /\ quoteless a /\ match b with [] => True | q :: _ => quote q end.
Proof.
  revert a b. induction s as [|c s IH]; intros a b; cbn [unquoted].
  - split.
    + intros [= <- <-]. auto using quoteless_nil.
    + intros (E & _ & _). symmetry in E. apply app_eq_nil in E as [-> ->]. reflexivity.
  - destruct (is_quote c) eqn:E.
    + split.
      * intros [= <- <-]. split; [reflexivity|]. split; [apply quoteless_nil|apply is_quote_iff, E].
      * intros (Es & Hq & _). destruct a as [|d a]; [cbn in Es; subst b; reflexivity|]. cbn in Es. injection Es as <- ->.
        apply quoteless_cons in Hq as [H _]. congruence.
    + destruct (unquoted s) as [x y] eqn:U. destruct (IH x y) as [IH1 _]. specialize (IH1 eq_refl). split.
      * intros [= <- <-]. destruct IH1 as (-> & H1 & H2). split; [reflexivity|]. split; [apply quoteless_cons; auto|exact H2].
      * intros (Es & Hq & Hb). destruct a as [|d a].
        -- cbn in Es. subst b. apply is_quote_iff in Hb. congruence.
        -- cbn in Es. injection Es as <- Es. apply quoteless_cons in Hq as [_ Hq]. destruct (IH a b) as [_ K]. specialize (K (conj Es (conj Hq Hb))).
           injection K as -> ->. reflexivity.
Qed.
Lemma quoted_iff s a b : quoted s = Some (a, b) <-> exists t, argument t a /\ s = t ++ b.
Proof.
  unfold quoted. split.
  - destruct s as [|c r]; [discriminate|]. destruct (is_quote c) eqn:E; [|discriminate].
    destruct (unquoted r) as [x [|q y]] eqn:U; [discriminate|]. intros [= <- <-]. apply unquoted_iff in U as (-> & H1 & H2).
    exists (c :: x ++ [q]). split; [constructor; auto; apply is_quote_iff, E|]. cbn [app]. rewrite <- app_assoc. reflexivity.
  - intros (t & H & ->). inversion H as [q1 q2 a' H1 H2 H3]; subst. cbn [app]. apply is_quote_iff in H1. rewrite H1.
    rewrite <- app_assoc. assert (U : unquoted (a ++ [q2] ++ b) = (a, [q2] ++ b)) by (apply unquoted_iff; auto). rewrite U. reflexivity.
Qed.
Lemma expect_iff c s r : expect c s = Some r <-> s = c :: r.
Proof.
  unfold expect. destruct s as [|d s]; [split; discriminate|]. destruct (Ascii.eqb_spec d c) as [->|N]; split; intros H; try discriminate; try (injection H as ->; reflexivity). injection H as -> _. contradiction.
Qed.
Lemma opening_iff kw s r : opening kw s = Some r <-> exists w1 w2, blanks w1 /\ blanks w2 /\ visible r /\ s = kw ++ w1 ++ "(" :: w2 ++ r.
Proof.
  unfold opening. split.
  - destruct (strip_prefix kw s) as [x|] eqn:E; [|discriminate]. apply strip_prefix_spec in E as ->.
    destruct (expect "(" (trim_start x)) as [y|] eqn:E; [|discriminate]. intros [= <-]. apply expect_iff in E.
    apply trim_start_iff in E as (w1 & H1 & -> & _). destruct (proj1 (trim_start_iff y _) eq_refl) as (w2 & H2 & E2 & H3).
    exists w1, w2. rewrite <- E2. auto.
  - intros (w1 & w2 & H1 & H2 & H3 & ->). rewrite strip_prefix_app.
    assert (E : trim_start (w1 ++ "(" :: w2 ++ r) = "(" :: w2 ++ r).
    { apply trim_start_iff. exists w1. split; [exact H1|]. split; [reflexivity|]. intros c x [= <- _]. reflexivity. }
    rewrite E. cbn [expect]. cbv beta iota. rewrite Ascii.eqb_refl. f_equal. apply trim_start_iff. exists w2. auto.
Qed.
Lemma closing_iff s : closing s = true <-> exists w, blanks w /\ s = w ++ [")"].
Proof.
  unfold closing. split.
  - destruct (expect ")" (trim_start s)) as [[|? ?]|] eqn:E; try discriminate. intros _. apply expect_iff in E.
    apply trim_start_iff in E as (w & H & -> & _). eauto.
  - intros (w & H & ->).
    assert (E : trim_start (w ++ [")"]) = [")"]).
    { apply trim_start_iff. exists w. split; [exact H|]. split; [reflexivity|]. intros c x [= <- _]. reflexivity. }
    rewrite E. reflexivity.
Qed.
Lemma argument_visible t a x : argument t a -> visible (t ++ x).
Proof.
  intros H. inversion H as [q1 q2 a' H1 _ _]; subst. intros c r [= <- _]. destruct H1 as [->| ->]; reflexivity.
Qed.
Lemma call1_iff kw s a : call1 kw s = Some a <-> called1 kw s a.
Proof.
  unfold call1. split.
  - destruct (opening kw s) as [r|] eqn:E; [|discriminate]. apply opening_iff in E as (w1 & w2 & H1 & H2 & _ & ->).
    destruct (quoted r) as [[x b]|] eqn:E; [|discriminate]. apply quoted_iff in E as (t & Ht & ->).
    destruct (closing b) eqn:E; [|discriminate]. intros [= ->]. apply closing_iff in E as (w & Hw & ->). constructor; assumption.
  - intros H. inversion H as [w1 w2 w3 t a' H1 H2 H3 H4]; subst.
    assert (E : opening kw (kw ++ w1 ++ "(" :: w2 ++ t ++ w3 ++ [")"]) = Some (t ++ w3 ++ [")"])).
    { apply opening_iff. exists w1, w2. eauto using argument_visible. }
    rewrite E. assert (Q : quoted (t ++ w3 ++ [")"]) = Some (a, w3 ++ [")"])) by (apply quoted_iff; eauto). rewrite Q.
    assert (C : closing (w3 ++ [")"]) = true) by (apply closing_iff; eauto). rewrite C. reflexivity.
Qed.
Lemma call1p_iff kw s a : call1p kw s = Some a <-> called1 kw s a /\ a <> [].
Proof.
  unfold call1p. rewrite <- call1_iff. destruct (call1 kw s) as [[|c x]|]; split; try discriminate.
  - intros [[= <-] H]. congruence.
  - intros H. injection H as <-. split; [reflexivity|discriminate].
  - intros [H _]. exact H.
  - intros [H _]. discriminate.
Qed.
Lemma call2_iff kw s a b : call2 kw s = Some (a, b) <-> called2 kw s a b /\ a <> [].
Proof.
  unfold call2. split.
  - destruct (opening kw s) as [r|] eqn:E; [|discriminate]. apply opening_iff in E as (w1 & w2 & H1 & H2 & _ & ->).
    destruct (quoted r) as [[x y]|] eqn:E; [|discriminate]. apply quoted_iff in E as (t & Ht & ->).
    destruct x as [|c x]; [discriminate|]. cbn [is_nil].
    destruct (expect "," (trim_start y)) as [z|] eqn:E; [|discriminate]. apply expect_iff in E.
    apply trim_start_iff in E as (w3 & H3 & -> & _).
    destruct (quoted (trim_start z)) as [[u d]|] eqn:E; [|discriminate]. apply quoted_iff in E as (t' & Ht' & E).
    apply trim_start_iff in E as (w4 & H4 & -> & _).
    destruct (closing d) eqn:E; [|discriminate]. intros [= <- <-]. apply closing_iff in E as (w5 & H5 & ->).
    split; [constructor; assumption|discriminate].
  - intros [H Hn]. inversion H as [w1 w2 w3 w4 w5 t u a' b' H1 H2 H3 H4 H5 Ht Hu]; subst.
    assert (E : opening kw (kw ++ w1 ++ "(" :: w2 ++ t ++ w3 ++ "," :: w4 ++ u ++ w5 ++ [")"]) = Some (t ++ w3 ++ "," :: w4 ++ u ++ w5 ++ [")"])).
    { apply opening_iff. exists w1, w2. eauto using argument_visible. }
    rewrite E. assert (Q : quoted (t ++ w3 ++ "," :: w4 ++ u ++ w5 ++ [")"]) = Some (a, w3 ++ "," :: w4 ++ u ++ w5 ++ [")"])) by (apply quoted_iff; eauto).
    rewrite Q. destruct a as [|c a]; [congruence|]. cbn [is_nil].
    assert (E2 : trim_start (w3 ++ "," :: w4 ++ u ++ w5 ++ [")"]) = "," :: w4 ++ u ++ w5 ++ [")"]).
    { apply trim_start_iff. exists w3. split; [exact H3|]. split; [reflexivity|]. intros d x [= <- _]. reflexivity. }
    rewrite E2. cbn [expect]. rewrite Ascii.eqb_refl. cbv beta iota.
    assert (E3 : trim_start (w4 ++ u ++ w5 ++ [")"]) = u ++ w5 ++ [")"]).
    { apply trim_start_iff. exists w4. eauto using argument_visible. }
    rewrite E3. assert (Q2 : quoted (u ++ w5 ++ [")"]) = Some (b, w5 ++ [")"])) by (apply quoted_iff; eauto). rewrite Q2.
    assert (C : closing (w5 ++ [")"]) = true) by (apply closing_iff; eauto). rewrite C. reflexivity.
Qed.
Lemma call_stop_none s : call_stop s = Some None <-> called0 (T "stop") s.
Proof.
  unfold call_stop. split.
  - destruct (opening _ s) as [r|] eqn:E; [|discriminate]. apply opening_iff in E as (w1 & w2 & H1 & H2 & Hv & ->).
    destruct (quoted r) as [[x y]|]; [destruct (closing y); discriminate|].
    destruct (closing r) eqn:E; [|discriminate]. intros _. apply closing_iff in E as (w & Hw & ->).
    destruct w as [|c w]; [constructor; assumption|]. specialize (Hv c (w ++ [")"]) eq_refl). rewrite (Hw c) in Hv by (left; reflexivity). discriminate.
  - intros H. inversion H as [w1 w2 H1 H2]; subst.
    assert (E : opening (T "stop") (T "stop" ++ w1 ++ "(" :: w2 ++ [")"]) = Some [")"]).
    { apply opening_iff. exists w1, w2. repeat split; try assumption. intros c r [= <- _]. reflexivity. }
    rewrite E. reflexivity.
Qed.
Lemma call_stop_some s m : call_stop s = Some (Some m) <-> called1 (T "stop") s m.
Proof.
  rewrite <- call1_iff. unfold call_stop, call1. destruct (opening _ s) as [r|]; [|split; discriminate].
  destruct (quoted r) as [[x y]|]; [destruct (closing y); split; congruence|]. destruct (closing r); split; discriminate.
Qed.
(** the prefix env. *)
Lemma maybe_env_cases s : (exists r, s = T "env." ++ r /\ maybe_env s = r) \/ maybe_env s = s.
Proof.
  unfold maybe_env. destruct (strip_prefix (T "env.") s) as [r|] eqn:E; [|right; reflexivity].
  left. exists r. split; [apply strip_prefix_spec, E|reflexivity].
Qed.
Lemma called1_env kw r a : called1 kw r a -> called1 (T "env." ++ kw) (T "env." ++ r) a.
Proof. intros H. inversion H; subst. rewrite app_assoc. constructor; assumption. Qed.
Lemma called2_env kw r a b : called2 kw r a b -> called2 (T "env." ++ kw) (T "env." ++ r) a b.
Proof. intros H. inversion H; subst. rewrite app_assoc. constructor; assumption. Qed.
Lemma maybe_call1 kw s a : called1 kw (maybe_env s) a -> exists k, with_env kw k /\ called1 k s a.
Proof.
  destruct (maybe_env_cases s) as [(r & -> & ->)| ->]; intros H.
  - exists (T "env." ++ kw). split; [right; reflexivity|]. apply called1_env, H.
  - exists kw. split; [left; reflexivity|exact H].
Qed.
Lemma maybe_call2 kw s a b : called2 kw (maybe_env s) a b -> exists k, with_env kw k /\ called2 k s a b.
Proof.
  destruct (maybe_env_cases s) as [(r & -> & ->)| ->]; intros H.
  - exists (T "env." ++ kw). split; [right; reflexivity|]. apply called2_env, H.
  - exists kw. split; [left; reflexivity|exact H].
Qed.

(** ** The shell forms *)
Lemma span_iff f s a b : span f s = (a, b) <-> s = a ++ b /\ (forall c, In c a -> f c = true) /\ match b with [] => True | c :: _ => f c = false end.
Proof.
  revert a b. induction s as [|c s IH]; intros a b; cbn [span].
  - split; [intros [= <- <-]; repeat split; try (intros ? []); try exact I|]. intros (E & _ & _). symmetry in E. apply app_eq_nil in E as [-> ->]. reflexivity.
  - destruct (f c) eqn:E.
    + destruct (span f s) as [x y] eqn:U. destruct (IH x y) as [IH1 _]. specialize (IH1 eq_refl). split.
      * intros [= <- <-]. destruct IH1 as (-> & H1 & H2). split; [reflexivity|]. split; [|exact H2]. intros d [<-|Hd]; auto.
      * intros (Es & Ha & Hb). destruct a as [|d a]; [cbn in Es; subst b; congruence|]. cbn in Es. injection Es as <- Es.
        destruct (IH a b) as [_ K]. specialize (K (conj Es (conj (fun c H => Ha c (or_intror H)) Hb))). injection K as -> ->. reflexivity.
    + split.
      * intros [= <- <-]. repeat split; [intros ? []|exact E].
      * intros (Es & Ha & _). destruct a as [|d a]; [cbn in Es; subst b; reflexivity|]. cbn in Es. injection Es as <- ->.
        rewrite (Ha c (or_introl eq_refl)) in E. discriminate.
Qed.
Lemma space1_iff s r : space1 s = Some r <-> exists w, spaced w /\ s = w ++ r /\ visible r.
Proof.
  unfold space1, spaced. split.
  - destruct s as [|c s]; [discriminate|]. destruct (is_ws c) eqn:E; [|discriminate]. intros H0. assert (H : trim_start (c :: s) = r) by congruence.
    apply trim_start_iff in H as (w & Hw & Es & Hv). exists w. split; [|auto]. split; [|exact Hw].
    intros ->. cbn in Es. subst r. rewrite (Hv c s eq_refl) in E. discriminate.
  - intros (w & [Hn Hw] & -> & Hv). destruct w as [|c w]; [congruence|]. cbn [app]. rewrite (Hw c (or_introl eq_refl)). f_equal.
    apply trim_start_iff. exists (c :: w). auto.
Qed.
Lemma id_start_iff c : id_start c = true <-> is_alpha c = true \/ c = "_".
Proof. unfold id_start. rewrite orb_true_iff, Ascii.eqb_eq. tauto. Qed.
Lemma id_char_iff c : id_char c = true <-> is_alnum c = true \/ c = "_".
Proof. unfold id_char. rewrite orb_true_iff, Ascii.eqb_eq. tauto. Qed.
Lemma id_start_char c : id_start c = true -> id_char c = true.
Proof. unfold id_start, id_char, is_alnum. intros H. apply orb_true_iff in H as [->| ->]; [reflexivity|apply orb_true_r]. Qed.
Lemma ident_iff s n r : ident s = Some (n, r) <-> identifier n /\ s = n ++ r /\ match r with [] => True | c :: _ => id_char c = false end.
Proof.
  unfold ident, identifier. split.
  - destruct s as [|c s]; [discriminate|]. destruct (id_start c) eqn:E; [|discriminate]. intros H0. assert (H : span id_char (c :: s) = (n, r)) by congruence. apply span_iff in H as (Es & H1 & H2).
    split; [|auto]. destruct n as [|d n].
    + cbn in Es. subst r. rewrite (id_start_char c E) in H2. discriminate.
    + cbn in Es. injection Es as <- _. exists c, n. split; [reflexivity|]. split; [apply id_start_iff, E|]. intros x Hx. apply id_char_iff, H1. right. exact Hx.
  - intros ((c & x & -> & Hc & Hx) & -> & Hr). cbn [app]. apply id_start_iff in Hc. rewrite Hc. f_equal. apply span_iff.
    split; [reflexivity|]. split; [|exact Hr]. intros d [<-|Hd]; [apply id_start_char, Hc|apply id_char_iff, Hx, Hd].
Qed.
Lemma ws_not_id c : is_ws c = true -> id_char c = false.
Proof. destruct c as [[] [] [] [] [] [] [] []]; vm_compute; congruence. Qed.
Lemma trim_dq_start_spec s : exists l, s = l ++ trim_dq_start s /\ (forall c, In c l -> c = DQ) /\ forall x, trim_dq_start s <> DQ :: x.
Proof.
  induction s as [|c s (l & E & H1 & H2)].
  - exists []. split; [reflexivity|]. split; [intros ? []|discriminate].
  - cbn [trim_dq_start]. destruct (Ascii.eqb_spec c DQ) as [->|N].
    + exists (DQ :: l). split; [cbn [app]; rewrite <- E; reflexivity|]. split; [|exact H2]. intros d [<-|Hd]; auto.
    + exists []. split; [reflexivity|]. split; [intros ? []|]. intros x [= E' _]. contradiction.
Qed.
Lemma trim_dq_unwrapped v : unwrapped v (trim_dq v).
Proof.
  unfold unwrapped, trim_dq. destruct (trim_dq_start_spec v) as (l & E1 & H1 & H2).
  set (w := trim_dq_start v) in *. destruct (trim_dq_start_spec (rev w)) as (r & E2 & H3 & H4). set (u := trim_dq_start (rev w)) in *.
  assert (Ew : w = rev u ++ rev r) by (rewrite <- rev_app_distr, <- E2, rev_involutive; reflexivity).
  exists l, (rev r). split; [rewrite E1 at 1; rewrite Ew; reflexivity|]. split; [|split].
  - intros c Hc. apply in_app_iff in Hc as [Hc|Hc]; [auto|]. apply H3, in_rev, Hc.
  - intros x E. apply (H2 (x ++ rev r)). rewrite Ew, E. reflexivity.
  - intros x E. apply (H4 (rev x)). rewrite <- (rev_involutive u), E, rev_app_distr. reflexivity.
Qed.
Lemma trim_dq_start_app l s : (forall c, In c l -> c = DQ) -> trim_dq_start (l ++ s) = trim_dq_start s.
Proof.
  induction l as [|c l IH]; intros H; [reflexivity|]. cbn [app trim_dq_start]. rewrite (H c (or_introl eq_refl)), Ascii.eqb_refl.
  apply IH. intros d Hd. apply H. right. exact Hd.
Qed.
Lemma trim_dq_start_id s : (forall x, s <> DQ :: x) -> trim_dq_start s = s.
Proof.
  intros H. destruct s as [|c s]; [reflexivity|]. cbn [trim_dq_start]. destruct (Ascii.eqb_spec c DQ) as [->|]; [destruct (H s); reflexivity|reflexivity].
Qed.
Lemma trim_dq_iff v u : trim_dq v = u <-> unwrapped v u.
Proof.
  split; [intros <-; apply trim_dq_unwrapped|]. intros (l & r & -> & H & Hs & He). unfold trim_dq.
  rewrite trim_dq_start_app by (intros c Hc; apply H, in_or_app; left; exact Hc).
  assert (Hr : forall c, In c (rev r) -> c = DQ) by (intros c Hc; apply H, in_or_app; right; apply in_rev, Hc).
  destruct u as [|c u].
  - cbn [app]. assert (E : trim_dq_start r = []).
    { rewrite <- (app_nil_r r). apply trim_dq_start_app. intros d Hd. apply H, in_or_app. right. exact Hd. }
    rewrite E. reflexivity.
  - rewrite (trim_dq_start_id ((c :: u) ++ r)) by (intros x E; injection E as -> _; exact (Hs u eq_refl)).
    rewrite rev_app_distr, trim_dq_start_app by exact Hr.
    rewrite trim_dq_start_id; [apply rev_involutive|]. intros x E. apply (He (rev x)).
    rewrite <- (rev_involutive (c :: u)), E. reflexivity.
Qed.
Lemma not_in_dq_trim v : ~ In DQ v -> trim_dq v = v.
Proof.
  intros H. apply trim_dq_iff. exists [], []. split; [rewrite app_nil_r; reflexivity|]. split; [intros c []|]. split; intros x ->; apply H.
  - left. reflexivity.
  - apply in_or_app. right. left. reflexivity.
Qed.
Lemma no_dq_iff s a b : no_dq s = (a, b) <-> s = a ++ b /\ ~ In DQ a /\ ~ In NL a /\ match b with [] => True | c :: _ => c = DQ \/ c = NL end.
Proof.
  unfold no_dq. rewrite span_iff. split.
  - intros (E & H1 & H2). repeat split; try exact E.
    + intros H. apply H1 in H. discriminate.
    + intros H. apply H1 in H. discriminate.
    + destruct b as [|c b]; [exact I|]. apply negb_false_iff, orb_true_iff in H2. rewrite !Ascii.eqb_eq in H2. exact H2.
  - intros (E & H1 & H2 & H3). split; [exact E|]. split.
    + intros c Hc. apply negb_true_iff, orb_false_iff. split; apply Ascii.eqb_neq; intros ->; contradiction.
    + destruct b as [|c b]; [exact I|]. apply negb_false_iff, orb_true_iff. rewrite !Ascii.eqb_eq. exact H3.
Qed.
Definition drop_dq (r : text) : text := match expect DQ r with Some x => x | None => r end.
Lemma drop_dq_cases r : (exists x, r = DQ :: x /\ drop_dq r = x) \/ ((forall x, r <> DQ :: x) /\ drop_dq r = r).
Proof.
  unfold drop_dq. destruct (expect DQ r) as [x|] eqn:E.
  - left. apply expect_iff in E. eauto.
  - right. split; [|reflexivity]. intros x ->. cbn in E. discriminate.
Qed.
Lemma drop_dq_hit x : drop_dq (DQ :: x) = x.
Proof. reflexivity. Qed.
Lemma export_iff s n v : export_line s = Some (n, v) <-> exports s n v.
Proof.
  unfold export_line. split.
  - destruct (strip_prefix _ s) as [r|] eqn:E; [|discriminate]. apply strip_prefix_spec in E as ->.
    destruct (space1 r) as [r1|] eqn:E; [|discriminate]. apply space1_iff in E as (w1 & H1 & -> & _).
    destruct (ident r1) as [[m r2]|] eqn:E; [|discriminate]. apply ident_iff in E as (H2 & -> & _).
    destruct (expect "=" (trim_start r2)) as [r3|] eqn:E; [|discriminate]. apply expect_iff in E.
    apply trim_start_iff in E as (w2 & H3 & -> & _).
    destruct (proj1 (trim_start_iff r3 _) eq_refl) as (w3 & H4 & E3 & H5). set (r4 := trim_start r3) in *.
    fold (drop_dq r4). destruct (no_dq (drop_dq r4)) as [v' r5] eqn:E5. fold (drop_dq r5).
    destruct (is_nil (drop_dq r5)) eqn:E6; [|discriminate]. intros [= -> <-]. apply is_nil_true in E6.
    apply no_dq_iff in E5 as (E5 & H6 & H7 & _). rewrite not_in_dq_trim by exact H6.
    assert (Q2 : exists q2, r5 = q2 /\ (q2 = [DQ] \/ q2 = [])).
    { exists r5. split; [reflexivity|]. destruct (drop_dq_cases r5) as [(x & -> & E7)|[_ E7]]; [rewrite E7 in E6; subst x; auto|rewrite E7 in E6; auto]. }
    destruct Q2 as (q2 & -> & Hq2).
    assert (Q1 : exists q1, r4 = q1 ++ v' ++ q2 /\ (q1 = [DQ] \/ q1 = [] /\ visible v')).
    { destruct (drop_dq_cases r4) as [(x & E7 & E8)|[E7 E8]].
      - exists [DQ]. split; [rewrite E7; cbn [app]; rewrite <- E5, E8; reflexivity|left; reflexivity].
      - exists []. split; [cbn [app]; rewrite <- E5, E8; reflexivity|]. right. split; [reflexivity|].
        rewrite E8 in E5. intros c x ->. apply (H5 c (x ++ q2)). rewrite E5. reflexivity. }
    destruct Q1 as (q1 & Er4 & Hq1). rewrite E3, Er4. apply Exports; assumption.
  - intros H. inversion H as [w1 n' w2 w3 q1 v' q2 H1 H2 H3 H4 H5 H6 H7 H8]; subst. rewrite strip_prefix_app.
    assert (HV : forall x y, identifier x -> visible (x ++ y)).
    { intros x y (c & z & -> & Hc & _) d t [= <- _]. destruct (is_ws c) eqn:W; [|reflexivity]. apply ws_not_id in W.
      rewrite (id_start_char c) in W; [discriminate|]. apply id_start_iff, Hc. }
    assert (E1 : space1 (w1 ++ n ++ w2 ++ "=" :: w3 ++ q1 ++ v ++ q2) = Some (n ++ w2 ++ "=" :: w3 ++ q1 ++ v ++ q2)) by (apply space1_iff; exists w1; auto).
    rewrite E1.
    assert (E2 : ident (n ++ w2 ++ "=" :: w3 ++ q1 ++ v ++ q2) = Some (n, w2 ++ "=" :: w3 ++ q1 ++ v ++ q2)).
    { apply ident_iff. split; [exact H2|]. split; [reflexivity|]. destruct w2 as [|c w2]; [reflexivity|]. apply ws_not_id, H3. left. reflexivity. }
    rewrite E2.
    assert (E3 : trim_start (w2 ++ "=" :: w3 ++ q1 ++ v ++ q2) = "=" :: w3 ++ q1 ++ v ++ q2).
    { apply trim_start_iff. exists w2. split; [exact H3|]. split; [reflexivity|]. intros c x [= <- _]. reflexivity. }
    rewrite E3. cbn [expect]. rewrite Ascii.eqb_refl. cbv beta iota.
    assert (E4 : trim_start (w3 ++ q1 ++ v ++ q2) = q1 ++ v ++ q2).
    { apply trim_start_iff. exists w3. split; [exact H4|]. split; [reflexivity|]. destruct H5 as [->|[-> Hv]].
      - intros c x [= <- _]. reflexivity.
      - cbn [app]. destruct v as [|c v]; [|intros d x [= <- _]; apply (Hv c v); reflexivity]. destruct H6 as [->| ->]; [intros c x [= <- _]; reflexivity|intros c x; discriminate]. }
    cbv zeta. rewrite E4. fold (drop_dq (q1 ++ v ++ q2)).
    assert (E5 : no_dq (drop_dq (q1 ++ v ++ q2)) = (v, q2) \/ (v = [] /\ q1 = [] /\ q2 = [DQ])).
    { destruct H5 as [->|[-> Hv]].
      - left. change (no_dq (v ++ q2) = (v, q2)). apply no_dq_iff. repeat split; try assumption. destruct H6 as [->| ->]; [left; reflexivity|exact I].
      - cbn [app]. destruct v as [|c v].
        + destruct H6 as [->| ->]; [right; auto|left; reflexivity].
        + left. assert (K : drop_dq ((c :: v) ++ q2) = (c :: v) ++ q2).
          { destruct (drop_dq_cases ((c :: v) ++ q2)) as [(x & E & _)|[_ E]]; [|exact E]. injection E as -> _. destruct H7. left. reflexivity. }
          rewrite K. apply no_dq_iff. repeat split; try assumption. destruct H6 as [->| ->]; [left; reflexivity|exact I]. }
    destruct E5 as [E5|(-> & -> & ->)]; [|reflexivity]. rewrite E5. fold (drop_dq q2).
    assert (E6 : drop_dq q2 = []) by (destruct H6 as [->| ->]; reflexivity). rewrite E6. cbn [is_nil]. rewrite not_in_dq_trim by exact H7. reflexivity.
Qed.
Lemma setenv_sh_iff s n u : trim s = s -> (setenv_sh_line s = Some (n, u) <-> sets_csh s n u).
Proof.
  intros Ht. unfold setenv_sh_line.
  assert (TV : forall a v, s = a ++ v -> v <> [] -> visible v -> trim v = v).
  { intros a v E Hn Hv. apply trim_fixed_ends. apply trim_fixed_ends in Ht as [_ Ht]. split.
    - destruct v as [|c v]; [exact I|]. apply (Hv c v). reflexivity.
    - destruct (exists_last Hn) as (x & c & Ex). subst v. rewrite E, app_assoc, rev_app_distr in Ht. rewrite rev_app_distr. exact Ht. }
  split.
  - destruct (strip_prefix _ s) as [r|] eqn:E; [|discriminate]. apply strip_prefix_spec in E.
    destruct (space1 r) as [r1|] eqn:E1; [|discriminate]. apply space1_iff in E1 as (w1 & H1 & -> & _).
    destruct (ident r1) as [[m r2]|] eqn:E2; [|discriminate]. apply ident_iff in E2 as (H2 & -> & _).
    destruct (space1 r2) as [[|c v]|] eqn:E3; try discriminate. apply space1_iff in E3 as (w2 & H3 & -> & Hv).
    intros [= -> <-]. rewrite (TV (T "setenv" ++ w1 ++ n ++ w2) (c :: v)); [|rewrite E, <- !app_assoc; reflexivity|discriminate|exact Hv].
    rewrite E. apply SetsCsh; try assumption; [discriminate|apply trim_dq_unwrapped].
  - intros H. inversion H as [w1 n' w2 v u' H1 H2 H3 H4 H5 H6]; subst. rewrite strip_prefix_app.
    assert (HV : forall x y, identifier x -> visible (x ++ y)).
    { intros x y (c & z & -> & Hc & _) d t [= <- _]. destruct (is_ws c) eqn:W; [|reflexivity]. apply ws_not_id in W.
      rewrite (id_start_char c) in W; [discriminate|]. apply id_start_iff, Hc. }
    assert (E1 : space1 (w1 ++ n ++ w2 ++ v) = Some (n ++ w2 ++ v)) by (apply space1_iff; exists w1; auto). rewrite E1.
    assert (E2 : ident (n ++ w2 ++ v) = Some (n, w2 ++ v)).
    { apply ident_iff. split; [exact H2|]. split; [reflexivity|]. destruct H3 as [H3 H3']. destruct w2 as [|c w2]; [congruence|]. apply ws_not_id, H3'. left. reflexivity. }
    rewrite E2. assert (E3 : space1 (w2 ++ v) = Some v) by (apply space1_iff; exists w2; auto). rewrite E3.
    destruct v as [|c v]; [congruence|]. rewrite (TV (T "setenv" ++ w1 ++ n ++ w2) (c :: v)); [|rewrite <- !app_assoc; reflexivity|discriminate|exact H5].
    apply trim_dq_iff in H6. rewrite H6. reflexivity.
Qed.

(** ** All statements *)
Lemma is_comment_iff s : starts_with (T "#") s || starts_with (T "//") s = true <-> comment_line s.
Proof.
  rewrite orb_true_iff, !starts_with_spec. unfold comment_line. split.
  - intros [[r ->]|[r ->]]; exists r; auto.
  - intros [r [->| ->]]; [left|right]; exists r; reflexivity.
Qed.
Lemma parse_line_sound s a : trim s = s -> parse_line s = Some a -> statement s a.
Proof.
  intros Ht. unfold parse_line. destruct (starts_with (T "#") s || starts_with (T "//") s) eqn:C.
  { intros [= <-]. apply st_comment, is_comment_iff, C. }
  destruct (call2 (T "setenv") (maybe_env s)) as [[n v]|] eqn:E; cbn [two opt orelse fst snd].
  { intros [= <-]. apply call2_iff in E as [E N]. apply maybe_call2 in E as (k & K & E). apply st_call. eapply says_setenv; eauto. }
  destruct (call1p (T "unsetenv") (maybe_env s)) as [n|] eqn:E1; cbn [two opt orelse fst snd].
  { intros [= <-]. apply call1p_iff in E1 as [E1 N]. apply maybe_call1 in E1 as (k & K & E1). apply st_call. eapply says_unsetenv; eauto. }
  destruct (call2 (T "env.prepend_path") s) as [[n v]|] eqn:E2; cbn [two opt orelse fst snd].
  { intros [= <-]. apply call2_iff in E2 as [E2 N]. apply st_call. eapply says_prepend; [left; reflexivity| |]; eauto. }
  destruct (call2 (T "prependenv") s) as [[n v]|] eqn:E3; cbn [two opt orelse fst snd].
  { intros [= <-]. apply call2_iff in E3 as [E3 N]. apply st_call. eapply says_prepend; [right; reflexivity| |]; eauto. }
  destruct (call2 (T "env.append_path") s) as [[n v]|] eqn:E4; cbn [two opt orelse fst snd].
  { intros [= <-]. apply call2_iff in E4 as [E4 N]. apply st_call. eapply says_append; [left; reflexivity| |]; eauto. }
  destruct (call2 (T "appendenv") s) as [[n v]|] eqn:E5; cbn [two opt orelse fst snd].
  { intros [= <-]. apply call2_iff in E5 as [E5 N]. apply st_call. eapply says_append; [right; reflexivity| |]; eauto. }
  destruct (call2 (T "env.setenv_if_empty") s) as [[n v]|] eqn:E6; cbn [two opt orelse fst snd].
  { intros [= <-]. apply call2_iff in E6 as [E6 N]. apply st_call. eapply says_if_empty; eauto. }
  destruct (call2 (T "alias") (maybe_env s)) as [[n v]|] eqn:E7; cbn [two opt orelse fst snd].
  { intros [= <-]. apply call2_iff in E7 as [E7 N]. apply maybe_call2 in E7 as (k & K & E7). apply st_call. eapply says_alias; eauto. }
  destruct (call1 (T "command") s) as [c|] eqn:E8; cbn [two opt orelse fst snd].
  { intros [= <-]. apply st_call, says_command, call1_iff, E8. }
  destruct (call1 (T "source") s) as [c|] eqn:E9; cbn [two opt orelse fst snd].
  { intros [= <-]. apply st_call, says_source, call1_iff, E9. }
  destruct (call1p (T "resetenv") (maybe_env s)) as [n|] eqn:E10; cbn [two opt orelse fst snd].
  { intros [= <-]. apply call1p_iff in E10 as [E10 N]. apply maybe_call1 in E10 as (k & K & E10). apply st_call. eapply says_resetenv; eauto. }
  destruct (call1 (T "info") s) as [c|] eqn:E11; cbn [two opt orelse fst snd].
  { intros [= <-]. apply st_call, says_info, call1_iff, E11. }
  destruct (call1 (T "error") s) as [c|] eqn:E12; cbn [two opt orelse fst snd].
  { intros [= <-]. apply st_call, says_error, call1_iff, E12. }
  destruct (call_stop s) as [[m|]|] eqn:E13; cbn [two opt orelse fst snd].
  { intros [= <-]. apply st_call, says_stop_msg, call_stop_some, E13. }
  { intros [= <-]. apply st_call, says_stop, call_stop_none, E13. }
  destruct (call1 (T "comment") s) as [c|] eqn:E14; cbn [two opt orelse fst snd].
  { intros [= <-]. apply st_call, says_comment, call1_iff, E14. }
  destruct (export_line s) as [[n v]|] eqn:E15; cbn [two opt orelse fst snd].
  { intros [= <-]. apply st_export, export_iff, E15. }
  destruct (setenv_sh_line s) as [[n v]|] eqn:E16; cbn [two opt orelse fst snd]; [|discriminate].
  intros [= <-]. apply st_csh, setenv_sh_iff; assumption.
Qed.
(** the first characters of a call decide which alternative reads it *)
Lemma opening_ws kw r : opening kw (kw ++ r) = match expect "(" (trim_start r) with Some r' => Some (trim_start r') | None => None end.
Proof. unfold opening. rewrite strip_prefix_app. reflexivity. Qed.
Lemma none_call2 kw s : opening kw s = None -> call2 kw s = None.
Proof. unfold call2. intros ->. reflexivity. Qed.
Lemma none_call1 kw s : opening kw s = None -> call1 kw s = None.
Proof. unfold call1. intros ->. reflexivity. Qed.
Lemma none_call1p kw s : opening kw s = None -> call1p kw s = None.
Proof. intros H. unfold call1p. rewrite none_call1 by exact H. reflexivity. Qed.
Lemma none_stop s : opening (T "stop") s = None -> call_stop s = None.
Proof. unfold call_stop. intros ->. reflexivity. Qed.
Ltac others := repeat (first
  [ rewrite none_call2 by reflexivity | rewrite none_call1 by reflexivity | rewrite none_call1p by reflexivity | rewrite none_stop by reflexivity ];
  cbn [two opt orelse fst snd]).
Lemma me_env r : maybe_env (T "env." ++ r) = r.
Proof. unfold maybe_env. rewrite strip_prefix_app. reflexivity. Qed.
Lemma called1_app kw s a : called1 kw s a -> exists r, s = kw ++ r.
Proof. intros H. inversion H; subst. eauto. Qed.
Lemma called2_app kw s a b : called2 kw s a b -> exists r, s = kw ++ r.
Proof. intros H. inversion H; subst. eauto. Qed.
Lemma called1_strip p kw r a : called1 (p ++ kw) (p ++ r) a -> called1 kw r a.
Proof. intros H. inversion H as [w1 w2 w3 t a' H1 H2 H3 H4 E]; subst. rewrite <- app_assoc in E. apply app_inv_head in E as <-. constructor; assumption. Qed.
Lemma called2_strip p kw r a b : called2 (p ++ kw) (p ++ r) a b -> called2 kw r a b.
Proof. intros H. inversion H as [w1 w2 w3 w4 w5 t u a' b' H1 H2 H3 H4 H5 H6 H7 E]; subst. rewrite <- app_assoc in E. apply app_inv_head in E as <-. constructor; assumption. Qed.
Lemma says_parsed s a : says s a -> parse_line s = Some a.
Proof.
  intros H. inversion H as
    [k s' n v K N C|k s' n K N C|k s' n v K N C|k s' n v K N C|s' n v N C|k s' n v K N C|s' c C|s' p C|k s' n K N C|s' m C|s' m C|s' C|s' m C|s' m C]; subst s' a; unfold parse_line.
  - destruct K as [->| ->]; destruct (called2_app _ _ _ _ C) as [r ->].
    + change (maybe_env (T "setenv" ++ r)) with (T "setenv" ++ r). rewrite (proj2 (call2_iff (T "setenv") (T "setenv" ++ r) n v) (conj C N)). reflexivity.
    + rewrite <- app_assoc in *. apply called2_strip in C. rewrite me_env. rewrite (proj2 (call2_iff (T "setenv") (T "setenv" ++ r) n v) (conj C N)). reflexivity.
  - destruct K as [->| ->]; destruct (called1_app _ _ _ C) as [r ->].
    + change (maybe_env (T "unsetenv" ++ r)) with (T "unsetenv" ++ r). rewrite (proj2 (call1p_iff (T "unsetenv") (T "unsetenv" ++ r) n) (conj C N)). others. reflexivity.
    + rewrite <- app_assoc in *. apply called1_strip in C. rewrite me_env. rewrite (proj2 (call1p_iff (T "unsetenv") (T "unsetenv" ++ r) n) (conj C N)). others. reflexivity.
  - destruct K as [->| ->]; destruct (called2_app _ _ _ _ C) as [r ->]; rewrite (proj2 (call2_iff _ _ n v) (conj C N)); others; reflexivity.
  - destruct K as [->| ->]; destruct (called2_app _ _ _ _ C) as [r ->]; rewrite (proj2 (call2_iff _ _ n v) (conj C N)); others; reflexivity.
  - destruct (called2_app _ _ _ _ C) as [r ->]; rewrite (proj2 (call2_iff _ _ n v) (conj C N)); others; reflexivity.
  - destruct K as [->| ->]; destruct (called2_app _ _ _ _ C) as [r ->].
    + change (maybe_env (T "alias" ++ r)) with (T "alias" ++ r). rewrite (proj2 (call2_iff (T "alias") (T "alias" ++ r) n v) (conj C N)). others. reflexivity.
    + rewrite <- app_assoc in *. apply called2_strip in C. rewrite me_env. rewrite (proj2 (call2_iff (T "alias") (T "alias" ++ r) n v) (conj C N)). others. reflexivity.
  - destruct (called1_app _ _ _ C) as [r ->]; rewrite (proj2 (call1_iff _ _ c) C); others; reflexivity.
  - destruct (called1_app _ _ _ C) as [r ->]; rewrite (proj2 (call1_iff _ _ p) C); others; reflexivity.
  - destruct K as [->| ->]; destruct (called1_app _ _ _ C) as [r ->].
    + change (maybe_env (T "resetenv" ++ r)) with (T "resetenv" ++ r). rewrite (proj2 (call1p_iff (T "resetenv") (T "resetenv" ++ r) n) (conj C N)). others. reflexivity.
    + rewrite <- app_assoc in *. apply called1_strip in C. rewrite me_env. rewrite (proj2 (call1p_iff (T "resetenv") (T "resetenv" ++ r) n) (conj C N)). others. reflexivity.
  - destruct (called1_app _ _ _ C) as [r ->]; rewrite (proj2 (call1_iff _ _ m) C); others; reflexivity.
  - destruct (called1_app _ _ _ C) as [r ->]; rewrite (proj2 (call1_iff _ _ m) C); others; reflexivity.
  - rewrite (proj2 (call_stop_none s) C). assert (exists r, s = T "stop" ++ r) as [r ->] by (inversion C; eauto). others. reflexivity.
  - rewrite (proj2 (call_stop_some s m) C). destruct (called1_app _ _ _ C) as [r ->]. others. reflexivity.
  - destruct (called1_app _ _ _ C) as [r ->]; rewrite (proj2 (call1_iff _ _ m) C); others; reflexivity.
Qed.
Lemma parse_line_complete s a : trim s = s -> statement s a -> parse_line s = Some a.
Proof.
  intros Ht H. inversion H as [a' C E|C E|n v C E|n v C E]; subst.
  - apply says_parsed, C.
  - unfold parse_line. apply is_comment_iff in C. rewrite C. reflexivity.
  - pose proof C as D. inversion D as [w1 n' w2 w3 q1 v' q2 H1 _ _ _ _ _ _ _ E1]; subst. apply export_iff in C. unfold parse_line. rewrite C. others. reflexivity.
  - pose proof C as D. inversion D as [w1 n' w2 v' u H1 H2 _ _ _ _ E1]; subst. apply setenv_sh_iff in C; [|exact Ht]. unfold parse_line. rewrite C.
    assert (O : opening (T "setenv") (T "setenv" ++ w1 ++ n ++ w2 ++ v') = None).
    { rewrite opening_ws. assert (E : trim_start (w1 ++ n ++ w2 ++ v') = n ++ w2 ++ v').
      { destruct H2 as (c & z & -> & Hc & _). apply trim_start_iff. exists w1. split; [apply H1|]. split; [reflexivity|]. intros d t [= <- _].
        destruct (is_ws c) eqn:W; [|reflexivity]. apply ws_not_id in W. rewrite (id_start_char c) in W; [discriminate|]. apply id_start_iff, Hc. }
      rewrite E. destruct H2 as (c & z & -> & Hc & _). cbn [app expect]. destruct (Ascii.eqb_spec c "(") as [->|_]; [|reflexivity].
      destruct Hc as [Hc|Hc]; discriminate. }
    change (maybe_env (T "setenv" ++ w1 ++ n ++ w2 ++ v')) with (T "setenv" ++ w1 ++ n ++ w2 ++ v'). rewrite (none_call2 _ _ O).
    change (export_line (T "setenv" ++ w1 ++ n ++ w2 ++ v')) with (@None (text * text)). others. reflexivity.
Qed.
Lemma parse_line_iff s a : trim s = s -> (parse_line s = Some a <-> statement s a).
Proof. intros H. split; [apply parse_line_sound, H|apply parse_line_complete, H]. Qed.
(** ** Whole texts *)
Lemma parse_lines_iff ls acts : parse_lines ls = Some acts <-> command_lines ls acts.
Proof.
  split.
  - revert acts. induction ls as [|l ls IH]; intros acts; cbn [parse_lines]; [intros [= <-]; constructor|].
    destruct (is_nil (trim l)) eqn:E.
    + intros H. apply is_nil_true in E. apply cl_blank; [|apply IH, H]. destruct (trim_split l) as (u & v & Hu & Hv & El).
      rewrite E in El. rewrite El. cbn [app]. apply blanks_forallb. rewrite forallb_app, Hu, Hv. reflexivity.
    + apply is_nil_false in E. destruct (parse_line (trim l)) as [a|] eqn:P; [|discriminate]. destruct (parse_lines ls) as [r|] eqn:R; [|discriminate].
      intros [= <-]. destruct (trim_split l) as (u & v & Hu & Hv & El). rewrite El.
      apply cl_stmt; try (apply blanks_forallb; assumption); [exact E|apply trim_idem|apply parse_line_sound; [apply trim_idem|exact P]|apply IH; reflexivity].
  - induction 1 as [|l ls acts Hl Hc IH|u s v ls a acts Hu Hv Hn Ht Hs Hc IH]; [reflexivity|cbn [parse_lines]..].
    + assert (E : trim l = []).
      { unfold trim. rewrite trim_start_all_ws by (apply blanks_forallb, Hl). reflexivity. }
      rewrite E. cbn [is_nil]. exact IH.
    + assert (E : trim (u ++ s ++ v) = s).
      { rewrite trim_app_ws_l by (apply blanks_forallb, Hu). rewrite trim_app_ws_r by (apply blanks_forallb, Hv). exact Ht. }
      rewrite E. destruct s as [|c s]; [congruence|]. cbn [is_nil]. rewrite (parse_line_complete _ _ Ht Hs), IH. reflexivity.
Qed.
