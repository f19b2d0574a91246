(** Equal canonical versions have equal text (hence equal hash input). *)
From Verif Require Import Base Base_lemmas Version_model Version_spec Version_proofs Version_order.
From Coq Require Import ZifyBool ZifyNat ZifyN.

Lemma digit_val_lt c : is_digit c = true -> (digit_val c < 10)%N.
Proof. unfold is_digit, in_codes, digit_val. lia. Qed.
Lemma digit_val_inj c d : is_digit c = true -> is_digit d = true -> digit_val c = digit_val d -> c = d.
Proof. unfold is_digit, in_codes, digit_val. intros. apply code_inj. lia. Qed.
Lemma digits_val_mono l : forall a b, (a <= b)%N ->
  (fold_left (fun a c => a * 10 + digit_val c) l a <= fold_left (fun a c => a * 10 + digit_val c) l b)%N.
Proof. induction l as [|c l IH]; simpl; intros a b H; [exact H|]. apply IH. lia. Qed.
Lemma digits_val_ge l : forall a, (a <= fold_left (fun a c => a * 10 + digit_val c) l a)%N.
Proof.
  induction l as [|c l IH]; simpl; intros a; [lia|]. specialize (IH (a * 10 + digit_val c)%N). lia.
Qed.
Lemma digits_val_pos c l : is_digit c = true -> c <> "0"%char -> (0 < digits_val (c :: l))%N.
Proof.
  intros Hd Hc. unfold digits_val. cbn [fold_left].
  pose proof (digits_val_ge l (0 * 10 + digit_val c)%N) as H.
  assert (0 < digit_val c)%N; [|lia].
  destruct (N.eq_dec (digit_val c) 0) as [E|E]; [|lia].
  exfalso. apply Hc. apply digit_val_inj; auto.
Qed.
Lemma nlz_inj l1 : forall l2, all_digit l1 = true -> all_digit l2 = true ->
  hd_error l1 <> Some "0"%char -> hd_error l2 <> Some "0"%char ->
  digits_val l1 = digits_val l2 -> l1 = l2.
Proof.
  induction l1 as [|c a IH] using rev_ind; intros l2 D1 D2 Z1 Z2 E.
  - destruct l2 as [|c l2]; [reflexivity|]. exfalso.
    unfold all_digit in D2. simpl in D2. apply andb_true_iff in D2 as [D2 _].
    assert (0 < digits_val (c :: l2))%N as H by (apply digits_val_pos; [exact D2|simpl in Z2; congruence]).
    rewrite <- E in H. unfold digits_val in H. simpl in H. lia.
  - destruct l2 as [|e b _] using rev_ind.
    + exfalso. destruct (a ++ [c]) as [|x l] eqn:Ex; [destruct a; discriminate|].
      unfold all_digit in D1. simpl in D1. apply andb_true_iff in D1 as [D1 _].
      assert (0 < digits_val (x :: l))%N as H by (apply digits_val_pos; [exact D1|simpl in Z1; congruence]).
      rewrite E in H. unfold digits_val in H. simpl in H. lia.
    + rewrite !digits_val_app in E. unfold all_digit in *. rewrite forallb_app in *.
      apply andb_true_iff in D1 as [D1 C1]. apply andb_true_iff in D2 as [D2 C2].
      simpl in C1, C2. rewrite andb_true_r in *.
      pose proof (digit_val_lt _ C1). pose proof (digit_val_lt _ C2).
      assert (digits_val a = digits_val b) by lia.
      assert (digit_val c = digit_val e) by lia.
      rewrite (IH b); auto.
      * rewrite (digit_val_inj c e); auto.
      * destruct a; [discriminate|]. exact Z1.
      * destruct b; [discriminate|]. exact Z2.
Qed.
Lemma canonical_inj d1 d2 : d1 <> [] -> d2 <> [] -> all_digit d1 = true -> all_digit d2 = true ->
  canonical_numeral d1 -> canonical_numeral d2 -> digits_val d1 = digits_val d2 -> d1 = d2.
Proof.
  intros N1 N2 D1 D2 C1 C2 E.
  assert (forall d, d <> [] -> all_digit d = true -> hd_error d <> Some "0"%char -> digits_val d <> 0%N) as P.
  { intros [|c d] Hn Hd Hh; [congruence|]. unfold all_digit in Hd. simpl in Hd.
    apply andb_true_iff in Hd as [Hd _].
    assert (0 < digits_val (c :: d))%N by (apply digits_val_pos; [exact Hd|simpl in Hh; congruence]). lia. }
  destruct C1 as [->|C1], C2 as [->|C2].
  - reflexivity.
  - exfalso. apply (P d2); auto.
  - exfalso. apply (P d1); auto.
  - apply nlz_inj; assumption.
Qed.

(** segments are maximal runs *)
Lemma split_segments_maximal s : forall cur b pre,
  cur <> [] -> forallb (fun c => Bool.eqb (is_digit c) b) cur = true ->
  (forall c, hd_error (rev pre) = Some c -> is_digit c = negb b) ->
  forall l1 d l2, split_segments cur b s = l1 ++ d :: l2 ->
  let a := pre ++ concat l1 in
  let z := concat l2 in
  (forall x, all_digit d = true -> hd_error (rev a) = Some x -> is_digit x = false) /\
  (forall x, all_digit d = true -> hd_error z = Some x -> is_digit x = false).
Proof.
  assert (forall (cur : text) (b : bool), cur <> [] -> forallb (fun c => Bool.eqb (is_digit c) b) cur = true ->
            all_digit (rev cur) = true -> b = true) as Hb.
  { intros [|c cur] b Hn Hf Hd; [congruence|]. simpl in *. unfold all_digit in Hd.
    rewrite forallb_app in Hd. apply andb_true_iff in Hd as [_ Hd]. simpl in Hd. rewrite andb_true_r in Hd.
    apply andb_true_iff in Hf as [Hf _]. rewrite Hd in Hf. destruct b; [reflexivity|discriminate]. }
  assert (forall (cur : text) (b : bool) x, cur <> [] -> forallb (fun c => Bool.eqb (is_digit c) b) cur = true ->
            hd_error cur = Some x -> is_digit x = b) as Hx.
  { intros [|c cur] b x Hn Hf Hd; [congruence|]. simpl in *. injection Hd as ->.
    apply andb_true_iff in Hf as [Hf _]. destruct (is_digit x), b; simpl in *; congruence. }
  induction s as [|c s IH]; intros cur b pre Hn Hf Hp l1 d l2 H; simpl in H.
  - destruct (is_nil cur) eqn:E; [apply is_nil_true in E; congruence|].
    destruct l1 as [|x l1]; [|destruct l1; discriminate]. injection H as <- <-. simpl.
    rewrite app_nil_r. split; [|intros; discriminate].
    intros x Hd Hh. rewrite (Hp x Hh). rewrite (Hb _ _ Hn Hf Hd). reflexivity.
  - destruct (is_nil cur) eqn:E; [apply is_nil_true in E; congruence|].
    destruct (Bool.eqb (is_digit c) b) eqn:E2.
    + eapply (IH (c :: cur) b pre); eauto; [discriminate|]. simpl. rewrite E2, Hf. reflexivity.
    + assert (is_digit c = negb b) as Ec by (destruct (is_digit c), b; simpl in *; congruence).
      destruct l1 as [|x l1].
      * injection H as <- <-. simpl. rewrite app_nil_r. split.
        -- intros x Hd Hh. rewrite (Hp x Hh). rewrite (Hb _ _ Hn Hf Hd). reflexivity.
        -- intros x Hd Hh. rewrite split_segments_concat in Hh. simpl in Hh. injection Hh as <-.
           rewrite Ec, (Hb _ _ Hn Hf Hd). reflexivity.
      * simpl in H. injection H as <- H. simpl.
        specialize (IH [c] (is_digit c) (pre ++ rev cur)).
        assert ((pre ++ rev cur) ++ concat l1 = pre ++ rev cur ++ concat l1) as Ea by (rewrite app_assoc; reflexivity).
        rewrite <- Ea. apply IH; auto.
        -- discriminate.
        -- simpl. rewrite eqb_reflx. reflexivity.
        -- intros x Hh. rewrite rev_app_distr, rev_involutive in Hh.
           destruct cur as [|y cur]; [congruence|]. simpl in Hh. injection Hh as <-.
           rewrite (Hx (y :: cur) b y); auto. rewrite Ec, negb_involutive. reflexivity.
Qed.
Lemma canonical_segments t : canonical_token t ->
  forall d, In d (token_segments t) -> all_digit d = true -> canonical_numeral d.
Proof.
  intros Hc d Hin Hd. apply in_split in Hin as (l1 & l2 & E).
  destruct t as [|c t]; [destruct l1; discriminate|].
  unfold token_segments in E. simpl in E.
  pose proof (split_segments_maximal t [c] (is_digit c) [] ltac:(discriminate)) as M.
  simpl in M. rewrite eqb_reflx in M. specialize (M eq_refl ltac:(intros; discriminate) l1 d l2 E).
  simpl in M. destruct M as [M1 M2].
  apply (Hc (concat l1) d (concat l2)).
  - assert (concat (token_segments (c :: t)) = c :: t) as E2 by apply token_segments_concat.
    rewrite <- E2. unfold token_segments. simpl. rewrite E. rewrite concat_app. reflexivity.
  - assert (pure_seg d) as [Hn _]; [|exact Hn].
    pose proof (token_segments_pure (c :: t)) as Hp. unfold token_segments in Hp. simpl in Hp.
    rewrite E in Hp. rewrite Forall_forall in Hp. apply Hp. apply in_or_app. right. left. reflexivity.
  - apply all_digit_iff; exact Hd.
  - intros x Hx. apply M1; auto.
  - intros x Hx. apply M2; auto.
Qed.

Lemma key_cmp_eq l1 : forall l2, key_cmp l1 l2 = Eq -> l1 = l2.
Proof.
  induction l1 as [|a l1 IH]; intros [|b l2] H; try discriminate; try reflexivity.
  unfold key_cmp in H. cbn [lex] in H. fold key_cmp in H.
  destruct (segkey_cmp a b) eqn:E; try discriminate.
  rewrite (IH l2 H). f_equal. destruct a, b; simpl in E; try discriminate.
  - apply text_cmp_eq in E. congruence.
  - apply N.compare_eq in E. congruence.
Qed.

Lemma segment_chars t s : In s (token_segments t) -> forall c, In c s -> In c t.
Proof.
  intros Hs c Hc. rewrite <- (token_segments_concat t). apply in_concat. eauto.
Qed.
Lemma segkey_inj t1 t2 s1 s2 : word t1 -> word t2 -> small_token t1 -> small_token t2 ->
  canonical_token t1 -> canonical_token t2 ->
  In s1 (token_segments t1) -> In s2 (token_segments t2) ->
  segkey_of s1 = segkey_of s2 -> s1 = s2.
Proof.
  intros W1 W2 S1 S2 C1 C2 I1 I2 E.
  assert (forall t s, word t -> In s (token_segments t) -> pure_seg s /\ forallb is_token_char s = true) as G.
  { intros t s W I. split.
    - pose proof (token_segments_pure t) as P. rewrite Forall_forall in P. auto.
    - apply word_iff in W as [_ W]. rewrite forallb_forall in *. intros c Hc. apply W.
      eapply segment_chars; eauto. }
  destruct (G t1 s1 W1 I1) as [[N1 P1] K1]. destruct (G t2 s2 W2 I2) as [[N2 P2] K2].
  unfold segkey_of in E.
  destruct (parse_u64 s1) as [n1|] eqn:U1, (parse_u64 s2) as [n2|] eqn:U2; try discriminate; [|congruence].
  injection E as ->.
  destruct (all_digit s1) eqn:D1; [|rewrite parse_u64_plain in U1 by assumption; discriminate].
  destruct (all_digit s2) eqn:D2; [|rewrite parse_u64_plain in U2 by assumption; discriminate].
  rewrite parse_u64_digits in U1, U2 by assumption.
  destruct (digits_val s1 <=? U64_MAX)%N; [|discriminate].
  destruct (digits_val s2 <=? U64_MAX)%N; [|discriminate].
  apply canonical_inj; auto; [eapply (canonical_segments t1); eauto|eapply (canonical_segments t2); eauto|].
  congruence.
Qed.
Lemma map_inj_on {A B} (f : A -> B) l1 : forall l2,
  (forall x y, In x l1 -> In y l2 -> f x = f y -> x = y) -> map f l1 = map f l2 -> l1 = l2.
Proof.
  induction l1 as [|a l1 IH]; intros [|b l2] H E; simpl in *; try discriminate; auto.
  injection E as E1 E2. f_equal; [apply H; auto|]. apply IH; auto.
Qed.
Lemma compare_token_eq t1 t2 : word t1 -> word t2 -> small_token t1 -> small_token t2 ->
  canonical_token t1 -> canonical_token t2 -> compare_token t1 t2 = Eq -> t1 = t2.
Proof.
  intros W1 W2 S1 S2 C1 C2 E. rewrite compare_token_key in E by assumption.
  apply key_cmp_eq in E. unfold token_key in E.
  apply map_inj_on in E; [|intros x y Hx Hy; apply (segkey_inj t1 t2); assumption].
  rewrite <- (token_segments_concat t1), <- (token_segments_concat t2), E. reflexivity.
Qed.
Lemma lex_token_eq l1 : forall l2, Forall ok_token l1 -> Forall ok_token l2 ->
  Forall canonical_token l1 -> Forall canonical_token l2 ->
  lex compare_token Gt l1 l2 = Eq -> l1 = l2.
Proof.
  induction l1 as [|a l1 IH]; intros [|b l2] O1 O2 C1 C2 E; try discriminate; auto.
  cbn [lex] in E. inversion O1 as [|? ? [? ?] ?]; inversion O2 as [|? ? [? ?] ?];
    inversion C1; inversion C2; subst.
  destruct (compare_token a b) eqn:Ec; try discriminate.
  f_equal; [apply compare_token_eq; auto|apply IH; auto].
Qed.

Lemma seps_dots l1 l2 n : Forall (fun s => s = T ".") l1 -> Forall (fun s => s = T ".") l2 ->
  length l1 = n -> length l2 = n -> l1 = l2.
Proof.
  revert l2 n; induction l1 as [|a l1 IH]; intros [|b l2] n H1 H2 L1 L2; simpl in *; subst; try discriminate; auto.
  inversion H1; inversion H2; subst. f_equal. eapply IH; eauto.
Qed.
Lemma shape_length s ts cs : shape s ts cs -> length ts = S (length cs).
Proof. induction 1; simpl; congruence. Qed.

Lemma canonical_eq_text a b : canonical_version a -> canonical_version b ->
  vcmp a b = Eq -> v_str a = v_str b.
Proof.
  intros (Pa & Sa & Za & Ca & Da) (Pb & Sb & Zb & Cb & Db) E.
  pose proof (parsed_ok_tokens a Pa Sa) as Oa. pose proof (parsed_ok_tokens b Pb Sb) as Ob.
  destruct Pa as [sa Pa], Pb as [sb Pb].
  apply parse_version_cases in Pa. apply parse_version_cases in Pb.
  assert (forall s v, (trim s = [] /\ v = v_empty) \/ (trim s = T "inf" /\ v = v_inf) \/
     (trim s = T "epsilon" /\ v = v_empty) \/
     (trim s <> [] /\ trim s <> T "inf" /\ trim s <> T "epsilon" /\ v_str v = trim s /\
     exists cs, version_grammar (trim s) (v_tokens v) cs /\ v_seps v = map single cs) ->
     v = v_empty \/ v = v_inf \/ (is_inf v = false /\ is_empty_v v = false /\
       exists cs, shape (v_str v) (v_tokens v) cs /\ v_seps v = map single cs)) as K.
  { intros s v [[_ H]|[[_ H]|[[_ H]|H]]]; auto. right; right.
    destruct H as (H1 & H2 & _ & H4 & cs & (H5 & _) & H6). rewrite <- H4 in *.
    split; [apply text_eqb_neq; exact H2|].
    split; [unfold is_empty_v; apply is_nil_false in H1; rewrite H1; apply andb_false_r|]. eauto. }
  apply K in Pa. apply K in Pb. clear K.
  destruct Pa as [->|[->|(Ia & Ea & csa & Ha & Fa)]], Pb as [->|[->|(Ib & Eb & csb & Hb & Fb)]];
    try reflexivity; try discriminate E.
  - exfalso. unfold vcmp in E. rewrite Ib, Eb in E. discriminate.
  - exfalso. unfold vcmp in E. rewrite Ib in E. discriminate.
  - exfalso. unfold vcmp in E. rewrite Ia, Ea in E. discriminate.
  - exfalso. unfold vcmp in E. rewrite Ia in E. discriminate.
  - unfold vcmp in E. rewrite Ia, Ib, Ea, Eb in E.
    rewrite compare_tokens_lex in E by assumption.
    apply lex_token_eq in E; auto.
    rewrite <- (weave_shape _ _ _ Ha), <- (weave_shape _ _ _ Hb), <- Fa, <- Fb, E.
    f_equal. pose proof (shape_length _ _ _ Ha) as La. pose proof (shape_length _ _ _ Hb) as Lb.
    rewrite E in La. apply (seps_dots _ _ (length csa)); [exact Da|exact Db| |].
    + rewrite Fa. apply map_length.
    + rewrite Fb, map_length. lia.
Qed.

(** ** deciding the side conditions on concrete versions *)
Lemma digits_val_bound d : digits_only d -> (digits_val d < 10 ^ N.of_nat (length d))%N.
Proof.
  induction d as [|c d IH] using rev_ind; intros H.
  - reflexivity.
  - apply Forall_app in H as [H1 H2]. inversion H2; subst. rewrite digits_val_app, app_length.
    simpl length. replace (N.of_nat (length d + 1)) with (N.succ (N.of_nat (length d))) by lia.
    rewrite N.pow_succ_r'. specialize (IH H1). pose proof (digit_val_lt c H3). lia.
Qed.
Lemma short_small t : length t <= 19 -> small_token t.
Proof.
  intros H a d b E Hd. subst. rewrite !app_length in H.
  pose proof (digits_val_bound d Hd) as B.
  assert (10 ^ N.of_nat (length d) <= 10 ^ 19)%N by (apply N.pow_le_mono_r; lia).
  change (10 ^ 19)%N with 10000000000000000000%N in *. unfold U64_MAX. lia.
Qed.
Lemma single_canonical c : canonical_token [c].
Proof.
  intros a d b E Hn Hd _ _. destruct a as [|x a].
  - destruct d as [|y d]; [congruence|]. simpl in E. injection E as <- E.
    symmetry in E. apply app_eq_nil in E as [-> ->].
    destruct (ascii_dec c "0") as [->|Hc]; [left; reflexivity|right; simpl; congruence].
  - exfalso. simpl in E. injection E as _ E. symmetry in E. apply app_eq_nil in E as [_ E].
    apply app_eq_nil in E as [-> _]. congruence.
Qed.
