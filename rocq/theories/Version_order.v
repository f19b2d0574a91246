(** Proofs about version comparison. *)
From Verif Require Import Base Base_lemmas Version_model Version_spec Version_proofs.
From Coq Require Import ZifyBool ZifyNat ZifyN.

(** ** antisymmetry and reflexivity, for all token lists *)
Lemma compare_segment_anti a b : compare_segment b a = CompOpp (compare_segment a b).
Proof.
  unfold compare_segment. destruct (parse_u64 a), (parse_u64 b); simpl; try reflexivity.
  - apply N.compare_antisym.
  - apply (tpo_anti _ _ TPO_text); exact I.
Qed.
Lemma compare_segments_anti l1 : forall l2, compare_segments l2 l1 = CompOpp (compare_segments l1 l2).
Proof.
  induction l1 as [|a l1 IH]; intros [|b l2]; cbn [compare_segments].
  - reflexivity.
  - apply Nat.compare_antisym.
  - apply Nat.compare_antisym.
  - rewrite compare_segment_anti. destruct (compare_segment a b); simpl; auto.
Qed.
Lemma alpha_digit_nil t : all_alpha t = true -> all_digit t = true -> t = [].
Proof.
  destruct t as [|c t]; [reflexivity|]. unfold all_alpha, all_digit. simpl.
  rewrite !andb_true_iff, orb_true_iff. intros [H1 _] [H2 _].
  exfalso. destruct H1 as [H1|H1].
  - unfold is_alpha, is_lower, is_upper, is_digit, in_codes in *. lia.
  - apply Ascii.eqb_eq in H1. subst. discriminate.
Qed.
Lemma compare_token_anti t1 t2 : compare_token t2 t1 = CompOpp (compare_token t1 t2).
Proof.
  unfold compare_token.
  rewrite (text_eqb_sym t2 t1).
  assert ((if text_eqb t1 t2 then Eq
      else if all_alpha t2 && all_digit t1 then Lt
      else if all_digit t2 && all_alpha t1 then Gt
      else if all_alpha t2 && all_alpha t1 then text_cmp t2 t1
      else compare_segments (token_segments t2) (token_segments t1)) =
    CompOpp (if text_eqb t1 t2 then Eq
      else if all_alpha t1 && all_digit t2 then Lt
      else if all_digit t1 && all_alpha t2 then Gt
      else if all_alpha t1 && all_alpha t2 then text_cmp t1 t2
      else compare_segments (token_segments t1) (token_segments t2))) as E.
  { destruct (text_eqb t1 t2) eqn:E; [reflexivity|]. apply text_eqb_neq in E.
    pose proof (alpha_digit_nil t1) as N1. pose proof (alpha_digit_nil t2) as N2.
    rewrite compare_segments_anti, (tpo_anti _ _ TPO_text t1 t2 I I).
    destruct (all_alpha t1), (all_alpha t2), (all_digit t1), (all_digit t2); simpl; try reflexivity.
    exfalso. apply E. rewrite N1, N2; reflexivity. }
  destruct (parse_i64 t1), (parse_i64 t2); try exact E.
  apply Z.compare_antisym.
Qed.
Lemma compare_token_refl t : compare_token t t = Eq.
Proof.
  unfold compare_token. destruct (parse_i64 t); [apply Z.compare_refl|].
  rewrite text_eqb_refl. reflexivity.
Qed.
Lemma compare_tokens_anti l1 : forall l2, compare_tokens l2 l1 = CompOpp (compare_tokens l1 l2).
Proof.
  induction l1 as [|a l1 IH]; intros [|b l2]; cbn [compare_tokens].
  - reflexivity.
  - destruct (forallb is_zero_tok (b :: l2)); reflexivity.
  - destruct (forallb is_zero_tok (a :: l1)); reflexivity.
  - rewrite compare_token_anti. destruct (compare_token a b); simpl; auto.
Qed.
Lemma compare_tokens_refl l : compare_tokens l l = Eq.
Proof. induction l as [|t l IH]; simpl; [reflexivity|]. rewrite compare_token_refl. exact IH. Qed.

Lemma vcmp_anti a b : vcmp b a = CompOpp (vcmp a b).
Proof.
  unfold vcmp. destruct (is_inf a), (is_inf b); try reflexivity.
  destruct (is_empty_v a), (is_empty_v b); try reflexivity. apply compare_tokens_anti.
Qed.
Lemma vcmp_refl a : vcmp a a = Eq.
Proof.
  unfold vcmp. destruct (is_inf a); [reflexivity|]. destruct (is_empty_v a); [reflexivity|].
  apply compare_tokens_refl.
Qed.
Lemma veq_iff a b : veq a b = true <-> vcmp a b = Eq.
Proof. unfold veq. destruct (vcmp a b); simpl; split; congruence. Qed.

(** ** segments *)
Lemma split_segments_concat s : forall cur b, concat (split_segments cur b s) = rev cur ++ s.
Proof.
  induction s as [|c s IH]; intros cur b; simpl.
  - destruct (is_nil cur) eqn:E; simpl; [apply is_nil_true in E; subst; reflexivity|].
    reflexivity.
  - destruct (is_nil cur) eqn:E.
    + apply is_nil_true in E; subst. rewrite IH. reflexivity.
    + destruct (Bool.eqb (is_digit c) b); simpl; rewrite IH; simpl; rewrite <- ?app_assoc; reflexivity.
Qed.
Lemma token_segments_concat t : concat (token_segments t) = t.
Proof. apply split_segments_concat. Qed.

(** every segment is all digits or has no digit *)
Definition pure_seg (s : text) : Prop :=
  s <> [] /\ (all_digit s = true \/ forallb (fun c => negb (is_digit c)) s = true).
Lemma split_segments_pure s : forall cur b,
  forallb (fun c => Bool.eqb (is_digit c) b) cur = true ->
  Forall pure_seg (split_segments cur b s).
Proof.
  assert (forall cur b, cur <> [] -> forallb (fun c => Bool.eqb (is_digit c) b) cur = true -> pure_seg (rev cur)) as Hp.
  { intros cur b Hn H. split.
    - intros E. apply Hn. rewrite <- (rev_involutive cur), E. reflexivity.
    - destruct b; [left|right]; unfold all_digit; rewrite forallb_forall in *; intros x Hx;
        apply in_rev in Hx; specialize (H x Hx); destruct (is_digit x); simpl in *; congruence. }
  induction s as [|c s IH]; intros cur b H; simpl.
  - destruct (is_nil cur) eqn:E; constructor; [|constructor]. apply is_nil_false in E. eapply Hp; eauto.
  - destruct (is_nil cur) eqn:E.
    + apply IH. simpl. rewrite eqb_reflx. reflexivity.
    + apply is_nil_false in E. destruct (Bool.eqb (is_digit c) b) eqn:E2.
      * apply IH. simpl. rewrite E2, H. reflexivity.
      * constructor; [eapply Hp; eauto|]. apply IH. simpl. rewrite eqb_reflx. reflexivity.
Qed.
Lemma token_segments_pure t : Forall pure_seg (token_segments t).
Proof. apply split_segments_pure. reflexivity. Qed.

Lemma split_segments_uniform s b : forall cur,
  cur <> [] -> forallb (fun c => Bool.eqb (is_digit c) b) s = true ->
  split_segments cur b s = [rev cur ++ s].
Proof.
  induction s as [|c s IH]; intros cur Hn H; simpl in *.
  - destruct (is_nil cur) eqn:E; [apply is_nil_true in E; congruence|]. rewrite app_nil_r. reflexivity.
  - apply andb_true_iff in H as [H1 H2]. destruct (is_nil cur) eqn:E; [apply is_nil_true in E; congruence|].
    rewrite H1. rewrite IH by (try discriminate; assumption). simpl. rewrite <- app_assoc. reflexivity.
Qed.
Lemma token_segments_digits t : t <> [] -> all_digit t = true -> token_segments t = [t].
Proof.
  intros Hn H. destruct t as [|c t]; [congruence|]. unfold token_segments. simpl.
  unfold all_digit in H. simpl in H. apply andb_true_iff in H as [H1 H2]. rewrite H1.
  rewrite split_segments_uniform; [reflexivity|discriminate|].
  rewrite forallb_forall in *. intros x Hx. rewrite (H2 x Hx). reflexivity.
Qed.
Lemma alpha_not_digit c : is_alpha c || Ascii.eqb c "_" = true -> is_digit c = false.
Proof.
  intros H. apply orb_true_iff in H as [H|H].
  - unfold is_alpha, is_lower, is_upper, is_digit, in_codes in *. lia.
  - apply Ascii.eqb_eq in H. subst. reflexivity.
Qed.
Lemma token_segments_alpha t : t <> [] -> all_alpha t = true -> token_segments t = [t].
Proof.
  intros Hn H. destruct t as [|c t]; [congruence|]. unfold token_segments. simpl.
  unfold all_alpha in H. simpl in H. apply andb_true_iff in H as [H1 H2].
  rewrite (alpha_not_digit c H1).
  rewrite split_segments_uniform; [reflexivity|discriminate|].
  rewrite forallb_forall in *. intros x Hx. rewrite (alpha_not_digit x (H2 x Hx)). reflexivity.
Qed.

Lemma parse_u64_digits t : t <> [] -> all_digit t = true ->
  parse_u64 t = if (digits_val t <=? U64_MAX)%N then Some (digits_val t) else None.
Proof.
  intros Hn Hd. unfold parse_u64. destruct t as [|c t]; [congruence|].
  pose proof Hd as Hd'. unfold all_digit in Hd. simpl in Hd. apply andb_true_iff in Hd as [E1 _].
  destruct (Ascii.eqb_spec c "+") as [->|_]; [discriminate|].
  cbn [is_nil negb andb]. unfold all_digit in Hd'. rewrite Hd'. reflexivity.
Qed.
Lemma parse_u64_plain t : forallb is_token_char t = true -> all_digit t = false -> parse_u64 t = None.
Proof.
  intros Hw Hd. unfold parse_u64. destruct t as [|c t]; [reflexivity|].
  simpl in Hw. apply andb_true_iff in Hw as [Hc _].
  destruct (Ascii.eqb_spec c "+") as [->|_]; [discriminate|].
  unfold all_digit in Hd. rewrite Hd. rewrite andb_false_r. reflexivity.
Qed.
Lemma parse_i64_some t z : forallb is_token_char t = true -> parse_i64 t = Some z ->
  t <> [] /\ all_digit t = true /\ z = Z.of_N (digits_val t) /\ (digits_val t <= I64_MAX)%N.
Proof.
  intros Hw. unfold parse_i64. destruct t as [|c t]; [discriminate|].
  pose proof Hw as Hw'. simpl in Hw'. apply andb_true_iff in Hw' as [Hc _].
  destruct (Ascii.eqb_spec c "+") as [->|_]; [discriminate|].
  destruct (Ascii.eqb_spec c "-") as [->|_]; [discriminate|].
  cbn [is_nil negb andb]. destruct (forallb is_digit (c :: t)) eqn:Ed; [|discriminate].
  cbv zeta. destruct (digits_val (c :: t) <=? I64_MAX)%N eqn:El; [|discriminate].
  intros H; injection H as <-. apply N.leb_le in El. repeat split; auto. discriminate.
Qed.

(** ** tokens whose digit runs fit in 64 bits *)
Inductive segkey := KAlpha (s : text) | KNum (n : N).
Definition segkey_of (s : text) : segkey :=
  match parse_u64 s with Some n => KNum n | None => KAlpha s end.
Definition segkey_cmp (a b : segkey) : comparison :=
  match a, b with
  | KAlpha x, KAlpha y => text_cmp x y
  | KAlpha _, KNum _ => Lt
  | KNum _, KAlpha _ => Gt
  | KNum x, KNum y => N.compare x y
  end.
Lemma TPO_segkey : TPO (fun _ => True) segkey_cmp.
Proof.
  constructor.
  - intros [s|n] _; simpl; [apply (tpo_refl _ _ TPO_text); exact I|apply N.compare_refl].
  - intros [s|n] [s'|n'] _ _; simpl; try reflexivity.
    + apply (tpo_anti _ _ TPO_text); exact I.
    + apply N.compare_antisym.
  - intros [x|x] [y|y] [z|z] _ _ _; simpl; try congruence.
    + apply (tpo_trans _ _ TPO_text); exact I.
    + apply (tpo_trans _ _ TPO_N); exact I.
Qed.
Definition token_key (t : text) : list segkey := map segkey_of (token_segments t).
Definition key_cmp := lex segkey_cmp Lt.

Lemma compare_segments_key l1 : forall l2,
  compare_segments l1 l2 = key_cmp (map segkey_of l1) (map segkey_of l2).
Proof.
  induction l1 as [|a l1 IH]; intros [|b l2]; try reflexivity.
  cbn [compare_segments map]. unfold key_cmp. cbn [lex]. fold key_cmp. rewrite IH.
  unfold compare_segment, segkey_of, segkey_cmp.
  destruct (parse_u64 a), (parse_u64 b); reflexivity.
Qed.

Lemma TPO_key : TPO (fun _ => True) key_cmp.
Proof.
  apply TPO_weaken with (P := Forall (fun _ => True)).
  { intros x _. apply Forall_forall. auto. }
  apply TPO_lex; [apply TPO_segkey|discriminate].
Qed.

Lemma compare_token_key t1 t2 : word t1 -> word t2 -> small_token t1 -> small_token t2 ->
  compare_token t1 t2 = key_cmp (token_key t1) (token_key t2).
Proof.
  intros W1 W2 S1 S2. apply word_iff in W1 as [N1 W1]. apply word_iff in W2 as [N2 W2].
  assert (forall t, t <> [] -> small_token t -> all_digit t = true -> parse_u64 t = Some (digits_val t)) as Hsm.
  { intros t Hn Hs Hd. rewrite parse_u64_digits by assumption.
    assert (digits_val t <= U64_MAX)%N as Hle.
    { apply (Hs [] t []); [rewrite app_nil_r; reflexivity|apply all_digit_iff; exact Hd]. }
    apply N.leb_le in Hle. rewrite Hle. reflexivity. }
  assert (forall t, t <> [] -> forallb is_token_char t = true -> all_alpha t = true -> parse_u64 t = None) as Ha.
  { intros t Hn Hw Hal. apply parse_u64_plain; [exact Hw|].
    destruct (all_digit t) eqn:E; [|reflexivity]. exfalso. apply Hn. apply alpha_digit_nil; assumption. }
  assert ((if text_eqb t1 t2 then Eq
      else if all_alpha t1 && all_digit t2 then Lt
      else if all_digit t1 && all_alpha t2 then Gt
      else if all_alpha t1 && all_alpha t2 then text_cmp t1 t2
      else compare_segments (token_segments t1) (token_segments t2)) = key_cmp (token_key t1) (token_key t2)) as E.
  { destruct (text_eqb_spec t1 t2) as [<-|Hne].
    { symmetry. apply (tpo_refl _ _ TPO_key); exact I. }
    destruct (all_alpha t1 && all_digit t2) eqn:E1.
    { apply andb_true_iff in E1 as [A1 D2]. unfold token_key.
      rewrite (token_segments_alpha t1), (token_segments_digits t2) by assumption.
      unfold segkey_of; simpl. rewrite (Ha t1), (Hsm t2) by assumption. reflexivity. }
    destruct (all_digit t1 && all_alpha t2) eqn:E2.
    { apply andb_true_iff in E2 as [D1 A2]. unfold token_key.
      rewrite (token_segments_alpha t2), (token_segments_digits t1) by assumption.
      unfold segkey_of; simpl. rewrite (Ha t2), (Hsm t1) by assumption. reflexivity. }
    destruct (all_alpha t1 && all_alpha t2) eqn:E3.
    { apply andb_true_iff in E3 as [A1 A2]. unfold token_key.
      rewrite (token_segments_alpha t1), (token_segments_alpha t2) by assumption.
      unfold segkey_of; simpl. rewrite (Ha t1), (Ha t2) by assumption.
      unfold key_cmp. simpl. destruct (text_cmp t1 t2); reflexivity. }
    apply compare_segments_key. }
  unfold compare_token.
  destruct (parse_i64 t1) as [z1|] eqn:Z1; [|exact E].
  destruct (parse_i64 t2) as [z2|] eqn:Z2; [|exact E].
  apply parse_i64_some in Z1 as (_ & D1 & -> & _); [|assumption].
  apply parse_i64_some in Z2 as (_ & D2 & -> & _); [|assumption].
  unfold token_key. rewrite !token_segments_digits by assumption. simpl.
  unfold segkey_of. rewrite !Hsm by assumption.
  unfold key_cmp; simpl. rewrite N2Z.inj_compare. destruct (_ ?= _)%N; reflexivity.
Qed.

Definition ok_token (t : text) : Prop := word t /\ small_token t.
Lemma TPO_token : TPO ok_token compare_token.
Proof.
  apply TPO_ext with (cmp := fun x y => key_cmp (token_key x) (token_key y)).
  - intros x y [Wx Sx] [Wy Sy]. apply compare_token_key; assumption.
  - eapply TPO_weaken; [|exact (TPO_map token_key _ _ TPO_key)]. intros; exact I.
Qed.

(** ** token lists that do not end in "0" *)
Lemma no_trailing_zero_tl t l : no_trailing_zero (t :: l) -> no_trailing_zero l.
Proof. intros H l' ->. apply (H (t :: l')). reflexivity. Qed.
Lemma zeros_trailing l : l <> [] -> forallb is_zero_tok l = true -> ~ no_trailing_zero l.
Proof.
  intros Hn H Hz. destruct (exists_last Hn) as (l' & z & ->).
  rewrite forallb_app in H. apply andb_true_iff in H as [_ H]. simpl in H.
  rewrite andb_true_r in H. apply text_eqb_eq in H. subst. apply (Hz l'). reflexivity.
Qed.
Lemma compare_tokens_lex l1 : forall l2, no_trailing_zero l1 -> no_trailing_zero l2 ->
  compare_tokens l1 l2 = lex compare_token Gt l1 l2.
Proof.
  induction l1 as [|a l1 IH]; intros [|b l2] H1 H2; cbn [compare_tokens lex]; auto.
  - destruct (forallb is_zero_tok (b :: l2)) eqn:E; [|reflexivity].
    exfalso. apply (zeros_trailing (b :: l2)); [discriminate|exact E|exact H2].
  - destruct (forallb is_zero_tok (a :: l1)) eqn:E; [|reflexivity].
    exfalso. apply (zeros_trailing (a :: l1)); [discriminate|exact E|exact H1].
  - rewrite IH by (eapply no_trailing_zero_tl; eauto). reflexivity.
Qed.
Lemma compare_tokens_same_len l1 : forall l2, length l1 = length l2 ->
  compare_tokens l1 l2 = lex compare_token Gt l1 l2.
Proof.
  induction l1 as [|a l1 IH]; intros [|b l2] H; cbn [compare_tokens lex]; auto; try discriminate.
  rewrite IH by (simpl in H; lia). reflexivity.
Qed.

Lemma TPO_lex_token : TPO (Forall ok_token) (lex compare_token Gt).
Proof. apply TPO_lex; [apply TPO_token|discriminate]. Qed.

(** combination of the token comparison with the two special values *)
Lemma vcmp_le_trans (Q : version -> Prop) a b c :
  (forall x y, Q x -> Q y -> compare_tokens (v_tokens x) (v_tokens y) = lex compare_token Gt (v_tokens x) (v_tokens y)) ->
  Q a -> Q b -> Q c ->
  Forall ok_token (v_tokens a) -> Forall ok_token (v_tokens b) -> Forall ok_token (v_tokens c) ->
  vcmp a b <> Gt -> vcmp b c <> Gt -> vcmp a c <> Gt.
Proof.
  intros HQ Qa Qb Qc Oa Ob Oc. unfold vcmp.
  destruct (is_inf a), (is_inf b), (is_inf c); try congruence.
  destruct (is_empty_v a), (is_empty_v b), (is_empty_v c); try congruence.
  rewrite !HQ by assumption. apply (tpo_trans _ _ TPO_lex_token); assumption.
Qed.

Lemma parsed_tokens_word v : parsed v -> Forall word (v_tokens v).
Proof.
  intros [s H]. apply parse_version_cases in H as [[_ ->]|[[_ ->]|[[_ ->]|H]]]; try constructor.
  destruct H as (_ & _ & _ & _ & cs & (Hsh & _) & _). eapply shape_words; eauto.
Qed.

Lemma parsed_ok_tokens v : parsed v -> small_version v -> Forall ok_token (v_tokens v).
Proof.
  intros Hp Hs. apply parsed_tokens_word in Hp. unfold small_version in Hs.
  rewrite Forall_forall in *. intros t Ht. split; auto.
Qed.

Lemma trans_no_trailing_zero a b c :
  parsed a -> parsed b -> parsed c ->
  small_version a -> small_version b -> small_version c ->
  no_trailing_zero (v_tokens a) -> no_trailing_zero (v_tokens b) -> no_trailing_zero (v_tokens c) ->
  vcmp a b <> Gt -> vcmp b c <> Gt -> vcmp a c <> Gt.
Proof.
  intros Pa Pb Pc Sa Sb Sc Za Zb Zc.
  apply (vcmp_le_trans (fun v => no_trailing_zero (v_tokens v))); auto using parsed_ok_tokens.
  intros x y Hx Hy. apply compare_tokens_lex; assumption.
Qed.
Lemma trans_same_length n a b c :
  parsed a -> parsed b -> parsed c ->
  small_version a -> small_version b -> small_version c ->
  length (v_tokens a) = n -> length (v_tokens b) = n -> length (v_tokens c) = n ->
  vcmp a b <> Gt -> vcmp b c <> Gt -> vcmp a c <> Gt.
Proof.
  intros Pa Pb Pc Sa Sb Sc La Lb Lc.
  apply (vcmp_le_trans (fun v => length (v_tokens v) = n)); auto using parsed_ok_tokens.
  intros x y Hx Hy. apply compare_tokens_same_len; congruence.
Qed.

(** parsed text is the empty string exactly for the smallest version; "inf" is the largest *)
Lemma empty_least v : vcmp v_empty v <> Gt.
Proof.
  unfold vcmp. change (is_inf v_empty) with false. change (is_empty_v v_empty) with true.
  destruct (is_inf v); [discriminate|]. destruct (is_empty_v v); discriminate.
Qed.
Lemma inf_greatest v : vcmp v v_inf <> Gt.
Proof.
  unfold vcmp. change (is_inf v_inf) with true. destruct (is_inf v); discriminate.
Qed.
Lemma no_dec_version_eq (a b : version) : {a = b} + {a <> b}.
Proof. repeat decide equality. Defined.
