(** Numeric dotted versions and the compatible-release bound [~=]. *)
From Verif Require Import Base Base_lemmas Text_lemmas Version_model Version_spec Version_proofs Version_order
  Range_model Range_spec Range_proofs Range_text.

Lemma split_segments_digits s : forall cur, cur <> [] -> forallb is_digit s = true ->
  split_segments cur true s = [rev cur ++ s].
Proof.
  induction s as [|c s IH]; intros cur Hc Hd; cbn [split_segments].
  - destruct cur; [congruence|]. cbn [is_nil]. rewrite app_nil_r. reflexivity.
  - cbn [forallb] in Hd. apply andb_true_iff in Hd as [H1 H2]. rewrite H1.
    destruct cur as [|d cur]; [congruence|]. cbn [is_nil Bool.eqb]. rewrite IH by (auto; discriminate).
    simpl. rewrite <- !app_assoc. reflexivity.
Qed.
Lemma token_segments_digits s : s <> [] -> forallb is_digit s = true -> token_segments s = [s].
Proof.
  intros Hn Hd. destruct s as [|c s]; [congruence|]. unfold token_segments. cbn [split_segments is_nil].
  cbn [forallb] in Hd. apply andb_true_iff in Hd as [H1 H2]. rewrite H1. apply split_segments_digits; [discriminate|exact H2].
Qed.
Lemma digit_not_plus c : is_digit c = true -> Ascii.eqb c "+" = false /\ Ascii.eqb c "-" = false.
Proof. intros H. split; (match goal with |- Ascii.eqb c ?d = false => destruct (Ascii.eqb_spec c d) end; [subst; discriminate|reflexivity]). Qed.
Lemma parse_i64_show n : parse_i64 (show_N n) = if (n <=? I64_MAX)%N then Some (Z.of_N n) else None.
Proof.
  destruct (show_N_spec n) as (H1 & H2 & H3). unfold parse_i64.
  destruct (show_N n) as [|c s] eqn:E; [congruence|].
  assert (is_digit c = true) as Hc by (simpl in H2; apply andb_true_iff in H2 as [H2 _]; exact H2).
  destruct (digit_not_plus c Hc) as [-> ->]. cbn [is_nil negb andb]. rewrite H2, H1. reflexivity.
Qed.
Lemma digits_not_alpha s : s <> [] -> forallb is_digit s = true -> all_alpha s = false.
Proof.
  intros Hn Hd. destruct s as [|c s]; [congruence|]. cbn [forallb] in Hd. apply andb_true_iff in Hd as [H _].
  unfold all_alpha. cbn [forallb]. assert (is_alpha c || Ascii.eqb c "_" = false) as ->; [|reflexivity].
  destruct c as [[] [] [] [] [] [] [] []]; vm_compute in H |- *; congruence.
Qed.
Lemma show_N_inj a b : show_N a = show_N b -> a = b.
Proof. intros E. destruct (show_N_spec a) as (A & _). destruct (show_N_spec b) as (B & _). congruence. Qed.
Lemma compare_token_show a b : (a <= U64_MAX)%N -> (b <= U64_MAX)%N ->
  compare_token (show_N a) (show_N b) = N.compare a b.
Proof.
  intros Ha Hb. unfold compare_token. rewrite !parse_i64_show.
  destruct (show_N_spec a) as (A1 & A2 & A3). destruct (show_N_spec b) as (B1 & B2 & B3).
  assert ((if text_eqb (show_N a) (show_N b) then Eq
      else if all_alpha (show_N a) && all_digit (show_N b) then Lt
      else if all_digit (show_N a) && all_alpha (show_N b) then Gt
      else if all_alpha (show_N a) && all_alpha (show_N b) then text_cmp (show_N a) (show_N b)
      else compare_segments (token_segments (show_N a)) (token_segments (show_N b))) = N.compare a b) as X.
  { destruct (text_eqb_spec (show_N a) (show_N b)) as [E|E].
    - apply show_N_inj in E. subst. symmetry. apply N.compare_refl.
    - rewrite !digits_not_alpha by assumption. rewrite andb_false_r. cbn [andb].
      rewrite !token_segments_digits by assumption. cbn [compare_segments]. unfold compare_segment.
      rewrite !parse_u64_show by assumption. simpl. destruct (N.compare a b); reflexivity. }
  destruct (a <=? I64_MAX)%N; [|exact X]. destruct (b <=? I64_MAX)%N; [|exact X].
  apply N2Z.inj_compare.
Qed.

Lemma filter_le_length {A} (f : A -> bool) l : length (filter f l) <= length l.
Proof. induction l as [|x l IH]; simpl; [lia|]. destruct (f x); simpl; lia. Qed.
Lemma show_word n : word (show_N n).
Proof.
  destruct (show_N_spec n) as (_ & H2 & H3). apply word_iff. split; [exact H3|].
  rewrite forallb_forall in *. intros c Hc. apply H2 in Hc. unfold is_token_char, is_alnum. rewrite Hc, orb_true_r. reflexivity.
Qed.
Lemma show_digit_ends n : (exists c r, show_N n = c :: r /\ is_digit c = true) /\
  (exists c r, rev (show_N n) = c :: r /\ is_digit c = true).
Proof.
  destruct (show_N_spec n) as (_ & H2 & H3). split.
  - destruct (show_N n) as [|c s]; [congruence|]. exists c, s. split; [reflexivity|].
    simpl in H2. apply andb_true_iff in H2 as [H2 _]. exact H2.
  - rewrite <- forallb_rev in H2. destruct (rev (show_N n)) as [|c s] eqn:E.
    + apply (f_equal (@rev ascii)) in E. rewrite rev_involutive in E. destruct (H3 E).
    + exists c, s. split; [reflexivity|]. simpl in H2. apply andb_true_iff in H2 as [H2 _]. exact H2.
Qed.
Lemma show_good n : good_word (show_N n).
Proof.
  destruct (show_digit_ends n) as [(c & r & E & Hc) (d & q & E2 & Hd)].
  split; [rewrite E; intros [= ->]; discriminate|]. split; [rewrite E2; intros [= ->]; discriminate|].
  split; [rewrite E; intros [= -> ?]; discriminate|]. split; [rewrite E; intros [= -> ?]; discriminate|].
  rewrite E. intros [H _]. inversion H as [|x y Hx Hy]; subst. clear - Hc Hx.
  assert (is_lower c = false /\ is_upper c = false) as [A B]; [|destruct Hx; congruence].
  clear Hx. destruct c as [[] [] [] [] [] [] [] []]; vm_compute in Hc |- *; split; congruence.
Qed.
Lemma dotted_shape n l : exists cs, shape (dotted (n :: l)) (map show_N (n :: l)) cs.
Proof.
  revert n. induction l as [|m l IH]; intros n.
  - exists []. constructor. apply show_word.
  - destruct (IH m) as (cs & H). exists ("."%char :: cs). unfold dotted. cbn [map join].
    cbn [T list_ascii_of_string app]. constructor; [apply show_word|left; reflexivity|exact H].
Qed.
Lemma dotted_head n l : exists c r, dotted (n :: l) = c :: r /\ is_digit c = true.
Proof.
  destruct (show_digit_ends n) as [(c & r & E & Hc) _]. unfold dotted. cbn [map join]. rewrite E.
  destruct (map show_N l); [eauto|]. cbn [app]. eauto.
Qed.
Lemma parse_dotted n l : length l <= 4 ->
  exists v, parse_version (dotted (n :: l)) = Some v /\ v_tokens v = map show_N (n :: l) /\ v_str v = dotted (n :: l).
Proof.
  intros Hl. destruct (dotted_shape n l) as (cs & Hs). destruct (dotted_head n l) as (c & r & E & Hc).
  assert (trim (dotted (n :: l)) = dotted (n :: l)) as Ht by (apply vtext_trim; eapply shape_vchar; eauto).
  exists (mkVersion (map show_N (n :: l)) (map single cs) (dotted (n :: l))). split; [|split; reflexivity].
  rewrite <- Ht at 2. apply parse_version_result; rewrite Ht.
  - rewrite E. intros [H|[H|H]]; try discriminate; injection H as -> ->; discriminate.
  - split; [exact Hs|]. rewrite E. split; [intros [= ->]; discriminate|]. split; [intros [= ->]; discriminate|].
    split; [rewrite map_length; simpl; lia|]. split.
    + exists (length (filter all_digit (map show_N (n :: l)))). split; [apply count_digit_words_filter|].
      etransitivity; [apply filter_le_length|]. rewrite map_length. simpl. lia.
    + apply Forall_forall. intros t Ht'. apply in_map_iff in Ht' as (x & <- & _). apply show_good.
Qed.
Lemma dotted_not_special l v : parse_version (dotted l) = Some v -> v_tokens v = map show_N l -> l <> [] ->
  is_inf v = false /\ is_empty_v v = false.
Proof.
  intros Hp Ht Hl. destruct l as [|n l]; [congruence|]. split.
  - destruct (is_inf v) eqn:E; [|reflexivity]. unfold is_inf in E. apply text_eqb_eq in E.
    pose proof (parse_version_roundtrip _ _ Hp) as H. rewrite E in H. vm_compute in H. injection H as <-. discriminate.
  - unfold is_empty_v. rewrite Ht. reflexivity.
Qed.
Lemma vcmp_dotted l1 l2 a b : l1 <> [] -> l2 <> [] ->
  parse_version (dotted l1) = Some a -> v_tokens a = map show_N l1 ->
  parse_version (dotted l2) = Some b -> v_tokens b = map show_N l2 ->
  vcmp a b = compare_tokens (map show_N l1) (map show_N l2).
Proof.
  intros N1 N2 P1 T1 P2 T2. destruct (dotted_not_special l1 a) as [I1 E1]; auto. destruct (dotted_not_special l2 b) as [I2 E2]; auto.
  unfold vcmp. rewrite I1, I2, E1, E2, T1, T2. reflexivity.
Qed.
Lemma dotted_no_dot n : ~ In "."%char (show_N n).
Proof.
  destruct (show_N_spec n) as (_ & H2 & _). rewrite forallb_forall in H2. intros H. apply H2 in H. discriminate.
Qed.
Lemma split_dotted n l : split_on "." (dotted (n :: l)) = map show_N (n :: l).
Proof.
  unfold dotted. apply split_join; [discriminate|]. apply Forall_forall. intros t Ht. apply in_map_iff in Ht as (x & <- & _).
  apply dotted_no_dot.
Qed.

Lemma parsed_dotted l v : parse_version (dotted l) = Some v -> parsed v.
Proof. intros H. exists (dotted l). exact H. Qed.
Lemma u64_succ_lt a : (a < U64_MAX)%N -> u64_succ a = (a + 1)%N.
Proof. intros H. unfold u64_succ. apply N.mod_small. lia. Qed.

Lemma compat_gen l up lo : l <> [] -> length l <= 5 ->
  parse_version (dotted l) = Some lo -> compat_upper_text lo = Some (dotted up) ->
  exists r, parse_range (T "~=" ++ dotted l) = Some r /\
    forall u, parse_version (dotted up) = Some u -> forall v,
      contains r v = true <-> vcmp v lo <> Lt /\ vcmp v u = Lt.
Proof.
  intros Hn Hl Hlo Hup. destruct l as [|n l]; [congruence|].
  destruct (parse_dotted n l) as (lo' & P & Ht & Hs); [simpl in Hl; lia|].
  assert (lo' = lo) by congruence. subst lo'.
  destruct (range_op (T "~=") lo) as (r & Hr & Hc); [unfold op_text; tauto|eapply parsed_dotted; eauto|].
  rewrite Hs in Hr. exists r. split; [exact Hr|]. intros u Hu v. rewrite Hc.
  change (op_bound (T "~=") lo) with (BCompat lo). cbn [bound_matches]. rewrite Hup, Hu.
  unfold v_lt, is_lt. destruct (vcmp v lo); destruct (vcmp v u); (split; [intros X; try discriminate X; split; congruence|intros [A B]; congruence]).
Qed.

Lemma compat_two a b lo : (a < U64_MAX)%N -> parse_version (dotted [a; b]) = Some lo ->
  exists r, parse_range (T "~=" ++ dotted [a; b]) = Some r /\
    forall u, parse_version (dotted [(a + 1)%N; 0%N]) = Some u -> forall v,
      contains r v = true <-> vcmp v lo <> Lt /\ vcmp v u = Lt.
Proof.
  intros Ha Hlo. apply compat_gen; [discriminate|simpl; lia|exact Hlo|].
  destruct (parse_dotted a [b]) as (lo' & P & Ht & Hs); [simpl; lia|]. assert (lo' = lo) by congruence. subst lo'.
  unfold compat_upper_text. rewrite Hs, split_dotted. cbn [map]. rewrite parse_u64_show by lia.
  rewrite u64_succ_lt by exact Ha. reflexivity.
Qed.
Lemma compat_three a b c l lo : (b < U64_MAX)%N -> length l <= 2 -> parse_version (dotted (a :: b :: c :: l)) = Some lo ->
  exists r, parse_range (T "~=" ++ dotted (a :: b :: c :: l)) = Some r /\
    forall u, parse_version (dotted [a; (b + 1)%N; 0%N]) = Some u -> forall v,
      contains r v = true <-> vcmp v lo <> Lt /\ vcmp v u = Lt.
Proof.
  intros Hb Hl Hlo. apply compat_gen; [discriminate|simpl; lia|exact Hlo|].
  destruct (parse_dotted a (b :: c :: l)) as (lo' & P & Ht & Hs); [simpl; lia|]. assert (lo' = lo) by congruence. subst lo'.
  unfold compat_upper_text. rewrite Hs, split_dotted. cbn [map]. rewrite parse_u64_show by lia.
  rewrite u64_succ_lt by exact Hb. unfold dotted. cbn [map join]. reflexivity.
Qed.

Lemma N_compare_succ a : N.compare a (a + 1) = Lt.
Proof. apply N.compare_lt_iff. lia. Qed.
Lemma compat_self_two a b lo u : (a < U64_MAX)%N -> parse_version (dotted [a; b]) = Some lo ->
  parse_version (dotted [(a + 1)%N; 0%N]) = Some u -> vcmp lo u = Lt.
Proof.
  intros Ha Hlo Hu. destruct (parse_dotted a [b]) as (lo' & P & Ht & Hs); [simpl; lia|]. assert (lo' = lo) by congruence. subst lo'.
  destruct (parse_dotted (a+1) [0%N]) as (u' & P' & Ht' & Hs'); [simpl; lia|]. assert (u' = u) by congruence. subst u'.
  rewrite (vcmp_dotted [a; b] [(a+1)%N; 0%N]) by (auto; discriminate). cbn [map compare_tokens].
  rewrite compare_token_show by lia. rewrite N_compare_succ. reflexivity.
Qed.
Lemma compat_self_three a b c l lo u : (b < U64_MAX)%N -> length l <= 2 ->
  parse_version (dotted (a :: b :: c :: l)) = Some lo ->
  parse_version (dotted [a; (b + 1)%N; 0%N]) = Some u -> vcmp lo u = Lt.
Proof.
  intros Hb Hl Hlo Hu. destruct (parse_dotted a (b :: c :: l)) as (lo' & P & Ht & Hs); [simpl; lia|]. assert (lo' = lo) by congruence. subst lo'.
  destruct (parse_dotted a [(b+1)%N; 0%N]) as (u' & P' & Ht' & Hs'); [simpl; lia|]. assert (u' = u) by congruence. subst u'.
  rewrite (vcmp_dotted (a :: b :: c :: l) [a; (b+1)%N; 0%N]) by (auto; discriminate). cbn [map compare_tokens].
  rewrite compare_token_refl. rewrite compare_token_show by lia. rewrite N_compare_succ. reflexivity.
Qed.
Lemma compat_contains_base_two a b lo : (a < U64_MAX)%N -> parse_version (dotted [a; b]) = Some lo ->
  exists r, parse_range (T "~=" ++ dotted [a; b]) = Some r /\ contains r lo = true.
Proof.
  intros Ha Hlo. destruct (compat_two a b lo Ha Hlo) as (r & Hr & H). exists r. split; [exact Hr|].
  destruct (parse_dotted (a+1) [0%N]) as (u & P & _); [simpl; lia|]. apply (H u P). split; [rewrite vcmp_refl; discriminate|].
  eapply compat_self_two; eauto.
Qed.
Lemma compat_contains_base_three a b c l lo : (b < U64_MAX)%N -> length l <= 2 ->
  parse_version (dotted (a :: b :: c :: l)) = Some lo ->
  exists r, parse_range (T "~=" ++ dotted (a :: b :: c :: l)) = Some r /\ contains r lo = true.
Proof.
  intros Hb Hl Hlo. destruct (compat_three a b c l lo Hb Hl Hlo) as (r & Hr & H). exists r. split; [exact Hr|].
  destruct (parse_dotted a [(b+1)%N; 0%N]) as (u & P & _); [simpl; lia|]. apply (H u P). split; [rewrite vcmp_refl; discriminate|].
  eapply compat_self_three; eauto.
Qed.
