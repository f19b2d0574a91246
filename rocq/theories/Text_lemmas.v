(** More lemmas on text: trimming, splitting, decimal printing. *)
From Verif Require Import Base Base_lemmas.

Lemma trim_start_app_vis x y : forallb is_ws x = false -> trim_start (x ++ y) = trim_start x ++ y.
Proof.
  induction x as [|c x IH]; simpl; [discriminate|]. destruct (is_ws c); simpl; auto.
Qed.
Lemma trim_start_all_ws x : forallb is_ws x = true -> trim_start x = [].
Proof. induction x as [|c x IH]; simpl; auto. destruct (is_ws c); simpl; [auto|discriminate]. Qed.
Lemma forallb_rev {A} (f : A -> bool) l : forallb f (rev l) = forallb f l.
Proof.
  apply eq_true_iff_eq. rewrite !forallb_forall. split; intros H x Hx; apply H; [apply -> in_rev|apply in_rev]; auto.
Qed.
Lemma trim_cons_ws c x : is_ws c = true -> trim (c :: x) = trim x.
Proof. intros H. unfold trim. simpl. rewrite H. reflexivity. Qed.
Lemma trim_snoc_ws c x : is_ws c = true -> trim (x ++ [c]) = trim x.
Proof.
  intros H. unfold trim, trim_end. destruct (forallb is_ws x) eqn:E.
  - rewrite trim_start_app_ws by exact E. rewrite (trim_start_all_ws x E). simpl. rewrite H. reflexivity.
  - rewrite trim_start_app_vis by exact E. rewrite rev_app_distr. simpl. rewrite H. reflexivity.
Qed.
Lemma trim_app_ws_l u x : forallb is_ws u = true -> trim (u ++ x) = trim x.
Proof. intros H. unfold trim. rewrite trim_start_app_ws by exact H. reflexivity. Qed.
Lemma trim_app_ws_r x u : forallb is_ws u = true -> trim (x ++ u) = trim x.
Proof.
  induction u as [|c u IH] using rev_ind; intros H; [rewrite app_nil_r; reflexivity|].
  rewrite forallb_app in H. apply andb_true_iff in H as [H1 H2]. simpl in H2. rewrite andb_true_r in H2.
  rewrite app_assoc, trim_snoc_ws by exact H2. auto.
Qed.
Lemma trim_split s : exists u v, forallb is_ws u = true /\ forallb is_ws v = true /\ s = u ++ trim s ++ v.
Proof.
  destruct (trim_start_spec s) as (u & Hu & E). unfold trim, trim_end.
  destruct (trim_start_spec (rev (trim_start s))) as (w & Hw & E2).
  exists u, (rev w). split; [exact Hu|]. split; [rewrite forallb_rev; exact Hw|].
  rewrite <- rev_app_distr, <- E2, rev_involutive. exact E.
Qed.
Lemma trim_no_ws s : forallb (fun c => negb (is_ws c)) s = true -> trim s = s.
Proof.
  intros H. apply trim_fixed_ends. split.
  - destruct s as [|c s]; [exact I|]. simpl in H. apply andb_true_iff in H as [H _]. apply negb_true_iff, H.
  - assert (forallb (fun c => negb (is_ws c)) (rev s) = true) as H' by (rewrite forallb_rev; exact H).
    destruct (rev s) as [|c r]; [exact I|]. simpl in H'. apply andb_true_iff in H' as [H' _]. apply negb_true_iff, H'.
Qed.
(** the two outer characters are visible *)
Lemma trim_ends c s d : is_ws c = false -> is_ws d = false -> trim (c :: s ++ [d]) = c :: s ++ [d].
Proof.
  intros Hc Hd. apply trim_fixed_ends. split; [exact Hc|]. simpl. rewrite rev_app_distr. simpl. exact Hd.
Qed.

Lemma split_on_cons sep s : exists p ps, split_on sep s = p :: ps.
Proof. destruct (split_on sep s) eqn:E; [destruct (split_on_nonnil sep s E)|]. eauto. Qed.

Lemma map_trim_split_cons sep c s : is_ws c = true -> is_ws sep = false ->
  map trim (split_on sep (c :: s)) = map trim (split_on sep s).
Proof.
  intros Hc Hsep. simpl. destruct (Ascii.eqb_spec c sep); [congruence|].
  destruct (split_on_cons sep s) as (p & ps & ->). simpl. rewrite trim_cons_ws by exact Hc. reflexivity.
Qed.
Lemma first_sep (sep : ascii) (s : text) : ~ In sep s \/ exists p q, ~ In sep p /\ s = p ++ sep :: q.
Proof.
  induction s as [|x s IH]; [left; intros []|].
  destruct (Ascii.ascii_dec x sep) as [->|Hx].
  - right. exists [], s. split; [intros []|reflexivity].
  - destruct IH as [H|(p & q & Hp & ->)].
    + left. intros [E|E]; auto.
    + right. exists (x :: p), q. split; [intros [E|E]; auto|reflexivity].
Qed.
Lemma map_trim_split_snoc sep c s : is_ws c = true -> is_ws sep = false ->
  map trim (split_on sep (s ++ [c])) = map trim (split_on sep s).
Proof.
  intros Hc Hsep. remember (length s) as n eqn:Hn. revert s Hn.
  induction n as [n IH] using lt_wf_ind. intros s Hn.
  destruct (first_sep sep s) as [Hs|(p & q & Hp & ->)].
  - rewrite !split_on_none; auto.
    + simpl. rewrite trim_snoc_ws by exact Hc. reflexivity.
    + intros H. apply in_app_or in H as [H|[H|[]]]; [auto|congruence].
  - rewrite <- app_assoc. simpl. rewrite !split_on_app by exact Hp. simpl. f_equal.
    apply (IH (length q)); [|reflexivity]. subst n. rewrite app_length. simpl. lia.
Qed.
Lemma map_trim_split sep s : is_ws sep = false -> map trim (split_on sep (trim s)) = map trim (split_on sep s).
Proof.
  intros Hsep. destruct (trim_split s) as (u & v & Hu & Hv & E). rewrite E at 2. clear E.
  induction u as [|c u IH]; simpl app.
  - clear Hu. induction v as [|c v IH] using rev_ind; [rewrite app_nil_r; reflexivity|].
    rewrite forallb_app in Hv. apply andb_true_iff in Hv as [H1 H2]. simpl in H2. rewrite andb_true_r in H2.
    rewrite app_assoc, map_trim_split_snoc by auto. auto.
  - simpl in Hu. apply andb_true_iff in Hu as [Hc Hu]. rewrite map_trim_split_cons by auto. auto.
Qed.
Lemma split_on_app_gen sep a b : split_on sep (a ++ sep :: b) = split_on sep a ++ split_on sep b.
Proof.
  remember (length a) as n eqn:Hn. revert a Hn. induction n as [n IH] using lt_wf_ind. intros a Hn.
  destruct (first_sep sep a) as [Hs|(p & q & Hp & ->)].
  - rewrite split_on_app, (split_on_none sep a) by exact Hs. reflexivity.
  - rewrite <- app_assoc. cbn [app]. rewrite (split_on_app sep p (q ++ sep :: b)) by exact Hp.
    rewrite (split_on_app sep p q) by exact Hp. cbn [app]. f_equal.
    apply (IH (length q)); [|reflexivity]. subst n. rewrite app_length. simpl. lia.
Qed.

(** ** substrings *)
Lemma contains_text_sub p u s v : contains_text p s = true -> contains_text p (u ++ s ++ v) = true.
Proof.
  rewrite !contains_text_spec. intros (a & b & ->). exists (u ++ a), (b ++ v). rewrite <- !app_assoc. reflexivity.
Qed.
Lemma contains_text_false_spec p s : contains_text p s = false <-> forall a b, s <> a ++ p ++ b.
Proof.
  split.
  - intros H a b E. assert (contains_text p s = true) as X by (apply contains_text_spec; eauto). congruence.
  - intros H. destruct (contains_text p s) eqn:E; [|reflexivity]. apply contains_text_spec in E as (a & b & E).
    destruct (H a b E).
Qed.

(** ** decimal printing *)
Lemma digit_char_digit n : (n < 10)%N -> is_digit (digit_char n) = true /\ digit_val (digit_char n) = n.
Proof.
  intros H. assert (n = 0 \/ n = 1 \/ n = 2 \/ n = 3 \/ n = 4 \/ n = 5 \/ n = 6 \/ n = 7 \/ n = 8 \/ n = 9)%N as E by lia.
  repeat (destruct E as [->|E]; [split; reflexivity|]). subst. split; reflexivity.
Qed.
Lemma show_N_fuel_app f : forall n acc, show_N_fuel f n acc = show_N_fuel f n [] ++ acc.
Proof.
  induction f as [|f IH]; intros n acc; [reflexivity|]. cbn [show_N_fuel].
  destruct (n / 10 =? 0)%N; [reflexivity|]. rewrite (IH _ (_ :: acc)), (IH _ [_]), <- app_assoc. reflexivity.
Qed.
Lemma digits_val_snoc a c : digits_val (a ++ [c]) = (digits_val a * 10 + digit_val c)%N.
Proof. apply digits_val_app. Qed.
Lemma show_N_fuel_val f : forall n, (n < 2 ^ N.of_nat f)%N -> f <> 0 ->
  digits_val (show_N_fuel f n []) = n /\ forallb is_digit (show_N_fuel f n []) = true /\ show_N_fuel f n [] <> [].
Proof.
  induction f as [|f IH]; intros n Hn Hf; [congruence|]. cbn [show_N_fuel].
  assert (n mod 10 < 10)%N as Hm by (apply N.mod_lt; lia).
  destruct (digit_char_digit _ Hm) as [Hd Hv].
  destruct (N.eqb_spec (n / 10) 0) as [E|E].
  - split; [|split; [simpl; rewrite Hd; reflexivity|discriminate]].
    unfold digits_val. simpl. rewrite Hv. pose proof (N.div_mod n 10). lia.
  - rewrite show_N_fuel_app. rewrite Nnat.Nat2N.inj_succ, N.pow_succ_r' in Hn.
    assert (n / 10 < 2 ^ N.of_nat f)%N as Hlt.
    { apply N.div_lt_upper_bound; [lia|]. lia. }
    destruct f as [|f].
    { simpl in Hlt. exfalso. apply E. change (2 ^ 0)%N with 1%N in Hlt. lia. }
    destruct (IH (n / 10)%N Hlt) as (I1 & I2 & I3); [discriminate|].
    rewrite digits_val_snoc, I1, Hv. split; [pose proof (N.div_mod n 10); lia|]. split.
    + rewrite forallb_app, I2. simpl. rewrite Hd. reflexivity.
    + destruct (show_N_fuel (S f) (n / 10) []); [congruence|discriminate].
Qed.
Lemma show_N_spec n : digits_val (show_N n) = n /\ forallb is_digit (show_N n) = true /\ show_N n <> [].
Proof.
  apply show_N_fuel_val; [|discriminate]. rewrite Nnat.Nat2N.inj_succ, Nnat.N2Nat.id, N.pow_succ_r'.
  pose proof (N.size_gt n). lia.
Qed.
Lemma parse_u64_show n : (n <= U64_MAX)%N -> parse_u64 (show_N n) = Some n.
Proof.
  intros Hn. destruct (show_N_spec n) as (H1 & H2 & H3). unfold parse_u64.
  destruct (show_N n) as [|c s] eqn:E; [congruence|].
  assert (Ascii.eqb c "+" = false) as ->.
  { simpl in H2. apply andb_true_iff in H2 as [H2 _]. destruct (Ascii.eqb_spec c "+"); [subst; discriminate|reflexivity]. }
  cbn [is_nil negb andb]. rewrite H2, H1. destruct (N.leb_spec n U64_MAX); [reflexivity|lia].
Qed.
