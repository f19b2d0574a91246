(** Proofs about base-26 names and unique links. *)
From Verif Require Import Base Base_lemmas Text_lemmas Maps Sorting Order_spec Base26_model Base26_spec.

Lemma lower_iff s : forallb is_lower s = true <-> lowercase s.
Proof. apply forallb_forall. Qed.
Lemma lower_code c : is_lower c = true <-> (97 <= code c <= 122)%N.
Proof. unfold is_lower, in_codes. rewrite andb_true_iff, !N.leb_le. tauto. Qed.
Lemma code_succ c : (code c < 255)%N -> code (ascii_of_N (code c + 1)) = (code c + 1)%N.
Proof. intros H. unfold code at 1. apply N_ascii_embedding. lia. Qed.
Lemma z_code c : Ascii.eqb c letter_z = false -> is_lower c = true -> (97 <= code c <= 121)%N.
Proof.
  intros H L. apply lower_code in L. assert (code c <> 122)%N; [|lia]. intros E.
  assert (c = letter_z) as -> by (rewrite <- (ascii_N_embedding c); change (ascii_of_N (code c) = letter_z); rewrite E; reflexivity).
  discriminate.
Qed.
(** ** the value of a name, on reversed characters *)
Fixpoint val (r : text) : N := match r with [] => 0 | c :: r' => (code c - 96) + 26 * val r' end%N.
Lemma bump_lower r : lowercase r -> lowercase (bump r).
Proof.
  induction r as [|c r IH]; intros H; cbn [bump]; [intros x [<-|[]]; reflexivity|].
  assert (is_lower c = true) as Hc by (apply H; left; reflexivity). assert (lowercase r) as Hr by (intros x Hx; apply H; right; exact Hx).
  destruct (Ascii.eqb c letter_z) eqn:E.
  - intros x [<-|Hx]; [reflexivity|]. apply (IH Hr x Hx).
  - intros x [<-|Hx]; [|apply Hr, Hx]. pose proof (z_code c E Hc). apply lower_code. rewrite code_succ by lia. lia.
Qed.
Lemma bump_val r : lowercase r -> val (bump r) = (val r + 1)%N.
Proof.
  induction r as [|c r IH]; intros H; cbn [bump]; [reflexivity|].
  assert (is_lower c = true) as Hc by (apply H; left; reflexivity). assert (lowercase r) as Hr by (intros x Hx; apply H; right; exact Hx).
  destruct (Ascii.eqb c letter_z) eqn:E; cbn [val].
  - apply Ascii.eqb_eq in E as ->. rewrite (IH Hr). change (code letter_a) with 97%N. change (code letter_z) with 122%N. lia.
  - pose proof (z_code c E Hc). rewrite code_succ by lia. lia.
Qed.
Lemma code_inj a b : code a = code b -> a = b.
Proof. intros H. rewrite <- (ascii_N_embedding a), <- (ascii_N_embedding b). unfold code in H. rewrite H. reflexivity. Qed.
Lemma val_inj r : forall r', lowercase r -> lowercase r' -> val r = val r' -> r = r'.
Proof.
  induction r as [|c r IH]; intros [|c' r'] H H' E; cbn [val] in E; [reflexivity| | |].
  - assert (is_lower c' = true) as Hc by (apply H'; left; reflexivity). apply lower_code in Hc. lia.
  - assert (is_lower c = true) as Hc by (apply H; left; reflexivity). apply lower_code in Hc. lia.
  - assert (is_lower c = true) as Hc by (apply H; left; reflexivity). assert (is_lower c' = true) as Hc' by (apply H'; left; reflexivity).
    apply lower_code in Hc. apply lower_code in Hc'. assert (code c = code c' /\ val r = val r') as [E1 E2] by lia.
    f_equal; [apply code_inj, E1|]. apply IH; [intros x Hx; apply H; right; exact Hx|intros x Hx; apply H'; right; exact Hx|exact E2].
Qed.
Lemma lowercase_rev s : lowercase s -> lowercase (rev s).
Proof. intros H x Hx. apply H. apply in_rev. exact Hx. Qed.

(** ** successor *)
Lemma next_valid s : lowercase s -> next_base26 (Some s) = Some (rev (bump (rev s))).
Proof. intros H. unfold next_base26. apply lower_iff in H. rewrite H. reflexivity. Qed.
Lemma next_invalid s : ~ lowercase s <-> next_base26 (Some s) = None.
Proof.
  unfold next_base26. destruct (forallb is_lower s) eqn:E.
  - apply lower_iff in E. split; [contradiction|discriminate].
  - split; [reflexivity|]. intros _ H. apply lower_iff in H. congruence.
Qed.
Lemma bump_nonempty r : bump r <> [].
Proof. destruct r as [|c r]; cbn [bump]; [discriminate|]. destruct (Ascii.eqb c letter_z); discriminate. Qed.
Lemma next_name s n : next_base26 s = Some n -> lowercase n /\ n <> [].
Proof.
  destruct s as [s|]; cbn [next_base26].
  - destruct (forallb is_lower s) eqn:E; [|discriminate]. intros [= <-]. apply lower_iff in E. split.
    + apply lowercase_rev, bump_lower, lowercase_rev, E.
    + intros H. apply (f_equal (@rev ascii)) in H. rewrite rev_involutive in H. apply (bump_nonempty _ H).
  - intros [= <-]. split; [intros x [<-|[]]; reflexivity|discriminate].
Qed.
Lemma bump_shape r : lowercase r -> (length (bump r) = S (length r)) \/
  exists k c q, r = repeat letter_z k ++ c :: q /\ (code c < 122)%N /\ bump r = repeat letter_a k ++ ascii_of_N (code c + 1) :: q.
Proof.
  induction r as [|c r IH]; intros H; cbn [bump]; [left; reflexivity|].
  assert (is_lower c = true) as Hc by (apply H; left; reflexivity). assert (lowercase r) as Hr by (intros x Hx; apply H; right; exact Hx).
  destruct (Ascii.eqb c letter_z) eqn:E.
  - apply Ascii.eqb_eq in E as ->. destruct (IH Hr) as [Hl|(k & d & q & -> & Hd & ->)].
    + left. cbn [length]. rewrite Hl. reflexivity.
    + right. exists (S k), d, q. split; [reflexivity|]. split; [exact Hd|reflexivity].
  - right. exists 0, c, r. split; [reflexivity|]. split; [pose proof (z_code c E Hc); lia|reflexivity].
Qed.
Lemma text_cmp_prefix p a b : text_cmp (p ++ a) (p ++ b) = text_cmp a b.
Proof. induction p as [|c p IH]; [reflexivity|]. cbn [app text_cmp]. rewrite N.compare_refl. exact IH. Qed.
Lemma next_shortlex s n : next_base26 (Some s) = Some n -> shortlex s n.
Proof.
  cbn [next_base26]. destruct (forallb is_lower s) eqn:E; [|discriminate]. intros [= <-]. apply lower_iff in E.
  destruct (bump_shape (rev s) (lowercase_rev s E)) as [Hl|(k & c & q & H1 & Hc & H2)].
  - left. rewrite rev_length, Hl, rev_length. lia.
  - right. rewrite H2. assert (s = rev (repeat letter_z k ++ c :: q)) as -> by (rewrite <- H1, rev_involutive; reflexivity). split.
    + rewrite !rev_length, !app_length, !repeat_length. reflexivity.
    + rewrite !rev_app_distr. cbn [rev]. rewrite <- !app_assoc, text_cmp_prefix. cbn [app text_cmp].
      rewrite code_succ by lia. destruct (N.compare_spec (code c) (code c + 1)); [lia|reflexivity|lia].
Qed.
Lemma lt_trans a b c : text_cmp a b = Lt -> text_cmp b c = Lt -> text_cmp a c = Lt.
Proof.
  intros H1 H2. pose proof (tpo_trans _ _ TPO_text a b c I I I) as Ht. destruct (text_cmp a c) eqn:E; [|reflexivity|destruct Ht; congruence].
  apply text_cmp_eq in E. subst c. pose proof (tpo_anti _ _ TPO_text a b I I) as Ha. rewrite H1 in Ha. cbn in Ha. congruence.
Qed.
Lemma shortlex_trans a b c : shortlex a b -> shortlex b c -> shortlex a c.
Proof.
  intros [H1|[H1 H1']] [H2|[H2 H2']]; unfold shortlex; [left; lia|left; lia|left; lia|]. right. split; [lia|]. eapply lt_trans; eauto.
Qed.
Lemma shortlex_irrefl a : ~ shortlex a a.
Proof. intros [H|[_ H]]; [lia|]. assert (text_cmp a a = Eq) by (apply text_cmp_eq; reflexivity). congruence. Qed.

(** ** the sequence *)
Lemma nth_name_val n : exists s, nth_name n = Some s /\ lowercase s /\ s <> [] /\ val (rev s) = (N.of_nat n + 1)%N.
Proof.
  induction n as [|n (s & E & L & Hne & V)].
  - exists [letter_a]. split; [reflexivity|]. split; [intros x [<-|[]]; reflexivity|]. split; [discriminate|reflexivity].
  - cbn [nth_name]. rewrite E, (next_valid s L). eexists. split; [reflexivity|].
    destruct (next_name (Some s) (rev (bump (rev s))) (next_valid s L)) as [L' Hne']. split; [exact L'|]. split; [exact Hne'|].
    rewrite rev_involutive, bump_val by (apply lowercase_rev, L). rewrite V. lia.
Qed.
Lemma nth_name_onto s : lowercase s -> s <> [] -> exists n, nth_name n = Some s.
Proof.
  intros L Hne. assert (0 < val (rev s))%N as Hv.
  { destruct (rev s) as [|c r] eqn:E; [apply (f_equal (@rev ascii)) in E; rewrite rev_involutive in E; contradiction|].
    assert (is_lower c = true) as Hc by (apply L, in_rev; rewrite E; left; reflexivity). apply lower_code in Hc. cbn [val]. lia. }
  exists (N.to_nat (val (rev s)) - 1). destruct (nth_name_val (N.to_nat (val (rev s)) - 1)) as (t & E & L' & _ & V). rewrite E. f_equal.
  assert (rev t = rev s) as H by (apply val_inj; [apply lowercase_rev, L'|apply lowercase_rev, L|rewrite V; lia]).
  rewrite <- (rev_involutive t), <- (rev_involutive s), H. reflexivity.
Qed.
Lemma nth_name_increasing i j a b : i < j -> nth_name i = Some a -> nth_name j = Some b -> shortlex a b.
Proof.
  intros H. revert b. induction H as [|j H IH]; intros b Ha Hb; cbn [nth_name] in Hb.
  - rewrite Ha in Hb. apply next_shortlex, Hb.
  - destruct (nth_name j) as [c|] eqn:E; [|discriminate]. apply (shortlex_trans a c b); [apply IH; auto|apply next_shortlex, Hb].
Qed.
Lemma nth_name_inj i j a : nth_name i = Some a -> nth_name j = Some a -> i = j.
Proof.
  intros Hi Hj. destruct (Nat.lt_trichotomy i j) as [H|[H|H]]; [|exact H|]; exfalso.
  - apply (shortlex_irrefl a), (nth_name_increasing i j); assumption.
  - apply (shortlex_irrefl a), (nth_name_increasing j i); assumption.
Qed.
Lemma next_no_between s n t : next_base26 (Some s) = Some n -> lowercase t -> ~ (shortlex s t /\ shortlex t n).
Proof.
  intros H Lt [H1 H2]. assert (lowercase s) as Ls.
  { destruct (forallb is_lower s) eqn:E; [apply lower_iff, E|]. unfold next_base26 in H. rewrite E in H. discriminate. }
  destruct (next_name _ _ H) as [Ln Hn]. assert (t <> []) as Ht.
  { intros ->. destruct H1 as [H1|[_ H1]]; [cbn in H1; lia|]. destruct s; discriminate. }
  destruct (nth_name_onto t Lt Ht) as [k Hk]. destruct (nth_name_onto n Ln Hn) as [m Hm].
  assert (forall i j a b, nth_name i = Some a -> nth_name j = Some b -> shortlex a b -> i < j) as K.
  { intros i j a b Hi Hj Hs. destruct (Nat.lt_trichotomy i j) as [?|[->|Hji]]; [assumption| |]; exfalso.
    - rewrite Hi in Hj. injection Hj as <-. apply (shortlex_irrefl a Hs).
    - apply (shortlex_irrefl a), (shortlex_trans a b a Hs), (nth_name_increasing j i); assumption. }
  pose proof (K _ _ _ _ Hk Hm H2) as Hkm. destruct s as [|c s].
  - cbn in H. injection H as <-. change (nth_name m = nth_name 0) in Hm. pose proof (nth_name_inj m 0 [letter_a] Hm eq_refl). lia.
  - destruct (nth_name_onto (c :: s) Ls) as [p Hp]; [discriminate|]. assert (nth_name (S p) = Some n) as Hsp by (cbn [nth_name]; rewrite Hp; exact H).
    pose proof (nth_name_inj _ _ _ Hsp Hm) as Em. pose proof (K _ _ _ _ Hp Hk H1). lia.
Qed.
Lemma increment_agrees s : lowercase s -> s <> [] -> increment_string s = next_base26 (Some s).
Proof. intros L Hne. rewrite (next_valid s L). destruct s; [congruence|reflexivity]. Qed.
