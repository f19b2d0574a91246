(** Lemmas about the shared vocabulary. *)
From Verif Require Import Base.
From Coq Require Import ZifyBool ZifyNat ZifyN.

Lemma text_eqb_eq a b : text_eqb a b = true <-> a = b.
Proof.
  revert b; induction a as [|x a IH]; intros [|y b]; simpl; split; intros H; try congruence.
  - apply andb_true_iff in H as [H1 H2]. apply Ascii.eqb_eq in H1. apply IH in H2. congruence.
  - injection H as -> ->. rewrite Ascii.eqb_refl. apply IH; reflexivity.
Qed.
Lemma text_eqb_refl a : text_eqb a a = true.
Proof. apply text_eqb_eq; reflexivity. Qed.
Lemma text_eqb_neq a b : text_eqb a b = false <-> a <> b.
Proof.
  split; intros H.
  - intros ->. rewrite text_eqb_refl in H. discriminate.
  - destruct (text_eqb a b) eqn:E; [|reflexivity]. apply text_eqb_eq in E. contradiction.
Qed.
Lemma text_eqb_sym a b : text_eqb a b = text_eqb b a.
Proof.
  destruct (text_eqb a b) eqn:E; symmetry.
  - apply text_eqb_eq in E. subst. apply text_eqb_refl.
  - apply text_eqb_neq. apply text_eqb_neq in E. congruence.
Qed.
Lemma text_eqb_spec a b : reflect (a = b) (text_eqb a b).
Proof.
  destruct (text_eqb a b) eqn:E; constructor.
  - apply text_eqb_eq; exact E.
  - apply text_eqb_neq; exact E.
Qed.
Lemma text_eq_dec (a b : text) : {a = b} + {a <> b}.
Proof. apply (list_eq_dec ascii_dec). Qed.

Lemma code_inj a b : code a = code b -> a = b.
Proof.
  unfold code. intros H.
  rewrite <- (ascii_N_embedding a), <- (ascii_N_embedding b), H. reflexivity.
Qed.
Lemma code_lt_256 a : (code a < 256)%N.
Proof. unfold code. apply N_ascii_bounded. Qed.

Lemma mem_text_In x l : mem_text x l = true <-> In x l.
Proof.
  unfold mem_text. rewrite existsb_exists. split.
  - intros (y & Hy & E). apply text_eqb_eq in E. subst. exact Hy.
  - intros H. exists x. split; [exact H|apply text_eqb_refl].
Qed.

(** ** Comparison functions that are total preorders *)
Record TPO {A} (P : A -> Prop) (cmp : A -> A -> comparison) : Prop := {
  tpo_refl : forall x, P x -> cmp x x = Eq;
  tpo_anti : forall x y, P x -> P y -> cmp y x = CompOpp (cmp x y);
  tpo_trans : forall x y z, P x -> P y -> P z ->
      cmp x y <> Gt -> cmp y z <> Gt -> cmp x z <> Gt
}.

Section TPOFacts.
  Context {A : Type} {P : A -> Prop} {cmp : A -> A -> comparison}.
  Hypothesis H : TPO P cmp.
  Lemma tpo_eq_trans x y z : P x -> P y -> P z -> cmp x y = Eq -> cmp y z = Eq -> cmp x z = Eq.
  Proof.
    intros Hx Hy Hz E1 E2.
    assert (cmp x z <> Gt) as N1 by (apply (tpo_trans _ _ H x y z); congruence).
    assert (cmp z x <> Gt) as N2.
    { apply (tpo_trans _ _ H z y x); auto; rewrite (tpo_anti _ _ H) by assumption.
      - rewrite E2; discriminate.
      - rewrite E1; discriminate. }
    rewrite (tpo_anti _ _ H) in N2 by assumption.
    destruct (cmp x z); simpl in *; congruence.
  Qed.
  Lemma tpo_lt_le_trans x y z : P x -> P y -> P z -> cmp x y = Lt -> cmp y z <> Gt -> cmp x z = Lt.
  Proof.
    intros Hx Hy Hz E1 E2.
    assert (cmp x z <> Gt) as N1 by (apply (tpo_trans _ _ H x y z); congruence).
    destruct (cmp x z) eqn:E; try congruence.
    exfalso. assert (cmp y x <> Gt) as N2.
    { apply (tpo_trans _ _ H y z x); auto. rewrite (tpo_anti _ _ H) by assumption.
      rewrite E; discriminate. }
    rewrite (tpo_anti _ _ H) in N2 by assumption. rewrite E1 in N2. simpl in N2. congruence.
  Qed.
  Lemma tpo_le_lt_trans x y z : P x -> P y -> P z -> cmp x y <> Gt -> cmp y z = Lt -> cmp x z = Lt.
  Proof.
    intros Hx Hy Hz E1 E2.
    assert (cmp x z <> Gt) as N1 by (apply (tpo_trans _ _ H x y z); congruence).
    destruct (cmp x z) eqn:E; try congruence.
    exfalso. assert (cmp z y <> Gt) as N2.
    { apply (tpo_trans _ _ H z x y); auto. rewrite (tpo_anti _ _ H) by assumption.
      rewrite E; discriminate. }
    rewrite (tpo_anti _ _ H) in N2 by assumption. rewrite E2 in N2. simpl in N2. congruence.
  Qed.
  Lemma tpo_eq_l x y z : P x -> P y -> P z -> cmp x y = Eq -> cmp x z = cmp y z.
  Proof.
    intros Hx Hy Hz E.
    destruct (cmp y z) eqn:E2.
    - apply (tpo_eq_trans x y z); auto.
    - apply (tpo_le_lt_trans x y z); auto. congruence.
    - assert (cmp z y = Lt) as E3 by (rewrite (tpo_anti _ _ H) by assumption; rewrite E2; reflexivity).
      assert (cmp z x = Lt) as E4.
      { apply (tpo_lt_le_trans z y x); auto.
        rewrite (tpo_anti _ _ H) by assumption. rewrite E; discriminate. }
      rewrite (tpo_anti _ _ H z x) by assumption. rewrite E4. reflexivity.
  Qed.
End TPOFacts.

Lemma TPO_N : TPO (fun _ => True) N.compare.
Proof.
  constructor.
  - intros; apply N.compare_refl.
  - intros; rewrite N.compare_antisym; reflexivity.
  - intros x y z _ _ _ H1 H2. rewrite N.compare_le_iff in *. lia.
Qed.
Lemma TPO_nat : TPO (fun _ => True) Nat.compare.
Proof.
  constructor.
  - intros; apply Nat.compare_refl.
  - intros; rewrite Nat.compare_antisym; reflexivity.
  - intros x y z _ _ _ H1 H2. rewrite Nat.compare_le_iff in *. lia.
Qed.
Lemma TPO_Z : TPO (fun _ => True) Z.compare.
Proof.
  constructor.
  - intros; apply Z.compare_refl.
  - intros; rewrite Z.compare_antisym; reflexivity.
  - intros x y z _ _ _ H1 H2. rewrite Z.compare_le_iff in *. lia.
Qed.

(** lexicographic order; [e] is the verdict when the left list is a proper prefix *)
Section Lex.
  Context {A : Type} (cmp : A -> A -> comparison) (e : comparison).
  Fixpoint lex (l1 l2 : list A) : comparison :=
    match l1, l2 with
    | [], [] => Eq
    | [], _ :: _ => e
    | _ :: _, [] => CompOpp e
    | x :: l1', y :: l2' => match cmp x y with Eq => lex l1' l2' | r => r end
    end.
End Lex.

Lemma TPO_lex {A} (P : A -> Prop) cmp e :
  TPO P cmp -> e <> Eq -> TPO (Forall P) (lex cmp e).
Proof.
  intros H He. constructor.
  - intros l; induction l as [|x l IH]; intros Hl; simpl; [reflexivity|].
    inversion Hl; subst. rewrite (tpo_refl _ _ H) by assumption. auto.
  - intros l1; induction l1 as [|x l1 IH]; intros [|y l2] H1 H2; simpl; try reflexivity.
    + rewrite CompOpp_involutive. reflexivity.
    + inversion H1; subst. inversion H2; subst.
      rewrite (tpo_anti _ _ H x y) by assumption.
      destruct (cmp x y); simpl; auto.
  - intros l1; induction l1 as [|x l1 IH]; intros [|y l2] [|z l3] H1 H2 H3 C1 C2; simpl in *;
      try congruence; try (destruct e; simpl in *; congruence).
    + inversion H2; subst. inversion H3; subst. inversion H1; subst.
      destruct (cmp x y) eqn:Exy.
      * assert (cmp x z = cmp y z) as -> by (apply (tpo_eq_l H); auto).
        destruct (cmp y z); try congruence. apply (IH l2 l3); auto.
      * assert (cmp x z = Lt) as ->.
        { apply (tpo_lt_le_trans H x y z); auto. destruct (cmp y z); congruence. }
        discriminate.
      * congruence.
Qed.

Lemma TPO_map {A B} (f : A -> B) (P : B -> Prop) cmp :
  TPO P cmp -> TPO (fun x => P (f x)) (fun x y => cmp (f x) (f y)).
Proof.
  intros H; constructor; intros.
  - apply (tpo_refl _ _ H); assumption.
  - apply (tpo_anti _ _ H); assumption.
  - eapply (tpo_trans _ _ H) with (y := f y); eauto.
Qed.
Lemma TPO_weaken {A} (P Q : A -> Prop) cmp :
  (forall x, Q x -> P x) -> TPO P cmp -> TPO Q cmp.
Proof.
  intros HQ H; constructor; intros.
  - apply (tpo_refl _ _ H); auto.
  - apply (tpo_anti _ _ H); auto.
  - eapply (tpo_trans _ _ H) with (y := y); eauto.
Qed.
Lemma TPO_ext {A} (P : A -> Prop) cmp cmp' :
  (forall x y, P x -> P y -> cmp' x y = cmp x y) -> TPO P cmp -> TPO P cmp'.
Proof.
  intros E H; constructor; intros.
  - rewrite E by assumption. apply (tpo_refl _ _ H); auto.
  - rewrite !E by assumption. apply (tpo_anti _ _ H); auto.
  - rewrite E in * by assumption. eapply (tpo_trans _ _ H) with (y := y); eauto.
Qed.

Lemma text_cmp_lex a b : text_cmp a b = lex (fun x y => N.compare (code x) (code y)) Lt a b.
Proof.
  revert b; induction a as [|x a IH]; intros [|y b]; cbn [text_cmp lex]; try reflexivity.
Qed.
Lemma TPO_text : TPO (fun _ => True) text_cmp.
Proof.
  apply TPO_ext with (cmp := lex (fun x y => N.compare (code x) (code y)) Lt).
  { intros; apply text_cmp_lex. }
  apply TPO_weaken with (P := Forall (fun _ => True)).
  { intros x _. induction x; constructor; auto. }
  apply TPO_lex; [|discriminate]. exact (TPO_map code _ _ TPO_N).
Qed.
Lemma text_cmp_eq a b : text_cmp a b = Eq <-> a = b.
Proof.
  split.
  - revert b; induction a as [|x a IH]; intros [|y b] H; simpl in *; try congruence.
    destruct (N.compare (code x) (code y)) eqn:E; try discriminate.
    apply N.compare_eq in E. apply code_inj in E. f_equal; auto.
  - intros ->. apply (tpo_refl _ _ TPO_text); exact I.
Qed.

(** ** trim *)
Lemma trim_start_app_ws u s : forallb is_ws u = true -> trim_start (u ++ s) = trim_start s.
Proof.
  induction u as [|c u IH]; simpl; intros H; [reflexivity|].
  apply andb_true_iff in H as [-> H]. auto.
Qed.
Lemma trim_start_spec s : exists u, forallb is_ws u = true /\ s = u ++ trim_start s.
Proof.
  induction s as [|c s (u & Hu & E)]; simpl.
  - exists []; split; reflexivity.
  - destruct (is_ws c) eqn:Ec.
    + exists (c :: u). simpl. rewrite Ec, Hu. split; [reflexivity|]. congruence.
    + exists []. split; reflexivity.
Qed.
Lemma trim_start_head s c r : trim_start s = c :: r -> is_ws c = false.
Proof.
  induction s as [|d s IH]; simpl; [discriminate|].
  destruct (is_ws d) eqn:Ed; auto. intros H; injection H as -> ->. exact Ed.
Qed.
Lemma trim_start_idem s : trim_start (trim_start s) = trim_start s.
Proof.
  destruct (trim_start s) as [|c r] eqn:E; [reflexivity|].
  simpl. rewrite (trim_start_head _ _ _ E). reflexivity.
Qed.
Lemma trim_start_id s : match s with c :: _ => is_ws c = false | [] => True end -> trim_start s = s.
Proof. destruct s; simpl; [reflexivity|]. intros ->. reflexivity. Qed.

Lemma trim_fixed_ends s : trim s = s <->
  match s with c :: _ => is_ws c = false | [] => True end /\
  match rev s with c :: _ => is_ws c = false | [] => True end.
Proof.
  unfold trim, trim_end. split.
  - intros H.
    assert (trim_start (rev (trim_start s)) = rev s) as H'.
    { rewrite <- (rev_involutive (trim_start (rev (trim_start s)))). rewrite H. reflexivity. }
    assert (trim_start s = s) as E.
    { destruct (trim_start_spec s) as (u & Hu & Es).
      destruct (trim_start_spec (rev (trim_start s))) as (u2 & Hu2 & Es2).
      rewrite H' in Es2. assert (length (rev (trim_start s)) = length (u2 ++ rev s)) as L by congruence.
      rewrite app_length, !rev_length in L.
      assert (length s = length u + length (trim_start s)) by (rewrite Es at 1; apply app_length).
      assert (length u = 0) by lia. destruct u; [|discriminate]. simpl in Es. congruence. }
    split.
    + destruct s as [|c s]; [exact I|]. eapply trim_start_head. exact E.
    + rewrite E in H'. destruct (rev s) as [|c r] eqn:Er; [exact I|].
      eapply trim_start_head. exact H'.
  - intros [H1 H2]. rewrite (trim_start_id s H1). rewrite (trim_start_id _ H2). apply rev_involutive.
Qed.

Lemma trim_start_last s : forall u c, trim_start s = u ++ [c] -> exists v, s = v ++ u ++ [c].
Proof.
  intros u c H. destruct (trim_start_spec s) as (w & _ & E). exists w. congruence.
Qed.
Lemma trim_idem s : trim (trim s) = trim s.
Proof.
  apply trim_fixed_ends. unfold trim, trim_end.
  set (a := trim_start s).
  destruct (trim_start_spec (rev a)) as (u & Hu & E).
  split.
  - assert (a = rev (trim_start (rev a)) ++ rev u) as Ea.
    { rewrite <- rev_app_distr, <- E. rewrite rev_involutive. reflexivity. }
    destruct (rev (trim_start (rev a))) as [|c r] eqn:Er; [exact I|].
    simpl in Ea. eapply trim_start_head. exact Ea.
  - rewrite rev_involutive. destruct (trim_start (rev a)) as [|c r] eqn:Er; [exact I|].
    eapply trim_start_head. exact Er.
Qed.

(** ** prefixes *)
Lemma starts_with_app p s : starts_with p (p ++ s) = true.
Proof. induction p as [|c p IH]; simpl; [reflexivity|]. rewrite Ascii.eqb_refl. exact IH. Qed.
Lemma starts_with_spec p s : starts_with p s = true <-> exists r, s = p ++ r.
Proof.
  split.
  - revert s; induction p as [|c p IH]; intros s H; simpl in *.
    + exists s; reflexivity.
    + destruct s as [|d s]; [discriminate|]. apply andb_true_iff in H as [H1 H2].
      apply Ascii.eqb_eq in H1. apply IH in H2 as [r ->]. subst. exists r; reflexivity.
  - intros [r ->]. apply starts_with_app.
Qed.
Lemma ends_with_spec p s : ends_with p s = true <-> exists r, s = r ++ p.
Proof.
  unfold ends_with. rewrite starts_with_spec. split; intros [r H].
  - exists (rev r). rewrite <- (rev_involutive s), H, rev_app_distr, rev_involutive. reflexivity.
  - exists (rev r). rewrite H, rev_app_distr. reflexivity.
Qed.
Lemma contains_text_spec p s : contains_text p s = true <-> exists a b, s = a ++ p ++ b.
Proof.
  induction s as [|c s IH]; cbn [contains_text].
  - rewrite orb_false_r, starts_with_spec. split.
    + intros [r H]. exists [], r. exact H.
    + intros (a & b & H). destruct a; [exists b; exact H|discriminate].
  - rewrite orb_true_iff, starts_with_spec, IH. split.
    + intros [[r H]|(a & b & H)]; [exists [], r; exact H|]. exists (c :: a), b. simpl. congruence.
    + intros (a & b & H). destruct a as [|d a]; simpl in H.
      * left. exists b. exact H.
      * right. injection H as -> H. exists a, b. exact H.
Qed.

(** ** split and join *)
Lemma split_on_nonnil sep s : split_on sep s <> [].
Proof.
  destruct s as [|c s]; simpl; [discriminate|].
  destruct (Ascii.eqb c sep); [discriminate|]. destruct (split_on sep s); discriminate.
Qed.
Lemma join_split sep s : join [sep] (split_on sep s) = s.
Proof.
  induction s as [|c s IH]; simpl; [reflexivity|].
  destruct (Ascii.eqb_spec c sep) as [->|Hc].
  - pose proof (split_on_nonnil sep s) as N. destruct (split_on sep s) as [|p ps] eqn:E; [congruence|].
    cbn [join] in *. simpl. f_equal. exact IH.
  - destruct (split_on sep s) as [|p ps] eqn:E.
    + exfalso. eapply split_on_nonnil; eauto.
    + destruct ps; simpl in *; congruence.
Qed.
Lemma split_on_pieces sep s : Forall (fun p => ~ In sep p) (split_on sep s).
Proof.
  induction s as [|c s IH]; simpl.
  - constructor; [intros []|constructor].
  - destruct (Ascii.eqb_spec c sep) as [->|Hc]; [constructor; [intros []|exact IH]|].
    destruct (split_on sep s) as [|p ps]; [constructor; [intros [|[]]; congruence|constructor]|].
    inversion IH; subst. constructor; [|assumption]. intros [|]; auto.
Qed.
Lemma split_on_none sep s : ~ In sep s -> split_on sep s = [s].
Proof.
  induction s as [|c s IH]; simpl; intros H; [reflexivity|].
  destruct (Ascii.eqb_spec c sep) as [->|Hc]; [exfalso; apply H; left; reflexivity|].
  rewrite IH by tauto. reflexivity.
Qed.
Lemma split_on_app sep a b : ~ In sep a -> split_on sep (a ++ sep :: b) = a :: split_on sep b.
Proof.
  induction a as [|c a IH]; simpl; intros H.
  - rewrite Ascii.eqb_refl. reflexivity.
  - destruct (Ascii.eqb_spec c sep) as [->|Hc]; [exfalso; apply H; left; reflexivity|].
    rewrite IH by tauto. reflexivity.
Qed.
Lemma split_join sep ps : ps <> [] -> Forall (fun p => ~ In sep p) ps -> split_on sep (join [sep] ps) = ps.
Proof.
  induction ps as [|p ps IH]; intros Hn H; [congruence|].
  inversion H; subst. destruct ps as [|q ps].
  - simpl. apply split_on_none. assumption.
  - cbn [join]. simpl app at 1. rewrite split_on_app by assumption. f_equal. apply IH; [discriminate|assumption].
Qed.

(** ** numbers *)
Lemma digits_val_app a c : digits_val (a ++ [c]) = (digits_val a * 10 + digit_val c)%N.
Proof. unfold digits_val. rewrite fold_left_app. reflexivity. Qed.

Lemma CompOpp_eq_iff c : CompOpp c = Eq <-> c = Eq.
Proof. destruct c; simpl; split; congruence. Qed.

Lemma is_nil_true {A} (l : list A) : is_nil l = true <-> l = [].
Proof. destruct l; simpl; split; congruence. Qed.
Lemma is_nil_false {A} (l : list A) : is_nil l = false <-> l <> [].
Proof. destruct l; simpl; split; congruence. Qed.
