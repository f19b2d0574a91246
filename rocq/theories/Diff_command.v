(** Facts about the diff command and the texts given to diff_contexts. *)
From Verif Require Import Base Base_lemmas Version_model Version_order Maps Sorting Range_model Requirement_model Requirement_spec Range_text Requirement_text Package_model Order_spec Diff_model Diff_spec Diff_proofs.
Open Scope string_scope.
Open Scope list_scope.

(** ** texts *)
Lemma name_first_char n : name_text n -> exists c r, n = c :: r /\ c <> "!"%char /\ c <> "~"%char.
Proof.
  intros [N H]. destruct n as [|c r]; [contradiction|]. cbn [forallb] in H. apply andb_true_iff in H as [H _]. exists c, r. split; [reflexivity|].
  split; intros ->; discriminate H.
Qed.
Lemma named_plain n v : plain_request n v -> named_package (request_text n v) = mkPackage n (Some v) [] [] None [] 0%N.
Proof.
  intros (N & D & (P & W)). unfold named_package, request_text.
  assert (R : parse_requirement (n ++ T "-" ++ v_str v) = Some (mkReq n (Some (CPrefix v)) false false [] [] None)).
  { rewrite <- (show_parse_printable (mkReq n (Some (CPrefix v)) false false [] [] None)).
    - unfold show_requirement. cbn [rq_name rq_namespace rq_weak rq_conflict rq_constraint rq_platform rq_env map concat show_constraint]. rewrite !app_nil_r. reflexivity.
    - repeat split; cbn; try assumption; try constructor; try assumption; apply N. }
  destruct (name_first_char n N) as (c & r & -> & X & Y).
  assert (S : forall d t, d <> c -> strip_prefix (d :: t) ((c :: r) ++ T "-" ++ v_str v) = None /\ starts_with (d :: t) ((c :: r) ++ T "-" ++ v_str v) = false).
  { intros d t E. unfold strip_prefix. cbn [app starts_with]. destruct (Ascii.eqb_spec d c); [contradiction|]. split; reflexivity. }
  unfold parse_package_req. change (T "!") with ["!"%char]. rewrite (proj1 (S "!"%char [] (fun E => X (eq_sym E)))). change (T "~") with ["~"%char]. rewrite (proj2 (S "~"%char [] (fun E => Y (eq_sym E)))).
  cbn [andb]. rewrite R. cbn [rq_name]. rewrite skipn_app, skipn_all, Nat.sub_diag. cbn [skipn app]. change (T "-" ++ v_str v) with ("-"%char :: v_str v). unfold strip_prefix. cbn [starts_with T list_ascii_of_string]. cbn [Ascii.eqb Bool.eqb andb length skipn].
  assert (NV : is_nil (v_str v) = false) by (destruct (v_str v); [contradiction|reflexivity]).
  rewrite NV. cbn [pr_name pr_spec]. rewrite NV. rewrite parsed_text by exact P. reflexivity.
Qed.

(** ** the specification of a package *)
Lemma rfind_some d a b : ~ In d b -> rfind_char d (a ++ d :: b) = Some (a, b).
Proof.
  intros N. unfold rfind_char. rewrite rev_app_distr. cbn [rev]. rewrite <- app_assoc. cbn [app].
  rewrite find_char_app by (intros J; apply N, in_rev, J). rewrite !rev_involutive. reflexivity.
Qed.
Lemma spec_dashless n v : dashless v -> parse_package_spec (n ++ T "-" ++ v) = (n, Some v).
Proof.
  intros (D & c & r & E & G). unfold parse_package_spec. change (T "-" ++ v) with ("-"%char :: v). rewrite rfind_some by exact D. rewrite E, G. reflexivity.
Qed.
Lemma spec_name n : ~ In "-"%char n -> parse_package_spec n = (n, None).
Proof.
  intros D. unfold parse_package_spec, rfind_char. rewrite (proj2 (find_char_none "-" (rev n))) by (intros J; apply D, in_rev, J). reflexivity.
Qed.

(** ** lookup *)
Lemma text_eqb_iff a b : text_eqb a b = true <-> a = b.
Proof. apply text_eqb_eq. Qed.
Lemma version_is_iff v p : version_is v p = true <-> exists x, p_version p = Some x /\ v_str x = v.
Proof.
  unfold version_is. destruct (p_version p) as [x|]; [rewrite text_eqb_iff|]; split; try discriminate.
  - intros <-. exists x. split; reflexivity.
  - intros (y & E & F). injection E as ->. exact F.
  - intros (y & E & _). discriminate E.
Qed.
Lemma find_package_version f n v p : find_package f n (Some v) = Found p -> In p (f n) /\ exists x, p_version p = Some x /\ v_str x = v.
Proof.
  unfold find_package. destruct (f n) as [|q l]; [discriminate|]. destruct (find (version_is v) (q :: l)) as [x|] eqn:F; [|discriminate]. intros E. injection E as ->.
  apply find_some in F as [J F]. split; [exact J|]. apply version_is_iff, F.
Qed.
Lemma find_package_missing f n v : (exists e, find_package f n (Some v) = Missing e) <-> forall p x, In p (f n) -> p_version p = Some x -> v_str x <> v.
Proof.
  unfold find_package. destruct (f n) as [|q l] eqn:L.
  - split; [intros _ p x []|]. intros _. eexists. reflexivity.
  - destruct (find (version_is v) (q :: l)) as [y|] eqn:F.
    + split; [intros (e & E); discriminate E|]. intros H. apply find_some in F as [J F]. apply version_is_iff in F as (x & V & E). destruct (H y x J V E).
    + split; [|intros _; eexists; reflexivity]. intros _ p x J V E. pose proof (find_none _ _ F p J) as K. rewrite (proj2 (version_is_iff v p)) in K by (exists x; split; assumption). discriminate K.
Qed.
Lemma find_package_newest f n p : pairwise (goes_before true) (f n) -> find_package f n None = Found p ->
  In p (f n) /\ ((exists q v, In q (f n) /\ p_version q = Some v) -> newest (f n) p).
Proof.
  unfold find_package. destruct (f n) as [|q l]; [discriminate|]. intros S E. injection E as ->. split; [left; reflexivity|].
  assert (G : forall r, In r l -> goes_before true p r) by (intros r J; apply in_split in J as (l2 & l3 & ->); exact (S [] p l2 r l3 eq_refl)).
  intros (q & v & J & V). assert (X : exists a, p_version p = Some a).
  { destruct J as [->|J]; [exists v; exact V|]. specialize (G q J). unfold goes_before in G. rewrite V in G. destruct (p_version p) as [a|]; [exists a; reflexivity|destruct G]. }
  destruct X as (a & A). exists a. split; [exact A|]. split; [left; reflexivity|]. intros r c [->|K] C.
  - rewrite A in C. injection C as ->. rewrite vcmp_refl. discriminate.
  - specialize (G r K). unfold goes_before in G. rewrite A, C in G. exact G.
Qed.
Lemma other_iff p q : other_version p q = true <-> exists a b, p_version p = Some a /\ p_version q = Some b /\ v_str b <> v_str a.
Proof.
  unfold other_version. destruct (p_version q) as [b|], (p_version p) as [a|]; split; try discriminate; try (intros (x & y & E & F & _); congruence).
  - intros H. exists a, b. repeat split. intros E. apply text_eqb_iff in E. rewrite E in H. discriminate H.
  - intros (x & y & E & F & D). injection E as ->. injection F as ->. destruct (text_eqb (v_str y) (v_str x)) eqn:X; [apply text_eqb_iff in X; contradiction|reflexivity].
Qed.
Lemma find_split {A} (f : A -> bool) l x : find f l = Some x -> exists l1 l2, l = l1 ++ x :: l2 /\ f x = true /\ forall y, In y l1 -> f y = false.
Proof.
  induction l as [|y l IH]; [discriminate|]. cbn [find]. destruct (f y) eqn:E.
  - intros H. injection H as ->. exists [], l. split; [reflexivity|]. split; [exact E|intros z []].
  - intros H. destruct (IH H) as (l1 & l2 & -> & F & G). exists (y :: l1), l2. split; [reflexivity|]. split; [exact F|]. intros z [<-|J]; [exact E|apply G, J].
Qed.
(** what the answer is: the greatest of the versions written differently *)
Lemma previous_greatest f p q : pairwise (goes_before true) (f (p_name p)) -> find_previous f p = Found q ->
  In q (f (p_name p)) /\ exists a b, p_version p = Some a /\ p_version q = Some b /\ v_str b <> v_str a /\
    forall r c, In r (f (p_name p)) -> p_version r = Some c -> v_str c <> v_str a -> vcmp c b <> Gt.
Proof.
  unfold find_previous. set (l := f (p_name p)). intros S. destruct (Nat.ltb (length l) 2); [discriminate|]. destruct (find (other_version p) l) as [x|] eqn:F; [|discriminate].
  intros E. injection E as ->. destruct (find_split _ _ _ F) as (l1 & l2 & El & O & B). apply other_iff in O as (a & b & Va & Vb & D).
  split; [rewrite El; apply in_elt|]. exists a, b. repeat split; try assumption. intros r c J V N.
  rewrite El in J. apply in_app_iff in J as [J|[->|J]].
  - specialize (B r J). rewrite (proj2 (other_iff p r)) in B by (exists a, c; repeat split; assumption). discriminate B.
  - rewrite Vb in V. injection V as ->. rewrite vcmp_refl. discriminate.
  - apply in_split in J as (m1 & m2 & ->). specialize (S l1 q m1 r m2 El). unfold goes_before in S. rewrite Vb, V in S. exact S.
Qed.
Lemma previous_of_newest f p q : pairwise (goes_before true) (f (p_name p)) -> newest (f (p_name p)) p ->
  (forall r c a, In r (f (p_name p)) -> p_version r = Some c -> p_version p = Some a -> (vcmp c a = Eq <-> v_str c = v_str a)) ->
  find_previous f p = Found q -> just_before (f (p_name p)) p q.
Proof.
  intros S (a0 & V0 & J0 & G) W F. destruct (previous_greatest f p q S F) as (J & a & b & Va & Vb & D & M).
  rewrite V0 in Va. injection Va as ->. exists a, b. repeat split; try assumption.
  - destruct (vcmp b a) eqn:C; [exfalso; apply D, (W q b a); assumption|reflexivity|destruct (G q b J Vb C)].
  - intros r c Jr Vr C. apply (M r c Jr Vr). intros E. apply (W r c a Jr Vr V0) in E. congruence.
Qed.
(** an older package is compared with the newest one *)
Lemma previous_of_older f p q : pairwise (goes_before true) (f (p_name p)) -> find_previous f p = Found q ->
  forall r c a, In r (f (p_name p)) -> p_version p = Some a -> p_version r = Some c -> vcmp a c = Lt -> v_str c <> v_str a ->
  exists b, p_version q = Some b /\ vcmp c b <> Gt.
Proof.
  intros S F r c a J Va Vc C D. destruct (previous_greatest f p q S F) as (_ & a' & b & Va' & Vb & _ & M). rewrite Va in Va'. injection Va' as <-.
  exists b. split; [exact Vb|]. apply (M r c); assumption.
Qed.

(** ** comparing two packages *)
Lemma texts_eqb_iff a b : texts_eqb a b = true <-> a = b.
Proof.
  revert b. induction a as [|x a IH]; intros [|y b]; cbn [texts_eqb]; try (split; (reflexivity || discriminate)).
  rewrite andb_true_iff, text_eqb_iff, IH. split; [intros [-> ->]; reflexivity|intros E; injection E as -> ->; split; reflexivity].
Qed.
Lemma otext_eqb_iff a b : otext_eqb a b = true <-> a = b.
Proof. destruct a, b; cbn [otext_eqb]; try (split; (reflexivity || discriminate)). rewrite text_eqb_iff. split; [intros ->; reflexivity|intros E; injection E as ->; reflexivity]. Qed.
Lemma nil_iff {A} (l : list A) : is_nil l = true <-> l = [].
Proof. destruct l; split; (reflexivity || discriminate). Qed.
Section Sets.
Context (ord : list text -> list text) (ordv : list (list text) -> list (list text)).
Hypothesis Po : forall l, Permutation (ord l) l.
Hypothesis Pv : forall l, Permutation (ordv l) l.
Lemma text_minus_in a b x : In x (text_minus ord a b) <-> In x a /\ ~ In x b.
Proof.
  unfold text_minus, text_set. rewrite filter_In. assert (E : In x (ord (nodup (list_eq_dec ascii_dec) a)) <-> In x a).
  { rewrite <- (nodup_In (list_eq_dec ascii_dec) a x). split; apply Permutation_in; [|symmetry]; apply Po. }
  rewrite E, negb_true_iff. apply and_iff_compat_l. split.
  - intros H J. assert (K : existsb (text_eqb x) b = true) by (apply existsb_exists; exists x; split; [exact J|apply text_eqb_iff; reflexivity]). congruence.
  - intros H. destruct (existsb (text_eqb x) b) eqn:K; [|reflexivity]. apply existsb_exists in K as (y & J & K). apply text_eqb_iff in K. subst. contradiction.
Qed.
Lemma variant_minus_in a b x : In x (variant_minus ordv a b) <-> In x a /\ ~ In x b.
Proof.
  unfold variant_minus, variant_set. rewrite filter_In. assert (E : In x (ordv (nodup (list_eq_dec (list_eq_dec ascii_dec)) a)) <-> In x a).
  { rewrite <- (nodup_In (list_eq_dec (list_eq_dec ascii_dec)) a x). split; apply Permutation_in; [|symmetry]; apply Pv. }
  rewrite E, negb_true_iff. apply and_iff_compat_l. split.
  - intros H J. assert (K : existsb (texts_eqb x) b = true) by (apply existsb_exists; exists x; split; [exact J|apply texts_eqb_iff; reflexivity]). congruence.
  - intros H. destruct (existsb (texts_eqb x) b) eqn:K; [|reflexivity]. apply existsb_exists in K as (y & J & K). apply texts_eqb_iff in K. subst. contradiction.
Qed.
Lemma text_minus_nodup a b : NoDup (text_minus ord a b).
Proof. apply NoDup_filter. unfold text_set. eapply Permutation_NoDup; [symmetry; apply Po|apply NoDup_nodup]. Qed.
Lemma variant_minus_nodup a b : NoDup (variant_minus ordv a b).
Proof. apply NoDup_filter. unfold variant_set. eapply Permutation_NoDup; [symmetry; apply Pv|apply NoDup_nodup]. Qed.
Lemma none_in {A} (l : list A) : l = [] <-> forall x, ~ In x l.
Proof. split; [intros -> x []|]. destruct l as [|y l]; [reflexivity|]. intros H. destruct (H y (or_introl eq_refl)). Qed.
Lemma no_changes description authors p q : has_changes (compare_packages description authors ord ordv p q) = false <->
  description (p_rest p) = description (p_rest q) /\ authors (p_rest p) = authors (p_rest q) /\ p_tools p = p_tools q /\
  same_members (p_requires p) (p_requires q) /\ same_members (p_variants p) (p_variants q) /\ length (p_variants p) = length (p_variants q).
Proof.
  unfold has_changes, compare_packages. cbn [m_description m_authors m_tools r_added r_removed v_count v_added v_removed fst snd].
  rewrite !orb_false_iff, !negb_false_iff, !nil_iff, Nat.eqb_eq, !none_in.
  pose proof (otext_eqb_iff (description (p_rest p)) (description (p_rest q))) as D. pose proof (texts_eqb_iff (authors (p_rest p)) (authors (p_rest q))) as A. pose proof (texts_eqb_iff (p_tools p) (p_tools q)) as W.
  split.
  - intros (((((M & R1) & R2) & L) & V1) & V2).
    assert (X : description (p_rest p) = description (p_rest q) /\ authors (p_rest p) = authors (p_rest q) /\ p_tools p = p_tools q).
    { destruct (otext_eqb _ _); [|discriminate M]. destruct (texts_eqb (authors _) _); [|discriminate M]. destruct (texts_eqb (p_tools _) _); [|discriminate M]. repeat split; [apply D|apply A|apply W]; reflexivity. }
    destruct X as (X1 & X2 & X3). repeat split; try assumption; intros J.
    + destruct (in_dec text_dec x (p_requires q)) as [|N]; [assumption|]. destruct (R2 x). apply text_minus_in. split; assumption.
    + destruct (in_dec text_dec x (p_requires p)) as [|N]; [assumption|]. destruct (R1 x). apply text_minus_in. split; assumption.
    + destruct (in_dec (list_eq_dec text_dec) x (p_variants q)) as [|N]; [assumption|]. destruct (V2 x). apply variant_minus_in. split; assumption.
    + destruct (in_dec (list_eq_dec text_dec) x (p_variants p)) as [|N]; [assumption|]. destruct (V1 x). apply variant_minus_in. split; assumption.
  - intros (X1 & X2 & X3 & R & V & L). rewrite (proj2 D X1), (proj2 A X2), (proj2 W X3). repeat split; try assumption; intros x J; (apply text_minus_in in J || apply variant_minus_in in J); destruct J as [J N]; apply N; (apply R || apply V); exact J.
Qed.
End Sets.
