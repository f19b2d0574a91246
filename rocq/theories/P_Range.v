(** Properties C07-C13, C49, C50: version ranges. *)
From Verif Require Import Base Base_lemmas Text_lemmas Version_model Version_spec Version_order Version_hash P_Version
  Range_model Range_spec Range_proofs Range_text Range_compat.

(** the range written as [s], when [s] is known to parse *)
Definition R (s : string) : range :=
  match parse_range (T s) with Some r => r | None => range_none end.

Lemma R_built s : parse_range (T s) <> None -> built (R s).
Proof. unfold R. intros H. destruct (parse_range (T s)) eqn:E; [eapply built_parse; eauto|congruence]. Qed.
Lemma R_plain s : parse_range (T s) <> None -> plain (R s).
Proof. unfold R. intros H. destruct (parse_range (T s)) eqn:E; [eapply plain_parse; eauto|congruence]. Qed.
Lemma V_parsed s : parse_version (T s) <> None -> parsed (V s).
Proof. unfold V. intros H. destruct (parse_version (T s)) eqn:E; [exists (T s); exact E|congruence]. Qed.
Ltac splits := repeat match goal with |- _ /\ _ => split end.
Ltac ok := vm_compute; discriminate.
Ltac rng := match goal with |- built (R _) => apply R_built; ok | |- parsed (V _) => apply V_parsed; ok
                          | |- plain (R _) => apply R_plain; ok end.

(** a set of versions on which comparison is transitive: small numbers, no trailing "0" *)
Definition orderly (v : version) : Prop :=
  parsed v /\ small_version v /\ no_trailing_zero (v_tokens v).
Lemma orderly_transitive : transitive_on orderly.
Proof. intros a b c (Pa & Sa & Za) (Pb & Sb & Zb) (Pc & Sc & Zc). apply trans_no_trailing_zero; assumption. Qed.
Ltac norm_v := repeat match goal with |- context [V ?s] =>
  let v := eval vm_compute in (V s) in replace (V s) with v by (vm_compute; reflexivity) end.
Ltac is_orderly :=
  norm_v;
  split; [match goal with |- parsed ?v => exists (v_str v); vm_compute; reflexivity end|]; split;
  [unfold small_version; cbn [v_tokens]; repeat (constructor; [apply short_small; vm_compute; repeat constructor|]); constructor
  |let H := fresh in intros ? H; apply (f_equal (@rev text)) in H; rewrite rev_app_distr in H; vm_compute in H; discriminate].

(** ** C07: intersection *)
(** Everything in the intersection is in both ranges, for all versions. *)
Theorem C07_intersection_within_both : forall (a b r : range) (v : version),
  built a -> built b -> honest_any a -> honest_any b ->
  intersect a b = Some r -> contains r v = true -> contains a v = true /\ contains b v = true.
Proof. exact intersect_sound. Qed.
Print Assumptions C07_intersection_within_both.

(** Everything in both is in the intersection, among versions compared transitively.
    Missing: sets of versions on which the comparison is not transitive (see C02), where
    it is false. *)
Theorem C07_intersection_complete_partial : forall (S : version -> Prop) (a b : range) (v : version),
  built a -> built b -> transitive_on S -> S v -> range_in S a -> range_in S b ->
  contains a v = true -> contains b v = true ->
  exists r, intersect a b = Some r /\ contains r v = true.
Proof. exact intersect_complete. Qed.
Print Assumptions C07_intersection_complete_partial.

(** ">=1" and "<=1.0.1" both contain 1.0.0 but the intersection is reported empty. *)
Theorem C07_intersection_refuted : exists (a b : range) (v : version),
  built a /\ built b /\ parsed v /\ contains a v = true /\ contains b v = true /\ intersect a b = None.
Proof.
  exists (R ">=1"), (R "<=1.0.1"), (V "1.0.0").
  split; [rng|]. split; [rng|]. split; [rng|]. splits; vm_compute; reflexivity.
Qed.
Print Assumptions C07_intersection_refuted.

(** Intersecting with "any but >=2" forgets the subtraction. *)
Theorem C07_subtracted_refuted : exists (a b r : range) (v : version),
  built a /\ built b /\ intersect a b = Some r /\ contains r v = true /\ contains a v = false.
Proof.
  destruct (subtract range_any (R ">=2")) as [a|] eqn:E; [|vm_compute in E; discriminate].
  exists a, (R ">=1"), (R ">=1"), (V "3").
  split; [eapply built_subtract; [apply built_any| |exact E]; rng|].
  split; [rng|]. vm_compute in E. injection E as <-. splits; vm_compute; reflexivity.
Qed.
Print Assumptions C07_subtracted_refuted.

Example C07_example :
  built (R ">=1.2,<3|5") /\ built (R ">=2.1") /\ honest_any (R ">=1.2,<3|5") /\
  transitive_on orderly /\ orderly (V "2.5") /\ range_in orderly (R ">=1.2,<3|5") /\ range_in orderly (R ">=2.1") /\
  contains (R ">=1.2,<3|5") (V "2.5") = true /\ contains (R ">=2.1") (V "2.5") = true /\
  match intersect (R ">=1.2,<3|5") (R ">=2.1") with
  | Some r => contains r (V "5") && negb (contains r (V "1.3")) | None => false end = true.
Proof.
  split; [rng|]. split; [rng|]. split; [apply plain_honest; rng|]. split; [exact orderly_transitive|].
  split; [is_orderly|].
  split.
  { intros v (bs & b & Hbs & Hb & Hm). vm_compute in Hbs.
    repeat (destruct Hbs as [<-|Hbs]; [repeat (destruct Hb as [<-|Hb]; [cbn in Hm; subst v|]); try contradiction|]); try contradiction.
    - is_orderly.
    - is_orderly.
    - is_orderly. }
  split.
  { intros v (bs & b & Hbs & Hb & Hm). vm_compute in Hbs.
    repeat (destruct Hbs as [<-|Hbs]; [repeat (destruct Hb as [<-|Hb]; [cbn in Hm; subst v|]); try contradiction|]); try contradiction.
    is_orderly. }
  splits; vm_compute; reflexivity.
Qed.

(** ** C08: union *)
(** Exact for ranges built without subtraction.  Missing: subtracted operands, where it is
    false (below). *)
Theorem C08_union_exact_partial : forall (a b : range) (v : version),
  plain a -> plain b -> contains (union a b) v = contains a v || contains b v.
Proof. exact union_contains. Qed.
Print Assumptions C08_union_exact_partial.

(** Nothing is lost, whatever the operands. *)
Theorem C08_union_loses_nothing : forall (a b : range) (v : version),
  built a -> built b -> contains a v || contains b v = true -> contains (union a b) v = true.
Proof. exact union_upper. Qed.
Print Assumptions C08_union_loses_nothing.

(** (">=1" minus ">=2") union "==5" contains 3. *)
Theorem C08_union_refuted : exists (a b : range) (v : version),
  built a /\ built b /\ contains (union a b) v = true /\ contains a v = false /\ contains b v = false.
Proof.
  destruct (subtract (R ">=1") (R ">=2")) as [a|] eqn:E; [|vm_compute in E; discriminate].
  exists a, (R "==5"), (V "3").
  split; [eapply built_subtract; [| |exact E]; rng|]. split; [rng|].
  vm_compute in E. injection E as <-. splits; vm_compute; reflexivity.
Qed.
Print Assumptions C08_union_refuted.

Example C08_example : plain (R "1.0|>=3") /\ plain (R "2") /\
  contains (union (R "1.0|>=3") (R "2")) (V "2") = true /\ contains (union (R "1.0|>=3") (R "2")) (V "2.5") = false.
Proof. split; [rng|]. split; [rng|]. split; vm_compute; reflexivity. Qed.

(** ** C09: difference *)
(** A difference that is returned is exact, for every pair of ranges and every version. *)
Theorem C09_difference_exact : forall (a b r : range) (v : version),
  built a -> built b -> subtract a b = Some r ->
  contains r v = contains a v && negb (contains b v).
Proof. exact subtract_contains. Qed.
Print Assumptions C09_difference_exact.

(** When the difference is reported empty it is empty: for unions of half-open intervals
    with lower bounds, among versions compared transitively.  Missing: the other ranges,
    where it is false (below). *)
Theorem C09_reported_empty_partial : forall (S : version -> Prop) (a b : range),
  transitive_on S -> plain a -> plain b -> range_in S a -> range_in S b ->
  half_open a -> half_open b -> bounded_below a -> subtract a b = None ->
  forall v, S v -> contains a v = true -> contains b v = true.
Proof. exact subtract_none_half_open. Qed.
Print Assumptions C09_reported_empty_partial.

(** In general only the versions written in the two ranges are decided. *)
Theorem C09_reported_empty_written_partial : forall (a b : range) (v : version),
  built a -> built b -> honest_any b -> subtract a b = None ->
  range_mentions a v \/ range_mentions b v -> contains a v = true -> contains b v = true.
Proof. exact subtract_none. Qed.
Print Assumptions C09_reported_empty_written_partial.

(** ">4.1,<5" minus ">=4.5.1.1.1" is reported empty although 4.2 belongs to it. *)
Theorem C09_reported_empty_refuted : exists (a b : range) (v : version),
  plain a /\ plain b /\ parsed v /\ subtract a b = None /\ contains a v = true /\ contains b v = false.
Proof.
  exists (R ">4.1,<5"), (R ">=4.5.1.1.1"), (V "4.2").
  split; [rng|]. split; [rng|]. split; [rng|]. splits; vm_compute; reflexivity.
Qed.
Print Assumptions C09_reported_empty_refuted.

Example C09_example : plain (R ">=1,<5") /\ plain (R ">=2,<3") /\ half_open (R ">=1,<5") /\ bounded_below (R ">=1,<5") /\
  match subtract (R ">=1,<5") (R ">=2,<3") with
  | Some r => contains r (V "4.5") && negb (contains r (V "2")) | None => false end = true /\
  subtract (R ">=2,<3") (R ">=1,<5") = None.
Proof.
  split; [rng|]. split; [rng|]. split.
  { intros bs b H. vm_compute in H. destruct H as [<-|[]]. intros [<-|[<-|[]]]; exact I. }
  split. { intros bs H. vm_compute in H. destruct H as [<-|[]]. eexists. left. reflexivity. }
  split; vm_compute; reflexivity.
Qed.

(** ** C10: subset test *)
(** A negative answer has a witness, unless the left range is "any".  Missing: see below. *)
Theorem C10_negative_answer_partial : forall (a b : range),
  is_any a = false -> is_subset_of a b = false ->
  exists v, contains a v = true /\ contains b v = false.
Proof. exact subset_false. Qed.
Print Assumptions C10_negative_answer_partial.

(** A positive answer is right for unions of half-open intervals with lower bounds, among
    versions compared transitively.  Missing: other ranges, where it is false (below). *)
Theorem C10_positive_answer_partial : forall (S : version -> Prop) (a b : range),
  transitive_on S -> plain a -> plain b -> range_in S a -> range_in S b ->
  half_open a -> half_open b -> bounded_below a -> is_subset_of a b = true ->
  forall v, S v -> contains a v = true -> contains b v = true.
Proof. exact subset_half_open. Qed.
Print Assumptions C10_positive_answer_partial.

Theorem C10_positive_answer_refuted : exists (a b : range) (v : version),
  plain a /\ plain b /\ parsed v /\ is_subset_of a b = true /\ contains a v = true /\ contains b v = false.
Proof.
  exists (R ">4.1,<5"), (R ">=4.5.1.1.1"), (V "4.2").
  split; [rng|]. split; [rng|]. split; [rng|]. splits; vm_compute; reflexivity.
Qed.
Print Assumptions C10_positive_answer_refuted.

(** "any" is not recognised as a subset of "<5|>=5", which contains everything. *)
Theorem C10_negative_answer_refuted : exists a b : range,
  plain a /\ plain b /\ is_subset_of a b = false /\ forall v, contains a v = true -> contains b v = true.
Proof.
  exists range_any, (R "<5|>=5"). split; [apply plain_any|]. split; [rng|]. split; [vm_compute; reflexivity|].
  intros v _. replace (R "<5|>=5") with (mkRange (T "<5|>=5") [[BLt (V "5")]; [BGe (V "5")]] true []) by (vm_compute; reflexivity).
  cbn [contains negb orb is_nil existsb bs_contains forallb bound_matches].
  unfold v_lt, v_ge, is_lt, is_ge. destruct (vcmp v (V "5")); reflexivity.
Qed.
Print Assumptions C10_negative_answer_refuted.

Example C10_example : is_any (R ">=1,<5") = false /\ is_subset_of (R ">=1,<5") (R ">=2,<3") = false /\
  is_subset_of (R ">=2,<3") (R ">=1,<5") = true /\ half_open (R ">=2,<3") /\ bounded_below (R ">=2,<3").
Proof.
  splits; try (vm_compute; reflexivity).
  - intros bs b H. vm_compute in H. destruct H as [<-|[]]. intros [<-|[<-|[]]]; exact I.
  - intros bs H. vm_compute in H. destruct H as [<-|[]]. eexists. left. reflexivity.
Qed.

(** ** C11: meaning of range texts *)
(** "A|B" means A or B.  Missing: parts using ".." or spelling the empty range, where it is
    false (below). *)
Theorem C11_alternatives_partial : forall (a b : text) (ra rb : range),
  no_dotdot a -> no_dotdot b -> ~ spells_empty a -> ~ spells_empty b ->
  parse_range a = Some ra -> parse_range b = Some rb ->
  exists r, parse_range (a ++ T "|" ++ b) = Some r /\ forall v, contains r v = contains ra v || contains rb v.
Proof. exact range_or. Qed.
Print Assumptions C11_alternatives_partial.
Theorem C11_alternatives_error_partial : forall a b : text,
  no_dotdot a -> no_dotdot b -> ~ spells_empty a -> ~ spells_empty b ->
  parse_range a = None \/ parse_range b = None -> parse_range (a ++ T "|" ++ b) = None.
Proof. exact range_or_err. Qed.
Print Assumptions C11_alternatives_error_partial.

(** "A,B" means A and B, and is an error exactly when a part is.  Missing: parts using
    "|", "+", ".." or spelling the empty range. *)
Theorem C11_conjunction_partial : forall a b : text,
  no_dotdot a -> no_dotdot b -> ~ spells_empty a -> ~ spells_empty b ->
  no_char "|" a -> no_char "|" b -> no_char "+" a -> no_char "+" b ->
  match parse_range a, parse_range b with
  | Some ra, Some rb =>
      exists r, parse_range (a ++ T "," ++ b) = Some r /\ forall v, contains r v = contains ra v && contains rb v
  | _, _ => parse_range (a ++ T "," ++ b) = None
  end.
Proof. exact range_and. Qed.
Print Assumptions C11_conjunction_partial.

(** Blank text and "*" match everything; "empty" and "!*" match nothing. *)
Theorem C11_any_and_empty : forall s : text,
  (trim s = [] \/ trim s = T "*" -> exists r, parse_range s = Some r /\ forall v, contains r v = true) /\
  (spells_empty s -> exists r, parse_range s = Some r /\ forall v, contains r v = false).
Proof.
  intros s. unfold parse_range. split.
  - intros [E|E]; rewrite E; (eexists; split; [reflexivity|]; reflexivity).
  - intros [E|E]; rewrite E; (eexists; split; [reflexivity|]; reflexivity).
Qed.
Print Assumptions C11_any_and_empty.

(** Each comparison operator means that comparison, for every version text. *)
Theorem C11_operators : forall w : version, parsed w -> forall op spec,
  In (op, spec) [(T ">=", fun c => c <> Lt); (T "<=", fun c => c <> Gt); (T "==", fun c => c = Eq);
                 (T "!=", fun c => c <> Eq); (T ">", fun c => c = Gt); (T "<", fun c => c = Lt)] ->
  exists r, parse_range (op ++ v_str w) = Some r /\ forall v, contains r v = true <-> spec (vcmp v w).
Proof.
  intros w Hw op spec Hin.
  assert (op_text op) as Ho.
  { unfold op_text. cbn in Hin. repeat (destruct Hin as [[= <- <-]|Hin]; [tauto|]). destruct Hin. }
  destruct (range_op op w Ho Hw) as (r & Hr & Hc). exists r. split; [exact Hr|]. intros v. rewrite Hc.
  cbn in Hin. repeat (destruct Hin as [[= <- <-]|Hin]; [
    cbn; unfold v_ge, v_le, v_gt, v_lt, veq, is_ge, is_le, is_gt, is_lt, is_eq; destruct (vcmp v w); cbn; split; congruence|]).
  destruct Hin.
Qed.
Print Assumptions C11_operators.

(** A bare version means exactly that version. *)
Theorem C11_bare_version : forall w : version,
  parsed w -> v_str w <> [] -> v_str w <> T "empty" -> no_char "+" (v_str w) ->
  exists r, parse_range (v_str w) = Some r /\ forall v, contains r v = veq v w.
Proof. exact range_bare. Qed.
Print Assumptions C11_bare_version.

(** "x..y", "x+" and "x+<y" *)
Theorem C11_interval : forall x y : version,
  parsed x -> parsed y -> v_str x <> [] -> v_str y <> [] ->
  exists r, parse_range (v_str x ++ T ".." ++ v_str y) = Some r /\
    forall v, contains r v = v_ge v x && v_lt v y.
Proof. exact range_interval. Qed.
Print Assumptions C11_interval.
Theorem C11_at_least : forall x : version,
  parsed x -> v_str x <> [] -> no_char "+" (v_str x) ->
  exists r, parse_range (v_str x ++ T "+") = Some r /\ forall v, contains r v = v_ge v x.
Proof. exact range_plus. Qed.
Print Assumptions C11_at_least.
Theorem C11_at_least_below : forall x y : version,
  parsed x -> parsed y -> v_str x <> [] -> no_char "+" (v_str x) ->
  exists r, parse_range (v_str x ++ T "+<" ++ v_str y) = Some r /\ forall v, contains r v = v_ge v x && v_lt v y.
Proof. exact range_plus_lt. Qed.
Print Assumptions C11_at_least_below.

(** "3.0|1.0..2.0" means neither: it contains 5.0 and not 1.5. *)
Theorem C11_alternatives_refuted : exists (a b : text) (ra rb r : range) (v w : version),
  parse_range a = Some ra /\ parse_range b = Some rb /\ parse_range (a ++ T "|" ++ b) = Some r /\
  contains r v = true /\ contains ra v || contains rb v = false /\
  contains r w = false /\ contains rb w = true.
Proof.
  exists (T "3.0"), (T "1.0..2.0"), (R "3.0"), (R "1.0..2.0"), (R "3.0|1.0..2.0"), (V "5.0"), (V "1.5").
  splits; vm_compute; reflexivity.
Qed.
Print Assumptions C11_alternatives_refuted.
(** "1.0|empty" contains the version called "empty". *)
Theorem C11_empty_alternative_refuted : exists (a b : text) (ra rb r : range) (v : version),
  parse_range a = Some ra /\ parse_range b = Some rb /\ parse_range (a ++ T "|" ++ b) = Some r /\
  contains r v = true /\ contains ra v || contains rb v = false.
Proof.
  exists (T "1.0"), (T "empty"), (R "1.0"), (R "empty"), (R "1.0|empty"), (V "empty").
  splits; vm_compute; reflexivity.
Qed.
Print Assumptions C11_empty_alternative_refuted.
(** "1.0" and "2.0+" are ranges but "<3,2.0+" is rejected. *)
Theorem C11_conjunction_refuted : exists a b : text,
  parse_range a <> None /\ parse_range b <> None /\ parse_range (a ++ T "," ++ b) = None.
Proof. exists (T "<3"), (T "2.0+"). splits; vm_compute; congruence. Qed.
Print Assumptions C11_conjunction_refuted.

Example C11_example : no_dotdot (T ">=1,<2 ") /\ ~ spells_empty (T ">=1,<2 ") /\ no_char "+" (T ">=1,<2 ") /\
  parse_range (T ">=1,<2 ") <> None /\ parsed (V "1.0-rc1") /\ v_str (V "1.0-rc1") <> [].
Proof.
  split; [apply no_dotdot_iff; vm_compute; reflexivity|].
  split; [intros [H|H]; vm_compute in H; discriminate|].
  split; [intros H; vm_compute in H; intuition discriminate|].
  split; [ok|]. split; [rng|]. ok.
Qed.

(** ** C12: serialised ranges *)
(** A deserialised range matches every version, whatever was written. *)
Theorem C12_roundtrip_refuted : exists (r : range) (v : version),
  plain r /\ contains r v = false /\ contains (range_deserialize (range_serialize r)) v = true.
Proof. exists (R ">=2"), (V "1"). split; [rng|]. split; vm_compute; reflexivity. Qed.
Print Assumptions C12_roundtrip_refuted.

(** The serialised text of a parsed range still determines it: parsing it again gives the
    same range.  Missing: deserialisation does not parse; results of intersect, union and
    subtract do not round-trip. *)
Theorem C12_text_reparse_partial : forall (s : text) (r : range),
  parse_range s = Some r -> parse_range (range_serialize r) = Some r.
Proof.
  intros s r H. unfold range_serialize. pose proof H as H0. unfold parse_range in H.
  destruct (parse_range_str (trim s)); [|discriminate]. injection H as <-. exact H0.
Qed.
Print Assumptions C12_text_reparse_partial.
Theorem C12_roundtrip_any_partial : forall (r : range), plain r -> is_any r = true ->
  forall v, contains (range_deserialize (range_serialize r)) v = contains r v.
Proof. intros r H Ha v. rewrite (plain_honest r H Ha v). reflexivity. Qed.
Print Assumptions C12_roundtrip_any_partial.
Example C12_example : parse_range (T ">=1,<2") <> None /\ plain (R "*") /\ is_any (R "*") = true.
Proof. split; [ok|]. split; [rng|]. vm_compute; reflexivity. Qed.

(** ** C13: disjointness *)
(** Ranges reported disjoint share no version, among versions compared transitively.
    Missing: non-transitive sets of versions, where it is false (below). *)
Theorem C13_disjoint_partial : forall (S : version -> Prop) (a b : range) (v : version),
  built a -> built b -> transitive_on S -> S v -> range_in S a -> range_in S b ->
  contains a v = true -> contains b v = true -> intersects a b = true.
Proof. exact intersects_complete. Qed.
Print Assumptions C13_disjoint_partial.
Theorem C13_disjoint_refuted : exists (a b : range) (v : version),
  plain a /\ plain b /\ parsed v /\ intersects a b = false /\ contains a v = true /\ contains b v = true.
Proof.
  exists (R ">=1"), (R "<=1.0.1"), (V "1.0.0").
  split; [rng|]. split; [rng|]. split; [rng|]. splits; vm_compute; reflexivity.
Qed.
Print Assumptions C13_disjoint_refuted.
Example C13_example : intersects (R ">=1.2,<3|5") (R ">=2") = true /\ intersects (R ">=1.2,<3") (R ">=4") = false.
Proof. split; vm_compute; reflexivity. Qed.

(** ** C49: the emptiness and universality tests *)
Theorem C49_empty_honest : forall (r : range) (v : version),
  built r -> range_is_empty r = true -> contains r v = false.
Proof. exact empty_contains_nothing. Qed.
Print Assumptions C49_empty_honest.
(** Missing: ranges obtained by subtraction, where it is false. *)
Theorem C49_any_honest_partial : forall (r : range) (v : version),
  plain r -> is_any r = true -> contains r v = true.
Proof. exact (fun r v H Ha => plain_honest r H Ha v). Qed.
Print Assumptions C49_any_honest_partial.
Theorem C49_any_refuted : exists (r : range) (v : version),
  built r /\ is_any r = true /\ contains r v = false.
Proof.
  destruct (subtract range_any (R ">=2")) as [a|] eqn:E; [|vm_compute in E; discriminate].
  exists a, (V "3"). split; [eapply built_subtract; [apply built_any| |exact E]; rng|].
  vm_compute in E. injection E as <-. split; vm_compute; reflexivity.
Qed.
Print Assumptions C49_any_refuted.
Example C49_example : built (R "empty") /\ range_is_empty (R "empty") = true /\ plain (R "*|*") /\ is_any (R "*|*") = true.
Proof. split; [rng|]. split; [vm_compute; reflexivity|]. split; [rng|]. vm_compute; reflexivity. Qed.

(** ** C50: compatible release *)
(** [~=a.b] is [>=a.b, <(a+1).0]; [~=a.b.c...] is [>=a.b.c..., <a.(b+1).0]. *)
Theorem C50_two_numbers : forall (a b : N) (lo : version),
  (a < U64_MAX)%N -> parse_version (dotted [a; b]) = Some lo ->
  exists r, parse_range (T "~=" ++ dotted [a; b]) = Some r /\
    forall up, parse_version (dotted [(a + 1)%N; 0%N]) = Some up -> forall v,
      contains r v = true <-> vcmp v lo <> Lt /\ vcmp v up = Lt.
Proof. exact compat_two. Qed.
Print Assumptions C50_two_numbers.
Theorem C50_more_numbers : forall (a b c : N) (l : list N) (lo : version),
  (b < U64_MAX)%N -> length l <= 2 -> parse_version (dotted (a :: b :: c :: l)) = Some lo ->
  exists r, parse_range (T "~=" ++ dotted (a :: b :: c :: l)) = Some r /\
    forall up, parse_version (dotted [a; (b + 1)%N; 0%N]) = Some up -> forall v,
      contains r v = true <-> vcmp v lo <> Lt /\ vcmp v up = Lt.
Proof. exact compat_three. Qed.
Print Assumptions C50_more_numbers.
(** The base version is compatible with itself.  Missing: the number to bump is 2^64-1,
    where it is false in a release build (and a panic in a debug build). *)
Theorem C50_base_compatible_partial : forall (a b : N) (lo : version),
  (a < U64_MAX)%N -> parse_version (dotted [a; b]) = Some lo ->
  exists r, parse_range (T "~=" ++ dotted [a; b]) = Some r /\ contains r lo = true.
Proof. exact compat_contains_base_two. Qed.
Print Assumptions C50_base_compatible_partial.
Theorem C50_base_compatible_more_partial : forall (a b c : N) (l : list N) (lo : version),
  (b < U64_MAX)%N -> length l <= 2 -> parse_version (dotted (a :: b :: c :: l)) = Some lo ->
  exists r, parse_range (T "~=" ++ dotted (a :: b :: c :: l)) = Some r /\ contains r lo = true.
Proof. exact compat_contains_base_three. Qed.
Print Assumptions C50_base_compatible_more_partial.
Theorem C50_base_compatible_refuted : exists (s : text) (r : range) (v : version),
  parse_range (T "~=" ++ s) = Some r /\ parse_version s = Some v /\ contains r v = false.
Proof.
  exists (T "18446744073709551615.1"), (R "~=18446744073709551615.1"), (V "18446744073709551615.1").
  splits; vm_compute; reflexivity.
Qed.
Print Assumptions C50_base_compatible_refuted.
Example C50_example : dotted [1; 4; 2]%N = T "1.4.2" /\ parse_version (dotted [1; 4; 2]%N) <> None /\
  contains (R "~=1.4.2") (V "1.4.9") = true /\ contains (R "~=1.4.2") (V "1.5") = false.
Proof. splits; vm_compute; congruence. Qed.
