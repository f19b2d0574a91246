(** Properties C14-C17, C51-C53: requirements. *)
From Verif Require Import Base Base_lemmas Text_lemmas Version_model Version_spec Version_proofs Version_order Version_hash
  P_Version Range_model Range_spec Range_text P_Range
  Requirement_model Requirement_spec Requirement_proofs Requirement_text Requirement_package.

(** the requirement written as [s], when [s] is known to parse *)
Definition Q (s : string) : requirement :=
  match parse_requirement (T s) with Some r => r | None => req_new [] end.
Definition PR (s : string) : package_req :=
  match parse_package_req (T s) with Some r => r | None => mkPkgReq [] None false false end.
Lemma V_written s : parse_version (T s) <> None -> v_str (V s) <> [] -> written (V s).
Proof. intros H1 H2. split; [apply V_parsed; exact H1|exact H2]. Qed.
Ltac wr := apply V_written; ok.

(** ** C14: constraint trees *)
(** [meets] reads conjunctions, alternatives and exclusions as such, at every depth. *)
Theorem C14_satisfaction_is_the_predicate : forall (c : vconstraint) (ver : version),
  c_satisfied c ver = true <-> meets basic_reading ver c.
Proof. exact satisfied_meets. Qed.
Print Assumptions C14_satisfaction_is_the_predicate.

Theorem C14_and : forall (a b : vconstraint) (ver : version),
  c_satisfied (c_and a b) ver = true <-> c_satisfied a ver = true /\ c_satisfied b ver = true.
Proof. intros. rewrite and_satisfied. apply andb_true_iff. Qed.
Print Assumptions C14_and.

Theorem C14_or : forall (a b : vconstraint) (ver : version),
  c_satisfied (c_or a b) ver = true <-> c_satisfied a ver = true \/ c_satisfied b ver = true.
Proof. intros. rewrite or_satisfied. apply orb_true_iff. Qed.
Print Assumptions C14_or.

Example C14_case :
  let c := c_and (c_or (CLt (V "2.0")) (CGe (V "3.0"))) (CExclude [V "3.5"]) in
  map (fun s => c_satisfied c (V s)) ["1.5"; "2.5"; "3.1"; "3.5"]%string = [true; false; true; false].
Proof. vm_compute. reflexivity. Qed.

(** ** C15: display and parse *)
(** Every requirement value of the printable form is read back exactly. *)
Theorem C15_display_parse_partial : forall (r : requirement),
  printable r -> parse_requirement (show_requirement r) = Some r.
Proof. exact show_parse_printable. Qed.
Print Assumptions C15_display_parse_partial.

(** Every accepted text without bracket conditions, with a well-formed name and no empty version.
    Missing: bracketed conditions (their order and spacing is not kept), names with other
    characters, empty versions; see the refutations. *)
Theorem C15_roundtrip_partial : forall (s : text) (r : requirement),
  parse_requirement s = Some r -> ~ In "["%char s -> name_text (rq_name r) ->
  match rq_constraint r with Some c => spelled c | None => True end ->
  parse_requirement (show_requirement r) = Some r.
Proof. exact parse_show_roundtrip. Qed.
Print Assumptions C15_roundtrip_partial.

Example C15_case : let s := T "  ~ns::my_pkg-1.2..2.0 " in exists r, parse_requirement s = Some r /\
  rq_weak r = true /\ rq_namespace r = Some (T "ns") /\ rq_name r = T "my_pkg" /\
  show_requirement r = T "~ns::my_pkg>=1.2,<2.0" /\ ~ In "["%char s /\ name_text (rq_name r) /\
  match rq_constraint r with Some c => spelled c | None => True end.
Proof.
  eexists. split; [vm_compute; reflexivity|].
  cbn [rq_weak rq_namespace rq_name rq_constraint]. splits; try reflexivity.
  - intros H. apply existsb_char in H. vm_compute in H. discriminate.
  - split; [discriminate|reflexivity].
  - cbn [spelled fold_right v_str]. splits; try exact I; discriminate.
Qed.
Example C15_case_conditions :
  let r := mkReq (T "maya") (Some (CPrefix (V "2024"))) false false
             [mkPlatform (T "linux") None true] [mkEnvCond (T "SITE") (Some (T "paris")) false] None in
  show_requirement r = T "maya-2024[platform!='linux'][env.SITE=='paris']" /\ printable r.
Proof.
  cbv zeta. split; [vm_compute; reflexivity|].
  assert (forall s, existsb (fun c => existsb (Ascii.eqb c) [quote; "]"; "!"; "="; newline]%char) (T s) = false -> clean (T s)) as K.
  { intros s H. assert (forall d, In d [quote; "]"; "!"; "="; newline]%char -> ~ In d (T s)) as K.
    { intros d Hd Hin. assert (existsb (fun c => existsb (Ascii.eqb c) [quote; "]"; "!"; "="; newline]%char) (T s) = true).
      { apply existsb_exists. exists d. split; [exact Hin|]. apply existsb_char, Hd. } congruence. }
    unfold clean. splits; apply K; simpl; tauto. }
  unfold printable. cbn [rq_name rq_namespace rq_weak rq_conflict rq_constraint rq_platform rq_env]. splits; try exact I; try reflexivity.
  - split; [discriminate|reflexivity].
  - constructor; [apply V_parsed; ok|]. intros H. apply existsb_char in H. vm_compute in H. discriminate.
  - constructor; [|constructor]. split; [apply K; vm_compute; reflexivity|reflexivity].
  - constructor; [|constructor]. split; apply K; vm_compute; reflexivity.
Qed.

(** "foo-+" is read as foo >= (empty version) and shown as "foo>=", which the parser rejects. *)
Theorem C15_roundtrip_refuted : exists (s : text) (r : requirement),
  parse_requirement s = Some r /\ ~ In "["%char s /\ name_text (rq_name r) /\
  parse_requirement (show_requirement r) = None.
Proof.
  exists (T "foo-+"), (Q "foo-+"). splits.
  - vm_compute. reflexivity.
  - intros H. apply existsb_char in H. vm_compute in H. discriminate.
  - replace (rq_name (Q "foo-+")) with (T "foo") by (vm_compute; reflexivity). split; [discriminate|reflexivity].
  - vm_compute. reflexivity.
Qed.
Print Assumptions C15_roundtrip_refuted.

(** "[platform=='linux']!foo" is a plain request for a package called "!foo"; displayed, it becomes a conflict. *)
Theorem C15_polarity_refuted : exists (s : text) (r r' : requirement),
  parse_requirement s = Some r /\ rq_conflict r = false /\
  parse_requirement (show_requirement r) = Some r' /\ rq_conflict r' = true.
Proof.
  exists (T "[platform=='linux']!foo"), (Q "[platform=='linux']!foo"), (Q "!foo[platform=='linux']").
  splits; vm_compute; reflexivity.
Qed.
Print Assumptions C15_polarity_refuted.

(** A "variable is not set" condition is displayed as "variable is set". *)
Theorem C15_condition_refuted : exists (r r' : requirement) (env : list (text * text)),
  parse_requirement (show_requirement r) = Some r' /\ rq_name r = rq_name r' /\
  env_satisfied (rq_env r) env = true /\ env_satisfied (rq_env r') env = false.
Proof.
  exists (mkReq (T "foo") None false false [] [mkEnvCond (T "CI") None true] None), (Q "foo[env.CI]"), [].
  splits; vm_compute; reflexivity.
Qed.
Print Assumptions C15_condition_refuted.

(** ** C16: depth comparison and prefixes *)
(** Only positions present in both versions are looked at. *)
Theorem C16_depth_comparison : forall (ver con : version) (vs cs : list text),
  dot_parts (v_str ver) vs -> dot_parts (v_str con) cs ->
  (cmp_at_depth ver con = Eq <-> leads_same vs cs) /\
  (cmp_at_depth ver con = Lt <-> leads_below vs cs) /\
  (cmp_at_depth ver con = Gt <-> leads_below cs vs).
Proof. exact cmp_at_depth_spec. Qed.
Print Assumptions C16_depth_comparison.

(** More components after the bound's depth never change the answer. *)
Theorem C16_depth_extension : forall (ver ver' con : version) (extra vs cs : list text),
  dot_parts (v_str ver) vs -> dot_parts (v_str con) cs -> dot_parts (v_str ver') (vs ++ extra) ->
  length cs <= length vs -> cmp_at_depth ver' con = cmp_at_depth ver con.
Proof. exact cmp_at_depth_extend. Qed.
Print Assumptions C16_depth_extension.

Theorem C16_prefix_tokens : forall (ver p : version),
  c_satisfied (CPrefix p) ver = true <->
  length (v_tokens p) <= length (v_tokens ver) /\
  forall i a b, nth_error (v_tokens ver) i = Some a -> nth_error (v_tokens p) i = Some b -> compare_token a b = Eq.
Proof. intros. exact (has_prefix_spec ver p). Qed.
Print Assumptions C16_prefix_tokens.

(** On canonically spelled versions a prefix constraint accepts exactly the versions starting with its tokens. *)
Theorem C16_prefix_exact : forall (ver p : version), canonical_tokens ver -> canonical_tokens p ->
  c_satisfied (CPrefix p) ver = true <-> token_prefix p ver.
Proof. intros ver p. exact (has_prefix_canonical ver p). Qed.
Print Assumptions C16_prefix_exact.

Example C16_case : cmp_at_depth (V "1.5.9") (V "1.5") = Eq /\ cmp_at_depth (V "1.10") (V "1.9.3") = Gt /\
  c_satisfied (CPrefix (V "1.5")) (V "1.5.9") = true /\ c_satisfied (CPrefix (V "1.5")) (V "1.50") = false.
Proof. splits; vm_compute; reflexivity. Qed.
Example C16_case_canonical : canonical_tokens (V "1.5.9") /\ canonical_tokens (V "1.5") /\ token_prefix (V "1.5") (V "1.5.9").
Proof.
  assert (canonical_tokens (V "1.5.9")) as H.
  { norm_v. split; [match goal with |- parsed ?v => exists (v_str v); vm_compute; reflexivity end|]. split.
    - unfold small_version; cbn [v_tokens]; repeat (constructor; [apply short_small; vm_compute; repeat constructor|]); constructor.
    - cbn [v_tokens]. repeat (constructor; [apply single_canonical|]). constructor. }
  split; [exact H|]. split.
  - norm_v. split; [match goal with |- parsed ?v => exists (v_str v); vm_compute; reflexivity end|]. split.
    + unfold small_version; cbn [v_tokens]; repeat (constructor; [apply short_small; vm_compute; repeat constructor|]); constructor.
    + cbn [v_tokens]. repeat (constructor; [apply single_canonical|]). constructor.
  - exists [T "9"]. vm_compute. reflexivity.
Qed.

(** "==1.5.2" accepts version 1: positions missing in the candidate are ignored too. *)
Theorem C16_exact_refuted : exists (ver con : version) (vs cs : list text),
  parsed ver /\ parsed con /\ dot_parts (v_str ver) vs /\ dot_parts (v_str con) cs /\
  c_satisfied (CExact con) ver = true /\ length vs < length cs.
Proof.
  exists (V "1"), (V "1.5.2"), [T "1"], [T "1"; T "5"; T "2"].
  split; [rng|]. split; [rng|].
  split; [apply dot_parts_iff; vm_compute; reflexivity|]. split; [apply dot_parts_iff; vm_compute; reflexivity|].
  split; [vm_compute; reflexivity|]. vm_compute. repeat constructor.
Qed.
Print Assumptions C16_exact_refuted.

(** ** C17: matching of package requirements *)
Theorem C17_no_spec_matches_all : forall (name : text) (weak conflict : bool) (ver : version),
  pkg_satisfied (mkPkgReq name None weak conflict) ver = true.
Proof. reflexivity. Qed.
Print Assumptions C17_no_spec_matches_all.

(** A comma list of operator constraints is met iff each of them is. *)
Theorem C17_every_constraint : forall (name : text) (weak conflict : bool) (l : list (spec_op * version)) (ver : version),
  l <> [] -> (forall o v, In (o, v) l -> written v) ->
  pkg_satisfied (mkPkgReq name (Some (spec_text l)) weak conflict) ver = true <->
  forall o v, In (o, v) l -> op_reading o v ver.
Proof. exact pkg_satisfied_ops. Qed.
Print Assumptions C17_every_constraint.

(** A spec without operator and comma is a version range. *)
Theorem C17_range_spec : forall (name : text) (weak conflict : bool) (spec : text) (r : range) (ver : version),
  trim spec = spec -> spec <> [] -> ~ In ","%char spec -> spec_operator spec = None -> parse_range spec = Some r ->
  pkg_satisfied (mkPkgReq name (Some spec) weak conflict) ver = contains r ver.
Proof. exact pkg_satisfied_range. Qed.
Print Assumptions C17_range_spec.

(** The parser hands the written list to the matcher unchanged. *)
Theorem C17_parse_keeps_list : forall (n : text) (l : list (op * version)) (weak conflict : bool),
  name_text n -> l <> [] -> (forall o v, In (o, v) l -> written v) -> weak && conflict = false ->
  parse_package_req (mark weak conflict ++ n ++ request_text l) = Some (mkPkgReq n (Some (request_text l)) weak conflict).
Proof. exact parse_pkg_ops. Qed.
Print Assumptions C17_parse_keeps_list.

Example C17_case : let l := [(SGe, V "1.2"); (SLt, V "2.0"); (SNe, V "1.5")] in
  spec_text l = T ">=1.2,<2.0,!=1.5" /\ (forall o v, In (o, v) l -> written v) /\
  map (fun s => pkg_satisfied (mkPkgReq (T "foo") (Some (spec_text l)) false false) (V s))
    ["1.1"; "1.2.5"; "1.5"; "2.1"]%string = [false; true; false; false].
Proof.
  cbv zeta. splits; [vm_compute; reflexivity| |vm_compute; reflexivity].
  intros o v [[= <- <-]|[[= <- <-]|[[= <- <-]|[]]]]; wr.
Qed.
Example C17_case_range : spec_operator (T "1.2..2.0") = None /\
  match parse_range (T "1.2..2.0") with Some r => contains r (V "1.5") | None => false end = true.
Proof. split; vm_compute; reflexivity. Qed.

(** "!=" is understood by the matcher but not by the parser: "foo!=1.5" asks for a package named "foo!=1.5". *)
Theorem C17_exclusion_refuted : exists p : package_req,
  parse_package_req (T "foo!=1.5") = Some p /\ pr_name p = T "foo!=1.5" /\ forall ver, pkg_satisfied p ver = true.
Proof.
  exists (mkPkgReq (T "foo!=1.5") None false false). split; [vm_compute; reflexivity|]. split; reflexivity.
Qed.
Print Assumptions C17_exclusion_refuted.

(** ** C51: handing a package request to the solver *)
(** Requests without a version, or with a plain version, keep name and polarity; the version becomes a prefix.
    Missing: requests with operators, which lose their name (next theorem). *)
Theorem C51_conversion_partial : forall (n : text) (weak conflict : bool),
  name_text n -> ~ In "-"%char n -> weak && conflict = false ->
  to_solver_requirement (mkPkgReq n None weak conflict) = mkReq n None weak conflict [] [] None /\
  forall v, parsed v ->
  to_solver_requirement (mkPkgReq n (Some (v_str v)) weak conflict) = mkReq n (Some (CPrefix v)) weak conflict [] [] None.
Proof. intros n wk cf Hn Hd Hf. split; [exact (convert_name n wk cf Hn Hd Hf)|]. intros v Hv. exact (convert_prefix n v wk cf Hn Hd Hv Hf). Qed.
Print Assumptions C51_conversion_partial.

(** Every request with operators, as parsed, is converted to a request for a different package: "python>=3.9" for "python-". *)
Theorem C51_operator_requests_refuted : forall (n : text) (l : list (op * version)) (weak conflict : bool) (p : package_req),
  name_text n -> l <> [] -> (forall o v, In (o, v) l -> written v) -> weak && conflict = false ->
  parse_package_req (mark weak conflict ++ n ++ request_text l) = Some p ->
  pr_name p = n /\ rq_name (to_solver_requirement p) = n ++ T "-".
Proof.
  intros n l wk cf p Hn Hl Hw Hf H. rewrite (parse_pkg_ops n l wk cf Hn Hl Hw Hf) in H. injection H as <-.
  split; [reflexivity|]. rewrite (convert_ops n l wk cf Hn Hl Hw Hf). reflexivity.
Qed.
Print Assumptions C51_operator_requests_refuted.

Example C51_case : pr_name (PR "python>=3.9") = T "python" /\
  show_package_req (PR "python>=3.9") = T "python->=3.9" /\
  rq_name (to_solver_requirement (PR "python>=3.9")) = T "python-" /\
  rq_name (to_solver_requirement (PR "python-3.9")) = T "python".
Proof. splits; vm_compute; reflexivity. Qed.

(** ** C52: two matchers, one text *)
(** Missing: texts other than operator lists, where they disagree. *)
Theorem C52_matchers_agree_partial : forall (n : text) (l : list (op * version)) (weak conflict : bool)
    (p : package_req) (r : requirement) (ver : version),
  name_text n -> l <> [] -> (forall o v, In (o, v) l -> written v) -> weak && conflict = false ->
  parse_package_req (mark weak conflict ++ n ++ request_text l) = Some p ->
  parse_requirement (mark weak conflict ++ n ++ request_text l) = Some r ->
  pkg_satisfied p ver = r_satisfied r ver.
Proof. exact matchers_agree. Qed.
Print Assumptions C52_matchers_agree_partial.

Example C52_case : let l := [(OpGe, V "1.2"); (OpLt, V "2.0")] in
  name_text (T "foo") /\ (forall o v, In (o, v) l -> written v) /\ T "foo" ++ request_text l = T "foo>=1.2,<2.0" /\
  pkg_satisfied (PR "foo>=1.2,<2.0") (V "1.5") = true /\ r_satisfied (Q "foo>=1.2,<2.0") (V "1.5") = true.
Proof.
  cbv zeta. splits; try (vm_compute; reflexivity).
  - split; [discriminate|reflexivity].
  - intros o v [[= <- <-]|[[= <- <-]|[]]]; wr.
Qed.

(** "foo-1.2" accepts 1.2.5 as a solver requirement but not as a package requirement;
    "foo-1.0+" accepts 1.0.1 as a solver requirement but not as a package requirement. *)
Theorem C52_matchers_agree_refuted : exists (s1 s2 : text) (p1 p2 : package_req) (r1 r2 : requirement) (v1 v2 : version),
  parsed v1 /\ parse_package_req s1 = Some p1 /\ parse_requirement s1 = Some r1 /\
  r_satisfied r1 v1 = true /\ pkg_satisfied p1 v1 = false /\
  parsed v2 /\ parse_package_req s2 = Some p2 /\ parse_requirement s2 = Some r2 /\
  r_satisfied r2 v2 = true /\ pkg_satisfied p2 v2 = false.
Proof.
  exists (T "foo-1.2"), (T "foo-1.0+"), (PR "foo-1.2"), (PR "foo-1.0+"), (Q "foo-1.2"), (Q "foo-1.0+"), (V "1.2.5"), (V "1.0.1").
  split; [rng|]. do 4 (split; [vm_compute; reflexivity|]). split; [rng|]. splits; vm_compute; reflexivity.
Qed.
Print Assumptions C52_matchers_agree_refuted.

(** ** C53: platform and environment conditions *)
Theorem C53_env_conditions_all : forall (cs : list env_cond) (env : list (text * text)),
  env_satisfied cs env = true <-> forall c, In c cs -> xorb (ec_negate c) (env_match env c) = true.
Proof. exact env_satisfied_spec. Qed.
Print Assumptions C53_env_conditions_all.

Theorem C53_platform_positive_partial : forall (cs : list platform_cond) (p : text) (a : option text),
  cs <> [] -> (forall c, In c cs -> pc_negate c = false) ->
  platform_satisfied cs p a = true <-> exists c, In c cs /\ platform_match p a c = true.
Proof. exact platform_positive. Qed.
Print Assumptions C53_platform_positive_partial.

(** Missing: lists mixing positive and negated conditions, where the answer depends on their order. *)
Theorem C53_platform_negative_partial : forall (cs : list platform_cond) (p : text) (a : option text),
  (forall c, In c cs -> pc_negate c = true) ->
  platform_satisfied cs p a = true <-> forall c, In c cs -> platform_match p a c = false.
Proof. exact platform_negative. Qed.
Print Assumptions C53_platform_negative_partial.

Theorem C53_platform_order_refuted : exists (c1 c2 : platform_cond) (p : text) (a : option text),
  platform_satisfied [c1; c2] p a = true /\ platform_satisfied [c2; c1] p a = false.
Proof.
  exists (mkPlatform (T "linux") None false), (mkPlatform (T "linux") (Some (T "x86_64")) true), (T "linux"), (Some (T "x86_64")).
  split; vm_compute; reflexivity.
Qed.
Print Assumptions C53_platform_order_refuted.

(** The architecture in a written condition is dropped. *)
Theorem C53_arch_refuted : exists (r : requirement),
  parse_requirement (T "foo[platform=='linux' and arch=='x86_64']") = Some r /\
  platform_satisfied (rq_platform r) (T "linux") (Some (T "arm64")) = true.
Proof. exists (Q "foo[platform=='linux' and arch=='x86_64']"). split; vm_compute; reflexivity. Qed.
Print Assumptions C53_arch_refuted.

Example C53_case : let cs := [mkPlatform (T "linux") None false; mkPlatform (T "osx") None false] in
  platform_satisfied cs (T "osx") None = true /\ platform_satisfied cs (T "windows") None = false /\
  env_satisfied [mkEnvCond (T "A") (Some (T "1")) false; mkEnvCond (T "B") None true] [(T "A", T "1")] = true.
Proof. cbv zeta. splits; vm_compute; reflexivity. Qed.
