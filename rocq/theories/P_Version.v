(** Properties C01-C06: versions. *)
From Verif Require Import Base Base_lemmas Version_model Version_spec Version_proofs Version_order Version_hash.

(** the version written as [s], when [s] is known to parse *)
Definition V (s : string) : version :=
  match parse_version (T s) with Some v => v | None => v_empty end.

(** ** C01 *)
Theorem C01_compare_coherent : forall a b : version,
  vcmp a a = Eq /\ vcmp b a = CompOpp (vcmp a b) /\ (veq a b = true <-> vcmp a b = Eq).
Proof. exact (fun a b => conj (vcmp_refl a) (conj (vcmp_anti a b) (veq_iff a b))). Qed.
Print Assumptions C01_compare_coherent.

(** the empty version is least, the infinite one greatest *)
Theorem C01_extremes : forall v : version, vcmp v_empty v <> Gt /\ vcmp v v_inf <> Gt.
Proof. exact (fun v => conj (empty_least v) (inf_greatest v)). Qed.
Print Assumptions C01_extremes.

Example C01_example :
  parse_version (T "1.2-rc1") <> None /\ vcmp (V "1.2-rc1") (V "1.2.0") = Lt /\
  vcmp (V "1.2.0") (V "1.2-rc1") = Gt /\ veq (V "1.0") (V "1") = true.
Proof. repeat split; vm_compute; congruence. Qed.

(** ** C02: transitivity fails for versions as parsed ... *)
Theorem C02_transitive_refuted : exists a b c : version,
  parsed a /\ parsed b /\ parsed c /\ vcmp a b <> Gt /\ vcmp b c <> Gt /\ vcmp a c = Gt.
Proof.
  exists (V "1"), (V "1.0.0"), (V "1.0.1").
  repeat split; try (vm_compute; congruence); [exists (T "1")|exists (T "1.0.0")|exists (T "1.0.1")];
    vm_compute; reflexivity.
Qed.
Print Assumptions C02_transitive_refuted.

(** ... even equality is not transitive ... *)
Theorem C02_equality_transitive_refuted : exists a b c : version,
  parsed a /\ parsed b /\ parsed c /\ veq a b = true /\ veq b c = true /\ veq a c = false.
Proof.
  exists (V "1"), (V "1.0"), (V "1.00").
  repeat split; try (vm_compute; congruence); [exists (T "1")|exists (T "1.0")|exists (T "1.00")];
    vm_compute; reflexivity.
Qed.
Print Assumptions C02_equality_transitive_refuted.

(** ... and tokens with numbers beyond 64 bits form a strict cycle *)
Theorem C02_huge_numbers_refuted : exists a b c : version,
  parsed a /\ parsed b /\ parsed c /\ vcmp a b = Lt /\ vcmp b c = Lt /\ vcmp c a = Lt.
Proof.
  exists (V "z"), (V "99999999999999999999"), (V "a1").
  repeat split; try (vm_compute; congruence);
    [exists (T "z")|exists (T "99999999999999999999")|exists (T "a1")]; vm_compute; reflexivity.
Qed.
Print Assumptions C02_huge_numbers_refuted.

(** Transitivity holds among versions without a trailing "0" token (numbers below 2^64).
    Missing for the full statement: versions ending in "0" and numbers of 2^64 or more,
    for which it is false. *)
Theorem C02_transitive_partial : forall a b c : version,
  parsed a -> parsed b -> parsed c ->
  small_version a -> small_version b -> small_version c ->
  no_trailing_zero (v_tokens a) -> no_trailing_zero (v_tokens b) -> no_trailing_zero (v_tokens c) ->
  vcmp a b <> Gt -> vcmp b c <> Gt -> vcmp a c <> Gt.
Proof. exact trans_no_trailing_zero. Qed.
Print Assumptions C02_transitive_partial.

(** Transitivity also holds among versions with the same number of tokens, zeros included. *)
Theorem C02_transitive_same_length_partial : forall (n : nat) (a b c : version),
  parsed a -> parsed b -> parsed c ->
  small_version a -> small_version b -> small_version c ->
  length (v_tokens a) = n -> length (v_tokens b) = n -> length (v_tokens c) = n ->
  vcmp a b <> Gt -> vcmp b c <> Gt -> vcmp a c <> Gt.
Proof. exact trans_same_length. Qed.
Print Assumptions C02_transitive_same_length_partial.

Example C02_example :
  parsed (V "1.0.1") /\ small_version (V "1.0.1") /\ no_trailing_zero (v_tokens (V "1.0.1")) /\
  vcmp (V "1.0.1") (V "1.0.2") <> Gt /\ vcmp (V "1.0.2") (V "1.1") <> Gt.
Proof.
  split; [exists (T "1.0.1"); vm_compute; reflexivity|].
  split; [repeat (constructor; [apply short_small; vm_compute; repeat constructor|]); constructor|].
  split; [|split; vm_compute; congruence].
  intros l' H. apply (f_equal (@rev text)) in H. rewrite rev_app_distr in H. vm_compute in H. discriminate.
Qed.

(** ** C03 *)
Theorem C03_hash_refuted : exists a b : version,
  parsed a /\ parsed b /\ veq a b = true /\ hash_input a <> hash_input b.
Proof.
  exists (V "1.0"), (V "1.0.0").
  repeat split; try (vm_compute; congruence); [exists (T "1.0")|exists (T "1.0.0")]; vm_compute; reflexivity.
Qed.
Print Assumptions C03_hash_refuted.

(** Hash agrees with equality on canonical versions: dotted, numerals below 2^64 without
    leading zeros, last token not "0".  Missing: all other spellings, where it is false. *)
Theorem C03_hash_partial : forall a b : version,
  canonical_version a -> canonical_version b -> veq a b = true -> hash_input a = hash_input b.
Proof. exact (fun a b Ha Hb H => canonical_eq_text a b Ha Hb (proj1 (veq_iff a b) H)). Qed.
Print Assumptions C03_hash_partial.

Example C03_example : canonical_version (V "2.1").
Proof.
  split; [exists (T "2.1"); vm_compute; reflexivity|].
  split; [repeat (constructor; [apply short_small; vm_compute; repeat constructor|]); constructor|].
  split.
  { intros l' H. apply (f_equal (@rev text)) in H. rewrite rev_app_distr in H. vm_compute in H. discriminate. }
  split; [repeat (constructor; [apply single_canonical|]); constructor|].
  repeat constructor.
Qed.

(** ** C04 *)
Theorem C04_text_roundtrip : forall (s : text) (v : version),
  parse_version s = Some v -> parse_version (v_str v) = Some v.
Proof. exact parse_version_roundtrip. Qed.
Print Assumptions C04_text_roundtrip.

Theorem C04_text_is_tokens_and_separators : forall (s : text) (v : version),
  parse_version s = Some v -> ~ special (trim s) ->
  weave (v_tokens v) (v_seps v) = v_str v /\ v_str v = trim s.
Proof. exact parse_version_weave. Qed.
Print Assumptions C04_text_is_tokens_and_separators.

(** serialisation is by text *)
Theorem C04_serialize_roundtrip : forall v : version, parsed v -> v_deserialize (v_serialize v) = Some v.
Proof. exact (fun v H => match H with ex_intro _ s Hs => parse_version_roundtrip s v Hs end). Qed.
Print Assumptions C04_serialize_roundtrip.

Example C04_example : parse_version (T " 1.2-beta_3+x ") =
  Some (mkVersion [T "1"; T "2"; T "beta_3"; T "x"] [T "."; T "-"; T "+"] (T "1.2-beta_3+x")).
Proof. vm_compute. reflexivity. Qed.

(** ** C05 *)
Theorem C05_accepted_iff_grammar : forall s : text,
  (exists v, parse_version s = Some v) <->
  special (trim s) \/ exists ts cs, version_grammar (trim s) ts cs.
Proof. exact parse_version_accepts. Qed.
Print Assumptions C05_accepted_iff_grammar.

(** and the result is what the grammar says; the grammar is unambiguous *)
Theorem C05_result : forall (s : text) ts cs,
  ~ special (trim s) -> version_grammar (trim s) ts cs ->
  parse_version s = Some (mkVersion ts (map (fun c => [c]) cs) (trim s)).
Proof. exact parse_version_result. Qed.
Print Assumptions C05_result.
Theorem C05_unambiguous : forall s ts cs ts' cs',
  shape s ts cs -> shape s ts' cs' -> ts = ts' /\ cs = cs'.
Proof. exact shape_fun. Qed.
Print Assumptions C05_unambiguous.

Example C05_example :
  parse_version (T "1.2.3.4.5") <> None /\ parse_version (T "1.2.3.4.5.6") = None /\
  parse_version (T "1..2") = None /\ parse_version (T "v1") = None /\ parse_version (T "1_") = None.
Proof. repeat split; vm_compute; congruence. Qed.

(** ** C06 *)
Theorem C06_tokenizer_complete : forall (s : text) (v : version),
  trim s = s -> ~ special s -> parse_version s = Some v ->
  exists r, sm_parse 10 5 s = Some (r, concat (v_seps v)) /\ Forall2 token_kind (v_tokens v) r.
Proof. exact tokenizer_complete. Qed.
Print Assumptions C06_tokenizer_complete.
Theorem C06_tokenizer_sound : forall (s : text) r cs,
  trim s = s -> ~ special s ->
  hd_error s <> Some "v"%char -> hd_error s <> Some "V"%char ->
  sm_parse 10 5 s = Some (r, cs) ->
  (forall t, In (Alphanumeric t) r -> ~ digits_only t) ->
  exists v, parse_version s = Some v /\ cs = concat (v_seps v) /\ Forall2 token_kind (v_tokens v) r.
Proof. exact tokenizer_sound. Qed.
Print Assumptions C06_tokenizer_sound.

Example C06_example :
  sm_parse 10 5 (T "1.2-rc1") = Some ([Numeric 1; Numeric 2; Alphanumeric (T "rc1")], [".";"-"]%char) /\
  parse_version (T "1.2-rc1") <> None.
Proof. split; vm_compute; congruence. Qed.
(** the side conditions are needed *)
Example C06_side_conditions_needed :
  sm_parse 10 5 (T "v1") <> None /\ parse_version (T "v1") = None /\
  sm_parse 10 5 (T "1.2.3.4.5.99999999999999999999") <> None /\
  parse_version (T "1.2.3.4.5.99999999999999999999") = None.
Proof. repeat split; vm_compute; congruence. Qed.
