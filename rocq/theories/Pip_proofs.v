(** Names and requirements of pip packages. *)
From Verif Require Import Base Base_lemmas Text_lemmas Maps Version_model Version_spec Version_proofs Version_order Range_model Range_spec Range_proofs Range_text Range_compat
  Requirement_model Requirement_spec Requirement_proofs Requirement_text Query_model Pip_model Pip_spec.
Open Scope string_scope.
Open Scope list_scope.

(** ** names *)
Lemma lower_dash c : to_lower c = "-"%char <-> c = "-"%char.
Proof. destruct c as [[] [] [] [] [] [] [] []]; vm_compute; split; congruence. Qed.
Lemma lower_under c : to_lower c = "_"%char <-> c = "_"%char.
Proof. destruct c as [[] [] [] [] [] [] [] []]; vm_compute; split; congruence. Qed.
Lemma lower_lower c : to_lower (to_lower c) = to_lower c.
Proof. destruct c as [[] [] [] [] [] [] [] []]; reflexivity. Qed.
Lemma dashy_dec c : {dashy c} + {~ dashy c}.
Proof. destruct (ascii_dec c "-"%char); [left; left; assumption|]. destruct (ascii_dec c "_"%char); [left; right; assumption|]. right. intros [H|H]; contradiction. Qed.
Lemma dashy_lower c : dashy (to_lower c) <-> dashy c.
Proof. unfold dashy. rewrite lower_dash, lower_under. reflexivity. Qed.
Definition char_to (a b c : ascii) : ascii := if Ascii.eqb (to_lower c) a then b else to_lower c.
Lemma swap_lower a b s : swap a b (lower s) = map (char_to a b) s.
Proof. unfold swap, lower. rewrite map_map. reflexivity. Qed.
Lemma char_api c : (dashy c -> char_to "_" "-" c = "-"%char) /\ (~ dashy c -> char_to "_" "-" c = to_lower c).
Proof.
  unfold char_to. split; intros H.
  - destruct H as [-> | ->]; reflexivity.
  - destruct (Ascii.eqb_spec (to_lower c) "_"); [exfalso; apply H; right; apply lower_under; assumption|reflexivity].
Qed.
Lemma char_cli c : (dashy c -> char_to "-" "_" c = "_"%char) /\ (~ dashy c -> char_to "-" "_" c = to_lower c).
Proof.
  unfold char_to. split; intros H.
  - destruct H as [-> | ->]; reflexivity.
  - destruct (Ascii.eqb_spec (to_lower c) "-"); [exfalso; apply H; left; apply lower_dash; assumption|reflexivity].
Qed.
Lemma char_same (f : ascii -> ascii) (x : ascii) : (forall c, (dashy c -> f c = x) /\ (~ dashy c -> f c = to_lower c)) -> dashy x -> forall c d, f c = f d <-> same_char c d.
Proof.
  intros F X c d. unfold same_char. destruct (dashy_dec c) as [C|C], (dashy_dec d) as [D|D].
  - rewrite (proj1 (F c) C), (proj1 (F d) D). tauto.
  - rewrite (proj1 (F c) C), (proj2 (F d) D). split; [|tauto]. intros E. exfalso. apply D. apply dashy_lower. rewrite <- E. exact X.
  - rewrite (proj2 (F c) C), (proj1 (F d) D). split; [|tauto]. intros E. exfalso. apply C. apply dashy_lower. rewrite E. exact X.
  - rewrite (proj2 (F c) C), (proj2 (F d) D). tauto.
Qed.
Lemma map_same (f : ascii -> ascii) : (forall c d, f c = f d <-> same_char c d) -> forall a b, map f a = map f b <-> same_name a b.
Proof.
  intros F. induction a as [|c a IH]; intros [|d b]; cbn [map].
  - split; [constructor|reflexivity].
  - split; [discriminate|intros H; inversion H].
  - split; [discriminate|intros H; inversion H].
  - split.
    + intros [= E1 E2]. constructor; [apply F, E1|apply IH, E2].
    + intros H. inversion H; subst. f_equal; [apply F; assumption|apply IH; assumption].
Qed.
Lemma api_same a b : normalize_package_name a = normalize_package_name b <-> same_name a b.
Proof. unfold normalize_package_name. rewrite !swap_lower. apply map_same, (char_same _ "-"%char); [apply char_api|left; reflexivity]. Qed.
Lemma cli_same a b : cli_name a = cli_name b <-> same_name a b.
Proof. unfold cli_name. rewrite !swap_lower. apply map_same, (char_same _ "_"%char); [apply char_cli|right; reflexivity]. Qed.
Lemma api_cli n : normalize_package_name n = cli_name n <-> undashed n.
Proof.
  unfold normalize_package_name, cli_name. rewrite !swap_lower. induction n as [|c n IH]; cbn [map].
  - split; [intros _ c []|reflexivity].
  - split.
    + intros [= E1 E2] d [<-|D]; [|apply (proj1 IH E2 d D)]. intros C. rewrite (proj1 (char_api c) C), (proj1 (char_cli c) C) in E1. discriminate.
    + intros U. f_equal; [|apply IH; intros d D; apply U; right; exact D].
      assert (C : ~ dashy c) by (apply U; left; reflexivity). rewrite (proj2 (char_api c) C), (proj2 (char_cli c) C). reflexivity.
Qed.
Lemma same_name_refl n : same_name n n.
Proof. induction n as [|c n IH]; [constructor|]. constructor; [|exact IH]. unfold same_char. destruct (dashy_dec c); auto. Qed.
Lemma api_idem n : normalize_package_name (normalize_package_name n) = normalize_package_name n.
Proof.
  unfold normalize_package_name at 1 3. rewrite !swap_lower. unfold normalize_package_name. rewrite swap_lower, map_map. apply map_ext. intros c.
  destruct (dashy_dec c) as [C|C]; [rewrite (proj1 (char_api c) C); reflexivity|]. rewrite (proj2 (char_api c) C).
  assert (C' : ~ dashy (to_lower c)) by (rewrite dashy_lower; exact C). rewrite (proj2 (char_api _) C'). apply lower_lower.
Qed.
Lemma cli_idem n : cli_name (cli_name n) = cli_name n.
Proof.
  unfold cli_name at 1 3. rewrite !swap_lower. unfold cli_name. rewrite swap_lower, map_map. apply map_ext. intros c.
  destruct (dashy_dec c) as [C|C]; [rewrite (proj1 (char_cli c) C); reflexivity|]. rewrite (proj2 (char_cli c) C).
  assert (C' : ~ dashy (to_lower c)) by (rewrite dashy_lower; exact C). rewrite (proj2 (char_cli _) C'). apply lower_lower.
Qed.
Lemma name_char_lower c : name_char (to_lower c) = name_char c.
Proof. destruct c as [[] [] [] [] [] [] [] []]; reflexivity. Qed.
Lemma api_name_text n : name_text n -> name_text (normalize_package_name n).
Proof.
  intros [N H]. split.
  - destruct n as [|c n]; [contradiction|discriminate].
  - unfold normalize_package_name. rewrite swap_lower. rewrite forallb_forall in *. intros d D. apply in_map_iff in D as (c & <- & C).
    destruct (dashy_dec c) as [X|X]; [rewrite (proj1 (char_api c) X); reflexivity|]. rewrite (proj2 (char_api c) X), name_char_lower. apply H, C.
Qed.
Lemma api_undashed n : undashed n -> ~ In "-"%char (normalize_package_name n).
Proof.
  intros U. unfold normalize_package_name. rewrite swap_lower. intros D. apply in_map_iff in D as (c & E & C).
  rewrite (proj2 (char_api c) (U c C)) in E. apply (U c C). left. exact (proj1 (lower_dash c) E).
Qed.
Lemma api_no_under n : ~ In "_"%char (normalize_package_name n).
Proof.
  unfold normalize_package_name. rewrite swap_lower. intros D. apply in_map_iff in D as (c & E & C).
  destruct (dashy_dec c) as [X|X]; [rewrite (proj1 (char_api c) X) in E; discriminate|]. rewrite (proj2 (char_api c) X) in E. apply X. right. exact (proj1 (lower_under c) E).
Qed.
Lemma api_dash n : ~ undashed n -> In "-"%char (normalize_package_name n).
Proof.
  intros U. unfold normalize_package_name. rewrite swap_lower.
  destruct (existsb (fun c => if dashy_dec c then true else false) n) eqn:E.
  - apply existsb_exists in E as (c & C & D). apply in_map_iff. exists c. split; [|exact C]. destruct (dashy_dec c) as [X|]; [|discriminate]. apply char_api, X.
  - exfalso. apply U. intros c C X. assert (K : existsb (fun c => if dashy_dec c then true else false) n = true) by (apply existsb_exists; exists c; split; [exact C|destruct (dashy_dec c); [reflexivity|contradiction]]). congruence.
Qed.

(** ** cutting texts *)
Definition none_of (stop : ascii -> bool) (s : text) : Prop := forall c, In c s -> stop c = false.
Lemma before_none stop s : none_of stop s -> before_any stop s = s.
Proof. induction s as [|c s IH]; intros H; [reflexivity|]. cbn. rewrite (H c (or_introl eq_refl)), IH; [reflexivity|]. intros d D. apply H. right. exact D. Qed.
Lemma before_app stop a c b : none_of stop a -> stop c = true -> before_any stop (a ++ c :: b) = a.
Proof. induction a as [|x a IH]; intros H C; cbn; [rewrite C; reflexivity|]. rewrite (H x (or_introl eq_refl)), IH; [reflexivity| |exact C]. intros d D. apply H. right. exact D. Qed.
Lemma from_none stop s : none_of stop s -> from_any stop s = None.
Proof. induction s as [|c s IH]; intros H; [reflexivity|]. cbn. rewrite (H c (or_introl eq_refl)). apply IH. intros d D. apply H. right. exact D. Qed.
Lemma from_app stop a c b : none_of stop a -> stop c = true -> from_any stop (a ++ c :: b) = Some (c :: b).
Proof. induction a as [|x a IH]; intros H C; cbn; [rewrite C; reflexivity|]. rewrite (H x (or_introl eq_refl)). apply IH; [|exact C]. intros d D. apply H. right. exact D. Qed.
Lemma before_spec stop s : none_of stop (before_any stop s) /\ (s = before_any stop s \/ exists c r, s = before_any stop s ++ c :: r /\ stop c = true).
Proof.
  induction s as [|c s [IH1 IH2]]; cbn; [split; [intros c []|left; reflexivity]|]. destruct (stop c) eqn:E.
  - split; [intros d []|]. right. exists c, s. split; [reflexivity|exact E].
  - split; [intros d [<-|D]; [exact E|apply IH1, D]|]. destruct IH2 as [IH2|(d & r & IH2 & D)]; [left; f_equal; exact IH2|right; exists d, r; split; [cbn; f_equal; exact IH2|exact D]].
Qed.
Lemma one_of_iff l c : one_of l c = true <-> In c l.
Proof. unfold one_of. rewrite existsb_exists. split; [intros (d & D & E); apply Ascii.eqb_eq in E; subst; exact D|intros D; exists c; split; [exact D|apply Ascii.eqb_refl]]. Qed.
Lemma name_none n l : name_text n -> (forall c, In c l -> name_char c = false) -> none_of (one_of l) n.
Proof.
  intros [_ H] L c C. destruct (one_of l c) eqn:E; [|reflexivity]. apply one_of_iff, L in E. rewrite forallb_forall in H. rewrite (H c C) in E. discriminate.
Qed.
Lemma vchar_none s l : forallb vchar s = true -> (forall c, In c l -> vchar c = false) -> none_of (one_of l) s.
Proof.
  intros H L c C. destruct (one_of l c) eqn:E; [|reflexivity]. apply one_of_iff, L in E. rewrite forallb_forall in H. rewrite (H c C) in E. discriminate.
Qed.

(** ** requirements *)
Definition visible (s : text) : Prop := forall c, In c s -> is_ws c = false /\ c <> "["%char /\ c <> ":"%char.
Lemma visible_app a b : visible a -> visible b -> visible (a ++ b).
Proof. intros A B c C. apply in_app_or in C as [C|C]; auto. Qed.
Lemma vchar_visible s : forallb vchar s = true -> visible s.
Proof.
  intros H c C. rewrite forallb_forall in H. specialize (H c C). clear C.
  destruct c as [[] [] [] [] [] [] [] []]; vm_compute in H; try discriminate H; (split; [reflexivity|split; discriminate]).
Qed.
Lemma name_visible n : name_text n -> visible n.
Proof. intros [_ H]. apply vchar_visible, name_chars_vchar, H. Qed.
Lemma visible_trim s : visible s -> trim s = s.
Proof. intros H. apply trim_no_ws. apply forallb_forall. intros c C. destruct (H c C) as [-> _]. reflexivity. Qed.
Lemma span_in f s a b : span f s = (a, b) -> forall c, In c b -> In c s.
Proof. intros E c C. destruct (span_spec f s a b E) as (-> & _). apply in_or_app. right. exact C. Qed.
Lemma simple_parse s c r : visible s -> s = c :: r -> c <> "!"%char -> c <> "~"%char ->
  parse_requirement s = match parse_name_and_version s with Some (n, oc) => Some (mkReq n oc false false [] [] None) | None => None end.
Proof.
  intros V E N1 N2. unfold parse_requirement. rewrite (visible_trim s V).
  assert (P1 : strip_prefix (T "!") s = None).
  { apply strip_prefix_none. rewrite E. cbn [starts_with T list_ascii_of_string]. destruct (Ascii.eqb_spec "!" c) as [<-|]; [congruence|reflexivity]. }
  assert (P2 : strip_prefix (T "~") s = None).
  { apply strip_prefix_none. rewrite E. cbn [starts_with T list_ascii_of_string]. destruct (Ascii.eqb_spec "~" c) as [<-|]; [congruence|reflexivity]. }
  rewrite P1. cbv iota beta. rewrite P2. cbv iota beta.
  assert (P3 : match_namespace s = None).
  { unfold match_namespace. destruct (span name_char s) as [a b] eqn:Es. destruct (is_nil a); [reflexivity|].
    assert (P : strip_prefix (T "::") b = None).
    { destruct (strip_prefix (T "::") b) as [p|] eqn:Ep; [|reflexivity]. apply strip_prefix_spec in Ep. exfalso.
      assert (I : In ":"%char s) by (apply (span_in _ _ _ _ Es); rewrite Ep; left; reflexivity). apply V in I. tauto. }
    rewrite P. reflexivity. }
  rewrite P3. cbv iota beta. rewrite parse_conditions_none by (intros I; apply V in I; tauto). reflexivity.
Qed.
Lemma name_head n : name_text n -> forall t, exists c r, n ++ t = c :: r /\ c <> "!"%char /\ c <> "~"%char.
Proof.
  intros [N H] t. destruct n as [|c n]; [contradiction|]. exists c, (n ++ t). split; [reflexivity|].
  cbn [forallb] in H. apply andb_true_iff in H as [H _]. split; intros ->; discriminate H.
Qed.
Lemma simple_read n t oc : name_text n -> visible t -> forall m, parse_name_and_version (n ++ t) = Some (m, oc) -> reads_as (n ++ t) m oc.
Proof.
  intros N V m E. destruct (name_head n N t) as (c & r & Ec & N1 & N2). unfold reads_as.
  rewrite (simple_parse (n ++ t) c r (visible_app _ _ (name_visible n N) V) Ec N1 N2), E. reflexivity.
Qed.
Lemma convert_shape n c r : name_text n -> In c (T "><=!") -> visible (c :: r) ->
  convert_requirement (n ++ c :: r) = normalize_package_name n ++ T "-" ++ pip_version_to_rez (c :: r).
Proof.
  intros N C V. unfold convert_requirement. assert (W : visible (n ++ c :: r)) by (apply visible_app; [apply name_visible, N|exact V]).
  assert (B : before_any (one_of (T "[")) (n ++ c :: r) = n ++ c :: r).
  { apply before_none. intros d D. destruct (one_of (T "[") d) eqn:E; [|reflexivity]. apply one_of_iff in E as [<-|[]]. apply W in D. tauto. }
  rewrite B, (visible_trim _ W). cbv zeta.
  assert (Hn : none_of (one_of (T "><=!")) n) by (apply name_none; [exact N|intros d [<-|[<-|[<-|[<-|[]]]]]; reflexivity]).
  assert (Hc : one_of (T "><=!") c = true) by (apply one_of_iff, C). rewrite from_app, before_app by assumption. reflexivity.
Qed.
Lemma convert_bare n : name_text n -> convert_requirement n = normalize_package_name n.
Proof.
  intros N. unfold convert_requirement. assert (V := name_visible n N).
  rewrite before_none by (apply name_none; [exact N|intros d [<-|[]]; reflexivity]). rewrite (visible_trim _ V). cbv zeta.
  rewrite from_none by (apply name_none; [exact N|intros d [<-|[<-|[<-|[<-|[]]]]]; reflexivity]). reflexivity.
Qed.
Lemma single s : visible s -> ~ In ","%char s -> pip_version_to_rez s = single_specifier s.
Proof. intros V N. unfold pip_version_to_rez. rewrite split_on_none by exact N. cbn [map]. rewrite (visible_trim s V). reflexivity. Qed.
Lemma op_visible o v : written v -> visible (op_text o ++ v_str v).
Proof. intros W. apply visible_app; [|apply vchar_visible, written_chars, W]. intros c C. destruct o; repeat (destruct C as [<-|C]; [split; [reflexivity|split; discriminate]|]); destruct C. Qed.
Lemma op_no_comma o v : written v -> ~ In ","%char (op_text o ++ v_str v).
Proof. intros W C. apply in_app_or in C as [C|C]; [destruct o; repeat (destruct C as [C|C]; [discriminate|]); destruct C|]. revert C. apply written_notin; [exact W|reflexivity]. Qed.

(** a lower bound *)
Lemma rfind_char_last d a b : ~ In d b -> rfind_char d (a ++ d :: b) = Some (a, b).
Proof.
  intros H. unfold rfind_char. rewrite rev_app_distr. cbn [rev]. rewrite <- app_assoc. cbn [app]. rewrite find_char_app by (rewrite <- in_rev; exact H). rewrite !rev_involutive. reflexivity.
Qed.
Lemma read_ge n v : name_text n -> written v -> ~ In "-"%char (v_str v) -> reads_as (n ++ T "-" ++ v_str v ++ T "+") n (Some (CGe v)).
Proof.
  intros N W D. assert (Hv := written_chars v W).
  assert (Hall : forallb vchar (n ++ T "-" ++ v_str v ++ T "+") = true) by (rewrite !forallb_app, (name_chars_vchar n) by apply N; rewrite Hv; reflexivity).
  apply simple_read; [exact N|apply vchar_visible; rewrite forallb_app in Hall; apply andb_true_iff in Hall; tauto|].
  destruct (vchars_no_match _ Hall) as [M1 M2]. unfold parse_name_and_version. rewrite M1, M2.
  assert (E : n ++ T "-" ++ v_str v ++ T "+" = (n ++ "-"%char :: v_str v) ++ ["+"%char]) by (rewrite <- !app_assoc; reflexivity).
  unfold parse_plus. rewrite E. assert (Ew : ends_with (T "+") ((n ++ "-"%char :: v_str v) ++ ["+"%char]) = true) by (apply ends_with_spec; eexists; reflexivity).
  rewrite Ew, removelast_last, rfind_char_last by exact D. rewrite parsed_text by apply W. reflexivity.
Qed.
Lemma convert_ge n v : name_text n -> written v -> ~ In "-"%char (v_str v) -> reads_as (convert_requirement (n ++ T ">=" ++ v_str v)) (normalize_package_name n) (Some (CGe v)).
Proof.
  intros N W D. change (T ">=" ++ v_str v) with (">"%char :: "="%char :: v_str v).
  rewrite (convert_shape n ">"%char ("="%char :: v_str v) N) by (first [left; reflexivity|exact (op_visible OpGe v W)]).
  rewrite (single (">"%char :: "="%char :: v_str v) (op_visible OpGe v W) (op_no_comma OpGe v W)).
  change (single_specifier (">"%char :: "="%char :: v_str v)) with (v_str v ++ T "+"). apply read_ge; [apply api_name_text, N|exact W|exact D].
Qed.
Lemma written_first v : written v -> exists c r, v_str v = c :: r /\ vchar c = true.
Proof. intros W. destruct (written_text v W) as (c & r & E & C & _). exists c, r. auto. Qed.
Lemma convert_gt n v : name_text n -> written v -> ~ In "-"%char (v_str v) -> reads_as (convert_requirement (n ++ T ">" ++ v_str v)) (normalize_package_name n) (Some (CGe v)).
Proof.
  intros N W D. change (T ">" ++ v_str v) with (">"%char :: v_str v).
  rewrite (convert_shape n ">"%char (v_str v) N) by (first [left; reflexivity|exact (op_visible OpGt v W)]).
  rewrite (single (">"%char :: v_str v) (op_visible OpGt v W) (op_no_comma OpGt v W)).
  assert (E : single_specifier (">"%char :: v_str v) = v_str v ++ T "+").
  { destruct (written_first v W) as (c & r & -> & C). unfold single_specifier, strip_prefix. cbn [starts_with T list_ascii_of_string].
    destruct (Ascii.eqb_spec "=" c) as [<-|]; [discriminate C|]. reflexivity. }
  rewrite E. apply read_ge; [apply api_name_text, N|exact W|exact D].
Qed.
(** an exact version *)
Lemma convert_eq n v : name_text n -> undashed n -> written v -> reads_as (convert_requirement (n ++ T "==" ++ v_str v)) (normalize_package_name n) (Some (CPrefix v)).
Proof.
  intros N U W. change (T "==" ++ v_str v) with ("="%char :: "="%char :: v_str v).
  rewrite (convert_shape n "="%char ("="%char :: v_str v) N) by (first [right; right; left; reflexivity|exact (op_visible OpEq v W)]).
  rewrite (single ("="%char :: "="%char :: v_str v) (op_visible OpEq v W) (op_no_comma OpEq v W)).
  change (single_specifier ("="%char :: "="%char :: v_str v)) with (v_str v).
  apply simple_read; [apply api_name_text, N|change (T "-" ++ v_str v) with ("-"%char :: v_str v); apply vchar_visible; cbn [forallb]; rewrite (written_chars v W); reflexivity|].
  apply parse_nv_prefix; [apply api_name_text, N|apply api_undashed, U|apply W].
Qed.
(** an upper bound alone *)
Lemma split_upper o v : (o = OpLt \/ o = OpLe) -> written v -> split_op (op_text o ++ v_str v) = Some (o, v_str v).
Proof. intros _ W. apply split_op_text, W. Qed.
Lemma name_dash n : name_text n -> name_text (n ++ T "-").
Proof. intros [N H]. split; [destruct n; discriminate|]. rewrite forallb_app, H. reflexivity. Qed.
Lemma read_op n o v : name_text n -> written v -> reads_as (n ++ op_text o ++ v_str v) n (Some (op_constraint o v)).
Proof.
  intros N W. apply simple_read; [exact N|apply op_visible, W|].
  pose proof (parse_nv_ops n [(o, v)] N) as P. specialize (P ltac:(discriminate)). apply P.
  intros x y [E|[]]. injection E as <- <-. exact W.
Qed.
Lemma convert_upper n o v : (o = OpLt \/ o = OpLe) -> name_text n -> written v ->
  reads_as (convert_requirement (n ++ op_text o ++ v_str v)) (normalize_package_name n ++ T "-") (Some (op_constraint o v)).
Proof.
  intros O N W. assert (E : convert_requirement (n ++ op_text o ++ v_str v) = normalize_package_name n ++ T "-" ++ op_text o ++ v_str v).
  { destruct O as [-> | ->].
    - change (op_text OpLt ++ v_str v) with ("<"%char :: v_str v).
      rewrite (convert_shape n "<"%char (v_str v) N) by (first [right; left; reflexivity|exact (op_visible OpLt v W)]).
      rewrite (single ("<"%char :: v_str v) (op_visible OpLt v W) (op_no_comma OpLt v W)). do 2 f_equal.
      destruct (written_first v W) as (c & r & -> & C). unfold single_specifier, strip_prefix. cbn [starts_with T list_ascii_of_string].
      destruct (Ascii.eqb_spec "=" c) as [<-|]; [discriminate C|]. reflexivity.
    - change (op_text OpLe ++ v_str v) with ("<"%char :: "="%char :: v_str v).
      rewrite (convert_shape n "<"%char ("="%char :: v_str v) N) by (first [right; left; reflexivity|exact (op_visible OpLe v W)]).
      rewrite (single ("<"%char :: "="%char :: v_str v) (op_visible OpLe v W) (op_no_comma OpLe v W)). reflexivity. }
  rewrite E, app_assoc. apply read_op; [apply name_dash, api_name_text, N|exact W].
Qed.
(** texts that no form fits *)
Lemma no_version s c r : s = c :: r -> is_ws c = false -> is_token_char c = false -> c <> "v"%char -> parse_version s = None \/ exists t, trim s = t /\ In t [[]; T "inf"; T "epsilon"].
Proof.
  intros E W K V. unfold parse_version. assert (exists r', trim s = c :: r') as [r' T'].
  { subst s. unfold trim. cbn [trim_start]. rewrite W. unfold trim_end.
    assert (G : forall t, exists r', rev (trim_start (rev (c :: t))) = c :: r').
    { intros t. cbn [rev]. assert (H : forall u, exists u', trim_start (u ++ [c]) = u' ++ [c]).
      { induction u as [|x u IH]; cbn; [rewrite W; exists []; reflexivity|]. destruct (is_ws x); [exact IH|exists (x :: u); reflexivity]. }
      destruct (H (rev t)) as [u' ->]. rewrite rev_app_distr. exists (rev u'). reflexivity. }
    apply G. }
  rewrite T'. cbn [is_nil]. destruct (text_eqb_spec (c :: r') (T "inf")) as [E1|_]; [right; exists (c :: r'); split; [reflexivity|right; left; symmetry; exact E1]|].
  destruct (text_eqb_spec (c :: r') (T "epsilon")) as [E1|_]; [right; exists (c :: r'); split; [reflexivity|right; right; left; symmetry; exact E1]|]. left.
  unfold parse_internal. destruct (starts_with (T "v") (c :: r') || starts_with (T "V") (c :: r')); [reflexivity|].
  destruct (contains_text (T "..") (c :: r') || starts_with (T ".") (c :: r') || ends_with (T ".") (c :: r')); [reflexivity|]. cbv zeta.
  destruct (is_nil (scan_tokens [] (c :: r'))); [reflexivity|]. destruct (Nat.ltb 5 (length (filter all_digit (scan_tokens [] (c :: r'))))); [reflexivity|].
  destruct (Nat.ltb 10 (length (scan_tokens [] (c :: r')))); [reflexivity|].
  assert (H : is_nil (hd [] (scan_split false [] (c :: r'))) = false).
  { assert (G : forall t cur, cur <> [] -> is_nil (hd [] (scan_split false cur t)) = false).
    { induction t as [|x t IH]; intros cur N; cbn [scan_split].
      - cbn [hd]. destruct (rev cur) eqn:R; [|reflexivity]. apply (f_equal (@rev ascii)) in R. rewrite rev_involutive in R. contradiction.
      - destruct (is_token_char x); [cbn [hd]; destruct (rev cur) eqn:R; [apply (f_equal (@rev ascii)) in R; rewrite rev_involutive in R; contradiction|reflexivity]|]. apply IH. discriminate. }
    cbn [scan_split]. rewrite K. apply G. discriminate. }
  rewrite H. reflexivity.
Qed.
Lemma sign_no_version c r : In c (T "=!~<>") -> parse_version (c :: r) = None.
Proof.
  intros C. assert (K : is_ws c = false /\ is_token_char c = false /\ c <> "v"%char) by (repeat (destruct C as [<-|C]; [split; [reflexivity|split; [reflexivity|discriminate]]|]); destruct C).
  destruct K as (K1 & K2 & K3). destruct (no_version (c :: r) c r eq_refl K1 K2 K3) as [H|(t & H1 & H2)]; [exact H|].
  exfalso. assert (X : exists r', trim (c :: r) = c :: r').
  { unfold trim. cbn [trim_start]. rewrite K1. unfold trim_end. cbn [rev]. assert (H : forall u, exists u', trim_start (u ++ [c]) = u' ++ [c]).
    { induction u as [|x u IH]; cbn; [rewrite K1; exists []; reflexivity|]. destruct (is_ws x); [exact IH|exists (x :: u); reflexivity]. }
    destruct (H (rev r)) as [u' ->]. rewrite rev_app_distr. exists (rev u'). reflexivity. }
  destruct X as [r' X]. rewrite X in H1. subst t. destruct H2 as [H2|[H2|[H2|[]]]]; [discriminate| |]; injection H2 as H2 _; subst c; repeat (destruct C as [C|C]; [discriminate|]); destruct C.
Qed.
(** the name and a text that cannot be read: everything is the name *)
Lemma read_whole n c r : name_text n -> ~ In "-"%char n -> In c (T "!~") -> forallb vchar r = true -> (exists u x, r = u ++ [x] /\ is_token_char x = true) -> contains_text (T "..") r = false ->
  parse_name_and_version (n ++ T "-" ++ c :: "="%char :: r) = Some (n ++ T "-" ++ c :: "="%char :: r, None) \/ c = "~"%char.
Proof.
  intros N D C V (u & x & E & X) Dd. destruct (ascii_dec c "~"%char) as [->|C']; [right; reflexivity|left].
  assert (c = "!"%char) as -> by (destruct C as [<-|[<-|[]]]; [reflexivity|contradiction]). clear C C'.
  unfold parse_name_and_version.
  assert (S : span name_char (n ++ T "-" ++ "!"%char :: "="%char :: r) = (n ++ T "-", "!"%char :: "="%char :: r)).
  { rewrite app_assoc. apply span_app; [apply (name_dash n N)|reflexivity]. }
  assert (M1 : match_wildcard (n ++ T "-" ++ "!"%char :: "="%char :: r) = None) by (unfold match_wildcard; rewrite S; destruct (is_nil (n ++ T "-")); reflexivity).
  assert (M2 : match_basic (n ++ T "-" ++ "!"%char :: "="%char :: r) = None) by (unfold match_basic; rewrite S; destruct (is_nil (n ++ T "-")); reflexivity).
  rewrite M1, M2. assert (M3 : ends_with (T "+") (n ++ T "-" ++ "!"%char :: "="%char :: r) = false).
  { rewrite E. replace (n ++ T "-" ++ "!"%char :: "="%char :: u ++ [x]) with ((n ++ T "-" ++ "!"%char :: "="%char :: u) ++ [x]) by (rewrite <- !app_assoc; reflexivity). apply ends_plus_false, X. }
  unfold parse_plus. rewrite M3. unfold parse_dash. change (n ++ T "-" ++ "!"%char :: "="%char :: r) with (n ++ "-"%char :: "!"%char :: "="%char :: r). rewrite find_char_app by exact D.
  assert (M4 : parse_rez_spec ("!"%char :: "="%char :: r) = None).
  { unfold parse_rez_spec. assert (F : find_dotdot ("!"%char :: "="%char :: r) = None).
    { apply find_dotdot_none. change (contains_text (T "..") ("!"%char :: "="%char :: r)) with (contains_text (T "..") r). exact Dd. }
    rewrite F. unfold parse_rez_tail. assert (F2 : find_char "<" ("!"%char :: "="%char :: r) = None).
    { apply find_char_none. intros [H|[H|H]]; try discriminate. revert H. eapply vchars_notin; [exact V|reflexivity]. }
    rewrite F2, E. rewrite (trim_plus_id ("!"%char :: "="%char :: u) x X : trim_plus ("!"%char :: "="%char :: u ++ [x]) = _).
    change (("!"%char :: "="%char :: u) ++ [x]) with ("!"%char :: "="%char :: u ++ [x]). rewrite sign_no_version by (right; left; reflexivity). reflexivity. }
  rewrite M4. reflexivity.
Qed.
Lemma written_end v : written v -> (exists u x, v_str v = u ++ [x] /\ is_token_char x = true) /\ contains_text (T "..") (v_str v) = false.
Proof. intros [P N]. split; [apply parsed_last; assumption|]. apply (parsed_vtext v P). Qed.
Lemma convert_ne n v : name_text n -> undashed n -> written v ->
  let t := normalize_package_name n ++ T "-!=" ++ v_str v in convert_requirement (n ++ T "!=" ++ v_str v) = t /\ reads_as t t None.
Proof.
  intros N U W. cbv zeta. assert (V : visible ("!"%char :: "="%char :: v_str v)).
  { change ("!"%char :: "="%char :: v_str v) with (T "!=" ++ v_str v). apply visible_app; [|apply vchar_visible, written_chars, W]. intros c [<-|[<-|[]]]; (split; [reflexivity|split; discriminate]). }
  assert (C : ~ In ","%char ("!"%char :: "="%char :: v_str v)) by (intros [H|[H|H]]; [discriminate|discriminate|]; revert H; apply written_notin; [exact W|reflexivity]).
  split.
  - change (T "!=" ++ v_str v) with ("!"%char :: "="%char :: v_str v).
    rewrite (convert_shape n "!"%char ("="%char :: v_str v) N) by (first [right; right; right; left; reflexivity|exact V]). rewrite (single _ V C). reflexivity.
  - apply simple_read; [apply api_name_text, N| |].
    + change (T "-!=" ++ v_str v) with (T "-" ++ "!"%char :: "="%char :: v_str v). apply visible_app; [apply vchar_visible; reflexivity|exact V].
    + destruct (written_end v W) as [E1 E2].
      destruct (read_whole (normalize_package_name n) "!"%char (v_str v) (api_name_text n N) (api_undashed n U) (or_introl eq_refl) (written_chars v W) E1 E2) as [H|H]; [exact H|discriminate].
Qed.
Lemma convert_compatible n v : name_text n -> undashed n -> written v ->
  let t := normalize_package_name n ++ T "~-=" ++ v_str v in convert_requirement (n ++ T "~=" ++ v_str v) = t /\ reads_as t t None.
Proof.
  intros N U W. cbv zeta. assert (V : visible ("="%char :: v_str v)).
  { change ("="%char :: v_str v) with (T "=" ++ v_str v). apply visible_app; [|apply vchar_visible, written_chars, W]. intros c [<-|[]]; (split; [reflexivity|split; discriminate]). }
  assert (C : ~ In ","%char ("="%char :: v_str v)) by (intros [H|H]; [discriminate|]; revert H; apply written_notin; [exact W|reflexivity]).
  assert (VV : visible (n ++ T "~" ++ "="%char :: v_str v)).
  { apply visible_app; [apply name_visible, N|]. apply visible_app; [intros c [<-|[]]; (split; [reflexivity|split; discriminate])|exact V]. }
  destruct (written_end v W) as [(u & x & E & X) E2]. split.
  - unfold convert_requirement. change (T "~=" ++ v_str v) with (T "~" ++ "="%char :: v_str v).
    rewrite before_none by (intros d D; destruct (one_of (T "[") d) eqn:Eo; [apply one_of_iff in Eo as [<-|[]]; apply VV in D; tauto|reflexivity]).
    rewrite (visible_trim _ VV). cbv zeta. rewrite app_assoc.
    assert (Hn : none_of (one_of (T "><=!")) (n ++ T "~")).
    { intros d D. apply in_app_or in D as [D|[<-|[]]]; [|reflexivity]. revert d D. apply name_none; [exact N|intros d [<-|[<-|[<-|[<-|[]]]]]; reflexivity]. }
    rewrite from_app, before_app by (exact Hn || reflexivity). rewrite (single _ V C).
    assert (E1 : single_specifier ("="%char :: v_str v) = "="%char :: v_str v).
    { destruct (written_first v W) as (c & r & -> & Cc). unfold single_specifier, strip_prefix. cbn [starts_with T list_ascii_of_string].
      destruct (Ascii.eqb_spec "=" c) as [<-|]; [discriminate Cc|]. reflexivity. }
    rewrite E1. assert (E3 : normalize_package_name (n ++ T "~") = normalize_package_name n ++ T "~").
    { unfold normalize_package_name, swap, lower. rewrite !map_app. reflexivity. }
    rewrite E3, <- !app_assoc. reflexivity.
  - pose proof (api_name_text n N) as N'. pose proof (api_undashed n U) as D'. set (m := normalize_package_name n) in *.
    apply simple_read; [exact N'| |].
    + change (T "~-=" ++ v_str v) with (T "~-" ++ "="%char :: v_str v). apply visible_app; [intros c [<-|[<-|[]]]; (split; [reflexivity|split; discriminate])|exact V].
    + unfold parse_name_and_version.
      assert (S : span name_char (m ++ T "~-=" ++ v_str v) = (m, T "~-=" ++ v_str v)) by (apply span_app; [apply N'|reflexivity]).
      assert (M1 : match_wildcard (m ++ T "~-=" ++ v_str v) = None) by (unfold match_wildcard; rewrite S; destruct (is_nil m); reflexivity).
      assert (M2 : match_basic (m ++ T "~-=" ++ v_str v) = None) by (unfold match_basic; rewrite S; destruct (is_nil m); reflexivity).
      rewrite M1, M2. assert (M3 : ends_with (T "+") (m ++ T "~-=" ++ v_str v) = false).
      { rewrite E. replace (m ++ T "~-=" ++ u ++ [x]) with ((m ++ T "~-=" ++ u) ++ [x]) by (rewrite <- !app_assoc; reflexivity). apply ends_plus_false, X. }
      unfold parse_plus. rewrite M3. unfold parse_dash. replace (m ++ T "~-=" ++ v_str v) with ((m ++ T "~") ++ "-"%char :: "="%char :: v_str v) by (rewrite <- app_assoc; reflexivity).
      rewrite find_char_app by (intros H; apply in_app_or in H as [H|[H|[]]]; [contradiction|discriminate]).
      assert (M4 : parse_rez_spec ("="%char :: v_str v) = None).
      { unfold parse_rez_spec. assert (F : find_dotdot ("="%char :: v_str v) = None).
        { apply find_dotdot_none. change (contains_text (T "..") ("="%char :: v_str v)) with (contains_text (T "..") (v_str v)). exact E2. }
        rewrite F. unfold parse_rez_tail. assert (F2 : find_char "<" ("="%char :: v_str v) = None).
        { apply find_char_none. intros [H|H]; try discriminate. revert H. apply written_notin; [exact W|reflexivity]. }
        rewrite F2, E. rewrite (trim_plus_id ("="%char :: u) x X : trim_plus ("="%char :: u ++ [x]) = _).
        change (("="%char :: u) ++ [x]) with ("="%char :: u ++ [x]). rewrite sign_no_version by (left; reflexivity). reflexivity. }
      rewrite M4. reflexivity.
Qed.
(** two bounds *)
Lemma trim_start_none p s : starts_with p s = false -> forall k, trim_start_text k p s = s.
Proof. intros H k. destruct k; [reflexivity|]. cbn. rewrite (proj2 (strip_prefix_none p s) H). reflexivity. Qed.
Lemma lower_ge_text v : written v -> lower_version (T ">=" ++ v_str v) = v_str v.
Proof.
  intros W. unfold lower_version. destruct (written_first v W) as (c & r & E & C).
  assert (N1 : starts_with (T ">=") (v_str v) = false) by (rewrite E; cbn [starts_with T list_ascii_of_string]; destruct (Ascii.eqb_spec ">" c) as [<-|]; [discriminate C|reflexivity]).
  assert (N2 : starts_with (T ">") (v_str v) = false) by (rewrite E; cbn [starts_with T list_ascii_of_string]; destruct (Ascii.eqb_spec ">" c) as [<-|]; [discriminate C|reflexivity]).
  cbn [length app T list_ascii_of_string]. cbn [trim_start_text]. change (strip_prefix _ (">"%char :: "="%char :: v_str v)) with (Some (v_str v)). cbv iota beta.
  assert (R : (match strip_prefix (T ">=") (v_str v) with Some r0 => trim_start_text (length (v_str v)) (T ">=") r0 | None => v_str v end) = v_str v) by (rewrite (proj2 (strip_prefix_none _ _) N1); reflexivity).
  cbn [T list_ascii_of_string] in R. rewrite R. apply trim_start_none, N2.
Qed.
Definition upper_op (o : op) : Prop := o = OpLt \/ o = OpLe.
Lemma read_range n lo o hi : name_text n -> ~ In "-"%char n -> written lo -> ~ In "-"%char (v_str lo) -> upper_op o -> written hi ->
  reads_as (n ++ T "-" ++ v_str lo ++ T "+" ++ op_text o ++ v_str hi) n (Some (CMultiple [CGe lo; op_constraint o hi])).
Proof.
  intros N D W Dl O Wh. assert (Hl := written_chars lo W). pose proof (written_end hi Wh) as [(u & x & E & X) _]. pose proof (written_end lo W) as [(ul & xl & El & Xl) Edl].
  apply simple_read; [exact N| |].
  { change (T "-" ++ v_str lo ++ T "+" ++ op_text o ++ v_str hi) with (("-"%char :: v_str lo) ++ T "+" ++ (op_text o ++ v_str hi)).
    apply visible_app; [apply vchar_visible; cbn [forallb]; rewrite Hl; reflexivity|]. apply visible_app; [apply vchar_visible; reflexivity|apply op_visible, Wh]. }
  unfold parse_name_and_version.
  set (t := n ++ T "-" ++ v_str lo ++ T "+" ++ op_text o ++ v_str hi).
  destruct (span name_char t) as [a b] eqn:S. destruct (span_spec _ _ _ _ S) as (Ea & Na & Hb).
  assert (HB : exists b', b = "+"%char :: b').
  { assert (Hpre : exists w1 w2, v_str lo = w1 ++ w2 /\ forallb name_char w1 = true /\ match w2 ++ ["+"%char] with c :: _ => name_char c = false | [] => True end).
    { destruct (span name_char (v_str lo)) as [w1 w2] eqn:Sl. destruct (span_spec _ _ _ _ Sl) as (El' & Nw & Hw). exists w1, w2. split; [exact El'|]. split; [exact Nw|]. destruct w2; [reflexivity|exact Hw]. }
    destruct Hpre as (w1 & w2 & Ew & Nw & Hw).
    assert (S2 : span name_char t = ((n ++ T "-") ++ w1, w2 ++ T "+" ++ op_text o ++ v_str hi)).
    { unfold t. rewrite Ew. replace (n ++ T "-" ++ (w1 ++ w2) ++ T "+" ++ op_text o ++ v_str hi) with (((n ++ T "-") ++ w1) ++ w2 ++ T "+" ++ op_text o ++ v_str hi) by (rewrite <- !app_assoc; reflexivity).
      apply span_app; [rewrite forallb_app, Nw, (proj2 (name_dash n N)); reflexivity|]. destruct w2; [reflexivity|exact Hw]. }
    rewrite S2 in S. injection S as <- <-. destruct w2 as [|c w2]; [eexists; reflexivity|].
    assert (c = "+"%char) as ->; [|eexists; reflexivity]. apply vchar_not_name; [|exact Hw]. rewrite Ew, forallb_app in Hl. apply andb_true_iff in Hl as [_ Hl]. cbn in Hl. apply andb_true_iff in Hl. tauto. }
  destruct HB as [b' ->].
  assert (M1 : match_wildcard t = None) by (unfold match_wildcard; rewrite S; destruct (is_nil a); reflexivity).
  assert (M2 : match_basic t = None) by (unfold match_basic; rewrite S; destruct (is_nil a); reflexivity).
  rewrite M1, M2. assert (M3 : ends_with (T "+") t = false).
  { unfold t. rewrite E. replace (n ++ T "-" ++ v_str lo ++ T "+" ++ op_text o ++ u ++ [x]) with ((n ++ T "-" ++ v_str lo ++ T "+" ++ op_text o ++ u) ++ [x]) by (rewrite <- !app_assoc; reflexivity). apply ends_plus_false, X. }
  unfold parse_plus. rewrite M3. unfold parse_dash, t. change (n ++ T "-" ++ ?s) with (n ++ "-"%char :: s). rewrite find_char_app by exact D.
  assert (Lt : ~ In "<"%char (v_str lo ++ T "+")).
  { intros H. apply in_app_or in H as [H|[H|[]]]; [|discriminate]. revert H. apply written_notin; [exact W|reflexivity]. }
  assert (R : exists r, op_text o ++ v_str hi = "<"%char :: r /\ (match strip_prefix (T "=") r with Some r' => (true, trim r') | None => (false, trim r) end) = ((match o with OpLe => true | _ => false end), v_str hi)).
  { assert (Tr : trim (v_str hi) = v_str hi) by (apply visible_trim, vchar_visible, written_chars, Wh).
    destruct O as [-> | ->].
    - exists (v_str hi). split; [reflexivity|]. assert (P : strip_prefix (T "=") (v_str hi) = None).
      { apply strip_prefix_none. destruct (written_first hi Wh) as (c & r & -> & C). cbn [starts_with T list_ascii_of_string]. destruct (Ascii.eqb_spec "=" c) as [<-|]; [discriminate C|reflexivity]. }
      rewrite P, Tr. reflexivity.
    - exists ("="%char :: v_str hi). split; [reflexivity|]. change (strip_prefix (T "=") ("="%char :: v_str hi)) with (Some (v_str hi)). cbv iota beta. rewrite Tr. reflexivity. }
  destruct R as (r & Er & Rr).
  assert (P : parse_rez_tail (v_str lo ++ T "+" ++ op_text o ++ v_str hi) = Some (CMultiple [CGe lo; op_constraint o hi])).
  { unfold parse_rez_tail. rewrite Er. replace (v_str lo ++ T "+" ++ "<"%char :: r) with ((v_str lo ++ T "+") ++ "<"%char :: r) by (rewrite <- app_assoc; reflexivity).
    rewrite find_char_app by exact Lt. assert (TP : trim_plus (v_str lo ++ T "+") = v_str lo).
    { rewrite El. unfold trim_plus. rewrite rev_app_distr. change (rev (T "+") ++ rev (ul ++ [xl])) with ("+"%char :: rev (ul ++ [xl])). change (Ascii.eqb "+" "+") with true. cbv iota beta.
      exact (trim_plus_id ul xl Xl). }
    rewrite TP, parsed_text by apply W. rewrite Rr. rewrite parsed_text by apply Wh. destruct O as [-> | ->]; reflexivity. }
  unfold parse_rez_spec. destruct (find_dotdot (v_str lo ++ T "+" ++ op_text o ++ v_str hi)) as [[p q]|] eqn:F.
  - exfalso. assert (K : contains_text (T "..") (v_str lo ++ T "+" ++ op_text o ++ v_str hi) = false).
    { destruct (contains_text (T "..") (v_str lo ++ T "+" ++ op_text o ++ v_str hi)) eqn:K; [|reflexivity]. exfalso.
      apply contains_text_spec in K as (k1 & k2 & K).
      assert (Gap : forall (A B : text) m, ~ In "."%char m -> m <> [] -> A ++ m ++ B = k1 ++ T ".." ++ k2 -> (exists s, A = k1 ++ T ".." ++ s) \/ (exists s, B = s ++ T ".." ++ k2)).
      { clear. intros A. revert k1. induction A as [|y A IH]; intros k1 B m M Nm E0.
        - right. cbn [app] in E0. revert k1 E0. induction m as [|z m IHm]; intros k1 E0; [contradiction|].
          destruct k1 as [|z' k1]; cbn [app T list_ascii_of_string] in E0; [injection E0 as -> _; exfalso; apply M; left; reflexivity|]. injection E0 as -> E0.
          destruct m as [|z2 m]; [exists k1; exact E0|]. apply (IHm ltac:(intros H; apply M; right; exact H) ltac:(discriminate) k1 E0).
        - destruct k1 as [|y' k1]; cbn [app T list_ascii_of_string] in E0.
          + injection E0 as -> E0. destruct A as [|y2 A]; cbn [app] in E0.
            * destruct m as [|z m]; [contradiction|]. cbn [app] in E0. injection E0 as -> _. exfalso. apply M. left. reflexivity.
            * injection E0 as -> E0. left. exists A. reflexivity.
          + injection E0 as -> E0. destruct (IH k1 B m M Nm E0) as [[s ->]|[s ->]]; [left; exists s; reflexivity|right; exists s; reflexivity]. }
      destruct (Gap (v_str lo) (v_str hi) (T "+" ++ op_text o)) as [[s Hs]|[s Hs]].
      - destruct O as [-> | ->]; intros H; repeat (destruct H as [H|H]; [discriminate|]); destruct H.
      - discriminate.
      - rewrite <- app_assoc. exact K.
      - assert (Cc : contains_text (T "..") (v_str lo) = true) by (apply contains_text_spec; exists k1, s; exact Hs). congruence.
      - destruct (written_end hi Wh) as [_ Ed]. assert (Cc : contains_text (T "..") (v_str hi) = true) by (apply contains_text_spec; exists s, k2; exact Hs). congruence. }
    rewrite find_dotdot_none in F by exact K. discriminate.
  - rewrite P. reflexivity.
Qed.
Lemma convert_range n lo o hi : name_text n -> undashed n -> written lo -> ~ In "-"%char (v_str lo) -> upper_op o -> written hi ->
  reads_as (convert_requirement (n ++ T ">=" ++ v_str lo ++ T "," ++ op_text o ++ v_str hi)) (normalize_package_name n) (Some (CMultiple [CGe lo; op_constraint o hi])).
Proof.
  intros N U W D O Wh. assert (V : visible (">"%char :: "="%char :: v_str lo ++ T "," ++ op_text o ++ v_str hi)).
  { change (">"%char :: "="%char :: v_str lo ++ T "," ++ op_text o ++ v_str hi) with ((op_text OpGe ++ v_str lo) ++ T "," ++ (op_text o ++ v_str hi)).
    apply visible_app; [apply op_visible, W|]. apply visible_app; [intros c [<-|[]]; (split; [reflexivity|split; discriminate])|apply op_visible, Wh]. }
  change (T ">=" ++ v_str lo ++ T "," ++ op_text o ++ v_str hi) with (">"%char :: "="%char :: v_str lo ++ T "," ++ op_text o ++ v_str hi).
  rewrite (convert_shape n ">"%char _ N (or_introl eq_refl) V).
  assert (E : pip_version_to_rez (">"%char :: "="%char :: v_str lo ++ T "," ++ op_text o ++ v_str hi) = v_str lo ++ T "+" ++ op_text o ++ v_str hi).
  { unfold pip_version_to_rez. change (">"%char :: "="%char :: v_str lo ++ T "," ++ op_text o ++ v_str hi) with ((op_text OpGe ++ v_str lo) ++ ","%char :: (op_text o ++ v_str hi)).
    rewrite split_on_app by (apply op_no_comma, W). rewrite split_on_none by (apply op_no_comma, Wh). cbn [map].
    rewrite (visible_trim _ (op_visible OpGe lo W)), (visible_trim _ (op_visible o hi Wh)). cbn [find].
    assert (S1 : starts_with (T ">=") (op_text OpGe ++ v_str lo) || starts_with (T ">") (op_text OpGe ++ v_str lo) = true) by reflexivity. rewrite S1.
    assert (S2 : starts_with (T "<") (op_text OpGe ++ v_str lo) = false) by reflexivity. rewrite S2.
    assert (S3 : starts_with (T "<") (op_text o ++ v_str hi) = true) by (destruct O as [-> | ->]; reflexivity). rewrite S3.
    rewrite (lower_ge_text lo W : lower_version (op_text OpGe ++ v_str lo) = _). reflexivity. }
  rewrite E. apply read_range; [apply api_name_text, N|apply api_undashed, U|exact W|exact D|exact O|exact Wh].
Qed.
(** names with dashes *)
Lemma read_dashed a b v : name_text a -> ~ In "-"%char a -> parse_version b = Some v -> v_str v = b -> reads_as (a ++ T "-" ++ b) a (Some (CPrefix v)).
Proof.
  intros N D P E. subst b. assert (Hp : parsed v) by (exists (v_str v); exact P). pose proof (parsed_vtext v Hp) as (Hv & _).
  apply simple_read; [exact N|change (T "-" ++ v_str v) with ("-"%char :: v_str v); apply vchar_visible; cbn [forallb]; rewrite Hv; reflexivity|]. apply parse_nv_prefix; assumption.
Qed.
(** ** which releases are accepted *)
Lemma release_read l : release l -> exists v, parse_version (numbers l) = Some v /\ v_str v = numbers l /\ v_tokens v = map show_N l /\ written v /\ ~ In "-"%char (v_str v).
Proof.
  intros (N & L & _). destruct l as [|n l]; [contradiction|]. cbn [length] in L. destruct (parse_dotted n l) as (v & P & Tk & S); [lia|].
  exists v. change (numbers (n :: l)) with (dotted (n :: l)). split; [exact P|]. split; [exact S|]. split; [exact Tk|]. split.
  - split; [exists (dotted (n :: l)); exact P|]. rewrite S. unfold dotted. cbn [map]. destruct (show_N_spec n) as (_ & _ & Hn). destruct (show_N n) eqn:E; [contradiction|]. destruct l; discriminate.
  - rewrite S. intros H. assert (F : forallb (fun c => is_digit c || Ascii.eqb c "."%char) (dotted (n :: l)) = true).
    { clear. unfold dotted. revert n. induction l as [|m l IH]; intros n; cbn [map join].
      - destruct (show_N_spec n) as (_ & D & _). rewrite forallb_forall in *. intros c C. rewrite (D c C). reflexivity.
      - rewrite !forallb_app. apply andb_true_iff. split; [|apply andb_true_iff; split; [reflexivity|apply IH]].
        destruct (show_N_spec n) as (_ & D & _). rewrite forallb_forall in *. intros c C. rewrite (D c C). reflexivity. }
    rewrite forallb_forall in F. apply F in H. discriminate.
Qed.
Lemma release_depth a b va vb : release a -> release b -> v_str va = numbers a -> v_str vb = numbers b -> cmp_at_depth va vb = parts_cmp (map show_N a) (map show_N b).
Proof.
  intros (Na & _) (Nb & _) Ea Eb. unfold cmp_at_depth. rewrite Ea, Eb. destruct a as [|x a], b as [|y b]; try contradiction.
  change (numbers (x :: a)) with (dotted (x :: a)). change (numbers (y :: b)) with (dotted (y :: b)). rewrite !split_dotted. reflexivity.
Qed.
Definition small (l : list N) : Prop := forall n, In n l -> (n <= U64_MAX)%N.
Lemma parts_release b : forall a, small a -> small b -> length b <= length a ->
  match parts_cmp (map show_N a) (map show_N b) with
  | Lt => release_cmp a b = Lt
  | Gt => release_cmp a b = Gt
  | Eq => exists r, a = b ++ r
  end.
Proof.
  induction b as [|y b IH]; intros a Sa Sb L.
  - destruct a; cbn; [exists []|eexists]; reflexivity.
  - destruct a as [|x a]; [cbn in L; lia|]. cbn [map parts_cmp release_cmp]. unfold part_cmp. rewrite (parse_u64_show x), (parse_u64_show y) by first [apply Sa; left; reflexivity|apply Sb; left; reflexivity].
    destruct (N.compare_spec x y) as [->|H|H]; [|reflexivity|reflexivity].
    specialize (IH a (fun n H => Sa n (or_intror H)) (fun n H => Sb n (or_intror H)) ltac:(cbn in L; lia)). destruct (parts_cmp (map show_N a) (map show_N b)); [destruct IH as [r ->]; exists r; reflexivity|exact IH|exact IH].
Qed.
Lemma release_extend b r : release_cmp (b ++ r) b <> Lt.
Proof. induction b as [|y b IH]; cbn [app release_cmp]; [destruct r as [|x r]; cbn; [discriminate|destruct ((x =? 0)%N && all_zero r); discriminate]|]. rewrite N.compare_refl. exact IH. Qed.
Lemma release_extend_le b r : release_cmp (b ++ r) b <> Gt <-> all_zero r = true.
Proof.
  induction b as [|y b IH]; cbn [app release_cmp].
  - destruct r as [|x r]; cbn; [split; [reflexivity|discriminate]|]. destruct ((x =? 0)%N && all_zero r); split; try congruence.
  - rewrite N.compare_refl. exact IH.
Qed.
Lemma parts_extend b r : small b -> parts_cmp (map show_N (b ++ r)) (map show_N b) = Eq.
Proof.
  induction b as [|y b IH]; intros S; [destruct r; reflexivity|]. cbn [app map parts_cmp]. unfold part_cmp. rewrite !parse_u64_show by (apply S; left; reflexivity).
  rewrite N.compare_refl. apply IH. intros n H. apply S. right. exact H.
Qed.
Lemma bound_release a b va vb : release a -> release b -> v_str va = numbers a -> v_str vb = numbers b -> length b <= length a ->
  (c_satisfied (CGe vb) va = true <-> release_cmp a b <> Lt) /\ (c_satisfied (CLt vb) va = true <-> release_cmp a b = Lt) /\
  (c_satisfied (CLe vb) va = true <-> release_cmp a b = Lt \/ exists r, a = b ++ r).
Proof.
  intros Ra Rb Ea Eb L. cbn [c_satisfied]. rewrite (release_depth a b va vb Ra Rb Ea Eb). pose proof (parts_release b a (proj2 (proj2 Ra)) (proj2 (proj2 Rb)) L) as H.
  pose proof (fun r => parts_extend b r (proj2 (proj2 Rb))) as K.
  destruct (parts_cmp (map show_N a) (map show_N b)) eqn:P.
  - destruct H as [r H]. pose proof (release_extend b r) as X. rewrite <- H in X. split; [|split]; cbn.
    + split; [intros _; exact X|reflexivity].
    + split; [discriminate|intros Y; contradiction].
    + split; [intros _; right; exists r; exact H|reflexivity].
  - rewrite H. split; [|split]; cbn; [split; [discriminate|intros Y; contradiction]|split; reflexivity|split; [left; reflexivity|reflexivity]].
  - rewrite H. split; [|split]; cbn; [split; [discriminate|reflexivity]|split; discriminate|]. split; [discriminate|]. intros [X|[r ->]]; [discriminate|]. rewrite K in P. discriminate.
Qed.
Lemma prefix_release a b va vb : release a -> release b -> v_tokens va = map show_N a -> v_tokens vb = map show_N b ->
  (c_satisfied (CPrefix vb) va = true <-> exists r, a = b ++ r).
Proof.
  intros (_ & _ & Sa) (_ & _ & Sb) Ea Eb. cbn [c_satisfied]. unfold has_prefix. rewrite Ea, Eb, !map_length. clear Ea Eb va vb.
  revert a Sa. induction b as [|y b IH]; intros a Sa.
  - split; [intros _; exists a; reflexivity|destruct a; reflexivity].
  - destruct a as [|x a]; [split; [discriminate|intros [r H]; discriminate]|]. cbn [map length zip_all_eq Nat.leb].
    rewrite compare_token_show by first [apply Sa; left; reflexivity|apply Sb; left; reflexivity].
    specialize (IH (fun n H => Sb n (or_intror H)) a (fun n H => Sa n (or_intror H))).
    destruct (N.compare_spec x y) as [->|H|H]; cbn [is_eq andb].
    + rewrite IH. split; intros [r R]; exists r; [cbn; congruence|injection R as R; exact R].
    + rewrite andb_false_r. split; [discriminate|]. intros [r R]. injection R as -> _. lia.
    + rewrite andb_false_r. split; [discriminate|]. intros [r R]. injection R as -> _. lia.
Qed.
Lemma accept_of s name c depth (P : list N -> Prop) : reads_as s name c ->
  (forall a v, release a -> depth <= length a -> v_str v = numbers a -> v_tokens v = map show_N a -> (match c with Some c => c_satisfied c v | None => true end = true <-> P a)) -> read_to_accept s name depth P.
Proof.
  intros R H. eexists. split; [exact R|]. repeat (split; [reflexivity|]). intros a v Ra La Pv. unfold r_satisfied. cbn [rq_constraint].
  destruct (release_read a Ra) as (v' & P' & S & Tk & _). rewrite P' in Pv. injection Pv as ->. apply (H a v Ra La S Tk).
Qed.
Lemma accept_ge n b : name_text n -> release b -> read_to_accept (convert_requirement (n ++ T ">=" ++ numbers b)) (normalize_package_name n) (length b) (fun a => release_cmp a b <> Lt).
Proof.
  intros N R. destruct (release_read b R) as (v & _ & S & _ & W & D). rewrite <- S. eapply accept_of; [apply (convert_ge n v N W D)|].
  intros a va Ra La Sa _. apply (proj1 (bound_release a b va v Ra R Sa S La)).
Qed.
Lemma accept_gt n b : name_text n -> release b -> read_to_accept (convert_requirement (n ++ T ">" ++ numbers b)) (normalize_package_name n) (length b) (fun a => release_cmp a b <> Lt).
Proof.
  intros N R. destruct (release_read b R) as (v & _ & S & _ & W & D). rewrite <- S. eapply accept_of; [apply (convert_gt n v N W D)|].
  intros a va Ra La Sa _. apply (proj1 (bound_release a b va v Ra R Sa S La)).
Qed.
Lemma accept_eq n b : name_text n -> undashed n -> release b -> read_to_accept (convert_requirement (n ++ T "==" ++ numbers b)) (normalize_package_name n) 0 (fun a => exists r, a = b ++ r).
Proof.
  intros N U R. destruct (release_read b R) as (v & _ & S & Tk & W & D). rewrite <- S. eapply accept_of; [apply (convert_eq n v N U W)|].
  intros a va Ra _ _ Ta. apply (prefix_release a b va v Ra R Ta Tk).
Qed.
Lemma accept_range n lo hi : name_text n -> undashed n -> release lo -> release hi ->
  read_to_accept (convert_requirement (n ++ T ">=" ++ numbers lo ++ T ",<" ++ numbers hi)) (normalize_package_name n) (Nat.max (length lo) (length hi)) (fun a => release_cmp a lo <> Lt /\ release_cmp a hi = Lt).
Proof.
  intros N U Rl Rh. destruct (release_read lo Rl) as (vl & _ & Sl & _ & Wl & Dl). destruct (release_read hi Rh) as (vh & _ & Sh & _ & Wh & _). rewrite <- Sl, <- Sh.
  change (T ",<" ++ v_str vh) with (T "," ++ op_text OpLt ++ v_str vh). eapply accept_of; [apply (convert_range n vl OpLt vh N U Wl Dl (or_introl eq_refl) Wh)|].
  intros a va Ra La Sa _. cbv beta iota. change (c_satisfied (CMultiple [CGe vl; op_constraint OpLt vh]) va) with (c_satisfied (CGe vl) va && (c_satisfied (CLt vh) va && true)). rewrite andb_true_r, andb_true_iff.
  rewrite (proj1 (bound_release a lo va vl Ra Rl Sa Sl ltac:(lia))). rewrite (proj1 (proj2 (bound_release a hi va vh Ra Rh Sa Sh ltac:(lia)))). reflexivity.
Qed.
Lemma accept_range_le n lo hi : name_text n -> undashed n -> release lo -> release hi ->
  read_to_accept (convert_requirement (n ++ T ">=" ++ numbers lo ++ T ",<=" ++ numbers hi)) (normalize_package_name n) (Nat.max (length lo) (length hi))
    (fun a => release_cmp a lo <> Lt /\ (release_cmp a hi = Lt \/ exists r, a = hi ++ r)).
Proof.
  intros N U Rl Rh. destruct (release_read lo Rl) as (vl & _ & Sl & _ & Wl & Dl). destruct (release_read hi Rh) as (vh & _ & Sh & _ & Wh & _). rewrite <- Sl, <- Sh.
  change (T ",<=" ++ v_str vh) with (T "," ++ op_text OpLe ++ v_str vh). eapply accept_of; [apply (convert_range n vl OpLe vh N U Wl Dl (or_intror eq_refl) Wh)|].
  intros a va Ra La Sa _. cbv beta iota. change (c_satisfied (CMultiple [CGe vl; op_constraint OpLe vh]) va) with (c_satisfied (CGe vl) va && (c_satisfied (CLe vh) va && true)). rewrite andb_true_r, andb_true_iff.
  rewrite (proj1 (bound_release a lo va vl Ra Rl Sa Sl ltac:(lia))). rewrite (proj2 (proj2 (bound_release a hi va vh Ra Rh Sa Sh ltac:(lia)))). reflexivity.
Qed.
(** ** dependents *)
Lemma before_lead n c s : (forall x, In x n -> ~ special_char x) -> special_char c -> before_any (one_of (T "-<>=!~")) (n ++ c :: s) = n.
Proof. intros H C. apply before_app; [|apply one_of_iff; exact C]. intros d D. destruct (one_of (T "-<>=!~") d) eqn:E; [|reflexivity]. apply one_of_iff in E. destruct (H d D E). Qed.
Lemma required_lead r n : required_name r = n <-> leads n (trim r).
Proof.
  unfold required_name, leads. split.
  - intros <-. destruct (before_spec (one_of (T "-<>=!~")) (trim r)) as [H1 H2]. split.
    + intros c C X. apply H1 in C. apply one_of_iff in X. congruence.
    + destruct H2 as [H2|(c & s & H2 & H3)]; [left; exact H2|right]. exists c, s. split; [exact H2|]. apply one_of_iff. exact H3.
  - intros [H [-> | (c & s & -> & C)]]; [|apply before_lead; assumption].
    apply before_none. intros d D. destruct (one_of (T "-<>=!~") d) eqn:E; [|reflexivity]. apply one_of_iff in E. destruct (H d D E).
Qed.
Lemma dependents_count name fs : get_pip_dependencies name fs = concat (map (fun f => repeat (fst f) (length (filter (fun reqs => existsb (fun r => text_eqb (normalize_package_name (required_name r)) (normalize_package_name name)) reqs) (snd f)))) fs).
Proof.
  unfold get_pip_dependencies. rewrite flat_map_concat_map. f_equal. apply map_ext. intros [f ps]. cbn [fst snd]. induction ps as [|p ps IH]; [reflexivity|]. cbn [flat_map filter].
  rewrite IH. destruct (existsb _ p); reflexivity.
Qed.
Lemma dependents_iff name fs f : In f (get_pip_dependencies name fs) <->
  exists ps reqs r n, In (f, ps) fs /\ In reqs ps /\ In r reqs /\ leads n (trim r) /\ same_name n name.
Proof.
  unfold get_pip_dependencies. rewrite in_flat_map. split.
  - intros ([g ps] & H1 & H2). cbn [fst snd] in H2. apply in_flat_map in H2 as (reqs & H2 & H3). destruct (existsb _ reqs) eqn:E; [|destruct H3]. destruct H3 as [<-|[]].
    apply existsb_exists in E as (r & H4 & H5). apply text_eqb_eq in H5. exists ps, reqs, r, (required_name r). split; [exact H1|]. split; [exact H2|]. split; [exact H4|]. split; [apply required_lead; reflexivity|].
    apply api_same. exact H5.
  - intros (ps & reqs & r & n & H1 & H2 & H3 & H4 & H5). exists (f, ps). split; [exact H1|]. cbn [fst snd]. apply in_flat_map. exists reqs. split; [exact H2|].
    assert (E : existsb (fun r => text_eqb (normalize_package_name (required_name r)) (normalize_package_name name)) reqs = true).
    { apply existsb_exists. exists r. split; [exact H3|]. apply text_eqb_eq, api_same. apply required_lead in H4. rewrite H4. exact H5. }
    rewrite E. left. reflexivity.
Qed.
(** a name with a dash: only a requirement written with an underscore there is counted *)
Lemma dependents_dashed name fs f : In "-"%char name -> In f (get_pip_dependencies name fs) ->
  exists ps reqs r, In (f, ps) fs /\ In reqs ps /\ In r reqs /\ In "_"%char r.
Proof.
  intros D H. apply dependents_iff in H as (ps & reqs & r & n & H1 & H2 & H3 & [H4 H5] & H6). exists ps, reqs, r. repeat (split; [assumption|]).
  assert (X : exists c, In c n /\ dashy c).
  { clear -D H6. induction H6 as [|c d n m S F IH]; [destruct D|]. destruct D as [->|D].
    - exists c. split; [left; reflexivity|]. destruct S as [[S _]|(_ & S & _)]; [exact S|]. exfalso. apply S. left. reflexivity.
    - destruct (IH D) as (c' & H & K). exists c'. split; [right; exact H|exact K]. }
  destruct X as (c & Hc & [-> | ->]); [exfalso; apply (H4 _ Hc); left; reflexivity|].
  assert (Ht : In "_"%char (trim r)) by (destruct H5 as [-> | (x & s & -> & _)]; [exact Hc|apply in_or_app; left; exact Hc]).
  clear -Ht. unfold trim in Ht. assert (TS : forall s, In "_"%char (trim_start s) -> In "_"%char s) by (induction s as [|x s IH]; cbn; [tauto|destruct (is_ws x); [right; apply IH; assumption|tauto]]).
  apply TS. unfold trim_end in Ht. apply in_rev, TS, in_rev in Ht. exact Ht.
Qed.
