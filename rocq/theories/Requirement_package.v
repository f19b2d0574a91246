(** Proofs about package requirements (package/requirement.rs) and their conversion to solver requirements. *)
From Verif Require Import Base Base_lemmas Text_lemmas Version_model Version_spec Version_proofs Version_order Version_hash
  Range_model Range_spec Range_text Requirement_model Requirement_spec Requirement_proofs Requirement_text.

Lemma spec_constraint_reading o v ver : c_satisfied (spec_constraint o v) ver = true <-> op_reading o v ver.
Proof.
  destruct o; cbn [spec_constraint op_reading]; try (apply basic_satisfied; exact I).
  rewrite satisfied_meets. split.
  - intros H. inversion H; subst; [|contradiction]. match goal with H : forall v0, In v0 [v] -> _ |- _ => apply H end. left. reflexivity.
  - intros H. constructor. intros v' [<-|[]]. exact H.
Qed.

Definition so_text (x : spec_op * version) : text := spec_op_text (fst x) ++ v_str (snd x).
Lemma spec_text_eq l : spec_text l = join (T ",") (map so_text l).
Proof. unfold spec_text. f_equal. apply map_ext. intros [o v]. reflexivity. Qed.

Lemma spec_operator_text o c r : vchar c = true -> spec_operator (spec_op_text o ++ c :: r) = Some (o, c :: r).
Proof.
  intros Hc.
  assert (forall x, In x ["="%char; ">"%char; "<"%char; "~"%char; "!"%char] -> Ascii.eqb x c = false) as Hq.
  { intros x Hx. destruct (Ascii.eqb_spec x c) as [->|]; [|reflexivity]. exfalso.
    simpl in Hx. decompose [or] Hx; subst; try contradiction; vm_compute in Hc; discriminate. }
  unfold spec_operator, strip_prefix. destruct o; cbn [spec_op_text T list_ascii_of_string app starts_with];
    repeat rewrite Ascii.eqb_refl; cbn [andb length skipn]; try reflexivity;
    rewrite ?Hq by (simpl; tauto); reflexivity.
Qed.
Lemma spec_op_notin o d : vchar d = true \/ d = ","%char -> ~ In d (spec_op_text o).
Proof.
  intros H Hin. destruct o; simpl in Hin;
    repeat (destruct Hin as [<-|Hin]; [destruct H as [H|H]; vm_compute in H; discriminate|]); exact Hin.
Qed.
Lemma so_no_comma o v : written v -> ~ In ","%char (so_text (o, v)).
Proof.
  intros Hw. unfold so_text. cbn [fst snd]. rewrite in_app_iff. intros [H|H].
  - revert H. apply spec_op_notin. auto.
  - revert H. apply written_notin; [exact Hw|reflexivity].
Qed.
Lemma so_trim o v : written v -> trim (so_text (o, v)) = so_text (o, v).
Proof.
  intros Hw. apply trim_no_ws. unfold so_text. cbn [fst snd]. rewrite forallb_app. apply andb_true_iff. split.
  - destruct o; reflexivity.
  - apply vchars_no_ws, written_chars, Hw.
Qed.
Lemma check_single_so ver o v : written v -> check_single ver (so_text (o, v)) = c_satisfied (spec_constraint o v) ver.
Proof.
  intros Hw. unfold check_single, so_text. cbn [fst snd]. destruct (written_text v Hw) as (c & r & E & Hc & Hr).
  rewrite E, spec_operator_text by exact Hc. unfold check_op. rewrite <- E.
  rewrite trim_no_ws by (apply vchars_no_ws, written_chars, Hw).
  destruct Hw as [[s Hs] _]. rewrite (parse_version_roundtrip _ _ Hs). reflexivity.
Qed.

Lemma join_trim_ends ps : ps <> [] -> (forall p, In p ps -> p <> [] /\ forallb (fun c => negb (is_ws c)) p = true) ->
  forallb (fun c => negb (is_ws c)) (join (T ",") ps) = true /\ join (T ",") ps <> [].
Proof.
  induction ps as [|p ps IH]; [congruence|]. intros _ H. destruct ps as [|q ps].
  - cbn [join]. destruct (H p (or_introl eq_refl)). auto.
  - destruct (H p (or_introl eq_refl)) as [H1 H2].
    destruct IH as [H3 H4]; [discriminate|intros x Hx; apply H; right; exact Hx|].
    change (join (T ",") (p :: q :: ps)) with (p ++ T "," ++ join (T ",") (q :: ps)). split.
    + rewrite !forallb_app, H2, H3. reflexivity.
    + destruct p; [congruence|discriminate].
Qed.
Lemma so_visible o v : written v -> so_text (o, v) <> [] /\ forallb (fun c => negb (is_ws c)) (so_text (o, v)) = true.
Proof.
  intros Hw. unfold so_text. cbn [fst snd]. split; [destruct o; discriminate|].
  rewrite forallb_app. apply andb_true_iff. split; [destruct o; reflexivity|].
  apply vchars_no_ws, written_chars, Hw.
Qed.

Lemma pkg_satisfied_ops name wk cf l ver : l <> [] -> (forall o v, In (o, v) l -> written v) ->
  pkg_satisfied (mkPkgReq name (Some (spec_text l)) wk cf) ver = true <-> forall o v, In (o, v) l -> op_reading o v ver.
Proof.
  intros Hn Hw. unfold pkg_satisfied. cbn [pr_spec].
  assert (forall p, In p (map so_text l) -> p <> [] /\ forallb (fun c => negb (is_ws c)) p = true) as Hvis.
  { intros p Hp. apply in_map_iff in Hp as ([o v] & <- & Hin). apply so_visible. eauto. }
  assert (map so_text l <> []) as Hn' by (destruct l; [congruence|discriminate]).
  destruct (join_trim_ends _ Hn' Hvis) as [Hv1 Hv2]. rewrite <- spec_text_eq in *.
  rewrite trim_no_ws by exact Hv1. apply is_nil_false in Hv2. rewrite Hv2.
  transitivity (forall x, In x l -> check_single ver (so_text x) = true).
  - destruct l as [|[o v] [|y l]]; [congruence| |].
    + rewrite spec_text_eq. cbn [map join].
      assert (existsb (Ascii.eqb ",") (so_text (o, v)) = false) as ->.
      { apply existsb_char_false, so_no_comma. apply (Hw o v). left. reflexivity. }
      split; [intros H x [<-|[]]; exact H|]. intros H. apply H. left. reflexivity.
    + set (xs := (o, v) :: y :: l) in *.
      assert (existsb (Ascii.eqb ",") (spec_text xs) = true) as ->.
      { apply existsb_char. rewrite spec_text_eq. unfold xs. cbn [map join]. rewrite !in_app_iff. right. left. left. reflexivity. }
      assert (split_on "," (spec_text xs) = map so_text xs) as ->.
      { rewrite spec_text_eq. change (T ",") with [","%char]. apply split_join; [exact Hn'|].
        apply Forall_forall. intros p Hp. apply in_map_iff in Hp as ([o' v'] & <- & Hin). apply so_no_comma. eauto. }
      rewrite forallb_forall. split.
      * intros H [o' v'] Hx. specialize (H (so_text (o', v')) (in_map _ _ _ Hx)). rewrite so_trim in H by eauto. exact H.
      * intros H p Hp. apply in_map_iff in Hp as ([o' v'] & <- & Hin). rewrite so_trim by eauto. apply H, Hin.
  - split.
    + intros H o v Hin. apply spec_constraint_reading. rewrite <- check_single_so by eauto. apply (H (o, v)), Hin.
    + intros H [o v] Hin. rewrite check_single_so by eauto. apply spec_constraint_reading, H, Hin.
Qed.

(** a spec without operator is a version range *)
Lemma pkg_satisfied_range name wk cf spec r ver :
  trim spec = spec -> spec <> [] -> ~ In ","%char spec -> spec_operator spec = None -> parse_range spec = Some r ->
  pkg_satisfied (mkPkgReq name (Some spec) wk cf) ver = contains r ver.
Proof.
  intros Ht Hn Hc Ho Hr. unfold pkg_satisfied. cbn [pr_spec]. rewrite Ht. apply is_nil_false in Hn. rewrite Hn.
  apply existsb_char_false in Hc. rewrite Hc. unfold check_single. rewrite Ho, Hr. reflexivity.
Qed.

(** ** what request texts parse to *)
Lemma request_text_ops l : request_text l = ops_text l.
Proof. unfold request_text, ops_text. f_equal. apply map_ext. intros [o v]. reflexivity. Qed.
Lemma request_spec_text l : request_text l = spec_text (map (fun '(o, v) => (spec_of_op o, v)) l).
Proof.
  unfold request_text, spec_text. rewrite map_map. f_equal. apply map_ext. intros [o v]. destruct o; reflexivity.
Qed.

Definition plain_req (n : text) (oc : option vconstraint) (wk cf : bool) : requirement := mkReq n oc wk cf [] [] None.
Lemma show_plain n oc wk cf : show_requirement (plain_req n oc wk cf) = mark wk cf ++ body n oc.
Proof.
  unfold show_requirement, plain_req, mark, body. cbn [rq_name rq_constraint rq_weak rq_conflict rq_platform rq_env rq_namespace map concat].
  rewrite !app_nil_r. reflexivity.
Qed.
Lemma parse_plain n oc wk cf : name_text n -> form n oc -> wk && cf = false ->
  parse_requirement (mark wk cf ++ body n oc) = Some (plain_req n oc wk cf).
Proof. intros Hn Hf Hfl. rewrite <- show_plain. apply show_parse_form; simpl; auto. Qed.

Lemma parse_pkg_plain n oc wk cf : name_text n -> form n oc -> wk && cf = false ->
  let rest := match oc with Some c => show_constraint c | None => [] end in
  let spec := match strip_prefix (T "-") rest with Some x => x | None => rest end in
  parse_package_req (mark wk cf ++ body n oc) = Some (mkPkgReq n (if is_nil spec then None else Some spec) wk cf).
Proof.
  intros Hn Hf Hfl rest spec.
  destruct (body_head n oc Hn) as (c & r & E & Hc).
  pose proof (parse_plain n oc false false Hn Hf eq_refl) as Hp. cbn [mark app] in Hp.
  assert (skipn (length n) (body n oc) = rest) as Hs.
  { unfold body. rewrite skipn_app, skipn_all, Nat.sub_diag. reflexivity. }
  assert (forall b, starts_with (T "~") (body n oc) && b = false) as Hnt.
  { intros b. rewrite E. cbn [T list_ascii_of_string starts_with].
    destruct (Ascii.eqb_spec "~" c) as [<-|]; [discriminate Hc|reflexivity]. }
  assert (strip_prefix (T "!") (body n oc) = None) as Hnb.
  { apply strip_prefix_none. rewrite E. cbn [T list_ascii_of_string starts_with].
    destruct (Ascii.eqb_spec "!" c) as [<-|]; [discriminate Hc|reflexivity]. }
  unfold parse_package_req, mark. destruct cf.
  - rewrite strip_prefix_app, Hnt, Hp. cbn [rq_name plain_req]. rewrite Hs. destruct wk; [discriminate Hfl|]. reflexivity.
  - destruct wk.
    + assert (strip_prefix (T "!") (T "~" ++ body n oc) = None) as -> by (apply strip_prefix_none; reflexivity).
      rewrite starts_with_app.
      assert (starts_with (T "~=") (T "~" ++ body n oc) = false) as ->.
      { rewrite E. cbn [T list_ascii_of_string starts_with app]. rewrite Ascii.eqb_refl.
        destruct (Ascii.eqb_spec "=" c) as [<-|]; [discriminate Hc|reflexivity]. }
      cbn [andb negb]. rewrite strip_prefix_app, Hp. cbn [rq_name plain_req]. rewrite Hs. reflexivity.
    + cbn [app]. rewrite Hnb, Hnt, Hp. cbn [rq_name plain_req]. rewrite Hs. reflexivity.
Qed.

Lemma body_ops n l : l <> [] -> body n (Some (of_ops l)) = n ++ request_text l.
Proof. intros H. unfold body. rewrite show_of_ops by exact H. rewrite request_text_ops. reflexivity. Qed.

Lemma ops_no_dash_head l : l <> [] -> strip_prefix (T "-") (ops_text l) = None.
Proof.
  intros H. destruct l as [|[o v] l]; [congruence|]. apply strip_prefix_none. unfold ops_text.
  destruct l; destruct o; reflexivity.
Qed.
Lemma parse_pkg_ops n l wk cf : name_text n -> l <> [] -> (forall o v, In (o, v) l -> written v) -> wk && cf = false ->
  parse_package_req (mark wk cf ++ n ++ request_text l) = Some (mkPkgReq n (Some (request_text l)) wk cf).
Proof.
  intros Hn Hl Hw Hfl. rewrite <- body_ops by exact Hl.
  rewrite parse_pkg_plain; [|exact Hn|constructor; assumption|exact Hfl].
  rewrite show_of_ops, ops_no_dash_head by exact Hl.
  assert (is_nil (ops_text l) = false) as -> by (apply is_nil_false, ops_text_nonnil; assumption).
  rewrite request_text_ops. reflexivity.
Qed.
Lemma parse_req_ops n l wk cf : name_text n -> l <> [] -> (forall o v, In (o, v) l -> written v) -> wk && cf = false ->
  parse_requirement (mark wk cf ++ n ++ request_text l) = Some (plain_req n (Some (of_ops l)) wk cf).
Proof.
  intros Hn Hl Hw Hfl. rewrite <- body_ops by exact Hl. apply parse_plain; [exact Hn|constructor; assumption|exact Hfl].
Qed.
Lemma parse_pkg_name n wk cf : name_text n -> ~ In "-"%char n -> wk && cf = false ->
  parse_package_req (mark wk cf ++ n) = Some (mkPkgReq n None wk cf).
Proof.
  intros Hn Hd Hfl. pose proof (parse_pkg_plain n None wk cf Hn) as H. unfold body in H. rewrite app_nil_r in H.
  apply H; [constructor; apply parse_nv_plain; assumption|exact Hfl].
Qed.
Lemma parse_pkg_prefix n v wk cf : name_text n -> ~ In "-"%char n -> written v -> wk && cf = false ->
  parse_package_req (mark wk cf ++ n ++ T "-" ++ v_str v) = Some (mkPkgReq n (Some (v_str v)) wk cf).
Proof.
  intros Hn Hd [Hp Hv] Hfl. pose proof (parse_pkg_plain n (Some (CPrefix v)) wk cf Hn) as H. unfold body in H.
  cbn [show_constraint] in H. rewrite strip_prefix_app in H. apply is_nil_false in Hv. rewrite Hv in H.
  apply H; [constructor; assumption|exact Hfl].
Qed.

(** ** both matchers agree on operator requests *)
Lemma op_spec_constraint o v ver : c_satisfied (op_constraint o v) ver = c_satisfied (spec_constraint (spec_of_op o) v) ver.
Proof. destruct o; reflexivity. Qed.
Lemma of_ops_satisfied l ver : l <> [] -> c_satisfied (of_ops l) ver = true <-> forall o v, In (o, v) l -> op_reading (spec_of_op o) v ver.
Proof.
  intros Hn.
  assert (c_satisfied (CMultiple (map (fun '(o, v) => op_constraint o v) l)) ver = true <->
          forall o v, In (o, v) l -> op_reading (spec_of_op o) v ver) as K.
  { cbn [c_satisfied]. rewrite forallb_forall. split.
    - intros H o v Hin. apply spec_constraint_reading. rewrite <- op_spec_constraint. apply H.
      apply in_map_iff. exists (o, v). auto.
    - intros H c Hc. apply in_map_iff in Hc as ([o v] & <- & Hin). rewrite op_spec_constraint.
      apply spec_constraint_reading, H, Hin. }
  destruct l as [|[o v] [|y l]]; [congruence| |exact K].
  cbn [of_ops]. rewrite op_spec_constraint, spec_constraint_reading. split.
  - intros H o' v' [[= <- <-]|[]]. exact H.
  - intros H. apply H. left. reflexivity.
Qed.
Lemma pkg_request_reading n wk cf l ver : l <> [] -> (forall o v, In (o, v) l -> written v) ->
  pkg_satisfied (mkPkgReq n (Some (request_text l)) wk cf) ver = true <-> forall o v, In (o, v) l -> op_reading (spec_of_op o) v ver.
Proof.
  intros Hn Hw. rewrite request_spec_text, pkg_satisfied_ops.
  - split.
    + intros H o v Hin. apply H. apply in_map_iff. exists (o, v). auto.
    + intros H o v Hin. apply in_map_iff in Hin as ([o' v'] & [= <- <-] & Hin). apply H, Hin.
  - destruct l; [congruence|discriminate].
  - intros o v Hin. apply in_map_iff in Hin as ([o' v'] & [= <- <-] & Hin). eauto.
Qed.
Lemma matchers_agree n l wk cf p r ver : name_text n -> l <> [] -> (forall o v, In (o, v) l -> written v) -> wk && cf = false ->
  parse_package_req (mark wk cf ++ n ++ request_text l) = Some p ->
  parse_requirement (mark wk cf ++ n ++ request_text l) = Some r ->
  pkg_satisfied p ver = r_satisfied r ver.
Proof.
  intros Hn Hl Hw Hfl. rewrite parse_pkg_ops, parse_req_ops by assumption. intros [= <-] [= <-].
  unfold r_satisfied. cbn [plain_req rq_constraint]. apply eq_true_iff_eq.
  rewrite pkg_request_reading, of_ops_satisfied by assumption. reflexivity.
Qed.

(** ** the conversion to a solver requirement *)
Lemma show_package_mark n sp wk cf : show_package_req (mkPkgReq n sp wk cf) =
  mark wk cf ++ n ++ match sp with Some v => T "-" ++ v | None => [] end.
Proof. reflexivity. Qed.
Lemma name_dash n : name_text n -> name_text (n ++ T "-").
Proof.
  intros [H1 H2]. split; [destruct n; discriminate|]. rewrite forallb_app, H2. reflexivity.
Qed.
(** requests with operators always lose their package name *)
Lemma convert_ops n l wk cf : name_text n -> l <> [] -> (forall o v, In (o, v) l -> written v) -> wk && cf = false ->
  to_solver_requirement (mkPkgReq n (Some (request_text l)) wk cf) = plain_req (n ++ T "-") (Some (of_ops l)) wk cf.
Proof.
  intros Hn Hl Hw Hfl. unfold to_solver_requirement. rewrite show_package_mark.
  pose proof (parse_req_ops (n ++ T "-") l wk cf (name_dash n Hn) Hl Hw Hfl) as H. rewrite <- app_assoc in H.
  rewrite H. reflexivity.
Qed.
Lemma convert_name n wk cf : name_text n -> ~ In "-"%char n -> wk && cf = false ->
  to_solver_requirement (mkPkgReq n None wk cf) = plain_req n None wk cf.
Proof.
  intros Hn Hd Hfl. unfold to_solver_requirement. rewrite show_package_mark.
  pose proof (parse_plain n None wk cf Hn) as H. unfold body in H.
  rewrite H; [reflexivity|constructor; apply parse_nv_plain; assumption|exact Hfl].
Qed.
Lemma convert_prefix n v wk cf : name_text n -> ~ In "-"%char n -> parsed v -> wk && cf = false ->
  to_solver_requirement (mkPkgReq n (Some (v_str v)) wk cf) = plain_req n (Some (CPrefix v)) wk cf.
Proof.
  intros Hn Hd Hp Hfl. unfold to_solver_requirement. rewrite show_package_mark.
  pose proof (parse_plain n (Some (CPrefix v)) wk cf Hn) as H. unfold body in H.
   cbn [show_constraint] in H.
  rewrite H; [reflexivity|constructor; assumption|exact Hfl].
Qed.
