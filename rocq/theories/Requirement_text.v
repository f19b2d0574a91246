(** Proofs about the text syntax of requirements. *)
From Verif Require Import Base Base_lemmas Text_lemmas Version_model Version_spec Version_proofs
  Range_model Range_text Requirement_model Requirement_spec.

(** ** scanning lemmas *)
Lemma span_app f a b : forallb f a = true -> match b with c :: _ => f c = false | [] => True end ->
  span f (a ++ b) = (a, b).
Proof.
  induction a as [|c a IH]; simpl; intros Ha Hb.
  - destruct b as [|c b]; [reflexivity|]. simpl. rewrite Hb. reflexivity.
  - apply andb_true_iff in Ha as [-> Ha]. rewrite IH by assumption. reflexivity.
Qed.
Lemma span_spec f s a b : span f s = (a, b) ->
  s = a ++ b /\ forallb f a = true /\ match b with c :: _ => f c = false | [] => True end.
Proof.
  revert a b. induction s as [|c s IH]; simpl; intros a b.
  - intros [= <- <-]. auto.
  - destruct (f c) eqn:E.
    + destruct (span f s) as [a' b']. intros [= <- <-]. destruct (IH a' b' eq_refl) as (-> & H2 & H3).
      simpl. rewrite E. auto.
    + intros [= <- <-]. simpl. auto.
Qed.
Lemma strip_prefix_spec p s r : strip_prefix p s = Some r <-> s = p ++ r.
Proof.
  unfold strip_prefix. destruct (starts_with p s) eqn:E.
  - apply starts_with_spec in E as [r' ->]. rewrite skipn_app, skipn_all, Nat.sub_diag. simpl. split.
    + intros [= <-]. reflexivity.
    + intros H. apply app_inv_head in H. rewrite H. reflexivity.
  - split; [discriminate|]. intros ->. rewrite starts_with_app in E. discriminate.
Qed.
Lemma strip_prefix_none p s : strip_prefix p s = None <-> starts_with p s = false.
Proof. unfold strip_prefix. destruct (starts_with p s); split; congruence. Qed.
Lemma strip_prefix_app p r : strip_prefix p (p ++ r) = Some r.
Proof. apply strip_prefix_spec. reflexivity. Qed.

Lemma find_char_none (d : ascii) (s : text) : find_char d s = None <-> ~ In d s.
Proof.
  induction s as [|c s IH]; cbn [find_char]; [split; [intros _ []|reflexivity]|].
  destruct (Ascii.eqb_spec c d) as [->|H].
  - split; [discriminate|]. intros Hn. destruct Hn. left. reflexivity.
  - destruct (find_char d s) as [[a b]|].
    + split; [discriminate|]. intros Hn. assert (~ In d s) as H' by (intros X; apply Hn; right; exact X).
      apply IH in H'. discriminate.
    + split; [|reflexivity]. intros _ [->|Hin]; [congruence|]. apply IH in Hin; auto.
Qed.
Lemma find_char_some (d : ascii) (s a b : text) : find_char d s = Some (a, b) <-> s = a ++ d :: b /\ ~ In d a.
Proof.
  revert a b; induction s as [|c s IH]; intros a b; cbn [find_char].
  - split; [discriminate|]. intros [H _]. destruct a; discriminate.
  - destruct (Ascii.eqb_spec c d) as [->|H].
    + split; [intros [= <- <-]; simpl; auto|]. intros [E Hn]. destruct a as [|x a].
      * injection E as <-. reflexivity.
      * injection E as <- E. destruct Hn. left. reflexivity.
    + destruct (find_char d s) as [[a' b']|] eqn:Ef.
      * destruct (proj1 (IH a' b') eq_refl) as [Es Hn]. split.
        -- intros [= <- <-]. rewrite Es. split; [reflexivity|]. intros [E|E]; [congruence|auto].
        -- intros [E Hn']. destruct a as [|x a]; [injection E as -> E; congruence|].
           injection E as <- E. assert (Some (a', b') = Some (a, b)) as [= <- <-].
           { apply IH. split; [exact E|]. intros X. apply Hn'. right. exact X. }
           reflexivity.
      * split; [discriminate|]. intros [E Hn]. destruct a as [|x a]; [injection E as -> E; congruence|].
        injection E as <- E. assert (None = Some (a, b)) as X; [|discriminate].
        apply IH. split; [exact E|]. intros X. apply Hn. right. exact X.
Qed.
Lemma find_char_app d a b : ~ In d a -> find_char d (a ++ d :: b) = Some (a, b).
Proof. intros H. apply find_char_some. auto. Qed.
Lemma existsb_char (c : ascii) (s : text) : existsb (Ascii.eqb c) s = true <-> In c s.
Proof.
  rewrite existsb_exists. split.
  - intros (x & Hx & E). apply Ascii.eqb_eq in E. subst. exact Hx.
  - intros H. exists c. split; [exact H|]. apply Ascii.eqb_refl.
Qed.
Lemma existsb_char_false (c : ascii) (s : text) : existsb (Ascii.eqb c) s = false <-> ~ In c s.
Proof. rewrite <- existsb_char. destruct (existsb (Ascii.eqb c) s); split; congruence. Qed.
Lemma no_newline_iff s : no_newline s = true <-> ~ In newline s.
Proof.
  unfold no_newline. rewrite forallb_forall. split.
  - intros H Hin. apply H in Hin. rewrite Ascii.eqb_refl in Hin. discriminate.
  - intros H c Hc. apply negb_true_iff. destruct (Ascii.eqb_spec c newline); [subst; destruct (H Hc)|reflexivity].
Qed.

(** ** characters of names, operators and versions *)
Lemma name_char_vchar c : name_char c = true -> vchar c = true.
Proof.
  unfold name_char, vchar, is_token_char. rewrite !orb_true_iff. tauto.
Qed.
Lemma name_chars_vchar s : forallb name_char s = true -> forallb vchar s = true.
Proof. rewrite !forallb_forall. intros H c Hc. apply name_char_vchar, H, Hc. Qed.
Lemma vchar_not_name c : vchar c = true -> name_char c = false -> c = "+"%char.
Proof.
  unfold name_char, vchar, is_token_char. intros H1 H2.
  destruct (is_alnum c); [discriminate|]. destruct (Ascii.eqb c "_"); [discriminate|].
  destruct (Ascii.eqb c "-"); [discriminate|]. destruct (Ascii.eqb c "."); [discriminate|]. simpl in H1.
  apply Ascii.eqb_eq in H1. exact H1.
Qed.
Lemma op_text_head o : exists c r, op_text o = c :: r /\ name_char c = false /\ vchar c = false.
Proof. destruct o; eexists; eexists; split; try reflexivity; split; vm_compute; reflexivity. Qed.
Lemma op_text_notin o d : vchar d = true \/ d = ","%char \/ d = "["%char \/ d = "*"%char \/ d = newline -> ~ In d (op_text o).
Proof.
  intros H Hin. destruct o; simpl in Hin;
    repeat (destruct Hin as [<-|Hin]; [destruct H as [H|[H|[H|[H|H]]]]; vm_compute in H; discriminate|]); exact Hin.
Qed.

Lemma written_text v : written v -> exists c r, v_str v = c :: r /\ vchar c = true /\ forallb vchar r = true.
Proof.
  intros [Hp Hn]. pose proof (parsed_vtext v Hp) as [Hv _]. destruct (v_str v) as [|c r]; [congruence|].
  simpl in Hv. apply andb_true_iff in Hv as [H1 H2]. eauto.
Qed.
Lemma written_chars v : written v -> forallb vchar (v_str v) = true.
Proof. intros [Hp _]. apply parsed_vtext in Hp as [H _]. exact H. Qed.
Lemma written_notin v d : written v -> vchar d = false -> ~ In d (v_str v).
Proof. intros H. apply vchars_notin, written_chars, H. Qed.

Lemma vchars_no_newline s : forallb vchar s = true -> no_newline s = true.
Proof. intros H. apply no_newline_iff. eapply vchars_notin; [exact H|reflexivity]. Qed.

Lemma split_op_gen o c r : vchar c = true -> no_newline (c :: r) = true ->
  split_op (op_text o ++ c :: r) = Some (o, c :: r).
Proof.
  intros Hc Hnl.
  assert (forall x, In x ["="%char; ">"%char; "<"%char; "~"%char] -> Ascii.eqb x c = false) as Hq.
  { intros x Hx. destruct (Ascii.eqb_spec x c) as [->|]; [|reflexivity]. exfalso.
    simpl in Hx. decompose [or] Hx; subst; try contradiction; vm_compute in Hc; discriminate. }
  pose proof (Hq "="%char ltac:(simpl; auto)) as Hq1.
  unfold split_op. destruct o; cbn [op_text];
  repeat (match goal with
  | |- context [strip_prefix ?p (?p ++ _)] => rewrite strip_prefix_app, Hnl; cbn [andb negb is_nil]; reflexivity
  | |- context [strip_prefix ?p ?s] =>
      let H := fresh in assert (strip_prefix p s = None) as H;
      [apply strip_prefix_none; cbn [T list_ascii_of_string app starts_with];
       rewrite ?Hq1; reflexivity|rewrite H; clear H]
  end).
Qed.
Lemma split_op_text o v : written v -> split_op (op_text o ++ v_str v) = Some (o, v_str v).
Proof.
  intros Hw. destruct (written_text v Hw) as (c & r & E & Hc & Hr). rewrite E.
  apply split_op_gen; [exact Hc|]. rewrite <- E. apply vchars_no_newline, written_chars, Hw.
Qed.
Lemma split_op_spec s o r : split_op s = Some (o, r) -> s = op_text o ++ r /\ r <> [] /\ no_newline r = true.
Proof.
  unfold split_op.
  assert (forall o' p x, op_text o' = p ->
    match strip_prefix p s with Some r0 => if negb (is_nil r0) && no_newline r0 then Some (o', r0) else None | None => None end = Some x ->
    s = op_text (fst x) ++ snd x /\ snd x <> [] /\ no_newline (snd x) = true) as K.
  { intros o' p x Hp H. destruct (strip_prefix p s) as [r0|] eqn:E; [|discriminate].
    destruct (negb (is_nil r0) && no_newline r0) eqn:E2; [|discriminate]. injection H as <-. simpl.
    apply strip_prefix_spec in E. apply andb_true_iff in E2 as [E2 E3]. apply negb_true_iff, is_nil_false in E2.
    rewrite Hp. auto. }
  repeat (match goal with
  | |- match ?m with Some _ => _ | None => _ end = _ -> _ =>
      let E := fresh "E" in destruct m as [x|] eqn:E;
      [intros [= ->]; eapply K in E; [exact E|reflexivity]|clear E]
  end).
  all: try (intros H; eapply K in H; [exact H|reflexivity]).
Qed.

(** ** lists of operators *)
Definition ov_text (x : op * version) : text := op_text (fst x) ++ v_str (snd x).
Definition ops_text (l : list (op * version)) : text := join (T ",") (map ov_text l).
Definition all_written (l : list (op * version)) : Prop := forall o v, In (o, v) l -> written v.

Lemma show_op_constraint o v : show_constraint (op_constraint o v) = op_text o ++ v_str v.
Proof. destruct o; reflexivity. Qed.
Lemma show_of_ops l : l <> [] -> show_constraint (of_ops l) = ops_text l.
Proof.
  intros Hn. unfold of_ops, ops_text.
  assert (show_constraint (CMultiple (map (fun '(o, v) => op_constraint o v) l)) = join (T ",") (map ov_text l)) as H.
  { cbn [show_constraint]. rewrite map_map. f_equal. apply map_ext. intros [o v]. apply show_op_constraint. }
  destruct l as [|[o v] [|y l]]; [congruence| |exact H].
  apply show_op_constraint.
Qed.
Lemma join_notin (c : ascii) sep ps : ~ In c sep -> (forall p, In p ps -> ~ In c p) -> ~ In c (join sep ps).
Proof.
  intros Hs. induction ps as [|p ps IH]; intros Hp; [intros []|]. destruct ps as [|q ps].
  - apply Hp. left. reflexivity.
  - cbn [join]. rewrite !in_app_iff. intros [H|[H|H]].
    + apply (Hp p); [left; reflexivity|exact H].
    + apply Hs, H.
    + apply IH; [|exact H]. intros x Hx. apply Hp. right. exact Hx.
Qed.
Lemma ov_notin o v d : written v -> vchar d = false -> ~ In d (op_text o) -> ~ In d (ov_text (o, v)).
Proof.
  intros Hw Hd Ho. unfold ov_text. simpl. rewrite in_app_iff. intros [H|H]; [auto|].
  apply (written_notin v d Hw Hd H).
Qed.
Lemma ops_text_notin l d : all_written l -> vchar d = false -> d <> ","%char ->
  (forall o, ~ In d (op_text o)) -> ~ In d (ops_text l).
Proof.
  intros Hl Hd Hc Ho. unfold ops_text. apply join_notin.
  - intros [E|[]]. symmetry in E. destruct (Hc E).
  - intros p Hp. apply in_map_iff in Hp as ([o v] & <- & Hin). apply ov_notin; eauto.
Qed.
Lemma all_written_cons x l : all_written (x :: l) -> written (snd x) /\ all_written l.
Proof.
  intros H. split; [destruct x as [o v]; apply (H o v); left; reflexivity|].
  intros o v Hin. apply (H o v). right. exact Hin.
Qed.
Lemma ops_text_head o v l : written v -> all_written l -> exists c r,
  ops_text ((o, v) :: l) = op_text o ++ c :: r /\ vchar c = true /\ no_newline (c :: r) = true.
Proof.
  intros Hw Hl. destruct (written_text v Hw) as (c & r & E & Hc & Hr).
  assert (~ In newline (ops_text ((o, v) :: l))) as Hnl.
  { apply ops_text_notin; [intros o' v' [[= <- <-]|Hin]; eauto|reflexivity|intros H; discriminate H|].
    intros o'. apply op_text_notin. auto. }
  exists c. destruct l as [|y l].
  - exists r. unfold ops_text in *. cbn [map join] in *. unfold ov_text in *. cbn [fst snd] in *. rewrite E in *.
    split; [reflexivity|]. split; [exact Hc|]. apply no_newline_iff. intros Hx. apply Hnl. apply in_app_iff. auto.
  - exists (r ++ T "," ++ ops_text (y :: l)).
    assert (ops_text ((o, v) :: y :: l) = op_text o ++ c :: r ++ T "," ++ ops_text (y :: l)) as E2.
    { unfold ops_text. cbn [map]. change (join (T ",") (ov_text (o, v) :: ov_text y :: map ov_text l))
        with (ov_text (o, v) ++ T "," ++ join (T ",") (ov_text y :: map ov_text l)).
      unfold ov_text at 1. cbn [fst snd]. rewrite E, <- app_assoc. reflexivity. }
    split; [exact E2|]. split; [exact Hc|]. apply no_newline_iff. intros Hx. apply Hnl. rewrite E2.
    apply in_app_iff. auto.
Qed.
Lemma parse_req_single_ov o v : written v -> parse_req_single (ov_text (o, v)) = Some (op_constraint o v) /\
  trim (ov_text (o, v)) = ov_text (o, v).
Proof.
  intros Hw. assert (trim (ov_text (o, v)) = ov_text (o, v)) as Ht.
  { apply trim_no_ws. unfold ov_text. cbn [fst snd]. rewrite forallb_app. apply andb_true_iff. split.
    - destruct o; reflexivity.
    - apply vchars_no_ws, written_chars, Hw. }
  split; [|exact Ht]. unfold parse_req_single. rewrite Ht. unfold ov_text. cbn [fst snd].
  rewrite split_op_text by exact Hw. rewrite parsed_text by apply Hw. reflexivity.
Qed.
Lemma map_opt_ext {A B} (f g : A -> option B) l : (forall x, In x l -> f x = g x) -> map_opt f l = map_opt g l.
Proof.
  induction l as [|x l IH]; simpl; intros H; [reflexivity|]. rewrite (H x) by (left; reflexivity).
  destruct (g x); [|reflexivity]. rewrite IH; [reflexivity|]. intros y Hy. apply H. right. exact Hy.
Qed.
Lemma map_opt_map {A B C} (f : B -> option C) (g : A -> B) (h : A -> C) l :
  (forall x, In x l -> f (g x) = Some (h x)) -> map_opt f (map g l) = Some (map h l).
Proof.
  induction l as [|x l IH]; simpl; intros H; [reflexivity|]. rewrite H by (left; reflexivity).
  rewrite IH; [reflexivity|]. intros y Hy. apply H. right. exact Hy.
Qed.
Lemma split_ops_text l : l <> [] -> all_written l -> split_on "," (ops_text l) = map ov_text l.
Proof.
  intros Hn Hl. unfold ops_text. change (T ",") with [","%char]. apply split_join.
  - destruct l; [congruence|discriminate].
  - apply Forall_forall. intros p Hp. apply in_map_iff in Hp as ([o v] & <- & Hin).
    apply ov_notin; [eauto|reflexivity|]. apply op_text_notin. auto.
Qed.
Lemma parse_req_constraints_ops l : l <> [] -> all_written l -> parse_req_constraints (ops_text l) = Some (of_ops l).
Proof.
  intros Hn Hl. unfold parse_req_constraints. rewrite split_ops_text by assumption.
  destruct l as [|[o v] [|y l]]; [congruence| |].
  - cbn [map]. apply parse_req_single_ov. apply (Hl o v). left. reflexivity.
  - change (match map ov_text ((o, v) :: y :: l) with [q] => parse_req_single q | ps =>
      match map_opt (fun p => parse_req_single (trim p)) ps with Some cs => Some (CMultiple cs) | None => None end end)
    with (match map_opt (fun p => parse_req_single (trim p)) (map ov_text ((o, v) :: y :: l)) with
          | Some cs => Some (CMultiple cs) | None => None end).
    rewrite (map_opt_map _ _ (fun '(o, v) => op_constraint o v)); [reflexivity|].
    intros [o' v'] Hin. destruct (parse_req_single_ov o' v' (Hl o' v' Hin)) as [H1 H2]. rewrite H2. exact H1.
Qed.

(** ** name followed by a constraint *)
Lemma span_name n b : forallb name_char n = true -> match b with c :: _ => name_char c = false | [] => True end ->
  span name_char (n ++ b) = (n, b).
Proof. apply span_app. Qed.
Lemma name_not_nil n : name_text n -> is_nil n = false.
Proof. intros [H _]. apply is_nil_false, H. Qed.

Lemma parse_nv_ops n l : name_text n -> l <> [] -> all_written l ->
  parse_name_and_version (n ++ ops_text l) = Some (n, Some (of_ops l)).
Proof.
  intros Hn Hl Hw. destruct l as [|[o v] l]; [congruence|].
  assert (written v) as Hv by (apply (Hw o v); left; reflexivity).
  assert (all_written l) as Hw' by (intros o' v' Hin; apply (Hw o' v'); right; exact Hin).
  destruct (ops_text_head o v l Hv Hw') as (c & r & E & Hc & Hnl).
  destruct (op_text_head o) as (oc & orr & Eo & Hoc & Hoc').
  assert (span name_char (n ++ ops_text ((o, v) :: l)) = (n, ops_text ((o, v) :: l))) as Hs.
  { apply span_name; [apply Hn|]. rewrite E, Eo. exact Hoc. }
  assert (~ In "*"%char (ops_text ((o, v) :: l))) as Hstar.
  { apply ops_text_notin; [exact Hw|reflexivity|discriminate|]. intros o'. apply op_text_notin. auto. }
  unfold parse_name_and_version, match_wildcard, match_basic. rewrite Hs, (name_not_nil n Hn).
  assert ((match strip_prefix (T "==") (ops_text ((o, v) :: l)) with
     | Some p => if existsb (Ascii.eqb "*") (tl p) && no_newline p then Some (n, p) else None
     | None => None end) = None) as ->.
  { destruct (strip_prefix _ _) as [p|] eqn:Ep; [|reflexivity]. apply strip_prefix_spec in Ep.
    assert (existsb (Ascii.eqb "*") (tl p) = false) as ->; [|reflexivity].
    apply existsb_char_false. intros Hx. apply Hstar. rewrite Ep. apply in_app_iff. right.
    destruct p; [destruct Hx|right; exact Hx]. }
  rewrite E at 1. rewrite split_op_gen by assumption.
  destruct (existsb (Ascii.eqb ",") (n ++ ops_text ((o, v) :: l))) eqn:Ecomma.
  - rewrite skipn_app, skipn_all, Nat.sub_diag. simpl skipn. simpl app.
    rewrite parse_req_constraints_ops by assumption. reflexivity.
  - destruct l as [|y l].
    + assert (v_str v = c :: r) as <-.
      { unfold ops_text, ov_text in E. cbn [map join fst snd] in E. apply app_inv_head in E. exact E. }
      rewrite parsed_text by apply Hv. reflexivity.
    + apply existsb_char_false in Ecomma. exfalso. apply Ecomma. unfold ops_text. cbn [map].
      change (join (T ",") (ov_text (o, v) :: ov_text y :: map ov_text l))
        with (ov_text (o, v) ++ T "," ++ join (T ",") (ov_text y :: map ov_text l)).
      rewrite !in_app_iff. right. right. left. left. reflexivity.
Qed.

Lemma parse_nv_wild n p : name_text n -> (exists a b, a <> [] /\ p = a ++ "*"%char :: b) -> ~ In newline p ->
  parse_name_and_version (n ++ T "==" ++ p) = Some (n, Some (CWildcard p)).
Proof.
  intros Hn (a & b & Ha & Ep) Hnl. unfold parse_name_and_version, match_wildcard.
  rewrite span_name by (try apply Hn; reflexivity). rewrite (name_not_nil n Hn), strip_prefix_app.
  apply no_newline_iff in Hnl. rewrite Hnl.
  assert (existsb (Ascii.eqb "*") (tl p) = true) as ->; [|reflexivity].
  apply existsb_char. rewrite Ep. destruct a as [|x a]; [congruence|]. simpl. apply in_app_iff. right. left. reflexivity.
Qed.

(** texts made of version characters only: neither regular expression applies *)
Lemma span_vchars s : forallb vchar s = true -> exists a b, span name_char s = (a, b) /\
  forall c r, b = c :: r -> c = "+"%char.
Proof.
  intros H. destruct (span name_char s) as [a b] eqn:E. exists a, b. split; [reflexivity|].
  apply span_spec in E as (E & _ & Hb). subst. intros c r ->. rewrite forallb_app in H.
  apply andb_true_iff in H as [_ H]. simpl in H. apply andb_true_iff in H as [H _].
  apply vchar_not_name; assumption.
Qed.
Lemma vchars_no_match s : forallb vchar s = true -> match_wildcard s = None /\ match_basic s = None.
Proof.
  intros H. destruct (span_vchars s H) as (a & b & E & Hb). unfold match_wildcard, match_basic. rewrite E.
  destruct (is_nil a); [auto|]. destruct b as [|c r].
  - auto.
  - rewrite (Hb c r eq_refl). split; reflexivity.
Qed.
Lemma parsed_last v : parsed v -> v_str v <> [] -> exists u c, v_str v = u ++ [c] /\ is_token_char c = true.
Proof.
  intros [s H] Hn. apply parse_version_cases in H as [[_ ->]|[[_ ->]|[[_ ->]|H]]].
  - destruct Hn. reflexivity.
  - exists (T "in"), "f"%char. split; reflexivity.
  - destruct Hn. reflexivity.
  - destruct H as (_ & _ & _ & E & cs & (Hs & _) & _). rewrite E in *.
    destruct (shape_last _ _ _ Hs) as (c & r & Er & Hc). exists (rev r), c. split; [|exact Hc].
    rewrite <- (rev_involutive (trim s)), Er. reflexivity.
Qed.
Lemma ends_plus_false u c : is_token_char c = true -> ends_with (T "+") (u ++ [c]) = false.
Proof.
  intros H. unfold ends_with. rewrite rev_app_distr. cbn [rev T list_ascii_of_string app starts_with].
  destruct (Ascii.eqb_spec "+" c) as [<-|]; [discriminate H|reflexivity].
Qed.
Lemma trim_plus_id u c : is_token_char c = true -> trim_plus (u ++ [c]) = u ++ [c].
Proof.
  intros H. unfold trim_plus. rewrite rev_app_distr. simpl rev. cbn [app].
  destruct (Ascii.eqb_spec c "+") as [->|Hc]; [discriminate H|].
  assert (rev (c :: rev u) = u ++ [c]) as Hr by (simpl; rewrite rev_involutive; reflexivity).
  exact Hr.
Qed.
Lemma find_dotdot_none s : contains_text (T "..") s = false -> find_dotdot s = None.
Proof.
  induction s as [|c s IH]; [reflexivity|]. intros H.
  change (contains_text (T "..") (c :: s)) with (starts_with (T "..") (c :: s) || contains_text (T "..") s) in H.
  apply orb_false_iff in H as [H1 H2].
  change (find_dotdot (c :: s)) with (if starts_with (T "..") (c :: s) then Some ([], skipn 2 (c :: s))
    else match find_dotdot s with Some (a, b) => Some (c :: a, b) | None => None end).
  rewrite H1, IH by exact H2. reflexivity.
Qed.
Lemma parse_nv_prefix n v : name_text n -> ~ In "-"%char n -> parsed v ->
  parse_name_and_version (n ++ T "-" ++ v_str v) = Some (n, Some (CPrefix v)).
Proof.
  intros Hn Hd Hp. pose proof (parsed_vtext v Hp) as (Hv & Hdd & _).
  assert (forallb vchar (n ++ T "-" ++ v_str v) = true) as Hall.
  { rewrite !forallb_app, (name_chars_vchar n) by apply Hn. rewrite Hv. reflexivity. }
  destruct (vchars_no_match _ Hall) as [Hm1 Hm2]. unfold parse_name_and_version. rewrite Hm1, Hm2.
  assert (ends_with (T "+") (n ++ T "-" ++ v_str v) = false /\ ends_with (T "+") (v_str v) = false /\
          trim_plus (v_str v) = v_str v) as (He1 & He2 & Htp).
  { destruct (v_str v) as [|x y] eqn:E.
    - split; [|split; reflexivity]. rewrite app_nil_r. unfold ends_with. rewrite rev_app_distr. reflexivity.
    - rewrite <- E in *. destruct (parsed_last v Hp) as (u & c & E2 & Hc); [rewrite E; discriminate|].
      rewrite E2. split; [|split].
      + rewrite !app_assoc. apply ends_plus_false, Hc.
      + apply ends_plus_false, Hc.
      + apply trim_plus_id, Hc. }
  unfold parse_plus. rewrite He1. unfold parse_dash.
  change (n ++ T "-" ++ v_str v) with (n ++ "-"%char :: v_str v). rewrite find_char_app by exact Hd.
  unfold parse_rez_spec. rewrite find_dotdot_none by exact Hdd. unfold parse_rez_tail.
  assert (find_char "<" (v_str v) = None) as ->.
  { apply find_char_none. eapply vchars_notin; [exact Hv|reflexivity]. }
  rewrite Htp, parsed_text by exact Hp. rewrite He2. reflexivity.
Qed.
Lemma parse_nv_plain n : name_text n -> ~ In "-"%char n -> parse_name_and_version n = Some (n, None).
Proof.
  intros Hn Hd. pose proof (name_chars_vchar n (proj2 Hn)) as Hall.
  destruct (vchars_no_match _ Hall) as [Hm1 Hm2]. unfold parse_name_and_version. rewrite Hm1, Hm2.
  unfold parse_plus, parse_dash.
  assert (ends_with (T "+") n = false) as ->.
  { destruct (ends_with (T "+") n) eqn:E; [|reflexivity]. apply ends_with_spec in E as [r ->].
    destruct Hn as [_ Hn]. rewrite forallb_app in Hn. apply andb_true_iff in Hn as [_ Hn]. discriminate Hn. }
  apply find_char_none in Hd. rewrite Hd. reflexivity.
Qed.

(** ** what the parser produces, and what displays faithfully *)
Inductive form (n : text) : option vconstraint -> Prop :=
| form_none : parse_name_and_version n = Some (n, None) -> form n None
| form_ops l : l <> [] -> all_written l -> form n (Some (of_ops l))
| form_prefix v : parsed v -> ~ In "-"%char n -> form n (Some (CPrefix v))
| form_wild p : (exists a b, a <> [] /\ p = a ++ "*"%char :: b) -> ~ In newline p -> ~ In "["%char p ->
    match rev p with c :: _ => is_ws c = false | [] => True end -> form n (Some (CWildcard p)).
Definition body (n : text) (oc : option vconstraint) : text :=
  n ++ match oc with Some c => show_constraint c | None => [] end.

Lemma parse_body n oc : name_text n -> form n oc -> parse_name_and_version (body n oc) = Some (n, oc).
Proof.
  intros Hn [H|l Hl Hw|v Hp Hd|p Hs Hnl Hb Ht]; unfold body.
  - rewrite app_nil_r. exact H.
  - rewrite show_of_ops by exact Hl. apply parse_nv_ops; assumption.
  - apply parse_nv_prefix; assumption.
  - apply parse_nv_wild; assumption.
Qed.
Lemma name_notin n d : name_text n -> name_char d = false -> ~ In d n.
Proof. intros [_ H] Hd Hin. rewrite forallb_forall in H. apply H in Hin. congruence. Qed.
Lemma body_no_bracket n oc : name_text n -> form n oc -> ~ In "["%char (body n oc).
Proof.
  intros Hn H Hin. unfold body in Hin. apply in_app_iff in Hin as [Hin|Hin].
  { eapply name_notin; [exact Hn| |exact Hin]. reflexivity. }
  destruct H as [H|l Hl Hw|v Hp Hd|p Hs Hnl Hb Ht].
  - exact Hin.
  - rewrite show_of_ops in Hin by exact Hl. revert Hin. apply ops_text_notin; [exact Hw|reflexivity|discriminate|].
    intros o. apply op_text_notin. auto.
  - cbn [show_constraint] in Hin. apply in_app_iff in Hin as [[Hin|[]]|Hin]; [discriminate|].
    revert Hin. eapply vchars_notin; [apply (parsed_vtext v Hp)|reflexivity].
  - cbn [show_constraint] in Hin. apply in_app_iff in Hin as [[Hin|[Hin|[]]]|Hin]; try discriminate. auto.
Qed.
Lemma body_no_newline n oc : name_text n -> form n oc -> ~ In newline (body n oc).
Proof.
  intros Hn H Hin. unfold body in Hin. apply in_app_iff in Hin as [Hin|Hin].
  { eapply name_notin; [exact Hn| |exact Hin]. reflexivity. }
  destruct H as [H|l Hl Hw|v Hp Hd|p Hs Hnl Hb Ht].
  - exact Hin.
  - rewrite show_of_ops in Hin by exact Hl. revert Hin. apply ops_text_notin; [exact Hw|reflexivity|discriminate|].
    intros o. apply op_text_notin. auto.
  - cbn [show_constraint] in Hin. apply in_app_iff in Hin as [[Hin|[]]|Hin]; [discriminate|].
    revert Hin. eapply vchars_notin; [apply (parsed_vtext v Hp)|reflexivity].
  - cbn [show_constraint] in Hin. apply in_app_iff in Hin as [[Hin|[Hin|[]]]|Hin]; try discriminate. auto.
Qed.
Lemma body_head n oc : name_text n -> exists c r, body n oc = c :: r /\ name_char c = true.
Proof.
  intros [Hn Ha]. unfold body. destruct n as [|c n]; [congruence|]. simpl in Ha. apply andb_true_iff in Ha as [Ha _].
  exists c. eexists. split; [reflexivity|exact Ha].
Qed.
Lemma last_app (a b : text) : b <> [] -> exists u c, b = u ++ [c] /\ rev (a ++ b) = c :: rev u ++ rev a.
Proof.
  intros H. destruct (exists_last H) as (u & c & ->). exists u, c. split; [reflexivity|].
  rewrite rev_app_distr, rev_app_distr. reflexivity.
Qed.
Lemma vchars_last_vis s : s <> [] -> forallb vchar s = true ->
  match rev s with c :: _ => is_ws c = false | [] => True end.
Proof.
  intros Hn H. destruct (rev s) as [|c r] eqn:E; [exact I|]. apply vchar_vis.
  rewrite forallb_forall in H. apply H. apply in_rev. rewrite E. left. reflexivity.
Qed.
Lemma rev_app_last (P : ascii -> Prop) (a b : text) : b <> [] ->
  match rev b with c :: _ => P c | [] => True end -> match rev (a ++ b) with c :: _ => P c | [] => True end.
Proof.
  intros Hn H. destruct (last_app a b Hn) as (u & c & -> & ->). rewrite rev_app_distr in H. exact H.
Qed.
Lemma ops_text_nonnil l : l <> [] -> all_written l -> ops_text l <> [].
Proof.
  intros Hl Hw. destruct l as [|[o v] l]; [congruence|].
  destruct (ops_text_head o v l) as (c & r & E & _).
  { apply (Hw o v). left. reflexivity. } { intros o' v' Hi. apply (Hw o' v'). right. exact Hi. }
  rewrite E. destruct (op_text o); discriminate.
Qed.
Lemma ops_text_last l : l <> [] -> all_written l ->
  match rev (ops_text l) with c :: _ => is_ws c = false | [] => True end.
Proof.
  induction l as [|[o v] l IH]; [congruence|]. intros _ Hw.
  assert (written v) as Hv by (apply (Hw o v); left; reflexivity).
  destruct l as [|y l].
  - unfold ops_text, ov_text. cbn [map join fst snd]. apply (rev_app_last (fun c => is_ws c = false)); [apply Hv|].
    apply vchars_last_vis; [apply Hv|apply written_chars, Hv].
  - assert (all_written (y :: l)) as Hw' by (intros o' v' Hi; apply (Hw o' v'); right; exact Hi).
    change (ops_text ((o, v) :: y :: l)) with (ov_text (o, v) ++ T "," ++ ops_text (y :: l)).
    rewrite app_assoc. apply (rev_app_last (fun c => is_ws c = false)); [apply ops_text_nonnil; [discriminate|exact Hw']|].
    apply IH; [discriminate|exact Hw'].
Qed.
Lemma body_last n oc : name_text n -> form n oc -> match rev (body n oc) with c :: _ => is_ws c = false | [] => True end.
Proof.
  intros Hn H. unfold body. destruct H as [H|l Hl Hw|v Hp Hd|p Hs Hnl Hb Ht].
  - rewrite app_nil_r. apply vchars_last_vis; [apply Hn|apply name_chars_vchar, Hn].
  - rewrite show_of_ops by exact Hl. apply (rev_app_last (fun c => is_ws c = false)).
    + apply ops_text_nonnil; assumption. + apply ops_text_last; assumption.
  - apply (rev_app_last (fun c => is_ws c = false)); [discriminate|]. apply vchars_last_vis; [discriminate|].
    cbn [show_constraint]. rewrite forallb_app, (proj1 (parsed_vtext v Hp)). reflexivity.
  - apply (rev_app_last (fun c => is_ws c = false)); [discriminate|]. cbn [show_constraint].
    apply (rev_app_last (fun c => is_ws c = false)); [|exact Ht]. destruct Hs as (a & b & _ & ->). destruct a; discriminate.
Qed.
Lemma body_no_namespace n oc t : name_text n -> form n oc -> (t = [] \/ exists t', t = "["%char :: t') ->
  match_namespace (body n oc ++ t) = None.
Proof.
  intros Hn H Ht. unfold match_namespace, body. rewrite <- app_assoc.
  assert (match t with c :: _ => name_char c = false | [] => True end) as Htc
    by (destruct Ht as [->|[t' ->]]; [exact I|reflexivity]).
  assert (forall b, match b with c :: _ => name_char c = false /\ c <> ":"%char | [] => True end ->
    (let '(n', r) := span name_char (n ++ b) in
     if is_nil n' then None else match strip_prefix (T "::") r with
       | Some p => if negb (is_nil (fst (span name_char p))) && no_newline p then Some (n', p) else None
       | None => None end) = None) as K.
  { intros b Hb. rewrite span_name; [|apply Hn|destruct b; [exact I|apply Hb]].
    rewrite (name_not_nil n Hn). destruct b as [|c b]; [reflexivity|].
    assert (strip_prefix (T "::") (c :: b) = None) as ->; [|reflexivity].
    apply strip_prefix_none. cbn [T list_ascii_of_string starts_with].
    destruct (Ascii.eqb_spec ":" c) as [<-|]; [destruct Hb; congruence|reflexivity]. }
  destruct H as [H|l Hl Hw|v Hp Hd|p Hs Hnl Hb Ht'].
  - apply K. destruct Ht as [->|[t' ->]]; [exact I|]. split; [reflexivity|discriminate].
  - rewrite show_of_ops by exact Hl. destruct l as [|[o v] l]; [congruence|].
    destruct (ops_text_head o v l) as (c & r & E & _).
    { apply (Hw o v). left. reflexivity. } { intros o' v' Hi. apply (Hw o' v'). right. exact Hi. }
    apply K. rewrite E, <- app_assoc. destruct o; cbn; split; try reflexivity; discriminate.
  - cbn [show_constraint].
    assert (forallb vchar (n ++ T "-" ++ v_str v) = true) as Hall.
    { rewrite !forallb_app, (name_chars_vchar n) by apply Hn. rewrite (proj1 (parsed_vtext v Hp)). reflexivity. }
    rewrite app_assoc.
    assert (exists a b, span name_char ((n ++ T "-" ++ v_str v) ++ t) = (a, b) /\
      match b with c :: _ => c <> ":"%char | [] => True end) as (a & b & -> & Hb).
    { destruct (span name_char ((n ++ T "-" ++ v_str v) ++ t)) as [a b] eqn:E. exists a, b. split; [reflexivity|].
      apply span_spec in E as (E & Ha & Hb). destruct b as [|c b]; [exact I|]. intros ->.
      assert (In ":"%char ((n ++ T "-" ++ v_str v) ++ t)) as Hin.
      { rewrite E. apply in_app_iff. right. left. reflexivity. }
      apply in_app_iff in Hin as [Hin|Hin].
      - revert Hin. eapply vchars_notin; [exact Hall|reflexivity].
      - destruct Ht as [->|[t' ->]]; [destruct Hin|].
        (* the run stops at or before the bracket, so what follows cannot be a colon *)
        assert (forall x y z, x ++ "["%char :: y = z ++ ":"%char :: b -> forallb vchar x = true ->
                forallb name_char z = true -> False) as L.
        { clear. induction x as [|c x IH]; intros y z E Hx Hz; destruct z as [|d z]; simpl in *.
          - discriminate.
          - injection E as <- _. discriminate.
          - injection E as -> _. discriminate.
          - injection E as -> E. apply andb_true_iff in Hx as [_ Hx]. apply andb_true_iff in Hz as [_ Hz]. eauto. }
        exact (L _ _ _ E Hall Ha). }
    destruct (is_nil a); [reflexivity|]. destruct b as [|c b]; [reflexivity|].
    assert (strip_prefix (T "::") (c :: b) = None) as ->; [|reflexivity].
    apply strip_prefix_none. cbn [T list_ascii_of_string starts_with].
    destruct (Ascii.eqb_spec ":" c) as [<-|]; [congruence|reflexivity].
  - apply K. cbn. split; [reflexivity|discriminate].
Qed.

(** ** bracketed conditions *)
Lemma find_pair_none (x y : ascii) (s : text) : ~ In x s -> find_pair x y s = None.
Proof.
  induction s as [|a [|b s] IH]; intros H; try reflexivity.
  change (find_pair x y (a :: b :: s)) with (if Ascii.eqb a x && Ascii.eqb b y then Some ([], s)
    else match find_pair x y (b :: s) with Some (p, q) => Some (a :: p, q) | None => None end).
  destruct (Ascii.eqb_spec a x) as [->|_]; [destruct H; left; reflexivity|]. simpl andb. cbv iota.
  rewrite IH; [reflexivity|]. intros Hin. apply H. right. exact Hin.
Qed.
Lemma find_pair_app (x y : ascii) (a b : text) : ~ In x a ->
  find_pair x y (a ++ b) = match find_pair x y b with Some (p, q) => Some (a ++ p, q) | None => None end.
Proof.
  induction a as [|c a IH]; intros H; [simpl; destruct (find_pair x y b) as [[p q]|]; reflexivity|].
  assert (~ In x a) as H' by (intros Hin; apply H; right; exact Hin).
  cbn [app]. destruct (a ++ b) as [|d s] eqn:E.
  - apply app_eq_nil in E as [-> ->]. reflexivity.
  - change (find_pair x y (c :: d :: s)) with (if Ascii.eqb c x && Ascii.eqb d y then Some ([], s)
      else match find_pair x y (d :: s) with Some (p, q) => Some (c :: p, q) | None => None end).
    destruct (Ascii.eqb_spec c x) as [->|_]; [destruct H; left; reflexivity|]. simpl andb. cbv iota.
    rewrite IH by exact H'. destruct (find_pair x y b) as [[p q]|]; reflexivity.
Qed.
Lemma contains_bang (s : text) : ~ In "!"%char s -> contains_text (T "!=") s = false.
Proof.
  intros H. destruct (contains_text (T "!=") s) eqn:E; [|reflexivity]. apply contains_text_spec in E as (a & b & ->).
  destruct H. apply in_app_iff. right. left. reflexivity.
Qed.
Lemma show_platform_parse c : printable_platform c -> parse_platform_condition (show_platform c) = Some c.
Proof.
  destruct c as [p a ng]. intros [(Hq & _ & Hb & _ & _) Ha]. simpl in *. subst a.
  unfold parse_platform_condition, show_platform. cbn [pc_platform pc_arch pc_negate].
  assert (first_quoted (T "platform" ++ (if ng then T "!=" else T "==") ++ [quote] ++ p ++ [quote] ++ []) = Some (p, [])) as Hf.
  { unfold first_quoted.
    assert (find_char quote (T "platform" ++ (if ng then T "!=" else T "==") ++ [quote] ++ p ++ [quote] ++ [])
            = Some (T "platform" ++ (if ng then T "!=" else T "=="), p ++ [quote])) as ->.
    { apply find_char_some. split; [destruct ng; reflexivity|]. destruct ng; intros Hin; simpl in Hin;
      repeat (destruct Hin as [Hin|Hin]; [discriminate Hin|]); exact Hin. }
    rewrite find_char_app by exact Hq. reflexivity. }
  rewrite Hf. f_equal. f_equal. destruct ng.
  - apply contains_text_spec. exists (T "platform"), ([quote] ++ p ++ [quote] ++ []). reflexivity.
  - apply contains_bang. intros Hin. rewrite !in_app_iff in Hin.
    destruct Hin as [Hin|[Hin|[Hin|[Hin|[Hin|[]]]]]]; try (simpl in Hin;
      repeat (destruct Hin as [Hin|Hin]; [discriminate Hin|]); exact Hin). auto.
Qed.
Lemma show_env_parse c : printable_env c -> parse_env_condition (show_env c) = Some c.
Proof.
  destruct c as [x e ng]. intros [(Hq & Hb & Hx & He & Hnl) H]. simpl in *.
  unfold parse_env_condition, show_env. cbn [ec_var ec_expected ec_negate]. destruct e as [e|].
  - destruct H as (Eq & Eb & Ex & Ee & Enl).
    change (skipn 4 (T "env." ++ x ++ (if ng then T "!=" else T "==") ++ [quote] ++ e ++ [quote]))
      with (x ++ (if ng then T "!=" else T "==") ++ [quote] ++ e ++ [quote]).
    assert ((match find_pair "=" "=" (x ++ (if ng then T "!=" else T "==") ++ [quote] ++ e ++ [quote]) with
             | Some y => Some y | None => find_pair "!" "=" (x ++ (if ng then T "!=" else T "==") ++ [quote] ++ e ++ [quote]) end)
            = Some (x, [quote] ++ e ++ [quote])) as ->.
    { rewrite (find_pair_app "=" "=") by exact He. destruct ng.
      - assert (find_pair "=" "=" (T "!=" ++ [quote] ++ e ++ [quote]) = None) as ->.
        { change (T "!=" ++ [quote] ++ e ++ [quote]) with (["!"%char] ++ ["="%char; quote] ++ e ++ [quote]).
          rewrite find_pair_app by (intros [E|[]]; discriminate).
          change (["="%char; quote] ++ e ++ [quote]) with ("="%char :: quote :: e ++ [quote]).
          change (find_pair "=" "=" ("="%char :: quote :: e ++ [quote]))
            with (match find_pair "=" "=" (quote :: e ++ [quote]) with Some (p, q) => Some ("="%char :: p, q) | None => None end).
          rewrite find_pair_none; [reflexivity|]. intros [E|Hin]; [discriminate|]. apply in_app_iff in Hin as [Hin|[E|[]]]; [auto|discriminate]. }
        rewrite find_pair_app by exact Hx.
        change (find_pair "!" "=" (T "!=" ++ [quote] ++ e ++ [quote])) with (Some (@nil ascii, [quote] ++ e ++ [quote])).
        cbv iota beta. rewrite app_nil_r. reflexivity.
      - change (find_pair "=" "=" (T "==" ++ [quote] ++ e ++ [quote])) with (Some (@nil ascii, [quote] ++ e ++ [quote])).
        cbv iota beta. rewrite app_nil_r. reflexivity. }
    assert (trim ([quote] ++ e ++ [quote]) = [quote] ++ e ++ [quote]) as -> by (apply trim_ends; reflexivity).
    change (text_eqb ([quote] ++ e ++ [quote]) (T "None")) with false. cbv iota.
    change (find_char quote ([quote] ++ e ++ [quote])) with (Some (@nil ascii, e ++ [quote])). cbv iota beta.
    rewrite find_char_app by exact Eq. f_equal. f_equal. destruct ng.
    + apply contains_text_spec. exists (T "env." ++ x), ([quote] ++ e ++ [quote]). rewrite <- app_assoc. reflexivity.
    + apply contains_bang. intros Hin. rewrite !in_app_iff in Hin.
      destruct Hin as [Hin|[Hin|[Hin|[Hin|[Hin|Hin]]]]]; try (simpl in Hin;
      repeat (destruct Hin as [Hin|Hin]; [discriminate Hin|]); exact Hin); auto.
  - change (skipn 4 (T "env." ++ x)) with x. subst ng.
    rewrite (find_pair_none "=" "=" x He), (find_pair_none "!" "=" x Hx). f_equal. f_equal.
    apply contains_bang. intros Hin. apply in_app_iff in Hin as [Hin|Hin]; [|auto].
    simpl in Hin. repeat (destruct Hin as [Hin|Hin]; [discriminate Hin|]); exact Hin.
Qed.
Lemma show_platform_no_close c : printable_platform c -> ~ In "]"%char (show_platform c) /\ ~ In newline (show_platform c).
Proof.
  destruct c as [p a ng]. intros [(Hq & Hc & _ & _ & Hn) Ha]. cbn [pc_platform pc_arch] in *. subst a. unfold show_platform. cbn [pc_platform pc_arch pc_negate].
  split; intros Hin; rewrite !in_app_iff in Hin; destruct ng;
    destruct Hin as [Hin|[Hin|[Hin|[Hin|[Hin|[]]]]]]; try (simpl in Hin;
    repeat (destruct Hin as [Hin|Hin]; [discriminate Hin|]); exact Hin); auto.
Qed.
Lemma show_env_no_close c : printable_env c -> ~ In "]"%char (show_env c) /\ ~ In newline (show_env c).
Proof.
  destruct c as [x e ng]. intros [(Hq & Hc & _ & _ & Hn) H]. cbn [ec_var ec_expected ec_negate] in *. unfold show_env. cbn [ec_var ec_expected ec_negate].
  destruct e as [e|].
  - destruct H as (_ & Ec & _ & _ & En). split; intros Hin; rewrite !in_app_iff in Hin; destruct ng;
      destruct Hin as [Hin|[Hin|[Hin|[Hin|[Hin|Hin]]]]]; try (simpl in Hin;
      repeat (destruct Hin as [Hin|Hin]; [discriminate Hin|]); exact Hin); auto.
  - split; intros Hin; rewrite !in_app_iff in Hin;
      destruct Hin as [Hin|Hin]; try (simpl in Hin;
      repeat (destruct Hin as [Hin|Hin]; [discriminate Hin|]); exact Hin); auto.
Qed.

Definition conds_text (ps : list platform_cond) (es : list env_cond) : text :=
  concat (map (fun c => bracket (show_platform c)) ps) ++ concat (map (fun c => bracket (show_env c)) es).

Lemma conds_step b x rest : ~ In "["%char b -> ~ In "]"%char x ->
  find_char "[" (b ++ bracket x ++ rest) = Some (b, x ++ T "]" ++ rest) /\
  find_char "]" (x ++ T "]" ++ rest) = Some (x, rest).
Proof.
  intros Hb Hx. split.
  - unfold bracket. rewrite <- !app_assoc. apply (find_char_app "[" b (x ++ T "]" ++ rest)). exact Hb.
  - apply (find_char_app "]" x rest). exact Hx.
Qed.
Lemma parse_conditions_env b es : ~ In "["%char b -> Forall printable_env es ->
  forall fuel ps es0, length es <= fuel ->
  parse_conditions fuel (b ++ concat (map (fun c => bracket (show_env c)) es)) ps es0 = Some (b, ps, es0 ++ es).
Proof.
  intros Hb. induction es as [|e es IH]; intros Hes fuel ps es0 Hf.
  - cbn [map concat]. rewrite !app_nil_r. apply find_char_none in Hb. destruct fuel; cbn [parse_conditions]; rewrite Hb; reflexivity.
  - inversion Hes as [|? ? He Hes']; subst. destruct fuel as [|fuel]; [simpl in Hf; lia|].
    cbn [map concat]. destruct (conds_step b (show_env e) (concat (map (fun c => bracket (show_env c)) es)) Hb (proj1 (show_env_no_close e He))) as [F1 F2].
    cbn [parse_conditions]. rewrite F1, F2.
    assert (starts_with (T "platform") (show_env e) = false) as -> by (unfold show_env; destruct (ec_expected e); reflexivity).
    assert (starts_with (T "env.") (show_env e) = true) as ->
      by (unfold show_env; destruct (ec_expected e); apply starts_with_app).
    rewrite show_env_parse by exact He. rewrite IH by (auto; simpl in Hf; lia). rewrite <- app_assoc. reflexivity.
Qed.
Lemma parse_conditions_all b ps es : ~ In "["%char b -> Forall printable_platform ps -> Forall printable_env es ->
  forall fuel ps0, length ps + length es <= fuel ->
  parse_conditions fuel (b ++ conds_text ps es) ps0 [] = Some (b, ps0 ++ ps, es).
Proof.
  intros Hb Hps Hes. unfold conds_text. induction ps as [|p ps IH]; intros fuel ps0 Hf.
  - cbn [map concat]. cbn [app]. rewrite parse_conditions_env by (auto; simpl in Hf; lia). rewrite app_nil_r. reflexivity.
  - inversion Hps as [|? ? Hp Hps']; subst. destruct fuel as [|fuel]; [simpl in Hf; lia|].
    cbn [map concat]. rewrite <- app_assoc.
    destruct (conds_step b (show_platform p) (concat (map (fun c => bracket (show_platform c)) ps) ++ concat (map (fun c => bracket (show_env c)) es)) Hb (proj1 (show_platform_no_close p Hp))) as [F1 F2].
    cbn [parse_conditions]. rewrite F1, F2.
    assert (starts_with (T "platform") (show_platform p) = true) as -> by (unfold show_platform; apply starts_with_app).
    rewrite show_platform_parse by exact Hp. rewrite IH by (auto; simpl in Hf; lia). rewrite <- app_assoc. reflexivity.
Qed.
Lemma conds_shape ps es : conds_text ps es = [] \/ exists t u, conds_text ps es = "["%char :: t /\ conds_text ps es = u ++ ["]"%char].
Proof.
  unfold conds_text.
  assert (forall {A} (f : A -> text) l, concat (map (fun c => bracket (f c)) l) = [] \/
    exists t u, concat (map (fun c => bracket (f c)) l) = "["%char :: t /\ concat (map (fun c => bracket (f c)) l) = u ++ ["]"%char]) as K.
  { intros A f l. induction l as [|x l IH]; [left; reflexivity|]. right. cbn [map concat].
    destruct IH as [->|(t & u & H1 & H2)].
    - rewrite app_nil_r. exists (f x ++ T "]"), ("["%char :: f x). split; reflexivity.
    - exists (f x ++ T "]" ++ concat (map (fun c => bracket (f c)) l)), (bracket (f x) ++ u). split.
      + unfold bracket at 1. rewrite <- !app_assoc. reflexivity.
      + rewrite H2 at 1. rewrite app_assoc. reflexivity. }
  destruct (K _ show_platform ps) as [->|(t & u & H1 & H2)].
  - destruct (K _ show_env es) as [->|(t & u & H1 & H2)]; [left; reflexivity|right; eauto].
  - destruct (K _ show_env es) as [->|(t' & u' & H1' & H2')]; right.
    + rewrite app_nil_r. eauto.
    + rewrite H1. exists (t ++ concat (map (fun c => bracket (show_env c)) es)). rewrite H2'.
      exists ("["%char :: t ++ u'). split; [reflexivity|]. cbn [app]. rewrite <- app_assoc. reflexivity.
Qed.
Lemma conds_no_newline ps es : Forall printable_platform ps -> Forall printable_env es -> ~ In newline (conds_text ps es).
Proof.
  intros Hps Hes Hin. unfold conds_text in Hin. apply in_app_iff in Hin as [Hin|Hin];
    apply in_concat in Hin as (x & Hx & Hin); apply in_map_iff in Hx as (c & <- & Hc); unfold bracket in Hin;
    apply in_app_iff in Hin as [[Hin|[]]|Hin]; try discriminate Hin; apply in_app_iff in Hin as [Hin|[Hin|[]]]; try discriminate Hin.
  - rewrite Forall_forall in Hps. apply (proj2 (show_platform_no_close c (Hps c Hc))), Hin.
  - rewrite Forall_forall in Hes. apply (proj2 (show_env_no_close c (Hes c Hc))), Hin.
Qed.
Lemma conds_length ps es : length ps + length es <= length (conds_text ps es).
Proof.
  unfold conds_text. rewrite app_length.
  assert (forall {A} (f : A -> text) l, length l <= length (concat (map (fun c => bracket (f c)) l))) as K.
  { intros A f l. induction l as [|x l IH]; simpl; [lia|]. rewrite !app_length. simpl. lia. }
  pose proof (K _ show_platform ps). pose proof (K _ show_env es). lia.
Qed.

(** ** the whole requirement *)
Lemma show_parse_form r : name_text (rq_name r) ->
  match rq_namespace r with Some n => name_text n | None => True end ->
  rq_weak r && rq_conflict r = false -> form (rq_name r) (rq_constraint r) ->
  Forall printable_platform (rq_platform r) -> Forall printable_env (rq_env r) ->
  parse_requirement (show_requirement r) = Some r.
Proof.
  destruct r as [n oc wk cf ps es ns]. cbn [rq_name rq_namespace rq_weak rq_conflict rq_constraint rq_platform rq_env].
  intros Hn Hns Hfl Hf Hps Hes.
  set (core := body n oc ++ conds_text ps es).
  set (mid := match ns with Some x => x ++ T "::" | None => [] end ++ core).
  assert (show_requirement (mkReq n oc wk cf ps es ns) = (if cf then T "!" else if wk then T "~" else []) ++ mid) as Eshow.
  { unfold show_requirement, mid, core, body, conds_text. cbn [rq_name rq_namespace rq_weak rq_conflict rq_constraint rq_platform rq_env].
    rewrite <- !app_assoc. reflexivity. }
  destruct (body_head n oc Hn) as (c0 & r0 & E0 & Hc0).
  assert (exists c1 r1, mid = c1 :: r1 /\ name_char c1 = true) as (c1 & r1 & Emid & Hc1).
  { unfold mid, core. rewrite E0. destruct ns as [x|].
    - destruct Hns as [Hx1 Hx2]. destruct x as [|c1 x]; [congruence|]. simpl in Hx2. apply andb_true_iff in Hx2 as [Hx2 _].
      eexists. eexists. split; [reflexivity|exact Hx2].
    - eexists. eexists. split; [reflexivity|exact Hc0]. }
  assert (match rev mid with c :: _ => is_ws c = false | [] => True end) as Hlast.
  { assert (core <> []) as Hcore by (unfold core; rewrite E0; discriminate).
    unfold mid. apply (rev_app_last (fun c => is_ws c = false)); [exact Hcore|]. unfold core.
    destruct (conds_shape ps es) as [->|(t & u & _ & ->)].
    - rewrite app_nil_r. apply body_last; assumption.
    - rewrite app_assoc, rev_app_distr. reflexivity. }
  assert (mid <> []) as Hmid by (rewrite Emid; discriminate).
  assert (forall p, match p ++ mid with c :: _ => is_ws c = false | [] => True end -> trim (p ++ mid) = p ++ mid) as Htrim.
  { intros p Hp. apply trim_fixed_ends. split; [exact Hp|]. apply (rev_app_last (fun c => is_ws c = false)); assumption. }
  assert (is_ws c1 = false) as Hws by (apply vchar_vis, name_char_vchar, Hc1).
  assert (Hrest : forall f1 f2 : bool, (let '(s2, ns2) := match match_namespace mid with Some (a, b) => (b, Some a) | None => (mid, None) end in
     match parse_conditions (length s2) s2 [] [] with
     | None => None
     | Some (rest, ps', es') => match parse_name_and_version rest with
        | None => None | Some (n', c') => Some (mkReq n' c' f1 f2 ps' es' ns2) end end)
     = Some (mkReq n oc f1 f2 ps es ns)).
  { intros f1 f2.
    assert (match match_namespace mid with Some (a, b) => (b, Some a) | None => (mid, None) end = (core, ns)) as ->.
    { destruct ns as [x|].
      - unfold mid. rewrite <- app_assoc. unfold match_namespace. rewrite span_name by (try apply Hns; reflexivity).
        rewrite (name_not_nil x Hns), strip_prefix_app.
        assert (negb (is_nil (fst (span name_char core))) = true) as ->.
        { unfold core. rewrite E0. cbn [app span]. rewrite Hc0. destruct (span name_char (r0 ++ conds_text ps es)). reflexivity. }
        assert (no_newline core = true) as ->; [|reflexivity].
        apply no_newline_iff. unfold core. rewrite in_app_iff. intros [H|H].
        + revert H. apply body_no_newline; assumption. + revert H. apply conds_no_newline; assumption.
      - unfold mid. cbn [app]. unfold core. rewrite body_no_namespace; [reflexivity|exact Hn|exact Hf|].
        destruct (conds_shape ps es) as [->|(t & u & -> & _)]; eauto. }
    unfold core at 1 2. rewrite parse_conditions_all; auto using body_no_bracket.
    - cbn [app]. rewrite parse_body by assumption. reflexivity.
    - rewrite app_length. pose proof (conds_length ps es). lia. }
  unfold parse_requirement. rewrite Eshow. destruct cf.
  - rewrite Htrim by reflexivity. rewrite strip_prefix_app. destruct wk; [discriminate Hfl|]. apply Hrest.
  - destruct wk.
    + rewrite Htrim by reflexivity.
      assert (strip_prefix (T "!") (T "~" ++ mid) = None) as -> by (apply strip_prefix_none; reflexivity).
      rewrite strip_prefix_app. apply Hrest.
    + cbn [app]. pose proof (Htrim []) as Ht0. cbn [app] in Ht0. rewrite Ht0 by (rewrite Emid; exact Hws). clear Ht0.
      assert (strip_prefix (T "!") mid = None) as ->.
      { apply strip_prefix_none. rewrite Emid. cbn [T list_ascii_of_string starts_with].
        destruct (Ascii.eqb_spec "!" c1) as [<-|]; [discriminate Hc1|reflexivity]. }
      assert (strip_prefix (T "~") mid = None) as ->.
      { apply strip_prefix_none. rewrite Emid. cbn [T list_ascii_of_string starts_with].
        destruct (Ascii.eqb_spec "~" c1) as [<-|]; [discriminate Hc1|reflexivity]. }
      apply Hrest.
Qed.

Lemma printable_form n oc : name_text n -> printable_constraint n oc -> form n oc.
Proof.
  intros Hn [Hd|l Hl Hw|v Hp Hd|p Hs Hnl Hb Ht].
  - constructor. apply parse_nv_plain; assumption.
  - constructor; assumption.
  - constructor; assumption.
  - constructor; auto. apply trim_fixed_ends in Ht. apply Ht.
Qed.
Lemma show_parse_printable r : printable r -> parse_requirement (show_requirement r) = Some r.
Proof.
  intros (Hn & Hns & Hfl & Hc & Hp & He). apply show_parse_form; auto. apply printable_form; assumption.
Qed.

(** ** everything the parser returns has such a form *)
Lemma op_constraint_written s o v : parse_version s = Some v -> spelled (op_constraint o v) -> written v.
Proof. intros H Hs. split; [exists s; exact H|]. destruct o; exact Hs. Qed.
Lemma parse_req_single_form s c : parse_req_single s = Some c -> spelled c ->
  exists o v, c = op_constraint o v /\ written v.
Proof.
  unfold parse_req_single. destruct (split_op (trim s)) as [[o vs]|]; [|discriminate].
  destruct (parse_version vs) as [v|] eqn:E; [|discriminate]. intros [= <-] Hs.
  exists o, v. split; [reflexivity|]. eapply op_constraint_written; eauto.
Qed.
Lemma map_opt_form ps cs : map_opt (fun p => parse_req_single (trim p)) ps = Some cs ->
  fold_right (fun c P => spelled c /\ P) True cs ->
  exists l, cs = map (fun '(o, v) => op_constraint o v) l /\ all_written l /\ length l = length ps.
Proof.
  revert cs; induction ps as [|p ps IH]; simpl; intros cs.
  - intros [= <-] _. exists []. split; [reflexivity|]. split; [intros o v []|reflexivity].
  - destruct (parse_req_single (trim p)) as [c|] eqn:E; [|discriminate].
    destruct (map_opt _ ps) as [cs'|] eqn:E2; [|discriminate]. intros [= <-] [H1 H2].
    destruct (IH cs' eq_refl H2) as (l & -> & Hl & Hlen).
    destruct (parse_req_single_form _ _ E H1) as (o & v & -> & Hw).
    exists ((o, v) :: l). split; [reflexivity|]. split; [|simpl; lia].
    intros o' v' [[= <- <-]|Hin]; [exact Hw|eauto].
Qed.
Lemma of_ops_two x y l : of_ops (x :: y :: l) = CMultiple (map (fun '(o, v) => op_constraint o v) (x :: y :: l)).
Proof. destruct x. reflexivity. Qed.
Lemma parse_req_constraints_form s c : parse_req_constraints s = Some c -> spelled c ->
  exists l, l <> [] /\ all_written l /\ c = of_ops l.
Proof.
  unfold parse_req_constraints. destruct (split_on "," s) as [|p [|q ps]] eqn:E.
  - destruct (split_on_nonnil _ _ E).
  - intros H Hs. destruct (parse_req_single_form _ _ H Hs) as (o & v & -> & Hw).
    exists [(o, v)]. split; [discriminate|]. split; [|reflexivity]. intros o' v' [[= <- <-]|[]]. exact Hw.
  - destruct (map_opt _ (p :: q :: ps)) as [cs|] eqn:E2; [|discriminate]. intros [= <-] Hs.
    destruct (map_opt_form _ _ E2 Hs) as (l & -> & Hl & Hlen). exists l.
    destruct l as [|x [|y l]]; try discriminate Hlen. split; [discriminate|]. split; [exact Hl|].
    rewrite of_ops_two. reflexivity.
Qed.
Lemma parse_rez_tail_form n s c : parse_rez_tail s = Some c -> ~ In "-"%char n -> spelled c -> form n (Some c).
Proof.
  unfold parse_rez_tail. intros H Hn Hs.
  destruct (match find_char "<" s with Some (b, r) => (trim_plus b, Some r) | None => (trim_plus s, None) end) as [base upper].
  destruct (parse_version base) as [lo|] eqn:E; [|discriminate]. destruct upper as [r|].
  - destruct (match strip_prefix (T "=") r with Some r' => (true, trim r') | None => (false, trim r) end) as [inc vs].
    destruct (parse_version vs) as [hi|] eqn:E2; [|discriminate]. injection H as <-.
    replace (CMultiple [CGe lo; if inc then CLe hi else CLt hi]) with (of_ops [(OpGe, lo); (if inc then OpLe else OpLt, hi)])
      by (destruct inc; reflexivity).
    destruct Hs as (Hs1 & Hs2 & _).
    constructor; [discriminate|]. intros o v [[= <- <-]|[[= <- <-]|[]]].
    + split; [exists base; exact E|exact Hs1].
    + split; [exists vs; exact E2|]. destruct inc; exact Hs2.
  - destruct (ends_with (T "+") s); injection H as <-.
    + change (CGe lo) with (of_ops [(OpGe, lo)]). constructor; [discriminate|]. intros o v [[= <- <-]|[]].
      split; [exists base; exact E|exact Hs].
    + constructor; [exists base; exact E|exact Hn].
Qed.
Lemma parse_rez_form n s c : parse_rez_spec s = Some c -> ~ In "-"%char n -> spelled c -> form n (Some c).
Proof.
  unfold parse_rez_spec. intros H Hn Hs. destruct (find_dotdot s) as [[a b]|]; [|eapply parse_rez_tail_form; eauto].
  destruct (parse_version a) as [lo|] eqn:E1; [|eapply parse_rez_tail_form; eauto].
  destruct (parse_version b) as [hi|] eqn:E2; [|eapply parse_rez_tail_form; eauto].
  injection H as <-. change (CMultiple [CGe lo; CLt hi]) with (of_ops [(OpGe, lo); (OpLt, hi)]).
  destruct Hs as (Hs1 & Hs2 & _). constructor; [discriminate|]. intros o v [[= <- <-]|[[= <- <-]|[]]].
  - split; [exists a; exact E1|exact Hs1].
  - split; [exists b; exact E2|exact Hs2].
Qed.
Lemma in_tl_star p : In "*"%char (tl p) -> exists a b, a <> [] /\ p = a ++ "*"%char :: b.
Proof.
  destruct p as [|x p]; [intros []|]. simpl. intros H. apply in_split in H as (l1 & l2 & ->).
  exists (x :: l1), l2. split; [discriminate|reflexivity].
Qed.
Lemma rev_app_last_inv (P : ascii -> Prop) (a b : text) :
  match rev (a ++ b) with c :: _ => P c | [] => True end -> match rev b with c :: _ => P c | [] => True end.
Proof. rewrite rev_app_distr. destruct (rev b); [intros; exact I|]. simpl. auto. Qed.
Lemma parse_nv_form s n oc : parse_name_and_version s = Some (n, oc) ->
  match oc with Some c => spelled c | None => True end -> ~ In "["%char s ->
  match rev s with c :: _ => is_ws c = false | [] => True end -> form n oc.
Proof.
  intros H Hs Hb Hl. pose proof H as Horig. unfold parse_name_and_version in H.
  destruct (match_wildcard s) as [[n' p]|] eqn:Ew.
  { injection H as -> <-. unfold match_wildcard in Ew. destruct (span name_char s) as [a b] eqn:Esp.
    destruct (is_nil a); [discriminate|]. destruct (strip_prefix (T "==") b) as [p'|] eqn:Ep; [|discriminate].
    destruct (existsb (Ascii.eqb "*") (tl p') && no_newline p') eqn:E; [|discriminate]. injection Ew as -> ->.
    apply andb_true_iff in E as [E1 E2]. apply existsb_char in E1. apply no_newline_iff in E2.
    apply strip_prefix_spec in Ep. apply span_spec in Esp as (Es & _ & _). subst b s.
    constructor; auto using in_tl_star.
    - intros Hin. apply Hb. rewrite !in_app_iff. auto.
    - apply (rev_app_last_inv (fun c => is_ws c = false) (n ++ T "==")). rewrite <- app_assoc. exact Hl. }
  destruct (match_basic s) as [[[n' o] vs]|] eqn:Em.
  { destruct (existsb (Ascii.eqb ",") s).
    - destruct (parse_req_constraints _) as [c|] eqn:E; [|discriminate]. injection H as -> <-.
      destruct (parse_req_constraints_form _ _ E Hs) as (l & Hl1 & Hl2 & ->). constructor; assumption.
    - destruct (parse_version vs) as [v|] eqn:E; [|discriminate]. injection H as -> <-.
      change (op_constraint o v) with (of_ops [(o, v)]). constructor; [discriminate|].
      intros o' v' [[= <- <-]|[]]. eapply op_constraint_written; eauto. }
  destruct (parse_plus s) as [[n' c]|] eqn:Epl.
  { injection H as -> <-. unfold parse_plus in Epl. destruct (ends_with (T "+") s); [|discriminate].
    destruct (rfind_char "-" (removelast s)) as [[n' vs]|]; [|discriminate].
    destruct (parse_version vs) as [v|] eqn:E; [|discriminate]. injection Epl as -> <-.
    change (CGe v) with (of_ops [(OpGe, v)]). constructor; [discriminate|].
    intros o' v' [[= <- <-]|[]]. split; [exists vs; exact E|exact Hs]. }
  destruct (parse_dash s) as [[n' c]|] eqn:Ed.
  { injection H as -> <-. unfold parse_dash in Ed. destruct (find_char "-" s) as [[n' spec]|] eqn:Ef; [|discriminate].
    destruct (parse_rez_spec spec) as [c'|] eqn:E; [|discriminate]. injection Ed as -> ->.
    apply find_char_some in Ef as [_ Hn]. eapply parse_rez_form; eauto. }
  injection H as -> <-. constructor. exact Horig.
Qed.

Lemma parse_conditions_none s : ~ In "["%char s -> forall fuel, parse_conditions fuel s [] [] = Some (s, [], []).
Proof. intros H fuel. apply find_char_none in H. destruct fuel; cbn [parse_conditions]; rewrite H; reflexivity. Qed.
Lemma strip_prefix_notin p s r d : strip_prefix p s = Some r -> ~ In d s -> ~ In d r.
Proof. intros H Hn Hin. apply strip_prefix_spec in H. subst. apply Hn. apply in_app_iff. auto. Qed.

Lemma trim_last_vis s : match rev (trim s) with c :: _ => is_ws c = false | [] => True end.
Proof. pose proof (trim_idem s) as H. apply trim_fixed_ends in H. apply H. Qed.
Lemma trim_notin (d : ascii) (s : text) : ~ In d s -> ~ In d (trim s).
Proof.
  intros H Hin. apply H. destruct (trim_split s) as (u & v & _ & _ & E). rewrite E. rewrite !in_app_iff. auto.
Qed.

Lemma parse_show_roundtrip s0 r : parse_requirement s0 = Some r -> ~ In "["%char s0 -> name_text (rq_name r) ->
  match rq_constraint r with Some c => spelled c | None => True end ->
  parse_requirement (show_requirement r) = Some r.
Proof.
  unfold parse_requirement at 1. intros H Hb Hn Hs.
  pose proof (trim_last_vis s0) as Hl. apply trim_notin in Hb. revert H Hl Hb. generalize (trim s0). clear s0. intros s H Hl Hb.
  assert (forall s2 wk cf, ~ In "["%char s2 -> wk && cf = false ->
    match rev s2 with c :: _ => is_ws c = false | [] => True end ->
    (let '(s3, ns) := match match_namespace s2 with Some (n, r) => (r, Some n) | None => (s2, None) end in
     match parse_conditions (length s3) s3 [] [] with
     | None => None
     | Some (rest, ps, es) => match parse_name_and_version rest with
        | None => None | Some (n, c) => Some (mkReq n c wk cf ps es ns) end end) = Some r ->
    parse_requirement (show_requirement r) = Some r) as K.
  { intros s2 wk cf Hb2 Hfl Hl2 H2.
    destruct (match match_namespace s2 with Some (n, r) => (r, Some n) | None => (s2, None) end) as [s3 ns] eqn:Ens.
    assert (~ In "["%char s3 /\ match rev s3 with c :: _ => is_ws c = false | [] => True end /\
            match ns with Some n => name_text n | None => True end) as (Hb3 & Hl3 & Hns).
    { destruct (match_namespace s2) as [[n' r']|] eqn:E; [|injection Ens as <- <-; auto].
      injection Ens as <- <-. unfold match_namespace in E. destruct (span name_char s2) as [a b] eqn:Esp.
      destruct (is_nil a) eqn:Ea; [discriminate|]. destruct (strip_prefix (T "::") b) as [p|] eqn:Ep; [|discriminate].
      destruct (negb (is_nil (fst (span name_char p))) && no_newline p); [|discriminate]. injection E as <- <-.
      apply strip_prefix_spec in Ep. apply span_spec in Esp as (Es & Ha & _). subst.
      split; [intros Hin; apply Hb2; rewrite !in_app_iff; auto|]. split.
      - apply (rev_app_last_inv (fun c => is_ws c = false) (a ++ T "::")). rewrite <- app_assoc. exact Hl2.
      - split; [apply is_nil_false, Ea|exact Ha]. }
    rewrite parse_conditions_none in H2 by exact Hb3.
    destruct (parse_name_and_version s3) as [[n c]|] eqn:E; [|discriminate]. injection H2 as <-.
    cbn [rq_name rq_constraint] in *. apply show_parse_form; cbn [rq_name rq_constraint rq_namespace rq_weak rq_conflict rq_platform rq_env]; auto.
    eapply parse_nv_form; eauto. }
  destruct (strip_prefix (T "!") s) as [s1|] eqn:E1.
  - apply (K s1 false true); auto.
    + eapply strip_prefix_notin; eauto.
    + apply strip_prefix_spec in E1. subst s. apply (rev_app_last_inv (fun c => is_ws c = false) (T "!")). exact Hl.
  - destruct (strip_prefix (T "~") s) as [s1|] eqn:E2.
    + apply (K s1 true false); auto.
      * eapply strip_prefix_notin; eauto.
      * apply strip_prefix_spec in E2. subst s. apply (rev_app_last_inv (fun c => is_ws c = false) (T "~")). exact Hl.
    + apply (K s false false); auto.
Qed.
