(** Proofs about the text syntax of version ranges. *)
From Verif Require Import Base Base_lemmas Text_lemmas Version_model Version_spec Version_proofs Version_order
  Range_model Range_spec Range_proofs.

(** ** version texts are made of harmless characters *)
Definition vchar (c : ascii) : bool :=
  is_token_char c || Ascii.eqb c "." || Ascii.eqb c "-" || Ascii.eqb c "+".
Lemma vchar_neq c d : vchar c = true -> vchar d = false -> Ascii.eqb c d = false.
Proof. intros H1 H2. destruct (Ascii.eqb_spec c d); [subst; congruence|reflexivity]. Qed.
Lemma is_ws_code c : is_ws c = true -> vchar c = false.
Proof. intros H. destruct c as [[] [] [] [] [] [] [] []]; vm_compute in H |- *; congruence. Qed.
Lemma vchar_vis c : vchar c = true -> is_ws c = false.
Proof. intros H. destruct (is_ws c) eqn:E; [|reflexivity]. apply is_ws_code in E. congruence. Qed.
Lemma token_vchar c : is_token_char c = true -> vchar c = true.
Proof. unfold vchar. intros ->. reflexivity. Qed.

Definition vtext (s : text) : Prop :=
  forallb vchar s = true /\ contains_text (T "..") s = false /\
  hd_error s <> Some "."%char /\ hd_error (rev s) <> Some "."%char.

Lemma shape_vchar s ts cs : shape s ts cs -> forallb vchar s = true.
Proof.
  assert (forall t, word t -> forallb vchar t = true) as Hw.
  { intros t Ht. apply word_iff in Ht as [_ Ht]. rewrite forallb_forall in *. intros c Hc. apply token_vchar, Ht, Hc. }
  induction 1 as [t Ht|t c s ts cs Ht Hc Hs IH]; [auto|].
  rewrite forallb_app. simpl. rewrite Hw, IH by exact Ht.
  destruct Hc as [->|[->| ->]]; reflexivity.
Qed.
Lemma token_not_dot c : is_token_char c = true -> c <> "."%char.
Proof. intros H ->. discriminate. Qed.

Lemma shape_vtext s ts cs : shape s ts cs -> vtext s.
Proof.
  intros H. split; [eapply shape_vchar; eauto|]. split; [eapply shape_no_dotdot; eauto|]. split.
  - destruct (shape_head _ _ _ H) as (c & r & -> & Hc). intros [= ->]. discriminate.
  - destruct (shape_last _ _ _ H) as (c & r & -> & Hc). intros [= ->]. discriminate.
Qed.
Lemma parsed_vtext v : parsed v -> vtext (v_str v).
Proof.
  intros [s H]. apply parse_version_cases in H as [[_ ->]|[[_ ->]|[[_ ->]|H]]];
    try (vm_compute; repeat split; congruence).
  destruct H as (_ & _ & _ & -> & cs & (Hsh & _) & _). eapply shape_vtext; eauto.
Qed.
Lemma parsed_text v : parsed v -> parse_version (v_str v) = Some v.
Proof. intros [s H]. eapply parse_version_roundtrip; eauto. Qed.

Lemma vchars_no_ws s : forallb vchar s = true -> forallb (fun c => negb (is_ws c)) s = true.
Proof.
  rewrite !forallb_forall. intros H c Hc. apply negb_true_iff, vchar_vis, H, Hc.
Qed.
Lemma vchars_notin s d : forallb vchar s = true -> vchar d = false -> ~ In d s.
Proof. rewrite forallb_forall. intros H Hd Hin. apply H in Hin. congruence. Qed.

(** ** splitting texts without special characters *)
Lemma split_commas_plain s : forall cur, ~ In ","%char s -> split_commas cur s = push_trim (rev s ++ cur) [].
Proof.
  induction s as [|c s IH]; intros cur H; [reflexivity|]. cbn [split_commas].
  destruct (Ascii.eqb_spec c ","); [exfalso; apply H; left; auto|].
  rewrite IH by (intros X; apply H; right; exact X). simpl. rewrite <- app_assoc. reflexivity.
Qed.
Lemma split_ops_plain s : forall cur, ~ In " "%char s -> split_ops cur s = push_trim (rev s ++ cur) [].
Proof.
  induction s as [|c s IH]; intros cur H; [reflexivity|]. cbn [split_ops].
  destruct (Ascii.eqb_spec c " "); [exfalso; apply H; left; auto|].
  rewrite IH by (intros X; apply H; right; exact X). simpl. rewrite <- app_assoc. reflexivity.
Qed.
Lemma push_trim_app cur a b : push_trim cur (a ++ b) = push_trim cur a ++ b.
Proof. unfold push_trim. destruct (is_nil _); reflexivity. Qed.
Lemma split_commas_app a b : forall cur, split_commas cur (a ++ "," %char :: b) = split_commas cur a ++ split_commas [] b.
Proof.
  induction a as [|c a IH]; intros cur; cbn [app split_commas].
  - rewrite Ascii.eqb_refl. rewrite <- (push_trim_app cur [] (split_commas [] b)). reflexivity.
  - destruct (Ascii.eqb c ","); [rewrite IH, push_trim_app; reflexivity|apply IH].
Qed.
Lemma push_trim_snoc cur w l : is_ws w = true -> push_trim (cur ++ [w]) l = push_trim cur l.
Proof.
  intros H. unfold push_trim. rewrite rev_app_distr. simpl. rewrite trim_cons_ws by exact H. reflexivity.
Qed.
Lemma push_trim_cons cur w l : is_ws w = true -> push_trim (w :: cur) l = push_trim cur l.
Proof. intros H. unfold push_trim. simpl. rewrite trim_snoc_ws by exact H. reflexivity. Qed.
Lemma split_commas_cur_ws w s : is_ws w = true -> forall cur, split_commas (cur ++ [w]) s = split_commas cur s.
Proof.
  intros Hw. induction s as [|c s IH]; intros cur; cbn [split_commas].
  - apply push_trim_snoc, Hw.
  - destruct (Ascii.eqb c ","); [apply push_trim_snoc, Hw|]. apply (IH (c :: cur)).
Qed.
Lemma split_commas_snoc_ws w s : is_ws w = true -> forall cur, split_commas cur (s ++ [w]) = split_commas cur s.
Proof.
  intros Hw. assert (Ascii.eqb w "," = false) as Hc by (destruct (Ascii.eqb_spec w ","); [subst; discriminate|reflexivity]).
  induction s as [|c s IH]; intros cur; cbn [split_commas app].
  - rewrite Hc. apply push_trim_cons, Hw.
  - rewrite !IH. reflexivity.
Qed.
Lemma split_commas_trim s : split_commas [] (trim s) = split_commas [] s.
Proof.
  destruct (trim_split s) as (u & v & Hu & Hv & E). rewrite E at 2. clear E.
  induction u as [|c u IH]; cbn [app].
  - clear Hu. induction v as [|c v IH] using rev_ind; [rewrite app_nil_r; reflexivity|].
    rewrite forallb_app in Hv. apply andb_true_iff in Hv as [H1 H2]. simpl in H2. rewrite andb_true_r in H2.
    rewrite app_assoc, split_commas_snoc_ws by auto. auto.
  - simpl in Hu. apply andb_true_iff in Hu as [Hc Hu]. cbn [split_commas].
    assert (Ascii.eqb c "," = false) as -> by (destruct (Ascii.eqb_spec c ","); [subst; discriminate|reflexivity]).
    rewrite (split_commas_cur_ws c _ Hc []). auto.
Qed.
Lemma parts_trim s : split_constraint_parts (trim s) = split_constraint_parts s.
Proof. unfold split_constraint_parts. rewrite split_commas_trim. reflexivity. Qed.
Lemma parts_app a b : split_constraint_parts (a ++ ","%char :: b) = split_constraint_parts a ++ split_constraint_parts b.
Proof. unfold split_constraint_parts. rewrite split_commas_app, flat_map_app. reflexivity. Qed.

Lemma push_trim_fix s : trim s = s -> s <> [] -> push_trim (rev s) [] = [s].
Proof.
  intros H Hn. unfold push_trim. rewrite rev_involutive, H. destruct s; [congruence|reflexivity].
Qed.
Lemma parts_single s : trim s = s -> s <> [] -> ~ In ","%char s -> ~ In " "%char s -> split_constraint_parts s = [s].
Proof.
  intros Ht Hn H1 H2. unfold split_constraint_parts. rewrite split_commas_plain by exact H1. rewrite app_nil_r, push_trim_fix by auto.
  cbn [flat_map]. rewrite split_ops_plain by exact H2. rewrite !app_nil_r. rewrite push_trim_fix by auto. reflexivity.
Qed.

(** ** conjunctions *)
Definition conj (s : text) : option bound_set :=
  match parse_parts (split_constraint_parts s) with
  | None => None | Some [] => Some [BAny] | Some bs => Some bs end.
Lemma find_char_none d s : ~ In d s -> find_char d s = None.
Proof.
  induction s as [|c s IH]; intros H; [reflexivity|]. simpl. destruct (Ascii.eqb_spec c d); [exfalso; apply H; left; auto|].
  rewrite IH; [reflexivity|]. intros X. apply H. right. exact X.
Qed.
Lemma expand_plus_none s : ~ In "+"%char s -> expand_plus s = s.
Proof. intros H. unfold expand_plus. rewrite find_char_none by exact H. destruct (starts_op s); reflexivity. Qed.
Lemma parse_conjunction_conj s : ~ In "+"%char s -> parse_conjunction s = conj s.
Proof.
  intros H. unfold parse_conjunction. destruct (is_nil s || text_eqb s (T "*")) eqn:E.
  - apply orb_true_iff in E as [E|E]; [apply is_nil_true in E|apply text_eqb_eq in E]; subst; reflexivity.
  - rewrite expand_plus_none by exact H. reflexivity.
Qed.
Lemma parse_conjunction_op s : starts_op s = true -> parse_conjunction s = conj s.
Proof.
  intros H. unfold parse_conjunction. destruct (is_nil s || text_eqb s (T "*")) eqn:E.
  - apply orb_true_iff in E as [E|E]; [apply is_nil_true in E|apply text_eqb_eq in E]; subst; reflexivity.
  - unfold expand_plus. rewrite H. reflexivity.
Qed.
Lemma conj_trim s : conj (trim s) = conj s.
Proof. unfold conj. rewrite parts_trim. reflexivity. Qed.
Lemma parse_parts_app a b : parse_parts (a ++ b) =
  match parse_parts a, parse_parts b with Some x, Some y => Some (x ++ y) | _, _ => None end.
Proof.
  induction a as [|p a IH]; cbn [app parse_parts].
  - destruct (parse_parts b); reflexivity.
  - destruct (is_nil (trim p)); [exact IH|]. destruct (parse_single_constraint (trim p)); [|reflexivity].
    rewrite IH. destruct (parse_parts a), (parse_parts b); reflexivity.
Qed.
Lemma conj_comma a b : 
  match conj a, conj b with
  | Some x, Some y => exists z, conj (a ++ ","%char :: b) = Some z /\
                        forall v, bs_contains z v = bs_contains x v && bs_contains y v
  | _, _ => conj (a ++ ","%char :: b) = None
  end.
Proof.
  unfold conj. rewrite parts_app, parse_parts_app.
  destruct (parse_parts (split_constraint_parts a)) as [x|]; [|reflexivity].
  destruct (parse_parts (split_constraint_parts b)) as [y|]; [|destruct x; reflexivity].
  destruct x as [|x0 x].
  - cbn [app]. destruct y as [|y0 y]; (eexists; split; [reflexivity|]); intros v; reflexivity.
  - destruct y as [|y0 y].
    + rewrite app_nil_r. eexists; split; [reflexivity|]. intros v. cbn. rewrite andb_true_r. reflexivity.
    + cbn [app]. eexists; split; [reflexivity|]. intros v. unfold bs_contains.
      change (x0 :: x ++ y0 :: y) with ((x0 :: x) ++ y0 :: y). apply forallb_app.
Qed.

(** ** texts without ".." *)
Lemma find_dotdot_none s : contains_text (T "..") s = false -> find_dotdot s = None.
Proof.
  induction s as [|c s IH]; intros H; [reflexivity|]. cbn [contains_text] in H. apply orb_false_iff in H as [H1 H2].
  cbn [find_dotdot]. rewrite H1, IH by exact H2. reflexivity.
Qed.
Lemma no_dotdot_iff s : no_dotdot s <-> contains_text (T "..") s = false.
Proof. unfold no_dotdot. rewrite contains_text_false_spec. reflexivity. Qed.
Lemma no_dotdot_trim s : no_dotdot s -> no_dotdot (trim s).
Proof.
  rewrite !no_dotdot_iff. intros H. destruct (contains_text (T "..") (trim s)) eqn:E; [|reflexivity].
  destruct (trim_split s) as (u & v & _ & _ & Es). rewrite Es in H.
  rewrite contains_text_sub in H by exact E. discriminate.
Qed.
Lemma no_dotdot_app a c b : no_dotdot a -> no_dotdot b -> c <> "."%char -> no_dotdot (a ++ c :: b).
Proof.
  rewrite !no_dotdot_iff. intros Ha Hb Hc. induction a as [|d a IH]; cbn [app contains_text] in *.
  - rewrite Hb, orb_false_r. cbn [T list_ascii_of_string starts_with]. destruct (Ascii.eqb_spec "." c); [congruence|reflexivity].
  - apply orb_false_iff in Ha as [H1 H2]. rewrite IH by exact H2. rewrite orb_false_r.
    destruct a as [|e a]; [|exact H1]. cbn [T list_ascii_of_string starts_with app]. destruct (Ascii.eqb_spec "." c); [congruence|].
    destruct (Ascii.eqb "." d); reflexivity.
Qed.

Lemma map_opt_map {A B C} (f : B -> option C) (g : A -> B) l : map_opt (fun x => f (g x)) l = map_opt f (map g l).
Proof. induction l as [|x l IH]; simpl; [reflexivity|]. rewrite IH. reflexivity. Qed.
Lemma map_opt_app {A B} (f : A -> option B) a b : map_opt f (a ++ b) =
  match map_opt f a, map_opt f b with Some x, Some y => Some (x ++ y) | _, _ => None end.
Proof.
  induction a as [|x a IH]; simpl; [destruct (map_opt f b); reflexivity|].
  destruct (f x); [|reflexivity]. rewrite IH. destruct (map_opt f a), (map_opt f b); reflexivity.
Qed.
Lemma parse_alternatives_trim s : parse_alternatives (trim s) = parse_alternatives s.
Proof.
  unfold parse_alternatives. rewrite !(map_opt_map parse_conjunction trim). rewrite map_trim_split by reflexivity. reflexivity.
Qed.
Lemma parse_alternatives_or a b : parse_alternatives (a ++ "|"%char :: b) =
  match parse_alternatives a, parse_alternatives b with Some x, Some y => Some (x ++ y) | _, _ => None end.
Proof. unfold parse_alternatives. rewrite split_on_app_gen. apply map_opt_app. Qed.
Lemma parse_alternatives_one s : ~ In "|"%char s -> parse_alternatives s =
  match parse_conjunction (trim s) with Some b => Some [b] | None => None end.
Proof.
  intros H. unfold parse_alternatives. rewrite split_on_none by exact H. simpl.
  destruct (parse_conjunction (trim s)); reflexivity.
Qed.

Lemma parse_range_plain s : no_dotdot s -> ~ spells_empty s ->
  parse_range s = match parse_alternatives s with Some b => Some (mkRange s b true []) | None => None end.
Proof.
  intros Hd He. unfold parse_range.
  assert (parse_range_str (trim s) = parse_alternatives s) as ->; [|reflexivity].
  rewrite <- parse_alternatives_trim. unfold parse_range_str.
  destruct (is_nil (trim s) || text_eqb (trim s) (T "*")) eqn:E.
  { apply orb_true_iff in E as [E|E]; [apply is_nil_true in E|apply text_eqb_eq in E]; rewrite E; reflexivity. }
  destruct (text_eqb (trim s) (T "empty") || text_eqb (trim s) (T "!*")) eqn:E2.
  { exfalso. apply He. apply orb_true_iff in E2 as [E2|E2]; apply text_eqb_eq in E2; [left|right]; exact E2. }
  rewrite find_dotdot_none by (apply no_dotdot_iff, no_dotdot_trim, Hd).
  destruct (starts_with (T ".") (trim s)); reflexivity.
Qed.

Lemma spells_empty_has s c : In c s -> is_ws c = false -> existsb (Ascii.eqb c) (T "empty!*") = false -> ~ spells_empty s.
Proof.
  intros Hin Hw Hc [E|E]; apply (In_trim c s Hin) in Hw; rewrite E in Hw;
    (assert (existsb (Ascii.eqb c) (T "empty!*") = true) as X; [|congruence]);
    apply existsb_exists; exists c; rewrite Ascii.eqb_refl; (split; [|reflexivity]); vm_compute in Hw |- *; tauto.
Qed.

Lemma contains_mk s b v : b <> [] ->
  contains (mkRange s b true []) v = existsb (fun bs => bs_contains bs v) b.
Proof. intros H. destruct b as [|x b]; [congruence|]. cbn [contains negb orb is_nil]. destruct (existsb _ _); reflexivity. Qed.

Lemma range_or a b ra rb : no_dotdot a -> no_dotdot b -> ~ spells_empty a -> ~ spells_empty b ->
  parse_range a = Some ra -> parse_range b = Some rb ->
  exists r, parse_range (a ++ T "|" ++ b) = Some r /\ forall v, contains r v = contains ra v || contains rb v.
Proof.
  intros Da Db Ea Eb. cbn [T list_ascii_of_string app].
  rewrite !parse_range_plain; auto using no_dotdot_app.
  2:{ apply no_dotdot_app; auto. discriminate. }
  2:{ apply (spells_empty_has _ "|"); auto. apply in_or_app. right. left. reflexivity. }
  rewrite parse_alternatives_or.
  destruct (parse_alternatives a) as [x|] eqn:E1; [|discriminate]. intros [= <-].
  destruct (parse_alternatives b) as [y|] eqn:E2; [|discriminate]. intros [= <-].
  eexists. split; [reflexivity|]. intros v.
  apply parse_alternatives_nonnil in E1. apply parse_alternatives_nonnil in E2.
  rewrite !contains_mk; auto; [apply existsb_app|]. destruct x; [congruence|discriminate].
Qed.
Lemma range_or_err a b : no_dotdot a -> no_dotdot b -> ~ spells_empty a -> ~ spells_empty b ->
  parse_range a = None \/ parse_range b = None -> parse_range (a ++ T "|" ++ b) = None.
Proof.
  intros Da Db Ea Eb. cbn [T list_ascii_of_string app].
  rewrite !parse_range_plain; auto using no_dotdot_app.
  2:{ apply no_dotdot_app; auto. discriminate. }
  2:{ apply (spells_empty_has _ "|"); auto. apply in_or_app. right. left. reflexivity. }
  rewrite parse_alternatives_or.
  destruct (parse_alternatives a); [|reflexivity]. destruct (parse_alternatives b); [|reflexivity].
  intros [|]; discriminate.
Qed.

Lemma In_trim_rev c s : In c (trim s) -> In c s.
Proof.
  intros H. destruct (trim_split s) as (u & v & _ & _ & E). rewrite E. apply in_or_app. right. apply in_or_app. left. exact H.
Qed.
Lemma alternatives_conj s : ~ In "|"%char s -> ~ In "+"%char s ->
  parse_alternatives s = match conj s with Some b => Some [b] | None => None end.
Proof.
  intros H1 H2. rewrite parse_alternatives_one by exact H1.
  rewrite parse_conjunction_conj by (intros X; apply H2, In_trim_rev, X). rewrite conj_trim. reflexivity.
Qed.
Lemma range_and a b : no_dotdot a -> no_dotdot b -> ~ spells_empty a -> ~ spells_empty b ->
  no_char "|" a -> no_char "|" b -> no_char "+" a -> no_char "+" b ->
  match parse_range a, parse_range b with
  | Some ra, Some rb => exists r, parse_range (a ++ T "," ++ b) = Some r /\ forall v, contains r v = contains ra v && contains rb v
  | _, _ => parse_range (a ++ T "," ++ b) = None
  end.
Proof.
  unfold no_char. intros Da Db Ea Eb Pa Pb Qa Qb. cbn [T list_ascii_of_string app].
  assert (forall c, ~ In c a -> ~ In c b -> c <> ","%char -> ~ In c (a ++ ","%char :: b)) as Hin.
  { intros c H1 H2 H3 H. apply in_app_or in H as [H|[H|H]]; congruence. }
  rewrite !parse_range_plain; auto using no_dotdot_app.
  2:{ apply no_dotdot_app; auto. discriminate. }
  2:{ apply (spells_empty_has _ ","); auto. apply in_or_app. right. left. reflexivity. }
  rewrite !alternatives_conj by (auto; apply Hin; auto; discriminate).
  pose proof (conj_comma a b) as Hc. destruct (conj a) as [x|]; [|rewrite Hc; reflexivity].
  destruct (conj b) as [y|]; [|rewrite Hc; reflexivity]. destruct Hc as (z & -> & Hz).
  eexists. split; [reflexivity|]. intros v. rewrite !contains_mk by discriminate. cbn [existsb]. rewrite !orb_false_r. apply Hz.
Qed.

(** ** the operators *)
Lemma starts_with_head p c s : starts_with (p :: nil) (c :: s) = Ascii.eqb p c.
Proof. cbn [starts_with]. apply andb_true_r. Qed.

(** a version text preceded by an operator of one or two characters *)
Definition op_text (op : text) : Prop :=
  op = T ">=" \/ op = T "<=" \/ op = T "==" \/ op = T "!=" \/ op = T "~=" \/ op = T ">" \/ op = T "<".
Definition op_bound (op : text) (w : version) : bound :=
  if text_eqb op (T ">=") then BGe w else if text_eqb op (T "<=") then BLe w
  else if text_eqb op (T "==") then BEq w else if text_eqb op (T "!=") then BNe w
  else if text_eqb op (T "~=") then BCompat w else if text_eqb op (T ">") then BGt w else BLt w.

Lemma vtext_trim s : forallb vchar s = true -> trim s = s.
Proof. intros H. apply trim_no_ws, vchars_no_ws, H. Qed.
Lemma op_trim op s : op_text op -> forallb vchar s = true -> trim (op ++ s) = op ++ s.
Proof.
  intros Ho Hs. apply trim_no_ws. rewrite forallb_app, (vchars_no_ws s Hs), andb_true_r.
  destruct Ho as [->|[->|[->|[->|[->|[->| ->]]]]]]; reflexivity.
Qed.
Lemma op_single op w : op_text op -> parsed w -> parse_single_constraint (op ++ v_str w) = Some (op_bound op w).
Proof.
  intros Ho Hw. pose proof (parsed_vtext w Hw) as (Hc & _). pose proof (parsed_text w Hw) as Hp.
  assert (trim (v_str w) = v_str w) as Ht by (apply vtext_trim, Hc).
  unfold parse_single_constraint. rewrite op_trim by assumption.
  assert (starts_with (T "=") (v_str w) = false) as Hx.
  { destruct (v_str w) as [|x s]; [reflexivity|]. cbn [T list_ascii_of_string]. rewrite starts_with_head.
    simpl in Hc. apply andb_true_iff in Hc as [Hc _]. rewrite Ascii.eqb_sym. apply vchar_neq; auto. }
  unfold strip_prefix, parse_bound_with, op_bound.
  destruct Ho as [->|[->|[->|[->|[->|[->| ->]]]]]]; try (cbn - [parse_version trim]; rewrite Ht, Hp; reflexivity).
  - change (starts_with (T ">=") (T ">" ++ v_str w)) with (starts_with (T "=") (v_str w)). rewrite Hx.
    cbn - [parse_version trim]; rewrite Ht, Hp; reflexivity.
  - change (starts_with (T "<=") (T "<" ++ v_str w)) with (starts_with (T "=") (v_str w)). rewrite Hx.
    cbn - [parse_version trim]; rewrite Ht, Hp; reflexivity.
Qed.
Lemma op_conj op w : op_text op -> parsed w -> conj (op ++ v_str w) = Some [op_bound op w].
Proof.
  intros Ho Hw. pose proof (parsed_vtext w Hw) as (Hc & _).
  assert (trim (op ++ v_str w) = op ++ v_str w) as Ht by (apply op_trim; assumption).
  assert (op ++ v_str w <> []) as Hn by (destruct Ho as [->|[->|[->|[->|[->|[->| ->]]]]]]; discriminate).
  assert (forall d, vchar d = false -> ~ In d op -> ~ In d (op ++ v_str w)) as Hin.
  { intros d Hd Hop H. apply in_app_or in H as [H|H]; [auto|]. revert H. apply vchars_notin; auto. }
  unfold conj. rewrite parts_single; auto.
  - cbn [parse_parts]. rewrite Ht. destruct (op ++ v_str w) eqn:E; [congruence|]. cbn [is_nil]. rewrite <- E.
    rewrite op_single by assumption. reflexivity.
  - apply Hin; [reflexivity|]. destruct Ho as [->|[->|[->|[->|[->|[->| ->]]]]]]; vm_compute; intuition discriminate.
  - apply Hin; [reflexivity|]. destruct Ho as [->|[->|[->|[->|[->|[->| ->]]]]]]; vm_compute; intuition discriminate.
Qed.
Lemma op_starts op s : op_text op -> starts_op (op ++ s) = true.
Proof. intros [->|[->|[->|[->|[->|[->| ->]]]]]]; reflexivity. Qed.

Lemma op_no_dotdot op s : op_text op -> no_dotdot s -> no_dotdot (op ++ s).
Proof.
  intros Ho Hs. assert (no_dotdot []) as Hn by (intros a b E; destruct a; discriminate).
  destruct Ho as [->|[->|[->|[->|[->|[->| ->]]]]]]; cbn [T list_ascii_of_string app];
  repeat (match goal with |- no_dotdot (?c :: ?x) => change (c :: x) with ([] ++ c :: x); apply no_dotdot_app; [exact Hn| |discriminate] end);
  exact Hs.
Qed.
Lemma op_not_empty op s : op_text op -> ~ spells_empty (op ++ s).
Proof.
  intros [->|[->|[->|[->|[->|[->| ->]]]]]]; try solve [apply (spells_empty_has _ "="); [cbn; auto|reflexivity|reflexivity]].
  - apply (spells_empty_has _ ">"); [cbn; auto|reflexivity|reflexivity].
  - apply (spells_empty_has _ "<"); [cbn; auto|reflexivity|reflexivity].
Qed.

Lemma range_op op w : op_text op -> parsed w ->
  exists r, parse_range (op ++ v_str w) = Some r /\ forall v, contains r v = bound_matches (op_bound op w) v.
Proof.
  intros Ho Hw. pose proof (parsed_vtext w Hw) as (Hc & Hd & _).
  assert (~ In "|"%char (op ++ v_str w)) as Hor.
  { intros H. apply in_app_or in H as [H|H]; [|revert H; apply vchars_notin; auto].
    destruct Ho as [->|[->|[->|[->|[->|[->| ->]]]]]]; vm_compute in H; intuition discriminate. }
  rewrite parse_range_plain; [|apply op_no_dotdot; [exact Ho|apply no_dotdot_iff, Hd]|apply op_not_empty, Ho].
  rewrite parse_alternatives_one by exact Hor. rewrite op_trim by assumption.
  rewrite parse_conjunction_op by (apply op_starts, Ho). rewrite op_conj by assumption.
  eexists. split; [reflexivity|]. intros v. rewrite contains_mk by discriminate. cbn. rewrite andb_true_r, orb_false_r. reflexivity.
Qed.

(** ** ">=x,<y", "x..y", "x+", "x+<y" *)
Lemma ge_lt_alternatives x y : parsed x -> parsed y ->
  parse_alternatives (T ">=" ++ v_str x ++ T ",<" ++ v_str y) = Some [[BGe x; BLt y]].
Proof.
  intros Hx Hy. pose proof (parsed_vtext x Hx) as (Cx & _). pose proof (parsed_vtext y Hy) as (Cy & _).
  assert (T ">=" ++ v_str x ++ T ",<" ++ v_str y = (T ">=" ++ v_str x) ++ ","%char :: (T "<" ++ v_str y)) as E
    by (rewrite <- app_assoc; reflexivity).
  rewrite E. rewrite parse_alternatives_one.
  2:{ intros H. apply in_app_or in H as [H|H]; [apply in_app_or in H as [H|H]|destruct H as [H|H]; [discriminate|]; apply in_app_or in H as [H|H]];
      try (vm_compute in H; intuition discriminate); revert H; apply vchars_notin; auto. }
  replace (trim ((T ">=" ++ v_str x) ++ ","%char :: T "<" ++ v_str y)) with ((T ">=" ++ v_str x) ++ ","%char :: T "<" ++ v_str y).
  2:{ symmetry. apply trim_no_ws. rewrite !forallb_app. cbn [forallb]. rewrite forallb_app. rewrite (vchars_no_ws (v_str x) Cx), (vchars_no_ws (v_str y) Cy). reflexivity. }
  rewrite parse_conjunction_op by reflexivity. unfold conj. rewrite parts_app, parse_parts_app.
  pose proof (op_conj (T ">=") x (or_introl eq_refl) Hx) as H1. unfold conj in H1.
  pose proof (op_conj (T "<") y) as H2. unfold conj in H2.
  destruct (parse_parts (split_constraint_parts (T ">=" ++ v_str x))) as [[|b1 l1]|]; try discriminate.
  specialize (H2 ltac:(unfold op_text; tauto) Hy).
  destruct (parse_parts (split_constraint_parts (T "<" ++ v_str y))) as [[|b2 l2]|]; try discriminate.
  injection H1 as -> ->. injection H2 as -> ->. reflexivity.
Qed.

Lemma find_dotdot_first x y : contains_text (T "..") x = false -> hd_error (rev x) <> Some "."%char ->
  find_dotdot (x ++ T ".." ++ y) = Some (x, y).
Proof.
  induction x as [|c x IH]; intros Hd Hl; [reflexivity|].
  cbn [contains_text] in Hd. apply orb_false_iff in Hd as [H1 H2].
  cbn [app find_dotdot].
  assert (starts_with (T "..") (c :: x ++ T ".." ++ y) = false) as ->.
  { destruct x as [|d x].
    - cbn [app T list_ascii_of_string starts_with]. simpl in Hl. destruct (Ascii.eqb_spec "." c); [subst; congruence|reflexivity].
    - exact H1. }
  rewrite IH; [reflexivity|exact H2|]. destruct x as [|d x]; [discriminate|].
  simpl in Hl |- *. rewrite <- app_assoc in Hl. destruct (rev x); exact Hl.
Qed.

Lemma vtext_no_op s : forallb vchar s = true -> starts_op s = false.
Proof.
  destruct s as [|c s]; [reflexivity|]. cbn [forallb]. intros H. apply andb_true_iff in H as [H _].
  unfold starts_op. cbn [T list_ascii_of_string]. rewrite !starts_with_head.
  rewrite !(Ascii.eqb_sym _ c). rewrite !(vchar_neq c) by (exact H || reflexivity). reflexivity.
Qed.

Lemma range_interval x y : parsed x -> parsed y -> v_str x <> [] -> v_str y <> [] ->
  exists r, parse_range (v_str x ++ T ".." ++ v_str y) = Some r /\
    forall v, contains r v = v_ge v x && v_lt v y.
Proof.
  intros Hx Hy Nx Ny. pose proof (parsed_vtext x Hx) as (Cx & Dx & Hdx & Lx).
  pose proof (parsed_vtext y Hy) as (Cy & Dy & Hdy & Ly).
  unfold parse_range. assert (trim (v_str x ++ T ".." ++ v_str y) = v_str x ++ T ".." ++ v_str y) as Ht.
  { apply trim_no_ws. rewrite !forallb_app. rewrite (vchars_no_ws (v_str x) Cx), (vchars_no_ws (v_str y) Cy). reflexivity. }
  rewrite Ht. assert (parse_range_str (v_str x ++ T ".." ++ v_str y) = Some [[BGe x; BLt y]]) as ->.
  2:{ eexists. split; [reflexivity|]. intros v. cbn. rewrite andb_true_r, orb_false_r.
      destruct (v_ge v x && v_lt v y); reflexivity. }
  unfold parse_range_str.
  assert (special4 (v_str x ++ T ".." ++ v_str y) = false) as Hs.
  { apply (special4_has "."); [|reflexivity|reflexivity]. apply in_or_app. right. left. reflexivity. }
  unfold special4 in Hs. rewrite Ht in Hs. rewrite <- orb_assoc in Hs. apply orb_false_iff in Hs as [-> ->].
  assert (starts_with (T ".") (v_str x ++ T ".." ++ v_str y) = false) as ->.
  { destruct (v_str x) as [|c s]; [congruence|]. cbn [app T list_ascii_of_string]. rewrite starts_with_head.
    destruct (Ascii.eqb_spec "." c); [subst; simpl in Hdx; congruence|reflexivity]. }
  rewrite find_dotdot_first by assumption.
  rewrite vtext_no_op by exact Cx.
  destruct (v_str x) as [|c1 s1] eqn:E1; [congruence|]. destruct (v_str y) as [|c2 s2] eqn:E2; [congruence|].
  cbn [is_nil negb andb]. rewrite <- E1, <- E2 in *. rewrite !vtext_trim by assumption. apply ge_lt_alternatives; assumption.
Qed.

Lemma find_char_first d x y : ~ In d x -> find_char d (x ++ d :: y) = Some (x, y).
Proof.
  induction x as [|c x IH]; intros H; simpl.
  - rewrite Ascii.eqb_refl. reflexivity.
  - destruct (Ascii.eqb_spec c d); [exfalso; apply H; left; auto|].
    rewrite IH; [reflexivity|]. intros X. apply H. right. exact X.
Qed.

Lemma vtext_plus_nodot x s : vtext x -> no_dotdot s -> no_dotdot (x ++ "+"%char :: s).
Proof. intros (_ & Hd & _) Hs. apply no_dotdot_app; [apply no_dotdot_iff, Hd|exact Hs|discriminate]. Qed.

Lemma plus_conjunction x rest : forallb vchar x = true -> x <> [] -> no_char "+" x ->
  parse_conjunction (x ++ "+"%char :: rest) = 
    conj (if is_nil rest then T ">=" ++ x else T ">=" ++ x ++ T "," ++ rest).
Proof.
  intros Hc Hn Hp. unfold parse_conjunction.
  assert (is_nil (x ++ "+"%char :: rest) || text_eqb (x ++ "+"%char :: rest) (T "*") = false) as ->.
  { destruct x as [|c x]; [congruence|]. cbn [app is_nil orb]. apply text_eqb_neq. intros E.
    destruct x; discriminate. }
  assert (expand_plus (x ++ "+"%char :: rest) = if is_nil rest then T ">=" ++ x else T ">=" ++ x ++ T "," ++ rest) as ->.
  { unfold expand_plus. assert (starts_op (x ++ "+"%char :: rest) = false) as ->.
    { pose proof (vtext_no_op x Hc) as H. destruct x; [congruence|exact H]. }
    rewrite find_char_first by exact Hp. reflexivity. }
  reflexivity.
Qed.

Lemma range_plus x : parsed x -> v_str x <> [] -> no_char "+" (v_str x) ->
  exists r, parse_range (v_str x ++ T "+") = Some r /\ forall v, contains r v = v_ge v x.
Proof.
  intros Hx Nx Px. pose proof (parsed_vtext x Hx) as Vx. pose proof Vx as (Cx & _). cbn [T list_ascii_of_string].
  assert (forallb vchar (v_str x ++ ["+"%char]) = true) as Hc by (rewrite forallb_app, Cx; reflexivity).
  rewrite parse_range_plain.
  - rewrite parse_alternatives_one by (apply vchars_notin; [exact Hc|reflexivity]).
    rewrite vtext_trim by exact Hc. rewrite plus_conjunction by assumption. cbn [is_nil].
    rewrite op_conj by (unfold op_text; auto). eexists. split; [reflexivity|]. intros v. cbn. rewrite andb_true_r, orb_false_r.
    destruct (v_ge v x); reflexivity.
  - apply vtext_plus_nodot; [exact Vx|]. intros a b E; destruct a; discriminate.
  - apply (spells_empty_has _ "+"); [|reflexivity|reflexivity]. apply in_or_app. right. left. reflexivity.
Qed.
Lemma range_plus_lt x y : parsed x -> parsed y -> v_str x <> [] -> no_char "+" (v_str x) ->
  exists r, parse_range (v_str x ++ T "+<" ++ v_str y) = Some r /\ forall v, contains r v = v_ge v x && v_lt v y.
Proof.
  intros Hx Hy Nx Px. pose proof (parsed_vtext x Hx) as Vx. pose proof Vx as (Cx & _).
  pose proof (parsed_vtext y Hy) as (Cy & Dy & _). cbn [T list_ascii_of_string app].
  assert (~ In "|"%char (v_str x ++ "+"%char :: "<"%char :: v_str y)) as Hor.
  { intros H. apply in_app_or in H as [H|[H|[H|H]]]; try discriminate; revert H; apply vchars_notin; auto. }
  rewrite parse_range_plain.
  - rewrite parse_alternatives_one by exact Hor.
    rewrite trim_no_ws by (rewrite forallb_app; cbn [forallb]; rewrite (vchars_no_ws (v_str x) Cx), (vchars_no_ws (v_str y) Cy); reflexivity).
    rewrite plus_conjunction by assumption. cbn [is_nil].
    pose proof (ge_lt_alternatives x y Hx Hy) as Ha. rewrite parse_alternatives_one in Ha.
    2:{ intros H. apply in_app_or in H as [H|H]; [|apply in_app_or in H as [H|H]; [|apply in_app_or in H as [H|H]]];
        try (vm_compute in H; intuition discriminate); revert H; apply vchars_notin; auto. }
    rewrite trim_no_ws in Ha by (rewrite !forallb_app, (vchars_no_ws (v_str x) Cx), (vchars_no_ws (v_str y) Cy); reflexivity).
    rewrite parse_conjunction_op in Ha by reflexivity.
    cbn [T list_ascii_of_string app] in Ha |- *.
    destruct (conj _) as [b|]; [|discriminate]. injection Ha as ->.
    eexists. split; [reflexivity|]. intros v. cbn. rewrite andb_true_r, orb_false_r.
    destruct (v_ge v x && v_lt v y); reflexivity.
  - apply vtext_plus_nodot; [exact Vx|]. change ("<"%char :: v_str y) with ([] ++ "<"%char :: v_str y).
    apply no_dotdot_app; [intros a b E; destruct a; discriminate|apply no_dotdot_iff, Dy|discriminate].
  - apply (spells_empty_has _ "+"); [|reflexivity|reflexivity]. apply in_or_app. right. left. reflexivity.
Qed.

(** bare version: exact match *)
Lemma range_bare w : parsed w -> v_str w <> [] -> v_str w <> T "empty" -> no_char "+" (v_str w) ->
  exists r, parse_range (v_str w) = Some r /\ forall v, contains r v = veq v w.
Proof.
  intros Hw Nw Ew Pw. pose proof (parsed_vtext w Hw) as (Cw & Dw & _). pose proof (parsed_text w Hw) as Hp.
  pose proof (vtext_trim _ Cw) as Ht.
  rewrite parse_range_plain.
  2:{ apply no_dotdot_iff, Dw. }
  2:{ intros [E|E]; rewrite Ht in E; [congruence|]. rewrite E in Cw. discriminate. }
  rewrite alternatives_conj; [|apply vchars_notin; [exact Cw|reflexivity]|exact Pw].
  unfold conj. rewrite parts_single; auto; try (apply vchars_notin; [exact Cw|reflexivity]).
  cbn [parse_parts]. rewrite Ht. destruct (v_str w) as [|c s] eqn:E; [congruence|]. cbn [is_nil]. rewrite <- E in *.
  assert (parse_single_constraint (v_str w) = Some (BEq w)) as ->.
  { unfold parse_single_constraint. rewrite Ht.
    assert (is_nil (v_str w) || text_eqb (v_str w) (T "*") = false) as ->.
    { rewrite E. cbn [is_nil orb]. rewrite <- E. apply text_eqb_neq. intros X. rewrite X in Cw. discriminate. }
    assert (forall d p, vchar d = false -> strip_prefix (d :: p) (v_str w) = None) as Hs.
    { intros d p Hd. unfold strip_prefix. rewrite E in Cw |- *. cbn [forallb] in Cw. apply andb_true_iff in Cw as [Cw _].
      cbn [starts_with]. rewrite Ascii.eqb_sym, (vchar_neq c d) by assumption. reflexivity. }
    cbn [T list_ascii_of_string]. rewrite !Hs by reflexivity. rewrite Hp. reflexivity. }
  eexists. split; [reflexivity|]. intros v. cbn. rewrite andb_true_r, orb_false_r. destruct (veq v w); reflexivity.
Qed.
