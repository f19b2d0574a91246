(** The two other writers of package.py. *)
From Verif Require Import Base Base_lemmas Maps Json Version_model Rex_model Requirement_model Pyfile_model Pyfile_spec Pyfile_proofs Pyfile_files Pkgfile_model Pkgfile_spec Pkgfile_python Pkgfile_loads.
Open Scope string_scope. Open Scope list_scope.

(** ** Texts of lines *)
Lemma block_nil : block_reads [] [].
Proof. intros r r' [[-> ->] | ->]; cbn [app]; [reflexivity|]. rewrite R_blank. destruct (R MStart 0 XStmt r'); reflexivity. Qed.
Lemma block_app a b s t : block_reads a s -> block_reads b t -> block_reads (a ++ NL :: b) (s ++ t).
Proof.
  intros A B r r' E. rewrite <- app_assoc. cbn [app]. rewrite (A (NL :: b ++ r) (b ++ r)) by (right; reflexivity). rewrite (B r r' E).
  destruct (R MStart 0 XStmt r'); [rewrite app_assoc|]; reflexivity.
Qed.
Lemma block_end b s : block_reads b s -> python_reads b = Some s.
Proof. intros B. specialize (B [] [] (or_introl (conj eq_refl eq_refl))). rewrite app_nil_r in B. rewrite reads_R, B. cbn. rewrite app_nil_r. reflexivity. Qed.
Definition join_cons (s a b : text) (l : list text) : join s (a :: b :: l) = a ++ s ++ join s (b :: l) := eq_refl.
Lemma join_app_lines A B : A <> [] -> B <> [] -> join [NL] (A ++ B) = join [NL] A ++ NL :: join [NL] B.
Proof.
  intros HA HB. induction A as [|a A IH]; [contradiction|]. destruct A as [|b A].
  - destruct B as [|b B]; [contradiction|]. reflexivity.
  - cbn [app]. rewrite !join_cons. cbn [app] in IH. rewrite IH by discriminate. rewrite <- !app_assoc. reflexivity.
Qed.
Lemma join_ln ls e : join [NL] (ls ++ [e]) = concat (map ln ls) ++ e.
Proof.
  induction ls as [|a ls IH]; [reflexivity|]. cbn [app map concat]. destruct (ls ++ [e]) as [|b l] eqn:E; [destruct ls; discriminate|].
  rewrite join_cons, IH. unfold ln. rewrite <- !app_assoc. reflexivity.
Qed.
(** the lines of one field *)
Definition group_reads (g : list text) (s : list stmt) : Prop := (g = [] /\ s = []) \/ (g <> [] /\ block_reads (join [NL] g) s).
Lemma group_nil : group_reads [] [].
Proof. left. split; reflexivity. Qed.
Lemma group_app g h s t : group_reads g s -> group_reads h t -> group_reads (g ++ h) (s ++ t).
Proof.
  intros [[-> ->]|[Ng G]] Hh; [exact Hh|]. right. split; [destruct g; [contradiction|discriminate]|]. destruct Hh as [[-> ->]|[Nh H]].
  - rewrite !app_nil_r. exact G.
  - rewrite join_app_lines by assumption. apply block_app; assumption.
Qed.
Lemma group_one b s : block_reads b s -> group_reads [b] s.
Proof. intros B. right. split; [discriminate|exact B]. Qed.
Lemma group_end b g s t : block_reads b s -> group_reads g t -> python_reads (join [NL] ([b] ++ g)) = Some (s ++ t).
Proof.
  intros B G. apply block_end. destruct (group_app [b] g s t (group_one b s B) G) as [[E _]|[_ H]]; [discriminate|exact H].
Qed.
Lemma group_opt x o : word x -> plain_opt o -> group_reads (match o with Some s => [x ++ T " = " ++ quoted s] | None => [] end) (opt_assign x (some_text o)).
Proof. intros W P. destruct o as [s|]; [|apply group_nil]. apply group_one, block_quoted; [exact W|exact P]. Qed.
Lemma group_escaped x o : word x -> quotable_opt o -> group_reads (match o with Some s => [x ++ T " = " ++ quoted (escape_dq s)] | None => [] end) (opt_assign x (some_text o)).
Proof. intros W P. destruct o as [s|]; [|apply group_nil]. apply group_one, block_escaped; [exact W|exact P]. Qed.

(** ** methods.rs *)
Lemma map_nil_iff {A B} (f : A -> B) l : is_nil (map f l) = is_nil l.
Proof. destruct l; reflexivity. Qed.
Lemma group_wide {P : text -> Prop} x w l : word x ->
  (forall a fs es r, P a -> unquoted r -> R MBetween 1 (XValue x (FList es :: fs)) (w a ++ r) = R MBetween 1 (XAfter x (FList es :: fs) (EConst (KStr a))) r) ->
  (forall a, In a l -> P a) -> group_reads (wide_list x (map w l)) (opt_assign x (some_list l)).
Proof.
  intros W Hw H. unfold wide_list, some_list. rewrite map_nil_iff. destruct (is_nil l) eqn:N; [apply group_nil|]. apply group_one. intros r r' E.
  rewrite <- !app_assoc. change (T " = [" ++ ?s) with (T " = " ++ ("["%char :: s)). rewrite R_assign, R_open by exact W.
  etransitivity; [exact (R_joined w (fun s => EConst (KStr s)) P (T " ") x 0 [] (fun k r => eq_refl) (fun a es r => Hw a [] es r) l H [] [] r (fun k => eq_refl) eq_refl)|].
  rewrite (R_end _ _ r r' E). apply oc_app.
Qed.
Lemma group_wide_plain x l : word x -> plain_all l -> group_reads (wide_list x (map quoted l)) (opt_assign x (some_list l)).
Proof. intros W H. apply (group_wide (P := plain)); [exact W| |exact H]. intros a fs es r Pa U. apply R_quoted; auto. right. reflexivity. Qed.
Lemma group_wide_escaped x l : word x -> (forall a, In a l -> quotable a) -> group_reads (wide_list x (map (fun a => quoted (escape_dq a)) l)) (opt_assign x (some_list l)).
Proof. intros W H. apply (group_wide (P := quotable) x (fun a => quoted (escape_dq a))); [exact W| |exact H]. intros a fs es r Pa U. apply R_escaped; auto. right. reflexivity. Qed.
Lemma block_tall {A} x (w : A -> text) (e : A -> pexpr) (P : A -> Prop) l : word x ->
  (forall a es r, P a -> unquoted r -> R MBetween 1 (XValue x [FList es]) (w a ++ r) = R MBetween 1 (XAfter x [FList es] (e a)) r) ->
  (forall a, In a l -> P a) ->
  block_reads (x ++ T " = [" ++ NL :: join (T "," ++ [NL]) (map (fun r => T "    " ++ r) (map w l)) ++ NL :: T "]") (assigns x (EList (map e l))).
Proof.
  intros W Hw H r r' E. rewrite <- !app_assoc. change (T " = [" ++ ?s) with (T " = " ++ ("["%char :: s)). rewrite R_assign, R_open by exact W.
  cbn [app]. rewrite R_inner_line, map_map. rewrite <- app_assoc. change ((NL :: T "]") ++ r) with ([NL] ++ "]"%char :: r).
  change (T "," ++ [NL]) with (","%char :: [NL]).
  rewrite (R_joined (fun a => T "    " ++ w a) e P [NL] x 0 [] (fun k r => eq_refl)) with (tail := [NL]); [ |intros a es r0 Pa U; rewrite <- app_assoc, R_indent; apply Hw; assumption|exact H|reflexivity|reflexivity].
  rewrite (R_end _ _ r r' E). apply oc_app.
Qed.
Lemma group_tall x l : word x -> plain_all l -> group_reads (tall_list x (map quoted l)) (opt_assign x (some_list l)).
Proof.
  intros W H. unfold tall_list, some_list. rewrite map_nil_iff. destruct (is_nil l); [apply group_nil|]. apply group_one.
  apply (block_tall x quoted (fun s => EConst (KStr s)) plain l W); [|exact H]. intros a es r Pa U. apply R_quoted; auto. right. reflexivity.
Qed.
Lemma group_tall_variants l : (forall v, In v l -> plain_all v) ->
  group_reads (tall_list (T "variants") (map (fun v => T "[" ++ join (T ", ") (map quoted v) ++ T "]") l)) (opt_assign (T "variants") (some_variants l)).
Proof.
  intros H. unfold tall_list, some_variants. rewrite map_nil_iff. destruct (is_nil l); [apply group_nil|]. apply group_one.
  apply (block_tall (T "variants") (fun v => T "[" ++ join (T ", ") (map quoted v) ++ T "]") str_list plain_all l); [apply word_of; reflexivity| |exact H].
  intros a es r Pa U. rewrite <- !app_assoc. apply R_bracket. exact Pa.
Qed.
Definition mt_lits (p : pkg) : list (text * option lit) :=
  [(T "name", lit_text (Some (k_name p))); (T "version", lit_text (opt_version p)); (T "description", lit_text (k_description p));
   (T "authors", lit_list (k_authors p)); (T "requires", lit_list (k_requires p)); (T "build_requires", lit_list (k_build_requires p));
   (T "private_build_requires", lit_list (k_private_build_requires p)); (T "variants", lit_variants (k_variants p)); (T "tools", lit_list (k_tools p));
   (T "uuid", lit_text (k_uuid p))].
Ltac wd := apply word_of; reflexivity.
Lemma mt_reads p : plain_ten p -> values_only p -> python_reads (to_package_py p) = Some (assigned (map with_expr (mt_lits p))).
Proof.
  intros (P1 & P2 & P3 & P4 & P5 & P6 & P7 & P8 & P9 & P10) (E1 & E2 & E3 & E4 & E5 & E6). unfold to_package_py. rewrite E1, E2, E3, E4, E5, E6.
  cbn [function_lines is_nil app]. unfold mt_lits. cbn [map]. rewrite !with_text, !with_list, with_variants. unfold assigned. cbn [map concat fst snd].
  refine (group_end _ _ (opt_assign (T "name") (some_text (Some (k_name p)))) _ _ _).
  { apply (block_quoted (T "name") (k_name p)); [wd|exact P1]. }
  apply group_app. { pose proof (group_opt (T "version") (opt_version p)) as H. unfold opt_version in *. destruct (k_version p); (apply H; [wd|exact P2]). }
  apply group_app. { apply (group_escaped (T "description") (k_description p)); [wd|exact P3]. }
  apply group_app. { apply group_wide_escaped; [wd|exact P4]. }
  do 3 (apply group_app; [apply group_tall; [wd|assumption]|]).
  apply group_app; [apply group_tall_variants; assumption|].
  apply group_app; [apply group_wide_plain; [wd|assumption]|].
  apply group_app; [|apply group_nil]. apply (group_opt (T "uuid") (k_uuid p)); [wd|exact P10].
Qed.
Lemma mt_nodup p : NoDup (map fst (mt_lits p)).
Proof. apply distinct_nodup. reflexivity. Qed.
Lemma mt_fits p : forall x a, In (x, a) (lits_of (mt_lits p)) -> lit_fits x a.
Proof. unfold mt_lits. lit_fit. Qed.
Lemma mt_package p : of_python (mkPy (k_name p) (k_version p) (lit_data (mt_lits p))) = only_ten p.
Proof. unfold of_python. cbn [y_name y_version y_data]. pose proof (mt_nodup p) as N. lit_fields N. reflexivity. Qed.
Lemma load_mt w p : acceptable p -> version_ok (k_version p) -> bind (load w (assigned (map with_expr (mt_lits p)))) (fun q => Ok (of_python q)) = Ok (only_ten p).
Proof.
  intros A V. rewrite assigned_lits, load_lits by apply mt_fits.
  rewrite (build_lits (mt_lits p) (k_name p) (k_version p) _ (mt_nodup p) eq_refl eq_refl V (mt_package p)); [cbn [bind]; rewrite mt_package; reflexivity|].
  destruct A as (A & B & C & D & E & F & G). unfold acceptable. cbn. repeat split; auto.
Qed.

(** ** package_bindings.rs *)
Lemma concat_ln_items pad l : concat (map ln (map (fun a => pad ++ quoted a ++ T ",") l)) = concat (map (fun a => ln (pad ++ quoted a ++ T ",")) l).
Proof. rewrite map_map. reflexivity. Qed.
Lemma group_short x l : word x -> plain_all l -> group_reads (short_list x l) (opt_assign x (some_list l)).
Proof.
  intros W P. destruct l as [|a [|b l]]; [apply group_nil| |]; cbn [some_list is_nil].
  - unfold short_list. apply (group_app [[]] [_] [] _ (group_one _ _ block_nil)). apply group_one. intros r r' E. rewrite <- !app_assoc.
    change (T " = [" ++ ?s) with (T " = " ++ ("["%char :: s)). rewrite R_assign, R_open by exact W.
    pose proof (R_row 0 x [] [a] [] [] r P (fun k => eq_refl) eq_refl) as H. cbn [map join app] in H. change (T "]" ++ r) with ("]"%char :: r). rewrite H.
    rewrite (R_end _ _ r r' E). apply oc_app.
  - remember (a :: b :: l) as l0 eqn:El. assert (E0 : short_list x l0 = [[]; x ++ T " = ["] ++ map (fun a => T "    " ++ quoted a ++ T ",") l0 ++ [T "]"]) by (subst l0; reflexivity).
    rewrite E0. clear a b l El E0. apply (group_app [[]] ([x ++ T " = ["] ++ map (fun a => T "    " ++ quoted a ++ T ",") l0 ++ [T "]"]) [] _ (group_one _ _ block_nil)).
    right. split; [discriminate|]. rewrite app_assoc, join_ln. cbn [app map concat]. rewrite concat_ln_items. intros r r' E. unfold ln at 1. rewrite <- !app_assoc.
    change (T " = [" ++ ?s) with (T " = " ++ ("["%char :: s)). rewrite R_assign, R_open by exact W. cbn [app]. rewrite R_inner_line.
    rewrite (R_items 0 (T "    ") x l0) by (exact P || reflexivity). change (T "]" ++ r) with ("]"%char :: r). rewrite R_close_value, (R_end _ _ r r' E). apply oc_app.
Qed.
Lemma R_variant x es v r : plain_all v -> R MBetween 1 (XValue x [FList es]) (concat (map ln (variant_lines v)) ++ r) = R MBetween 1 (XValue x [FList (es ++ [str_list v])]) r.
Proof.
  intros P. destruct v as [|a [|b v]].
  - change (concat (map ln (variant_lines [])) ++ r) with (T "    " ++ "["%char :: NL :: T "    " ++ "]"%char :: ","%char :: NL :: r).
    rewrite R_indent, R_open, R_inner_line, R_indent, R_close_value, R_comma, R_inner_line. reflexivity.
  - cbn [variant_lines map concat]. unfold ln. rewrite <- !app_assoc. change (T "    [" ++ ?s) with (T "    " ++ "["%char :: s). rewrite R_indent, R_open.
    pose proof (R_row 1 x [FList es] [a] [] [] (","%char :: NL :: r) P (fun k => eq_refl) eq_refl) as H. cbn [map join app] in H.
    change (T "]," ++ [NL] ++ [] ++ r) with ("]"%char :: ","%char :: NL :: r). rewrite H, R_comma, R_inner_line. reflexivity.
  - remember (a :: b :: v) as l0 eqn:El. assert (E0 : variant_lines l0 = [T "    ["] ++ map (fun a => T "        " ++ quoted a ++ T ",") l0 ++ [T "    ],"]) by (subst l0; reflexivity).
    rewrite E0. clear a b v El E0. rewrite !map_app, !concat_app, <- !app_assoc, concat_ln_items.
    change (concat (map ln [T "    ["]) ++ ?s) with (T "    " ++ "["%char :: NL :: s). rewrite R_indent, R_open, R_inner_line.
    rewrite (R_items 1 (T "        ") x l0) by (exact P || reflexivity). change (concat (map ln [T "    ],"]) ++ r) with (T "    " ++ "]"%char :: ","%char :: NL :: r).
    rewrite R_indent, R_close_value, R_comma, R_inner_line. reflexivity.
Qed.
Lemma concat_concat_ln ls : concat (map ln (concat ls)) = concat (map (fun l => concat (map ln l)) ls).
Proof. induction ls as [|l ls IH]; [reflexivity|]. cbn [concat map]. rewrite map_app, concat_app, IH. reflexivity. Qed.
Lemma R_variants x l : (forall v, In v l -> plain_all v) -> forall es r,
  R MBetween 1 (XValue x [FList es]) (concat (map ln (concat (map variant_lines l))) ++ r) = R MBetween 1 (XValue x [FList (es ++ map str_list l)]) r.
Proof.
  intros P es r. rewrite concat_concat_ln, map_map. revert es. induction l as [|v l IH]; intros es; cbn [map concat]; [rewrite app_nil_r; reflexivity|].
  rewrite <- app_assoc, R_variant by (apply P; left; reflexivity). rewrite IH by (intros u Hu; apply P; right; exact Hu). rewrite <- app_assoc. reflexivity.
Qed.
Lemma group_variants l : (forall v, In v l -> plain_all v) ->
  group_reads (if is_nil l then [] else [[]; T "variants = ["] ++ concat (map variant_lines l) ++ [T "]"]) (opt_assign (T "variants") (some_variants l)).
Proof.
  intros P. unfold some_variants. destruct (is_nil l); [apply group_nil|].
  apply (group_app [[]] ([T "variants = ["] ++ concat (map variant_lines l) ++ [T "]"]) [] _ (group_one _ _ block_nil)).
  right. split; [discriminate|]. rewrite app_assoc, join_ln, map_app, concat_app. intros r r' E. rewrite <- !app_assoc.
  change (concat (map ln [T "variants = ["]) ++ ?s) with (T "variants" ++ T " = " ++ "["%char :: NL :: s). rewrite R_assign by wd. rewrite R_open, R_inner_line.
  rewrite (R_variants (T "variants") l P []). change (T "]" ++ r) with ("]"%char :: r). rewrite R_close_value, (R_end _ _ r r' E). apply oc_app.
Qed.
Lemma block_bool x b : word x -> block_reads (x ++ T " = " ++ py_bool b) (assigns x (EConst (KBool b))).
Proof.
  intros W r r' E. rewrite <- !app_assoc, R_assign by exact W.
  assert (H : R MBetween 0 (XValue x []) (py_bool b ++ r) = R MBetween 0 (XAfter x [] (EConst (KBool b))) r).
  { destruct E as [[-> ->] | ->]; [destruct b; reflexivity|]. unfold R. destruct b; cbn [py_bool T app tokens bad_char Ascii.eqb].
    - change (tokens MBetween 0 (T "True" ++ NL :: r')) with (oc (KName (T "True")) (oc KLine (tokens MStart 0 r'))).
      change (tokens MBetween 0 (NL :: r')) with (oc KLine (tokens MStart 0 r')). destruct (tokens MStart 0 r'); reflexivity.
    - change (tokens MBetween 0 (T "False" ++ NL :: r')) with (oc (KName (T "False")) (oc KLine (tokens MStart 0 r'))).
      change (tokens MBetween 0 (NL :: r')) with (oc KLine (tokens MStart 0 r')). destruct (tokens MStart 0 r'); reflexivity. }
  rewrite H, (R_end _ _ r r' E). apply oc_app.
Qed.
Definition some_bool (o : option bool) : option pexpr := match o with Some b => Some (EConst (KBool b)) | None => None end.
Lemma with_bool x o : with_expr (x, lit_bool o) = (x, some_bool o).
Proof. destruct o; reflexivity. Qed.
Lemma group_bool x o : word x -> group_reads (match o with Some b => [[]; x ++ T " = " ++ py_bool b] | None => [] end) (opt_assign x (some_bool o)).
Proof.
  intros W. destruct o as [b|]; [|apply group_nil]. apply (group_app [[]] [_] [] _ (group_one _ _ block_nil)). apply group_one, block_bool, W.
Qed.
Lemma group_blank_opt x o : word x -> plain_opt o -> group_reads (match o with Some s => [[]; x ++ T " = " ++ quoted s] | None => [] end) (opt_assign x (some_text o)).
Proof.
  intros W P. destruct o as [s|]; [|apply group_nil]. apply (group_app [[]] [_] [] _ (group_one _ _ block_nil)). apply group_one, block_quoted; assumption.
Qed.
(** three quotes *)
Lemma tok_three s : quotable s -> ~ In DQ s -> forall t d r, tokens (MText true t) d (s ++ r) = tokens (MText true (t ++ s)) d r.
Proof.
  intros H Q. induction s as [|c s IH]; intros t d r; [rewrite app_nil_r; reflexivity|].
  assert (N1 : forall x, In x [BS; NL; CR; "000"%char] -> Ascii.eqb c x = false).
  { intros x Hx. destruct (Ascii.eqb_spec c x) as [->|]; [|reflexivity]. exfalso. exact (H x (or_introl eq_refl) Hx). }
  cbn [app tokens]. unfold bad_char. rewrite (N1 "000"%char), (N1 CR), (N1 BS), (N1 NL) by (cbn; tauto).
  destruct (Ascii.eqb_spec c DQ) as [->|_]; [exfalso; apply Q; left; reflexivity|]. cbn [orb andb negb].
  rewrite IH by ((intros x Hx; apply H; right; exact Hx) || (intros I; apply Q; right; exact I)). rewrite <- app_assoc. reflexivity.
Qed.
Lemma plain_quotable s : plain s -> quotable s /\ ~ In DQ s.
Proof.
  intros P. split; [intros c Hc I; apply (P c Hc); cbn in *; tauto|]. intros I. apply (P DQ I). left. reflexivity.
Qed.
Lemma group_long d : plain d -> group_reads [[]; T "description = " ++ [DQ; DQ; DQ]; d; [DQ; DQ; DQ]] (assigns (T "description") (EConst (KStr (NL :: d ++ [NL])))).
Proof.
  intros P. destruct (plain_quotable d P) as [Q N]. apply (group_app [[]] [T "description = " ++ [DQ; DQ; DQ]; d; [DQ; DQ; DQ]] [] _ (group_one _ _ block_nil)).
  right. split; [discriminate|]. intros r r' E. rewrite !join_cons. cbn [join]. rewrite <- !app_assoc.
  change (T "description = " ++ ?s) with (T "description" ++ T " = " ++ s). rewrite R_assign by wd.
  assert (H : R MBetween 0 (XValue (T "description") []) ([DQ; DQ; DQ] ++ [NL] ++ d ++ [NL] ++ [DQ; DQ; DQ] ++ r) = R MBetween 0 (XAfter (T "description") [] (EConst (KStr (NL :: d ++ [NL])))) r).
  { unfold R. change (tokens MBetween 0 ([DQ; DQ; DQ] ++ [NL] ++ d ++ [NL] ++ [DQ; DQ; DQ] ++ r)) with (tokens (MText true [NL]) 0 (d ++ NL :: DQ :: DQ :: DQ :: r)).
    rewrite tok_three by assumption. change (tokens (MText true ([NL] ++ d)) 0 (NL :: DQ :: DQ :: DQ :: r)) with (oc (KText (([NL] ++ d) ++ [NL])) (tokens MBetween 0 r)).
    rewrite <- app_assoc. destruct (tokens MBetween 0 r); reflexivity. }
  rewrite H, (R_end _ _ r r' E). apply oc_app.
Qed.
Definition pb_lits (p : pkg) : list (text * option lit) :=
  [(T "name", lit_text (Some (k_name p))); (T "version", lit_text (opt_version p)); (T "description", lit_text (framed_description p));
   (T "authors", lit_list (k_authors p)); (T "requires", lit_list (k_requires p)); (T "build_requires", lit_list (k_build_requires p));
   (T "variants", lit_variants (k_variants p)); (T "tools", lit_list (k_tools p));
   (T "relocatable", lit_bool (k_relocatable p)); (T "cachable", lit_bool (k_cachable p)); (T "uuid", lit_text (k_uuid p))].
Lemma pb_reads p : plain_eight p -> plain_opt (k_uuid p) -> k_commands p = None -> python_reads (binding_package_py p) = Some (assigned (map with_expr (pb_lits p))).
Proof.
  intros (P1 & P2 & P3 & P4 & P5 & P6 & P7 & P8) P9 E. unfold binding_package_py. rewrite E. cbn [app].
  unfold pb_lits. cbn [map]. rewrite !with_text, !with_list, with_variants, !with_bool. unfold assigned. cbn [map concat fst snd].
  refine (group_end _ _ (opt_assign (T "name") (some_text (Some (k_name p)))) _ _ _).
  { apply (block_quoted (T "name") (k_name p)); [wd|exact P1]. }
  apply group_app. { pose proof (group_opt (T "version") (opt_version p)) as H. unfold opt_version in *. destruct (k_version p); (apply H; [wd|exact P2]). }
  apply group_app.
  { unfold framed_description. destruct (k_description p) as [d|]; [|apply group_nil]. destruct (Nat.ltb 40 (length d)).
    - apply group_long. exact P3.
    - apply (group_escaped (T "description") (Some d)); [wd|]. apply plain_quotable. exact P3. }
  do 3 (apply group_app; [apply group_short; [wd|assumption]|]).
  apply group_app; [apply group_variants; assumption|].
  apply group_app; [apply group_short; [wd|assumption]|].
  apply group_app; [apply (group_bool (T "relocatable")); wd|].
  apply group_app; [apply (group_bool (T "cachable")); wd|].
  rewrite app_nil_r. apply (group_blank_opt (T "uuid") (k_uuid p)); [wd|exact P9].
Qed.
Lemma pb_nodup p : NoDup (map fst (pb_lits p)).
Proof. apply distinct_nodup. reflexivity. Qed.
Lemma pb_fits p : forall x a, In (x, a) (lits_of (pb_lits p)) -> lit_fits x a.
Proof. unfold pb_lits. lit_fit. Qed.
Lemma pb_package p : of_python (mkPy (k_name p) (k_version p) (lit_data (pb_lits p))) = set_description (framed_description p) (only_eleven p).
Proof. unfold of_python. cbn [y_name y_version y_data]. pose proof (pb_nodup p) as N. lit_fields N. reflexivity. Qed.
Lemma load_pb w p : acceptable p -> version_ok (k_version p) ->
  bind (load w (assigned (map with_expr (pb_lits p)))) (fun q => Ok (of_python q)) = Ok (set_description (framed_description p) (only_eleven p)).
Proof.
  intros A V. rewrite assigned_lits, load_lits by apply pb_fits.
  rewrite (build_lits (pb_lits p) (k_name p) (k_version p) _ (pb_nodup p) eq_refl eq_refl V (pb_package p)); [cbn [bind]; rewrite pb_package; reflexivity|].
  destruct A as (A & B & C & D & E & F & G). unfold acceptable. cbn. repeat split; auto.
Qed.

(** ** What methods.rs writes of the flags and the tests *)
Definition ename (o : option bool) : option pexpr := match o with Some b => Some (EName (show_bool b)) | None => None end.
Definition dict_of (l : list (text * text)) : option pexpr :=
  if is_nil l then None else Some (EDict (map (fun b => (Some (EConst (KStr (fst b))), EDict [])) l)).
Definition mt_tail (p : pkg) : list (text * option pexpr) :=
  [(T "relocatable", ename (k_relocatable p)); (T "cachable", ename (k_cachable p)); (T "tests", dict_of (k_tests p))].
Lemma group_ename x o : word x -> group_reads (match o with Some b => [x ++ T " = " ++ show_bool b] | None => [] end) (opt_assign x (ename o)).
Proof.
  intros W. destruct o as [b|]; [|apply group_nil]. apply group_one. intros r r' E. rewrite <- !app_assoc, R_assign by exact W.
  assert (H : R MBetween 0 (XValue x []) (show_bool b ++ r) = R MBetween 0 (XAfter x [] (EName (show_bool b))) r).
  { destruct E as [[-> ->] | ->]; [destruct b; reflexivity|]. unfold R. destruct b; cbn [show_bool].
    - change (tokens MBetween 0 (T "true" ++ NL :: r')) with (oc (KName (T "true")) (oc KLine (tokens MStart 0 r'))).
      change (tokens MBetween 0 (NL :: r')) with (oc KLine (tokens MStart 0 r')). destruct (tokens MStart 0 r'); reflexivity.
    - change (tokens MBetween 0 (T "false" ++ NL :: r')) with (oc (KName (T "false")) (oc KLine (tokens MStart 0 r'))).
      change (tokens MBetween 0 (NL :: r')) with (oc KLine (tokens MStart 0 r')). destruct (tokens MStart 0 r'); reflexivity. }
  rewrite H, (R_end _ _ r r' E). apply oc_app.
Qed.
Definition test_lines (b : text * text) : list text := [T "    " ++ quoted (fst b) ++ T ": {"; T "        # test definition"; T "    },"].
Definition test_entry (b : text * text) : option pexpr * pexpr := (Some (EConst (KStr (fst b))), EDict []).
Lemma R_test x kvs b r : plain (fst b) ->
  R MBetween 1 (XValue x [FDict kvs None]) (concat (map ln (test_lines b)) ++ r) = R MBetween 1 (XValue x [FDict (kvs ++ [test_entry b]) None]) r.
Proof.
  intros P. cbn [test_lines map concat]. unfold ln. rewrite <- !app_assoc, R_indent.
  rewrite (R_quoted MBetween 1 _ x [FDict kvs None] (fst b) _ (or_intror eq_refl) eq_refl P) by reflexivity.
  unfold R. change (T ": {" ++ [NL] ++ T "        # test definition" ++ [NL] ++ T "    }," ++ [NL] ++ [] ++ r) with (T ": {" ++ NL :: T "        # test definition" ++ NL :: T "    }," ++ NL :: r).
  change (tokens MBetween 1 (T ": {" ++ NL :: T "        # test definition" ++ NL :: T "    }," ++ NL :: r)) with (oc KColon (oc KBrace (oc KUnbrace (oc KComma (tokens MBetween 1 r))))).
  destruct (tokens MBetween 1 r); reflexivity.
Qed.
Lemma R_tests x l : (forall b, In b l -> plain (fst b)) -> forall kvs r,
  R MBetween 1 (XValue x [FDict kvs None]) (concat (map ln (concat (map test_lines l))) ++ r) = R MBetween 1 (XValue x [FDict (kvs ++ map test_entry l) None]) r.
Proof.
  intros P kvs r. rewrite concat_concat_ln, map_map. revert kvs. induction l as [|b l IH]; intros kvs; cbn [map]; [rewrite app_nil_r; reflexivity|].
  change (concat (concat (map ln (test_lines b)) :: ?l')) with (concat (map ln (test_lines b)) ++ concat l').
  rewrite <- app_assoc, R_test by (apply P; left; reflexivity). rewrite IH by (intros u Hu; apply P; right; exact Hu). rewrite <- app_assoc. reflexivity.
Qed.
Lemma group_tests l : (forall b, In b l -> plain (fst b)) ->
  group_reads (if is_nil l then [] else [NL :: T "tests = {"] ++ concat (map (fun b => [T "    " ++ quoted (fst b) ++ T ": {"; T "        # test definition"; T "    },"]) l) ++ [T "}"])
    (opt_assign (T "tests") (dict_of l)).
Proof.
  intros P. unfold dict_of. destruct (is_nil l); [apply group_nil|].
  change (map (fun b => [T "    " ++ quoted (fst b) ++ T ": {"; T "        # test definition"; T "    },"]) l) with (map test_lines l).
  right. split; [discriminate|]. rewrite app_assoc, join_ln, map_app, concat_app. intros r r' E. rewrite <- !app_assoc.
  change (concat (map ln [NL :: T "tests = {"]) ++ ?s) with (NL :: T "tests" ++ T " = " ++ "{"%char :: NL :: s). rewrite R_blank, R_assign by wd.
  transitivity (R MBetween 1 (XValue (T "tests") [FDict [] None]) (concat (map ln (concat (map test_lines l))) ++ T "}" ++ r)).
  { unfold R. change (tokens MBetween 0 ("{"%char :: NL :: ?s)) with (oc KBrace (tokens MBetween 1 s)). destruct (tokens MBetween 1 _); reflexivity. }
  rewrite (R_tests (T "tests") l P []).
  transitivity (R MBetween 0 (XAfter (T "tests") [] (EDict (map test_entry l))) r).
  { unfold R. change (tokens MBetween 1 (T "}" ++ r)) with (oc KUnbrace (tokens MBetween 0 r)). destruct (tokens MBetween 0 r); reflexivity. }
  rewrite (R_end _ _ r r' E). apply oc_app.
Qed.
Lemma mt_reads_all p : plain_ten p -> k_commands p = None -> k_pre_commands p = None -> k_post_commands p = None -> (forall b, In b (k_tests p) -> plain (fst b)) ->
  python_reads (to_package_py p) = Some (assigned (map with_expr (mt_lits p)) ++ assigned (mt_tail p)).
Proof.
  intros (P1 & P2 & P3 & P4 & P5 & P6 & P7 & P8 & P9 & P10) E3 E4 E5 E6. unfold to_package_py. rewrite E3, E4, E5.
  cbn [function_lines app]. unfold mt_lits. cbn [map]. rewrite !with_text, !with_list, with_variants. unfold assigned. cbn [map concat fst snd].
  rewrite !app_nil_r, <- !app_assoc.
  refine (group_end _ _ (opt_assign (T "name") (some_text (Some (k_name p)))) _ _ _).
  { apply (block_quoted (T "name") (k_name p)); [wd|exact P1]. }
  apply group_app. { pose proof (group_opt (T "version") (opt_version p)) as H. unfold opt_version in *. destruct (k_version p); (apply H; [wd|exact P2]). }
  apply group_app. { apply (group_escaped (T "description") (k_description p)); [wd|exact P3]. }
  apply group_app. { apply group_wide_escaped; [wd|exact P4]. }
  do 3 (apply group_app; [apply group_tall; [wd|assumption]|]).
  apply group_app; [apply group_tall_variants; assumption|].
  apply group_app; [apply group_wide_plain; [wd|assumption]|].
  apply group_app; [apply (group_opt (T "uuid") (k_uuid p)); [wd|exact P10]|].
  unfold mt_tail. cbn [map concat fst snd]. rewrite app_nil_r.
  apply group_app; [apply (group_ename (T "relocatable")); wd|]. apply group_app; [apply (group_ename (T "cachable")); wd|]. apply group_tests. exact E6.
Qed.
(** the variables after assignments of values *)
Lemma process_lits_vars w l : (forall x a, In (x, a) l -> lit_fits x a) -> forall st, exists st',
  process_loop (process w) st (map (fun b => SAssign [EName (fst b)] (lit_expr (snd b))) l) = Ok st' /\ (forall y, ~ In y (map fst l) -> aget y (s_vars st') = aget y (s_vars st)).
Proof.
  induction l as [|[x a] l IH]; intros H st; [exists st; split; [reflexivity|auto]|].
  cbn [map fst snd process_loop]. destruct (assign_lit w st x a) as [vars E]; [apply H; left; reflexivity|]. rewrite E. cbn [bind].
  assert (Ev : exists v, vars = aput x v (s_vars st)).
  { cbn [process] in E. unfold assign in E. destruct (eval w (s_vars st) (lit_expr a)) as [v| |]; cbn [bind] in E; try discriminate.
    destruct (field_of w (aput x v (s_vars st)) x (lit_expr a)) as [o| |]; cbn [bind] in E; try discriminate. injection E as E _. exists v. symmetry. exact E. }
  destruct (IH (fun y b Hb => H y b (or_intror Hb)) (mkState vars (aput x (lit_field a) (s_data st)))) as (st' & E' & Hy). exists st'. split; [exact E'|].
  intros y Ny. rewrite Hy by (intros Iy; apply Ny; right; exact Iy). destruct Ev as [v ->]. cbn [s_vars]. apply aget_put_other. intros ->. apply Ny. left. reflexivity.
Qed.
Lemma put_entry {V} x (v : V) d b : In b (aput x v d) -> In b d \/ snd b = v.
Proof.
  induction d as [|[k u] d IH]; cbn [aput].
  - intros [<-|[]]. right. reflexivity.
  - destruct (text_eqb x k); intros [<-|I]; [right; reflexivity|left; right; exact I|left; left; reflexivity|]. destruct (IH I) as [J|J]; [left; right; exact J|right; exact J].
Qed.
Lemma dict_tests w vars l : forall d, (forall b, In b d -> snd b = VDict []) ->
  exists d', dict_loop (eval w vars) d (map test_entry l) = Ok (VDict d') /\ (forall b, In b d' -> snd b = VDict []) /\ (d' = [] -> d = [] /\ l = []).
Proof.
  induction l as [|b l IH]; intros d H; [exists d; split; [reflexivity|split; [exact H|auto]]|].
  cbn [map test_entry dict_loop]. cbn [eval eval_const bind dict_loop].
  destruct (IH (aput (fst b) (VDict []) d)) as (d' & E & V & N).
  { intros c I. apply put_entry in I. destruct I as [I|I]; [apply (H _ I)|exact I]. }
  exists d'. split; [exact E|]. split; [exact V|]. intros E0. destruct (N E0) as [N1 _]. exfalso. destruct d as [|[k v] d]; cbn [aput] in N1; [discriminate|destruct (text_eqb (fst b) k); discriminate].
Qed.
Lemma tests_fail w st l : l <> [] -> process w st (SAssign [EName (T "tests")] (EDict (map test_entry l))) = Err.
Proof.
  intros N. cbn [process]. unfold assign. cbn [eval]. destruct (dict_tests w (s_vars st) l [] (fun b I => match I with end)) as (d & E & _). rewrite E. cbn [bind].
  unfold field_of. change (kind_of (T "tests")) with (Some KdTests). unfold xtests. cbn [eval].
  destruct (dict_tests w (aput (T "tests") (VDict d) (s_vars st)) l [] (fun b I => match I with end)) as (d2 & E2 & V2 & N2). rewrite E2.
  destruct d2 as [|b d2]; [exfalso; apply N; apply (N2 eq_refl)|]. cbn [each]. rewrite (V2 b (or_introl eq_refl)). reflexivity.
Qed.
Lemma load_mt_fails w p : k_relocatable p <> None \/ k_cachable p <> None \/ k_tests p <> [] ->
  load w (assigned (map with_expr (mt_lits p)) ++ assigned (mt_tail p)) = Err.
Proof.
  intros H. unfold load. rewrite assigned_lits, loop_app. destruct (process_lits_vars w _ (mt_fits p) (mkState [] [])) as (st & E & V). rewrite E. cbn [bind].
  assert (U : forall b, aget (show_bool b) (s_vars st) = None).
  { intros b. rewrite V; [reflexivity|]. intros I. apply lits_keys in I. cbn [mt_lits map fst] in I. destruct b; repeat (destruct I as [I|I]; [discriminate I|]); destruct I. }
  assert (B : forall x b, process w st (SAssign [EName x] (EName (show_bool b))) = Err).
  { intros x b. cbn [process]. unfold assign. cbn [eval]. rewrite U. reflexivity. }
  unfold assigned, mt_tail. cbn [map concat fst snd].
  destruct (k_relocatable p) as [b|]; [cbn [ename opt_assign assigns app process_loop]; rewrite B; reflexivity|].
  destruct (k_cachable p) as [b|]; [cbn [ename opt_assign assigns app process_loop]; rewrite B; reflexivity|].
  destruct H as [H|[H|H]]; [contradiction|contradiction|]. cbn [ename opt_assign app]. unfold dict_of. destruct (k_tests p) as [|b l]; [contradiction|]. cbn [is_nil opt_assign assigns app process_loop].
  change (map (fun b0 => (Some (EConst (KStr (fst b0))), EDict [])) (b :: l)) with (map test_entry (b :: l)). rewrite tests_fail by discriminate. reflexivity.
Qed.
