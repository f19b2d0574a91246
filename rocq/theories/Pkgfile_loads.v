(** What the loader of package.py makes of the texts that are written. *)
From Verif Require Import Base Base_lemmas Maps Json Version_model Rex_model Requirement_model Pyfile_model Pyfile_spec Pyfile_proofs Pyfile_files Pkgfile_model Pkgfile_spec Pkgfile_python.
Open Scope string_scope. Open Scope list_scope.

Definition with_expr (b : text * option lit) : text * option pexpr := (fst b, match snd b with Some l => Some (lit_expr l) | None => None end).
Lemma assigned_lits l : assigned (map with_expr l) = map (fun b => SAssign [EName (fst b)] (lit_expr (snd b))) (lits_of l).
Proof.
  unfold assigned. induction l as [|[x [a|]] l IH]; cbn [map concat]; [reflexivity| |]; rewrite IH; reflexivity.
Qed.
Definition lit_text (o : option text) : option lit := match o with Some s => Some (LText s) | None => None end.
Definition lit_list (l : list text) : option lit := if is_nil l then None else Some (LTexts l).
Definition lit_variants (l : list (list text)) : option lit := if is_nil l then None else Some (LVariants l).
Definition lit_bool (o : option bool) : option lit := match o with Some b => Some (LBool b) | None => None end.
Lemma with_text x o : with_expr (x, lit_text o) = (x, some_text o).
Proof. destruct o; reflexivity. Qed.
Lemma with_list x l : with_expr (x, lit_list l) = (x, some_list l).
Proof. destruct l; reflexivity. Qed.
Lemma with_variants x l : with_expr (x, lit_variants l) = (x, some_variants l).
Proof. destruct l; reflexivity. Qed.
(** the fields of the loaded package *)
Section Fields.
Context (l : list (text * option lit)) (N : NoDup (map fst l)).
Lemma lit_text_field x o : aget x l = Some (lit_text o) -> text_field x (lit_data l) = o.
Proof. intros E. unfold text_field, lit_data. rewrite (lits_get l x N), E. destruct o; reflexivity. Qed.
Lemma lit_texts_field x v : aget x l = Some (lit_list v) -> texts_field x (lit_data l) = v.
Proof. intros E. unfold texts_field, lit_data. rewrite (lits_get l x N), E. destruct v; reflexivity. Qed.
Lemma lit_variants_field v : aget (T "variants") l = Some (lit_variants v) -> variants_field (lit_data l) = v.
Proof. intros E. unfold variants_field, lit_data. rewrite (lits_get l _ N), E. destruct v; reflexivity. Qed.
Lemma lit_bool_field x o : aget x l = Some (lit_bool o) -> bool_field x (lit_data l) = o.
Proof. intros E. unfold bool_field, lit_data. rewrite (lits_get l x N), E. destruct o; reflexivity. Qed.
Lemma no_text_field x : aget x l = None -> text_field x (lit_data l) = None.
Proof. intros E. unfold text_field, lit_data. rewrite (lits_get l x N), E. reflexivity. Qed.
Lemma no_texts_field x : aget x l = None -> texts_field x (lit_data l) = [].
Proof. intros E. unfold texts_field, lit_data. rewrite (lits_get l x N), E. reflexivity. Qed.
Lemma no_variants_field : aget (T "variants") l = None -> variants_field (lit_data l) = [].
Proof. intros E. unfold variants_field, lit_data. rewrite (lits_get l _ N), E. reflexivity. Qed.
Lemma no_tests_field : aget (T "tests") l = None -> tests_field (lit_data l) = [].
Proof. intros E. unfold tests_field, lit_data. rewrite (lits_get l _ N), E. reflexivity. Qed.
Lemma no_bool_field x : aget x l = None -> bool_field x (lit_data l) = None.
Proof. intros E. unfold bool_field, lit_data. rewrite (lits_get l x N), E. reflexivity. Qed.
Lemma no_int_field x : aget x l = None -> int_field x (lit_data l) = None.
Proof. intros E. unfold int_field, lit_data. rewrite (lits_get l x N), E. reflexivity. Qed.
End Fields.
Lemma no_empty_iff l : no_empty l = true <-> ~ In [] l.
Proof. exact (nonempty_all l). Qed.
Lemma valid_iff p : valid p = true <-> acceptable p.
Proof.
  unfold valid, acceptable. rewrite !andb_true_iff, !no_empty_iff. rewrite !forallb_forall. setoid_rewrite no_empty_iff.
  rewrite negb_true_iff. split.
  - intros ((((((A & B) & C) & D) & E) & F) & G). split; [destruct (k_name p); [discriminate|discriminate]|].
    split. { intros c Hc. specialize (B c Hc). unfold Pyfile_model.name_char in B. rewrite !orb_true_iff, !Ascii.eqb_eq in B. tauto. }
    split. { intros v Hv. rewrite Hv in C. destruct (v_str v); [discriminate|discriminate]. }
    auto.
  - intros (A & B & C & D & E & F & G). split; [|exact G]. split; [|exact F]. split; [|exact E]. split; [|exact D]. split.
    + split; [destruct (k_name p); [contradiction|reflexivity]|]. intros c Hc. unfold Pyfile_model.name_char. rewrite !orb_true_iff, !Ascii.eqb_eq. specialize (B c Hc). tauto.
    + destruct (k_version p) as [v|]; [|reflexivity]. specialize (C v eq_refl). destruct (v_str v); [contradiction|reflexivity].
Qed.
Lemma build_lits l n v q : NoDup (map fst l) -> aget (T "name") l = Some (lit_text (Some n)) ->
  aget (T "version") l = Some (lit_text (match v with Some v => Some (v_str v) | None => None end)) -> version_ok v ->
  of_python (mkPy n v (lit_data l)) = q -> acceptable q -> build_package (lit_data l) = Ok (mkPy n v (lit_data l)).
Proof.
  intros N En Ev Hv Eq Hq. unfold build_package. rewrite (lit_text_field l N _ _ En), (lit_text_field l N _ _ Ev).
  assert (V : validate (mkPy n v (lit_data l)) = true).
  { apply valid_iff in Hq. rewrite <- Eq in Hq. exact Hq. }
  destruct v as [v|]; [cbn [version_ok] in Hv; rewrite Hv|]; rewrite V; reflexivity.
Qed.

(** ** The text of the serializer *)
Definition saved_lits (p : pkg) : list (text * option lit) :=
  [(T "name", lit_text (Some (k_name p))); (T "version", lit_text (opt_version p)); (T "description", lit_text (k_description p));
   (T "authors", lit_list (k_authors p)); (T "requires", lit_list (k_requires p)); (T "build_requires", lit_list (k_build_requires p));
   (T "variants", lit_variants (k_variants p)); (T "tools", lit_list (k_tools p))].
Lemma saved_exprs p : saved_fields p = map with_expr (saved_lits p).
Proof. unfold saved_fields, saved_lits. cbn [map]. rewrite !with_text, !with_list, with_variants. reflexivity. Qed.
Fixpoint distinct (l : list text) : bool := match l with [] => true | x :: l' => negb (mem_text x l') && distinct l' end.
Lemma distinct_nodup l : distinct l = true -> NoDup l.
Proof.
  induction l as [|x l IH]; cbn [distinct]; intros H; [constructor|]. apply andb_true_iff in H. destruct H as [H1 H2]. constructor; [|exact (IH H2)].
  intros I. apply negb_true_iff in H1. apply Env_proofs.mem_text_in in I. congruence.
Qed.
Ltac lit_fit := match goal with |- forall x a, In (x, a) (lits_of ?l) -> _ => idtac end;
  intros x a H; unfold lits_of in H; cbn [flat_map fst snd] in H; repeat (apply in_app_or in H; destruct H as [H|H]);
  repeat match type of H with
  | In _ (match lit_text ?o with Some _ => _ | None => _ end) => destruct o; cbn in H
  | In _ (match lit_list ?o with Some _ => _ | None => _ end) => destruct o; cbn in H
  | In _ (match lit_variants ?o with Some _ => _ | None => _ end) => destruct o; cbn in H
  | In _ (match lit_bool ?o with Some _ => _ | None => _ end) => destruct o; cbn in H
  end; try contradiction; destruct H as [H|H]; try contradiction; injection H as <- <-; reflexivity.
Ltac lit_look := first [reflexivity | apply distinct_nodup; reflexivity].
Ltac lit_fields N :=
  repeat match goal with
  | |- context [text_field ?x (lit_data ?l)] => first [rewrite (no_text_field l N x eq_refl) | erewrite (lit_text_field l N x) by reflexivity]
  | |- context [texts_field ?x (lit_data ?l)] => first [rewrite (no_texts_field l N x eq_refl) | erewrite (lit_texts_field l N x) by reflexivity]
  | |- context [variants_field (lit_data ?l)] => first [rewrite (no_variants_field l N eq_refl) | erewrite (lit_variants_field l N) by reflexivity]
  | |- context [tests_field (lit_data ?l)] => rewrite (no_tests_field l N eq_refl)
  | |- context [bool_field ?x (lit_data ?l)] => first [rewrite (no_bool_field l N x eq_refl) | erewrite (lit_bool_field l N x) by reflexivity]
  | |- context [int_field ?x (lit_data ?l)] => rewrite (no_int_field l N x eq_refl)
  end.
Lemma saved_nodup p : NoDup (map fst (saved_lits p)).
Proof. apply distinct_nodup. reflexivity. Qed.
Lemma saved_fits p : forall x a, In (x, a) (lits_of (saved_lits p)) -> lit_fits x a.
Proof. unfold saved_lits. lit_fit. Qed.
Lemma saved_package p : of_python (mkPy (k_name p) (k_version p) (lit_data (saved_lits p))) = only_eight p.
Proof. unfold of_python. cbn [y_name y_version y_data]. pose proof (saved_nodup p) as N. lit_fields N. reflexivity. Qed.
Lemma acceptable_eight p : acceptable p -> acceptable (only_eight p).
Proof. intros (A & B & C & D & E & F & G). unfold acceptable. cbn. repeat split; auto. Qed.
Lemma load_saved w p : acceptable p -> version_ok (k_version p) -> bind (load w (assigned (saved_fields p))) (fun q => Ok (of_python q)) = Ok (only_eight p).
Proof.
  intros A V. rewrite saved_exprs, assigned_lits, load_lits by apply saved_fits.
  rewrite (build_lits (saved_lits p) (k_name p) (k_version p) _ (saved_nodup p) eq_refl eq_refl V (saved_package p) (acceptable_eight p A)).
  cbn [bind]. rewrite saved_package. reflexivity.
Qed.
