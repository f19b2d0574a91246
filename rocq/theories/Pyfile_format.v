(** Proofs about [str.format]: the loader's repeated replacement and Python's single pass agree on templates of numbered fields. *)
From Verif Require Import Base Base_lemmas Text_lemmas Maps Version_model Rex_model Rex_proofs Filter_model Pyfile_model Pyfile_spec.
Open Scope char_scope.

Lemma show_digits i : forallb is_digit (show_N (N.of_nat i)) = true.
Proof. apply (proj1 (proj2 (show_N_spec _))). Qed.
Lemma show_no c i : is_digit c = false -> ~ In c (show_N (N.of_nat i)).
Proof. intros H I. pose proof (show_digits i) as F. rewrite forallb_forall in F. rewrite (F c I) in H. discriminate H. Qed.
Lemma show_first i : exists d r, show_N (N.of_nat i) = d :: r /\ is_digit d = true.
Proof.
  destruct (show_N (N.of_nat i)) as [|d r] eqn:E; [exfalso; exact (proj2 (proj2 (show_N_spec (N.of_nat i))) E)|].
  exists d, r. split; [reflexivity|]. pose proof (show_digits i) as F. rewrite E in F. cbn in F. apply andb_true_iff in F. apply F.
Qed.
Lemma starts_with_head p c r : p <> [] -> hd_error p <> Some c -> starts_with p (c :: r) = false.
Proof. destruct p as [|x p]; [congruence|]. intros _ H. cbn [starts_with]. destruct (Ascii.eqb_spec x c); [subst; cbn in H; congruence|reflexivity]. Qed.

(** ** Hiding the doubled braces *)
Definition open_only (p : piece) : text := match p with POpen => [OPEN] | p => piece_text p end.
Definition hidden (p : piece) : text := match p with POpen => [OPEN] | PClose => [CLOSE] | p => piece_text p end.
Lemma hide_open n ps : pieces_ok n ps -> replace (T "{{") [OPEN] (concat (map piece_text ps)) = concat (map open_only ps).
Proof.
  induction ps as [|p ps IH]; intros H; [reflexivity|]. destruct H as [H0 H]. cbn [map concat]. destruct p as [c| | |i].
  - cbn [piece_text open_only app]. rewrite replace_miss by (apply starts_with_head; [discriminate|cbn; intros [= E]; subst; now apply (proj1 H0)]).
    f_equal. apply IH, H.
  - change (piece_text POpen) with ("{" :: T "{"). cbn [open_only]. change (T "{{") with ("{" :: T "{"). rewrite replace_hit. f_equal. apply IH, H.
  - cbn [open_only]. rewrite (replace_prefix (T "{{") [OPEN] "{" (T "{") eq_refl) by (cbn; intuition discriminate). f_equal. apply IH, H.
  - cbn [open_only piece_text]. destruct (show_first i) as (d & r & Es & Hd).
    rewrite <- !app_comm_cons, <- !app_assoc. rewrite replace_miss.
    + f_equal. rewrite !app_assoc. rewrite (replace_prefix (T "{{") [OPEN] "{" (T "{") eq_refl); [f_equal; apply IH, H|].
      intros I. apply in_app_or in I. destruct I as [I|[I|[]]]; [revert I; apply show_no; reflexivity|discriminate I].
    + rewrite Es. cbn. destruct d as [[] [] [] [] [] [] [] []]; cbn in Hd; try discriminate Hd; reflexivity.
Qed.
Lemma open_only_head n ps c r : pieces_ok n ps -> hd_error ps <> Some PClose -> concat (map open_only ps) = c :: r -> c <> "}".
Proof.
  intros H Hh E. destruct ps as [|p ps]; [discriminate E|]. destruct H as [H0 _]. destruct p as [x| | |i]; cbn in E; injection E as <- _.
  - apply (proj1 (proj2 H0)).
  - discriminate.
  - exfalso. apply Hh. reflexivity.
  - discriminate.
Qed.
Lemma hide_close n ps : pieces_ok n ps -> replace (T "}}") [CLOSE] (concat (map open_only ps)) = concat (map hidden ps).
Proof.
  induction ps as [|p ps IH]; intros H; [reflexivity|]. destruct H as [H0 H]. cbn [map concat]. destruct p as [c| | |i].
  - cbn [piece_text open_only hidden app]. rewrite replace_miss by (apply starts_with_head; [discriminate|cbn; intros [= E]; subst; now apply (proj1 (proj2 H0))]).
    f_equal. apply IH, H.
  - cbn [open_only hidden app]. rewrite replace_miss by (apply starts_with_head; discriminate). f_equal. apply IH, H.
  - change (open_only PClose) with ("}" :: T "}"). cbn [hidden]. change (T "}}") with ("}" :: T "}"). rewrite replace_hit. f_equal. apply IH, H.
  - destruct H0 as [_ Hh]. change (open_only (PField i)) with ("{" :: show_N (N.of_nat i) ++ ["}"]). change (hidden (PField i)) with ("{" :: show_N (N.of_nat i) ++ ["}"]).
    rewrite <- !app_comm_cons, <- !app_assoc. rewrite replace_miss by (apply starts_with_head; discriminate). f_equal.
    rewrite (replace_prefix (T "}}") [CLOSE] "}" (T "}") eq_refl) by (apply show_no; reflexivity). f_equal.
    cbn [app]. rewrite replace_miss; [f_equal; apply IH, H|].
    destruct (concat (map open_only ps)) as [|c r] eqn:E; [reflexivity|]. change (starts_with (T "}}") ("}" :: c :: r)) with (Ascii.eqb "}" c && true). destruct (Ascii.eqb_spec "}" c) as [<-|]; [|reflexivity].
    exfalso. exact (open_only_head n ps "}" r H Hh E eq_refl).
Qed.
Lemma hide_pieces n ps : pieces_ok n ps -> hide_braces (concat (map piece_text ps)) = concat (map hidden ps).
Proof. intros H. unfold hide_braces. rewrite (hide_open n) by exact H. apply (hide_close n), H. Qed.

(** ** Filling the fields *)
Definition item := (text + nat)%type.
Definition item_text (x : item) : text := match x with inl t => t | inr i => field_ref i end.
Definition fill (i : nat) (y : text) (x : item) : item := match x with inr j => if Nat.eqb i j then inl y else x | _ => x end.
Definition quiet (x : item) : Prop := match x with inl t => ~ In "{" t | inr _ => True end.
Lemma field_ref_inj i j r s : field_ref i ++ r = field_ref j ++ s -> i = j.
Proof.
  unfold field_ref. cbn [app]. rewrite <- !app_assoc. intros [= E]. cbn [app] in E.
  assert (K : forall a b x y, ~ In "}" a -> ~ In "}" b -> a ++ "}" :: x = b ++ "}" :: y -> a = b).
  { induction a as [|c a IH]; intros [|d b] x y Ha Hb Q; cbn in Q.
    - reflexivity.
    - injection Q as <- _. exfalso. apply Hb. now left.
    - injection Q as -> _. exfalso. apply Ha. now left.
    - injection Q as <- Q. f_equal. apply (IH b x y); [intros I; apply Ha; now right|intros I; apply Hb; now right|exact Q]. }
  apply K in E; [|apply show_no; reflexivity|apply show_no; reflexivity].
  assert (D : digits_val (show_N (N.of_nat i)) = digits_val (show_N (N.of_nat j))) by (rewrite E; reflexivity).
  rewrite !(proj1 (show_N_spec _)) in D. lia.
Qed.
Lemma fill_items i y items : Forall quiet items ->
  replace (field_ref i) y (concat (map item_text items)) = concat (map item_text (map (fill i y) items)).
Proof.
  intros F. induction F as [|x items Hx F IH]; [reflexivity|]. cbn [map concat]. destruct x as [t|j].
  - cbn [item_text fill]. rewrite (replace_prefix (field_ref i) y "{" (show_N (N.of_nat i) ++ ["}"]) eq_refl) by exact Hx. f_equal. exact IH.
  - cbn [fill]. destruct (Nat.eqb_spec i j) as [<-|N].
    + cbn [item_text]. unfold field_ref at 1 2. rewrite replace_hit. f_equal. exact IH.
    + cbn [item_text]. unfold field_ref at 2 3. rewrite <- !app_comm_cons. rewrite replace_miss.
      * f_equal. rewrite (replace_prefix (field_ref i) y "{" (show_N (N.of_nat i) ++ ["}"]) eq_refl); [f_equal; exact IH|].
        intros I. apply in_app_or in I. destruct I as [I|[I|[]]]; [revert I; apply show_no; reflexivity|discriminate I].
      * change ("{" :: (show_N (N.of_nat j) ++ ["}"]) ++ concat (map item_text items)) with (field_ref j ++ concat (map item_text items)).
        destruct (starts_with (field_ref i) (field_ref j ++ concat (map item_text items))) eqn:E; [|reflexivity].
        apply starts_with_spec in E. destruct E as [r E]. exfalso. apply N. symmetry. apply (field_ref_inj _ _ _ _ E).
Qed.
Fixpoint fill_all (i : nat) (ys : list text) (t : text) : text :=
  match ys with [] => t | y :: ys' => fill_all (S i) ys' (replace (field_ref i) y t) end.
Fixpoint fills (i : nat) (ys : list text) (items : list item) : list item :=
  match ys with [] => items | y :: ys' => fills (S i) ys' (map (fill i y) items) end.
Lemma fill_quiet i y items : ~ In "{" y -> Forall quiet items -> Forall quiet (map (fill i y) items).
Proof.
  intros Hy F. induction F as [|x items Hx F IH]; constructor; [|exact IH]. destruct x as [t|j]; [exact Hx|]. cbn. destruct (Nat.eqb i j); [exact Hy|exact I].
Qed.
Lemma fill_all_items ys : (forall y, In y ys -> ~ In "{" y) -> forall i items, Forall quiet items ->
  fill_all i ys (concat (map item_text items)) = concat (map item_text (fills i ys items)).
Proof.
  induction ys as [|y ys IH]; intros Hy i items F; [reflexivity|]. cbn [fill_all fills]. rewrite fill_items by exact F.
  apply IH; [intros z Hz; apply Hy; now right|]. apply fill_quiet; [apply Hy; now left|exact F].
Qed.
Definition filled (i : nat) (ys : list text) (x : item) : item :=
  match x with inr j => if Nat.ltb j i then x else match nth_error ys (j - i) with Some y => inl y | None => x end | _ => x end.
Lemma fills_map ys : forall i items, fills i ys items = map (filled i ys) items.
Proof.
  induction ys as [|y ys IH]; intros i items; cbn [fills].
  - symmetry. rewrite <- (map_id items) at 2. apply map_ext. intros [t|j]; [reflexivity|]. cbn [filled]. destruct (Nat.ltb j i); [reflexivity|]. now destruct (j - i).
  - rewrite IH, map_map. apply map_ext. intros [t|j]; [reflexivity|]. cbn [fill filled]. destruct (Nat.eqb_spec i j) as [<-|N].
    + rewrite Nat.ltb_irrefl, Nat.sub_diag. reflexivity.
    + destruct (Nat.ltb_spec j i).
      * cbn [filled]. destruct (Nat.ltb_spec j (S i)); [reflexivity|lia].
      * cbn [filled]. destruct (Nat.ltb_spec j (S i)); [lia|]. replace (j - i) with (S (j - S i)) by lia. reflexivity.
Qed.

(** ** Showing the braces again *)
Lemma replace_single x v s : replace [x] v s = flat_map (fun c => if Ascii.eqb c x then v else [c]) s.
Proof.
  induction s as [|c s IH]; [reflexivity|]. cbn [flat_map]. destruct (Ascii.eqb_spec c x) as [->|N].
  - change (x :: s) with ([x] ++ s). rewrite replace_hit. f_equal. exact IH.
  - rewrite replace_miss; [cbn [app]; f_equal; exact IH|]. cbn. destruct (Ascii.eqb_spec x c); [congruence|reflexivity].
Qed.
Lemma flat_concat {A B} (f : A -> list B) l : flat_map f (concat l) = concat (map (flat_map f) l).
Proof. induction l as [|x l IH]; [reflexivity|]. cbn. rewrite flat_map_app, IH. reflexivity. Qed.
Lemma show_braces_concat l : show_braces (concat l) = concat (map show_braces l).
Proof.
  unfold show_braces. rewrite !replace_single, flat_concat, flat_concat, map_map. f_equal. apply map_ext. intros a. rewrite !replace_single. reflexivity.
Qed.
Lemma show_braces_plain s : (forall c, In c s -> (code c < 128)%N) -> show_braces s = s.
Proof.
  intros H. unfold show_braces. rewrite !replace_single.
  assert (K : forall x v, (128 <= code x)%N -> flat_map (fun c => if Ascii.eqb c x then v else [c]) s = s).
  { intros x v Hx. induction s as [|c s IH]; [reflexivity|]. cbn [flat_map]. destruct (Ascii.eqb_spec c x) as [->|_].
    - exfalso. specialize (H x (or_introl eq_refl)). lia.
    - cbn. f_equal. apply IH. intros d Hd. apply H. now right. }
  rewrite !K; [reflexivity|now vm_compute|now vm_compute].
Qed.

(** ** Both ways to format *)
Definition out (ys : list text) (p : piece) : text :=
  match p with PChar c => [c] | POpen => T "{" | PClose => T "}" | PField i => match nth_error ys i with Some y => y | None => [] end end.
Definition piece_item (p : piece) : item := match p with PField i => inr i | p => inl (hidden p) end.
Lemma pieces_field n ps i : pieces_ok n ps -> In (PField i) ps -> i < n.
Proof. induction ps as [|p ps IH]; intros H I; [destruct I|]. destruct H as [H0 H]. destruct I as [->|I]; [apply H0|apply IH; assumption]. Qed.
Lemma pieces_char n ps c : pieces_ok n ps -> In (PChar c) ps -> plain_char c.
Proof. induction ps as [|p ps IH]; intros H I; [destruct I|]. destruct H as [H0 H]. destruct I as [->|I]; [exact H0|apply IH; assumption]. Qed.
Lemma format_model ys ps : pieces_ok (length ys) ps -> (forall y, In y ys -> plain y) ->
  show_braces (fill_all 0 ys (hide_braces (concat (map piece_text ps)))) = concat (map (out ys) ps).
Proof.
  intros H Hy. rewrite (hide_pieces _ _ H).
  replace (concat (map hidden ps)) with (concat (map item_text (map piece_item ps))) by (rewrite map_map; f_equal; apply map_ext; intros []; reflexivity).
  rewrite fill_all_items.
  - rewrite fills_map, map_map, map_map, show_braces_concat, map_map. f_equal. apply map_ext_in. intros p I.
    destruct p as [c| | |i]; cbn [piece_item filled item_text hidden out piece_text].
    + apply show_braces_plain. intros d [<-|[]]. apply (proj2 (proj2 (pieces_char _ _ _ H I))).
    + reflexivity.
    + reflexivity.
    + cbn [Nat.ltb Nat.leb]. rewrite Nat.sub_0_r. destruct (nth_error ys i) as [y|] eqn:E.
      * cbn. apply show_braces_plain. intros c Hc. apply (Hy y (nth_error_In _ _ E) c Hc).
      * exfalso. apply nth_error_None in E. pose proof (pieces_field _ _ _ H I). lia.
  - intros y I J. destruct (Hy y I "{" J) as [K _]. now apply K.
  - apply Forall_forall. intros x I. apply in_map_iff in I. destruct I as (p & <- & I). destruct p as [c| | |i]; cbn; [|now intros [E|[]]|now intros [E|[]]|exact Logic.I].
    intros [E|[]]. destruct (pieces_char _ _ _ H I) as [K _]. now apply K.
Qed.
Lemma py_field ys m ds r : forallb is_digit ds = true -> forall acc,
  py_format ys m (Some acc) (ds ++ "}" :: r) =
  match pick ys m (acc ++ ds) with Some (t, m') => match py_format ys m' None r with Some o => Some (t ++ o) | None => None end | None => None end.
Proof.
  induction ds as [|d ds IH]; intros H acc; [rewrite app_nil_r; reflexivity|]. cbn in H. apply andb_true_iff in H. destruct H as [Hd H].
  cbn [app py_format]. destruct (Ascii.eqb_spec d "}") as [->|_]; [discriminate Hd|]. rewrite IH by exact H. rewrite <- app_assoc. reflexivity.
Qed.
Lemma format_python ys ps : pieces_ok (length ys) ps -> forall m, (forall k, m <> Auto k) ->
  py_format ys m None (concat (map piece_text ps)) = Some (concat (map (out ys) ps)).
Proof.
  induction ps as [|p ps IH]; intros H m Hm; [reflexivity|]. destruct H as [H0 H]. destruct p as [c| | |i]; cbn [map concat piece_text out app].
  - cbn [py_format]. destruct (Ascii.eqb_spec c "{") as [->|_]; [exfalso; now apply (proj1 H0)|].
    destruct (Ascii.eqb_spec c "}") as [->|_]; [exfalso; now apply (proj1 (proj2 H0))|]. rewrite IH by assumption. reflexivity.
  - cbn [T list_ascii_of_string app py_format Ascii.eqb Bool.eqb]. rewrite IH by assumption. reflexivity.
  - cbn [T list_ascii_of_string app py_format Ascii.eqb Bool.eqb]. rewrite IH by assumption. reflexivity.
  - destruct (show_first i) as (d & r & Es & Hd). pose proof (show_digits i) as Hs. pose proof (proj1 (show_N_spec (N.of_nat i))) as Hv.
    rewrite <- app_assoc. cbn [app]. change (py_format ys m None ("{" :: show_N (N.of_nat i) ++ "}" :: concat (map piece_text ps)))
      with (match show_N (N.of_nat i) ++ "}" :: concat (map piece_text ps) with
            | d :: r' => if Ascii.eqb d "{" then match py_format ys m None r' with Some o => Some ("{" :: o) | None => None end
                         else py_format ys m (Some []) (show_N (N.of_nat i) ++ "}" :: concat (map piece_text ps))
            | [] => None end).
    rewrite py_field by exact Hs. rewrite Es at 1. cbn [app]. destruct (Ascii.eqb_spec d "{") as [->|_]; [discriminate Hd|].
    cbn [app].
    assert (P : pick ys m (show_N (N.of_nat i)) = match nth_error ys i with Some t => Some (t, Manual) | None => None end).
    { rewrite Es. unfold pick. rewrite Es in Hs, Hv. destruct m as [|k|]; [|exfalso; exact (Hm k eq_refl)|]; rewrite Hs, Hv, Nnat.Nat2N.id; reflexivity. }
    rewrite P. destruct H0 as [Hi _]. destruct (nth_error ys i) as [t|] eqn:E; [|apply nth_error_None in E; lia].
    rewrite (IH H Manual) by discriminate. reflexivity.
Qed.
Lemma format_agree ys s : template (length ys) s -> (forall y, In y ys -> plain y) ->
  py_format ys Unset None s = Some (show_braces (fill_all 0 ys (hide_braces s))).
Proof.
  intros (ps & -> & H) Hy. rewrite (format_model ys ps H Hy). apply format_python; [exact H|discriminate].
Qed.
